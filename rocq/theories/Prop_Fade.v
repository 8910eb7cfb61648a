(** * Prop_Fade: property C56 -- what was selected before is forgotten *)
From Coq Require Import ZArith List Bool Reals Lia Lra Arith.
From Flocq Require Import Core IEEE754.BinarySingleNaN.
From Verif Require Import Num Maths CrossFader Wavetable Filters Osc Spec SpecC SpecT NumFacts Laws CFFacts
  WTFacts BuildFacts SimdFacts OscFacts OscStep OscRun OscHist CFHist PTables PHist RNum RLaws B32 B32Facts B32Laws SpecF SpecO SpecW PCross PWork SpecJ.
From Coquelicot Require Import Coquelicot.
From Verif Require Import SpecE SpecX SpecV SpecG SpecH SpecR SpecL ExactMath ExactSig ExactLaws PExact ConvFacts PGain PHarm
  PApx PTerm PPole PCoef PSum PTrack PTrackS PTrackH PCover32 PFade PFade32 Prop_Gain Prop_Harm Prop_Close Prop_Harm32.
Import ListNotations.
Local Open Scope R_scope.

Lemma map_nth_inv {A B} (g : A -> B) l : forall j w, nth_error (List.map g l) j = Some w -> exists e, nth_error l j = Some e /\ g e = w.
Proof.
  induction l as [|x l IH]; intros [|j] w H; try discriminate; cbn in H.
  - exists x. split; [reflexivity|congruence].
  - exact (IH j w H).
Qed.

Lemma asked_same {N : Num} (l l' : list (Op N)) : Forall2 sameButWaveform l l' -> asked l = asked l'.
Proof.
  unfold asked. induction 1 as [|x y l l' H H2 IH]; [reflexivity|]. cbn [List.map]. unfold list_sum in *. cbn [List.fold_right].
  rewrite IH. destruct H as [->|(i & j & -> & ->)]; reflexivity.
Qed.

(** ** C56, exact arithmetic.  Two programs make the same calls, but for the waveforms they
    select; then both select waveform [k] and go on with the same calls.  If no pole's
    exponential exceeds [theta] < 1, the outputs approach each other at least as fast as
    theta^n: the selection made before is forgotten. *)
Theorem C56_selection_forgotten : forall src cfg F ops1 ops2 k rest st1 st2 ys1 ys2 B theta,
  (1 <= batch cfg)%nat -> exactFilter F -> stable F -> 0 <= B ->
  0 <= theta <= 1 -> List.Forall (fun z : C => exp (fst z) <= theta) (f_z F) ->
  Forall2 sameButWaveform ops1 ops2 -> loads src (dbg cfg) (fun y => Rabs y <= B) ops1 ->
  plays src (dbg cfg) F None (ops1 ++ OpSetWaveform RNum k :: rest) st1 ys1 ->
  plays src (dbg cfg) F None (ops2 ++ OpSetWaveform RNum k :: rest) st2 ys2 ->
  outputs RNum (Osc.run RNum src cfg F (osc_new RNum F) (ops1 ++ OpSetWaveform RNum k :: rest)) = Ok ys1 /\
  outputs RNum (Osc.run RNum src cfg F (osc_new RNum F) (ops2 ++ OpSetWaveform RNum k :: rest)) = Ok ys2 /\
  length ys1 = length ys2 /\
  forall n y1 y2, nth_error ys1 (asked ops1 + n) = Some y1 -> nth_error ys2 (asked ops1 + n) = Some y2 ->
    Rabs (y1 - y2) <= 2 * (B * gainBound F) * theta ^ S n.
Proof.
  intros src cfg F ops1 ops2 k rest st1 st2 ys1 ys2 B theta HB HF HS H0 Ht Hth Hsame Hl P1 P2.
  split; [eapply plays_outputs; eassumption|]. split; [eapply plays_outputs; eassumption|].
  assert (O2 := plays_outputs src cfg F _ _ _ HB HF P2).
  destruct (plays_app_inv _ _ _ _ _ _ _ _ P1) as (m1 & a1 & b1 & A1 & B1 & ->).
  destruct (plays_app_inv _ _ _ _ _ _ _ _ P2) as (m2 & a2 & b2 & A2 & B2 & ->).
  destruct (replay src (dbg cfg) F None ops1 m1 a1 A1 ops2 None m2 a2 Hsame A2 None I I) as (t & za & At & Tt & Nt).
  destruct (plays_inv _ _ _ _ _ _ _ _ B1) as (s1 & -> & Hk1 & C1). destruct (plays_inv _ _ _ _ _ _ _ _ B2) as (s2 & -> & Hk2 & C2).
  destruct t as [t|]; [|contradiction]. cbn in Tt, Nt.
  assert (Hl2 : loads src (dbg cfg) (fun y => Rabs y <= B) ops2).
  { intros w p d Hin. apply (Hl w p d).
    assert (E : forall op, In op ops2 -> (forall i, op <> OpSetWaveform RNum i) -> In op ops1).
    { clear - Hsame. induction Hsame as [|x y l l' H H2 IH]; intros op Hin Hn; [contradiction|]. destruct Hin as [<-|Hin].
      - destruct H as [->|(i & j & -> & ->)]; [now left|]. now elim (Hn j).
      - right. now apply IH. }
    destruct Hin as [Hin|Hin]; [left|right]; (apply E; [exact Hin|discriminate]). }
  destruct (plays_within_st src (dbg cfg) F HF B HS None ops1 _ _ H0 A1 I Hl) as [L1 [M1 _]].
  destruct (plays_within_st src (dbg cfg) F HF B HS None ops2 _ _ H0 At I Hl2) as [L2 [M2 _]].
  set (ws := List.map poleBound (combine (f_r F) (f_z F))).
  assert (Lc : length (combine (f_r F) (f_z F)) = length (f_r F)) by (rewrite combine_length, (ef_z F HF); apply Nat.min_id).
  assert (Lw : length ws = length (f_r F)) by (unfold ws; now rewrite map_length).
  assert (Pw : List.Forall (fun w => 0 <= w) ws).
  { apply List.Forall_forall. intros w Hw. unfold ws in Hw. apply in_map_iff in Hw. destruct Hw as (e & <- & He).
    apply In_nth_error in He. destruct He as [j Hj]. apply poleBound_pos. exact (poles_neg F HS j e Hj). }
  assert (Dm : memDiff (2 * B) ws (id_mem s1) (id_mem t)).
  { unfold memWithin in M1, M2. intros j w y z Ew Ey Ez. unfold ws in Ew.
    destruct (map_nth_inv _ _ _ _ Ew) as (e & Ee & <-).
    assert (Q : forall ms v, Forall2 (fun e y => Cmod y <= B * poleBound e) (combine (f_r F) (f_z F)) ms -> nth_error ms j = Some v -> Cmod v <= B * poleBound e).
    { clear - Ee. intros ms v H. revert j Ee. induction H as [|x y l m H H2 IH]; intros [|j] E1 E2; try discriminate; cbn in E1, E2.
      - assert (x = e) by congruence. assert (y = v) by congruence. subst. exact H.
      - exact (IH j E1 E2). }
    assert (Q1 := Q _ _ M1 Ey). assert (Q2 := Q _ _ M2 Ez).
    unfold Cminus. eapply Rle_trans; [apply Cmod_triangle|]. rewrite Cmod_opp. lra. }
  set (pick := fun s => mkIdeal (id_K s) (id_nw s) (id_wfs s) (id_tab s) k (id_phase s) (id_step s) (id_entry s) (id_mem s)).
  assert (Nr : nearTwin F ws (2 * B) (pick s1) (pick t)).
  { constructor; cbn; auto; [|apply L1|apply L2]. destruct Tt. constructor; cbn; assumption. }
  destruct (decayR src (dbg cfg) F HF theta ws Hth Ht Pw Lw (Some (pick s1)) rest _ _ C1 (Some (pick s2)) _ _ C2 (Some (pick t)) (2 * B) ltac:(lra) Nr Nt)
    as (t' & zb & Bt & Fd).
  assert (P2' : plays src (dbg cfg) F None (ops2 ++ OpSetWaveform RNum k :: rest) t' (za ++ zb)).
  { eapply plays_app; [exact At|]. apply pl_select; [|exact Bt]. rewrite <- Nt. exact Hk2. }
  assert (O2' := plays_outputs src cfg F _ _ _ HB HF P2'). assert (Ez : a2 ++ b2 = za ++ zb) by congruence. rewrite Ez. clear Ez O2 O2'.
  assert (La1 : length a1 = asked ops1) by exact (plays_length _ _ _ _ _ _ _ A1).
  assert (Las : asked ops2 = asked ops1).
  { symmetry. now apply asked_same. }
  assert (Lza : length za = asked ops1) by (rewrite <- Las; exact (plays_length _ _ _ _ _ _ _ At)).
  destruct Fd as [Lf Fd]. split; [rewrite !app_length; lia|]. intros n y1 y2 E1 E2.
  rewrite nth_error_app2 in E1, E2 by lia. rewrite La1 in E1. rewrite Lza in E2.
  replace (asked ops1 + n - asked ops1)%nat with n in E1, E2 by lia.
  assert (G : gainBound F = rsum ws) by reflexivity.
  rewrite G. eapply Rle_trans; [exact (Fd n y1 y2 E1 E2)|]. right. ring.
Qed.
Print Assumptions C56_selection_forgotten.

(** no exponential of a pole of a shipped filter exceeds 3/4 *)
Lemma shipped_fades f : List.Forall (fun z : C => exp (fst z) <= 3 / 4) (f_z (filt RNum f)).
Proof.
  assert (H : List.forallb (fun zc : CLit => expBelow 64 (fst (fst zc)) (snd (fst zc)) 3 4) (zLit f) = true) by (destruct f; vm_compute; reflexivity).
  rewrite List.forallb_forall in H. apply List.Forall_forall. intros z Hz. unfold filt in Hz. cbn [f_z] in Hz. unfold zCoeffs in Hz.
  apply in_map_iff in Hz. destruct Hz as (zc & <- & Hin). apply H, expBelow_ok in Hin. exact Hin.
Qed.

(** ... in particular for the shipped filters, with 3/4 *)
Corollary C56_shipped : forall src cfg f ops1 ops2 k rest st1 st2 ys1 ys2 B,
  (1 <= batch cfg)%nat -> 0 <= B ->
  Forall2 sameButWaveform ops1 ops2 -> loads src (dbg cfg) (fun y => Rabs y <= B) ops1 ->
  plays src (dbg cfg) (filt RNum f) None (ops1 ++ OpSetWaveform RNum k :: rest) st1 ys1 ->
  plays src (dbg cfg) (filt RNum f) None (ops2 ++ OpSetWaveform RNum k :: rest) st2 ys2 ->
  forall n y1 y2, nth_error ys1 (asked ops1 + n) = Some y1 -> nth_error ys2 (asked ops1 + n) = Some y2 ->
    Rabs (y1 - y2) <= 2 * (B * gainBound (filt RNum f)) * (3 / 4) ^ S n.
Proof.
  intros src cfg f ops1 ops2 k rest st1 st2 ys1 ys2 B HB H0 Hs Hl P1 P2.
  apply (C56_selection_forgotten src cfg (filt RNum f) ops1 ops2 k rest st1 st2 ys1 ys2 B (3 / 4)); auto;
    [apply shipped_exact|apply shipped_stable|lra|apply shipped_fades].
Qed.
Print Assumptions C56_shipped.

(** ** Single precision: the same, on top of twice the rounding error of C50 *)
Lemma plays32_app_inv lm src dbg f c ops1 ops2 : forall st st2 ys, plays32 lm src dbg f c st (ops1 ++ ops2) st2 ys ->
  exists st1 y1 y2, plays32 lm src dbg f c st ops1 st1 y1 /\ plays32 lm src dbg f c st1 ops2 st2 y2 /\ ys = y1 ++ y2.
Proof.
  induction ops1 as [|op ops1 IH]; intros st st2 ys H.
  - exists st, [], ys. split; [constructor|]. split; [exact H|reflexivity].
  - cbn [app] in H. remember (op :: ops1 ++ ops2) as l eqn:E. destruct H as [st|st op0 rest0 st' ys Hop Hp|st op0 w p d K nw wfs st1 rest0 st' ys Hop HT Ht Hf Hp
                 |st p d st1 rest0 st' ys Hf Hp|st k rest0 st' ys Hk Hp|st sr w' wfs' rest0 st' ys H1 H2 Hu Ht Hp
                 |st dir ps st1 ys rest0 st' zs Hb Hp]; try discriminate; injection E as E1 E2; subst;
      destruct (IH _ _ _ Hp) as (sm & y1 & y2 & A & B & ->).
    + exists sm, y1, y2. split; [|auto]. eapply p32_null; eassumption.
    + exists sm, y1, y2. split; [|auto]. eapply p32_load; eassumption.
    + exists sm, y1, y2. split; [|auto]. eapply p32_reset; eassumption.
    + exists sm, y1, y2. split; [|auto]. eapply p32_select; eassumption.
    + exists sm, y1, y2. split; [|auto]. eapply p32_rate; eassumption.
    + exists sm, (ys ++ y1), y2. split; [eapply p32_process; eassumption|]. split; [exact B|]. apply app_assoc.
Qed.
Lemma asked_len {N : Num} (ops : list (Op N)) : blockLen ops = asked ops.
Proof. unfold asked. induction ops as [|[]]; cbn [blockLen List.map list_sum List.fold_right]; auto. Qed.

Lemma mem_size lm (Hex : expAccurate lm) (Hlog : log2_exact lm) src cfg (HB : (1 <= batch cfg)%nat) f c (Hc : (-64 <= c <= 64)%Z) ops st Ys :
  plays32 lm src (Osc.dbg cfg) f c None ops (Some st) Ys ->
  length (i_mem lm st) = numCoeffs f /\
  forall j w Y, nth_error (List.map snd (poleErr f)) j = Some w -> nth_error (i_mem lm st) j = Some Y -> Cmod Y <= w * bpow radix2 c.
Proof.
  intros H. destruct (plays_near lm Hex Hlog src cfg HB f c Hc None ops (Some st) Ys H (osc_new (B32 lm) (filt (B32 lm) f)) I) as (o & ys & E & Tr & _).
  cbn [tracksO] in Tr. split; [apply (tk_len _ _ _ _ _ _ _ _ Tr)|]. intros j w Y Ew EY.
  destruct (map_nth_inv _ _ _ _ Ew) as (d & Ed & <-).
  destruct (nth_error (o_y o) j) as [y|] eqn:Ey.
  - apply (tk_y _ _ _ _ _ _ _ _ Tr j y Y d Ey EY Ed).
  - exfalso. apply nth_error_None in Ey. assert (A : nth_error (poleErr f) j <> None) by congruence. apply nth_error_Some in A.
    assert (Ly := oo_y _ _ _ _ _ _ _ (tk_ok _ _ _ _ _ _ _ _ Tr)).
    assert (Lp : length (poleErr f) = numCoeffs f) by (destruct f; reflexivity).
    assert (Ln : length (f_r (filt (B32 lm) f)) = numCoeffs f) by (destruct f; reflexivity).
    rewrite Lp, <- Ln in A. assert (Ey2 := Nat.lt_le_trans _ _ _ A (Nat.eq_le_incl _ _ (eq_sym Ly))). exact (Nat.lt_irrefl _ (Nat.lt_le_trans _ _ _ Ey2 Ey)).
Qed.

Theorem C56_selection_forgotten32 : forall lm src cfg f c ops1 ops2 k rest st1 st2 Ys1 Ys2,
  accurateExp lm -> log2_exact lm -> (1 <= batch cfg)%nat -> (-64 <= c <= 64)%Z ->
  Forall2 sameButWaveform ops1 ops2 ->
  plays32 lm src (Osc.dbg cfg) f c None (ops1 ++ OpSetWaveform (B32 lm) k :: rest) st1 Ys1 ->
  plays32 lm src (Osc.dbg cfg) f c None (ops2 ++ OpSetWaveform (B32 lm) k :: rest) st2 Ys2 ->
  exists o1 o2 ys1 ys2,
    Osc.run (B32 lm) src cfg (filt (B32 lm) f) (osc_new (B32 lm) (filt (B32 lm) f)) (ops1 ++ OpSetWaveform (B32 lm) k :: rest) = Ok (o1, ys1) /\
    Osc.run (B32 lm) src cfg (filt (B32 lm) f) (osc_new (B32 lm) (filt (B32 lm) f)) (ops2 ++ OpSetWaveform (B32 lm) k :: rest) = Ok (o2, ys2) /\
    length ys1 = length ys2 /\
    forall n (y1 y2 : f32), nth_error ys1 (asked ops1 + n) = Some y1 -> nth_error ys2 (asked ops1 + n) = Some y2 ->
      finite y1 /\ finite y2 /\
      Rabs (B2R y1 - B2R y2) <= (2 * loudest f * (3 / 4) ^ S n + 2 * accuracy f / IZR (2 ^ 24)) * bpow radix2 c.
Proof.
  intros lm src cfg f c ops1 ops2 k rest st1 st2 Ys1 Ys2 Hex Hlog HB Hc Hsame P1 P2.
  assert (P1' := P1). assert (P2' := P2).
  destruct (plays32_app_inv _ _ _ _ _ _ _ _ _ _ P1) as (m1 & a1 & b1 & A1 & B1 & ->).
  destruct (plays32_app_inv _ _ _ _ _ _ _ _ _ _ P2) as (m2 & a2 & b2 & A2 & B2 & ->).
  destruct (replay3 lm Hlog src (Osc.dbg cfg) f c None ops1 m1 a1 A1 ops2 None m2 a2 Hsame A2 None I I) as (t & za & At & Tt & Nt).
  destruct (plays_inv3 _ _ _ _ _ _ _ _ _ _ B1) as (s1 & -> & Hk1 & C1). destruct (plays_inv3 _ _ _ _ _ _ _ _ _ _ B2) as (s2 & -> & Hk2 & C2).
  destruct t as [t|]; [|contradiction]. cbn in Tt, Nt.
  destruct (mem_size lm (accurate_is lm Hex) Hlog src cfg HB f c Hc ops1 s1 a1 A1) as [L1 M1].
  destruct (mem_size lm (accurate_is lm Hex) Hlog src cfg HB f c Hc ops2 t za At) as [L2 M2].
  set (ws := List.map snd (poleErr f)) in *. assert (SP := bpow_gt_0 radix2 c). set (S0 := bpow radix2 c) in *.
  assert (Lw : length ws = numCoeffs f) by (destruct f; reflexivity).
  assert (Pw : List.Forall (fun w => 0 <= w) ws) by (unfold ws; destruct f; cbn [poleErr List.map snd]; repeat constructor; lra).
  assert (Sw : rsum ws <= loudest f) by (unfold ws, rsum; destruct f; cbn [poleErr List.map snd List.fold_right loudest]; lra).
  assert (Dm : memDiff (2 * S0) ws (i_mem lm s1) (i_mem lm t)).
  { intros j w y z Ew Ey Ez. assert (Q1 := M1 j w y Ew Ey). assert (Q2 := M2 j w z Ew Ez).
    unfold Cminus. eapply Rle_trans; [apply Cmod_triangle|]. rewrite Cmod_opp. lra. }
  set (pick := fun s => mkI32 lm (i_K lm s) (i_nw lm s) (i_wfs lm s) (i_tab lm s) k (i_phase lm s) (i_step lm s) (i_entry lm s) (i_mem lm s)).
  assert (Nr : nearTwin3 lm f ws (2 * S0) (pick s1) (pick t)).
  { constructor; cbn; auto. destruct Tt. constructor; cbn; assumption. }
  destruct (decayR3 lm Hlog src (Osc.dbg cfg) f c (3 / 4) ws (shipped_fades f) ltac:(lra) Pw Lw (Some (pick s1)) rest _ _ C1 (Some (pick s2)) _ _ C2 (Some (pick t)) (2 * S0) ltac:(lra) Nr Nt)
    as (t' & zb & Bt & Fd).
  assert (Pz : plays32 lm src (Osc.dbg cfg) f c None (ops2 ++ OpSetWaveform (B32 lm) k :: rest) t' (za ++ zb)).
  { eapply plays32_app; [exact At|]. apply p32_select; [|exact Bt]. rewrite <- Nt. exact Hk2. }
  destruct (C50_accurate_for_ever lm src cfg f c _ _ _ Hex Hlog HB Hc P1') as (o1 & ys1 & R1 & W1).
  destruct (C50_accurate_for_ever lm src cfg f c _ _ _ Hex Hlog HB Hc Pz) as (o2 & ys2 & R2 & W2).
  exists o1, o2, ys1, ys2. split; [exact R1|]. split; [exact R2|].
  assert (La1 : length a1 = asked ops1) by (rewrite <- asked_len; exact (plays_len _ _ _ _ _ _ _ _ _ A1)).
  assert (Las : asked ops2 = asked ops1).
  { symmetry. now apply asked_same. }
  assert (Lza : length za = asked ops1) by (rewrite <- Las, <- asked_len; exact (plays_len _ _ _ _ _ _ _ _ _ At)).
  destruct Fd as [Lf Fd]. split.
  { refine (eq_trans (f2_length W1) (eq_trans _ (eq_sym (f2_length W2)))). rewrite !app_length. lia. }
  intros n y1 y2 E1 E2.
  destruct (forall2_nth _ _ _ W1 _ _ E1) as (Y1 & H1 & F1 & D1). destruct (forall2_nth _ _ _ W2 _ _ E2) as (Y2 & H2 & F2 & D2).
  rewrite nth_error_app2 in H1, H2 by lia. rewrite La1 in H1. rewrite Lza in H2.
  replace (asked ops1 + n - asked ops1)%nat with n in H1, H2 by lia.
  assert (D := Fd n Y1 Y2 H1 H2). split; [exact F1|]. split; [exact F2|].
  assert (T := pow_le (3 / 4) (S n) ltac:(lra)). set (q := (3 / 4) ^ S n) in *.
  assert (G : 2 * S0 * q * rsum ws <= 2 * S0 * q * loudest f).
  { apply Rmult_le_compat_l; [|exact Sw]. apply Rmult_le_pos; lra. }
  replace (B2R y1 - B2R y2) with ((B2R y1 - Y1) + (Y1 - Y2) + (Y2 - B2R y2)) by ring.
  eapply Rle_trans; [apply Rabs_triang|]. eapply Rle_trans; [apply Rplus_le_compat_r, Rabs_triang|].
  rewrite (Rabs_minus_sym Y2). fold S0 in D1, D2.
  replace ((2 * loudest f * q + 2 * accuracy f / IZR (2 ^ 24)) * S0) with (accuracy f * (S0 / IZR (2 ^ 24)) + 2 * S0 * q * loudest f + accuracy f * (S0 / IZR (2 ^ 24))) by (unfold Rdiv; ring).
  lra.
Qed.
Print Assumptions C56_selection_forgotten32.
