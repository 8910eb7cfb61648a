(** * Prop_Harm32: property C55 -- harmonics and constant waveforms in single precision *)
From Coq Require Import ZArith List Bool Reals Lia Lra Arith.
From Flocq Require Import Core IEEE754.BinarySingleNaN.
From Verif Require Import Num Maths CrossFader Wavetable Filters Osc Spec SpecC SpecT NumFacts Laws CFFacts
  WTFacts BuildFacts SimdFacts OscFacts OscStep OscRun OscHist CFHist PTables PHist RNum RLaws B32 B32Facts B32Laws SpecF SpecO SpecW PCross PWork SpecJ.
From Coquelicot Require Import Coquelicot.
From Verif Require Import SpecE SpecX SpecV SpecG SpecH SpecR ExactMath ExactSig ExactLaws PExact ConvFacts PGain PHarm
  PApx PTerm PPole PSum PTrack PTrackS PTrackH PCover32 PHarm32 Prop_Gain Prop_Harm Prop_Close.
Import ListNotations.
Local Open Scope R_scope.

Lemma plays32_app lm src dbg f c st ops st1 ys1 : plays32 lm src dbg f c st ops st1 ys1 -> forall ops2 st2 ys2,
  plays32 lm src dbg f c st1 ops2 st2 ys2 -> plays32 lm src dbg f c st (ops ++ ops2) st2 (ys1 ++ ys2).
Proof.
  induction 1 as [st|st op rest st' ys Hop Hp IH|st op w p d K nw wfs st1 rest st' ys Hop HT Ht Hf Hp IH
                 |st p d st1 rest st' ys Hf Hp IH|st k rest st' ys Hk Hp IH|st sr w' wfs' rest st' ys Hs Hw Hu Ht Hp IH
                 |st dir ps st1 ys rest st' zs Hb Hp IH]; intros ops2 st2 ys2 H2; cbn [app].
  - exact H2.
  - eapply p32_null; [exact Hop|]. now apply IH.
  - eapply p32_load; [exact Hop|exact HT|exact Ht|exact Hf|]. now apply IH.
  - eapply p32_reset; [exact Hf|]. now apply IH.
  - eapply p32_select; [exact Hk|]. now apply IH.
  - eapply p32_rate; [exact Hs|exact Hw|exact Hu|exact Ht|]. now apply IH.
  - rewrite <- app_assoc. eapply p32_process; [exact Hb|]. now apply IH.
Qed.

Lemma plays32_live lm (Hex : expAccurate lm) (Hlog : log2_exact lm) src cfg (HB : (1 <= batch cfg)%nat) f c (Hc : (-64 <= c <= 64)%Z) ops st Ys :
  plays32 lm src (Osc.dbg cfg) f c None ops (Some st) Ys -> live32 lm src (Osc.dbg cfg) f c st.
Proof.
  intros H. destruct (plays_near lm Hex Hlog src cfg HB f c Hc None ops (Some st) Ys H (osc_new (B32 lm) (filt (B32 lm) f)) I) as (o & ys & E & Tr & _).
  cbn [tracksO] in Tr. assert (Hwf := oo_wf _ _ _ _ _ _ _ (tk_ok _ _ _ _ _ _ _ _ Tr)). rewrite (tk_wf _ _ _ _ _ _ _ _ Tr) in Hwf.
  destruct Tr. constructor; auto. rewrite tk_len. destruct f; reflexivity.
Qed.

Lemma process32_inv lm src dbg f c st dir ps st' ys :
  plays32 lm src dbg f c (Some st) [OpProcess (B32 lm) dir ps] st' ys -> exists st1, block32 lm src dbg f dir st ps st1 ys.
Proof.
  intros Hp. inversion Hp; subst.
  - match goal with H : exists p d, _ |- _ => destruct H as (? & ? & [E|E]); discriminate end.
  - match goal with H : _ \/ _ |- _ => destruct H; discriminate end.
  - match goal with H : plays32 _ _ _ _ _ _ [] _ _ |- _ => inversion H; subst end.
    + exists st1. rewrite app_nil_r. assumption.
Qed.

Lemma forall2_nth {A B} (P : A -> B -> Prop) l m : Forall2 P l m -> forall n a, nth_error l n = Some a ->
  exists b, nth_error m n = Some b /\ P a b.
Proof.
  induction 1 as [|x y l m H H2 IH]; intros [|n] a E; try discriminate; cbn [nth_error] in *.
  - injection E as <-. eauto.
  - now apply IH.
Qed.
Lemma f2_app_inv {A B} (P : A -> B -> Prop) l m1 m2 : Forall2 P l (m1 ++ m2) ->
  exists l1 l2, l = l1 ++ l2 /\ Forall2 P l1 m1 /\ Forall2 P l2 m2.
Proof. intros H. apply Forall2_app_inv_r in H. destruct H as (l1 & l2 & H1 & H2 & ->). eauto. Qed.

(** ** C55.  The single-precision counterpart of C49.  After any history the ideal covers, play
    phases at an even pace of [d] per sample, up to [eta], with steps in the octave [r].  If the
    waveform of entry [r] is within [eps] of a sum of harmonics, the samples returned become,
    after a while, the same harmonics each multiplied by the transfer function of the (exact)
    filter at its own frequency, to within (eps + 2^c eta) times the gain bound, the rounding
    error of C50 and any [delta]. *)
Theorem C55_harmonics32 : forall lm src cfg f c ops st Ys0 dir d eta r hs eps delta,
  accurateExp lm -> log2_exact lm -> (1 <= batch cfg)%nat -> (-64 <= c <= 64)%Z ->
  plays32 lm src (Osc.dbg cfg) f c None ops (Some st) Ys0 ->
  0 <= eta -> Rabs d + 2 * eta < / 2 ->
  (forall x, Rabs (curve lm src st r x - harmonics hs x) <= eps) -> 0 < delta ->
  exists M, forall ps st' Ys,
    plays32 lm src (Osc.dbg cfg) f c (Some st) [OpProcess (B32 lm) dir ps] st' Ys ->
    paced (B2R (i_phase lm st)) d eta ps ->
    List.Forall (stepIn (i_K lm st) r) (steps32 lm dir (i_phase lm st) ps) ->
    exists o ys0 ys, Osc.run (B32 lm) src cfg (filt (B32 lm) f) (osc_new (B32 lm) (filt (B32 lm) f))
        (ops ++ [OpProcess (B32 lm) dir ps]) = Ok (o, ys0 ++ ys) /\
      length ys0 = length Ys0 /\ length ys = length ps /\
      forall n y, (M <= n)%nat -> nth_error ys n = Some y ->
        finite y /\
        Rabs (B2R y - heard (filt RNum f) hs d (B2R (i_phase lm st)) (S n)) <=
          (eps + bpow radix2 c * eta) * gainBound (filt RNum f) + accuracy f * (bpow radix2 c / IZR (2 ^ 24)) + delta.
Proof.
  intros lm src cfg f c ops st Ys0 dir d eta r hs eps0 delta Hex Hlog HB Hc H0 Heta Hd Hw Hdel.
  assert (L := plays32_live lm (accurate_is lm Hex) Hlog src cfg HB f c Hc ops st Ys0 H0).
  set (F := filt RNum f) in *. assert (HF := shipped_exact f : exactFilter F). assert (HS := shipped_stable f : stable F).
  assert (P0 := bpow_gt_0 radix2 c). set (S0 := bpow radix2 c) in *.
  assert (He : 0 <= eps0) by (eapply Rle_trans; [apply Rabs_pos|apply (Hw 0)]).
  set (E := eps0 + S0 * eta).
  assert (HE : 0 <= E) by (apply Rplus_le_le_0_compat; [exact He|apply Rmult_le_pos; lra]).
  assert (Lt := l3_tab _ _ _ _ _ _ L).
  destruct (table32_ok lm Hlog src (Osc.dbg cfg) _ _ _ _ Lt) as (HW & Ct & nf & Hre & Hnf).
  destruct (reach_ok lm Hlog src (Osc.dbg cfg) _ nf _ Hre) as (HK & _ & HSc & En & Hm' & HCf). specialize (HCf Hnf).
  destruct (proj1 (CFok_inv (B32 lm) (wt_cf (i_tab lm st))) HCf) as [Hn1 Hi].
  set (n := cf_num (wt_cf (i_tab lm st))) in *.
  assert (Hl : (0 <= fst (fst (cfState (B32 lm) (wt_cf (i_tab lm st)))) <= n)%Z).
  { unfold cfState in *. cbn [fst]. unfold cfInv in Hi. lia. }
  set (n0 := Z.to_nat (2 * n + 1)).
  assert (Hse := settle_bound n r _ ltac:(lia) Hl).
  set (B := 2 * S0 + loudness hs).
  destruct (list_bound (List.map (fun e => B * poleBound e) (combine (f_r F) (f_z F)) ++ List.map Cmod (i_mem lm st))) as [Cc HCc].
  set (C0 := Rmax 0 Cc).
  assert (HC0 : 0 <= C0) by apply Rmax_l.
  assert (Hpl : forall e, In e (combine (f_r F) (f_z F)) -> fst (snd e) < 0).
  { intros e Hin. apply In_nth_error in Hin. destruct Hin as [j Hj]. exact (poles_neg F HS j e Hj). }
  set (q := B2R (i_phase lm st)) in *.
  assert (L1 := bd_lim (combine (f_r F) (f_z F)) n0 E C0 Hpl).
  assert (L2 := tails_lim F hs d q HS).
  apply is_lim_seq_spec in L1. apply is_lim_seq_spec in L2.
  assert (Hh : 0 < delta / 2) by lra.
  destruct (L1 (mkposreal _ Hh)) as [N1 HN1]. destruct (L2 (mkposreal _ Hh)) as [N2 HN2]. cbn [RIneq.pos] in HN1, HN2.
  exists (max N1 N2). intros ps st' Ys Hp Hpc Hin.
  assert (Hall := plays32_app _ _ _ _ _ _ _ _ _ H0 _ _ _ Hp).
  destruct (C50_accurate_for_ever lm src cfg f c _ st' _ Hex Hlog HB Hc Hall) as (o & ys & Er & Hys).
  destruct (f2_app_inv _ _ _ _ Hys) as (ys0 & ys1 & -> & Hy0 & Hy1).
  destruct (process32_inv _ _ _ _ _ _ _ _ _ _ Hp) as [st1 Hb].
  assert (Hlen : length Ys = length ps).
  { clear - Hb. induction Hb; cbn [length]; congruence. }
  exists o, ys0, ys1. split; [exact Er|]. split; [exact (f2_length Hy0)|].
  split; [exact (eq_trans (f2_length Hy1) Hlen)|].
  intros k y Hk Hy. destruct (forall2_nth _ _ _ Hy1 k y Hy) as (Y & HY & Fy & Dy). split; [exact Fy|].
  assert (R1 : Rabs (Y - audible (toneMem F hs q d (0 + S k))) <=
     rsum (List.map (bd n0 E C0 (0 + S k)) (combine (f_r F) (f_z F)))).
  { refine (track32 lm Hlog src (Osc.dbg cfg) f c hs q d eta eps0 C0 n0 r n Heta He HC0 Hd _ dir st ps st1 Ys Hb 0%nat L Hw _ _ Hin eq_refl _ _ k Y HY).
    - intros j e Hj. apply Rle_trans with Cc; [|apply Rmax_r].
      apply Rle_trans with (Rabs (B * poleBound e)); [apply Rle_abs|]. apply HCc. apply in_or_app. left.
      apply in_map_iff. exists e. split; [reflexivity|]. now apply nth_error_In in Hj.
    - exists 0%Z. cbn [INR]. replace (B2R (i_phase lm st) - (q + d * 0) - 0) with 0 by (unfold q; ring). rewrite Rabs_R0. exact Heta.
    - intros j p Hj. exact (Hpc j p Hj).
    - unfold n0. lia.
    - intros j e y' t' Ej Ey Et. cbn [toneMem] in Et. apply nth_error_In, repeat_spec in Et. subst t'.
      unfold bd. cbn [Nat.sub INR]. rewrite Rmult_0_l, exp_0, Rmult_1_l.
      replace (y' - RtoC 0)%C with y' by (apply injective_projections; cbn; ring).
      assert (P := poleBound_pos e (poles_neg F HS j e Ej)).
      assert (Q : 0 <= E * poleBound e) by (apply Rmult_le_pos; assumption).
      assert (W : Cmod y' <= Cc).
      { apply Rle_trans with (Rabs (Cmod y')); [apply Rle_abs|]. apply HCc. apply in_or_app. right. apply in_map.
        now apply nth_error_In in Ey. }
      assert (V : Cc <= C0) by apply Rmax_r. change (eps0 + bpow radix2 c * eta) with E. lra. }
  rewrite Nat.add_0_l in R1. rewrite toneMem_heard in R1 by assumption.
  specialize (HN1 (S k) ltac:(lia)). specialize (HN2 (S k) ltac:(lia)).
  fold E. rewrite <- gain_sum in HN1. rewrite Rminus_0_r in HN1, HN2.
  change (eps0 + bpow radix2 c * eta) with E in R1. fold F in R1. fold S0 in Dy.
  set (S1 := rsum (List.map (bd n0 E C0 (S k)) (combine (f_r F) (f_z F)))) in *. set (T1 := tails F hs d q (S k)) in *. set (H1 := heard F hs d q (S k)) in *.
  apply Rabs_def2 in HN1. apply Rabs_def2 in HN2. apply Rabs_le_between in R1. apply Rabs_le_between in Dy. apply Rabs_le_between. lra.
Qed.
Print Assumptions C55_harmonics32.

(** a table just built, loaded and played forward at an even pace within one octave *)
Theorem C55_built_tone : forall lm src cfg f c wfs nw K w sr fade n (p d32 : f32) r d eta hs eps delta,
  accurateExp lm -> log2_exact lm -> (1 <= batch cfg)%nat -> (-64 <= c <= 64)%Z ->
  wellFormed (B32 lm) wfs nw K -> rate32 lm sr -> tcast (B32 lm) (tmul (B32 lm) fade sr) = Ok n -> (1 <= n)%Z ->
  wt_build (B32 lm) src (Osc.dbg cfg) wfs nw sr fade = Ok (Some w) -> tameAll lm src c wfs nw K ->
  plainPhase p -> finite d32 -> 0 < B2R d32 -> entryFor K (B2R d32) r ->
  0 <= eta -> Rabs d + 2 * eta < / 2 ->
  (forall x, Rabs (wave (List.map (@B2R 24 128) (mipmap (B32 lm) src (waveform (B32 lm) wfs (2 ^ K) 0) r)) x - harmonics hs x) <= eps) ->
  0 < delta ->
  exists M, forall ps, List.Forall plainPhase ps ->
    List.Forall (stepIn K r) (steps32 lm kForward p ps) -> paced (B2R p) d eta ps ->
    exists o ys, Osc.run (B32 lm) src cfg (filt (B32 lm) f) (osc_new (B32 lm) (filt (B32 lm) f))
        [OpInit (B32 lm) (Some w) p d32; OpProcess (B32 lm) kForward ps] = Ok (o, ys) /\
      length ys = length ps /\
      forall i y, (M <= i)%nat -> nth_error ys i = Some y ->
        finite y /\
        Rabs (B2R y - heard (filt RNum f) hs d (B2R p) (S i)) <=
          (eps + bpow radix2 c * eta) * gainBound (filt RNum f) + accuracy f * (bpow radix2 c / IZR (2 ^ 24)) + delta.
Proof.
  intros lm src cfg f c wfs nw K w sr fade n p d32 r d eta hs eps0 delta Hex Hlog HB Hc HW Hs Hn Hn1 Hb Ht Hpp Fd Hd Hr Heta Hdd Hw Hdel.
  destruct (built_fresh32 lm Hlog src cfg HB f wfs nw K w sr fade n p d32 r HW Hs Hn Hn1 Hb Hpp Fd Hd Hr)
    as (HT & w' & m & g0 & Fr & HT' & En & Hg & Hcs & Hm).
  set (st0 := mkI32 lm K nw wfs w' 0 p d32 m (repeat (RtoC 0) (numCoeffs f))) in *.
  assert (H0 : plays32 lm src (Osc.dbg cfg) f c None [OpInit (B32 lm) (Some w) p d32] (Some st0) []).
  { eapply p32_load; [left; reflexivity|exact HT|exact Ht|exact Fr|]. constructor. }
  destruct (C55_harmonics32 lm src cfg f c _ st0 [] kForward d eta r hs eps0 delta Hex Hlog HB Hc H0 Heta Hdd Hw Hdel) as [M HM].
  exists M. intros ps Hp Hin Hpc.
  destruct (calm_forward32 lm Hlog src cfg HB f n ps st0 g0 r (repeat r (length ps))) as (st' & ys & Bk); auto.
  - lia.
  - clear. generalize (length ps) as k. intros k. revert g0. induction k as [|k IH]; intros g; cbn [repeat calm]; auto.
  - cbn [i_K i_phase st0]. replace (length ps) with (length (steps32 lm kForward p ps)).
    + clear - Hin. revert Hin. generalize (steps32 lm kForward p ps) as l. induction 1; cbn [length repeat]; constructor; assumption.
    + clear. revert p. induction ps as [|a ps IH]; intros p; cbn [steps32 length]; auto.
  - destruct (HM ps (Some st') (ys ++ []) ltac:(eapply p32_process; [exact Bk|constructor]) Hpc Hin) as (o & ys0 & ys1 & Er & L0 & L1 & Hy).
    destruct ys0; [|discriminate]. exists o, ys1. auto.
Qed.
Print Assumptions C55_built_tone.

(** ** C55, constant waveforms: when every entry of every waveform of the table loaded is the
    constant [v], the n-th sample after the load is v * dcResponse n, whatever phases,
    directions, fades and selections follow, to within the rounding error of C50 and 2^-23 of
    |v| times the gain bound (the two gains of a cross-fade add up to 1 only after rounding). *)
Lemma gains_near (g gu : f32) : convex32 g gu -> Rabs (v32 g + v32 gu - 1) <= / IZR (2 ^ 23).
Proof.
  intros H. assert (U := gains_sum g gu H). destruct H as (F1 & F2 & H1 & H2 & F3 & E).
  change (B2R g) with (v32 g) in *. change (B2R gu) with (v32 gu) in *.
  destruct (add32 g gu F1 F2) as [_ V]; [apply small32_1; lra|].
  assert (E' : rnd32 (v32 g + v32 gu) = 1) by (rewrite <- V; exact E).
  assert (R := rnd_err (v32 g + v32 gu)). rewrite E' in R. rewrite (Rabs_pos_eq (_ + _)) in R by lra.
  apply Rabs_le_inv in R. assert (T1 := tau_small). unfold eps in *.
  change (IZR (2 ^ 23)) with 8388608. apply Rabs_le. lra.
Qed.

Lemma In_const (v : R) (l : list R) n : (forall y, In y l -> y = v) -> (n < length l)%nat -> nth n l 0 = v.
Proof. intros H Hn. apply H. now apply nth_In. Qed.

Section DC.
Variable lm : Libm.
Hypothesis Hlog : log2_exact lm.
Variable src : Resampler (B32 lm).
Variable dbg : bool.
Variable f : FilterType.
Variable c : Z.
Variable v : R.
Notation N := (B32 lm).
Notation F := (filt RNum f).

Definition allFlat (st : Ideal32 lm) : Prop := forall i k y, (0 <= i < i_nw lm st)%Z -> (0 <= k <= i_K lm st - 2)%Z ->
  In y (entry32 lm src (i_wfs lm st) (i_K lm st) i k) -> B2R y = v.
Definition nearDc (n : nat) (mem : list C) : Prop :=
  forall j e y t, nth_error (combine (f_r F) (f_z F)) j = Some e -> nth_error mem j = Some y ->
    nth_error (dcMem F v n) j = Some t -> Cmod (y - t)%C <= Rabs v / IZR (2 ^ 23) * poleBound e.

Lemma dc_sample dir st p st1 y n : live32 lm src dbg f c st -> allFlat st -> nearDc n (i_mem lm st) ->
  sample32 lm src dbg f dir st p st1 y -> allFlat st1 /\ nearDc (S n) (i_mem lm st1) /\ y = audible (i_mem lm st1).
Proof.
  intros L Hf Hn Hs.
  destruct Hs as [s d k w' m g mu gu mem Hp Es Hnz Hlt Hd Hd2 Hfd Htr Hmem]. subst s.
  split; [exact Hf|]. cbn [i_mem]. split; [|reflexivity].
  destruct (sample_gains lm Hlog src dbg f c dir st p L Hnz w' m g mu gu Hfd) as (Gc & Gm & Gu).
  assert (Cv : forall k0 X, (0 <= k0 <= i_K lm st - 2)%Z -> curve lm src st k0 X = v).
  { intros k0 X Hk. unfold curve. apply wave_flat; [apply (entry_len32 lm Hlog src dbg f c st k0 L Hk)|].
    intros y Hy. apply in_map_iff in Hy. destruct Hy as (y0 & <- & Hy0). exact (Hf _ _ _ (l3_wf _ _ _ _ _ _ L) Hk Hy0). }
  set (x := fun u : R => B2R g * curve lm src st m (B2R (i_phase lm st) + d * u) + B2R gu * curve lm src st mu (B2R (i_phase lm st) + d * u)) in *.
  assert (Ex : forall u, x u = (B2R g + B2R gu) * v).
  { intros u. unfold x. rewrite (Cv m) by exact Gm. destruct Gu as [Hmu|E0].
    - rewrite (Cv mu) by exact Hmu. ring.
    - rewrite E0. ring. }
  assert (G := gains_near g gu Gc). change (v32 g) with (B2R g) in G. change (v32 gu) with (B2R gu) in G.
  assert (HS := shipped_stable f : stable F). assert (HF := shipped_exact f : exactFilter F).
  assert (Ed : allPoles F (fun _ => v) (dcMem F v n) = dcMem F v (S n)) by (apply allPoles_dc; auto).
  intros j [a z] y t Ej Ey Et. rewrite <- Ed in Et.
  assert (Lj : (j < length (f_r F))%nat).
  { assert (A : nth_error (combine (f_r F) (f_z F)) j <> None) by congruence.
    apply nth_error_Some in A. rewrite combine_length in A. lia. }
  destruct (nth_error (i_mem lm st) j) as [y0|] eqn:Ey0.
  2:{ exfalso. apply nth_error_None in Ey0. rewrite (l3_mem _ _ _ _ _ _ L) in Ey0. exact (Nat.lt_irrefl _ (Nat.lt_le_trans _ _ _ Lj Ey0)). }
  destruct (nth_error (dcMem F v n) j) as [t0|] eqn:Et0.
  2:{ exfalso. apply nth_error_None in Et0. unfold dcMem in Et0. rewrite map_length in Et0.
      assert (A : nth_error (combine (f_r F) (f_z F)) j <> None) by congruence. apply nth_error_Some in A. exact (Nat.lt_irrefl _ (Nat.lt_le_trans _ _ _ A Et0)). }
  rewrite Hmem in Ey. rewrite (allPoles_nth F x (i_mem lm st) j a z y0 Ej Ey0) in Ey.
  rewrite (allPoles_nth F _ _ j a z t0 Ej Et0) in Et. injection Ey as <-. injection Et as <-.
  assert (Hz := poles_neg F HS _ _ Ej). cbn [snd] in Hz.
  assert (Hc := Hn j (a, z) y0 t0 Ej Ey0 Et0).
  set (B := Rabs v / IZR (2 ^ 23)) in *.
  assert (D := onePole_diff a z x (fun _ => v) y0 t0 B Hz).
  eapply Rle_trans; [apply D|].
  - intros u. apply (continuous_ext (fun _ => (B2R g + B2R gu) * v)); [intros; symmetry; apply Ex|apply continuous_const].
  - intros u. apply continuous_const.
  - intros u _. rewrite Ex. replace ((B2R g + B2R gu) * v - v) with ((B2R g + B2R gu - 1) * v) by ring.
    rewrite Rabs_mult. unfold B, Rdiv. rewrite Rmult_comm. apply Rmult_le_compat_l; [apply Rabs_pos|exact G].
  - assert (E0 := exp_pos (fst z)).
    apply Rle_trans with (exp (fst z) * (B * poleBound (a, z)) + (1 - exp (fst z)) * (B * poleBound (a, z))).
    + apply Rplus_le_compat_r, Rmult_le_compat_l; [lra|exact Hc].
    + right. ring.
Qed.

Lemma dc_block dir st ps st' ys : block32 lm src dbg f dir st ps st' ys -> forall n,
  live32 lm src dbg f c st -> allFlat st -> nearDc n (i_mem lm st) ->
  live32 lm src dbg f c st' /\ allFlat st' /\ nearDc (n + length ys) (i_mem lm st') /\
  forall i y, nth_error ys i = Some y -> Rabs (y - v * dcResponse F (n + S i)) <= Rabs v / IZR (2 ^ 23) * gainBound F.
Proof.
  induction 1 as [st|st p st1 y ps st2 ys Hs Hb IH]; intros n L Hf Hn.
  - cbn [length]. rewrite Nat.add_0_r. split; [exact L|]. split; [exact Hf|]. split; [exact Hn|]. intros [|i] y; discriminate.
  - destruct (dc_sample _ _ _ _ _ n L Hf Hn Hs) as (F1 & N1 & Y1).
    assert (L1 := sample_live32 lm src dbg f c dir st p st1 y L Hs).
    destruct (IH (S n) L1 F1 N1) as (L2 & F2 & N2 & Y2).
    split; [exact L2|]. split; [exact F2|]. cbn [length]. split; [replace (n + S (length ys))%nat with (S n + length ys)%nat by lia; exact N2|].
    intros [|i] y0 Hy; cbn [nth_error] in Hy.
    + injection Hy as <-. rewrite Nat.add_1_r, Y1.
      rewrite <- audible_dc. rewrite gain_sum.
      replace (Rabs v / IZR (2 ^ 23) * rsum (List.map poleBound (combine (f_r F) (f_z F)))) with
        (rsum (List.map (fun e => Rabs v / IZR (2 ^ 23) * poleBound e) (combine (f_r F) (f_z F)))).
      * apply sum_diff; [|unfold dcMem; now rewrite map_length|exact N1].
        rewrite (l3_mem _ _ _ _ _ _ L1), combine_length, (ef_z F (shipped_exact f)). lia.
      * induction (combine (f_r F) (f_z F)) as [|e es IHe]; cbn [List.map rsum fold_right]; [ring|].
        unfold rsum in IHe. rewrite IHe. ring.
    + replace (n + S (S i))%nat with (S n + S i)%nat by lia. now apply Y2.
Qed.

Lemma dc_plays st ops st' ys : plays32 lm src dbg f c st ops st' ys -> forall s n, st = Some s ->
  live32 lm src dbg f c s -> allFlat s -> nearDc n (i_mem lm s) -> List.Forall onlyPlays ops ->
  forall i y, nth_error ys i = Some y -> Rabs (y - v * dcResponse F (n + S i)) <= Rabs v / IZR (2 ^ 23) * gainBound F.
Proof.
  induction 1 as [st|st op rest st' ys Hop Hp IH|st op w p d K nw wfs st1 rest st' ys Hop HT Ht Hf Hp IH
                 |st p d st1 rest st' ys Hf Hp IH|st k rest st' ys Hk Hp IH|st sr w' wfs' rest st' ys Hs Hw Hu Ht Hp IH
                 |st dir ps st1 ys rest st' zs Hb Hp IH]; intros s n Es L W M HK.
  - intros [|i] y; discriminate.
  - inversion_clear HK as [|? ? H ?]. destruct Hop as (p & d & [-> | ->]); destruct H.
  - inversion_clear HK as [|? ? H ?]. destruct Hop as [-> | ->]; destruct H.
  - inversion_clear HK as [|? ? H ?]. destruct H.
  - injection Es as <-. inversion_clear HK. refine (IH _ n eq_refl _ W M _); [|assumption].
    destruct L. constructor; auto.
  - inversion_clear HK as [|? ? H ?]. destruct H.
  - injection Es as <-. inversion_clear HK as [|? ? _ HK'].
    destruct (dc_block _ _ _ _ _ Hb n L W M) as (L1 & W1 & M1 & Y1).
    intros i y Hy. destruct (Nat.lt_ge_cases i (length ys)) as [Hi|Hi].
    + rewrite nth_error_app1 in Hy by assumption. now apply Y1.
    + rewrite nth_error_app2 in Hy by assumption.
      assert (A := IH st1 (n + length ys)%nat eq_refl L1 W1 M1 HK' _ _ Hy).
      replace (n + length ys + S (i - length ys))%nat with (n + S i)%nat in A by lia. exact A.
Qed.
End DC.

Theorem C55_constant32 : forall lm src cfg f c wfs nw K w sr fade n (p d : f32) st0 ops st Ys v,
  accurateExp lm -> log2_exact lm -> (1 <= batch cfg)%nat -> (-64 <= c <= 64)%Z ->
  wellFormed (B32 lm) wfs nw K -> rate32 lm sr -> tcast (B32 lm) (tmul (B32 lm) fade sr) = Ok n -> (1 <= n)%Z ->
  wt_build (B32 lm) src (Osc.dbg cfg) wfs nw sr fade = Ok (Some w) ->
  (forall i k (y : f32), (0 <= i < nw)%Z -> (0 <= k <= K - 2)%Z ->
     In y (mipmap (B32 lm) src (waveform (B32 lm) wfs (2 ^ K) i) k) -> finite y /\ B2R y = v) -> Rabs v <= bpow radix2 c ->
  fresh32 lm (Osc.dbg cfg) f K nw wfs w 0 p d st0 -> List.Forall onlyPlays ops ->
  plays32 lm src (Osc.dbg cfg) f c (Some st0) ops st Ys ->
  exists o ys, Osc.run (B32 lm) src cfg (filt (B32 lm) f) (osc_new (B32 lm) (filt (B32 lm) f))
      (OpInit (B32 lm) (Some w) p d :: ops) = Ok (o, ys) /\ length ys = length Ys /\
    forall i y, nth_error ys i = Some y ->
      finite y /\ Rabs (B2R y - v * dcResponse (filt RNum f) (S i)) <=
        Rabs v / IZR (2 ^ 23) * gainBound (filt RNum f) + accuracy f * (bpow radix2 c / IZR (2 ^ 24)).
Proof.
  intros lm src cfg f c wfs nw K w sr fade n p d st0 ops st Ys v Hex Hlog HB Hc HW Hs Hn Hn1 Hb Hv Hvc Hf Hk Hp.
  assert (HT : table32 lm src (Osc.dbg cfg) K nw wfs w) by (eapply t32_build; eassumption).
  assert (Hnw : (0 <= 0 < nw)%Z) by (destruct HW as (_ & H & _); lia).
  destruct (table32_ok lm Hlog src (Osc.dbg cfg) _ _ _ _ HT) as (_ & Ct & _).
  assert (Ht : tameAll lm src c wfs nw K).
  { intros i k Hi Hk'. split.
    - intros y Hy. destruct (Hv i k y Hi Hk' Hy) as [A B]. split; [exact A|]. rewrite B. exact Hvc.
    - destruct (slot_of (B32 lm) src _ _ _ _ i k Ct Hi Hk') as (sl & _ & _ & Ls & _).
      assert (Lp : (0 < @zlen (T (B32 lm)) (entry32 lm src wfs K i k))%Z) by (unfold entry32; rewrite Ls; apply Z.pow_pos_nonneg; lia).
      intros j. 
      assert (Cy : forall j, cyc (List.map (@B2R 24 128) (entry32 lm src wfs K i k)) j = v).
      { intros j'. unfold cyc, elem. set (l := entry32 lm src wfs K i k) in *. unfold zlen. rewrite map_length.
        assert (M := Z.mod_pos_bound j' (Z.of_nat (@length f32 l)) Lp). apply (In_const v).
        - intros y Hy. apply in_map_iff in Hy. destruct Hy as (y0 & <- & Hy0). now apply (Hv i k y0 Hi Hk').
        - rewrite map_length. clear - M. set (len := @length f32 l) in *. change (Z.to_nat (j' mod Z.of_nat len) < len)%nat. lia. }
      rewrite !Cy. rewrite Rminus_diag_eq, Rabs_R0, Rmult_0_l by reflexivity. left. apply bpow_gt_0. }
  assert (Hall : plays32 lm src (Osc.dbg cfg) f c None (OpInit (B32 lm) (Some w) p d :: ops) st Ys).
  { eapply p32_load; [left; reflexivity|exact HT|exact Ht|exact Hf|exact Hp]. }
  assert (H0 : plays32 lm src (Osc.dbg cfg) f c None [OpInit (B32 lm) (Some w) p d] (Some st0) []).
  { eapply p32_load; [left; reflexivity|exact HT|exact Ht|exact Hf|constructor]. }
  assert (L := plays32_live lm (accurate_is lm Hex) Hlog src cfg HB f c Hc _ st0 _ H0).
  destruct (C50_accurate_for_ever lm src cfg f c _ st _ Hex Hlog HB Hc Hall) as (o & ys & Er & Hys).
  exists o, ys. split; [exact Er|]. split; [exact (f2_length Hys)|].
  intros i y Hy. destruct (forall2_nth _ _ _ Hys i y Hy) as (Y & HY & Fy & Dy). split; [exact Fy|].
  assert (A := dc_plays lm Hlog src (Osc.dbg cfg) f c v (Some st0) ops st Ys Hp st0 0%nat eq_refl L).
  assert (B : Rabs (Y - v * dcResponse (filt RNum f) (0 + S i)) <= Rabs v / IZR (2 ^ 23) * gainBound (filt RNum f)).
  { apply A; auto.
    - destruct Hf. intros i' k' y' Hi' Hk' Hy'. cbn [i_nw i_K i_wfs] in *. now apply (Hv i' k').
    - destruct Hf. cbn [i_mem]. intros j e y' t Ej Ey Et.
      rewrite dcMem_0 in Et by (apply shipped_exact). 
      apply nth_error_In, repeat_spec in Ey. apply nth_error_In, repeat_spec in Et. subst y' t.
      replace (RtoC 0 - RtoC 0)%C with (RtoC 0) by ring. rewrite Cmod_0.
      apply Rmult_le_pos; [apply Rmult_le_pos; [apply Rabs_pos|left; apply Rinv_0_lt_compat, IZR_lt; reflexivity]|].
      exact (poleBound_pos e (poles_neg (filt RNum f) (shipped_stable f) j e Ej)). }
  rewrite Nat.add_0_l in B.
  replace (B2R y - v * dcResponse (filt RNum f) (S i)) with ((B2R y - Y) + (Y - v * dcResponse (filt RNum f) (S i))) by ring.
  eapply Rle_trans; [apply Rabs_triang|]. change (B2R y) with (v32 y) in *. lra.
Qed.
Print Assumptions C55_constant32.
