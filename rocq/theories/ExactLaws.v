(** * ExactLaws: consequences of exactness *)
From Coq Require Import ZArith List Bool Reals Lia Lra Arith.
From Flocq Require Import Core.
From Verif Require Import Num Maths CrossFader Wavetable Filters Osc Spec SpecC SpecT NumFacts Laws CFFacts
  WTFacts BuildFacts SimdFacts OscFacts OscStep OscRun OscHist CFHist PTables PHist RNum RLaws.
From Coquelicot Require Import Coquelicot.
From Verif Require Import SpecE SpecX ExactMath ExactStep ExactRun ExactHist ExactCover ExactSig.
Import ListNotations.
Local Open Scope R_scope.

Section Laws.
Variable src : Resampler RNum.
Variable dbg : bool.
Variable F : Filt RNum.
Hypothesis HF : exactFilter F.

(** what a request returns *)
Lemma find_gains wfs nw K w d w' m g mu gu :
  wellFormed RNum wfs nw K -> table src dbg wfs nw w -> 0 < d ->
  wt_findMipMapIndices RNum dbg w d = Ok (w', (m, g, mu, gu)) ->
  (0 <= m <= K - 2)%Z /\ 0 <= g /\ 0 <= gu /\ g + gu = 1 /\ (gu <> 0 -> (0 <= mu <= K - 2)%Z) /\
  table src dbg wfs nw w'.
Proof.
  intros HW HT Hd E. assert (HT' := t_ask src dbg wfs nw w d w' _ HT Hd E).
  destruct (table_ok src dbg _ _ _ _ HW HT) as (_ & W & CF).
  destruct (wtNext_ok RNum (mkCfg dbg 1) K nw w d W CF) as (E1 & _ & _ & _ & _ & M1 & M2 & M3).
  { intros _. unfold t0. cbn [tlt tofZ RNum]. now apply Rlt_bool_true. }
  change (Osc.dbg (mkCfg dbg 1)) with dbg in E1. rewrite E1, mmiOf_eta in E.
  assert (Em : m = miOf RNum w d) by congruence. assert (Eg : g = gOf RNum w d) by congruence.
  assert (Emu : mu = muOf RNum w d) by congruence. assert (Egu : gu = guOf RNum w d) by congruence.
  rewrite <- Em, <- Emu, <- Egu in *.
  split; [lia|].
  assert (Hr := req_range RNum (wt_cf w) d CF).
  destruct (proj1 (CFok_inv RNum (wt_cf w)) CF) as [Hn Hi].
  assert (Hs := cfStep_inv (cf_num (wt_cf w)) _ (cfState RNum (wt_cf w)) (req RNum (wt_cf w) d) ltac:(lia) Hr Hi).
  assert (G : 0 <= g /\ 0 <= gu /\ g + gu = 1).
  { rewrite Eg, Egu. unfold guOf, gOf, mmiOf. rewrite cfOut_S.
    set (r := req RNum (wt_cf w) d) in *. set (n := cf_num (wt_cf w)) in *.
    destruct (cfState RNum (wt_cf w)) as [[l p] y]. unfold outS.
    destruct ((l =? 0) && (r =? y))%Z.
    - cbn. unfold t0, t1. cbn [tofZ RNum]. lra.
    - destruct (cfStep n (l, p, y) r) as [[l1 p1] y1]. unfold fadeT, cfInv in *.
      assert (Hn0 : 0 < IZR n) by (apply IZR_lt; lia).
      assert (Hl : 0 <= IZR l1 <= IZR n) by (split; apply IZR_le; lia).
      assert (Hq : 0 <= IZR l1 / IZR n <= 1).
      { split; [apply Rmult_le_pos; [lra|left; now apply Rinv_0_lt_compat]|].
        apply Rmult_le_reg_r with (IZR n); [assumption|]. unfold Rdiv. rewrite Rmult_assoc, Rinv_l; lra. }
      destruct (p1 <? y1)%Z; cbn [fst snd]; unfold t1; cbn [tsub tdiv tofZ RNum]; lra. }
  destruct G as (G1 & G2 & G3). repeat (split; [assumption|]). split; [|assumption].
  intros H. destruct M3 as [M3|M3]; [lia|]. now elim H.
Qed.

(** ** Invariants of ideal oscillators *)
Record live (st : Ideal) : Prop := {
  lv_well : wellFormed RNum (id_wfs st) (id_nw st) (id_K st);
  lv_tab : table src dbg (id_wfs st) (id_nw st) (id_tab st);
  lv_wf : (0 <= id_wf st < id_nw st)%Z;
  lv_mem : length (id_mem st) = length (f_r F);
  lv_phase : 0 <= id_phase st < 1
}.

Lemma length_allP x ys : length ys = length (f_r F) -> length (allPoles F x ys) = length (f_r F).
Proof.
  intros H. unfold allPoles. rewrite map_length, !combine_length, H, (ef_z F HF). lia.
Qed.

Lemma sample_live dir st p st' y : live st -> sample src dbg F dir st p st' y -> live st'.
Proof.
  intros L S. destruct S as [d w' m g mu gu mem Hsh Hd Hd0 Hdr Hf Htr Hmem].
  destruct L. destruct (find_gains _ _ _ _ _ _ _ _ _ _ lv_well0 lv_tab0 (Rabs_pos_lt d Hd0) Hf) as (_ & _ & _ & _ & _ & HT).
  constructor; cbn; auto; [|apply Hsh]. rewrite Hmem. now apply length_allP.
Qed.
Lemma block_live dir st ps st' ys : block src dbg F dir st ps st' ys -> live st -> live st'.
Proof. induction 1 as [|st p st1 y ps st2 ys Hs Hb IH]; intros L; [assumption|]. apply IH. eapply sample_live; eassumption. Qed.

Lemma fresh_live K nw wfs w wf p d st : wellFormed RNum wfs nw K -> table src dbg wfs nw w -> (0 <= wf < nw)%Z ->
  fresh dbg F K nw wfs w wf p d st -> live st.
Proof.
  intros HW HT Hwf S. destruct S as [w' m g mu gu Hsh Hd0 Hf].
  destruct (find_gains _ _ _ _ _ _ _ _ _ _ HW HT (Rabs_pos_lt d Hd0) Hf) as (_ & _ & _ & _ & _ & HT').
  constructor; cbn; auto; [apply repeat_length|apply Hsh].
Qed.
Lemma live_select st k : live st -> (0 <= k < id_nw st)%Z -> live (mkIdeal (id_K st) (id_nw st) (id_wfs st) (id_tab st) k
  (id_phase st) (id_step st) (id_entry st) (id_mem st)).
Proof. intros [] H. constructor; cbn; auto. Qed.
Lemma live_rate st sr w' : live st -> 200 <= sr -> sr < IZR int_max ->
  wt_updateSamplerate RNum src dbg (id_tab st) sr (5 / 1000) = Ok w' ->
  live (mkIdeal (id_K st) (id_nw st) (id_wfs st) w' (id_wf st) (id_phase st) (id_step st) (id_entry st) (id_mem st)).
Proof.
  intros [] H1 H2 Hu. constructor; cbn; auto. eapply t_resample; [eassumption| | |eassumption]; lra.
Qed.

Definition liveO (st : option Ideal) : Prop := match st with Some st => live st | None => True end.

Lemma entry_len st k : live st -> (0 <= k <= id_K st - 2)%Z -> (0 < zlen (entry src st k))%Z.
Proof.
  intros [] Hk. destruct (table_ok src dbg _ _ _ _ lv_well0 lv_tab0) as (Ct & W & _).
  destruct (slot_of RNum src _ _ _ _ (id_wf st) k Ct ltac:(lia) Hk) as (s & Es & S & Ls & _).
  fold (entry src st k) in Ls. change ((0 < zlen (entry src st k))%Z) with ((0 < @zlen (T RNum) (entry src st k))%Z).
  refine (eq_ind_r (fun v => (0 < v)%Z) _ Ls). apply Laws.pow2_pos. destruct lv_well0. lia.
Qed.

(** a table determines its samples *)
Lemma list_ext_at (l m : list (T RNum)) : zlen l = zlen m ->
  (forall j, (0 <= j < zlen l)%Z -> at_ (N := RNum) l j = at_ (N := RNum) m j) -> l = m.
Proof.
  intros E H. apply list_ext_znth; [assumption|]. intros j Hj.
  rewrite (znth_at RNum l j Hj), (znth_at RNum m j) by lia. now rewrite (H j Hj).
Qed.
Lemma table_unique wfs nw K wfs' nw' K' w i k :
  wellFormed RNum wfs nw K -> table src dbg wfs nw w -> wellFormed RNum wfs' nw' K' -> table src dbg wfs' nw' w ->
  (0 <= i < nw)%Z -> (0 <= k <= K - 2)%Z ->
  K = K' /\ nw = nw' /\
  mipmap RNum src (waveform RNum wfs (2 ^ K) i) k = mipmap RNum src (waveform RNum wfs' (2 ^ K') i) k.
Proof.
  intros HW HT HW' HT' Hi Hk.
  destruct (table_ok src dbg _ _ _ _ HW HT) as (Ct & _). destruct (table_ok src dbg _ _ _ _ HW' HT') as (Ct' & _).
  assert (EK : K = K') by (assert (A := ct_phn _ _ _ _ _ _ Ct); assert (A' := ct_phn _ _ _ _ _ _ Ct'); lia).
  assert (En : nw = nw') by (assert (A := ct_nw _ _ _ _ _ _ Ct); assert (A' := ct_nw _ _ _ _ _ _ Ct'); lia).
  split; [assumption|]. split; [assumption|]. rewrite <- EK, <- En in *. clear EK En.
  destruct (slot_of RNum src _ _ _ _ i k Ct ltac:(lia) Hk) as (s & Es & S & Ls & _).
  destruct (slot_of RNum src _ _ _ _ i k Ct' ltac:(lia) Hk) as (s' & Es' & S' & Ls' & _).
  rewrite Es in Es'. injection Es' as <-.
  set (ys := mipmap RNum src (waveform RNum wfs (2 ^ K) i) k) in *.
  set (zs := mipmap RNum src (waveform RNum wfs' (2 ^ K) i) k) in *.
  assert (Hp := Laws.pow2_pos (K - k) ltac:(destruct HW; lia)).
  apply list_ext_at; [exact (eq_trans Ls (eq_sym Ls'))|]. intros j Hj.
  destruct (segment_R ys s j) as [E1 _]; [rewrite Ls; lia|assumption|assumption|].
  destruct (segment_R zs s j) as [E2 _]; [rewrite Ls'; lia|assumption|rewrite Ls'; lia|].
  rewrite Ls in E1. rewrite Ls' in E2. exact (eq_trans (eq_sym E1) E2).
Qed.
Lemma samplesOf_all P w wfs nw K : samplesOf src dbg P w -> wellFormed RNum wfs nw K -> table src dbg wfs nw w ->
  forall i k y, (0 <= i < nw)%Z -> (0 <= k <= K - 2)%Z ->
      In y (mipmap RNum src (waveform RNum wfs (2 ^ K) i) k) -> P y.
Proof.
  intros (wfs' & nw' & K' & HW' & HT' & H) HW HT i k y Hi Hk Hy.
  destruct (table_unique _ _ _ _ _ _ w i k HW HT HW' HT' Hi Hk) as (EK & En & E).
  apply (H i k y); [lia|lia|]. rewrite <- E. exact Hy.
Qed.

(** ** Boundedness *)
Section Bounded.
Variable B : R.
Hypothesis Hst : stable F.

Definition poleBound (e : C * C) : R := 2 * Cmod (fst e) / Rabs (fst (snd e)).
Definition memWithin (mem : list C) : Prop :=
  Forall2 (fun e y => Cmod y <= B * poleBound e) (combine (f_r F) (f_z F)) mem.
Definition within (st : Ideal) : Prop :=
  memWithin (id_mem st) /\
  forall i k y, (0 <= i < id_nw st)%Z -> (0 <= k <= id_K st - 2)%Z ->
    In y (mipmap RNum src (waveform RNum (id_wfs st) (2 ^ id_K st) i) k) -> Rabs y <= B.

Lemma mixed_bound st q d m g mu gu u : live st -> within st -> (0 <= m <= id_K st - 2)%Z ->
  0 <= g -> 0 <= gu -> g + gu = 1 -> (gu <> 0 -> (0 <= mu <= id_K st - 2)%Z) ->
  Rabs (mixed src st q d (m, g, mu, gu) u) <= B.
Proof.
  intros L [_ W] Hm Hg Hgu Hs Hmu. unfold mixed.
  assert (A : forall k, (0 <= k <= id_K st - 2)%Z -> Rabs (wave (entry src st k) (q + d * u)) <= B).
  { intros k Hk. apply wave_bound; [now apply entry_len|]. intros y Hy. apply (W (id_wf st) k y); auto. apply L. }
  assert (A1 := A m Hm). destruct (Req_dec gu 0) as [E|E].
  - rewrite E. replace g with 1 by lra. replace (1 * _ + 0 * _) with (wave (entry src st m) (q + d * u)) by ring. exact A1.
  - assert (A2 := A mu (Hmu E)). apply Rabs_le_between in A1. apply Rabs_le_between in A2. apply Rabs_le_between.
    set (x := wave _ _) in *. set (y := wave (entry src st mu) _) in *.
    replace B with ((g + gu) * B) by (rewrite Hs; ring). split; nra.
Qed.

Lemma cmod_cexp z : Cmod (cexp z) = exp (fst z).
Proof.
  unfold Cmod, cexp. cbn [fst snd].
  replace ((exp (fst z) * cos (snd z)) ^ 2 + (exp (fst z) * sin (snd z)) ^ 2) with (Rsqr (exp (fst z))).
  - apply sqrt_Rsqr. left. apply exp_pos.
  - assert (T := sin2_cos2 (snd z)). unfold Rsqr in *.
    transitivity (exp (fst z) * exp (fst z) * (sin (snd z) * sin (snd z) + cos (snd z) * cos (snd z))); [rewrite T|]; ring.
Qed.

Lemma onePole_bound r z x y : fst z < 0 -> (forall u, continuous x u) -> (forall u, 0 <= u <= 1 -> Rabs (x u) <= B) ->
  Cmod y <= B * poleBound (r, z) -> Cmod (onePole r z x y) <= B * poleBound (r, z).
Proof.
  intros Hz Hc Hx Hy. unfold onePole. eapply Rle_trans; [apply Cmod_triangle|].
  rewrite !Cmod_mult, cmod_cexp. assert (Hr := response_bound z x B Hz Hc Hx).
  assert (H2 : Cmod 2 = 2) by (rewrite Cmod_R; apply Rabs_pos_eq; lra). rewrite H2.
  unfold poleBound in *. cbn [fst snd] in *. rewrite Rabs_left in * by assumption.
  set (a := - fst z) in *. assert (Ha : 0 < a) by (unfold a; lra).
  replace (fst z) with (- a) by (unfold a; ring).
  unfold decay in Hr. set (e := exp (- a)) in *. assert (He : 0 < e) by apply exp_pos.
  assert (He1 : e < 1) by (unfold e; rewrite <- exp_0; apply exp_increasing; lra).
  assert (Hc0 := Cmod_ge_0 r).
  apply Rle_trans with (e * (B * (2 * Cmod r / a)) + 2 * Cmod r * ((1 - e) / a * B)).
  - apply Rplus_le_compat; [apply Rmult_le_compat_l; [lra|assumption]|].
    apply Rmult_le_compat_l; [nra|assumption].
  - right. field. lra.
Qed.

Lemma sum_bound (mem : list C) : memWithin mem -> Rabs (audible mem) <= B * gainBound F.
Proof.
  unfold memWithin, audible, gainBound. intros H.
  induction H as [|e y es ys Hy _ IH]; cbn [List.map fold_right].
  - rewrite Rabs_R0. lra.
  - eapply Rle_trans; [apply Rabs_triang|]. rewrite Rmult_plus_distr_l. apply Rplus_le_compat; [|exact IH].
    apply Rle_trans with (Cmod y); [|exact Hy]. unfold Cmod. rewrite <- sqrt_Rsqr_abs. apply sqrt_le_1_alt.
    unfold Rsqr. assert (T := pow2_ge_0 (snd y)). nra.
Qed.

Lemma allPoles_within x mem : (forall u, continuous x u) -> (forall u, 0 <= u <= 1 -> Rabs (x u) <= B) ->
  memWithin mem -> memWithin (allPoles F x mem).
Proof.
  intros Hc Hx H. unfold memWithin, allPoles in *.
  assert (Hz : forall e, In e (combine (f_r F) (f_z F)) -> fst (snd e) < 0).
  { intros [r z] Hin. apply in_combine_r in Hin. unfold stable in Hst. rewrite List.Forall_forall in Hst. now apply Hst. }
  revert Hz H. generalize (combine (f_r F) (f_z F)) as es. intros es Hz H.
  induction H as [|e y es ys Hy _ IH]; cbn [combine List.map]; constructor.
  - cbn [fst snd]. destruct e as [r z]. apply onePole_bound; auto. apply (Hz (r, z)). now left.
  - apply IH. intros e' He'. apply Hz. now right.
Qed.

Lemma sample_within dir st p st' y : live st -> within st -> sample src dbg F dir st p st' y ->
  within st' /\ Rabs y <= B * gainBound F.
Proof.
  intros L W S. destruct S as [d w' m g mu gu mem Hsh Hd Hd0 Hdr Hf Htr Hmem].
  destruct (find_gains _ _ _ _ _ _ _ _ _ _ (lv_well _ L) (lv_tab _ L) (Rabs_pos_lt d Hd0) Hf) as (G1 & G2 & G3 & G4 & G5 & _).
  assert (M : memWithin mem).
  { rewrite Hmem. apply allPoles_within; [intros; apply mixed_cont| |apply W]. intros u _. now apply mixed_bound. }
  split; [split; [exact M|exact (proj2 W)]|]. now apply sum_bound.
Qed.
Lemma block_within dir st ps st' ys : block src dbg F dir st ps st' ys -> live st -> within st ->
  within st' /\ List.Forall (fun y => Rabs y <= B * gainBound F) ys.
Proof.
  induction 1 as [|st p st1 y ps st2 ys Hs Hb IH]; intros L W; [auto|].
  destruct (sample_within _ _ _ _ _ L W Hs) as [W1 Y1].
  destruct (IH (sample_live _ _ _ _ _ L Hs) W1) as [W2 Y2]. auto.
Qed.

Lemma zero_within : 0 <= B -> memWithin (repeat (RtoC 0) (length (f_r F))).
Proof.
  intros HB. unfold memWithin. assert (E := ef_z F HF). revert E. generalize (f_z F) as zs.
  induction (f_r F) as [|r rs IH]; intros [|z zs] E; cbn in *; try discriminate; constructor; auto.
  rewrite Cmod_0. unfold poleBound. cbn [fst snd]. apply Rmult_le_pos; [assumption|].
  apply Rmult_le_pos; [assert (T := Cmod_ge_0 r); lra|].
  destruct z as [z1 z2]. cbn [fst]. destruct (Req_dec z1 0) as [Hz|Hz].
  - rewrite Hz, Rabs_R0. rewrite Rinv_0. lra.
  - left. apply Rinv_0_lt_compat. now apply Rabs_pos_lt.
Qed.

Lemma fresh_within K nw wfs w wf p d st : 0 <= B -> fresh dbg F K nw wfs w wf p d st ->
  (forall i k y, (0 <= i < nw)%Z -> (0 <= k <= K - 2)%Z ->
    In y (mipmap RNum src (waveform RNum wfs (2 ^ K) i) k) -> Rabs y <= B) -> within st.
Proof.
  intros HB S H. destruct S as [w' m g mu gu Hsh Hd0 Hf]. split; [now apply zero_within|exact H].
Qed.

Definition withinO (st : option Ideal) : Prop := match st with Some st => live st /\ within st | None => True end.

Lemma plays_within st ops st' ys : 0 <= B -> plays src dbg F st ops st' ys -> withinO st -> loads src dbg (fun y => Rabs y <= B) ops ->
  List.Forall (fun y => Rabs y <= B * gainBound F) ys.
Proof.
  intros HB. induction 1 as [st|st op rest st' ys Hop Hp IH|st op w p d K nw wfs st1 rest st' ys Hop HW HT Hf Hp IH
                 |st p d st1 rest st' ys Hf Hp IH|st k rest st' ys Hk Hp IH|st sr w' rest st' ys H1 H2 Hu Hp IH
                 |st dir ps st1 ys rest st' zs Hb Hp IH]; intros W HL.
  all: try assert (HL' : loads src dbg (fun y => Rabs y <= B) rest) by (intros w9 p9 d9 Hin; apply (HL w9 p9 d9); destruct Hin; [left|right]; now right).
  - constructor.
  - apply IH; assumption.
  - apply IH; [|assumption]. cbn [withinO]. split.
    + eapply fresh_live; try eassumption. destruct HW as (_ & H & _). lia.
    + eapply fresh_within; try eassumption. 
      apply (samplesOf_all _ w wfs nw K); auto. apply (HL w p d). destruct Hop as [-> | ->]; [left|right]; now left.
  - destruct W as [L W]. apply IH; [|assumption]. split.
    + eapply fresh_live; try eassumption; apply L.
    + eapply fresh_within; try eassumption. apply W.
  - destruct W as [L W]. apply IH; [|assumption]. split; [now apply live_select|exact W].
  - destruct W as [L W]. apply IH; [|assumption]. split; [eapply live_rate; eassumption|exact W].
  - destruct W as [L W]. destruct (block_within _ _ _ _ _ Hb L W) as [W1 Y1].
    apply List.Forall_app. split; [assumption|]. apply IH; [|assumption]. split; [eapply block_live; eassumption|assumption].
Qed.
End Bounded.

(** ** Constant waveforms *)
Section Constant.
Variable c : R.

Definition flat (st : Ideal) : Prop :=
  forall i k y, (0 <= i < id_nw st)%Z -> (0 <= k <= id_K st - 2)%Z ->
    In y (mipmap RNum src (waveform RNum (id_wfs st) (2 ^ id_K st) i) k) -> y = c.
Definition dcMem (n : nat) : list C :=
  List.map (fun e : C * C => (RtoC c * stepResponse (fst e) (snd e) n)%C) (combine (f_r F) (f_z F)).

Lemma wave_flat ys t : (0 < zlen ys)%Z -> (forall y, In y ys -> y = c) -> wave ys t = c.
Proof. intros H Hc. unfold wave. rewrite !(Hc _ (cyc_In ys _ H)). ring. Qed.

Lemma mixed_flat st q d m g mu gu u : live st -> flat st -> (0 <= m <= id_K st - 2)%Z ->
  g + gu = 1 -> (gu <> 0 -> (0 <= mu <= id_K st - 2)%Z) ->
  mixed src st q d (m, g, mu, gu) u = c.
Proof.
  intros L W Hm Hs Hmu. unfold mixed.
  assert (A : forall k, (0 <= k <= id_K st - 2)%Z -> wave (entry src st k) (q + d * u) = c).
  { intros k Hk. apply wave_flat; [now apply entry_len|]. intros y Hy. apply (W (id_wf st) k y); auto. apply L. }
  rewrite (A m Hm). destruct (Req_dec gu 0) as [E|E].
  - rewrite E. replace g with 1 by lra. ring.
  - rewrite (A mu (Hmu E)). replace g with (1 - gu) by lra. ring.
Qed.

Lemma cexp_S n z : cexp (RtoC (INR (S n)) * z)%C = (cexp z * cexp (RtoC (INR n) * z))%C.
Proof.
  rewrite S_INR. destruct z as [z1 z2].
  replace (RtoC (INR n + 1) * (z1, z2))%C with ((z1 + INR n * z1, z2 + INR n * z2) : C) by (cx; ring).
  replace (RtoC (INR n) * (z1, z2))%C with ((INR n * z1, INR n * z2) : C) by (cx; ring).
  unfold cexp. cbn [fst snd]. rewrite exp_plus, cos_plus, sin_plus. cx; ring.
Qed.

Lemma onePole_dc r z n : z <> RtoC 0 ->
  onePole r z (fun _ => c) (RtoC c * stepResponse r z n)%C = (RtoC c * stepResponse r z (S n))%C.
Proof.
  intros Hz. unfold onePole, stepResponse. rewrite cexp_S, response_const by assumption.
  generalize (cexp z) (cexp (RtoC (INR n) * z)%C). intros e1 e2. field. exact Hz.
Qed.

Lemma allPoles_dc x n : (forall u, 0 <= u <= 1 -> x u = c) -> allPoles F x (dcMem n) = dcMem (S n).
Proof.
  intros Hx. unfold allPoles, dcMem.
  assert (Hz : forall e, In e (combine (f_r F) (f_z F)) -> snd e <> RtoC 0).
  { intros [r z] Hin. apply in_combine_r in Hin. assert (T := ef_nz F HF). rewrite List.Forall_forall in T. now apply T. }
  revert Hz. generalize (combine (f_r F) (f_z F)) as es.
  induction es as [|[r z] es IH]; intros Hz; [reflexivity|]. cbn [List.map combine fst snd]. f_equal.
  - rewrite <- onePole_dc by (apply (Hz (r, z)); now left). unfold onePole.
    now rewrite (response_ext z x (fun _ => c)).
  - apply IH. intros e He. apply Hz. now right.
Qed.

Lemma audible_dc n : audible (dcMem n) = c * dcResponse F n.
Proof.
  unfold audible, dcMem, dcResponse. induction (combine (f_r F) (f_z F)) as [|e es IH]; cbn [List.map fold_right].
  - ring.
  - rewrite IH. rewrite Rmult_plus_distr_l. f_equal. cbn [Cmult RtoC fst snd].
    destruct (stepResponse (fst e) (snd e) n). cbn. ring.
Qed.

Lemma sample_dc n dir st p st' y : live st -> flat st -> id_mem st = dcMem n -> sample src dbg F dir st p st' y ->
  flat st' /\ id_mem st' = dcMem (S n) /\ y = c * dcResponse F (S n).
Proof.
  intros L W M S. destruct S as [d w' m g mu gu mem Hsh Hd Hd0 Hdr Hf Htr Hmem].
  destruct (find_gains _ _ _ _ _ _ _ _ _ _ (lv_well _ L) (lv_tab _ L) (Rabs_pos_lt d Hd0) Hf) as (G1 & G2 & G3 & G4 & G5 & _).
  assert (E : mem = dcMem (S n)).
  { rewrite Hmem, M. apply allPoles_dc. intros u _. now apply mixed_flat. }
  split; [exact W|]. split; [exact E|]. rewrite E. apply audible_dc.
Qed.

Lemma block_dc dir st ps st' ys : block src dbg F dir st ps st' ys -> forall n, live st -> flat st -> id_mem st = dcMem n ->
  flat st' /\ id_mem st' = dcMem (n + length ys) /\
  forall i y, nth_error ys i = Some y -> y = c * dcResponse F (n + S i).
Proof.
  induction 1 as [|st p st1 y ps st2 ys Hs Hb IH]; intros n L W M.
  - cbn [length]. rewrite Nat.add_0_r. split; [assumption|]. split; [assumption|]. intros [|i] y; discriminate.
  - destruct (sample_dc n _ _ _ _ _ L W M Hs) as (W1 & M1 & Y1).
    destruct (IH (S n) (sample_live _ _ _ _ _ L Hs) W1 M1) as (W2 & M2 & Y2).
    split; [assumption|]. cbn [length]. split; [rewrite M2; f_equal; lia|].
    intros [|i] y0 Hy; cbn [nth_error] in Hy.
    + injection Hy as <-. rewrite Y1. do 2 f_equal. lia.
    + rewrite (Y2 i y0 Hy). do 2 f_equal. lia.
Qed.

Lemma plays_dc st ops st' ys : plays src dbg F (Some st) ops st' ys -> forall n, live st -> flat st -> id_mem st = dcMem n ->
  List.Forall keepsPlaying ops ->
  forall i y, nth_error ys i = Some y -> y = c * dcResponse F (n + S i).
Proof.
  intros H. remember (Some st) as so eqn:Eso. revert st Eso.
  induction H as [so|so op rest st' ys Hop Hp IH|so op w p d K nw wfs st1 rest st' ys Hop HW HT Hf Hp IH
                 |st0 p d st1 rest st' ys Hf Hp IH|st0 k rest st' ys Hk Hp IH|st0 sr w' rest st' ys H1 H2 Hu Hp IH
                 |st0 dir ps st1 ys rest st' zs Hb Hp IH]; intros st Eso n L W M HK.
  - intros [|i] y; discriminate.
  - inversion_clear HK. eapply IH; eassumption.
  - inversion_clear HK as [|? ? H ?]. destruct Hop as [-> | ->]; destruct H.
  - inversion_clear HK as [|? ? H ?]. destruct H.
  - injection Eso as <-. inversion_clear HK. refine (IH _ eq_refl n _ W M _); [now apply live_select|assumption].
  - injection Eso as <-. inversion_clear HK. refine (IH _ eq_refl n _ W M _); [eapply live_rate; eassumption|assumption].
  - injection Eso as <-. inversion_clear HK as [|? ? _ HK'].
    destruct (block_dc _ _ _ _ _ Hb n L W M) as (W1 & M1 & Y1).
    intros i y Hy. destruct (Nat.lt_ge_cases i (length ys)) as [Hi|Hi].
    + rewrite nth_error_app1 in Hy by assumption. now apply Y1.
    + rewrite nth_error_app2 in Hy by assumption.
      rewrite (IH st1 eq_refl (n + length ys)%nat (block_live _ _ _ _ _ Hb L) W1 M1 HK' _ _ Hy). do 2 f_equal. lia.
Qed.

Lemma stepResponse_0 (r z : C) : z <> RtoC 0 -> (RtoC c * stepResponse r z 0)%C = RtoC 0.
Proof.
  intros Hz. unfold stepResponse.
  assert (E : cexp (RtoC (INR 0) * z)%C = RtoC 1).
  { destruct z as [z1 z2]. change (INR 0) with 0.
    replace (RtoC 0 * (z1, z2))%C with (RtoC 0) by (cx; ring). unfold cexp. cbn [RtoC fst snd].
    rewrite exp_0, cos_0, sin_0. cx; ring. }
  rewrite E. field. exact Hz.
Qed.
Lemma dcMem_0 : dcMem 0 = repeat (RtoC 0) (length (f_r F)).
Proof.
  unfold dcMem. assert (E := ef_z F HF). assert (Hz := ef_nz F HF). revert E Hz. generalize (f_z F) as zs.
  induction (f_r F) as [|r rs IH]; intros [|z zs] E Hz; try discriminate; [reflexivity|].
  inversion_clear Hz. cbn [combine List.map length repeat fst snd]. f_equal; [now apply stepResponse_0|].
  apply IH; [|assumption]. now injection E.
Qed.
End Constant.
End Laws.
