(** * ExactClick: samples after moves that lose the position *)
From Coq Require Import ZArith List Bool Reals Lia Lra Arith Psatz.
From Flocq Require Import Core.
From Verif Require Import Num Maths CrossFader Wavetable Filters Osc Spec SpecC SpecT NumFacts Laws CFFacts
  WTFacts BuildFacts SimdFacts OscFacts OscStep OscRun OscHist CFHist PTables RNum RLaws.
From Coquelicot Require Import Coquelicot.
From Verif Require Import SpecE ExactMath ExactStep ExactRun ExactHist SpecY ExactWrong.
Import ListNotations.
Local Open Scope R_scope.

Section Click.
Variable src : Resampler RNum.
Variable cfg : Cfg.
Variable F : Filt RNum.
Hypothesis HB : (1 <= batch cfg)%nat.
Hypothesis HF : exactFilter F.
Notation dbg := (dbg cfg).
Notation n := (kNumCoeffs RNum F).
Notation tracks := (tracks src cfg F).
Let HFk : filtOk RNum F := HFk F HF.

Lemma disturbed_nth e ys k r z y :
  nth_error (f_r F) k = Some r -> nth_error (f_z F) k = Some z -> nth_error ys k = Some y ->
  nth_error (disturbed F e ys) k = Some (y + 2 * r * e z)%C.
Proof.
  intros H1 H2 H3. unfold disturbed.
  assert (G : forall A B (l : list A) (m : list B) j a b, nth_error l j = Some a -> nth_error m j = Some b ->
            nth_error (combine l m) j = Some (a, b)).
  { clear. induction l as [|a0 l IH]; intros [|b0 m] [|j] a b; cbn; intros; try discriminate; [congruence|]. eauto. }
  erewrite map_nth_error; [|apply G; [apply G; eassumption|eassumption]]. reflexivity.
Qed.
Lemma length_disturbed e ys : length ys = n -> length (disturbed F e ys) = n.
Proof.
  intros H. unfold disturbed. rewrite map_length, !combine_length, H, (ef_z F HF).
  change (length (f_r F)) with n. lia.
Qed.

Lemma mem_click (o : Osc RNum) (sig : R -> R) (e : C -> C) (iv : nat -> Num.C RNum) (y' : list (Num.C RNum)) :
  length (o_y o) = n -> length y' = n ->
  (forall x, (x < n)%nat -> exists I, is_int (zAt RNum cfg F x) sig 0 1 I /\
     iv x = (zAt RNum cfg F x * zAt RNum cfg F x * (I + e (zAt RNum cfg F x)))%C) ->
  (forall x, (x < n)%nat -> nth_error y' x = Some (yVal RNum F o iv x)) ->
  y' = disturbed F e (allPoles F sig (o_y o)).
Proof.
  intros Hy Hy' Hi Hv. apply nth_ext with (d := c0 RNum) (d' := c0 RNum).
  { rewrite Hy'. symmetry. apply length_disturbed. now apply (length_allPoles cfg F HB HF). }
  intros x Hx. rewrite Hy' in Hx.
  rewrite (nth_error_nth _ _ _ (Hv x Hx)). symmetry. apply nth_error_nth.
  destruct (zAt_nz cfg F HB HF x Hx) as (Z1 & Z2 & Z3 & Z4 & Z5). destruct (Hi x Hx) as (I & HI & EI).
  refine (eq_trans (disturbed_nth e _ x (nth x (f_r F) (c0 RNum)) (zAt RNum cfg F x) _ _ Z5
    (allPoles_nth F sig (o_y o) x (nth x (f_r F) (c0 RNum)) (zAt RNum cfg F x) (nth x (o_y o) (c0 RNum)) _ Z5 _)) _).
  - apply nth_error_nth'. exact Hx.
  - apply nth_error_nth'. exact Hx.
  - apply nth_error_nth'. now rewrite Hy.
  - f_equal. unfold yVal, onePole. rewrite EI, Z3, Z4, (response_int _ _ _ HI). symmetry.
    refine (f_equal Some (eq_trans (yStep_R (zAt RNum cfg F x) _ _ (I + e (zAt RNum cfg F x))%C _ Z1 eq_refl) _)).
    match goal with |- @eq _ ?a ?b => change (@eq C a b) end. ring.
Qed.

(** what every sample has in common *)
Lemma sample_frame dir st p d w' m g mu gu (o : Osc RNum) : tracks st o ->
  sharp p -> d = stepBetween RNum dir (id_phase st) p -> d <> 0 -> -/2 <= d <= /2 ->
  wt_findMipMapIndices RNum dbg (id_tab st) (Rabs d) = Ok (w', (m, g, mu, gu)) ->
  processOne RNum cfg F dir o p =
    (if Rle_bool 0 d then processSampleFwd RNum cfg F o (id_tab st) p d
     else processSampleBwd RNum cfg F o (id_tab st) p d) /\
  (exists k, id_phase st + d = p + IZR k) /\
  (m = miOf RNum (id_tab st) (Rabs d) /\ g = gOf RNum (id_tab st) (Rabs d) /\
   mu = muOf RNum (id_tab st) (Rabs d) /\ gu = guOf RNum (id_tab st) (Rabs d)) /\
  (0 <= m < id_K st - 1)%Z /\ (gu <> 0 -> (mu = m + 1 /\ mu < id_K st - 1)%Z) /\ 0 <= id_phase st < 1 /\
  o_phred o = id_phase st.
Proof.
  intros Tr Hsh Hd Hd0 Hdr Hf.
  set (K := id_K st) in *. set (nw := id_nw st) in *. set (w := id_tab st) in *.
  assert (HO := tr_ok _ _ _ _ _ Tr). fold K nw w in HO.
  destruct (table_ok src dbg _ _ _ _ (tr_well _ _ _ _ _ Tr) (tr_tab _ _ _ _ _ Tr)) as (Ct & W & CF).
  fold K nw w in Ct, W, CF.
  destruct (sharp_playable p Hsh) as [Hp _].
  destruct (sharp_playable _ (tr_sharp _ _ _ _ _ Tr)) as [Hq Hqp].
  assert (Eq : o_phred o = id_phase st) by (rewrite <- (oo_phase _ _ _ _ _ _ _ HO); apply (tr_phase _ _ _ _ _ Tr)).
  split.
  { unfold processOne. rewrite (oo_wt _ _ _ _ _ _ _ HO). rewrite (tr_phase _ _ _ _ _ Tr).
    destruct dir; cbn [stepBetween] in Hd; fold (stepFwd RNum p (id_phase st)) (stepBi RNum p (id_phase st)) in Hd.
    - rewrite <- Hd.
      assert (0 <= d).
      { rewrite Hd. destruct (fwd_spec RNum LR p (id_phase st) I I (proj2 Hp) (proj2 Hq)) as [_ A]. exact (proj1 A). }
      rewrite assert_ok.
      + cbn [bind]. rewrite Rle_bool_true by assumption. reflexivity.
      + intros _. unfold t0, tfrac. cbn [tlt tle tofZ tdiv RNum].
        rewrite Rlt_bool_true, Rle_bool_true by lra. reflexivity.
    - rewrite <- Hd. reflexivity. }
  split.
  { assert (Hstep := step_R dir (id_phase st) p (proj2 Hq) (proj2 Hp)). now rewrite <- Hd in Hstep. }
  destruct (wtNext_ok RNum cfg K nw w (Rabs d) W CF) as (E1 & W1 & C1 & _ & _ & M1 & M2 & M3).
  { intros _. unfold t0. cbn [tlt tofZ RNum]. apply Rlt_bool_true. now apply Rabs_pos_lt. }
  change (dbg) with (Osc.dbg cfg) in Hf. rewrite E1 in Hf. rewrite mmiOf_eta in Hf.
  assert (Em : m = miOf RNum w (Rabs d)) by congruence.
  assert (Eg : g = gOf RNum w (Rabs d)) by congruence.
  assert (Emu : mu = muOf RNum w (Rabs d)) by congruence.
  assert (Egu : gu = guOf RNum w (Rabs d)) by congruence.
  destruct (gains_R w (Rabs d) CF) as [G1 G2].
  split; [auto|]. rewrite Em. split; [exact M1|]. split.
  { intros Hg. rewrite Egu in Hg. rewrite Emu. split; [now apply G2|].
    destruct M3 as [M3|M3]; [exact M3|now elim Hg]. }
  split; [exact (proj2 Hq)|exact Eq].
Qed.

(** a reverse-playing oscillator whose remembered position is not on the coarser grid *)
Lemma idxBwd_rise st (o : Osc RNum) p d w' m mu g gu x : tracks st o -> id_step st < 0 ->
  (id_entry st < m < id_K st - 1)%Z ->
  wt_findMipMapIndices RNum dbg (id_tab st) (Rabs d) = Ok (w', (m, g, mu, gu)) ->
  d <> 0 -> sharp p ->
  let c := Zceil (id_phase st * IZR (2 ^ (id_K st - id_entry st))) in
  (c mod 2 ^ (m - id_entry st) <> 0)%Z ->
  (c / 2 ^ (m - id_entry st) + 1 < 2 ^ (id_K st - m))%Z ->
  idxBwd RNum cfg o (id_tab st) p d = Ok x ->
  let j := (c / 2 ^ (m - id_entry st))%Z in
  ix_jmax_p_red RNum x = (j + 1)%Z /\ IZR j < id_phase st * IZR (2 ^ (id_K st - m)) < IZR j + 1.
Proof.
  intros Tr Hs Hm Hf Hd0 Hsh c Hodd Hlast Hx j.
  set (K := id_K st) in *. set (m0 := id_entry st) in *. set (w := id_tab st) in *. set (q := id_phase st) in *.
  assert (HO := tr_ok _ _ _ _ _ Tr). fold K w in HO.
  assert (HK := K_range RNum LR F K (id_nw st) o w HO).
  assert (Hm0 := oo_mm _ _ _ _ _ _ _ HO). rewrite (tr_mm _ _ _ _ _ Tr) in Hm0. fold m0 in Hm0.
  assert (Eq : o_phred o = q) by (rewrite <- (oo_phase _ _ _ _ _ _ _ HO); apply (tr_phase _ _ _ _ _ Tr)).
  assert (Ej : o_j o = c).
  { assert (Hj := oo_jb _ _ _ _ _ _ _ HO). change (val RNum LR (o_pd o)) with (o_pd o : R) in Hj.
    rewrite (tr_pd _ _ _ _ _ Tr) in Hj. rewrite (Hj Hs). unfold pos.
    change (val RNum LR (o_phred o)) with (o_phred o : R). rewrite Eq, (tr_mm _ _ _ _ _ Tr). reflexivity. }
  destruct (sharp_playable _ (tr_sharp _ _ _ _ _ Tr)) as [Hq Hqp]. fold q in Hq, Hqp.
  set (k := (m - m0)%Z) in *.
  assert (Hk2 : (2 <= 2 ^ k)%Z) by (apply (Z.pow_le_mono_r 2 1); unfold k; lia).
  assert (Hsp : (2 ^ (K - m0) = 2 ^ k * 2 ^ (K - m))%Z) by (unfold k; rewrite <- Z.pow_add_r by lia; f_equal; lia).
  assert (Hnm : (4 <= 2 ^ (K - m))%Z) by (apply (Z.pow_le_mono_r 2 2); lia).
  assert (Hdm := Z.div_mod c (2 ^ k) ltac:(lia)). fold j in Hdm.
  assert (Hmb := Z.mod_pos_bound c (2 ^ k) ltac:(lia)).
  assert (Hc1 := Zceil_ub (q * IZR (2 ^ (K - m0)))). assert (Hc2 := Zceil_lb (q * IZR (2 ^ (K - m0)))).
  fold c in Hc1, Hc2.
  assert (HkR : 0 < IZR (2 ^ k)) by (apply IZR_lt; lia).
  assert (Hpos : IZR j < q * IZR (2 ^ (K - m)) < IZR j + 1).
  { rewrite Hsp, mult_IZR in Hc1, Hc2.
    assert (E1 : IZR (2 ^ k * j + 1) <= IZR c) by (apply IZR_le; lia).
    assert (E2 : IZR c + 1 <= IZR (2 ^ k * (j + 1))) by (rewrite <- (plus_IZR c 1); apply IZR_le; lia).
    rewrite plus_IZR, mult_IZR in E1. rewrite mult_IZR, plus_IZR in E2.
    split; apply Rmult_lt_reg_l with (IZR (2 ^ k)); lra. }
  split; [|exact Hpos].
  assert (Hj0 : (0 <= j)%Z).
  { unfold j. apply Z.div_pos; [|lia]. apply le_IZR.
    assert (0 <= q * IZR (2 ^ (K - m0))).
    { apply Rmult_le_pos; [apply (proj1 (proj2 Hq))|]. apply (IZR_le 0). apply Z.pow_nonneg. lia. } lra. }
  destruct (wtNext_ok RNum cfg K (id_nw st) w (Rabs d) (oo_W _ _ _ _ _ _ _ HO) (oo_cf _ _ _ _ _ _ _ HO))
    as (E1 & W1 & C1 & _ & _ & M1 & _ & _).
  { intros _. unfold t0. cbn [tlt tofZ RNum]. apply Rlt_bool_true. now apply Rabs_pos_lt. }
  assert (Ew : w' = wtNext RNum w (Rabs d)) by congruence.
  unfold idxBwd in Hx. apply bind_ok in Hx. destruct Hx as (? & _ & Hx).
  change (tabs RNum d) with (Rabs d) in Hx. rewrite Hf in Hx. cbn [bind] in Hx.
  unfold wt_phases in Hx. rewrite Ew, (wo_ph _ _ _ _ W1 m) in Hx by lia. cbn [bind] in Hx.
  destruct (sharp_playable p Hsh) as [Hp _].
  rewrite (reduce_phase RNum LR dbg p Hp) in Hx. cbn [bind] in Hx.
  rewrite (wt_len_ok RNum K (id_nw st) _ m W1) in Hx by lia. cbn [bind] in Hx.
  unfold adjustJ in Hx. rewrite (tr_mm _ _ _ _ _ Tr) in Hx. fold m0 in Hx.
  replace (m0 <? m)%Z with true in Hx by (symmetry; apply Z.ltb_lt; lia).
  rewrite ishr_ok in Hx by lia. cbn [bind] in Hx. fold k in Hx. rewrite Ej in Hx. fold j in Hx.
  rewrite (tr_pd _ _ _ _ _ Tr) in Hx. unfold t0 in Hx. cbn [tle tofZ RNum] in Hx.
  rewrite Rle_bool_true in Hx by lra. rewrite znth_phaseVector in Hx by lia. cbn [bind] in Hx.
  destruct (sgn_grid RNum LR F K (id_nw st) o w HO m j ltac:(lia) ltac:(lia)) as (_ & _ & _ & S4 & _).
  unfold pos in S4. change (val RNum LR (o_phred o)) with (o_phred o : R) in S4.
  rewrite Eq in S4, Hx. specialize (S4 Hqp (proj1 Hpos)). rewrite S4 in Hx.
  assert (Hp2 := proj2 Hp).
  assert (2 ^ (K - m) <= 2 ^ 18)%Z by (apply Z.pow_le_mono_r; lia).
  rewrite chk_ok in Hx by (unfold int_min, int_max; lia). cbn [bind] in Hx.
  apply bind_ok in Hx. destruct Hx as (j' & _ & Hx). apply bind_ok in Hx. destruct Hx as (jm & _ & Hx).
  apply bind_ok in Hx. destruct Hx as (jr & _ & Hx).
  rewrite reduceZ_spec in Hx by (unfold int_max; lia). cbn [bind] in Hx. injection Hx as <-. cbn.
  apply Z.mod_small. lia.
Qed.

(** a forward-playing oscillator dropping to a lower entry *)
Lemma idxFwd_drop st (o : Osc RNum) p d w' m mu g gu x : tracks st o -> 0 < id_step st ->
  (0 <= m < id_entry st)%Z ->
  wt_findMipMapIndices RNum dbg (id_tab st) (Rabs d) = Ok (w', (m, g, mu, gu)) ->
  0 < d -> sharp p ->
  let c := Zfloor (id_phase st * IZR (2 ^ (id_K st - id_entry st))) in
  idxFwd RNum cfg o (id_tab st) p d = Ok x ->
  (IZR c < id_phase st * IZR (2 ^ (id_K st - id_entry st)) ->
   (ix_jmin_red RNum x / 2)%Z = (c * 2 ^ (id_entry st - m - 1))%Z) /\
  (IZR c = id_phase st * IZR (2 ^ (id_K st - id_entry st)) ->
   ix_jmin_red RNum x = ((c * 2 ^ (id_entry st - m) - 1) mod 2 ^ (id_K st - m))%Z).
Proof.
  intros Tr Hs Hm Hf Hd0 Hsh c Hx.
  set (K := id_K st) in *. set (m0 := id_entry st) in *. set (w := id_tab st) in *. set (q := id_phase st) in *.
  assert (HO := tr_ok _ _ _ _ _ Tr). fold K w in HO.
  assert (HK := K_range RNum LR F K (id_nw st) o w HO).
  assert (Hm0 := oo_mm _ _ _ _ _ _ _ HO). rewrite (tr_mm _ _ _ _ _ Tr) in Hm0. fold m0 in Hm0.
  assert (Eq : o_phred o = q) by (rewrite <- (oo_phase _ _ _ _ _ _ _ HO); apply (tr_phase _ _ _ _ _ Tr)).
  assert (Ej : o_j o = c).
  { assert (Hj := oo_jf _ _ _ _ _ _ _ HO). change (val RNum LR (o_pd o)) with (o_pd o : R) in Hj.
    rewrite (tr_pd _ _ _ _ _ Tr) in Hj. rewrite (Hj (Rlt_le _ _ Hs)). unfold pos.
    change (val RNum LR (o_phred o)) with (o_phred o : R). rewrite Eq, (tr_mm _ _ _ _ _ Tr). reflexivity. }
  destruct (sharp_playable _ (tr_sharp _ _ _ _ _ Tr)) as [Hq Hqp]. fold q in Hq, Hqp.
  set (k := (m0 - m)%Z) in *.
  assert (Hk2 : (2 ^ k = 2 * 2 ^ (k - 1))%Z).
  { replace k with (Z.succ (k - 1)) at 1 by lia. apply Z.pow_succ_r. unfold k. lia. }
  assert (Hk1 : (1 <= 2 ^ (k - 1))%Z) by (apply (Z.pow_le_mono_r 2 0); unfold k; lia).
  assert (Hsp : (2 ^ (K - m) = 2 ^ k * 2 ^ (K - m0))%Z) by (unfold k; rewrite <- Z.pow_add_r by lia; f_equal; lia).
  assert (Hn0 : (4 <= 2 ^ (K - m0))%Z) by (apply (Z.pow_le_mono_r 2 2); lia).
  assert (Hc2 := Zfloor_ub (q * IZR (2 ^ (K - m0)))). fold c in Hc2.
  assert (Hin := Zfloor_lb (q * IZR (2 ^ (K - m0)))). fold c in Hin.
  assert (HkR : 0 < IZR (2 ^ k)) by (apply IZR_lt; lia).
  assert (Hq1 := proj2 Hq). change (val RNum LR q) with (q : R) in Hq1.
  assert (Hcr : (0 <= c < 2 ^ (K - m0))%Z).
  { split; [|apply lt_IZR].
    - unfold c. apply Zfloor_lub. apply Rmult_le_pos; [lra|]. apply (IZR_le 0). lia.
    - apply Rle_lt_trans with (1 := Hin). assert (0 < IZR (2 ^ (K - m0))) by (apply IZR_lt; lia). nra. }
  set (j1 := (c * 2 ^ k)%Z).
  assert (Hj1 : (0 <= j1 /\ j1 + 2 <= 2 ^ (K - m))%Z) by (unfold j1; nia).
  assert (Hpos : q * IZR (2 ^ (K - m)) = IZR (2 ^ k) * (q * IZR (2 ^ (K - m0)))).
  { rewrite Hsp, !mult_IZR. ring. }
  assert (Hj1R : IZR j1 = IZR (2 ^ k) * IZR c) by (unfold j1; rewrite mult_IZR; ring).
  destruct (wtNext_ok RNum cfg K (id_nw st) w (Rabs d) (oo_W _ _ _ _ _ _ _ HO) (oo_cf _ _ _ _ _ _ _ HO))
    as (E1 & W1 & C1 & _ & _ & M1 & _ & _).
  { intros _. unfold t0. cbn [tlt tofZ RNum]. apply Rlt_bool_true. apply Rabs_pos_lt. lra. }
  assert (Ew : w' = wtNext RNum w (Rabs d)) by congruence.
  unfold idxFwd in Hx. apply bind_ok in Hx. destruct Hx as (? & _ & Hx).
  rewrite (Rabs_pos_eq d ltac:(lra)) in Hf, E1, Ew, W1. rewrite Hf in Hx. cbn [bind] in Hx.
  unfold wt_phases in Hx. rewrite Ew, (wo_ph _ _ _ _ W1 m) in Hx by lia. cbn [bind] in Hx.
  destruct (sharp_playable p Hsh) as [Hp _].
  rewrite (reduce_phase RNum LR dbg p Hp) in Hx. cbn [bind] in Hx.
  rewrite (wt_len_ok RNum K (id_nw st) _ m W1) in Hx by lia. cbn [bind] in Hx.
  unfold adjustJ in Hx. rewrite (tr_mm _ _ _ _ _ Tr) in Hx. fold m0 in Hx.
  replace (m0 <? m)%Z with false in Hx by (symmetry; apply Z.ltb_ge; lia).
  replace (m <? m0)%Z with true in Hx by (symmetry; apply Z.ltb_lt; lia).
  assert (2 ^ (K - m) <= 2 ^ 18)%Z by (apply Z.pow_le_mono_r; lia).
  fold k in Hx. rewrite Ej in Hx.
  rewrite ishl_ok in Hx by (unfold int_max; fold j1; lia). fold j1 in Hx. cbn [bind] in Hx.
  rewrite (tr_pd _ _ _ _ _ Tr) in Hx. unfold t0 in Hx. cbn [tlt tle tofZ RNum] in Hx.
  rewrite Rlt_bool_true, Rle_bool_true in Hx by lra.
  rewrite znth_phaseVector in Hx by lia. cbn [bind] in Hx.
  set (b := b2z _) in Hx.
  assert (Hb : b = 0%Z \/ (b = 1%Z /\ IZR (j1 + 1) < q * IZR (2 ^ (K - m)))).
  { unfold b. match goal with |- context [Rlt_bool ?a ?e] => destruct (Rlt_bool_spec a e) as [Hl|Hl] end; cbn [b2z]; [right|left; reflexivity].
    split; [reflexivity|]. cbn [tdiv tofZ RNum] in Hl. rewrite Eq in Hl.
    assert (0 < IZR (2 ^ (K - m))) by (apply IZR_lt; lia).
    apply Rmult_lt_reg_r with (/ IZR (2 ^ (K - m))); [now apply Rinv_0_lt_compat|].
    replace (q * IZR (2 ^ (K - m)) * / IZR (2 ^ (K - m))) with q by (field; lra). exact Hl. }
  assert (Hbr : (0 <= b <= 1)%Z) by (destruct Hb as [->|[-> _]]; lia).
  rewrite chk_ok in Hx by (unfold int_min, int_max; lia). cbn [bind] in Hx.
  rewrite znth_phaseVector in Hx by lia. cbn [bind] in Hx.
  destruct (sgn_grid RNum LR F K (id_nw st) o w HO m (j1 + b) ltac:(lia) ltac:(lia)) as (_ & S2 & S3 & S4 & _).
  unfold pos in S2, S3, S4. change (val RNum LR (o_phred o)) with (o_phred o : R) in S2, S3, S4.
  rewrite Eq in S2, S3, S4, Hx. specialize (S4 Hqp).
  set (sg := msign RNum _) in *.
  apply bind_ok in Hx. destruct Hx as (pj & Epj & Hx).
  apply bind_ok in Hx. destruct Hx as (j' & _ & Hx).
  split; intros Hc.
  - assert (Hj : IZR j1 < q * IZR (2 ^ (K - m))) by (rewrite Hpos, Hj1R; apply Rmult_lt_compat_l; assumption).
    assert (Hpb : IZR (j1 + b) < q * IZR (2 ^ (K - m))).
    { destruct Hb as [->|[-> Hb]]; [rewrite Z.add_0_r|]; assumption. }
    specialize (S4 Hpb). rewrite S4 in Epj.
    rewrite chk_ok in Epj by (unfold int_min, int_max; lia). injection Epj as <-.
    rewrite chk_ok in Hx by (unfold int_min, int_max; lia). cbn [bind] in Hx.
    rewrite reduceZ_spec in Hx by (unfold int_max; lia). cbn [bind] in Hx.
    apply bind_ok in Hx. destruct Hx as (jr & _ & Hx). injection Hx as <-. cbn.
    rewrite Z.mod_small by lia. replace (j1 + b + 1 - 1)%Z with (b + (c * 2 ^ (k - 1)) * 2)%Z by (unfold j1; lia).
    rewrite Z.div_add by lia. rewrite (Z.div_small b 2) by lia. lia.
  - assert (Hj : IZR j1 = q * IZR (2 ^ (K - m))) by (rewrite Hpos, Hj1R, Hc; reflexivity).
    assert (b = 0%Z) by (destruct Hb as [Hb|[_ Hb]]; [exact Hb|rewrite plus_IZR in Hb; lra]).
    assert (sg = 0%Z).
    { rewrite H0, Z.add_0_r in S2, S3. specialize (S2 ltac:(lra)). specialize (S3 ltac:(lra)). lia. }
    rewrite H0, H1 in Epj.
    rewrite chk_ok in Epj by (unfold int_min, int_max; lia). injection Epj as <-.
    rewrite chk_ok in Hx by (unfold int_min, int_max; lia). cbn [bind] in Hx.
    rewrite reduceZ_spec in Hx by (unfold int_max; lia). cbn [bind] in Hx.
    apply bind_ok in Hx. destruct Hx as (jr & _ & Hx). injection Hx as <-. cbn.
    unfold j1. f_equal. lia.
Qed.

Lemma rise_pos st (o : Osc RNum) m : tracks st o -> (id_entry st < m < id_K st - 1)%Z ->
  let c := Zceil (id_phase st * IZR (2 ^ (id_K st - id_entry st))) in
  (c mod 2 ^ (m - id_entry st) <> 0)%Z ->
  let j := (c / 2 ^ (m - id_entry st))%Z in
  IZR j < id_phase st * IZR (2 ^ (id_K st - m)) < IZR j + 1.
Proof.
  intros Tr Hm c Hodd j.
  set (K := id_K st) in *. set (m0 := id_entry st) in *. set (q := id_phase st) in *.
  set (k := (m - m0)%Z) in *.
  assert (Hk2 : (2 <= 2 ^ k)%Z) by (apply (Z.pow_le_mono_r 2 1); unfold k; lia).
  assert (Hm0 := oo_mm _ _ _ _ _ _ _ (tr_ok _ _ _ _ _ Tr)). rewrite (tr_mm _ _ _ _ _ Tr) in Hm0. fold m0 in Hm0.
  assert (Hsp : (2 ^ (K - m0) = 2 ^ k * 2 ^ (K - m))%Z) by (unfold k; rewrite <- Z.pow_add_r by lia; f_equal; lia).
  assert (Hdm := Z.div_mod c (2 ^ k) ltac:(lia)). fold j in Hdm.
  assert (Hmb := Z.mod_pos_bound c (2 ^ k) ltac:(lia)).
  assert (Hc1 := Zceil_ub (q * IZR (2 ^ (K - m0)))). assert (Hc2 := Zceil_lb (q * IZR (2 ^ (K - m0)))).
  fold c in Hc1, Hc2.
  assert (HkR : 0 < IZR (2 ^ k)) by (apply IZR_lt; lia).
  rewrite Hsp, mult_IZR in Hc1, Hc2.
  assert (E1 : IZR (2 ^ k * j + 1) <= IZR c) by (apply IZR_le; lia).
  assert (E2 : IZR c + 1 <= IZR (2 ^ k * (j + 1))) by (rewrite <- (plus_IZR c 1); apply IZR_le; lia).
  rewrite plus_IZR, mult_IZR in E1. rewrite mult_IZR, plus_IZR in E2.
  split; apply Rmult_lt_reg_l with (IZR (2 ^ k)); lra.
Qed.

(** turning back right after standing still: the position remembered is that of the segment
    below, as if the previous step had been forward, but is taken for that of the segment above *)
Lemma idxBwd_still st (o : Osc RNum) p d w' m mu g gu x : tracks st o -> id_step st = 0 -> id_entry st = m ->
  wt_findMipMapIndices RNum dbg (id_tab st) (Rabs d) = Ok (w', (m, g, mu, gu)) ->
  d <> 0 -> sharp p ->
  let j := Zfloor (id_phase st * IZR (2 ^ (id_K st - m))) in
  IZR j < id_phase st * IZR (2 ^ (id_K st - m)) ->
  (j + 1 < 2 ^ (id_K st - m))%Z ->
  idxBwd RNum cfg o (id_tab st) p d = Ok x ->
  ix_jmax_p_red RNum x = (j + 1)%Z.
Proof.
  intros Tr Hs Hm Hf Hd0 Hsh j Hpos Hlast Hx.
  set (K := id_K st) in *. set (w := id_tab st) in *. set (q := id_phase st) in *.
  assert (HO := tr_ok _ _ _ _ _ Tr). fold K w in HO.
  assert (HK := K_range RNum LR F K (id_nw st) o w HO).
  assert (Hm0 := oo_mm _ _ _ _ _ _ _ HO). rewrite (tr_mm _ _ _ _ _ Tr), Hm in Hm0.
  assert (Eq : o_phred o = q) by (rewrite <- (oo_phase _ _ _ _ _ _ _ HO); apply (tr_phase _ _ _ _ _ Tr)).
  assert (Ej : o_j o = j).
  { assert (Hj := oo_jf _ _ _ _ _ _ _ HO). change (val RNum LR (o_pd o)) with (o_pd o : R) in Hj.
    rewrite (tr_pd _ _ _ _ _ Tr), Hs in Hj. rewrite (Hj (Rle_refl 0)). unfold pos.
    change (val RNum LR (o_phred o)) with (o_phred o : R). rewrite Eq, (tr_mm _ _ _ _ _ Tr), Hm. reflexivity. }
  destruct (sharp_playable _ (tr_sharp _ _ _ _ _ Tr)) as [Hq Hqp]. fold q in Hq, Hqp.
  assert (Hnm : (4 <= 2 ^ (K - m))%Z) by (apply (Z.pow_le_mono_r 2 2); lia).
  assert (Hj0 : (0 <= j)%Z).
  { unfold j. apply Zfloor_lub. apply Rmult_le_pos; [apply (proj1 (proj2 Hq))|]. apply (IZR_le 0). apply Z.pow_nonneg. lia. }
  destruct (wtNext_ok RNum cfg K (id_nw st) w (Rabs d) (oo_W _ _ _ _ _ _ _ HO) (oo_cf _ _ _ _ _ _ _ HO))
    as (E1 & W1 & C1 & _ & _ & M1 & _ & _).
  { intros _. unfold t0. cbn [tlt tofZ RNum]. apply Rlt_bool_true. now apply Rabs_pos_lt. }
  assert (Ew : w' = wtNext RNum w (Rabs d)) by congruence.
  unfold idxBwd in Hx. apply bind_ok in Hx. destruct Hx as (? & _ & Hx).
  change (tabs RNum d) with (Rabs d) in Hx. rewrite Hf in Hx. cbn [bind] in Hx.
  unfold wt_phases in Hx. rewrite Ew, (wo_ph _ _ _ _ W1 m) in Hx by lia. cbn [bind] in Hx.
  destruct (sharp_playable p Hsh) as [Hp _].
  rewrite (reduce_phase RNum LR dbg p Hp) in Hx. cbn [bind] in Hx.
  rewrite (wt_len_ok RNum K (id_nw st) _ m W1) in Hx by lia. cbn [bind] in Hx.
  unfold adjustJ in Hx. rewrite (tr_mm _ _ _ _ _ Tr), Hm, Z.ltb_irrefl in Hx. cbn [bind] in Hx. rewrite Ej in Hx.
  rewrite (tr_pd _ _ _ _ _ Tr), Hs in Hx. unfold t0 in Hx. cbn [tle tofZ RNum] in Hx.
  rewrite Rle_bool_true in Hx by lra. rewrite znth_phaseVector in Hx by lia. cbn [bind] in Hx.
  destruct (sgn_grid RNum LR F K (id_nw st) o w HO m j ltac:(lia) ltac:(lia)) as (_ & _ & _ & S4 & _).
  unfold pos in S4. change (val RNum LR (o_phred o)) with (o_phred o : R) in S4.
  rewrite Eq in S4, Hx. specialize (S4 Hqp Hpos). rewrite S4 in Hx.
  assert (2 ^ (K - m) <= 2 ^ 18)%Z by (apply Z.pow_le_mono_r; lia).
  rewrite chk_ok in Hx by (unfold int_min, int_max; lia). cbn [bind] in Hx.
  apply bind_ok in Hx. destruct Hx as (j' & _ & Hx). apply bind_ok in Hx. destruct Hx as (jm & _ & Hx).
  apply bind_ok in Hx. destruct Hx as (jr & _ & Hx).
  rewrite reduceZ_spec in Hx by (unfold int_max; lia). cbn [bind] in Hx. injection Hx as <-. cbn.
  apply Z.mod_small. lia.
Qed.

(** a backward sample that starts one segment too high *)
Lemma bwd_click dir st p d w' m mu j (o : Osc RNum) : tracks st o ->
  sharp p -> d = stepBetween RNum dir (id_phase st) p -> -/2 <= d < 0 ->
  wt_findMipMapIndices RNum dbg (id_tab st) (Rabs d) = Ok (w', (m, 1, mu, 0)) ->
  ~ (trap RNum LR o /\ (m < o_mm o)%Z) ->
  let b := (j + 1)%Z in
  let len := zlen (entry src st m) in
  (b < len)%Z ->
  (forall x, idxBwd RNum cfg o (id_tab st) p d = Ok x -> ix_jmax_p_red RNum x = (j + 1)%Z) ->
  IZR j < id_phase st * IZR (2 ^ (id_K st - m)) < IZR j + 1 ->
  exists o', processOne RNum cfg F dir o p =
    Ok (o', audible (disturbed F
      (fun z => RtoC (d * IZR len * kink (entry src st m) b) * click z ((IZR b / IZR len - id_phase st) / - d))%C
      (allPoles F (mixed src st (id_phase st) d (m, 1, mu, 0)) (id_mem st)))).
Proof.
  intros Tr Hsh Hd Hdr Hf Hnt b len Hb Hidx Hpos.
  assert (Hd0 : d <> 0) by lra.
  destruct (sample_frame dir st p d w' m 1 mu 0 o Tr Hsh Hd Hd0 ltac:(lra) Hf)
    as (Esel & Hstep & (Em & Eg & Emu & Egu) & Hmr & _ & Hq & Eq).
  set (K := id_K st) in *. set (nw := id_nw st) in *. set (w := id_tab st) in *. set (q := id_phase st) in *.
  assert (HO := tr_ok _ _ _ _ _ Tr). fold K nw w in HO.
  destruct (sharp_playable p Hsh) as [Hp _].
  destruct (sharp_playable _ (tr_sharp _ _ _ _ _ Tr)) as [_ Hqp]. fold q in Hqp.
  destruct (entry_slot src cfg F HB st o m Tr ltac:(fold K; lia)) as (Ll & L4 & Sl). fold K w len in Ll, L4, Sl.
  rewrite Esel, Rle_bool_false by lra.
  rewrite Em in Hnt.
  destruct (processSampleBwd_ix RNum cfg F LR HB HFk K nw o w HO p d Hp I ltac:(cbn; lra) ltac:(intros _; cbn; lra) Hnt)
    as (o' & out & jmax & E & S & Hjm & _ & (x & Ex & Hx)).
  exists o'. rewrite E. f_equal. f_equal.
  assert (Ejx := Hidx x Ex). fold K q in Hpos. assert (Eb : b = (j + 1)%Z) by reflexivity.
  rewrite Ejx in Hx. subst jmax.
  rewrite (sp_out _ _ _ _ _ _ _ _ _ _ _ _ _ S). refine (eq_trans (audible_R _) _). f_equal.
  rewrite <- (tr_y _ _ _ _ _ Tr).
  apply (mem_click o _ _ (ivB RNum cfg F K o w p d (Zceil (pos RNum LR K (miOf RNum w (tabs RNum d)) p))
     ((Zceil (pos RNum LR K (miOf RNum w (tabs RNum d)) p) - 1) mod 2 ^ (K - miOf RNum w (tabs RNum d))) (j + 1))).
  { apply (oo_y _ _ _ _ _ _ _ HO). }
  { apply (oo_y _ _ _ _ _ _ _ (sp_ok _ _ _ _ _ _ _ _ _ _ _ _ _ S)). }
  2:{ apply (sp_y _ _ _ _ _ _ _ _ _ _ _ _ _ S). }
  clear S E Esel. change (tabs RNum d) with (Rabs d) in *.
  intros y Hy. destruct (zAt_nz cfg F HB HF y Hy) as (Znz & Zez & _).
  unfold ivB. change (tabs RNum d) with (Rabs d). rewrite <- Em, <- Emu, <- Eg, <- Egu.
  unfold t0. cbn [teq tofZ RNum]. rewrite Req_bool_true by reflexivity. rewrite Eq.
  unfold pos. change (val RNum LR p) with (p : R).
  assert (Hp' := proj2 Hp). change (val RNum LR p) with (p : R) in Hp'.
  rewrite <- Ll in *.
  set (jm := Zceil (p * IZR len)) in *.
  set (jmin := ((jm - 1) mod len)%Z) in *.
  assert (HlenR : 4 <= IZR len) by (apply (IZR_le 4); lia).
  assert (Hc1 := Zceil_ub (p * IZR len)). assert (Hc2 := Zceil_lb (p * IZR len)).
  fold jm in Hc1, Hc2.
  assert (Hj0 : (jm =? 0)%Z = Req_bool p 0 /\ (0 <= jmin < len)%Z /\
       (if Req_bool p 0 then jmin = (len - 1)%Z
        else IZR jmin <= p * IZR len <= IZR jmin + 1) /\ (p <> 0 -> IZR jmin < p * IZR len)).
  { split; [|split; [apply Z.mod_pos_bound; lia|]].
    - destruct (Req_bool_spec p 0) as [Hp0|Hp0].
      + unfold jm. rewrite Hp0, Rmult_0_l. change 0 with (IZR 0). rewrite Zceil_IZR. reflexivity.
      + apply Z.eqb_neq. intros H. rewrite H in Hc1.
        assert (0 < p * IZR len) by (apply Rmult_lt_0_compat; lra). lra.
    - unfold jmin. destruct (Req_bool_spec p 0) as [Hp0|Hp0].
      + assert (Ej : jm = 0%Z) by (unfold jm; rewrite Hp0, Rmult_0_l; exact (Zceil_IZR 0)).
        rewrite Ej. split; [|intros H; now elim H]. symmetry. apply (Z.mod_unique_pos _ _ (-1)); lia.
      + assert (0 < p * IZR len) by (apply Rmult_lt_0_compat; lra).
        assert (p * IZR len < IZR len) by nra.
        assert (0 < jm)%Z by (apply lt_IZR; lra).
        assert (jm <= len)%Z by (unfold jm; apply Zceil_glb; lra).
        rewrite Z.mod_small by lia. rewrite minus_IZR. split; [lra|]. intros _. lra. }
  destruct Hj0 as (Hz & Hjn & Hen & Hlt).
  assert (Hj00 : (0 <= j)%Z).
  { assert (0 <= q * IZR len) by (apply Rmult_le_pos; lra). destruct (Z_le_gt_dec 0 j) as [H0|H0]; [exact H0|].
    exfalso. assert (H1 : (j <= -1)%Z) by lia. apply IZR_le in H1. lra. }
  destruct (bwd_exact cfg F HB y Zez (entry src st m) (slot RNum o w m) L4 Sl q p d jm jmin j
                 Hq Hp' ltac:(lra) Hstep ltac:(fold len; lia) ltac:(fold len; lra) Hjn Hen Hz) as (I1 & A1 & B1).
  exists I1. split; [now apply single_int|].
  refine (eq_trans (bwd_off cfg F HB y Zez Znz (entry src st m) (slot RNum o w m) L4 Sl q p d jm jmin j _ _ _ _ _ _ _ _) _).
  9:{ fold len. fold len in B1. rewrite B1. rewrite Eb, plus_IZR. match goal with |- @eq _ ?a ?b => change (@eq C a b) end. ring. }
  - exact Hd0.
  - exact Hj00.
  - fold len. lia.
  - exact Hjn.
  - intros EE. destruct Hstep as [kk Hk]. destruct (Req_bool_spec p 0) as [Hp0|Hp0].
    + rewrite Hen in EE. subst p.
      assert (IZR len - 2 < q * IZR len) by (replace (IZR len - 2) with (IZR (len - 2)) by (rewrite minus_IZR; ring); replace (len - 2)%Z with j by lia; lra).
      assert (kk <> 0%Z).
      { intros ->. nra. }
      assert (kk <= -1 \/ 1 <= kk)%Z by lia. destruct H1 as [H1|H1]; apply IZR_le in H1; lra.
    + specialize (Hlt Hp0). assert (EE' := f_equal IZR EE). rewrite plus_IZR in EE'.
      assert (Hkk : kk = (-1)%Z).
      { destruct (Z.lt_trichotomy kk 0) as [Hk0|[->|Hk0]].
        - assert (-2 < kk)%Z by (apply lt_IZR; lra). lia.
        - assert (p * IZR len < q * IZR len) by (apply Rmult_lt_compat_r; lra). lra.
        - assert (1 <= kk)%Z by lia. apply IZR_le in H. lra. }
      subst kk. assert ((q + /2) * IZR len <= p * IZR len) by (apply Rmult_le_compat_r; lra). lra.
  - rewrite <- Z.eqb_eq, Hz. destruct (Req_bool_spec p 0); split; auto; discriminate.
  - intros Hp0. rewrite Req_bool_true in Hen by assumption. rewrite Hen.
    destruct Hstep as [kk Hk]. assert (kk = 0 \/ kk <= -1 \/ 1 <= kk)%Z by lia.
    destruct H as [->|[H|H]]; [| |apply IZR_le in H; lra].
    + apply lt_IZR. rewrite plus_IZR, minus_IZR.
      assert (q <= /2) by lra. assert (q * IZR len <= /2 * IZR len) by (apply Rmult_le_compat_r; lra). lra.
    + apply IZR_le in H. lra.
  - fold len. destruct Hstep as [kk Hk]. destruct (Req_bool_spec p 0) as [Hp0|Hp0].
    + assert (kk = 0%Z).
      { assert (kk = 0 \/ kk <= -1 \/ 1 <= kk)%Z by lia. destruct H as [H|[H|H]]; [exact H| |]; apply IZR_le in H; lra. }
      subst kk. rewrite Hen. assert (j < len - 1)%Z by lia. replace (j <? len - 1)%Z with true by (symmetry; apply Z.ltb_lt; lia). lra.
    + specialize (Hlt Hp0).
      assert (kk = 0 \/ kk = -1)%Z.
      { assert (kk <= -2 \/ kk = -1 \/ kk = 0 \/ 1 <= kk)%Z by lia.
        destruct H as [H|[H|[H|H]]]; auto; apply IZR_le in H; lra. }
      destruct H as [-> | ->].
      * assert (p * IZR len < q * IZR len) by (apply Rmult_lt_compat_r; lra).
        assert (jmin < j + 1)%Z by (apply lt_IZR; rewrite plus_IZR; lra).
        replace (j <? jmin)%Z with false by (symmetry; apply Z.ltb_ge; lia). lra.
      * assert ((q + /2) * IZR len <= p * IZR len) by (apply Rmult_le_compat_r; lra).
        assert (j < jmin)%Z by (apply lt_IZR; lra).
        replace (j <? jmin)%Z with true by (symmetry; apply Z.ltb_lt; lia). lra.
Qed.

Lemma rise_click dir st p d w' m mu (o : Osc RNum) : tracks st o -> id_step st < 0 ->
  sharp p -> d = stepBetween RNum dir (id_phase st) p -> -/2 <= d < 0 ->
  wt_findMipMapIndices RNum dbg (id_tab st) (Rabs d) = Ok (w', (m, 1, mu, 0)) ->
  (id_entry st < m)%Z ->
  let c := Zceil (id_phase st * IZR (2 ^ (id_K st - id_entry st))) in
  (c mod 2 ^ (m - id_entry st) <> 0)%Z ->
  let b := (c / 2 ^ (m - id_entry st) + 1)%Z in
  let len := zlen (entry src st m) in
  (b < len)%Z ->
  exists o', processOne RNum cfg F dir o p =
    Ok (o', audible (disturbed F
      (fun z => RtoC (d * IZR len * kink (entry src st m) b) * click z ((IZR b / IZR len - id_phase st) / - d))%C
      (allPoles F (mixed src st (id_phase st) d (m, 1, mu, 0)) (id_mem st)))).
Proof.
  intros Tr Hs Hsh Hd Hdr Hf Hm c Hodd b len Hb.
  assert (Hd0 : d <> 0) by lra.
  destruct (sample_frame dir st p d w' m 1 mu 0 o Tr Hsh Hd Hd0 ltac:(lra) Hf)
    as (_ & _ & _ & Hmr & _ & _ & _).
  destruct (entry_slot src cfg F HB st o m Tr ltac:(lia)) as (Ll & _ & _). fold len in Ll.
  assert (Hpos : IZR (c / 2 ^ (m - id_entry st)) < id_phase st * IZR (2 ^ (id_K st - m)) < IZR (c / 2 ^ (m - id_entry st)) + 1).
  { apply (rise_pos st o m Tr); [lia|exact Hodd]. }
  apply (bwd_click dir st p d w' m mu (c / 2 ^ (m - id_entry st)) o Tr Hsh Hd Hdr Hf); auto.
  - intros [_ H]; rewrite (tr_mm _ _ _ _ _ Tr) in H; lia.
  - intros x Ex. apply (idxBwd_rise st o p d w' m mu 1 0 x Tr Hs ltac:(lia) Hf Hd0 Hsh Hodd); [|exact Ex].
    fold c. rewrite <- Ll. exact Hb.
Qed.

Lemma still_click dir st p d w' m mu (o : Osc RNum) : tracks st o -> id_step st = 0 -> id_entry st = m ->
  sharp p -> d = stepBetween RNum dir (id_phase st) p -> -/2 <= d < 0 ->
  wt_findMipMapIndices RNum dbg (id_tab st) (Rabs d) = Ok (w', (m, 1, mu, 0)) ->
  let len := zlen (entry src st m) in
  let j := Zfloor (id_phase st * IZR len) in
  IZR j < id_phase st * IZR len ->
  let b := (j + 1)%Z in
  (b < len)%Z ->
  exists o', processOne RNum cfg F dir o p =
    Ok (o', audible (disturbed F
      (fun z => RtoC (d * IZR len * kink (entry src st m) b) * click z ((IZR b / IZR len - id_phase st) / - d))%C
      (allPoles F (mixed src st (id_phase st) d (m, 1, mu, 0)) (id_mem st)))).
Proof.
  intros Tr Hs Hm Hsh Hd Hdr Hf len j Hpos b Hb.
  assert (Hd0 : d <> 0) by lra.
  destruct (sample_frame dir st p d w' m 1 mu 0 o Tr Hsh Hd Hd0 ltac:(lra) Hf)
    as (_ & _ & _ & Hmr & _ & _ & _).
  destruct (entry_slot src cfg F HB st o m Tr ltac:(lia)) as (Ll & _ & _). fold len in Ll.
  assert (Ej : j = Zfloor (id_phase st * IZR (2 ^ (id_K st - m)))) by (unfold j; now rewrite Ll).
  apply (bwd_click dir st p d w' m mu j o Tr Hsh Hd Hdr Hf); auto.
  - intros [_ H]; rewrite (tr_mm _ _ _ _ _ Tr) in H; lia.
  - intros x Ex. rewrite Ej.
    apply (idxBwd_still st o p d w' m mu 1 0 x Tr Hs Hm Hf Hd0 Hsh); [rewrite <- Ej, <- Ll; exact Hpos|rewrite <- Ej, <- Ll; exact Hb|exact Ex].
  - rewrite <- Ll. split; [exact Hpos|]. apply Zfloor_ub.
Qed.

Lemma drop_click dir st p d w' m mu (o : Osc RNum) : tracks st o -> 0 < id_step st ->
  sharp p -> d = stepBetween RNum dir (id_phase st) p -> 0 < d <= /2 ->
  wt_findMipMapIndices RNum dbg (id_tab st) (Rabs d) = Ok (w', (m, 0, mu, 1)) ->
  (m < id_entry st)%Z ->
  let len := zlen (entry src st mu) in
  let J := (Zfloor (id_phase st * IZR (2 ^ (id_K st - id_entry st))) * 2 ^ (id_entry st - mu))%Z in
  let T := Zfloor (id_phase st * IZR len) in
  exists o', processOne RNum cfg F dir o p =
    Ok (o', audible (disturbed F
      (fun z => - sumFrom (fun i => RtoC (d * IZR len * kink (entry src st mu) i)
                                    * click z ((id_phase st - IZR i / IZR len) / d)) (J + 1) (T + 1))%C
      (allPoles F (mixed src st (id_phase st) d (m, 0, mu, 1)) (id_mem st)))).
Proof.
  intros Tr Hs Hsh Hd Hdr Hf Hm len J T.
  assert (Hd0 : d <> 0) by lra.
  destruct (sample_frame dir st p d w' m 0 mu 1 o Tr Hsh Hd Hd0 ltac:(lra) Hf)
    as (Esel & Hstep & (Em & Eg & Emu & Egu) & Hmr & Hmu & Hq & Eq).
  destruct (Hmu R1_neq_R0) as [Hmu1 Hmu2].
  set (K := id_K st) in *. set (nw := id_nw st) in *. set (w := id_tab st) in *. set (q := id_phase st) in *.
  assert (HO := tr_ok _ _ _ _ _ Tr). fold K nw w in HO.
  assert (Hm0 := oo_mm _ _ _ _ _ _ _ HO). rewrite (tr_mm _ _ _ _ _ Tr) in Hm0. set (m0 := id_entry st) in *.
  destruct (sharp_playable p Hsh) as [Hp _].
  destruct (sharp_playable _ (tr_sharp _ _ _ _ _ Tr)) as [_ Hqp]. fold q in Hqp.
  destruct (entry_slot src cfg F HB st o mu Tr ltac:(fold K; lia)) as (Ll & L4 & Sl). fold K w len in Ll, L4, Sl.
  destruct (entry_slot src cfg F HB st o m Tr ltac:(fold K; lia)) as (Ll' & L4' & Sl'). fold K w in Ll', L4', Sl'.
  assert (Hnt : ~ (trap RNum LR o /\ (m < o_mm o)%Z)).
  { intros [[H _] _]. change (val RNum LR (o_pd o)) with (o_pd o : R) in H. rewrite (tr_pd _ _ _ _ _ Tr) in H. lra. }
  rewrite (Rabs_pos_eq d ltac:(lra)) in Em, Eg, Emu, Egu.
  rewrite Esel, Rle_bool_true by lra.
  rewrite Em in Hnt.
  destruct (processSampleFwd_ix RNum cfg F LR HB HFk K nw o w HO p d Hp I ltac:(cbn; lra) ltac:(intros _; cbn; lra) Hnt)
    as (o' & out & jmin & E & S & Hjm & Hst & Hz0 & (x & Ex & Hx)).
  exists o'. rewrite E. f_equal. f_equal.
  rewrite (sp_out _ _ _ _ _ _ _ _ _ _ _ _ _ S). refine (eq_trans (audible_R _) _). f_equal.
  rewrite <- (tr_y _ _ _ _ _ Tr).
  apply (mem_click o _ _ (ivF RNum cfg F K o w p d jmin (Zfloor (pos RNum LR K (miOf RNum w d) p)))).
  { apply (oo_y _ _ _ _ _ _ _ HO). }
  { apply (oo_y _ _ _ _ _ _ _ (sp_ok _ _ _ _ _ _ _ _ _ _ _ _ _ S)). }
  2:{ apply (sp_y _ _ _ _ _ _ _ _ _ _ _ _ _ S). }
  clear S E Esel Hst.
  intros y Hy. destruct (zAt_nz cfg F HB HF y Hy) as (Znz & Zez & _).
  unfold ivF. rewrite <- Em, <- Emu, <- Eg, <- Egu. rewrite <- Em in Hjm, Hz0.
  unfold t0. cbn [teq tofZ RNum]. rewrite Req_bool_false by lra. rewrite Eq.
  unfold pos. change (val RNum LR p) with (p : R).
  change (val RNum LR (o_phred o)) with (o_phred o : R) in Hz0. rewrite Eq in Hz0.
  assert (Hp' := proj2 Hp). change (val RNum LR p) with (p : R) in Hp'.
  assert (Hh : (2 ^ (K - m) = 2 * len)%Z) by (rewrite Ll, Hmu1; apply len_half; lia).
  rewrite <- Ll. rewrite Hh in *.
  rewrite (half_floor cfg HB) by lra. set (jmax := Zfloor (p * IZR len)) in *.
  assert (HlenR : 4 <= IZR len) by (apply (IZR_le 4); lia).
  set (n0 := (2 ^ (K - m0))%Z) in *. set (c := Zfloor (q * IZR n0)) in *.
  assert (Hn0 : (4 <= n0)%Z) by (apply (Z.pow_le_mono_r 2 2); lia).
  set (s := (2 ^ (m0 - mu))%Z) in *.
  assert (Hs1 : (1 <= s)%Z) by (apply (Z.pow_le_mono_r 2 0); lia).
  assert (Hsp : (len = n0 * s)%Z) by (rewrite Ll; unfold n0, s; rewrite <- Z.pow_add_r by lia; f_equal; lia).
  assert (Hs1R : 1 <= IZR s) by (apply (IZR_le 1); lia).
  assert (HspR : IZR len = IZR n0 * IZR s) by (rewrite Hsp; apply mult_IZR).
  assert (Fc1 := Zfloor_lb (q * IZR n0)). assert (Fc2 := Zfloor_ub (q * IZR n0)). fold c in Fc1, Fc2.
  assert (FT1 := Zfloor_lb (q * IZR len)). assert (FT2 := Zfloor_ub (q * IZR len)). fold T in FT1, FT2.
  assert (Fx1 := Zfloor_lb (p * IZR len)). assert (Fx2 := Zfloor_ub (p * IZR len)). fold jmax in Fx1, Fx2.
  assert (HJr : IZR J <= q * IZR len < IZR J + IZR s).
  { unfold J. rewrite mult_IZR. fold s. rewrite HspR. split; nra. }
  assert (HJ0 : (0 <= J)%Z).
  { unfold J. apply Z.mul_nonneg_nonneg; [|lia]. unfold c. apply Zfloor_lub. apply Rmult_le_pos; [lra|]. apply (IZR_le 0). lia. }
  assert (HJT : (J <= T)%Z) by (unfold T; apply Zfloor_lub; lra).
  assert (HTl : (T < len)%Z) by (apply lt_IZR; assert (q * IZR len < IZR len) by nra; lra).
  assert (Hjx : (0 <= jmax < len)%Z).
  { split; [unfold jmax; apply Zfloor_lub; apply Rmult_le_pos; lra|].
    apply lt_IZR. assert (p * IZR len < IZR len) by nra. lra. }
  assert (Esum : forall z : C, sumFrom (fun i => RtoC (d * IZR len * kink (entry src st mu) i) * click z ((q - IZR i / IZR len) / d))%C (J + 1) (T + 1)
     = sumC (fun i => RtoC (d * IZR len * kink (entry src st mu) (i + 1)) * click z ((q - (IZR i + 1) / IZR len) / d))%C J (Z.to_nat (T - J))).
  { intros z. rewrite sumFrom_C. replace (T + 1 - (J + 1))%Z with (T - J)%Z by lia.
    generalize (Z.to_nat (T - J)) as k. intros k. generalize J as a. induction k as [|k IH]; intros a; cbn [sumC]; [reflexivity|].
    rewrite IH, plus_IZR. reflexivity. }
  rewrite Esum.
  assert (Mix : forall I, is_int (zAt RNum cfg F y) (fun u => wave (entry src st mu) (q + d * u)) 0 1 I ->
     is_int (zAt RNum cfg F y) (mixed src st q d (m, 0, mu, 1)) 0 1 I).
  { intros I1 HI. eapply is_int_ext; [lra| |exact HI]. intros u _. cbn. ring. }
  assert (Low : forall v V : C, mixVal RNum v V 0 1 = V).
  { intros [v1 v2] [V1 V2]. unfold mixVal, caddx, tdotp. cbn [tfuse Z.eqb tadd tmul RNum fst snd]. apply C_eq; cbn [fst snd]; ring. }
  rewrite Low.
  destruct (Req_dec (q * IZR n0) (IZR c)) as [On|Off].
  - (* on the coarse grid: nothing is lost *)
    assert (EJT : J = T).
    { symmetry. unfold T. rewrite HspR, <- Rmult_assoc, On, <- mult_IZR. apply Zfloor_IZR. }
    rewrite EJT, Z.sub_diag. cbn [Z.to_nat sumC].
    assert (Ejm := proj2 (idxFwd_drop st o p d w' m mu 0 1 x Tr Hs ltac:(fold m0; lia) Hf (proj1 Hdr) Hsh Ex) (eq_sym On)).
    rewrite <- Hx in Ejm. fold K m0 n0 q c in Ejm. rewrite Hh in Ejm.
    assert (Ejm2 : (c * 2 ^ (m0 - m) = 2 * J)%Z).
    { unfold J. fold s. replace (m0 - m)%Z with (Z.succ (m0 - mu)) by lia. rewrite Z.pow_succ_r by lia. fold s. ring. }
    rewrite Ejm2 in Ejm.
    assert (HqJ : q * IZR len = IZR J).
    { rewrite HspR, <- Rmult_assoc, On. unfold J. rewrite mult_IZR. reflexivity. }
    destruct (fwd_exact cfg F HB y Zez (entry src st mu) (slot RNum o w mu) L4 Sl q p d (jmin / 2)%Z jmax Hq Hp' Hdr Hstep)
      as (I1 & A1 & B1).
    { fold len. split; [apply Z.div_pos; lia|apply Z.div_lt_upper_bound; lia]. }
    { fold len. destruct (Req_bool_spec q 0) as [H0|H0].
      - rewrite (Hz0 H0). apply (half_last cfg HB); lia.
      - assert (J <> 0%Z). { intros H. rewrite H in HqJ. assert (0 < q * IZR len) by (apply Rmult_lt_0_compat; lra). lra. }
        rewrite Z.mod_small in Ejm by lia.
        assert (Eh : (jmin / 2 = J - 1)%Z) by (rewrite Ejm; symmetry; apply Z.div_unique with 1%Z; lia).
        rewrite Eh, minus_IZR. lra. }
    { reflexivity. }
    exists I1. split; [now apply Mix|].
    refine (eq_trans B1 _). match goal with |- @eq _ ?a ?b => change (@eq C a b) end. ring.
  - assert (Hin : IZR c < q * IZR n0) by lra.
    assert (Ejm := proj1 (idxFwd_drop st o p d w' m mu 0 1 x Tr Hs ltac:(fold m0; lia) Hf (proj1 Hdr) Hsh Ex) Hin).
    rewrite <- Hx in Ejm. fold K m0 n0 q c in Ejm.
    replace (m0 - m - 1)%Z with (m0 - mu)%Z in Ejm by lia. fold s J in Ejm. rewrite Ejm.
    assert (Hqpos : 0 < q).
    { destruct (Req_dec q 0) as [H0|H0]; [|lra]. rewrite H0, Rmult_0_l in Hin, Fc2.
      assert (c < 0)%Z by (apply lt_IZR; lra). unfold c in H. rewrite H0, Rmult_0_l in H. change 0 with (IZR 0) in H.
      rewrite Zfloor_IZR in H. lia. }
    destruct (fwd_exact cfg F HB y Zez (entry src st mu) (slot RNum o w mu) L4 Sl q p d T jmax Hq Hp' Hdr Hstep)
      as (I1 & A1 & B1).
    { fold len. lia. }
    { rewrite Req_bool_false by lra. fold len. lra. }
    { reflexivity. }
    exists I1. split; [now apply Mix|].
    fold len in B1. destruct Hstep as [kk Hk].
    assert (Hkk : (jmax <? J)%Z = (jmax <? T)%Z /\ IZR kk = if (jmax <? T)%Z then 1 else 0).
    { assert (kk = 0 \/ kk = 1)%Z.
      { assert (kk <= -1 \/ kk = 0 \/ kk = 1 \/ 2 <= kk)%Z by lia.
        destruct H as [H|[H|[H|H]]]; auto; apply IZR_le in H; lra. }
      destruct H as [-> | ->].
      - assert (q * IZR len < p * IZR len) by (apply Rmult_lt_compat_r; lra).
        assert (T < jmax + 1)%Z by (apply lt_IZR; rewrite plus_IZR; lra).
        replace (jmax <? J)%Z with false by (symmetry; apply Z.ltb_ge; lia).
        replace (jmax <? T)%Z with false by (symmetry; apply Z.ltb_ge; lia). auto.
      - assert (p * IZR len <= (q - /2) * IZR len) by (apply Rmult_le_compat_r; lra).
        assert (IZR s * 4 <= IZR len) by (rewrite HspR; assert (4 <= IZR n0) by (apply (IZR_le 4); lia); nra).
        assert (jmax < J)%Z by (apply lt_IZR; lra).
        replace (jmax <? J)%Z with true by (symmetry; apply Z.ltb_lt; lia).
        replace (jmax <? T)%Z with true by (symmetry; apply Z.ltb_lt; lia). auto. }
    destruct Hkk as [Hfl Hkk].
    refine (eq_trans (fwd_off cfg F HB y Zez Znz (entry src st mu) (slot RNum o w mu) L4 Sl q p d J T jmax Hqpos Hd0 HJ0 HJT HTl Hjx Hfl _) _).
    + rewrite <- Hkk. exact Hk.
    + fold len. rewrite B1. match goal with |- @eq _ ?a ?b => change (@eq C a b) end. ring.
Qed.
End Click.
