(** * PClick: supporting facts for the statements about clicks *)
From Coq Require Import ZArith List Bool Reals Lia Lra Arith Psatz.
From Flocq Require Import Core.
From Verif Require Import Num Maths CrossFader Wavetable Filters Osc Spec SpecC SpecT NumFacts Laws CFFacts
  WTFacts BuildFacts OscFacts OscStep OscRun OscHist CFHist PTables RNum RLaws Demo.
From Coquelicot Require Import Coquelicot.
From Verif Require Import SpecE SpecX SpecY ExactMath ExactStep ExactRun ExactHist ExactCover ExactLaws ExactClick PExact.
Import ListNotations.
Local Open Scope R_scope.

(** one more call after a history *)
Lemma run_snoc (src : Resampler RNum) cfg F ops : forall o o1 ys op o2 zs,
  Osc.run RNum src cfg F o ops = Ok (o1, ys) -> Osc.apply RNum src cfg F o1 op = Ok (o2, zs) ->
  Osc.run RNum src cfg F o (ops ++ [op]) = Ok (o2, ys ++ zs).
Proof.
  induction ops as [|op0 ops IH]; intros o o1 ys op o2 zs H1 H2; cbn [app Osc.run] in *.
  - injection H1 as <- <-. rewrite H2. cbn [bind app]. now rewrite app_nil_r.
  - apply bind_ok in H1. destruct H1 as ([o3 y3] & E3 & H1). rewrite E3. cbn [bind].
    apply bind_ok in H1. destruct H1 as ([o4 y4] & E4 & H1). injection H1 as <- <-.
    rewrite (IH _ _ _ _ _ _ E4 H2). cbn [bind]. now rewrite app_assoc.
Qed.

Lemma one_more src cfg F ops st ys dir p y : (1 <= batch cfg)%nat -> exactFilter F ->
  plays src (dbg cfg) F None ops (Some st) ys ->
  (forall o : Osc RNum, tracks src cfg F st o -> exists o', processOne RNum cfg F dir o p = Ok (o', y)) ->
  outputs RNum (Osc.run RNum src cfg F (osc_new RNum F) (ops ++ [OpProcess RNum dir [p]])) = Ok (ys ++ [y]).
Proof.
  intros HB HF Hp H.
  destruct (plays_exact src cfg F HB HF None ops (Some st) ys Hp (osc_new RNum F) I) as (o' & E & Tr).
  cbn [tracksO] in Tr. destruct (H o' Tr) as (o2 & E2).
  assert (Ea : Osc.apply RNum src cfg F o' (OpProcess RNum dir [p]) = Ok (o2, [y])).
  { cbn [Osc.apply]. unfold process. rewrite (oo_wt _ _ _ _ _ _ _ (tr_ok _ _ _ _ _ Tr)).
    rewrite assert_ok by reflexivity. cbn [bind]. rewrite assert_ok by reflexivity. cbn [bind].
    cbn [List.map processLoop]. rewrite E2. reflexivity. }
  rewrite (run_snoc _ _ _ _ _ _ _ _ _ _ E Ea). reflexivity.
Qed.

(** the state of the cross-fader of a new table *)
Lemma built_state (src : Resampler RNum) dbg wfs K w sr fade : wellFormed RNum wfs 1 K -> (K <= 4)%Z ->
  0 < sr -> 1 <= fade * sr < 2 -> wt_build RNum src dbg wfs 1 sr fade = Ok (Some w) ->
  table src dbg wfs 1 w /\ cf_num (wt_cf w) = 1%Z /\ cfState RNum (wt_cf w) = (0, 0, 0)%Z.
Proof.
  intros HW HK4 Hs Hf Hb. assert (Hf' : 1 <= fade * sr < IZR int_max).
  { split; [lra|]. apply Rlt_trans with 2; [lra|]. apply IZR_lt. reflexivity. }
  assert (HT := t_build src dbg wfs 1 sr fade w Hs Hf' Hb). split; [exact HT|].
  assert (HW' := HW). destruct HW' as (HK & Hnw & Hl & Hm).
  destruct (wt_build_some RNum src dbg LR wfs 1 sr fade K w HK Hnw Hl Hm Hb) as (C1 & k' & Ek & Ec).
  assert (k' = 1%Z).
  { unfold tcast in Ek. cbn [ttrunc tmul RNum] in Ek.
    assert (E1 : Ztrunc (fade * sr) = 1%Z).
    { rewrite Ztrunc_floor by lra. apply Zfloor_imp. split; [exact (proj1 Hf)|]. cbn. lra. }
    rewrite E1 in Ek. rewrite in_int_true in Ek by (unfold int_min, int_max; lia). congruence. }
  subst k'.
  destruct (cf_make_pow2 RNum dbg LR 1 K sr ltac:(lia)) as (c & Ec' & N1 & N2 & N3 & N4 & N5 & N6).
  rewrite Ec in Ec'. injection Ec' as Ec'. rewrite <- Ec' in *. split; [exact N1|].
  unfold cfState. rewrite N3, N4. 
  assert (Hx : cf_next (wt_cf w) = 0%Z).
  { rewrite N5. fold (req RNum (wt_cf w) (tfrac RNum 1 10)).
    apply (entryFor_fun K (1/10)); [lia| |].
    - apply (req_entry RNum LR K (wt_cf w) (tfrac RNum 1 10) ltac:(lia) (table_scale src dbg wfs 1 K w HW HT) I).
    - split; [lia|]. split; [|left; reflexivity].
      assert (K = 2 \/ K = 3 \/ K = 4)%Z by lia. destruct H as [-> | [-> | ->]]; [left; lia| |]; right; cbn; lra. }
  now rewrite Hx.
Qed.

(** ** How large the click is for the smallest shipped filter *)
Definition a1 : R := 199929732 / 100000000.
Definition z1 : C := (- a1, a1).
Definition r1 : C := (0, - a1).

Lemma filt1 : f_r (filt RNum kType1) = [r1] /\ f_z (filt RNum kType1) = [z1].
Proof.
  assert (A : IZR 0 / IZR 1 = 0) by field. assert (B : IZR (-199929732) / IZR 100000000 = - a1) by (unfold a1; field).
  assert (D : IZR 199929732 / IZR 100000000 = a1) by (unfold a1; field).
  split.
  - transitivity [((IZR 0 / IZR 1, IZR (-199929732) / IZR 100000000) : C)]; [reflexivity|]. now rewrite A, B.
  - transitivity [((IZR (-199929732) / IZR 100000000, IZR 199929732 / IZR 100000000) : C)]; [reflexivity|]. now rewrite B, D.
Qed.

Lemma click1 : Re (2 * r1 * click z1 (/2))%C <= - / 100.
Proof.
  set (h := a1 / 2). assert (Ha : a1 = 2 * h) by (unfold h; field).
  assert (Hh : 0.9996 <= h <= 0.99966) by (unfold h, a1; lra).
  set (G := (1 - h) * cos (2 * h) - h * sin (2 * h) - exp (- h) * cos (3 * h)).
  assert (E : Re (2 * r1 * click z1 (/2))%C = / a1 * exp (- a1) * G).
  { unfold click.
    assert (Q : (RtoC 2 * r1 * (1 / (z1 * z1)) = RtoC (/ a1))%C).
    { assert (a1 <> 0) by (unfold a1; lra).
      assert (N : z1 <> RtoC 0) by (intros N; apply (f_equal snd) in N; cbn in N; lra).
      transitivity (RtoC (/ a1) * (z1 * z1) * (1 / (z1 * z1)))%C; [|field; exact N].
      f_equal. unfold r1, z1. apply C_eq; cbn; field; assumption. }
    transitivity (Re (RtoC (/ a1) * (cexp z1 * (1 + RtoC (/2) * z1 - cexp (RtoC (/2) * z1))))%C).
    { rewrite <- Q. f_equal. unfold Cdiv. ring. }
    unfold z1, cexp. cbn [fst snd Cmult Cplus Cminus Copp RtoC Re].
    replace (/ 2 * - a1 - 0 * a1) with (- h) by (unfold h; field).
    replace (/ 2 * a1 + 0 * - a1) with h by (unfold h; field).
    unfold G. replace (2 * h) with a1 by lra. replace (3 * h) with (a1 + h) by (unfold h; field).
    rewrite cos_plus. unfold h. ring. }
  rewrite E.
  assert (S1 : 0.83 <= sin h).
  { destruct (pre_sin_bound h 0 ltac:(lra) ltac:(lra)) as [S _].
    unfold sin_approx, sin_term in S. cbn [Nat.mul Nat.add sum_f_R0 pow fact] in S.
    rewrite !INR_IZR_INZ in S. cbn in S. assert (h * h <= 1) by nra. assert (h * h * h <= 1) by nra. nra. }
  assert (S2 : 0.5 <= cos h).
  { destruct (pre_cos_bound h 0 ltac:(lra) ltac:(lra)) as [S _].
    unfold cos_approx, cos_term in S. cbn [Nat.mul Nat.add sum_f_R0 pow fact] in S.
    rewrite !INR_IZR_INZ in S. cbn in S. nra. }
  assert (S3 : 0.82 <= sin (2 * h)).
  { rewrite sin_2a. nra. }
  assert (C2 := COS_bound (2 * h)). assert (C3 := COS_bound (3 * h)).
  assert (Ex : exp (- h) <= 0.5002).
  { rewrite exp_Ropp. assert (1 + h < exp h) by (apply exp_ineq1; lra).
    apply Rle_trans with (/ (1 + h)).
    - apply Rinv_le_contravar; lra.
    - apply Rmult_le_reg_r with (1 + h); [lra|]. rewrite Rinv_l by lra. lra. }
  assert (Ep := exp_pos (- h)).
  assert (HG : G <= - 0.3).
  { unfold G. assert ((1 - h) * cos (2 * h) <= 0.0004) by nra. assert (0.81 <= h * sin (2 * h)) by nra.
    assert (- (exp (- h) * cos (3 * h)) <= exp (- h)) by nra. lra. }
  assert (Ea : / 9 <= exp (- a1)).
  { rewrite exp_Ropp. apply Rinv_le_contravar; [apply exp_pos|].
    apply Rle_trans with (exp (1 + 1)).
    - destruct (Rle_lt_dec a1 2) as [H|H]; [|unfold a1 in H; lra]. destruct H as [H|H]; [left; apply exp_increasing; lra|right; f_equal; lra].
    - rewrite exp_plus. assert (A := exp_le_3). assert (B := exp_pos 1). nra. }
  assert (Hi : / 2 <= / a1) by (apply Rinv_le_contravar; unfold a1; lra).
  assert (Hm : / 18 <= / a1 * exp (- a1)) by nra.
  assert (Hm2 : / a1 * exp (- a1) * G <= / a1 * exp (- a1) * - 0.3) by (apply Rmult_le_compat_l; lra). lra.
Qed.

(** one disturbed pole *)
Lemma disturbed1 e ys : length ys = 1%nat ->
  audible (disturbed (filt RNum kType1) e ys) = audible ys + Re (2 * r1 * e z1)%C.
Proof.
  intros Hl. destruct ys as [|y [|]]; try discriminate. destruct filt1 as [E1 E2].
  unfold disturbed, audible. rewrite E1, E2. cbn [combine List.map fold_right fst snd].
  destruct y as [y1 y2]. cbn. ring.
Qed.
Lemma Re_scal (k : R) (r c : C) : Re (2 * r * (RtoC k * c))%C = k * Re (2 * r * c)%C.
Proof. destruct r as [u v], c as [x y]. cbn. ring. Qed.
