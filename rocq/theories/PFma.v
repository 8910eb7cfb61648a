(** * PFma: rounding error of xsimd's complex fma, fms, fnma and product, fused or not *)
From Coq Require Import ZArith List Bool Reals Lia Lra.
From Flocq Require Import Core IEEE754.BinarySingleNaN.
From Verif Require Import Num Osc B32 NumFacts B32Facts.
From Coquelicot Require Import Coquelicot.
From Verif Require Import PApx.
Import ListNotations.
Local Open Scope R_scope.

(** the product inside a fused or unfused multiply-add *)
Definition pr (b : bool) (x y : f32) : R := if b then v32 x * v32 y else rnd32 (v32 x * v32 y).
Lemma pr_err b x y : Rabs (pr b x y - v32 x * v32 y) <= eps * Rabs (v32 x * v32 y) + tau.
Proof.
  destruct b; cbn [pr]; [|apply rnd_err].
  rewrite Rminus_eq_0, Rabs_R0. assert (T := tau_pos). assert (P := Rabs_pos (v32 x * v32 y)). unfold eps. lra.
Qed.
Lemma pr_abs b x y : Rabs (pr b x y) <= 1.01 * Rabs (v32 x * v32 y) + tau.
Proof.
  assert (E := pr_err b x y). assert (P := Rabs_pos (v32 x * v32 y)).
  replace (pr b x y) with (v32 x * v32 y + (pr b x y - v32 x * v32 y)) by ring.
  eapply Rle_trans; [apply Rabs_triang|]. unfold eps in *. lra.
Qed.
Lemma pr_zero b x y : v32 x * v32 y = 0 -> pr b x y = 0.
Proof. intros H. destruct b; cbn [pr]; rewrite H; [reflexivity|]. apply round_0; auto with typeclass_instances. Qed.
Lemma pr_rnd b x y : rnd32 (pr b x y) = rnd32 (v32 x * v32 y).
Proof. destruct b; cbn [pr]; [reflexivity|]. apply rnd32_id. apply generic_format_round; auto with typeclass_instances. Qed.

Lemma big_one : 1000 <= Big.
Proof. unfold Big. apply IZR_le. vm_compute. discriminate. Qed.

Lemma xfma_val b x y z : fin32 x = true -> fin32 y = true -> fin32 z = true ->
  2 * Rabs (v32 x * v32 y) + 2 * Rabs (v32 z) + 2 <= Big ->
  fin32 (f32_xfma b x y z) = true /\ v32 (f32_xfma b x y z) = rnd32 (pr b x y + v32 z).
Proof.
  intros Fx Fy Fz Hs. assert (P := Rabs_pos (v32 x * v32 y)). assert (Q := Rabs_pos (v32 z)). assert (T := tau_small).
  assert (S : small32 (pr b x y + v32 z)).
  { apply big_small. assert (A := pr_abs b x y). eapply Rle_trans; [apply Rabs_triang|]. lra. }
  unfold f32_xfma. destruct b.
  - now apply fma32.
  - destruct (mul32 x y Fx Fy) as [F V]; [apply big_small; lra|].
    cbn [pr] in *. rewrite <- V in *. now apply add32.
Qed.
Lemma xfms_val b x y z : fin32 x = true -> fin32 y = true -> fin32 z = true ->
  2 * Rabs (v32 x * v32 y) + 2 * Rabs (v32 z) + 2 <= Big ->
  fin32 (f32_xfms b x y z) = true /\ v32 (f32_xfms b x y z) = rnd32 (pr b x y - v32 z).
Proof.
  intros Fx Fy Fz Hs. unfold f32_xfms. destruct b.
  - assert (Vz : v32 (Bopp z) = - v32 z) by apply B2R_Bopp.
    destruct (xfma_val true x y (Bopp z) Fx Fy) as [F V].
    + rewrite is_finite_Bopp. exact Fz.
    + rewrite Vz, Rabs_Ropp. exact Hs.
    + split; [exact F|]. unfold f32_xfma in V. rewrite V, Vz. reflexivity.
  - assert (P := Rabs_pos (v32 x * v32 y)). assert (Q := Rabs_pos (v32 z)). assert (T := tau_small).
    destruct (mul32 x y Fx Fy) as [F V]; [apply big_small; lra|].
    cbn [pr]. rewrite <- V. destruct (sub32 _ z F Fz) as (F2 & V2 & _); [|split; assumption].
    apply big_small. rewrite V. assert (A := pr_abs false x y). cbn [pr] in A.
    unfold Rminus. eapply Rle_trans; [apply Rabs_triang|]. rewrite Rabs_Ropp. lra.
Qed.

(** x y + w, the way a lane computes it *)
Definition rfma (b : bool) (x y : f32 * f32) (w : C) : C :=
  (rnd32 (pr b (fst x) (fst y) - rnd32 (pr b (snd x) (snd y) - fst w)),
   rnd32 (pr b (fst x) (snd y) + rnd32 (pr b (snd x) (fst y) + snd w))).

Lemma cmod_pos2 (a b : R) : Rabs a + Rabs b <= 1.4143 * Cmod (a, b).
Proof.
  assert (E : Cmod (a, b) = sqrt (a ^ 2 + b ^ 2)) by reflexivity.
  assert (S : Rabs a + Rabs b <= sqrt (2 * (a ^ 2 + b ^ 2))).
  { rewrite <- (sqrt_pow2 (Rabs a + Rabs b)) by (assert (A := Rabs_pos a); assert (B := Rabs_pos b); lra).
    apply sqrt_le_1_alt. rewrite <- (pow2_abs a), <- (pow2_abs b). assert (Q := pow2_ge_0 (Rabs a - Rabs b)). nra. }
  eapply Rle_trans; [exact S|]. rewrite sqrt_mult_alt, <- E by lra.
  apply Rmult_le_compat_r; [apply Cmod_ge_0|apply sqrt2_bound].
Qed.
(** the two products with one component *)
Lemma pair_err b a c d : Cmod (pr b a c - v32 a * v32 c, pr b a d - v32 a * v32 d) <=
  eps * (Rabs (v32 a) * Cmod (v32 c, v32 d)) + 2 * tau.
Proof.
  replace (Rabs (v32 a) * Cmod (v32 c, v32 d)) with (Cmod (v32 a * v32 c, v32 a * v32 d)).
  - apply cmod_comp; [unfold eps; lra|left; apply tau_pos| |]; apply pr_err.
  - rewrite <- Cmod_R, <- Cmod_mult. f_equal. unfold RtoC, Cmult. cbn [fst snd]. f_equal; ring.
Qed.
Lemma cmod_swap a b : Cmod (a, b) = Cmod (b, a).
Proof. unfold Cmod; cbn [fst snd]. f_equal. ring. Qed.
Lemma cmod_flip a b : Cmod (- a, b) = Cmod (a, b).
Proof. unfold Cmod; cbn [fst snd]. f_equal. ring. Qed.

Lemma rfma_err b x y w G H B : Cmod (cv x) * Cmod (cv y) <= G -> Cmod w <= H -> Cmod (cv x * cv y + w)%C <= B ->
  Cmod (rfma b x y w - (cv x * cv y + w))%C <= eps * (2.5 * G + 1.00001 * (H + B)) + 10 * tau.
Proof.
  intros HG HH HB. destruct x as [x1 x2], y as [y1 y2], w as [w1 w2]. unfold rfma, cv in *. cbn [fst snd] in *.
  set (p11 := pr b x1 y1) in *. set (p22 := pr b x2 y2) in *. set (p12 := pr b x1 y2) in *. set (p21 := pr b x2 y1) in *.
  assert (T := tau_pos).
  assert (E1 := pair_err b x1 y1 y2). fold p11 p12 in E1.
  assert (E2 := pair_err b x2 y2 y1). fold p22 p21 in E2. rewrite (cmod_swap (v32 y2)) in E2.
  set (Y := Cmod (v32 y1, v32 y2)) in *. assert (Y0 : 0 <= Y) by apply Cmod_ge_0.
  assert (K := cmod_pos2 (v32 x1) (v32 x2)). set (X := Cmod (v32 x1, v32 x2)) in *.
  assert (A1 := Rabs_pos (v32 x1)). assert (A2 := Rabs_pos (v32 x2)).
  assert (K2 : (Rabs (v32 x1) + Rabs (v32 x2)) * Y <= 1.4143 * G).
  { apply Rle_trans with (1.4143 * X * Y); [now apply Rmult_le_compat_r|lra]. }
  assert (K3 : Rabs (v32 x2) * Y <= G).
  { eapply Rle_trans; [|exact HG]. apply Rmult_le_compat_r; [exact Y0|]. unfold X. exact (cmod_snd (v32 x1, v32 x2)). }
  assert (G0 : 0 <= Rabs (v32 x1) * Y) by now apply Rmult_le_pos.
  assert (G1 : 0 <= Rabs (v32 x2) * Y) by now apply Rmult_le_pos.
  (* inner *)
  set (I := ((v32 x2 * v32 y2 - w1)%R, (v32 x2 * v32 y1 + w2)%R) : C).
  assert (BI : Cmod I <= G + H).
  { unfold I. replace (((v32 x2 * v32 y2 - w1)%R, (v32 x2 * v32 y1 + w2)%R) : C)
      with (RtoC (v32 x2) * (v32 y2, v32 y1) + (- w1, w2)%R)%C.
    - eapply Rle_trans; [apply Cmod_triangle|]. rewrite Cmod_mult, Cmod_R, (cmod_swap (v32 y2)), cmod_flip. fold Y. lra.
    - unfold RtoC, Cmult, Cplus. cbn [fst snd]. f_equal; ring. }
  set (i1 := rnd32 (p22 - w1)). set (i2 := rnd32 (p21 + w2)).
  assert (EI : Cmod ((i1, i2) - I)%C <= eps * (Rabs (v32 x2) * Y) + 2 * tau + eps * (G + H + (eps * (Rabs (v32 x2) * Y) + 2 * tau)) + 2 * tau).
  { apply cround; [|exact BI].
    replace ((((p22 - w1)%R, (p21 + w2)%R) : C) - I)%C with (((p22 - v32 x2 * v32 y2)%R, (p21 - v32 x2 * v32 y1)%R) : C); [exact E2|].
    unfold I, Cminus, Cplus, Copp. cbn [fst snd]. f_equal; ring. }
  (* outer *)
  set (V := ((v32 x1, v32 x2) * (v32 y1, v32 y2) + (w1, w2))%C) in *.
  eapply Rle_trans; [apply (cround _ _ _ (eps * (Rabs (v32 x1) * Y) + 2 * tau +
    (eps * (Rabs (v32 x2) * Y) + 2 * tau + eps * (G + H + (eps * (Rabs (v32 x2) * Y) + 2 * tau)) + 2 * tau)) B)|].
  - replace ((((p11 - i1)%R, (p12 + i2)%R) : C) - V)%C with
      ((((p11 - v32 x1 * v32 y1)%R, (p12 - v32 x1 * v32 y2)%R) : C) + ((- (i1 - fst I))%R, (i2 - snd I)%R))%C.
    + eapply Rle_trans; [apply Cmod_triangle|]. apply Rplus_le_compat; [exact E1|]. rewrite cmod_flip.
      replace (((i1 - fst I)%R, (i2 - snd I)%R) : C) with ((i1, i2) - I)%C; [exact EI|].
      unfold Cminus, Cplus, Copp. cbn [fst snd]. f_equal; ring.
    + unfold V, I, Cminus, Cplus, Copp, Cmult. cbn [fst snd]. f_equal; ring.
  - exact HB.
  - assert (H0 : 0 <= H) by (eapply Rle_trans; [apply Cmod_ge_0|exact HH]).
    assert (B0 : 0 <= B) by (eapply Rle_trans; [apply Cmod_ge_0|exact HB]).
    unfold eps in *. lra.
Qed.

Section Lanes.
Variable lm : Libm.
Notation N := (B32 lm).
Notation b := (lm_fused lm).

(** what the four operations compute *)
Lemma comps (x y : f32 * f32) G : Cmod (cv x) * Cmod (cv y) <= G ->
  Rabs (v32 (fst x) * v32 (fst y)) <= G /\ Rabs (v32 (snd x) * v32 (snd y)) <= G /\
  Rabs (v32 (fst x) * v32 (snd y)) <= G /\ Rabs (v32 (snd x) * v32 (fst y)) <= G.
Proof.
  intros H. assert (A := cmod_fst (cv x)). assert (B := cmod_snd (cv x)). assert (C := cmod_fst (cv y)). assert (D := cmod_snd (cv y)).
  unfold cv in A at 1, B at 1, C at 1, D at 1. cbn [fst snd] in *.
  repeat split; rewrite Rabs_mult; eapply Rle_trans; try exact H; apply Rmult_le_compat; auto; apply Rabs_pos.
Qed.
Lemma inner_abs (p q w G H : R) : Rabs p <= 1.01 * G + tau -> Rabs w <= H -> Rabs (rnd32 (p + w)) <= 1.02 * (G + H) + / 1000.
Proof.
  intros Hp Hw. assert (R := rnd_err (p + w)). assert (T := tau_small). assert (T0 := tau_pos).
  assert (A : Rabs (p + w) <= 1.01 * G + tau + H) by (eapply Rle_trans; [apply Rabs_triang|]; lra).
  replace (rnd32 (p + w)) with ((p + w) + (rnd32 (p + w) - (p + w))) by ring.
  eapply Rle_trans; [apply Rabs_triang|]. assert (P := Rabs_pos p). assert (Q := Rabs_pos w). unfold eps in *. lra.
Qed.

Lemma cfma_val x y z G H : cfin x -> cfin y -> cfin z -> Cmod (cv x) * Cmod (cv y) <= G -> Cmod (cv z) <= H ->
  8 * (G + H + 1) <= Big ->
  cfin (cfma N x y z) /\ cv (cfma N x y z) = rfma b x y (cv z).
Proof.
  intros [Fx1 Fx2] [Fy1 Fy2] [Fz1 Fz2] HG HH Hb. destruct (comps x y G HG) as (P1 & P2 & P3 & P4).
  assert (Q1 := Rle_trans _ _ _ (cmod_fst (cv z)) HH). assert (Q2 := Rle_trans _ _ _ (cmod_snd (cv z)) HH).
  unfold cv in Q1, Q2. cbn [fst snd] in Q1, Q2.
  assert (G0 : 0 <= G) by (eapply Rle_trans; [apply Rabs_pos|exact P1]).
  assert (H0 : 0 <= H) by (eapply Rle_trans; [apply Rabs_pos|exact Q1]).
  assert (A1 := pr_abs b (snd x) (snd y)). assert (A2 := pr_abs b (snd x) (fst y)).
  unfold cfma, cfin, cv, rfma. cbn [fst snd txfma txfms B32].
  destruct (xfms_val b (snd x) (snd y) (fst z) Fx2 Fy2 Fz1 ltac:(lra)) as [F1 V1].
  destruct (xfma_val b (snd x) (fst y) (snd z) Fx2 Fy1 Fz2 ltac:(lra)) as [F2 V2].
  destruct (xfms_val b (fst x) (fst y) _ Fx1 Fy1 F1) as [F3 V3].
  { rewrite V1. assert (A := inner_abs (pr b (snd x) (snd y)) 0 (- v32 (fst z)) G H). rewrite Rabs_Ropp in A.
    specialize (A ltac:(lra) Q1). unfold Rminus. lra. }
  destruct (xfma_val b (fst x) (snd y) _ Fx1 Fy2 F2) as [F4 V4].
  { rewrite V2. assert (A := inner_abs (pr b (snd x) (fst y)) 0 (v32 (snd z)) G H ltac:(lra) Q2). lra. }
  rewrite V1 in V3. rewrite V2 in V4. split; [split; assumption|]. apply (f_equal2 pair); [exact V3|exact V4].
Qed.
Lemma cfms_val x y z G H : cfin x -> cfin y -> cfin z -> Cmod (cv x) * Cmod (cv y) <= G -> Cmod (cv z) <= H ->
  8 * (G + H + 1) <= Big ->
  cfin (cfms N x y z) /\ cv (cfms N x y z) = rfma b x y (- cv z)%C.
Proof.
  intros [Fx1 Fx2] [Fy1 Fy2] [Fz1 Fz2] HG HH Hb. destruct (comps x y G HG) as (P1 & P2 & P3 & P4).
  assert (Q1 := Rle_trans _ _ _ (cmod_fst (cv z)) HH). assert (Q2 := Rle_trans _ _ _ (cmod_snd (cv z)) HH).
  unfold cv in Q1, Q2. cbn [fst snd] in Q1, Q2.
  assert (G0 : 0 <= G) by (eapply Rle_trans; [apply Rabs_pos|exact P1]).
  assert (H0 : 0 <= H) by (eapply Rle_trans; [apply Rabs_pos|exact Q1]).
  assert (A1 := pr_abs b (snd x) (snd y)). assert (A2 := pr_abs b (snd x) (fst y)).
  unfold cfms, cfin, cv, rfma, Copp. cbn [fst snd txfma txfms B32].
  destruct (xfma_val b (snd x) (snd y) (fst z) Fx2 Fy2 Fz1 ltac:(lra)) as [F1 V1].
  destruct (xfms_val b (snd x) (fst y) (snd z) Fx2 Fy1 Fz2 ltac:(lra)) as [F2 V2].
  destruct (xfms_val b (fst x) (fst y) _ Fx1 Fy1 F1) as [F3 V3].
  { rewrite V1. assert (A := inner_abs (pr b (snd x) (snd y)) 0 (v32 (fst z)) G H ltac:(lra) Q1). lra. }
  destruct (xfma_val b (fst x) (snd y) _ Fx1 Fy2 F2) as [F4 V4].
  { rewrite V2. assert (A := inner_abs (pr b (snd x) (fst y)) 0 (- v32 (snd z)) G H). rewrite Rabs_Ropp in A.
    specialize (A ltac:(lra) Q2). unfold Rminus. lra. }
  rewrite V1 in V3. rewrite V2 in V4. split; [split; assumption|].
  apply (f_equal2 pair); [|exact V4]. refine (eq_trans V3 _). f_equal. f_equal. f_equal. ring.
Qed.
Lemma cfnma_val x y z G H : cfin x -> cfin y -> cfin z -> Cmod (cv x) * Cmod (cv y) <= G -> Cmod (cv z) <= H ->
  8 * (G + H + 1) <= Big ->
  cfin (cfnma N x y z) /\ cv (cfnma N x y z) = (- rfma b x y (- cv z))%C.
Proof.
  intros Fx Fy Fz HG HH Hb. destruct (cfms_val x y z G H Fx Fy Fz HG HH Hb) as [[F1 F2] V].
  assert (E : cfnma N x y z = (topp N (fst (cfms N x y z)), topp N (snd (cfms N x y z)))) by reflexivity.
  rewrite E, <- V. clear E V. unfold cfin, cv, Copp. cbn [fst snd topp B32].
  split; [split; [rewrite is_finite_Bopp; exact F1|rewrite is_finite_Bopp; exact F2]|].
  f_equal; apply B2R_Bopp.
Qed.
Lemma cxmul_val x y G : cfin x -> cfin y -> Cmod (cv x) * Cmod (cv y) <= G -> 8 * (G + 1) <= Big ->
  cfin (cxmul N x y) /\ cv (cxmul N x y) = rfma b x y (RtoC 0).
Proof.
  intros [Fx1 Fx2] [Fy1 Fy2] HG Hb. destruct (comps x y G HG) as (P1 & P2 & P3 & P4).
  assert (G0 : 0 <= G) by (eapply Rle_trans; [apply Rabs_pos|exact P1]).
  unfold cxmul, cfin, cv, rfma. cbn [fst snd txfma txfms tmul B32 RtoC].
  destruct (mul32 (snd x) (snd y) Fx2 Fy2) as [F1 V1]; [apply big_small; lra|].
  destruct (mul32 (snd x) (fst y) Fx2 Fy1) as [F2 V2]; [apply big_small; lra|].
  rewrite Rminus_0_r, Rplus_0_r, !pr_rnd. rewrite <- V1, <- V2.
  assert (R1 : Rabs (rnd32 (v32 (snd x) * v32 (snd y))) <= 1.01 * G + tau).
  { rewrite <- (pr_rnd true), pr_rnd. assert (A := pr_abs false (snd x) (snd y)). cbn [pr] in A. lra. }
  assert (R2 : Rabs (rnd32 (v32 (snd x) * v32 (fst y))) <= 1.01 * G + tau).
  { assert (A := pr_abs false (snd x) (fst y)). cbn [pr] in A. lra. }
  assert (T := tau_small).
  destruct (xfms_val b (fst x) (fst y) _ Fx1 Fy1 F1 ltac:(rewrite V1; lra)) as [F3 V3].
  destruct (xfma_val b (fst x) (snd y) _ Fx1 Fy2 F2 ltac:(rewrite V2; lra)) as [F4 V4].
  split; [split; assumption|]. apply (f_equal2 pair); [exact V3|exact V4].
Qed.

(** times a broadcast float *)
Lemma bc_cv s : cv (cbc N s) = RtoC (v32 s).
Proof. unfold cv, cbc, t0. cbn [fst snd tofZ B32]. rewrite (proj2 (ofZ32 0 ltac:(lia))). reflexivity. Qed.
Lemma rfma_bc x s (w : C) : generic_format radix2 (FLT_exp (-149) 24) (fst w) ->
  rfma b x (cbc N s) w = (rnd32 (pr b (fst x) s + fst w), rnd32 (pr b (snd x) s + snd w)).
Proof.
  intros Hw. assert (V0 : v32 (f32_ofZ 0) = 0) by apply (ofZ32 0 ltac:(lia)).
  unfold rfma, cbc, t0. cbn [fst snd tofZ B32].
  rewrite (pr_zero b (snd x)), (pr_zero b (fst x) (f32_ofZ 0)) by (rewrite V0; ring). f_equal.
  - f_equal. rewrite (rnd32_id (0 - fst w)); [ring|]. unfold Rminus. rewrite Rplus_0_l. now apply generic_format_opp.
  - rewrite Rplus_0_l. apply rnd32_id. apply generic_format_round; auto with typeclass_instances.
Qed.
Lemma bc_err x s (w : C) G B : generic_format radix2 (FLT_exp (-149) 24) (fst w) ->
  Cmod (cv x) * Rabs (v32 s) <= G -> Cmod (cv x * RtoC (v32 s) + w)%C <= B ->
  Cmod (rfma b x (cbc N s) w - (cv x * RtoC (v32 s) + w))%C <= eps * G + 2 * tau + eps * (B + (eps * G + 2 * tau)) + 2 * tau.
Proof.
  intros Hw HG HB. rewrite rfma_bc by exact Hw. apply cround; [|exact HB].
  replace ((((pr b (fst x) s + fst w)%R, (pr b (snd x) s + snd w)%R) : C) - (cv x * RtoC (v32 s) + w))%C
    with (((pr b (fst x) s - v32 (fst x) * v32 s)%R, (pr b (snd x) s - v32 (snd x) * v32 s)%R) : C).
  - eapply Rle_trans; [apply (cmod_comp _ _ (v32 (fst x) * v32 s) (v32 (snd x) * v32 s) eps tau)|].
    + unfold eps; lra.
    + left; apply tau_pos.
    + apply pr_err.
    + apply pr_err.
    + apply Rplus_le_compat_r. apply Rmult_le_compat_l; [unfold eps; lra|]. eapply Rle_trans; [|exact HG].
      rewrite <- (Cmod_R (v32 s)), <- Cmod_mult. right. f_equal. unfold cv, Cmult, RtoC. cbn [fst snd]. f_equal; ring.
  - apply injective_projections; unfold cv, Cminus, Cmult, Cplus, Copp, RtoC; cbn [fst snd]; ring.
Qed.
Lemma fmt_cv x : generic_format radix2 (FLT_exp (-149) 24) (fst (cv x)).
Proof. apply fmt32_B2R. Qed.
Lemma fmt_cvo x : generic_format radix2 (FLT_exp (-149) 24) (fst (- cv x)%C).
Proof. cbn [Copp fst]. apply generic_format_opp. apply fmt_cv. Qed.

Lemma cxmul_bc_val x s G : cfin x -> fin32 s = true -> Cmod (cv x) * Rabs (v32 s) <= G -> 8 * (G + 1) <= Big ->
  cfin (cxmul N x (cbc N s)) /\
  cv (cxmul N x (cbc N s)) = (rnd32 (v32 (fst x) * v32 s), rnd32 (v32 (snd x) * v32 s)).
Proof.
  intros Fx Fs HG Hb.
  assert (F0 : cfin (cbc N s)) by (apply (cnear_bc lm s (v32 s) 0 (near_exact s Fs))).
  rewrite <- Cmod_R, <- bc_cv in HG. destruct (cxmul_val x (cbc N s) G Fx F0 HG Hb) as [F V].
  split; [exact F|]. rewrite V. rewrite rfma_bc by apply generic_format_0. cbn [RtoC fst snd]. now rewrite !Rplus_0_r, !pr_rnd.
Qed.

(** errors of the operands *)
Notation Emul Bx Bs ex es := (Bx * es + Bs * ex + ex * es + eps * ((Bx + ex) * (Bs + es)) + 2 * tau).
Lemma cnear_xmulbc x s X S ex es Bx Bs : cnear x X ex -> near s S es -> Cmod X <= Bx -> Rabs S <= Bs ->
  16 * ((Bx + ex) * (Bs + es)) + 16 <= Big ->
  cnear (cxmul N x (cbc N s)) (X * RtoC S)%C (Emul Bx Bs ex es).
Proof.
  intros Nx Ns HX HS Hb. assert (Ax := cnear_mod _ _ _ _ Nx HX). assert (As := near_abs _ _ _ _ Ns HS).
  assert (HG : Cmod (cv x) * Cmod (cv (cbc N s)) <= (Bx + ex) * (Bs + es)).
  { rewrite bc_cv, Cmod_R. apply Rmult_le_compat; auto; [apply Cmod_ge_0|apply Rabs_pos]. }
  assert (F0 : cfin (cbc N s)) by (apply (cnear_bc lm s S es Ns)).
  assert (G0 : 0 <= (Bx + ex) * (Bs + es)) by (eapply Rle_trans; [|exact HG]; apply Rmult_le_pos; apply Cmod_ge_0).
  destruct (cxmul_val x (cbc N s) ((Bx + ex) * (Bs + es)) (proj1 Nx) F0 HG ltac:(lra)) as [F V].
  split; [exact F|]. rewrite V. clear V F.
  destruct Nx as [Fx Hx], Ns as [Fs Hs].
  assert (E : rfma b x (cbc N s) (RtoC 0) = (rnd32 (v32 (fst x) * v32 s), rnd32 (v32 (snd x) * v32 s))).
  { rewrite rfma_bc by apply generic_format_0. cbn [RtoC fst snd]. now rewrite !Rplus_0_r, !pr_rnd. }
  rewrite E. assert (R := crnd (v32 (fst x) * v32 s) (v32 (snd x) * v32 s)).
  assert (EQ : (((v32 (fst x) * v32 s)%R, (v32 (snd x) * v32 s)%R) : C) = (cv x * RtoC (v32 s))%C).
  { unfold cv, Cmult, RtoC. cbn [fst snd]. f_equal; ring. }
  rewrite EQ, Cmod_mult, Cmod_R in R.
  assert (G2 : eps * (Cmod (cv x) * Rabs (v32 s)) <= eps * ((Bx + ex) * (Bs + es))).
  { apply Rmult_le_compat_l; [unfold eps; lra|]. apply Rmult_le_compat; auto; [apply Cmod_ge_0|apply Rabs_pos]. }
  assert (P := cprod_err (cv x) (RtoC (v32 s)) X (RtoC S) ex es Bx Bs Hx ltac:(rewrite <- RtoC_minus, Cmod_R; exact Hs) HX ltac:(rewrite Cmod_R; exact HS)).
  replace ((rnd32 (v32 (fst x) * v32 s), rnd32 (v32 (snd x) * v32 s)) - X * RtoC S)%C with
    (((rnd32 (v32 (fst x) * v32 s) - v32 (fst x) * v32 s)%R, (rnd32 (v32 (snd x) * v32 s) - v32 (snd x) * v32 s)%R) + (cv x * RtoC (v32 s) - X * RtoC S))%C.
  - eapply Rle_trans; [apply Cmod_triangle|]. lra.
  - rewrite <- EQ. destruct (X * RtoC S)%C as [u1 u2]. unfold Cminus, Cplus, Copp; cbn [fst snd]. f_equal; ring.
Qed.

(** the bound of a product then a sum *)
Lemma bc_near x s (w W X : C) S ex es ew Bx Bs Bw : cnear x X ex -> near s S es -> Cmod (w - W)%C <= ew ->
  generic_format radix2 (FLT_exp (-149) 24) (fst w) ->
  Cmod X <= Bx -> Rabs S <= Bs -> Cmod (X * RtoC S + W)%C <= Bw ->
  Cmod (rfma b x (cbc N s) w - (X * RtoC S + W))%C <= Emul Bx Bs ex es + ew + eps * (Bw + Emul Bx Bs ex es + ew) + 2 * tau.
Proof.
  intros Nx Ns Hw Fw HX HS HB. assert (Ax := cnear_mod _ _ _ _ Nx HX). assert (As := near_abs _ _ _ _ Ns HS).
  destruct Nx as [Fx Hx], Ns as [Fs Hs].
  assert (P := cprod_err (cv x) (RtoC (v32 s)) X (RtoC S) ex es Bx Bs Hx ltac:(rewrite <- RtoC_minus, Cmod_R; exact Hs) HX ltac:(rewrite Cmod_R; exact HS)).
  assert (D : Cmod (cv x * RtoC (v32 s) + w - (X * RtoC S + W))%C <= Bx * es + Bs * ex + ex * es + ew).
  { replace (cv x * RtoC (v32 s) + w - (X * RtoC S + W))%C with ((cv x * RtoC (v32 s) - X * RtoC S) + (w - W))%C by ring.
    eapply Rle_trans; [apply Cmod_triangle|]. lra. }
  assert (B2 : Cmod (cv x * RtoC (v32 s) + w)%C <= Bw + (Bx * es + Bs * ex + ex * es + ew)).
  { replace (cv x * RtoC (v32 s) + w)%C with ((X * RtoC S + W) + (cv x * RtoC (v32 s) + w - (X * RtoC S + W)))%C by ring.
    eapply Rle_trans; [apply Cmod_triangle|]. lra. }
  assert (HG : Cmod (cv x) * Rabs (v32 s) <= (Bx + ex) * (Bs + es)).
  { apply Rmult_le_compat; auto; [apply Cmod_ge_0|apply Rabs_pos]. }
  assert (E := bc_err x s w _ _ Fw HG B2).
  replace (rfma b x (cbc N s) w - (X * RtoC S + W))%C with
    ((rfma b x (cbc N s) w - (cv x * RtoC (v32 s) + w)) + (cv x * RtoC (v32 s) + w - (X * RtoC S + W)))%C by ring.
  eapply Rle_trans; [apply Cmod_triangle|]. lra.
Qed.
Lemma cnear_fmabc x s z X S Z ex es ez Bx Bs Bz Bw : cnear x X ex -> near s S es -> cnear z Z ez ->
  Cmod X <= Bx -> Rabs S <= Bs -> Cmod Z <= Bz -> Cmod (X * RtoC S + Z)%C <= Bw ->
  8 * ((Bx + ex) * (Bs + es) + (Bz + ez) + 1) <= Big ->
  cnear (cfma N x (cbc N s) z) (X * RtoC S + Z)%C (Emul Bx Bs ex es + ez + eps * (Bw + Emul Bx Bs ex es + ez) + 2 * tau).
Proof.
  intros Nx Ns Nz HX HS HZ HB Hb. assert (Ax := cnear_mod _ _ _ _ Nx HX). assert (As := near_abs _ _ _ _ Ns HS).
  assert (Az := cnear_mod _ _ _ _ Nz HZ).
  assert (HG : Cmod (cv x) * Cmod (cv (cbc N s)) <= (Bx + ex) * (Bs + es)).
  { rewrite bc_cv, Cmod_R. apply Rmult_le_compat; auto; [apply Cmod_ge_0|apply Rabs_pos]. }
  assert (F0 : cfin (cbc N s)) by (apply (cnear_bc lm s S es Ns)).
  destruct (cfma_val x (cbc N s) z _ _ (proj1 Nx) F0 (proj1 Nz) HG Az Hb) as [F V].
  split; [exact F|]. rewrite V. apply bc_near; auto; [exact (proj2 Nz)|apply fmt_cv].
Qed.
Lemma cnear_fnmabc x s z X S Z ex es ez Bx Bs Bz Bw : cnear x X ex -> near s S es -> cnear z Z ez ->
  Cmod X <= Bx -> Rabs S <= Bs -> Cmod Z <= Bz -> Cmod (Z - X * RtoC S)%C <= Bw ->
  8 * ((Bx + ex) * (Bs + es) + (Bz + ez) + 1) <= Big ->
  cnear (cfnma N x (cbc N s) z) (Z - X * RtoC S)%C (Emul Bx Bs ex es + ez + eps * (Bw + Emul Bx Bs ex es + ez) + 2 * tau).
Proof.
  intros Nx Ns Nz HX HS HZ HB Hb. assert (Ax := cnear_mod _ _ _ _ Nx HX). assert (As := near_abs _ _ _ _ Ns HS).
  assert (Az := cnear_mod _ _ _ _ Nz HZ).
  assert (HG : Cmod (cv x) * Cmod (cv (cbc N s)) <= (Bx + ex) * (Bs + es)).
  { rewrite bc_cv, Cmod_R. apply Rmult_le_compat; auto; [apply Cmod_ge_0|apply Rabs_pos]. }
  assert (F0 : cfin (cbc N s)) by (apply (cnear_bc lm s S es Ns)).
  destruct (cfnma_val x (cbc N s) z _ _ (proj1 Nx) F0 (proj1 Nz) HG Az Hb) as [F V].
  split; [exact F|]. rewrite V.
  replace (- rfma b x (cbc N s) (- cv z) - (Z - X * RtoC S))%C with (- (rfma b x (cbc N s) (- cv z) - (X * RtoC S + - Z)))%C by ring.
  rewrite Cmod_opp. apply bc_near; auto; [|apply fmt_cvo|].
  - replace (- cv z - - Z)%C with (- (cv z - Z))%C by ring. rewrite Cmod_opp. exact (proj2 Nz).
  - replace (X * RtoC S + - Z)%C with (- (Z - X * RtoC S))%C by ring. rewrite Cmod_opp. exact HB.
Qed.

(** general operands *)
Notation Eprod Bx By ex ey := (Bx * ey + By * ex + ex * ey).
Lemma gen_near x y (w W X Y : C) ex ey ew Bx By Bz Bw : cnear x X ex -> cnear y Y ey -> Cmod (w - W)%C <= ew ->
  Cmod X <= Bx -> Cmod Y <= By -> Cmod W <= Bz -> Cmod (X * Y + W)%C <= Bw ->
  Cmod (rfma b x y w - (X * Y + W))%C <= Eprod Bx By ex ey + ew +
    eps * (2.5 * ((Bx + ex) * (By + ey)) + 1.00001 * (Bz + ew + (Bw + (Eprod Bx By ex ey + ew)))) + 10 * tau.
Proof.
  intros Nx Ny Hw HX HY HW HB. assert (Ax := cnear_mod _ _ _ _ Nx HX). assert (Ay := cnear_mod _ _ _ _ Ny HY).
  destruct Nx as [Fx Hx], Ny as [Fy Hy]. assert (P := cprod_err _ _ _ _ _ _ _ _ Hx Hy HX HY).
  assert (D : Cmod (cv x * cv y + w - (X * Y + W))%C <= Eprod Bx By ex ey + ew).
  { replace (cv x * cv y + w - (X * Y + W))%C with ((cv x * cv y - X * Y) + (w - W))%C by ring.
    eapply Rle_trans; [apply Cmod_triangle|]. lra. }
  assert (B2 : Cmod (cv x * cv y + w)%C <= Bw + (Eprod Bx By ex ey + ew)).
  { replace (cv x * cv y + w)%C with ((X * Y + W) + (cv x * cv y + w - (X * Y + W)))%C by ring.
    eapply Rle_trans; [apply Cmod_triangle|]. lra. }
  assert (HG : Cmod (cv x) * Cmod (cv y) <= (Bx + ex) * (By + ey)) by (apply Rmult_le_compat; auto; apply Cmod_ge_0).
  assert (Aw : Cmod w <= Bz + ew).
  { replace w with (W + (w - W))%C by ring. eapply Rle_trans; [apply Cmod_triangle|]. lra. }
  assert (E := rfma_err b x y w _ _ _ HG Aw B2).
  replace (rfma b x y w - (X * Y + W))%C with ((rfma b x y w - (cv x * cv y + w)) + (cv x * cv y + w - (X * Y + W)))%C by ring.
  eapply Rle_trans; [apply Cmod_triangle|]. lra.
Qed.
Section Gen.
Variables (x y z : f32 * f32) (X Y Z : C) (ex ey ez Bx By Bz Bw : R).
Hypothesis Nx : cnear x X ex.
Hypothesis Ny : cnear y Y ey.
Hypothesis Nz : cnear z Z ez.
Hypothesis HX : Cmod X <= Bx.
Hypothesis HY : Cmod Y <= By.
Hypothesis HZ : Cmod Z <= Bz.
Hypothesis Hb : 8 * ((Bx + ex) * (By + ey) + (Bz + ez) + 1) <= Big.
Notation Eall := (Eprod Bx By ex ey + ez +
    eps * (2.5 * ((Bx + ex) * (By + ey)) + 1.00001 * (Bz + ez + (Bw + (Eprod Bx By ex ey + ez)))) + 10 * tau).
Let Ax := cnear_mod _ _ _ _ Nx HX.
Let Ay := cnear_mod _ _ _ _ Ny HY.
Let Az := cnear_mod _ _ _ _ Nz HZ.
Let HG : Cmod (cv x) * Cmod (cv y) <= (Bx + ex) * (By + ey).
Proof. apply Rmult_le_compat; auto; apply Cmod_ge_0. Qed.
Lemma cnear_fma : Cmod (X * Y + Z)%C <= Bw -> cnear (cfma N x y z) (X * Y + Z)%C Eall.
Proof.
  intros HB. destruct (cfma_val x y z _ _ (proj1 Nx) (proj1 Ny) (proj1 Nz) HG Az Hb) as [F V].
  split; [exact F|]. rewrite V. apply gen_near; auto. exact (proj2 Nz).
Qed.
Lemma cnear_fms : Cmod (X * Y - Z)%C <= Bw -> cnear (cfms N x y z) (X * Y - Z)%C Eall.
Proof.
  intros HB. destruct (cfms_val x y z _ _ (proj1 Nx) (proj1 Ny) (proj1 Nz) HG Az Hb) as [F V].
  split; [exact F|]. rewrite V. unfold Cminus at 2. apply gen_near; auto.
  - replace (- cv z - - Z)%C with (- (cv z - Z))%C by ring. rewrite Cmod_opp. exact (proj2 Nz).
  - rewrite Cmod_opp. exact HZ.
Qed.
Lemma cnear_fnma : Cmod (Z - X * Y)%C <= Bw -> cnear (cfnma N x y z) (Z - X * Y)%C Eall.
Proof.
  intros HB. destruct (cfnma_val x y z _ _ (proj1 Nx) (proj1 Ny) (proj1 Nz) HG Az Hb) as [F V].
  split; [exact F|]. rewrite V.
  replace (- rfma b x y (- cv z) - (Z - X * Y))%C with (- (rfma b x y (- cv z) - (X * Y + - Z)))%C by ring.
  rewrite Cmod_opp. apply gen_near; auto.
  - replace (- cv z - - Z)%C with (- (cv z - Z))%C by ring. rewrite Cmod_opp. exact (proj2 Nz).
  - rewrite Cmod_opp. exact HZ.
  - replace (X * Y + - Z)%C with (- (Z - X * Y))%C by ring. rewrite Cmod_opp. exact HB.
Qed.
End Gen.
End Lanes.
