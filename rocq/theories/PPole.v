(** * PPole: one pole over one sample, in binary32 *)
From Coq Require Import ZArith List Bool Reals Lia Lra.
From Flocq Require Import Core IEEE754.BinarySingleNaN.
From Verif Require Import Num Maths Wavetable Filters Osc Spec B32 NumFacts Laws B32Facts B32Laws WTFacts SimdFacts
  OscFacts OscRun RNum SpecF.
From Coquelicot Require Import Coquelicot.
From Verif Require Import SpecC SpecT SpecE ExactMath PApx PSlope PTerm PCoef.
Import ListNotations.
Local Open Scope R_scope.

Section Mix.
Variable lm : Libm.
Notation N := (B32 lm).
Variables (ζ S : R).
Hypothesis HS : / 1000000000000000000000 <= S <= 1000000000000000000000.
Hypothesis Hζ5 : 2.6 <= ζ <= 4.52.
Notation u := (eps * S).

Lemma tau_S : 0 < tau <= / 1000000000 * u.
Proof. assert (T1 := tau_small). assert (T0 := tau_pos). unfold eps. lra. Qed.

Lemma gains_sum (g gu : f32) : convex32 g gu -> v32 g + v32 gu <= 1 + 1.01 * eps.
Proof.
  intros (F1 & F2 & H1 & H2 & F3 & E). change (B2R g) with (v32 g) in *. change (B2R gu) with (v32 gu) in *.
  destruct (add32 g gu F1 F2) as [_ V]; [apply small32_1; lra|].
  assert (E' : rnd32 (v32 g + v32 gu) = 1) by (rewrite <- V; exact E).
  assert (R := rnd_err (v32 g + v32 gu)). rewrite E' in R. rewrite (Rabs_pos_eq (_ + _)) in R by lra.
  apply Rabs_le_inv in R. assert (T1 := tau_small). unfold eps in *. lra.
Qed.

Lemma mix_near (a up : f32 * f32) (g gu : f32) (A U : C) eI : convex32 g gu ->
  cnear a A eI -> cnear up U eI -> 0 <= eI <= 2000 * u -> Cmod A <= ζ * ζ * S -> Cmod U <= ζ * ζ * S ->
  cnear (mixVal N a up g gu) (A * RtoC (v32 g) + U * RtoC (v32 gu))%C (1.0001 * eI + 2.1 * (ζ * ζ * u)).
Proof.
  intros Hg Na Nu He HA HU. assert (Hs := gains_sum g gu Hg). destruct Hg as (F1 & F2 & H1 & H2 & _ & _).
  change (B2R g) with (v32 g) in *. change (B2R gu) with (v32 gu) in *.
  assert (T := tau_S). assert (SP : 0 < S) by lra.
  assert (SB : S * 1000000 <= Big).
  { apply Rle_trans with (IZR (10 ^ 27)); [change (IZR (10 ^ 27)) with 1000000000000000000000000000; lra|].
    unfold Big. apply IZR_le. vm_compute. discriminate. }
  assert (ZQ : 6.76 <= ζ * ζ <= 20.5) by (split; nra).
  assert (ZZ : 6.76 * S <= ζ * ζ * S <= 20.5 * S) by (split; apply Rmult_le_compat_r; lra).
  set (W := ζ * ζ * S) in *.
  assert (Q1 : (W + eI) * (v32 g + 0) <= (W + eI) * 1) by (apply Rmult_le_compat_l; unfold eps in *; lra).
  assert (Q2 : (W + eI) * (v32 gu + 0) <= (W + eI) * 1) by (apply Rmult_le_compat_l; unfold eps in *; lra).
  assert (GW : v32 g * W + v32 gu * W <= (1 + 1.01 * eps) * W) by (rewrite <- Rmult_plus_distr_r; apply Rmult_le_compat_r; lra).
  assert (GE : v32 g * eI + v32 gu * eI <= (1 + 1.01 * eps) * eI) by (rewrite <- Rmult_plus_distr_r; apply Rmult_le_compat_r; lra).
  assert (HB : Cmod (A * RtoC (v32 g) + U * RtoC (v32 gu))%C <= 1.0001 * W).
  { eapply Rle_trans; [apply Cmod_triangle|]. rewrite !Cmod_mult, !Cmod_R, !Rabs_pos_eq by lra.
    assert (Cmod A * v32 g <= W * v32 g) by (apply Rmult_le_compat_r; lra).
    assert (Cmod U * v32 gu <= W * v32 gu) by (apply Rmult_le_compat_r; lra). unfold eps in *. lra. }
  eapply cnear_le; [apply (caddx_near lm 30 a g up gu A (v32 g) U (v32 gu) eI 0 eI 0 W (v32 g) W (v32 gu) _
    Na (near_exact g F1) Nu (near_exact gu F2) HA ltac:(rewrite Rabs_pos_eq; lra) HU ltac:(rewrite Rabs_pos_eq; lra) HB)|].
  - unfold eps in *. lra.
  - replace (ζ * ζ * u) with (eps * W) by (unfold W; ring). unfold eps in *. lra.
Qed.
End Mix.

Section Pole.
Variable lm : Libm.
Notation N := (B32 lm).
Variables (zN rN eN : f32 * f32) (Z Q : C) (zl zh ρ r2 S : R).
Hypothesis HP : poleOk zN rN eN Z Q zl zh ρ r2.
Hypothesis HS : / 1000000000000000000000 <= S <= 1000000000000000000000.
Notation u := (eps * S).
Notation ζ := (Cmod Z).

Let Hζ : 2.6 <= ζ <= 4.52.
Proof. destruct HP as [A1 A2 A3]. lra. Qed.
Let Hq : 6.76 <= ζ * ζ <= 20.5. Proof. split; nra. Qed.
Let SP : 0 < S. Proof. lra. Qed.
Let SB : S * 1000000 <= Big.
Proof.
  apply Rle_trans with (IZR (10 ^ 27)); [change (IZR (10 ^ 27)) with 1000000000000000000000000000; lra|].
  unfold Big. apply IZR_le. vm_compute. discriminate.
Qed.
Let B0 : 1000000000 <= Big.
Proof. unfold Big. apply IZR_le. vm_compute. discriminate. Qed.

Lemma zsq_near : cnear (cmul N 50 zN zN) (Z * Z)%C (5.3 * eps * (ζ * ζ)).
Proof.
  assert (Nz := po_nz _ _ _ _ _ _ _ _ _ HP). assert (T1 := tau_small). assert (T0 := tau_pos).
  eapply cnear_le; [apply (cnear_mul lm 50 _ _ _ _ _ _ ζ ζ Nz Nz (Rle_refl _) (Rle_refl _))|].
  - replace (2 * ((ζ + 1.1 * eps * ζ) * (ζ + 1.1 * eps * ζ))) with (2 * (1 + 1.1 * eps) * (1 + 1.1 * eps) * (ζ * ζ)) by ring.
    unfold eps. lra.
  - unfold eps. lra.
Qed.

Lemma quot_near (i : f32 * f32) (I : C) (m : R) : cnear i (Z * Z * I)%C (m * (ζ * ζ * u)) ->
  Cmod I <= 1.0001 * S -> 0 <= m <= 500 ->
  cnear (cdiv N 44 i (cmul N 50 zN zN)) I ((1.00001 * m + 12.5) * u).
Proof.
  intros Ni HI Hm. assert (N2 := zsq_near). set (pN := cmul N 50 zN zN : f32 * f32) in *.
  assert (T := tau_S S HS). set (q := ζ * ζ) in *.
  assert (qS : 6.76 * S <= q * S <= 20.5 * S) by (split; apply Rmult_le_compat_r; lra).
  assert (mS : 0 <= m * S <= 500 * S) by (split; [apply Rmult_le_pos; lra|apply Rmult_le_compat_r; lra]).
  assert (mqS : 0 <= m * (q * S) <= 500 * (q * S)) by (split; [apply Rmult_le_pos; lra|apply Rmult_le_compat_r; lra]).
  assert (Hzz : Cmod (Z * Z)%C = q) by (rewrite Cmod_mult; reflexivity).
  assert (HzI : Cmod (Z * Z * I)%C <= 1.0001 * (q * S)).
  { rewrite Cmod_mult, Hzz. replace (1.0001 * (q * S)) with (q * (1.0001 * S)) by ring. apply Rmult_le_compat_l; lra. }
  set (P := cv pN) in *.
  assert (DP : Cmod (P - Z * Z)%C <= 5.3 * eps * q) by apply N2.
  assert (P1 : (1 - 5.3 * eps) * q <= Cmod P <= (1 + 5.3 * eps) * q).
  { split.
    - assert (Tr : q <= Cmod P + Cmod (P - Z * Z)%C).
      { rewrite <- Hzz. replace (Z * Z)%C with (P + - (P - Z * Z))%C at 1 by ring.
        eapply Rle_trans; [apply Cmod_triangle|]. rewrite Cmod_opp. lra. }
      lra.
    - replace P with (Z * Z + (P - Z * Z))%C by ring. eapply Rle_trans; [apply Cmod_triangle|]. lra. }
  assert (Ai := cnear_mod _ _ _ _ Ni HzI).
  destruct Ni as [Fi Di]. destruct N2 as [Fp _].
  assert (HH : Cmod (cv i) <= 1.0003 * S * Cmod P).
  { apply Rle_trans with (1.0003 * S * ((1 - 5.3 * eps) * q)); [|apply Rmult_le_compat_l; lra].
    unfold eps in *. lra. }
  destruct (cdiv_round lm 44 i pN (1.0003 * S) Fi Fp) as [G1 G2]; [fold P; unfold eps in *; lra|exact HH|lra|].
  split; [exact G1|]. fold P in G2.
  assert (P0 : P <> RtoC 0). { intros E. rewrite E, Cmod_0 in P1. unfold eps in *. lra. }
  assert (D1 : Cmod (cv i / P - I)%C <= (1.00001 * m + 5.31) * u).
  { replace (cv i / P - I)%C with (((cv i - Z * Z * I) - I * (P - Z * Z)) / P)%C by (field; exact P0).
    rewrite Cmod_div by exact P0.
    assert (N1 : Cmod ((cv i - Z * Z * I) - I * (P - Z * Z))%C <= m * (q * u) + 1.0001 * S * (5.3 * eps * q)).
    { apply sub_mod; [exact Di|]. apply mul_mod; assumption. }
    apply Rmult_le_reg_r with (Cmod P); [unfold eps in *; lra|]. unfold Rdiv. rewrite Rmult_assoc, Rinv_l by (unfold eps in *; lra).
    rewrite Rmult_1_r. eapply Rle_trans; [exact N1|].
    apply Rle_trans with ((1.00001 * m + 5.31) * u * ((1 - 5.3 * eps) * q)); [unfold eps in *; lra|].
    apply Rmult_le_compat_l; [|lra]. unfold eps in *. lra. }
  replace (cv (cdiv N 44 i pN) - I)%C with ((cv (cdiv N 44 i pN) - cv i / P) + (cv i / P - I))%C by ring.
  eapply Rle_trans; [apply Cmod_triangle|]. unfold eps in *. lra.
Qed.

Lemma res_near : cnear (cscale N rN (t2 N)) (Q * RtoC 2)%C (2.11 * eps * r2).
Proof.
  destruct HP as [_ _ _ _ _ _ R1 R2 R3 _ Nr _].
  destruct (ofZ32 2 ltac:(lia)) as [O1 O2]. assert (N2 : near (t2 N) 2 0) by (rewrite <- O2 at 1; exact (near_exact _ O1)).
  assert (T1 := tau_small). assert (T0 := tau_pos).
  eapply cnear_le; [apply (cnear_scale lm rN (t2 N) Q 2 _ _ (Cmod Q) 2 Nr N2 (Rle_refl _))|].
  - rewrite Rabs_pos_eq; lra.
  - unfold eps. lra.
  - unfold eps in *. lra.
Qed.

Lemma pole_step (i y : f32 * f32) (I Y : C) (m e b : R) : cnear i (Z * Z * I)%C (m * (ζ * ζ * u)) ->
  Cmod I <= 1.0001 * S -> 0 <= m <= 500 ->
  cnear y Y (e * u) -> Cmod Y <= b * S -> 0 <= e <= 10000 -> 0 <= b <= 100 ->
  ρ * b + 1.0001 * r2 <= b ->
  (ρ + 0.0001) * e + b * (7.12 + 0.92 * zh + 3.01 * ρ) + r2 * (1.0003 * m + 17.9) <= e ->
  let Y' := (cexp Z * Y + 2 * Q * I)%C in
  cnear (yStep N y rN (cmul N 50 zN zN) eN i) Y' (e * u) /\ Cmod Y' <= b * S.
Proof.
  intros Ni HI Hm Ny HY He Hb Rb Re Y'.
  assert (T := tau_S S HS).
  assert (Nq := quot_near i I m Ni HI Hm). assert (Nr := res_near).
  destruct HP as [Z1 Z2 Z3 _ E1 E2 R1 R2 R3 _ _ Ne].
  assert (Hr2 : 0.8 <= r2) by lra.
  set (qN := cdiv N 44 i (cmul N 50 zN zN) : f32 * f32) in *. set (sN := cscale N rN (t2 N) : f32 * f32) in *.
  assert (mS : 0 <= m * S <= 500 * S) by (split; [apply Rmult_le_pos; lra|apply Rmult_le_compat_r; lra]).
  assert (rS : 0.8 * S <= r2 * S <= 58 * S) by (split; apply Rmult_le_compat_r; lra).
  assert (rmS : 0 <= r2 * (m * S) <= 500 * (r2 * S)) by (split; [apply Rmult_le_pos; lra|nra]).
  assert (M2 : Cmod (Q * RtoC 2)%C <= r2) by (rewrite Cmod_mult, Cmod_R, Rabs_pos_eq; lra).
  assert (S1 := cnear_mul lm 42 _ _ _ _ _ _ _ _ Nr Nq M2 HI).
  assert (S1' : cnear (cmul N 42 sN qN) (Q * RtoC 2 * I)%C (r2 * ((1.0001 * m + 17.8) * u))).
  { eapply cnear_le; [apply S1|]; unfold eps in *; lra. }
  clear S1.
  assert (eS : 0 <= e * S <= 10000 * S) by (split; [apply Rmult_le_pos; lra|apply Rmult_le_compat_r; lra]).
  assert (bS : 0 <= b * S <= 100 * S) by (split; [apply Rmult_le_pos; lra|apply Rmult_le_compat_r; lra]).
  assert (ρeS : 0 <= ρ * (e * S) <= e * S) by (split; [apply Rmult_le_pos; lra|nra]).
  assert (ρbS : 0 <= ρ * (b * S) <= b * S) by (split; [apply Rmult_le_pos; lra|nra]).
  assert (ζeS : 0 <= ζ * (e * S) <= 4.52 * (e * S)) by (split; [apply Rmult_le_pos; lra|apply Rmult_le_compat_r; lra]).
  assert (ζbS : 0 <= ζ * (b * S) <= zh * (b * S)) by (split; [apply Rmult_le_pos; lra|apply Rmult_le_compat_r; lra]).
  assert (zbS : zh * (b * S) <= 4.52 * (b * S)) by (apply Rmult_le_compat_r; lra).
  assert (S2 := cnear_mul lm 40 _ _ _ _ _ _ _ _ Ne Ny E1 HY).
  assert (S2' : cnear (cmul N 40 eN y) (cexp Z * Y)%C (((ρ + 0.00005) * e + b * (6.111 + 0.92001 * zh + 3.001 * ρ) + 0.001) * u)).
  { eapply cnear_le; [apply S2|]; unfold eps in *; lra. }
  clear S2.
  assert (HY' : Cmod (cexp Z * Y + Q * RtoC 2 * I)%C <= b * S).
  { apply Rle_trans with (ρ * (b * S) + r2 * (1.0001 * S)).
    - apply add_mod; apply mul_mod; assumption.
    - apply (Rmult_le_compat_r S) in Rb; [|lra]. lra. }
  assert (EY : Y' = (cexp Z * Y + Q * RtoC 2 * I)%C).
  { unfold Y'. change (RtoC 2) with ((2, 0) : C). replace (2 : C) with ((2, 0) : C) by reflexivity. ring. }
  rewrite EY. split; [|exact HY'].
  assert (S3 := cnear_add lm _ _ _ _ _ _ _ S2' S1' HY').
  apply (Rmult_le_compat_r u) in Re; [|unfold eps; lra].
  unfold yStep. fold sN qN.
  eapply cnear_le; [apply S3|]; unfold eps in *; lra.
Qed.
End Pole.
