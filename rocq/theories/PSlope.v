(** * PSlope: rounding errors of one table entry whose samples and slopes are at most 2^c *)
From Coq Require Import ZArith List Bool Reals Lia Lra.
From Flocq Require Import Core IEEE754.BinarySingleNaN.
From Verif Require Import Num Wavetable Spec B32 NumFacts Laws B32Facts B32Laws WTFacts BuildFacts OscHist PErr RNum RLaws.
From Coquelicot Require Import Coquelicot.
From Verif Require Import SpecC SpecT SpecE ExactMath ExactStep PApx.
Import ListNotations.
Local Open Scope R_scope.

Section Seg.
Variable lm : Libm.
Notation N := (B32 lm).
Variables (c K j : Z) (y0 y1 : f32).
Hypothesis Hc : (-64 <= c <= 64)%Z.
Hypothesis HK : (2 <= K <= 18)%Z.
Hypothesis Hj : (0 <= j < 2 ^ K)%Z.
Hypothesis F0 : fin32 y0 = true.
Hypothesis F1 : fin32 y1 = true.
Hypothesis R0 : Rabs (v32 y0) <= bpow radix2 c.
Hypothesis RD : Rabs (v32 y1 - v32 y0) * IZR (2 ^ K) <= bpow radix2 c.
Notation gx i := (gx lm K i).
Notation M := (computeM N (gx j) (gx (j + 1)) y0 y1).
Notation Q := (computeQ N (gx j) (gx (j + 1)) y0 y1).
Notation u := (eps * bpow radix2 c).

Lemma slope_facts :
  near M ((v32 y1 - v32 y0) * IZR (2 ^ K)) (0.51 * u) /\
  near Q (v32 y0 - IZR j * (v32 y1 - v32 y0)) (1.01 * u).
Proof.
  set (P := bpow radix2 K). set (I := bpow radix2 (- K)). set (S0 := bpow radix2 c) in *.
  assert (PI : P * I = 1) by (unfold P, I; rewrite <- bpow_plus, Z.add_opp_diag_r; reflexivity).
  assert (HP : IZR (2 ^ K) = P) by (unfold P; rewrite bpow_Z by lia; reflexivity).
  assert (HP0 : 0 < P) by apply bpow_gt_0. assert (HI0 : 0 < I) by apply bpow_gt_0.
  assert (HS0 : 0 < S0) by apply bpow_gt_0.
  assert (HI4 : I <= / 4) by (unfold I; change (/ 4) with (bpow radix2 (-2)); apply bpow_le; lia).
  assert (HPi : / P = I) by (apply Rmult_eq_reg_l with P; [rewrite Rinv_r; lra|lra]).
  assert (HP1 : 1 <= P) by (unfold P; apply (bpow_le radix2 0); lia).
  destruct (b_grid lm j K ltac:(lia) ltac:(lia)) as [G0 V0].
  destruct (b_grid lm (j + 1) K ltac:(lia) ltac:(lia)) as [G1 V1].
  rewrite HP in V0, V1. unfold Rdiv in V0, V1. rewrite HPi in V0, V1.
  fold (gx j) in G0, V0. fold (gx (j + 1)) in G1, V1. rewrite plus_IZR in V1.
  set (x0 := IZR j * I) in *.
  assert (Hx0 : 0 <= x0 <= 1 - I).
  { unfold x0. split; [apply Rmult_le_pos; [apply IZR_le; lia|lra]|].
    replace (1 - I) with ((P - 1) * I) by (rewrite Rmult_minus_distr_r, PI; ring).
    apply Rmult_le_compat_r; [lra|]. rewrite <- HP. rewrite <- minus_IZR. apply IZR_le. lia. }
  assert (Ej : IZR j = x0 * P) by (unfold x0; rewrite Rmult_assoc, (Rmult_comm I), PI; ring).
  assert (R0' := Rabs_le_inv _ _ R0).
  destruct (to64 y0 F0) as [A0 B0]. destruct (to64 y1 F1) as [A1 B1].
  destruct (to64 (gx j) G0) as [A2 B2]. destruct (to64 (gx (j + 1)) G1) as [A3 B3].
  rewrite V0 in B2. rewrite V1 in B3.
  set (Y0 := v32 y0) in *. set (Y1 := v32 y1) in *.
  unfold computeM, computeQ. cbn [dsub ddiv t2d d2t B32].
  set (dx := @Bminus 53 1024 p64 e64 mode_NE (f32_to_f64 (gx (j + 1))) (f32_to_f64 (gx j))).
  set (dy := @Bminus 53 1024 p64 e64 mode_NE (f32_to_f64 y1) (f32_to_f64 y0)).
  assert (Edx : fin64 dx = true /\ v64 dx = I).
  { destruct (sub64 (f32_to_f64 (gx (j + 1))) (f32_to_f64 (gx j)) A3 A2) as [C1 C2].
    - rewrite B2, B3. apply small64_of_le with 1%Z; [lia|]. unfold x0. change (bpow radix2 1) with 2.
      apply Rabs_le. lra.
    - split; [exact C1|]. unfold dx. rewrite C2, B2, B3. unfold x0.
      replace ((IZR j + 1) * I - IZR j * I) with I by ring. apply rnd64_id. apply fmt64_bpow. lia. }
  destruct Edx as [Fdx Vdx].
  set (DY := rnd64 (Y1 - Y0)).
  assert (SK : bpow radix2 (c - K) * P = S0).
  { unfold P, S0. rewrite <- bpow_plus. f_equal. lia. }
  assert (HD0 : Rabs (Y1 - Y0) <= bpow radix2 (c - K)).
  { apply Rmult_le_reg_r with P; [exact HP0|]. rewrite SK, <- HP. exact RD. }
  assert (HDY : Rabs DY <= bpow radix2 (c - K)) by (apply rnd64_abs_le; [lia|exact HD0]).
  set (dd := bpow radix2 (c - K - 54)).
  assert (EDY : Rabs (DY - (Y1 - Y0)) <= dd) by (apply err64; [lia|exact HD0]).
  assert (FDY : fmt64 DY) by (apply generic_format_round; auto with typeclass_instances).
  assert (Edy : fin64 dy = true /\ v64 dy = DY).
  { destruct (sub64 (f32_to_f64 y1) (f32_to_f64 y0) A1 A0) as [C1 C2].
    - rewrite B0, B1. apply small64_of_le with (c - K)%Z; [lia|exact HD0].
    - split; [exact C1|]. unfold dy. now rewrite C2, B0, B1. }
  destruct Edy as [Fdy Vdy].
  assert (HM0 : Rabs (DY * P) <= bpow radix2 c).
  { fold S0. rewrite <- SK, Rabs_mult, (Rabs_pos_eq P) by lra. apply Rmult_le_compat_r; [lra|exact HDY]. }
  assert (Hdiv : forall a, a / I = a * P) by (intros a; unfold Rdiv; rewrite <- HPi, Rinv_inv; reflexivity).
  assert (Em64 : fin64 (@Bdiv 53 1024 p64 e64 mode_NE dy dx) = true /\
                 v64 (@Bdiv 53 1024 p64 e64 mode_NE dy dx) = DY * P).
  { destruct (div64 dy dx Fdy) as [C1 C2].
    - rewrite Vdx. lra.
    - rewrite Vdy, Vdx, Hdiv. apply small64_of_le with c; [lia|assumption].
    - split; [exact C1|]. rewrite C2, Vdy, Vdx, Hdiv. apply rnd64_id. apply fmt64_up; [lia|assumption]. }
  destruct Em64 as [Fm64 Vm64].
  assert (Em : fin32 (f64_to_f32 (@Bdiv 53 1024 p64 e64 mode_NE dy dx)) = true /\
               v32 (f64_to_f32 (@Bdiv 53 1024 p64 e64 mode_NE dy dx)) = rnd32 (DY * P)).
  { rewrite <- Vm64. apply to32; [exact Fm64|]. rewrite Vm64. apply small32_of_le with c; [lia|assumption]. }
  destruct Em as [Fm Vm]. set (m := f64_to_f32 (@Bdiv 53 1024 p64 e64 mode_NE dy dx)) in *.
  assert (EM : Rabs (v32 m - DY * P) <= bpow radix2 (c - 25)).
  { rewrite Vm. apply err32; [lia|assumption]. }
  (* q *)
  assert (HYI : Rabs (Y0 * I) <= bpow radix2 (c - K)).
  { rewrite Rabs_mult, (Rabs_pos_eq I) by lra. unfold Zminus. rewrite bpow_plus. fold S0 I.
    apply Rmult_le_compat_r; [lra|exact R0]. }
  assert (Xex : rnd64 (v64 (f32_to_f64 y0) * v64 dx) = v64 (f32_to_f64 y0) * v64 dx).
  { rewrite B0, Vdx. apply rnd64_id. unfold I. apply fmt64_of32; [lia|apply fmt32_B2R]. }
  assert (Hxdy : Rabs (x0 * DY) <= bpow radix2 (c - K)).
  { rewrite Rabs_mult, (Rabs_pos_eq x0) by lra. assert (0 <= Rabs DY) by apply Rabs_pos. nra. }
  assert (B21 : 2 * bpow radix2 (c - K) = bpow radix2 (c - K + 1)) by (rewrite bpow_plus; change (bpow radix2 1) with 2; ring).
  assert (BX : forall X, X = v64 (f32_to_f64 (gx j)) * v64 dy \/ X = rnd64 (v64 (f32_to_f64 (gx j)) * v64 dy) ->
    Rabs (X - x0 * DY) <= dd /\ Rabs X <= bpow radix2 (c - K)).
  { rewrite B2, Vdy. intros X [-> | ->]; (split; [|]).
    - rewrite Rminus_eq_0, Rabs_R0. apply bpow_ge_0.
    - exact Hxdy.
    - apply err64; [lia|assumption].
    - apply rnd64_abs_le; [lia|assumption]. }
  assert (BS : forall X, Rabs X <= bpow radix2 (c - K) -> Rabs (Y0 * I - X) <= bpow radix2 (c - K + 1)).
  { intros X HX. rewrite <- B21. apply Rabs_le_inv in HX. assert (HYI' := Rabs_le_inv _ _ HYI). apply Rabs_le. lra. }
  destruct (ddotm_val lm 61 (f32_to_f64 y0) dx (f32_to_f64 (gx j)) dy A0 Fdx A2 Fdy Xex) as (XDY & CX & Fnum & Vnum).
  { rewrite B0, Vdx. apply small64_of_le with (c - K)%Z; [lia|exact HYI]. }
  { rewrite B2, Vdy. apply small64_of_le with (c - K)%Z; [lia|assumption]. }
  { intros X CX. destruct (BX X CX) as [_ HX]. rewrite B0, Vdx. apply small64_of_le with (c - K + 1)%Z; [lia|]. now apply BS. }
  destruct (BX XDY CX) as [HXDY HX]. clear CX.
  set (num := ddotm N 61 (f32_to_f64 y0) dx (f32_to_f64 (gx j)) dy : f64) in *.
  rewrite B0, Vdx in Vnum. set (S := rnd64 (Y0 * I - XDY)) in *. assert (HS1' := BS XDY HX).
  assert (HS1 : Rabs (S - (Y0 * I - XDY)) <= 2 * dd).
  { replace (2 * dd) with (bpow radix2 (c - K + 1 - 54)).
    - apply err64; [lia|assumption].
    - unfold dd. replace (c - K + 1 - 54)%Z with (1 + (c - K - 54))%Z by lia. rewrite bpow_plus. reflexivity. }
  assert (HS2 : Rabs S <= bpow radix2 (c - K + 1)) by (apply rnd64_abs_le; [lia|assumption]).
  assert (FS : fmt64 S) by (apply generic_format_round; auto with typeclass_instances).
  assert (HQ0 : Rabs (S * P) <= bpow radix2 (c + 1)).
  { rewrite Rabs_mult, (Rabs_pos_eq P) by lra.
    replace (bpow radix2 (c + 1)) with (bpow radix2 (c - K + 1) * P).
    - apply Rmult_le_compat_r; [lra|exact HS2].
    - unfold P. rewrite <- bpow_plus. f_equal. lia. }
  assert (Eq64 : fin64 (@Bdiv 53 1024 p64 e64 mode_NE num dx) = true /\
                 v64 (@Bdiv 53 1024 p64 e64 mode_NE num dx) = S * P).
  { destruct (div64 num dx Fnum) as [C1 C2].
    - rewrite Vdx. lra.
    - rewrite Vnum, Vdx, Hdiv. apply small64_of_le with (c + 1)%Z; [lia|assumption].
    - split; [exact C1|]. rewrite C2, Vnum, Vdx, Hdiv. apply rnd64_id. apply fmt64_up; [lia|assumption]. }
  destruct Eq64 as [Fq64 Vq64].
  assert (Eq : fin32 (f64_to_f32 (@Bdiv 53 1024 p64 e64 mode_NE num dx)) = true /\
               v32 (f64_to_f32 (@Bdiv 53 1024 p64 e64 mode_NE num dx)) = rnd32 (S * P)).
  { rewrite <- Vq64. apply to32; [exact Fq64|]. rewrite Vq64. apply small32_of_le with (c + 1)%Z; [lia|assumption]. }
  destruct Eq as [Fq Vq]. set (q := f64_to_f32 (@Bdiv 53 1024 p64 e64 mode_NE num dx)) in *.
  assert (EQ : Rabs (v32 q - S * P) <= bpow radix2 (c + 1 - 25)).
  { rewrite Vq. apply err32; [lia|assumption]. }
  (* collect *)
  assert (Hu25 : bpow radix2 (c - 25) = u / 2).
  { replace (c - 25)%Z with (-25 + c)%Z by lia. rewrite bpow_plus. change (bpow radix2 (-25)) with (/ 33554432). unfold eps, S0. field. }
  assert (Hu24 : bpow radix2 (c + 1 - 25) = u).
  { replace (c + 1 - 25)%Z with (-24 + c)%Z by lia. rewrite bpow_plus. change (bpow radix2 (-24)) with (/ 16777216). reflexivity. }
  assert (HdE : P * dd <= u / 10000).
  { unfold P, dd. rewrite <- bpow_plus. replace (K + (c - K - 54))%Z with (-54 + c)%Z by lia.
    rewrite bpow_plus. fold S0. apply Rle_trans with (/ 16777216 * / 10000 * S0); [|unfold eps; lra].
    apply Rmult_le_compat_r; [lra|]. apply Rle_trans with (bpow radix2 (-40)); [apply bpow_le; lia|].
    change (bpow radix2 (-40)) with (/ IZR (2 ^ 40)). rewrite <- Rinv_mult. apply Rinv_le; [lra|].
    rewrite <- mult_IZR. apply IZR_le. vm_compute. discriminate. }
  rewrite Hu25 in EM. rewrite Hu24 in EQ. fold S0 in EM, EQ, HdE.
  set (e := eps * S0) in *.
  assert (He0 : 0 < e) by (unfold e, eps; lra).
  apply Rabs_le_inv in EM. apply Rabs_le_inv in EQ. apply Rabs_le_inv in HS1. apply Rabs_le_inv in HXDY.
  apply Rabs_le_inv in EDY.
  assert (Hd0 : 0 < dd) by apply bpow_gt_0.
  assert (D1 : - (e / 10000) <= P * (DY - (Y1 - Y0)) <= e / 10000) by (split; nra).
  assert (D2 : - (e / 5000) <= P * (S - (Y0 * I - XDY)) <= e / 5000) by (split; nra).
  assert (D3 : - (e / 10000) <= P * (XDY - x0 * DY) <= e / 10000) by (split; nra).
  assert (D4 : - (e / 10000) <= x0 * (P * (DY - (Y1 - Y0))) <= e / 10000) by (split; nra).
  split; (split; [assumption|]).
  - rewrite HP. apply Rabs_le. replace (v32 m - (Y1 - Y0) * P) with ((v32 m - DY * P) + P * (DY - (Y1 - Y0))) by ring. lra.
  - apply Rabs_le. rewrite Ej.
    replace (v32 q - (Y0 - x0 * P * (Y1 - Y0))) with
      ((v32 q - S * P) + P * (S - (Y0 * I - XDY)) - P * (XDY - x0 * DY) - x0 * (P * (DY - (Y1 - Y0))) + Y0 * (P * I - 1)) by ring.
    rewrite PI. lra.
Qed.
End Seg.

(** ** a whole entry, against the exact table of the same samples *)
Section Slot.
Variable lm : Libm.
Notation N := (B32 lm).
Variables (c K : Z) (ys : list (T N)) (s : Slot N) (sR : Slot RNum).
Hypothesis Hc : (-64 <= c <= 64)%Z.
Hypothesis HK : (2 <= K <= 18)%Z.
Hypothesis Ly : zlen ys = (2 ^ K)%Z.
Hypothesis HS : slotOf ys s.
Hypothesis HSR : slotOf (N := RNum) (List.map v32 ys) sR.
Notation ysR := (List.map v32 ys).
Notation S := (bpow radix2 c).
Hypothesis Hy : forall y : f32, In y ys -> fin32 y = true /\ Rabs (v32 y) <= S.
Hypothesis Hd : forall j, Rabs (cyc ysR (j + 1) - cyc ysR j) * IZR (2 ^ K) <= S.
Notation u := (eps * S).
Notation mR j := (at_ (s_m sR) j : R).
Notation qR j := (at_ (s_q sR) j : R).
Notation dR j := (at_ (s_md sR) j : R).

Let LyR : zlen ysR = (2 ^ K)%Z. Proof. unfold zlen in *. now rewrite map_length. Qed.
Let Hlen1 : (1 <= zlen ysR)%Z. Proof. rewrite LyR. assert (0 < 2 ^ K)%Z by (apply Z.pow_pos_nonneg; lia). lia. Qed.

Lemma s_pos : 0 < S. Proof. apply bpow_gt_0. Qed.
Lemma u_pos : 0 < u. Proof. assert (H := s_pos). unfold eps. lra. Qed.
Lemma tau_u : tau <= u * / 1000000000.
Proof.
  assert (tau <= bpow radix2 (-24 + (-64)) * bpow radix2 (-50)).
  { unfold tau. rewrite <- bpow_plus. apply bpow_le. lia. }
  assert (A : bpow radix2 (-64) <= S) by (apply bpow_le; lia).
  rewrite bpow_plus in H. change (bpow radix2 (-24)) with eps in H.
  assert (B : bpow radix2 (-50) <= / 1000000000).
  { change (bpow radix2 (-50)) with (/ IZR (2 ^ 50)). apply Rinv_le; [lra|]. apply IZR_le. vm_compute. discriminate. }
  assert (0 < bpow radix2 (-50)) by apply bpow_gt_0. assert (0 < bpow radix2 (-64)) by apply bpow_gt_0.
  eapply Rle_trans; [exact H|]. apply Rmult_le_compat; try lra.
  - apply Rmult_le_pos; [unfold eps|]; lra.
  - apply Rmult_le_compat_l; [unfold eps; lra|exact A].
Qed.
Lemma s_big : 1000000000 * S <= Big.
Proof.
  assert (A : S <= bpow radix2 64) by (apply bpow_le; lia). change (bpow radix2 64) with (IZR (2 ^ 64)) in A.
  unfold Big. assert (B : 1000000000 * IZR (2 ^ 64) <= IZR (2 ^ 100)) by (rewrite <- mult_IZR; apply IZR_le; vm_compute; discriminate).
  lra.
Qed.

Lemma at_map j : (0 <= j < 2 ^ K)%Z -> v32 (at_ ys j) = cyc ysR j.
Proof.
  intros Hj. rewrite (cyc_at ysR j) by (rewrite LyR; lia). unfold at_.
  change (t0 RNum) with 0. destruct (ofZ32 0 ltac:(lia)) as [_ Z0].
  change 0 with (IZR 0) in Z0. rewrite <- Z0. symmetry. apply (map_nth (v32 : f32 -> R) ys (t0 N)).
Qed.

Lemma mq_near j : (0 <= j < 2 ^ K)%Z ->
  near (at_ (s_m s) j) (mR j) (0.51 * u) /\ near (at_ (s_q s) j) (qR j) (1.01 * u) /\
  Rabs (mR j) <= S /\ Rabs (qR j) <= 2 * S.
Proof.
  intros Hj. assert (Hm := Z.mod_pos_bound (j + 1) (2 ^ K) ltac:(lia)).
  assert (I0 : forall i, (0 <= i < 2 ^ K)%Z -> fin32 (at_ ys i) = true /\ Rabs (v32 (at_ ys i)) <= S).
  { intros i Hi. apply Hy. eapply znth_In. apply (znth_at N ys i). lia. }
  destruct (I0 j Hj) as [F0 B0]. destruct (I0 _ Hm) as [F1 B1].
  assert (E0 := at_map j Hj). assert (E1 := at_map _ Hm).
  assert (E1' : cyc ysR ((j + 1) mod 2 ^ K) = cyc ysR (j + 1)) by (rewrite <- LyR; now apply cyc_mod).
  rewrite E1' in E1.
  assert (D := Hd j).
  assert (M0 := m_slope ysR Hlen1 sR HSR j ltac:(rewrite LyR; lia)).
  assert (Q0 := q_line ysR Hlen1 sR HSR j 0 ltac:(rewrite LyR; lia)).
  unfold slope in M0. unfold line in Q0. rewrite LyR in M0, Q0. rewrite Rmult_0_l, Rmult_0_r, Rplus_0_l in Q0.
  rewrite (sf_m _ _ _ HS), (sf_q _ _ _ HS) by lia. rewrite Ly.
  destruct (slope_facts lm c K j (at_ ys j) (at_ ys ((j + 1) mod 2 ^ K)) Hc HK Hj F0 F1 B0) as [A1 A2].
  { rewrite E0, E1. exact D. }
  rewrite E0, E1 in A1, A2.
  assert (EM : mR j = (cyc ysR (j + 1) - cyc ysR j) * IZR (2 ^ K)) by (rewrite M0; ring).
  assert (EQ : qR j = cyc ysR j - IZR j * (cyc ysR (j + 1) - cyc ysR j)) by (rewrite Q0; ring).
  rewrite EM, EQ. split; [exact A1|]. split; [exact A2|]. split.
  - rewrite Rabs_mult, (Rabs_pos_eq (IZR _)) by (apply IZR_le; lia). exact D.
  - rewrite E0 in B0.
    assert (X : Rabs (IZR j * (cyc ysR (j + 1) - cyc ysR j)) <= S).
    { rewrite Rabs_mult, (Rabs_pos_eq (IZR j)) by (apply IZR_le; lia). eapply Rle_trans; [|exact D].
      rewrite Rmult_comm. apply Rmult_le_compat_l; [apply Rabs_pos|apply IZR_le; lia]. }
    apply Rabs_le_inv in X. apply Rabs_le_inv in B0. apply Rabs_le. lra.
Qed.

Lemma qR_line j : (0 <= j < 2 ^ K)%Z -> qR j = cyc ysR j - IZR j * (mR j / IZR (2 ^ K)).
Proof.
  intros Hj. assert (M0 := m_slope ysR Hlen1 sR HSR j ltac:(rewrite LyR; lia)).
  assert (Q0 := q_line ysR Hlen1 sR HSR j 0 ltac:(rewrite LyR; lia)).
  unfold slope in M0. unfold line in Q0. rewrite LyR in M0, Q0. rewrite Rmult_0_l, Rmult_0_r, Rplus_0_l in Q0.
  assert (0 < IZR (2 ^ K)) by (apply IZR_lt; lia).
  etransitivity; [exact Q0|]. rewrite M0. field. lra.
Qed.
(** the value at any point of the line over the cycle *)
Lemma line_bound j t : (0 <= j < 2 ^ K)%Z -> IZR j <= t * IZR (2 ^ K) <= IZR j + 1 -> Rabs (mR j * t + qR j) <= S.
Proof.
  intros Hj Ht. assert (Q0 := q_line ysR Hlen1 sR HSR j t ltac:(rewrite LyR; lia)).
  rewrite LyR in Q0. unfold line in Q0.
  assert (Hm := Z.mod_pos_bound (j + 1) (2 ^ K) ltac:(lia)).
  assert (I0 : forall i, (0 <= i < 2 ^ K)%Z -> Rabs (cyc ysR i) <= S).
  { intros i Hi. rewrite <- at_map by exact Hi. apply Hy. eapply znth_In. apply (znth_at N ys i). lia. }
  assert (A := I0 j Hj). assert (B := I0 _ Hm). rewrite <- LyR, cyc_mod in B by exact Hlen1.
  change (Rabs (at_ (N := RNum) (s_m sR) j * t + at_ (N := RNum) (s_q sR) j) <= S).
  replace (at_ (N := RNum) (s_m sR) j * t + at_ (N := RNum) (s_q sR) j) with
    (cyc ysR j + (t * IZR (2 ^ K) - IZR j) * (cyc ysR (j + 1) - cyc ysR j)) by (symmetry; exact Q0).
  apply Rabs_le_inv in A. apply Rabs_le_inv in B. apply Rabs_le.
  set (f := t * IZR (2 ^ K) - IZR j) in *. assert (0 <= f <= 1) by (unfold f; lra).
  set (a := cyc ysR j) in *. set (b := cyc ysR (j + 1)) in *. split; nra.
Qed.

Lemma d_near j : (0 <= j < 2 ^ K)%Z ->
  near (at_ (s_md s) j) (dR j) (3.03 * u) /\ Rabs (dR j) <= 2 * S /\
  near (at_ (s_qd s) j) (- (dR j * (IZR (j + 1) / IZR (2 ^ K)))) (5.6 * u).
Proof.
  intros Hj. set (j' := ((j + 1) mod 2 ^ K)%Z). assert (Hj' : (0 <= j' < 2 ^ K)%Z) by (apply Z.mod_pos_bound; lia).
  assert (U0 := u_pos). assert (T0 := tau_u). assert (T1 := tau_pos). assert (SB := s_big). assert (SP := s_pos).
  assert (US : u <= S / 10000000) by (unfold eps; lra).
  destruct (mq_near j Hj) as (N1 & N2 & B1 & B2). destruct (mq_near j' Hj') as (N3 & N4 & B3 & B4).
  assert (Emd := sf_md _ _ _ HS j ltac:(lia)). rewrite Ly in Emd. fold j' in Emd. rewrite Emd.
  assert (LyT : @zlen (T RNum) ysR = (2 ^ K)%Z) by exact LyR.
  assert (EdR := sf_md _ _ _ HSR j ltac:(rewrite LyT; lia)). rewrite LyT in EdR. fold j' in EdR. cbn [tsub RNum] in EdR.
  assert (EdR' : dR j = mR j' - mR j) by exact EdR. clear EdR. rewrite EdR'.
  assert (BD : Rabs (mR j' - mR j) <= 2 * S).
  { apply Rabs_le_inv in B1. apply Rabs_le_inv in B3. apply Rabs_le. lra. }
  split; [|split; [exact BD|]].
  { eapply near_le; [apply (near_sub _ _ _ _ _ _ (2 * S) N3 N1 BD); unfold eps in *; lra|]. unfold eps in *. lra. }
  assert (L1 := qR_line j Hj). assert (L2 := qR_line j' Hj').
  assert (PP : 0 < IZR (2 ^ K)) by (apply IZR_lt; lia).
  assert (Cont : mR j * (IZR (j + 1) / IZR (2 ^ K)) + qR j = cyc ysR (j + 1)).
  { assert (Q0 := q_line ysR Hlen1 sR HSR j (IZR (j + 1) / IZR (2 ^ K)) ltac:(rewrite LyR; lia)).
    unfold line in Q0. rewrite LyR in Q0. etransitivity; [exact Q0|]. rewrite plus_IZR. field. lra. }
  destruct (Z.eq_dec j (2 ^ K - 1)) as [Ej|Nj].
  - assert (J0 : j' = 0%Z) by (unfold j'; rewrite Ej, Z.sub_add, Z.mod_same by lia; reflexivity).
    rewrite J0 in *. assert (Eqd := sf_qd_last _ _ _ HS). rewrite Ly, <- Ej in Eqd. rewrite Eqd.
    assert (X1 : IZR (j + 1) / IZR (2 ^ K) = 1) by (rewrite Ej, Z.sub_add; field; lra).
    rewrite X1 in *. rewrite Rmult_1_r in Cont. rewrite Rmult_0_l, Rminus_0_r in L2.
    assert (C0 : cyc ysR (j + 1) = cyc ysR 0).
    { rewrite <- (cyc_mod ysR Hlen1 (j + 1)), LyR. fold j'. now rewrite J0. }
    assert (Em : mR j = qR 0%Z - qR j) by lra.
    assert (BQ : Rabs (qR 0%Z - qR j) <= S) by (rewrite <- Em; exact B1).
    assert (N5 := near_sub _ _ _ _ _ _ S N4 N2 BQ ltac:(unfold eps in *; lra)).
    assert (BE : Rabs (qR 0%Z - qR j - mR 0%Z) <= 2 * S).
    { rewrite <- Em. rewrite Rabs_minus_sym. exact BD. }
    assert (N6 := near_sub _ _ _ _ _ _ (2 * S) N5 N3 BE ltac:(unfold eps in *; lra)).
    replace (- ((mR 0%Z - mR j) * 1)) with (qR 0%Z - qR j - mR 0%Z) by (rewrite <- Em; ring).
    eapply near_le; [exact N6|]. unfold eps in *. lra.
  - assert (J0 : j' = (j + 1)%Z) by (unfold j'; rewrite Z.mod_small by lia; reflexivity).
    rewrite J0 in *. assert (Eqd := sf_qd _ _ _ HS j ltac:(lia)). rewrite Eqd.
    set (X := IZR (j + 1) / IZR (2 ^ K)) in *.
    assert (Cont2 : mR (j + 1)%Z * X + qR (j + 1)%Z = cyc ysR (j + 1)).
    { rewrite L2. unfold X. field. lra. }
    assert (HX : 0 <= X <= 1).
    { unfold X. split; [apply Rmult_le_pos; [apply IZR_le; lia|left; now apply Rinv_0_lt_compat]|].
      apply Rmult_le_reg_r with (IZR (2 ^ K)); [exact PP|]. unfold Rdiv. rewrite Rmult_assoc, Rinv_l by lra.
      rewrite Rmult_1_l, Rmult_1_r. apply IZR_le. lia. }
    assert (EQ : qR (j + 1)%Z - qR j = - ((mR (j + 1)%Z - mR j) * X)) by lra.
    assert (BE : Rabs (qR (j + 1)%Z - qR j) <= 2 * S).
    { rewrite EQ, Rabs_Ropp, Rabs_mult, (Rabs_pos_eq X) by lra. assert (0 <= Rabs (mR (j + 1)%Z - mR j)) by apply Rabs_pos. nra. }
    assert (N6 := near_sub _ _ _ _ _ _ (2 * S) N4 N2 BE ltac:(unfold eps in *; lra)).
    rewrite <- EQ. eapply near_le; [exact N6|]. unfold eps in *. lra.
Qed.
End Slot.
