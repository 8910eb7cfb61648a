(** * PSeg: rounding errors of one segment of a binary32 table, any amplitude *)
From Coq Require Import ZArith List Bool Reals Lia Lra.
From Flocq Require Import Core Mult_error IEEE754.BinarySingleNaN.
From Verif Require Import Num Wavetable Spec B32 NumFacts Laws B32Facts B32Laws WTFacts BuildFacts OscHist PErr.
Import ListNotations.
Local Open Scope R_scope.

Section Seg.
Variable lm : Libm.
Notation N := (B32 lm).
Variables (b K j : Z) (y0 y1 : f32).
Hypothesis Hb : (-64 <= b <= 64)%Z.
Hypothesis HK : (2 <= K <= 18)%Z.
Hypothesis Hj : (0 <= j < 2 ^ K)%Z.
Hypothesis F0 : fin32 y0 = true.
Hypothesis F1 : fin32 y1 = true.
Hypothesis R0 : Rabs (v32 y0) <= bpow radix2 b.
Hypothesis R1 : Rabs (v32 y1) <= bpow radix2 b.
Notation gx i := (gx lm K i).
Notation M := (computeM N (gx j) (gx (j + 1)) y0 y1).
Notation Q := (computeQ N (gx j) (gx (j + 1)) y0 y1).
Notation E := (bpow radix2 (K + b - 24)).

Lemma seg_facts :
  fin32 M = true /\ fin32 Q = true /\
  Rabs (v32 M) <= bpow radix2 (K + b + 1) /\ Rabs (v32 Q) <= bpow radix2 (K + b + 1) /\
  Rabs (v32 M - (v32 y1 - v32 y0) * bpow radix2 K) <= E + E / 16 /\
  Rabs (v32 Q - (v32 y0 - IZR j * (v32 y1 - v32 y0))) <= E + E / 4.
Proof.
  set (P := bpow radix2 K). set (I := bpow radix2 (- K)). set (B := bpow radix2 b) in *.
  assert (PI : P * I = 1) by (unfold P, I; rewrite <- bpow_plus, Z.add_opp_diag_r; reflexivity).
  assert (HP : IZR (2 ^ K) = P) by (unfold P; rewrite bpow_Z by lia; reflexivity).
  assert (HP0 : 0 < P) by apply bpow_gt_0. assert (HI0 : 0 < I) by apply bpow_gt_0.
  assert (HB0 : 0 < B) by apply bpow_gt_0.
  assert (HI4 : I <= / 4) by (unfold I; change (/ 4) with (bpow radix2 (-2)); apply bpow_le; lia).
  assert (HPi : / P = I) by (apply Rmult_eq_reg_l with P; [rewrite Rinv_r; lra|lra]).
  destruct (b_grid lm j K ltac:(lia) ltac:(lia)) as [G0 V0].
  destruct (b_grid lm (j + 1) K ltac:(lia) ltac:(lia)) as [G1 V1].
  rewrite HP in V0, V1. unfold Rdiv in V0, V1. rewrite HPi in V0, V1.
  fold (gx j) in G0, V0. fold (gx (j + 1)) in G1, V1. rewrite plus_IZR in V1.
  set (x0 := IZR j * I) in *.
  assert (Hx0 : 0 <= x0 <= 1 - I).
  { unfold x0. split; [apply Rmult_le_pos; [apply IZR_le; lia|lra]|].
    replace (1 - I) with ((P - 1) * I) by (rewrite Rmult_minus_distr_r, PI; ring).
    apply Rmult_le_compat_r; [lra|]. rewrite <- HP. rewrite <- minus_IZR. apply IZR_le. lia. }
  assert (Ej : IZR j = x0 * P) by (unfold x0; rewrite Rmult_assoc, (Rmult_comm I), PI; ring).
  apply Rabs_le_inv in R0. apply Rabs_le_inv in R1.
  destruct (to64 y0 F0) as [A0 B0]. destruct (to64 y1 F1) as [A1 B1].
  destruct (to64 (gx j) G0) as [A2 B2]. destruct (to64 (gx (j + 1)) G1) as [A3 B3].
  rewrite V0 in B2. rewrite V1 in B3.
  set (Y0 := v32 y0) in *. set (Y1 := v32 y1) in *.
  unfold computeM, computeQ. cbn [dsub ddiv t2d d2t B32].
  set (dx := @Bminus 53 1024 p64 e64 mode_NE (f32_to_f64 (gx (j + 1))) (f32_to_f64 (gx j))).
  set (dy := @Bminus 53 1024 p64 e64 mode_NE (f32_to_f64 y1) (f32_to_f64 y0)).
  assert (Edx : fin64 dx = true /\ v64 dx = I).
  { destruct (sub64 (f32_to_f64 (gx (j + 1))) (f32_to_f64 (gx j)) A3 A2) as [C1 C2].
    - rewrite B2, B3. apply small64_of_le with 1%Z; [lia|]. unfold x0. change (bpow radix2 1) with 2.
      apply Rabs_le. lra.
    - split; [exact C1|]. unfold dx. rewrite C2, B2, B3. unfold x0.
      replace ((IZR j + 1) * I - IZR j * I) with I by ring. apply rnd64_id. apply fmt64_bpow. lia. }
  destruct Edx as [Fdx Vdx].
  assert (B21 : 2 * B = bpow radix2 (b + 1)) by (unfold B; rewrite bpow_plus; change (bpow radix2 1) with 2; ring).
  set (DY := rnd64 (Y1 - Y0)).
  assert (HD0 : Rabs (Y1 - Y0) <= bpow radix2 (b + 1)) by (rewrite <- B21; apply Rabs_le; lra).
  assert (HDY : Rabs DY <= bpow radix2 (b + 1)) by (apply rnd64_abs_le; [lia|exact HD0]).
  set (d53 := bpow radix2 (b - 53)).
  assert (EDY : Rabs (DY - (Y1 - Y0)) <= d53).
  { unfold d53. replace (b - 53)%Z with (b + 1 - 54)%Z by lia. apply err64; [lia|exact HD0]. }
  assert (FDY : fmt64 DY) by (apply generic_format_round; auto with typeclass_instances).
  assert (Edy : fin64 dy = true /\ v64 dy = DY).
  { destruct (sub64 (f32_to_f64 y1) (f32_to_f64 y0) A1 A0) as [C1 C2].
    - rewrite B0, B1. apply small64_of_le with (b + 1)%Z; [lia|exact HD0].
    - split; [exact C1|]. unfold dy. now rewrite C2, B0, B1. }
  destruct Edy as [Fdy Vdy].
  assert (HDY' := Rabs_le_inv _ _ HDY). rewrite <- B21 in HDY'.
  assert (P1 : 2 * B * P = bpow radix2 (K + b + 1)).
  { rewrite B21. unfold P. rewrite <- bpow_plus. f_equal. lia. }
  assert (HM0 : Rabs (DY * P) <= bpow radix2 (K + b + 1)).
  { rewrite <- P1, Rabs_mult, (Rabs_pos_eq P) by lra. apply Rmult_le_compat_r; [lra|]. rewrite B21. exact HDY. }
  assert (Hdiv : forall a, a / I = a * P) by (intros a; unfold Rdiv; rewrite <- HPi, Rinv_inv; reflexivity).
  assert (Em64 : fin64 (@Bdiv 53 1024 p64 e64 mode_NE dy dx) = true /\
                 v64 (@Bdiv 53 1024 p64 e64 mode_NE dy dx) = DY * P).
  { destruct (div64 dy dx Fdy) as [C1 C2].
    - rewrite Vdx. lra.
    - rewrite Vdy, Vdx, Hdiv. apply small64_of_le with (K + b + 1)%Z; [lia|assumption].
    - split; [exact C1|]. rewrite C2, Vdy, Vdx, Hdiv. apply rnd64_id. apply fmt64_up; [lia|assumption]. }
  destruct Em64 as [Fm64 Vm64].
  assert (Em : fin32 (f64_to_f32 (@Bdiv 53 1024 p64 e64 mode_NE dy dx)) = true /\
               v32 (f64_to_f32 (@Bdiv 53 1024 p64 e64 mode_NE dy dx)) = rnd32 (DY * P)).
  { rewrite <- Vm64. apply to32; [exact Fm64|]. rewrite Vm64. apply small32_of_le with (K + b + 1)%Z; [lia|assumption]. }
  destruct Em as [Fm Vm]. set (m := f64_to_f32 (@Bdiv 53 1024 p64 e64 mode_NE dy dx)) in *.
  assert (HM : Rabs (v32 m) <= bpow radix2 (K + b + 1)) by (rewrite Vm; apply rnd32_abs_le; [lia|assumption]).
  assert (EM : Rabs (v32 m - DY * P) <= E).
  { rewrite Vm. replace (K + b - 24)%Z with (K + b + 1 - 25)%Z by lia. apply err32; [lia|assumption]. }
  (* q *)
  assert (Xex : rnd64 (v64 (f32_to_f64 y0) * v64 dx) = v64 (f32_to_f64 y0) * v64 dx).
  { rewrite B0, Vdx. apply rnd64_id. unfold I. apply fmt64_of32; [lia|apply fmt32_B2R]. }
  assert (Hxd : Rabs (x0 * DY) <= 2 * B * (1 - I)).
  { rewrite Rabs_mult, (Rabs_pos_eq x0) by lra. rewrite (Rmult_comm x0), <- B21 in *.
    apply Rmult_le_compat; [apply Rabs_pos|lra|exact HDY|lra]. }
  assert (Hxdy : Rabs (x0 * DY) <= bpow radix2 (b + 1)) by (rewrite <- B21; nra).
  assert (BX : forall X, X = v64 (f32_to_f64 (gx j)) * v64 dy \/ X = rnd64 (v64 (f32_to_f64 (gx j)) * v64 dy) ->
    Rabs (X - x0 * DY) <= d53 /\ Rabs X <= 2 * B * (1 - I)).
  { rewrite B2, Vdy. intros X [-> | ->]; (split; [|]).
    - rewrite Rminus_eq_0, Rabs_R0. apply bpow_ge_0.
    - exact Hxd.
    - unfold d53. replace (b - 53)%Z with (b + 1 - 54)%Z by lia. apply err64; [lia|assumption].
    - apply abs_round_le_generic; auto with typeclass_instances.
      replace (2 * B * (1 - I)) with (IZR (2 ^ K - 1) * bpow radix2 (b + 1 - K)).
      + apply generic_format_FLT. apply (FLT_spec _ _ _ _ (Float radix2 (2 ^ K - 1) (b + 1 - K))).
        * reflexivity.
        * cbn [Fnum]. change (Zpower radix2 53) with (2 ^ 53)%Z.
          assert (2 ^ K <= 2 ^ 18)%Z by (apply Z.pow_le_mono_r; lia). lia.
        * cbn [Fexp]. lia.
      + rewrite minus_IZR, HP. unfold Zminus. rewrite bpow_plus. fold I. rewrite <- B21.
        replace (2 * B * (1 - I)) with (2 * B * (P * I - I)) by (rewrite PI; ring). ring. }
  assert (BS : forall X, Rabs X <= 2 * B * (1 - I) -> Rabs (Y0 * I - X) <= bpow radix2 (b + 1)).
  { intros X HX. apply Rabs_le_inv in HX. rewrite <- B21. apply Rabs_le. nra. }
  destruct (ddotm_val lm 61 (f32_to_f64 y0) dx (f32_to_f64 (gx j)) dy A0 Fdx A2 Fdy Xex) as (XDY & CX & Fnum & Vnum).
  { rewrite B0, Vdx. apply small64_of_le with (b + 1)%Z; [lia|]. rewrite <- B21. apply Rabs_le. nra. }
  { rewrite B2, Vdy. apply small64_of_le with (b + 1)%Z; [lia|assumption]. }
  { intros X CX. destruct (BX X CX) as [_ HX]. rewrite B0, Vdx. apply small64_of_le with (b + 1)%Z; [lia|]. now apply BS. }
  destruct (BX XDY CX) as [HXDY HX]. clear CX.
  set (num := ddotm N 61 (f32_to_f64 y0) dx (f32_to_f64 (gx j)) dy : f64) in *.
  rewrite B0, Vdx in Vnum. set (S := rnd64 (Y0 * I - XDY)) in *. assert (HS0 := BS XDY HX).
  assert (HS1 : Rabs (S - (Y0 * I - XDY)) <= d53).
  { unfold d53. replace (b - 53)%Z with (b + 1 - 54)%Z by lia. apply err64; [lia|assumption]. }
  assert (HS2 : Rabs S <= bpow radix2 (b + 1)) by (apply rnd64_abs_le; [lia|assumption]).
  assert (FS : fmt64 S) by (apply generic_format_round; auto with typeclass_instances).
  assert (HQ0 : Rabs (S * P) <= bpow radix2 (K + b + 1)).
  { rewrite <- P1, Rabs_mult, (Rabs_pos_eq P) by lra. apply Rmult_le_compat_r; [lra|]. rewrite B21. exact HS2. }
  assert (Eq64 : fin64 (@Bdiv 53 1024 p64 e64 mode_NE num dx) = true /\
                 v64 (@Bdiv 53 1024 p64 e64 mode_NE num dx) = S * P).
  { destruct (div64 num dx Fnum) as [C1 C2].
    - rewrite Vdx. lra.
    - rewrite Vnum, Vdx, Hdiv. apply small64_of_le with (K + b + 1)%Z; [lia|assumption].
    - split; [exact C1|]. rewrite C2, Vnum, Vdx, Hdiv. apply rnd64_id. apply fmt64_up; [lia|assumption]. }
  destruct Eq64 as [Fq64 Vq64].
  assert (Eq : fin32 (f64_to_f32 (@Bdiv 53 1024 p64 e64 mode_NE num dx)) = true /\
               v32 (f64_to_f32 (@Bdiv 53 1024 p64 e64 mode_NE num dx)) = rnd32 (S * P)).
  { rewrite <- Vq64. apply to32; [exact Fq64|]. rewrite Vq64. apply small32_of_le with (K + b + 1)%Z; [lia|assumption]. }
  destruct Eq as [Fq Vq]. set (q := f64_to_f32 (@Bdiv 53 1024 p64 e64 mode_NE num dx)) in *.
  assert (HQ : Rabs (v32 q) <= bpow radix2 (K + b + 1)) by (rewrite Vq; apply rnd32_abs_le; [lia|assumption]).
  assert (EQ : Rabs (v32 q - S * P) <= E).
  { rewrite Vq. replace (K + b - 24)%Z with (K + b + 1 - 25)%Z by lia. apply err32; [lia|assumption]. }
  (* collect *)
  set (e := E) in *.
  assert (HdE : P * d53 <= e / 16).
  { unfold P, d53, e. replace (bpow radix2 (K + b - 24) / 16) with (bpow radix2 (K + b - 24) * bpow radix2 (-4)).
    - rewrite <- !bpow_plus. apply bpow_le. lia.
    - change (bpow radix2 (-4)) with (/ 16). reflexivity. }
  assert (He0 : 0 < e) by apply bpow_gt_0.
  apply Rabs_le_inv in EM. apply Rabs_le_inv in EQ. apply Rabs_le_inv in HS1. apply Rabs_le_inv in HXDY.
  apply Rabs_le_inv in EDY.
  assert (Hd0 : 0 < d53) by apply bpow_gt_0.
  assert (D1 : - (e / 16) <= P * (DY - (Y1 - Y0)) <= e / 16) by (split; nra).
  assert (D2 : - (e / 16) <= P * (S - (Y0 * I - XDY)) <= e / 16) by (split; nra).
  assert (D3 : - (e / 16) <= P * (XDY - x0 * DY) <= e / 16) by (split; nra).
  assert (D4 : - (e / 16) <= x0 * (P * (DY - (Y1 - Y0))) <= e / 16) by (split; nra).
  split; [exact Fm|]. split; [exact Fq|]. split; [exact HM|]. split; [exact HQ|]. split.
  - apply Rabs_le. replace (v32 m - (Y1 - Y0) * P) with ((v32 m - DY * P) + P * (DY - (Y1 - Y0))) by ring. lra.
  - apply Rabs_le. rewrite Ej.
    replace (v32 q - (Y0 - x0 * P * (Y1 - Y0))) with
      ((v32 q - S * P) + P * (S - (Y0 * I - XDY)) - P * (XDY - x0 * DY) - x0 * (P * (DY - (Y1 - Y0))) + Y0 * (P * I - 1)) by ring.
    rewrite PI. lra.
Qed.

(** the stored line against the true one, on the whole segment *)
Lemma seg_line t : 0 <= t <= 1 ->
  Rabs (v32 M * t + v32 Q - (v32 y0 + (t * bpow radix2 K - IZR j) * (v32 y1 - v32 y0))) <= 5 / 2 * E.
Proof.
  intros Ht. destruct seg_facts as (_ & _ & _ & _ & A & B).
  apply Rabs_le_inv in A. apply Rabs_le_inv in B.
  assert (E0 := bpow_gt_0 radix2 (K + b - 24)).
  replace (v32 M * t + v32 Q - (v32 y0 + (t * bpow radix2 K - IZR j) * (v32 y1 - v32 y0))) with
    (t * (v32 M - (v32 y1 - v32 y0) * bpow radix2 K) + (v32 Q - (v32 y0 - IZR j * (v32 y1 - v32 y0)))) by ring.
  apply Rabs_le. set (u := v32 M - _) in *. set (w := v32 Q - _) in *. split; nra.
Qed.

(** the sample rebuilt from it *)
Lemma seg_rebuilt :
  fin32 (tmad N 60 M (gx j) Q) = true /\
  Rabs (v32 (tmad N 60 M (gx j) Q) - v32 y0) <= bpow radix2 (K + b - 22).
Proof.
  destruct seg_facts as (Fm & Fq & Hm & Hq & _ & _).
  assert (E0 := bpow_gt_0 radix2 (K + b - 24)).
  destruct (b_grid lm j K ltac:(lia) ltac:(lia)) as [G0 V0]. fold (gx j) in G0, V0.
  assert (HP : IZR (2 ^ K) = bpow radix2 K) by (rewrite bpow_Z by lia; reflexivity).
  assert (HP0 := bpow_gt_0 radix2 K). rewrite HP in V0.
  assert (Hx : 0 <= IZR j / bpow radix2 K <= 1).
  { split; [apply Rmult_le_pos; [apply IZR_le; lia|left; now apply Rinv_0_lt_compat]|].
    apply Rmult_le_reg_r with (bpow radix2 K); [lra|]. unfold Rdiv. rewrite Rmult_assoc, Rinv_l by lra.
    rewrite Rmult_1_l, Rmult_1_r, <- HP. apply IZR_le. lia. }
  assert (Ln := seg_line _ Hx). set (x := IZR j / bpow radix2 K) in *.
  replace (x * bpow radix2 K - IZR j) with 0 in Ln by (unfold x; field; lra).
  rewrite Rmult_0_l, Rplus_0_r in Ln.
  assert (HMx : Rabs (v32 M * x) <= bpow radix2 (K + b + 1)).
  { rewrite Rabs_mult, (Rabs_pos_eq x) by lra. assert (0 <= Rabs (v32 M)) by apply Rabs_pos. nra. }
  destruct (mul32 M (gx j) Fm G0) as [Fp Vp].
  { rewrite V0. apply small32_of_le with (K + b + 1)%Z; [lia|assumption]. }
  rewrite V0 in Vp. fold x in Vp.
  apply Rabs_le_inv in Ln. assert (R0' := Rabs_le_inv _ _ R0).
  assert (HB0 := bpow_gt_0 radix2 b).
  assert (EB : bpow radix2 (K + b - 24) <= bpow radix2 b / 64).
  { replace (bpow radix2 b / 64) with (bpow radix2 b * bpow radix2 (-6)) by (change (bpow radix2 (-6)) with (/ 64); field).
    rewrite <- bpow_plus. apply bpow_le. lia. }
  assert (E22 : bpow radix2 (K + b - 22) = 4 * bpow radix2 (K + b - 24)).
  { replace (K + b - 22)%Z with (2 + (K + b - 24))%Z by lia. rewrite bpow_plus. reflexivity. }
  assert (E24 : bpow radix2 (b + 1 - 25) <= bpow radix2 (K + b - 24) / 4).
  { replace (bpow radix2 (K + b - 24) / 4) with (bpow radix2 (K + b - 24) * bpow radix2 (-2)) by (change (bpow radix2 (-2)) with (/ 4); field).
    rewrite <- bpow_plus. apply bpow_le. lia. }
  assert (B21 : 2 * bpow radix2 b = bpow radix2 (b + 1)) by (rewrite bpow_plus; change (bpow radix2 1) with 2; ring).
  assert (FIN : forall p, Rabs (p - v32 M * x) <= E ->
    small32 (p + v32 Q) /\ Rabs (rnd32 (p + v32 Q) - v32 y0) <= bpow radix2 (K + b - 22)).
  { intros p EP. apply Rabs_le_inv in EP. set (S := p + v32 Q).
    assert (HSY : Rabs (S - v32 y0) <= 7 / 2 * bpow radix2 (K + b - 24)) by (unfold S; apply Rabs_le; lra).
    assert (HS : Rabs S <= bpow radix2 (b + 1)).
    { rewrite <- B21. apply Rabs_le_inv in HSY. apply Rabs_le. lra. }
    split; [apply small32_of_le with (b + 1)%Z; [lia|exact HS]|].
    assert (ER := err32 S (b + 1) ltac:(lia) HS).
    rewrite E22. apply Rabs_le_inv in ER. apply Rabs_le_inv in HSY. apply Rabs_le. lra. }
  unfold tmad. cbn [tfuse tfma tadd tmul B32]. destruct (_ =? 0)%Z.
  - destruct (FIN (rnd32 (v32 M * x))) as [S1 S2].
    { replace (K + b - 24)%Z with (K + b + 1 - 25)%Z by lia. apply err32; [lia|assumption]. }
    rewrite <- Vp in S1, S2. destruct (add32 _ Q Fp Fq S1) as [Fr Vr].
    split; [exact Fr|]. rewrite Vr. exact S2.
  - destruct (FIN (v32 M * x)) as [S1 S2].
    { rewrite Rminus_eq_0, Rabs_R0. apply bpow_ge_0. }
    rewrite <- V0 in S1, S2. destruct (fma32 M (gx j) Q Fm G0 Fq S1) as [Fr Vr].
    split; [exact Fr|]. rewrite Vr. exact S2.
Qed.
End Seg.

(** ** a whole entry *)
Section Slot.
Variable lm : Libm.
Notation N := (B32 lm).
Variables (b K : Z) (ys : list (T N)) (s : Slot N).
Hypothesis Hb : (-64 <= b <= 64)%Z.
Hypothesis HK : (2 <= K <= 18)%Z.
Hypothesis Ly : zlen ys = (2 ^ K)%Z.
Hypothesis HS : slotOf ys s.
Hypothesis Hy : forall y : f32, In y ys -> fin32 y = true /\ Rabs (v32 y) <= bpow radix2 b.
Notation E := (bpow radix2 (K + b - 24)).
Notation mm j := (at_ (s_m s) j : f32).
Notation qq j := (at_ (s_q s) j : f32).
Notation Y j := (v32 (at_ ys (j mod 2 ^ K))).

Lemma in_ys j : (0 <= j < 2 ^ K)%Z -> fin32 (at_ ys j) = true /\ Rabs (v32 (at_ ys j)) <= bpow radix2 b.
Proof. intros Hj. apply Hy. eapply znth_In. apply (znth_at N ys j). lia. Qed.

Lemma slot_seg j : (0 <= j < 2 ^ K)%Z ->
  fin32 (mm j) = true /\ fin32 (qq j) = true /\
  Rabs (v32 (mm j)) <= bpow radix2 (K + b + 1) /\ Rabs (v32 (qq j)) <= bpow radix2 (K + b + 1) /\
  forall t, 0 <= t <= 1 ->
    Rabs (v32 (mm j) * t + v32 (qq j) - (Y j + (t * bpow radix2 K - IZR j) * (Y (j + 1) - Y j))) <= 5 / 2 * E.
Proof.
  intros Hj. assert (Hm := Z.mod_pos_bound (j + 1) (2 ^ K) ltac:(lia)).
  destruct (in_ys j Hj) as [F0 R0]. destruct (in_ys _ Hm) as [F1 R1].
  rewrite (sf_m _ _ _ HS), (sf_q _ _ _ HS) by lia. rewrite Ly.
  rewrite (Z.mod_small j) by lia.
  destruct (seg_facts lm b K j (at_ ys j) (at_ ys ((j + 1) mod 2 ^ K)) Hb HK Hj F0 F1 R0 R1) as (A1 & A2 & A3 & A4 & _ & _).
  split; [exact A1|]. split; [exact A2|]. split; [exact A3|]. split; [exact A4|].
  intros t Ht. exact (seg_line lm b K j (at_ ys j) (at_ ys ((j + 1) mod 2 ^ K)) Hb HK Hj F0 F1 R0 R1 t Ht).
Qed.

(** both lines meeting at boundary j+1 are close to the sample there *)
Lemma line_end j : (0 <= j < 2 ^ K)%Z ->
  Rabs (v32 (mm j) * (IZR (j + 1) / bpow radix2 K) + v32 (qq j) - Y (j + 1)) <= 5 / 2 * E.
Proof.
  intros Hj. destruct (slot_seg j Hj) as (_ & _ & _ & _ & H).
  assert (HP := bpow_gt_0 radix2 K).
  assert (HPZ : IZR (2 ^ K) = bpow radix2 K) by (rewrite bpow_Z by lia; reflexivity).
  assert (Hx : 0 <= IZR (j + 1) / bpow radix2 K <= 1).
  { split; [apply Rmult_le_pos; [apply IZR_le; lia|left; now apply Rinv_0_lt_compat]|].
    apply Rmult_le_reg_r with (bpow radix2 K); [lra|]. unfold Rdiv. rewrite Rmult_assoc, Rinv_l by lra.
    rewrite Rmult_1_l, Rmult_1_r, <- HPZ. apply IZR_le. lia. }
  specialize (H _ Hx). rewrite plus_IZR in *.
  replace (Y (j + 1)) with (Y j + ((IZR j + 1) / bpow radix2 K * bpow radix2 K - IZR j) * (Y (j + 1) - Y j)) by (field; lra).
  exact H.
Qed.
Lemma line_start j : (0 <= j < 2 ^ K)%Z ->
  Rabs (v32 (mm j) * (IZR j / bpow radix2 K) + v32 (qq j) - Y j) <= 5 / 2 * E.
Proof.
  intros Hj. destruct (slot_seg j Hj) as (_ & _ & _ & _ & H).
  assert (HP := bpow_gt_0 radix2 K).
  assert (HPZ : IZR (2 ^ K) = bpow radix2 K) by (rewrite bpow_Z by lia; reflexivity).
  assert (Hx : 0 <= IZR j / bpow radix2 K <= 1).
  { split; [apply Rmult_le_pos; [apply IZR_le; lia|left; now apply Rinv_0_lt_compat]|].
    apply Rmult_le_reg_r with (bpow radix2 K); [lra|]. unfold Rdiv. rewrite Rmult_assoc, Rinv_l by lra.
    rewrite Rmult_1_l, Rmult_1_r, <- HPZ. apply IZR_le. lia. }
  specialize (H _ Hx).
  replace (v32 (mm j) * (IZR j / bpow radix2 K) + v32 (qq j) - Y j) with
    (v32 (mm j) * (IZR j / bpow radix2 K) + v32 (qq j) -
     (Y j + (IZR j / bpow radix2 K * bpow radix2 K - IZR j) * (Y (j + 1) - Y j))) by (field; lra).
  exact H.
Qed.

Lemma sub_err (x y : f32) e : (-100 <= e <= 120)%Z -> fin32 x = true -> fin32 y = true ->
  Rabs (v32 x - v32 y) <= bpow radix2 e ->
  fin32 (tsub N x y) = true /\ Rabs (v32 (tsub N x y) - (v32 x - v32 y)) <= bpow radix2 (e - 25) /\
  Rabs (v32 (tsub N x y)) <= bpow radix2 e.
Proof.
  intros He Fx Fy H. destruct (sub32 x y Fx Fy) as (F & V & _). { apply small32_of_le with e; [lia|exact H]. }
  cbn [tsub B32]. split; [exact F|]. rewrite V. split; [apply err32; [lia|exact H]|apply rnd32_abs_le; [lia|exact H]].
Qed.

Lemma diff2 x y e : Rabs x <= bpow radix2 e -> Rabs y <= bpow radix2 e -> Rabs (x - y) <= bpow radix2 (e + 1).
Proof.
  intros H1 H2. rewrite bpow_plus. change (bpow radix2 1) with 2. apply Rabs_le_inv in H1. apply Rabs_le_inv in H2.
  apply Rabs_le. lra.
Qed.

Lemma slot_jump j : (0 <= j < 2 ^ K)%Z ->
  fin32 (at_ (s_md s) j) = true /\ fin32 (at_ (s_qd s) j) = true /\
  Rabs (v32 (at_ (s_qd s) j) + v32 (at_ (s_md s) j) * (IZR (j + 1) / bpow radix2 K)) <= 13 * E.
Proof.
  intros Hj. set (j' := ((j + 1) mod 2 ^ K)%Z). assert (Hj' : (0 <= j' < 2 ^ K)%Z) by (apply Z.mod_pos_bound; lia).
  destruct (slot_seg j Hj) as (Fm & Fq & Bm & Bq & _).
  destruct (slot_seg j' Hj') as (Fm' & Fq' & Bm' & Bq' & _).
  assert (HP := bpow_gt_0 radix2 K).
  assert (HPZ : IZR (2 ^ K) = bpow radix2 K) by (rewrite bpow_Z by lia; reflexivity).
  assert (Hx : 0 <= IZR (j + 1) / bpow radix2 K <= 1).
  { split; [apply Rmult_le_pos; [apply IZR_le; lia|left; now apply Rinv_0_lt_compat]|].
    apply Rmult_le_reg_r with (bpow radix2 K); [lra|]. unfold Rdiv. rewrite Rmult_assoc, Rinv_l by lra.
    rewrite Rmult_1_l, Rmult_1_r, <- HPZ. apply IZR_le. lia. }
  set (x := IZR (j + 1) / bpow radix2 K) in *.
  assert (E0 := bpow_gt_0 radix2 (K + b - 24)).
  assert (E2 : bpow radix2 (K + b + 2 - 25) = 2 * E).
  { replace (K + b + 2 - 25)%Z with (1 + (K + b - 24))%Z by lia. rewrite bpow_plus. reflexivity. }
  assert (E4 : bpow radix2 (K + b + 3 - 25) = 4 * E).
  { replace (K + b + 3 - 25)%Z with (2 + (K + b - 24))%Z by lia. rewrite bpow_plus. reflexivity. }
  assert (Dm := diff2 _ _ _ Bm' Bm). replace (K + b + 1 + 1)%Z with (K + b + 2)%Z in Dm by lia.
  destruct (sub_err (mm j') (mm j) (K + b + 2) ltac:(lia) Fm' Fm Dm) as (Fd & Ed & _).
  assert (Emd := sf_md _ _ _ HS j ltac:(lia)). rewrite Ly in Emd. fold j' in Emd.
  rewrite <- Emd in Fd, Ed. rewrite E2 in Ed. split; [exact Fd|].
  assert (Le := line_end j Hj). fold x in Le.
  set (md := v32 (at_ (s_md s) j)) in *.
  apply Rabs_le_inv in Ed. apply Rabs_le_inv in Le.
  destruct (Z.eq_dec j (2 ^ K - 1)) as [Ej|Nj].
  - assert (J0 : j' = 0%Z) by (unfold j'; rewrite Ej, Z.sub_add, Z.mod_same by lia; reflexivity).
    rewrite J0 in *. assert (Eqd := sf_qd_last _ _ _ HS). rewrite Ly, <- Ej in Eqd.
    assert (Dq := diff2 _ _ _ Bq' Bq). replace (K + b + 1 + 1)%Z with (K + b + 2)%Z in Dq by lia.
    destruct (sub_err (qq 0) (qq j) (K + b + 2) ltac:(lia) Fq' Fq Dq) as (F1 & V1 & B1).
    assert (Bm2 : Rabs (v32 (mm 0)) <= bpow radix2 (K + b + 2)).
    { eapply Rle_trans; [exact Bm'|]. apply bpow_le. lia. }
    assert (Dl := diff2 _ _ _ B1 Bm2). replace (K + b + 2 + 1)%Z with (K + b + 3)%Z in Dl by lia.
    destruct (sub_err _ (mm 0) (K + b + 3) ltac:(lia) F1 Fm' Dl) as (F2 & V2 & _).
    rewrite <- Eqd in F2, V2. split; [exact F2|]. rewrite E2 in V1. rewrite E4 in V2.
    set (qd := v32 (at_ (s_qd s) j)) in *.
    assert (x1 : x = 1).
    { unfold x. rewrite Ej, Z.sub_add, HPZ. field. lra. }
    assert (Ls := line_start 0 ltac:(lia)).
    assert (Y0 : Y 0 = Y (j + 1)) by (fold j'; rewrite J0; reflexivity).
    rewrite Y0 in Ls. unfold Rdiv in Ls. rewrite Rmult_0_l, Rmult_0_r, Rplus_0_l in Ls.
    rewrite x1 in *. apply Rabs_le_inv in Ls. apply Rabs_le_inv in V1. apply Rabs_le_inv in V2.
    apply Rabs_le. split; lra.
  - assert (J0 : j' = (j + 1)%Z) by (unfold j'; rewrite Z.mod_small by lia; reflexivity).
    rewrite J0 in *. assert (Eqd := sf_qd _ _ _ HS j ltac:(lia)).
    assert (Dq := diff2 _ _ _ Bq' Bq). replace (K + b + 1 + 1)%Z with (K + b + 2)%Z in Dq by lia.
    destruct (sub_err (qq (j + 1)) (qq j) (K + b + 2) ltac:(lia) Fq' Fq Dq) as (F1 & V1 & _).
    rewrite <- Eqd in F1, V1. rewrite E2 in V1. split; [exact F1|].
    set (qd := v32 (at_ (s_qd s) j)) in *.
    assert (Ls := line_start (j + 1) ltac:(lia)). fold x in Ls.
    apply Rabs_le_inv in Ls. apply Rabs_le_inv in V1. set (A := v32 (mm (j + 1))) in *. set (B := v32 (mm j)) in *.
    set (u := md - (A - B)) in *. replace md with (u + (A - B)) by (unfold u; ring).
    replace (qd + (u + (A - B)) * x) with (qd + (A * x) - (B * x) + u * x) by ring.
    assert (- (2 * E) <= u * x <= 2 * E) by (split; nra).
    apply Rabs_le. split; lra.
Qed.
End Slot.
