(** * PErr: the rounding error of rebuildWaveforms in binary32 / binary64 *)
From Coq Require Import ZArith List Bool Reals Lia Lra.
From Flocq Require Import Core Mult_error IEEE754.BinarySingleNaN.
From Verif Require Import Num Wavetable Spec B32 NumFacts Laws B32Facts B32Laws WTFacts BuildFacts OscHist.
Import ListNotations.
Local Open Scope R_scope.

(** ** binary64 *)
Lemma rnd64_id x : fmt64 x -> rnd64 x = x.
Proof. intros; apply round_generic; auto with typeclass_instances. Qed.
Lemma fmt64_bpow e : (-1074 <= e)%Z -> fmt64 (bpow radix2 e).
Proof. intros H. apply generic_format_bpow. unfold FLT_exp. lia. Qed.
Lemma rnd64_abs_le x e : (-1074 <= e)%Z -> Rabs x <= bpow radix2 e -> Rabs (rnd64 x) <= bpow radix2 e.
Proof. intros He H. apply abs_round_le_generic; auto with typeclass_instances. now apply fmt64_bpow. Qed.

Definition small64 (x : R) : Prop := Rabs x <= bpow radix2 1000.
Lemma small64_ok x : small64 x -> Rlt_bool (Rabs (rnd64 x)) (bpow radix2 1024) = true.
Proof.
  intros H. apply Rlt_bool_true. apply Rle_lt_trans with (bpow radix2 1000).
  - now apply rnd64_abs_le.
  - now apply bpow_lt.
Qed.
Lemma small64_of_le x e : (e <= 1000)%Z -> Rabs x <= bpow radix2 e -> small64 x.
Proof. intros He H. unfold small64. apply Rle_trans with (1 := H). now apply bpow_le. Qed.

Lemma sub64 (x y : f64) : fin64 x = true -> fin64 y = true -> small64 (v64 x - v64 y) ->
  fin64 (@Bminus 53 1024 p64 e64 mode_NE x y) = true /\
  v64 (@Bminus 53 1024 p64 e64 mode_NE x y) = rnd64 (v64 x - v64 y).
Proof.
  intros Hx Hy Hs. generalize (Bminus_correct 53 1024 p64 e64 mode_NE x y Hx Hy).
  change (SpecFloat.fexp 53 1024) with (FLT_exp (-1074) 53). simpl round_mode.
  rewrite small64_ok by assumption. tauto.
Qed.
Lemma mul64 (x y : f64) : fin64 x = true -> fin64 y = true -> small64 (v64 x * v64 y) ->
  fin64 (@Bmult 53 1024 p64 e64 mode_NE x y) = true /\
  v64 (@Bmult 53 1024 p64 e64 mode_NE x y) = rnd64 (v64 x * v64 y).
Proof.
  intros Hx Hy Hs. generalize (Bmult_correct 53 1024 p64 e64 mode_NE x y).
  change (SpecFloat.fexp 53 1024) with (FLT_exp (-1074) 53). simpl round_mode.
  rewrite small64_ok by assumption. rewrite Hx, Hy. tauto.
Qed.
Lemma div64 (x y : f64) : fin64 x = true -> v64 y <> 0 -> small64 (v64 x / v64 y) ->
  fin64 (@Bdiv 53 1024 p64 e64 mode_NE x y) = true /\
  v64 (@Bdiv 53 1024 p64 e64 mode_NE x y) = rnd64 (v64 x / v64 y).
Proof.
  intros Hx Hy Hs. generalize (Bdiv_correct 53 1024 p64 e64 mode_NE x y Hy).
  change (SpecFloat.fexp 53 1024) with (FLT_exp (-1074) 53). simpl round_mode.
  rewrite small64_ok by assumption. rewrite Hx. tauto.
Qed.
Lemma fma64 (x y z : f64) : fin64 x = true -> fin64 y = true -> fin64 z = true -> small64 (v64 x * v64 y + v64 z) ->
  fin64 (@Bfma 53 1024 p64 e64 mode_NE x y z) = true /\
  v64 (@Bfma 53 1024 p64 e64 mode_NE x y z) = rnd64 (v64 x * v64 y + v64 z).
Proof.
  intros Hx Hy Hz Hs. generalize (Bfma_correct 53 1024 p64 e64 mode_NE x y z Hx Hy Hz).
  change (SpecFloat.fexp 53 1024) with (FLT_exp (-1074) 53). cbv zeta. simpl round_mode.
  change RbaseSymbolsImpl.Rplus with Rplus. change RbaseSymbolsImpl.Rmult with Rmult.
  rewrite small64_ok by assumption. tauto.
Qed.
Lemma opp64 (x : f64) : fin64 x = true -> fin64 (Bopp x) = true /\ v64 (Bopp x) = - v64 x.
Proof. intros H. split; [rewrite is_finite_Bopp; exact H|apply B2R_Bopp]. Qed.
(** a * b - c * d with an exact first product, whichever product the compiler fuses *)
Lemma ddotm_val lm s (a b c d : f64) : fin64 a = true -> fin64 b = true -> fin64 c = true -> fin64 d = true ->
  rnd64 (v64 a * v64 b) = v64 a * v64 b -> small64 (v64 a * v64 b) -> small64 (v64 c * v64 d) ->
  (forall X, X = v64 c * v64 d \/ X = rnd64 (v64 c * v64 d) -> small64 (v64 a * v64 b - X)) ->
  exists X, (X = v64 c * v64 d \/ X = rnd64 (v64 c * v64 d)) /\
    fin64 (ddotm (B32 lm) s a b c d) = true /\
    v64 (ddotm (B32 lm) s a b c d) = rnd64 (v64 a * v64 b - X).
Proof.
  intros Fa Fb Fc Fd E S1 S2 S3.
  destruct (mul64 a b Fa Fb S1) as [F1 V1]. destruct (mul64 c d Fc Fd S2) as [F2 V2]. rewrite E in V1.
  unfold ddotm. cbn [tfuse dfma dsub dmul dopp B32]. destruct (_ =? 0)%Z; [|destruct (_ =? 1)%Z].
  - exists (rnd64 (v64 c * v64 d)). split; [now right|]. rewrite <- V1, <- V2.
    apply sub64; auto. rewrite V1, V2. apply S3. now right.
  - exists (rnd64 (v64 c * v64 d)). split; [now right|]. destruct (opp64 _ F2) as [F3 V3].
    assert (S := S3 _ (or_intror eq_refl)). rewrite <- V2 in *. unfold Rminus in *. rewrite <- V3 in *.
    apply fma64; auto.
  - exists (v64 c * v64 d). split; [now left|]. destruct (opp64 _ Fc) as [F3 V3].
    assert (S := S3 _ (or_introl eq_refl)). rewrite <- V1 in *.
    replace (v64 (@Bmult 53 1024 p64 e64 mode_NE a b) - v64 c * v64 d) with
      (v64 (Bopp c) * v64 d + v64 (@Bmult 53 1024 p64 e64 mode_NE a b)) in * by (rewrite V3; ring).
    apply fma64; auto.
Qed.
Lemma norm64 (m e : Z) s : small64 (IZR m * bpow radix2 e) ->
  fin64 (binary_normalize 53 1024 p64 e64 mode_NE m e s) = true /\
  v64 (binary_normalize 53 1024 p64 e64 mode_NE m e s) = rnd64 (IZR m * bpow radix2 e).
Proof.
  intros Hs. generalize (binary_normalize_correct 53 1024 p64 e64 mode_NE m e s). cbv zeta.
  change (SpecFloat.fexp 53 1024) with (FLT_exp (-1074) 53). simpl round_mode.
  unfold F2R; simpl Fnum; simpl Fexp.
  rewrite small64_ok by assumption. tauto.
Qed.

(** a binary32 number divided by a power of two is a binary64 number *)
Lemma fmt64_of32 y k : (0 <= k <= 800)%Z -> fmt32 y -> fmt64 (y * bpow radix2 (- k)).
Proof.
  intros Hk Hy. apply FLT_format_generic in Hy; auto with typeclass_instances.
  destruct Hy as [[m e] E Hm He]. simpl in Hm, He. apply generic_format_FLT.
  apply (FLT_spec _ _ _ _ (Float radix2 m (e - k))); simpl.
  - rewrite E. unfold F2R; simpl. unfold Zminus. rewrite bpow_plus. ring.
  - lia.
  - lia.
Qed.
Lemma fmt64_32 y : fmt32 y -> fmt64 y.
Proof. intros H. rewrite <- (Rmult_1_r y). apply (fmt64_of32 y 0); [lia|assumption]. Qed.
Lemma fmt64_up y k : (0 <= k)%Z -> fmt64 y -> fmt64 (y * bpow radix2 k).
Proof. intros Hk Hy. apply mult_bpow_pos_exact_FLT; auto with typeclass_instances. Qed.

Lemma to64 (x : f32) : fin32 x = true -> fin64 (f32_to_f64 x) = true /\ v64 (f32_to_f64 x) = v32 x.
Proof.
  assert (F := fmt32_B2R x). assert (A := abs_B2R_lt_emax 24 128 x).
  destruct x as [s|s| |s m e He]; cbn [f32_to_f64]; try discriminate; intros _.
  - split; reflexivity.
  - assert (E : IZR (if s then Zneg m else Zpos m) * bpow radix2 e = v32 (B754_finite s m e He)).
    { destruct s; reflexivity. }
    destruct (norm64 (if s then Zneg m else Zpos m) e s) as [H1 H2].
    + rewrite E. apply small64_of_le with 128%Z; [lia|]. now apply Rlt_le.
    + split; [exact H1|]. rewrite H2, E. apply rnd64_id. now apply fmt64_32.
Qed.
Lemma to32 (x : f64) : fin64 x = true -> small32 (v64 x) ->
  fin32 (f64_to_f32 x) = true /\ v32 (f64_to_f32 x) = rnd32 (v64 x).
Proof.
  destruct x as [s|s| |s m e He]; cbn [f64_to_f32]; try discriminate; intros _ Hs.
  - split; [reflexivity|]. cbn [B2R]. rewrite round_0; auto with typeclass_instances.
  - assert (E : IZR (if s then Zneg m else Zpos m) * bpow radix2 e = v64 (B754_finite s m e He)).
    { destruct s; reflexivity. }
    rewrite <- E in Hs |- *. now apply norm32.
Qed.

(** ** rounding errors *)
Lemma err_gen emin prec (Hp : Prec_gt_0 prec) x e :
  (emin <= e - prec)%Z -> Rabs x <= bpow radix2 e ->
  Rabs (round radix2 (FLT_exp emin prec) ZnearestE x - x) <= bpow radix2 (e - prec - 1).
Proof.
  intros He Hx. destruct (Req_dec x 0) as [->|Hn].
  { rewrite round_0; auto with typeclass_instances. rewrite Rminus_0_r, Rabs_R0. apply bpow_ge_0. }
  assert (V : Valid_exp (FLT_exp emin prec)) by (apply FLT_exp_valid; assumption).
  assert (Hp' : (0 < prec)%Z) by exact Hp.
  destruct (Rle_lt_or_eq_dec _ _ Hx) as [Hlt|Heq].
  - apply Rle_trans with (1 := error_le_half_ulp radix2 (FLT_exp emin prec) _ x).
    rewrite ulp_neq_0 by assumption.
    replace (bpow radix2 (e - prec - 1)) with (/ 2 * bpow radix2 (e - prec)).
    2:{ unfold Zminus. rewrite (bpow_plus _ _ (-(1))). simpl. change (IZR (Z.pow_pos 2 1)) with 2. lra. }
    apply Rmult_le_compat_l; [lra|]. apply bpow_le. unfold cexp, FLT_exp.
    assert (mag radix2 x <= e)%Z by (apply mag_le_bpow; assumption). lia.
  - rewrite round_generic; auto with typeclass_instances.
    + rewrite Rminus_diag_eq by reflexivity. rewrite Rabs_R0. apply bpow_ge_0.
    + assert (Hg : generic_format radix2 (FLT_exp emin prec) (bpow radix2 e)).
      { apply generic_format_bpow. unfold FLT_exp. lia. }
      destruct (Rle_or_lt 0 x).
      * rewrite Rabs_pos_eq in Heq by assumption. now rewrite Heq.
      * rewrite Rabs_left in Heq by assumption. replace x with (- bpow radix2 e) by lra.
        now apply generic_format_opp.
Qed.
Lemma err32 x e : (-125 <= e)%Z -> Rabs x <= bpow radix2 e -> Rabs (rnd32 x - x) <= bpow radix2 (e - 25).
Proof. intros He H. replace (e - 25)%Z with (e - 24 - 1)%Z by lia. apply err_gen; [reflexivity|lia|assumption]. Qed.
Lemma err64 x e : (-1000 <= e)%Z -> Rabs x <= bpow radix2 e -> Rabs (rnd64 x - x) <= bpow radix2 (e - 54).
Proof. intros He H. replace (e - 54)%Z with (e - 53 - 1)%Z by lia. apply err_gen; [reflexivity|lia|assumption]. Qed.


(** ** one segment *)
Section Seg.
Variable lm : Libm.
Notation N := (B32 lm).
Variables (K j : Z) (y0 y1 : f32).
Hypothesis HK : (2 <= K <= 18)%Z.
Hypothesis Hj : (0 <= j < 2 ^ K)%Z.
Hypothesis F0 : fin32 y0 = true.
Hypothesis F1 : fin32 y1 = true.
Hypothesis R0 : Rabs (v32 y0) <= 1.
Hypothesis R1 : Rabs (v32 y1) <= 1.
Definition gx (i : Z) : f32 := tdiv N (tofZ N i) (tofZ N (2 ^ K)).

Lemma rebuilt_close :
  fin32 (tmad N 60 (computeM N (gx j) (gx (j + 1)) y0 y1) (gx j)
                (computeQ N (gx j) (gx (j + 1)) y0 y1)) = true /\
  Rabs (v32 (tmad N 60 (computeM N (gx j) (gx (j + 1)) y0 y1) (gx j)
                (computeQ N (gx j) (gx (j + 1)) y0 y1)) - v32 y0) <= bpow radix2 (K - 22).
Proof.
  set (P := bpow radix2 K). set (I := bpow radix2 (- K)).
  assert (PI : P * I = 1) by (unfold P, I; rewrite <- bpow_plus, Z.add_opp_diag_r; reflexivity).
  assert (HP : IZR (2 ^ K) = P) by (unfold P; rewrite bpow_Z by lia; reflexivity).
  assert (HP0 : 0 < P) by apply bpow_gt_0. assert (HI0 : 0 < I) by apply bpow_gt_0.
  assert (HI4 : I <= / 4) by (unfold I; change (/ 4) with (bpow radix2 (-2)); apply bpow_le; lia).
  assert (HPi : / P = I) by (apply Rmult_eq_reg_l with P; [rewrite Rinv_r; lra|lra]).
  (* grid *)
  destruct (b_grid lm j K ltac:(lia) ltac:(lia)) as [G0 V0].
  destruct (b_grid lm (j + 1) K ltac:(lia) ltac:(lia)) as [G1 V1].
  rewrite HP in V0, V1. unfold Rdiv in V0, V1. rewrite HPi in V0, V1.
  fold (gx j) in G0, V0. fold (gx (j + 1)) in G1, V1. rewrite plus_IZR in V1.
  set (x0 := IZR j * I) in *.
  assert (Hx0 : 0 <= x0 <= 1 - I).
  { unfold x0. split; [apply Rmult_le_pos; [apply IZR_le; lia|lra]|].
    replace (1 - I) with ((P - 1) * I) by (rewrite Rmult_minus_distr_r, PI; ring).
    apply Rmult_le_compat_r; [lra|]. rewrite <- HP. rewrite <- minus_IZR. apply IZR_le. lia. }
  apply Rabs_le_inv in R0. apply Rabs_le_inv in R1.
  destruct (to64 y0 F0) as [A0 B0]. destruct (to64 y1 F1) as [A1 B1].
  destruct (to64 (gx j) G0) as [A2 B2]. destruct (to64 (gx (j + 1)) G1) as [A3 B3].
  rewrite V0 in B2. rewrite V1 in B3.
  set (Y0 := v32 y0) in *. set (Y1 := v32 y1) in *.
  unfold computeM, computeQ. cbn [dsub ddiv t2d d2t B32].
  set (dx := @Bminus 53 1024 p64 e64 mode_NE (f32_to_f64 (gx (j + 1))) (f32_to_f64 (gx j))).
  set (dy := @Bminus 53 1024 p64 e64 mode_NE (f32_to_f64 y1) (f32_to_f64 y0)).
  (* dx = I *)
  assert (Edx : fin64 dx = true /\ v64 dx = I).
  { destruct (sub64 (f32_to_f64 (gx (j + 1))) (f32_to_f64 (gx j)) A3 A2) as [C1 C2].
    - rewrite B2, B3. apply small64_of_le with 1%Z; [lia|]. unfold x0. change (bpow radix2 1) with 2.
      apply Rabs_le. lra.
    - split; [exact C1|]. unfold dx. rewrite C2, B2, B3. unfold x0.
      replace ((IZR j + 1) * I - IZR j * I) with I by ring. apply rnd64_id. apply fmt64_bpow. lia. }
  destruct Edx as [Fdx Vdx].
  (* dy *)
  set (DY := rnd64 (Y1 - Y0)).
  assert (HDY : Rabs DY <= 2).
  { change 2 with (bpow radix2 1). apply rnd64_abs_le; [lia|]. change (bpow radix2 1) with 2.
    apply Rabs_le. lra. }
  assert (FDY : fmt64 DY) by (apply generic_format_round; auto with typeclass_instances).
  assert (Edy : fin64 dy = true /\ v64 dy = DY).
  { destruct (sub64 (f32_to_f64 y1) (f32_to_f64 y0) A1 A0) as [C1 C2].
    - rewrite B0, B1. apply small64_of_le with 1%Z; [lia|]. change (bpow radix2 1) with 2. apply Rabs_le. lra.
    - split; [exact C1|]. unfold dy. now rewrite C2, B0, B1. }
  destruct Edy as [Fdy Vdy].
  assert (HDY' := Rabs_le_inv _ _ HDY).
  (* m *)
  assert (P1 : 2 * P = bpow radix2 (K + 1)) by (unfold P; rewrite bpow_plus; change (bpow radix2 1) with 2; ring).
  assert (HM0 : Rabs (DY * P) <= bpow radix2 (K + 1)).
  { rewrite <- P1, Rabs_mult, (Rabs_pos_eq P) by lra. apply Rmult_le_compat_r; lra. }
  assert (Hdiv : forall a, a / I = a * P) by (intros a; unfold Rdiv; rewrite <- HPi, Rinv_inv; reflexivity).
  assert (Em64 : fin64 (@Bdiv 53 1024 p64 e64 mode_NE dy dx) = true /\
                 v64 (@Bdiv 53 1024 p64 e64 mode_NE dy dx) = DY * P).
  { destruct (div64 dy dx Fdy) as [C1 C2].
    - rewrite Vdx. lra.
    - rewrite Vdy, Vdx, Hdiv. apply small64_of_le with (K + 1)%Z; [lia|assumption].
    - split; [exact C1|]. rewrite C2, Vdy, Vdx, Hdiv. apply rnd64_id. apply fmt64_up; [lia|assumption]. }
  destruct Em64 as [Fm64 Vm64].
  assert (Em : fin32 (f64_to_f32 (@Bdiv 53 1024 p64 e64 mode_NE dy dx)) = true /\
               v32 (f64_to_f32 (@Bdiv 53 1024 p64 e64 mode_NE dy dx)) = rnd32 (DY * P)).
  { rewrite <- Vm64. apply to32; [exact Fm64|]. rewrite Vm64. apply small32_of_le with (K + 1)%Z; [lia|assumption]. }
  destruct Em as [Fm Vm]. set (m := f64_to_f32 (@Bdiv 53 1024 p64 e64 mode_NE dy dx)) in *.
  assert (HM : Rabs (v32 m) <= bpow radix2 (K + 1)) by (rewrite Vm; apply rnd32_abs_le; [lia|assumption]).
  assert (EM : Rabs (v32 m - DY * P) <= bpow radix2 (K - 24)).
  { rewrite Vm. replace (K - 24)%Z with (K + 1 - 25)%Z by lia. apply err32; [lia|assumption]. }
  (* q *)
  assert (Xex : rnd64 (v64 (f32_to_f64 y0) * v64 dx) = v64 (f32_to_f64 y0) * v64 dx).
  { rewrite B0, Vdx. apply rnd64_id. unfold I. apply fmt64_of32; [lia|apply fmt32_B2R]. }
  assert (Hxdy : Rabs (x0 * DY) <= bpow radix2 1) by (change (bpow radix2 1) with 2; apply Rabs_le; nra).
  assert (BX : forall X, X = v64 (f32_to_f64 (gx j)) * v64 dy \/ X = rnd64 (v64 (f32_to_f64 (gx j)) * v64 dy) ->
    Rabs (X - x0 * DY) <= bpow radix2 (-53) /\ Rabs X <= 2 * (1 - I)).
  { rewrite B2, Vdy. assert (Hx2 : Rabs (x0 * DY) <= 2 * (1 - I)) by (apply Rabs_le; nra).
    intros X [-> | ->]; (split; [|]).
    - rewrite Rminus_eq_0, Rabs_R0. apply bpow_ge_0.
    - exact Hx2.
    - change (-53)%Z with (1 - 54)%Z. apply err64; [lia|assumption].
    - apply abs_round_le_generic; auto with typeclass_instances.
      replace (2 * (1 - I)) with (IZR (2 ^ K - 1) * bpow radix2 (1 - K)).
      + apply generic_format_FLT. apply (FLT_spec _ _ _ _ (Float radix2 (2 ^ K - 1) (1 - K))).
        * reflexivity.
        * cbn [Fnum]. change (Zpower radix2 53) with (2 ^ 53)%Z.
          assert (2 ^ K <= 2 ^ 18)%Z by (apply Z.pow_le_mono_r; lia). lia.
        * cbn [Fexp]. lia.
      + rewrite minus_IZR, HP. unfold Zminus. rewrite bpow_plus. change (bpow radix2 1) with 2. fold I.
        replace (2 * (1 - I)) with (2 * (P * I - I)) by (rewrite PI; ring). ring. }
  assert (BS : forall X, Rabs X <= 2 * (1 - I) -> Rabs (Y0 * I - X) <= bpow radix2 1).
  { intros X HX. apply Rabs_le_inv in HX. change (bpow radix2 1) with 2. apply Rabs_le. nra. }
  destruct (ddotm_val lm 61 (f32_to_f64 y0) dx (f32_to_f64 (gx j)) dy A0 Fdx A2 Fdy Xex) as (XDY & CX & Fnum & Vnum).
  { rewrite B0, Vdx. apply small64_of_le with 0%Z; [lia|]. change (bpow radix2 0) with 1. apply Rabs_le. nra. }
  { rewrite B2, Vdy. apply small64_of_le with 1%Z; [lia|assumption]. }
  { intros X CX. destruct (BX X CX) as [_ HX]. rewrite B0, Vdx. apply small64_of_le with 1%Z; [lia|]. now apply BS. }
  destruct (BX XDY CX) as [HXDY HX]. clear CX.
  set (num := ddotm N 61 (f32_to_f64 y0) dx (f32_to_f64 (gx j)) dy : f64) in *.
  rewrite B0, Vdx in Vnum. set (S := rnd64 (Y0 * I - XDY)) in *. assert (HS0 := BS XDY HX).
  assert (HS1 : Rabs (S - (Y0 * I - XDY)) <= bpow radix2 (-53)).
  { change (-53)%Z with (1 - 54)%Z. apply err64; [lia|assumption]. }
  assert (HS2 : Rabs S <= bpow radix2 1) by (apply rnd64_abs_le; [lia|assumption]).
  assert (FS : fmt64 S) by (apply generic_format_round; auto with typeclass_instances).
  change (bpow radix2 1) with 2 in HS2.
  assert (HQ0 : Rabs (S * P) <= bpow radix2 (K + 1)).
  { rewrite <- P1, Rabs_mult, (Rabs_pos_eq P) by lra. apply Rmult_le_compat_r; lra. }
  assert (Eq64 : fin64 (@Bdiv 53 1024 p64 e64 mode_NE num dx) = true /\
                 v64 (@Bdiv 53 1024 p64 e64 mode_NE num dx) = S * P).
  { destruct (div64 num dx Fnum) as [C1 C2].
    - rewrite Vdx. lra.
    - rewrite Vnum, Vdx, Hdiv. apply small64_of_le with (K + 1)%Z; [lia|assumption].
    - split; [exact C1|]. rewrite C2, Vnum, Vdx, Hdiv. apply rnd64_id. apply fmt64_up; [lia|assumption]. }
  destruct Eq64 as [Fq64 Vq64].
  assert (Eq : fin32 (f64_to_f32 (@Bdiv 53 1024 p64 e64 mode_NE num dx)) = true /\
               v32 (f64_to_f32 (@Bdiv 53 1024 p64 e64 mode_NE num dx)) = rnd32 (S * P)).
  { rewrite <- Vq64. apply to32; [exact Fq64|]. rewrite Vq64. apply small32_of_le with (K + 1)%Z; [lia|assumption]. }
  destruct Eq as [Fq Vq]. set (q := f64_to_f32 (@Bdiv 53 1024 p64 e64 mode_NE num dx)) in *.
  assert (EQ : Rabs (v32 q - S * P) <= bpow radix2 (K - 24)).
  { rewrite Vq. replace (K - 24)%Z with (K + 1 - 25)%Z by lia. apply err32; [lia|assumption]. }
  (* product *)
  assert (HMx : Rabs (v32 m * x0) <= bpow radix2 (K + 1)).
  { rewrite Rabs_mult, (Rabs_pos_eq x0) by lra.
    assert (0 <= Rabs (v32 m)) by apply Rabs_pos. nra. }
  destruct (mul32 m (gx j) Fm G0) as [Fp Vp].
  { rewrite V0. apply small32_of_le with (K + 1)%Z; [lia|assumption]. }
  rewrite V0 in Vp.
  (* collect *)
  set (E := bpow radix2 (K - 24)) in *.
  assert (HE : E <= / 64) by (unfold E; change (/ 64) with (bpow radix2 (-6)); apply bpow_le; lia).
  assert (HE1 : bpow radix2 (-22) <= E) by (unfold E; apply bpow_le; lia).
  assert (HEP : E = P * bpow radix2 (-24)) by (unfold E, P, Zminus; rewrite bpow_plus; reflexivity).
  assert (HE4 : bpow radix2 (K - 22) = 4 * E).
  { unfold E. replace (K - 22)%Z with (2 + (K - 24))%Z by lia. rewrite bpow_plus. reflexivity. }
  apply Rabs_le_inv in EM. apply Rabs_le_inv in EQ.
  apply Rabs_le_inv in HS1. apply Rabs_le_inv in HXDY.
  set (d53 := bpow radix2 (-53)) in *.
  assert (Hd : P * d53 <= E * bpow radix2 (-29)).
  { rewrite HEP, Rmult_assoc, <- bpow_plus. apply Rle_refl. }
  assert (Hb29 : bpow radix2 (-29) <= / 16) by (change (/ 16) with (bpow radix2 (-4)); apply bpow_le; lia).
  assert (HdE : P * d53 <= E / 16) by nra.
  assert (X1 : - (E / 8) <= S * P - (Y0 - x0 * DY * P) <= E / 8).
  { replace (S * P - (Y0 - x0 * DY * P)) with (P * (S - (Y0 * I - XDY)) - P * (XDY - x0 * DY)
      + Y0 * (P * I - 1)) by ring. rewrite PI. split; nra. }
  assert (X2 : - E <= v32 m * x0 - x0 * DY * P <= E).
  { replace (v32 m * x0 - x0 * DY * P) with (x0 * (v32 m - DY * P)) by ring. split; nra. }
  assert (X5 : bpow radix2 (1 - 25) <= E / 4).
  { replace (E / 4) with (E * bpow radix2 (-2)) by (change (bpow radix2 (-2)) with (/ 4); field).
    replace (bpow radix2 (1 - 25)) with (bpow radix2 (-22) * bpow radix2 (-2)) by (rewrite <- bpow_plus; reflexivity).
    apply Rmult_le_compat_r; [apply bpow_ge_0|assumption]. }
  (* whichever way the sum with a product is rounded *)
  assert (FIN : forall p, Rabs (p - v32 m * x0) <= E ->
    small32 (p + v32 q) /\ Rabs (rnd32 (p + v32 q) - Y0) <= 4 * E).
  { intros p EP. apply Rabs_le_inv in EP.
    assert (X3 : - (3 * E + E / 8) <= p + v32 q - Y0 <= 3 * E + E / 8) by lra.
    assert (X4 : Rabs (rnd32 (p + v32 q) - (p + v32 q)) <= bpow radix2 (1 - 25)).
    { apply err32; [lia|]. change (bpow radix2 1) with 2. apply Rabs_le. lra. }
    apply Rabs_le_inv in X4. split; [apply small32_1; lra|]. apply Rabs_le. lra. }
  rewrite HE4. unfold tmad. cbn [tfuse tfma tadd tmul B32]. destruct (_ =? 0)%Z.
  - destruct (FIN (rnd32 (v32 m * x0))) as [S1 S2].
    { unfold E. replace (K - 24)%Z with (K + 1 - 25)%Z by lia. apply err32; [lia|assumption]. }
    rewrite <- Vp in S1, S2. destruct (add32 _ q Fp Fq S1) as [Fs Vs].
    split; [exact Fs|]. rewrite Vs. exact S2.
  - destruct (FIN (v32 m * x0)) as [S1 S2].
    { rewrite Rminus_eq_0, Rabs_R0. unfold E. apply bpow_ge_0. }
    rewrite <- V0 in S1, S2. destruct (fma32 m (gx j) q Fm G0 Fq S1) as [Fs Vs].
    split; [exact Fs|]. rewrite Vs. exact S2.
Qed.
End Seg.
