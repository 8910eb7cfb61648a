(** * PMaths: lemmas behind C38 *)
From Coq Require Import ZArith List Bool Reals Lia Lra.
From Flocq Require Import Core Sterbenz IEEE754.BinarySingleNaN.
From Verif Require Import Num Maths NumFacts B32 B32Facts Laws B32Laws B32Pow BuildFacts Demo SpecF.
Local Open Scope Z_scope.

Section PMaths.
Variable lm : Libm.
Notation N := (B32 lm).
Notation L0 := (B32_Laws demo_libm demo_exact).

Lemma two31 : IZR (2 ^ 31) = 2147483648%R. Proof. reflexivity. Qed.

(** binary32 numbers below 2^31 stay clear of INT_MAX *)
Lemma below31 (x : f32) : (B2R x < IZR (2 ^ 31))%R -> (B2R x < IZR int_max)%R.
Proof.
  intros H. assert (E : (B2R x <= pred radix2 (FLT_exp (-149) 24) (bpow radix2 31))%R).
  { apply pred_ge_gt; [auto with typeclass_instances|apply fmt32_B2R|apply fmt32_bpow; lia|].
    rewrite bpow_Z by lia. exact H. }
  rewrite pred_bpow in E. change (FLT_exp (-149) 24 31) with 7 in E. rewrite !bpow_Z in E by lia.
  assert (IZR (2 ^ 31) = 2147483648 /\ IZR (2 ^ 7) = 128 /\ IZR int_max = 2147483647)%R by (repeat split; reflexivity). lra.
Qed.

Lemma floor_ok (x : f32) : is_finite x = true -> (- IZR (2 ^ 31) <= B2R x < IZR (2 ^ 31))%R ->
  mfloor N x = Ok (Zfloor (B2R x)).
Proof.
  intros Hf [H1 H2]. refine (mfloor_spec _ L0 x Hf _). split; [|now apply below31].
  change (IZR int_min) with (- IZR (2 ^ 31))%R. exact H1.
Qed.
Lemma ceil_ok (x : f32) : is_finite x = true -> (- IZR (2 ^ 31) <= B2R x < IZR (2 ^ 31))%R ->
  mceil N x = Ok (Zceil (B2R x)).
Proof.
  intros Hf [H1 H2]. refine (mceil_spec _ L0 x Hf _). split; [|left; now apply below31].
  change (IZR int_min) with (- IZR (2 ^ 31))%R. exact H1.
Qed.

Lemma below_m31 (x : f32) : (B2R x < - IZR (2 ^ 31))%R -> (B2R x <= - IZR (2 ^ 31) - 1)%R.
Proof.
  intros H. assert (E : (succ radix2 (FLT_exp (-149) 24) (bpow radix2 31) <= - B2R x)%R).
  { apply succ_le_lt; [auto with typeclass_instances|apply fmt32_bpow; lia|apply generic_format_opp, fmt32_B2R|].
    rewrite bpow_Z by lia. lra. }
  rewrite succ_eq_pos in E by apply bpow_ge_0. rewrite ulp_bpow in E. change (FLT_exp (-149) 24 (31 + 1)) with 8 in E.
  rewrite !bpow_Z in E by lia. assert (IZR (2 ^ 8) = 256)%R by reflexivity. lra.
Qed.

Lemma cast_bad (x : f32) : is_finite x = false \/ (B2R x < - IZR (2 ^ 31))%R \/ (IZR (2 ^ 31) <= B2R x)%R ->
  tcast N x = Fault BadCast.
Proof.
  unfold tcast. change (ttrunc N x) with (f32_trunc x). unfold f32_trunc.
  destruct (is_finite x) eqn:Hf; [|reflexivity]. intros [H|H]; [discriminate|].
  rewrite trunc32. change (v32 x) with (B2R x).
  assert (Hi : in_int (Ztrunc (B2R x)) = false); [|now rewrite Hi].
  unfold in_int, int_min, int_max. apply andb_false_iff. destruct H as [H|H].
  - left. apply Z.leb_gt. apply below_m31 in H. change (-2147483648) with (- 2 ^ 31).
    assert (Ztrunc (B2R x) <= Ztrunc (IZR (- 2 ^ 31 - 1))).
    { apply Ztrunc_le. rewrite minus_IZR, opp_IZR. exact H. }
    rewrite Ztrunc_IZR in H0. lia.
  - right. apply Z.leb_gt. assert (Ztrunc (IZR (2 ^ 31)) <= Ztrunc (B2R x)) by now apply Ztrunc_le.
    rewrite Ztrunc_IZR in H0. change (2 ^ 31) with 2147483648 in H0. lia.
Qed.

Lemma sign_cases (x : f32) : is_finite x = true ->
  msign N x = if Rlt_bool (Rabs (B2R x)) (/ IZR (2 ^ 126)) then 0 else if Rlt_bool (B2R x) 0 then -1 else 1.
Proof.
  intros Hf. unfold msign. cbn [tlt tabs tminnorm tsignbit B32]. destruct minnorm32 as [M1 M2].
  rewrite Bltb_correct; [|now rewrite is_finite_Babs|assumption].
  rewrite B2R_Babs, M2, bpow_126.
  destruct (Rlt_bool_spec (Rabs (B2R x)) (/ IZR (2 ^ 126))) as [H|H]; [reflexivity|].
  destruct x as [s| | |s m e b]; try discriminate.
  - exfalso. cbn in H. rewrite Rabs_R0 in H.
    assert (0 < / IZR (2 ^ 126))%R by (apply Rinv_0_lt_compat, IZR_lt; reflexivity). lra.
  - cbn [Bsign]. destruct s; cbn [B2R].
    + rewrite Rlt_bool_true; [reflexivity|]. apply F2R_lt_0. reflexivity.
    + rewrite Rlt_bool_false; [reflexivity|]. apply F2R_ge_0. discriminate.
Qed.

(** reduce(x, 1.F) on [-1, 2) *)
Lemma reduce1 d (x : f32) : is_finite x = true -> (-1 <= B2R x < 2)%R ->
  exists y : f32, reduceT N d x (t1 N) = Ok y /\ is_finite y = true /\
    ((0 <= B2R x)%R -> B2R y = (B2R x - IZR (Zfloor (B2R x)))%R) /\
    ((B2R x < 0)%R -> B2R y = toF32 (B2R x + 1)).
Proof.
  intros Hf Hx. destruct (zero_spec _ L0) as [Z1 Z2]. destruct (one_spec _ L0) as [O1 O2].
  destruct (red_spec _ L0) as (A1 & A2 & B1 & B2).
  assert (E : reduceT N d x (t1 N) =
    if Rle_bool 1 (B2R x) then Ok (tsub N x (t1 N)) else if Rlt_bool (B2R x) 0 then Ok (tadd N x (t1 N)) else Ok x).
  { unfold reduceT. change (reduceT N d x (t1 N)) with (reduceT (B32 demo_libm) d x (t1 (B32 demo_libm))).
    change (tlt N (t0 N) (t1 N)) with (tlt (B32 demo_libm) (t0 (B32 demo_libm)) (t1 (B32 demo_libm))).
    rewrite (lt_spec _ L0 _ _ Z1 O1), Z2, O2. rewrite Rlt_bool_true by lra.
    rewrite assert_ok by reflexivity. cbn [bind].
    change (tle N x (tmul N (t2 N) (t1 N))) with (tle (B32 demo_libm) x (tmul (B32 demo_libm) (t2 (B32 demo_libm)) (t1 (B32 demo_libm)))).
    change (tle N (tsub N (t0 N) (t1 N)) x) with (tle (B32 demo_libm) (tsub (B32 demo_libm) (t0 (B32 demo_libm)) (t1 (B32 demo_libm))) x).
    rewrite (le_spec _ L0 _ _ Hf A1), (le_spec _ L0 _ _ B1 Hf), A2, B2.
    change (val (B32 demo_libm) L0 x) with (B2R x). rewrite !Rle_bool_true by lra.
    rewrite assert_ok by reflexivity. cbn [bind].
    change (tle N (t1 N) x) with (tle (B32 demo_libm) (t1 (B32 demo_libm)) x).
    change (tlt N x (t0 N)) with (tlt (B32 demo_libm) x (t0 (B32 demo_libm))).
    rewrite (le_spec _ L0 _ _ O1 Hf), (lt_spec _ L0 _ _ Hf Z1), O2, Z2. reflexivity. }
  rewrite E. destruct (ofZ32 1 ltac:(lia)) as [O3 O4].
  destruct (Rle_bool_spec 1 (B2R x)) as [H|H].
  - destruct (sub32 x (f32_ofZ 1) Hf O3) as (C1 & C2 & _); [rewrite O4; apply small32_1; change (v32 x) with (B2R x); lra|].
    exists (tsub N x (t1 N)). split; [reflexivity|]. split; [exact C1|]. split; [|intros; exfalso; lra].
    intros _. change (B2R (tsub N x (t1 N))) with (v32 (@Bminus 24 128 p32 e32 mode_NE x (f32_ofZ 1))).
    rewrite C2, O4. replace (Zfloor (B2R x)) with 1 by (symmetry; apply Zfloor_imp; cbn; lra).
    apply rnd32_id. apply sterbenz; auto with typeclass_instances; [apply fmt32_B2R|apply (fmt32_Z 1); lia|].
    change (v32 x) with (B2R x). lra.
  - destruct (Rlt_bool_spec (B2R x) 0) as [H0|H0].
    + destruct (add32 x (f32_ofZ 1) Hf O3) as (C1 & C2); [rewrite O4; apply small32_1; change (v32 x) with (B2R x); lra|].
      exists (tadd N x (t1 N)). split; [reflexivity|]. split; [exact C1|]. split; [intros; exfalso; lra|].
      intros _. change (B2R (tadd N x (t1 N))) with (v32 (@Bplus 24 128 p32 e32 mode_NE x (f32_ofZ 1))).
      rewrite C2, O4. reflexivity.
    + exists x. split; [reflexivity|]. split; [assumption|]. split; [|intros; exfalso; lra].
      intros _. replace (Zfloor (B2R x)) with 0 by (symmetry; apply Zfloor_imp; cbn; lra). ring.
Qed.

Lemma pow2_right v : log2_exact lm -> log2_close lm -> 0 <= v <= 2 ^ 18 ->
  exists b, misPowerOfTwo N v = Ok b /\ (b = true <-> exists k, 0 <= k /\ v = 2 ^ k).
Proof.
  intros He Hc Hv. destruct (Z.eq_dec v 0) as [->|Hn].
  { exists false. split; [reflexivity|]. split; [discriminate|]. intros (k & Hk & E). assert (0 < 2 ^ k) by (apply pow2_pos; lia). lia. }
  assert (D : (exists k, 0 <= k /\ v = 2 ^ k) \/ ~ (exists k, 0 <= k /\ v = 2 ^ k)).
  { destruct (Z.eq_dec v (2 ^ Z.log2 v)) as [E|E].
    - left. exists (Z.log2 v). split; [apply Z.log2_nonneg|assumption].
    - right. intros (k & Hk & E'). apply E. rewrite E' at 2. rewrite Z.log2_pow2 by assumption. assumption. }
  destruct D as [(k & Hk & ->)|D].
  - exists true. split; [|split; [eauto|reflexivity]].
    apply (misPowerOfTwo_pow2 N (B32_Laws lm He)).
    split; [assumption|]. apply (Z.pow_le_mono_r_iff 2); try lia.
    all: destruct (Z_le_gt_dec k 24); [assumption|].
    all: assert (2 ^ 24 <= 2 ^ k) by (apply Z.pow_le_mono_r; lia); lia.
  - exists false. split; [|split; [discriminate|contradiction]].
    apply misPowerOfTwo_not; auto; [lia|]. intros k Hk E. apply D. eauto.
Qed.
End PMaths.
