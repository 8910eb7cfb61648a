(** * B32Facts: correctness of the binary32 operations in the ranges that matter *)
From Coq Require Import ZArith List Bool Reals Lia Lra.
From Flocq Require Import Core Mult_error Plus_error Sterbenz IEEE754.BinarySingleNaN.
From Verif Require Import Num B32.
Local Open Scope R_scope.

Notation fmt32 := (generic_format radix2 (FLT_exp (-149) 24)).
Notation rnd32 := (round radix2 (FLT_exp (-149) 24) ZnearestE).
Notation fmt64 := (generic_format radix2 (FLT_exp (-1074) 53)).
Notation rnd64 := (round radix2 (FLT_exp (-1074) 53) ZnearestE).

Lemma p32' : Prec_gt_0 24. Proof. reflexivity. Qed.
Lemma p64' : Prec_gt_0 53. Proof. reflexivity. Qed.
#[export] Existing Instance p32'.
#[export] Existing Instance p64'.

Notation v32 := (@B2R 24 128).
Notation v64 := (@B2R 53 1024).
Notation fin32 := (@is_finite 24 128).
Notation fin64 := (@is_finite 53 1024).

Lemma fmt32_B2R (x : f32) : fmt32 (v32 x).
Proof. exact (generic_format_B2R 24 128 x). Qed.
Lemma fmt64_B2R (x : f64) : fmt64 (v64 x).
Proof. exact (generic_format_B2R 53 1024 x). Qed.

Lemma fmt32_Ze (m e : Z) : (Z.abs m <= 2 ^ 24)%Z -> (-149 <= e)%Z -> fmt32 (IZR m * bpow radix2 e).
Proof.
  intros Hm He. destruct (Z.eq_dec (Z.abs m) (2 ^ 24)) as [E|NE].
  - apply generic_format_FLT.
    assert (Hm' : m = (2 ^ 24)%Z \/ m = (- 2 ^ 24)%Z) by lia.
    destruct Hm' as [-> | ->].
    + apply (FLT_spec _ _ _ _ (Float radix2 1 (e + 24))); [|simpl; lia|simpl; lia].
      unfold F2R; simpl Fnum; simpl Fexp. rewrite bpow_plus.
      change (bpow radix2 24) with (IZR (2 ^ 24)). generalize (IZR (2 ^ 24)); intros r; ring.
    + apply (FLT_spec _ _ _ _ (Float radix2 (-1) (e + 24))); [|simpl; lia|simpl; lia].
      unfold F2R; simpl Fnum; simpl Fexp. rewrite bpow_plus.
      change (bpow radix2 24) with (IZR (2 ^ 24)). rewrite opp_IZR.
      generalize (IZR (2 ^ 24)); intros r. ring.
  - apply generic_format_FLT. apply (FLT_spec _ _ _ _ (Float radix2 m e)); simpl; auto. lia.
Qed.
Lemma fmt32_Z (m : Z) : (Z.abs m <= 2 ^ 24)%Z -> fmt32 (IZR m).
Proof. intros H. replace (IZR m) with (IZR m * bpow radix2 0) by (simpl; ring). now apply fmt32_Ze. Qed.
Lemma fmt32_bpow (e : Z) : (-149 <= e)%Z -> fmt32 (bpow radix2 e).
Proof. intros H. rewrite <- (Rmult_1_l (bpow radix2 e)). now apply (fmt32_Ze 1). Qed.

Lemma rnd32_abs_le x e : (-149 <= e)%Z -> Rabs x <= bpow radix2 e -> Rabs (rnd32 x) <= bpow radix2 e.
Proof. intros He H. apply abs_round_le_generic; auto with typeclass_instances. now apply fmt32_bpow. Qed.
Lemma rnd32_ge x y : fmt32 y -> y <= x -> y <= rnd32 x.
Proof. intros Hy H. apply round_ge_generic; auto with typeclass_instances. Qed.
Lemma rnd32_le x y : fmt32 y -> x <= y -> rnd32 x <= y.
Proof. intros Hy H. apply round_le_generic; auto with typeclass_instances. Qed.
Lemma rnd32_id x : fmt32 x -> rnd32 x = x.
Proof. intros; apply round_generic; auto with typeclass_instances. Qed.

Definition small32 (x : R) : Prop := Rabs x <= bpow radix2 127.
Lemma small32_ok x : small32 x -> Rlt_bool (Rabs (rnd32 x)) (bpow radix2 128) = true.
Proof.
  intros H. apply Rlt_bool_true. apply Rle_lt_trans with (bpow radix2 127).
  - now apply rnd32_abs_le.
  - now apply bpow_lt.
Qed.

Lemma add32 (x y : f32) : fin32 x = true -> fin32 y = true -> small32 (v32 x + v32 y) ->
  fin32 (@Bplus 24 128 p32 e32 mode_NE x y) = true /\
  v32 (@Bplus 24 128 p32 e32 mode_NE x y) = rnd32 (v32 x + v32 y).
Proof.
  intros Hx Hy Hs. generalize (Bplus_correct 24 128 p32 e32 mode_NE x y Hx Hy).
  change (SpecFloat.fexp 24 128) with (FLT_exp (-149) 24). simpl round_mode.
  rewrite small32_ok by assumption. tauto.
Qed.
Lemma sub32 (x y : f32) : fin32 x = true -> fin32 y = true -> small32 (v32 x - v32 y) ->
  fin32 (@Bminus 24 128 p32 e32 mode_NE x y) = true /\
  v32 (@Bminus 24 128 p32 e32 mode_NE x y) = rnd32 (v32 x - v32 y) /\
  Bsign (@Bminus 24 128 p32 e32 mode_NE x y) =
    match Rcompare (v32 x - v32 y) 0 with
    | Eq => (Bsign x && negb (Bsign y))%bool | Lt => true | Gt => false end.
Proof.
  intros Hx Hy Hs. generalize (Bminus_correct 24 128 p32 e32 mode_NE x y Hx Hy).
  change (SpecFloat.fexp 24 128) with (FLT_exp (-149) 24). simpl round_mode.
  rewrite small32_ok by assumption. tauto.
Qed.
Lemma mul32 (x y : f32) : fin32 x = true -> fin32 y = true -> small32 (v32 x * v32 y) ->
  fin32 (@Bmult 24 128 p32 e32 mode_NE x y) = true /\
  v32 (@Bmult 24 128 p32 e32 mode_NE x y) = rnd32 (v32 x * v32 y).
Proof.
  intros Hx Hy Hs. generalize (Bmult_correct 24 128 p32 e32 mode_NE x y).
  change (SpecFloat.fexp 24 128) with (FLT_exp (-149) 24). simpl round_mode.
  rewrite small32_ok by assumption. rewrite Hx, Hy. tauto.
Qed.
Lemma fma32 (x y z : f32) : fin32 x = true -> fin32 y = true -> fin32 z = true -> small32 (v32 x * v32 y + v32 z) ->
  fin32 (@Bfma 24 128 p32 e32 mode_NE x y z) = true /\
  v32 (@Bfma 24 128 p32 e32 mode_NE x y z) = rnd32 (v32 x * v32 y + v32 z).
Proof.
  intros Hx Hy Hz Hs. generalize (Bfma_correct 24 128 p32 e32 mode_NE x y z Hx Hy Hz).
  change (SpecFloat.fexp 24 128) with (FLT_exp (-149) 24). cbv zeta. simpl round_mode.
  change RbaseSymbolsImpl.Rplus with Rplus. change RbaseSymbolsImpl.Rmult with Rmult.
  rewrite small32_ok by assumption. tauto.
Qed.
Lemma div32 (x y : f32) : fin32 x = true -> v32 y <> 0 -> small32 (v32 x / v32 y) ->
  fin32 (@Bdiv 24 128 p32 e32 mode_NE x y) = true /\
  v32 (@Bdiv 24 128 p32 e32 mode_NE x y) = rnd32 (v32 x / v32 y).
Proof.
  intros Hx Hy Hs. generalize (Bdiv_correct 24 128 p32 e32 mode_NE x y Hy).
  change (SpecFloat.fexp 24 128) with (FLT_exp (-149) 24). simpl round_mode.
  rewrite small32_ok by assumption. rewrite Hx. tauto.
Qed.
Lemma norm32 (m e : Z) s : small32 (IZR m * bpow radix2 e) ->
  fin32 (binary_normalize 24 128 p32 e32 mode_NE m e s) = true /\
  v32 (binary_normalize 24 128 p32 e32 mode_NE m e s) = rnd32 (IZR m * bpow radix2 e).
Proof.
  intros Hs. generalize (binary_normalize_correct 24 128 p32 e32 mode_NE m e s). cbv zeta.
  change (SpecFloat.fexp 24 128) with (FLT_exp (-149) 24). simpl round_mode.
  unfold F2R; simpl Fnum; simpl Fexp.
  rewrite small32_ok by assumption. tauto.
Qed.

Lemma small32_of_le x e : (e <= 127)%Z -> Rabs x <= bpow radix2 e -> small32 x.
Proof. intros He H. unfold small32. apply Rle_trans with (1 := H). now apply bpow_le. Qed.
Lemma small32_1 x : -2 <= x <= 2 -> small32 x.
Proof.
  intros H. apply small32_of_le with 1%Z; [lia|]. change (bpow radix2 1) with 2.
  apply Rabs_le. lra.
Qed.

Lemma bpow_Z k : (0 <= k)%Z -> bpow radix2 k = IZR (2 ^ k).
Proof. intros H. now rewrite <- (IZR_Zpower radix2) by assumption. Qed.

Lemma ofZ32 (z : Z) : (Z.abs z <= 2 ^ 24)%Z -> fin32 (f32_ofZ z) = true /\ v32 (f32_ofZ z) = IZR z.
Proof.
  intros Hz. unfold f32_ofZ.
  assert (E : IZR z * bpow radix2 0 = IZR z) by (simpl; ring).
  destruct (norm32 z 0 false) as [H1 H2].
  - rewrite E. apply small32_of_le with 24%Z; [lia|].
    rewrite <- abs_IZR, bpow_Z by lia. now apply IZR_le.
  - split; [assumption|]. rewrite H2, E. apply rnd32_id. now apply fmt32_Z.
Qed.

(** integers of int range that happen to be binary32 numbers *)
Lemma ofZ32_fmt (z : Z) : (Z.abs z <= 2 ^ 31)%Z -> fmt32 (IZR z) ->
  fin32 (f32_ofZ z) = true /\ v32 (f32_ofZ z) = IZR z.
Proof.
  intros Hz Hf. unfold f32_ofZ.
  assert (E : IZR z * bpow radix2 0 = IZR z) by (simpl; ring).
  destruct (norm32 z 0 false) as [H1 H2].
  - rewrite E. apply small32_of_le with 31%Z; [lia|].
    rewrite <- abs_IZR, bpow_Z by lia. now apply IZR_le.
  - split; [assumption|]. rewrite H2, E. now apply rnd32_id.
Qed.

Lemma trunc32 (x : f32) : Btrunc x = Ztrunc (v32 x).
Proof.
  apply eq_IZR. rewrite (Btrunc_correct 24 128 e32 x).
  unfold round, scaled_mantissa, cexp, FIX_exp, F2R. simpl.
  now rewrite !Rmult_1_r.
Qed.

(** the integer part of a binary32 number is a binary32 number *)
Lemma fmt32_trunc (x : R) : fmt32 x -> fmt32 (IZR (Ztrunc x)).
Proof.
  intros Hx. destruct (Rle_or_lt (bpow radix2 24) (Rabs x)) as [H|H].
  - assert (Hi : x = IZR (Ztrunc x)).
    { rewrite Hx at 1. unfold F2R; simpl.
      set (m := Ztrunc (scaled_mantissa radix2 (FLT_exp (-149) 24) x)).
      assert (Hc : (0 <= cexp radix2 (FLT_exp (-149) 24) x)%Z).
      { unfold cexp, FLT_exp. assert (25 <= mag radix2 x)%Z.
        { apply mag_ge_bpow. exact H. } lia. }
      assert (Hx2 : x = IZR (m * 2 ^ cexp radix2 (FLT_exp (-149) 24) x)).
      { rewrite mult_IZR, <- bpow_Z by assumption. rewrite Hx at 1. reflexivity. }
      rewrite Hx2 at 2. rewrite Ztrunc_IZR. rewrite mult_IZR, <- bpow_Z by assumption. reflexivity. }
    now rewrite <- Hi.
  - apply fmt32_Z. apply le_IZR. rewrite abs_IZR.
    rewrite <- bpow_Z by lia. apply Rlt_le. apply Rle_lt_trans with (2 := H).
    unfold Ztrunc. destruct (Rlt_bool_spec x 0) as [H0|H0].
    + rewrite !Rabs_left1; try lra.
      * apply Ropp_le_contravar. apply Zceil_ub.
      * apply IZR_le. apply Zceil_glb. simpl; lra.
    + rewrite !Rabs_pos_eq; try lra.
      * apply Zfloor_lb.
      * apply IZR_le. apply Zfloor_lub. simpl; lra.
Qed.

Lemma minnorm32 : fin32 (binary_normalize 24 128 p32 e32 mode_NE 1 (-126) false) = true /\
  v32 (binary_normalize 24 128 p32 e32 mode_NE 1 (-126) false) = bpow radix2 (-126).
Proof.
  destruct (norm32 1 (-126) false) as [H1 H2].
  - rewrite Rmult_1_l. apply small32_of_le with (-126)%Z; [lia|].
    rewrite Rabs_pos_eq; [lra | apply bpow_ge_0].
  - split; [assumption|]. rewrite H2, Rmult_1_l. apply rnd32_id, fmt32_bpow; lia.
Qed.

(** difference of two phases *)
Lemma subp32 (p q : f32) : fin32 p = true -> fin32 q = true ->
  0 <= v32 p <= 1 -> 0 <= v32 q <= 1 ->
  let d := @Bminus 24 128 p32 e32 mode_NE p q in
  fin32 d = true /\ v32 d = rnd32 (v32 p - v32 q).
Proof.
  intros Hp Hq Bp Bq d. destruct (sub32 p q Hp Hq) as (A & B & _).
  - apply small32_1. lra.
  - split; assumption.
Qed.

Lemma rnd32_0 x y : fmt32 x -> fmt32 y -> rnd32 (x - y) = 0 -> x = y.
Proof.
  intros Hx Hy H. destruct (Req_dec (x - y) 0) as [E|NE]; [lra|].
  exfalso. assert (round radix2 (FLT_exp (-149) 24) ZnearestE (x + - y) <> 0).
  { apply round_plus_neq_0; auto with typeclass_instances. now apply generic_format_opp. }
  apply H0. exact H.
Qed.
