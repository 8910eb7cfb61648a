(** * Prop_Maths: property C38 -- the helpers of maths.hpp, binary32

    [Zfloor] and [Zceil] are Flocq's floor and ceiling of a real number. *)
From Coq Require Import ZArith List Bool Reals Lia Lra.
From Flocq Require Import Core IEEE754.BinarySingleNaN.
From Verif Require Import Num Maths Laws B32 B32Laws B32Pow Demo SpecF PMaths.
Local Open Scope Z_scope.

(** floor and ceil: exact on the whole int range, a conversion fault outside *)
Theorem C38_floor_ceil : forall lm (x : f32),
  (is_finite x = true -> (- IZR (2 ^ 31) <= B2R x < IZR (2 ^ 31))%R ->
     mfloor (B32 lm) x = Ok (Zfloor (B2R x)) /\ mceil (B32 lm) x = Ok (Zceil (B2R x))) /\
  (is_finite x = false \/ (B2R x < - IZR (2 ^ 31))%R \/ (IZR (2 ^ 31) <= B2R x)%R ->
     mfloor (B32 lm) x = Fault BadCast /\ mceil (B32 lm) x = Fault BadCast).
Proof.
  intros lm x. split.
  - intros H1 H2. split; [now apply floor_ok|now apply ceil_ok].
  - intros H. unfold mfloor, mceil. now rewrite (cast_bad lm x H).
Qed.
Print Assumptions C38_floor_ceil.

(** reduce on ints: the residue, except that the admitted value 2t gives t *)
Theorem C38_reduce_int : forall dbg v t, 0 < t -> t <= int_max ->
  (- t <= v < 2 * t -> reduceZ dbg v t = Ok (v mod t)) /\ reduceZ dbg (2 * t) t = Ok t.
Proof.
  intros dbg v t Ht Hm. split.
  - intros Hv. apply reduceZ_spec; lia.
  - unfold reduceZ. rewrite NumFacts.assert_ok by (intros _; now apply Z.ltb_lt). cbn [bind].
    rewrite NumFacts.assert_ok by (intros _; apply andb_true_intro; split; apply Z.leb_le; lia). cbn [bind].
    destruct (Z.leb_spec t (2 * t)); [|lia]. rewrite NumFacts.chk_ok by (unfold int_min, int_max in *; lia). f_equal. lia.
Qed.
Print Assumptions C38_reduce_int.

(** reduce(x, 1.F): exact fractional part on [0,2); on [-1,0) the correctly rounded x + 1 *)
Theorem C38_reduce_phase : forall lm dbg (x : f32), is_finite x = true -> (-1 <= B2R x < 2)%R ->
  exists y : f32, reduceT (B32 lm) dbg x (t1 (B32 lm)) = Ok y /\ is_finite y = true /\
    ((0 <= B2R x)%R -> B2R y = (B2R x - IZR (Zfloor (B2R x)))%R) /\
    ((B2R x < 0)%R -> B2R y = toF32 (B2R x + 1)).
Proof. intros lm dbg x. exact (reduce1 lm dbg x). Qed.
Print Assumptions C38_reduce_phase.

(** ... which can be 1 itself: -2^-26 is not reduced into [0,1) *)
Theorem C38_reduce_negative_refuted : forall lm dbg,
  exists x y : f32, is_finite x = true /\ (-1 <= B2R x < 0)%R /\
    reduceT (B32 lm) dbg x (t1 (B32 lm)) = Ok y /\ B2R y = 1%R.
Proof.
  intros lm dbg. exists (fl (-1) (2 ^ 26)), (tadd FN (fl (-1) (2 ^ 26)) (t1 FN)).
  split; [reflexivity|]. split; [vm_compute; lra|]. split; [destruct dbg; reflexivity|vm_compute; lra].
Qed.
Print Assumptions C38_reduce_negative_refuted.

(** sign: 0 below the smallest normal number, else the sign *)
Theorem C38_sign : forall lm (x : f32), is_finite x = true ->
  ((Rabs (B2R x) < / IZR (2 ^ 126))%R -> msign (B32 lm) x = 0) /\
  ((/ IZR (2 ^ 126) <= B2R x)%R -> msign (B32 lm) x = 1) /\
  ((B2R x <= - / IZR (2 ^ 126))%R -> msign (B32 lm) x = -1).
Proof.
  intros lm x Hf. rewrite (sign_cases lm x Hf).
  assert (0 < / IZR (2 ^ 126))%R by (apply Rinv_0_lt_compat, IZR_lt; reflexivity).
  split; [|split]; intros H1.
  - now rewrite Rlt_bool_true.
  - rewrite Rlt_bool_false by (rewrite Rabs_pos_eq; lra). now rewrite Rlt_bool_false by lra.
  - rewrite Rlt_bool_false by (rewrite Rabs_left; lra). now rewrite Rlt_bool_true by lra.
Qed.
Print Assumptions C38_sign.

(** isOdd: right for non-negative arguments, never true for negative ones *)
Theorem C38_isOdd : forall v, (0 <= v -> misOdd v = Z.odd v) /\ (v < 0 -> misOdd v = false).
Proof.
  intros v. unfold misOdd. split; intros Hv.
  - rewrite Z.rem_mod_nonneg by lia. rewrite Zmod_odd. destruct (Z.odd v); reflexivity.
  - apply Z.eqb_neq. assert (B := Z.rem_nonpos v 2). lia.
Qed.

(** isPowerOfTwo: right from 0 to 2^18 for a log2f exact on powers of two and within 2^-19
    elsewhere; wrong at 2^24 + 1 *)
Theorem C38_isPowerOfTwo : forall lm v, log2_exact lm -> log2_close lm -> 0 <= v <= 2 ^ 18 ->
  exists b, misPowerOfTwo (B32 lm) v = Ok b /\ (b = true <-> exists k, 0 <= k /\ v = 2 ^ k).
Proof. exact pow2_right. Qed.
Print Assumptions C38_isPowerOfTwo.
Theorem C38_isPowerOfTwo_large_refuted : forall lm, log2_exact lm -> misPowerOfTwo (B32 lm) (2 ^ 24 + 1) = Ok true.
Proof. exact misPowerOfTwo_big. Qed.

(** concrete values *)
Example C38_case : mfloor FN (fl (-7) 2) = Ok (-4) /\ mceil FN (fl (-7) 2) = Ok (-3) /\ mfloor FN (fl 7 2) = Ok 3 /\
  mceil FN (fl 7 2) = Ok 4 /\ reduceZ true (-3) 8 = Ok 5 /\ misOdd 7 = true /\ misOdd (-7) = false.
Proof. repeat split. Qed.
