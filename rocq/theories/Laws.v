(** * Laws: the facts about a number system on which all index reasoning rests.

    Both instances ([B32], for every libm whose log2f is exact on powers of two, and
    [RNum]) satisfy them: B32Laws.v, RLaws.v. *)
From Coq Require Import ZArith List Bool Reals Lia Lra.
From Flocq Require Import Core.
From Verif Require Import Num Maths Osc NumFacts.
Import ListNotations.
Local Open Scope Z_scope.

Record Laws (N : Num) : Type := mkLaws {
  fin : T N -> Prop;
  val : T N -> R;
  lt_spec : forall a b, fin a -> fin b -> tlt N a b = Rlt_bool (val a) (val b);
  le_spec : forall a b, fin a -> fin b -> tle N a b = Rle_bool (val a) (val b);
  eq_spec : forall a b, fin a -> fin b -> teq N a b = Req_bool (val a) (val b);
  ofZ_spec : forall z, Z.abs z <= 2 ^ 24 -> fin (tofZ N z) /\ val (tofZ N z) = IZR z;
  trunc_spec : forall a, fin a -> ttrunc N a = Some (Ztrunc (val a));
  trunc_back : forall a, fin a ->
    in_int (Ztrunc (val a)) = true ->
    fin (tofZ N (Ztrunc (val a))) /\ val (tofZ N (Ztrunc (val a))) = IZR (Ztrunc (val a));
  half_spec : forall n, (n = 1 \/ n = -1) -> fin (tfrac N n 2) /\ val (tfrac N n 2) = (IZR n / 2)%R;
  red_spec : fin (tmul N (t2 N) (t1 N)) /\ val (tmul N (t2 N) (t1 N)) = 2%R /\
             fin (tsub N (t0 N) (t1 N)) /\ val (tsub N (t0 N) (t1 N)) = (-1)%R;
  grid_spec : forall i k, 0 <= k <= 24 -> 0 <= i <= 2 ^ k ->
    fin (tdiv N (tofZ N i) (tofZ N (2 ^ k))) /\
    val (tdiv N (tofZ N i) (tofZ N (2 ^ k))) = (IZR i / IZR (2 ^ k))%R;
  pos_spec : forall p k, fin p -> (0 <= val p <= 1)%R -> 0 <= k <= 24 ->
    fin (tmul N p (tofZ N (2 ^ k))) /\
    val (tmul N p (tofZ N (2 ^ k))) = (val p * IZR (2 ^ k))%R;
  sgn_ge : forall p q, fin p -> fin q -> (0 <= val p <= 1)%R -> (0 <= val q <= 1)%R ->
    (val q <= val p)%R -> 0 <= msign N (tsub N p q);
  sgn_le : forall p q, fin p -> fin q -> (0 <= val p <= 1)%R -> (0 <= val q <= 1)%R ->
    (val p <= val q)%R -> msign N (tsub N p q) <= 0;
  sgn_pos : forall p q, fin p -> fin q -> (0 <= val p <= 1)%R -> (0 <= val q <= 1)%R ->
    (/ IZR (2 ^ 126) <= val p - val q)%R -> msign N (tsub N p q) = 1;
  sgn_neg : forall p q, fin p -> fin q -> (0 <= val p <= 1)%R -> (0 <= val q <= 1)%R ->
    (/ IZR (2 ^ 126) <= val q - val p)%R -> msign N (tsub N p q) = -1;
  abs_spec : forall a, fin a -> fin (tabs N a) /\ val (tabs N a) = Rabs (val a);
  bi_spec : forall p q, fin p -> fin q -> (0 <= val p < 1)%R -> (0 <= val q < 1)%R ->
    fin (stepBi N p q) /\ (-/2 <= val (stepBi N p q) <= /2)%R /\
    (val (stepBi N p q) = 0%R <-> val p = val q);
  fwd_spec : forall p q, fin p -> fin q -> (0 <= val p < 1)%R -> (0 <= val q < 1)%R ->
    fin (stepFwd N p q) /\ (0 <= val (stepFwd N p q) <= 1)%R;
  quarter_spec : forall k, 0 <= k <= 24 ->
    fin (tdiv N (tofZ N (2 ^ k)) (tofZ N 4)) /\
    val (tdiv N (tofZ N (2 ^ k)) (tofZ N 4)) = bpow radix2 (k - 2);
  tenth_pos : tlt N (t0 N) (tfrac N 1 10) = true;
  log2_spec : forall x k, fin x -> -2 <= k <= 30 -> val x = bpow radix2 k ->
    fin (tlog2 N x) /\ val (tlog2 N x) = IZR k
}.

(** a phase at which the binary32 comparison with a grid point is sharp: on each grid point
    or at least 2^-126 away from it.  Every binary32 number of [0,1) that is 0 or at least
    2^-126 (not subnormal) qualifies (B32Laws.playable_normal). *)
Definition playable (p : R) : Prop :=
  forall k i, 0 <= k <= 24 -> 0 <= i <= 2 ^ k ->
    p = (IZR i / IZR (2 ^ k))%R \/ (/ IZR (2 ^ 126) <= Rabs (p - IZR i / IZR (2 ^ k)))%R.

Section Derived.
Variable N : Num.
Variable L : Laws N.
Notation fin := (fin N L).
Notation val := (val N L).

Definition okPhase (p : T N) : Prop := fin p /\ (0 <= val p < 1)%R.

Lemma zero_spec : fin (t0 N) /\ val (t0 N) = 0%R.
Proof. apply ofZ_spec; lia. Qed.
Lemma one_spec : fin (t1 N) /\ val (t1 N) = 1%R.
Proof. apply ofZ_spec; lia. Qed.

Lemma mfloor_spec x : fin x -> (IZR int_min <= val x < IZR int_max)%R ->
  mfloor N x = Ok (Zfloor (val x)).
Proof.
  intros Hx [Hlo Hhi]. unfold mfloor, tcast. rewrite (trunc_spec N L) by assumption.
  assert (Hin : int_min <= Ztrunc (val x) <= int_max).
  { split.
    - rewrite <- (Ztrunc_IZR int_min). now apply Ztrunc_le.
    - rewrite <- (Ztrunc_IZR int_max). apply Ztrunc_le. lra. }
  rewrite in_int_true by assumption. cbn [bind].
  destruct (trunc_back N L x Hx (in_int_true _ Hin)) as [Hf Hv].
  rewrite (le_spec N L) by assumption. rewrite Hv.
  destruct (Rle_bool_spec (IZR (Ztrunc (val x))) (val x)) as [H|H].
  - f_equal. destruct (Rle_or_lt 0 (val x)) as [H0|H0].
    + now rewrite Ztrunc_floor.
    + symmetry. apply Zfloor_imp. split; [assumption|].
      rewrite Ztrunc_ceil in H |- * by lra.
      assert (Hc := Zceil_ub (val x)).
      apply Rle_lt_trans with (IZR (Zceil (val x))); [assumption|].
      apply IZR_lt. lia.
  - destruct (Rle_or_lt 0 (val x)) as [H0|H0].
    { rewrite Ztrunc_floor in H by assumption. assert (Hc := Zfloor_lb (val x)). lra. }
    rewrite Ztrunc_ceil in * by lra.
    assert (Hfl : Zfloor (val x) = Zceil (val x) - 1).
    { apply Zfloor_imp. replace (Zceil (val x) - 1 + 1) with (Zceil (val x)) by lia.
      split; [|assumption]. rewrite minus_IZR. assert (Hc := Zceil_lb (val x)). lra. }
    rewrite Hfl. apply chk_ok. split; [|lia].
    assert (IZR int_min <= IZR (Zceil (val x) - 1))%R; [|now apply le_IZR].
    rewrite <- Hfl. apply IZR_le. rewrite <- (Zfloor_IZR int_min). now apply Zfloor_le.
Qed.

Lemma mceil_spec x : fin x -> (IZR int_min <= val x <= IZR int_max)%R ->
  mceil N x = Ok (Zceil (val x)).
Proof.
  intros Hx [Hlo Hhi]. unfold mceil, tcast. rewrite (trunc_spec N L) by assumption.
  assert (Hin : int_min <= Ztrunc (val x) <= int_max).
  { split.
    - rewrite <- (Ztrunc_IZR int_min). now apply Ztrunc_le.
    - rewrite <- (Ztrunc_IZR int_max). apply Ztrunc_le. lra. }
  rewrite in_int_true by assumption. cbn [bind].
  destruct (trunc_back N L x Hx (in_int_true _ Hin)) as [Hf Hv].
  rewrite (lt_spec N L) by assumption. rewrite Hv.
  destruct (Rlt_bool_spec (IZR (Ztrunc (val x))) (val x)) as [H|H].
  - destruct (Rlt_or_le (val x) 0) as [H0|H0].
    { rewrite Ztrunc_ceil in H by lra. assert (Hc := Zceil_ub (val x)). lra. }
    rewrite Ztrunc_floor in * by assumption.
    assert (Hce : Zceil (val x) = Zfloor (val x) + 1).
    { apply Zceil_imp. replace (Zfloor (val x) + 1 - 1) with (Zfloor (val x)) by lia.
      split; [assumption|]. rewrite plus_IZR. assert (Hc := Zfloor_ub (val x)). lra. }
    rewrite Hce. apply chk_ok. split; [lia|].
    rewrite <- Hce. rewrite <- (Zceil_IZR int_max). now apply Zceil_le.
  - f_equal. destruct (Rlt_or_le (val x) 0) as [H0|H0].
    + now rewrite Ztrunc_ceil by lra.
    + rewrite Ztrunc_floor in * by assumption.
      symmetry. apply Zceil_imp. split; [|assumption].
      assert (Hc := Zfloor_lb (val x)).
      apply Rlt_le_trans with (IZR (Zfloor (val x))); [|assumption].
      apply IZR_lt. lia.
Qed.

Lemma pow2_pos k : 0 <= k -> 0 < 2 ^ k.
Proof. intros; apply Z.pow_pos_nonneg; lia. Qed.
Lemma pow2_le24 k : 0 <= k <= 24 -> 1 <= 2 ^ k <= 2 ^ 24.
Proof. intros H; split; [apply (Z.pow_le_mono_r 2 0 k); lia | apply Z.pow_le_mono_r; lia]. Qed.
Lemma IZR_pow2_pos k : 0 <= k -> (0 < IZR (2 ^ k))%R.
Proof. intros; apply IZR_lt; now apply pow2_pos. Qed.

Lemma pos_range p k : (0 <= p <= 1)%R -> 0 <= k <= 24 ->
  (IZR int_min <= p * IZR (2 ^ k) < IZR int_max)%R.
Proof.
  intros Hp Hk. assert (H := pow2_le24 k Hk).
  assert (1 <= IZR (2 ^ k))%R by (now apply IZR_le).
  assert (IZR (2 ^ k) <= IZR (2 ^ 24))%R by (now apply IZR_le).
  assert (IZR int_min <= 0)%R by (apply IZR_le; unfold int_min; lia).
  assert (IZR (2 ^ 24) < IZR int_max)%R by (apply IZR_lt; reflexivity).
  assert (0 <= p * IZR (2 ^ k))%R by (apply Rmult_le_pos; lra).
  assert (p * IZR (2 ^ k) <= 1 * IZR (2 ^ k))%R by (apply Rmult_le_compat_r; lra).
  lra.
Qed.

Lemma floor_pos_spec p k : fin p -> (0 <= val p <= 1)%R -> 0 <= k <= 24 ->
  mfloor N (tmul N p (tofZ N (2 ^ k))) = Ok (Zfloor (val p * IZR (2 ^ k))).
Proof.
  intros Hf Hp Hk. destruct (pos_spec N L p k Hf Hp Hk) as [H1 H2].
  rewrite mfloor_spec; rewrite ?H2; auto. now apply pos_range.
Qed.
Lemma ceil_pos_spec p k : fin p -> (0 <= val p <= 1)%R -> 0 <= k <= 24 ->
  mceil N (tmul N p (tofZ N (2 ^ k))) = Ok (Zceil (val p * IZR (2 ^ k))).
Proof.
  intros Hf Hp Hk. destruct (pos_spec N L p k Hf Hp Hk) as [H1 H2].
  rewrite mceil_spec; rewrite ?H2; auto.
  assert (H := pos_range (val p) k Hp Hk). lra.
Qed.

Lemma floor_pos_range p k : (0 <= p < 1)%R -> 0 <= k ->
  0 <= Zfloor (p * IZR (2 ^ k)) < 2 ^ k.
Proof.
  intros [H0 H1] Hk. assert (Hp := IZR_pow2_pos k Hk). split.
  - apply Zfloor_lub. apply Rmult_le_pos; lra.
  - apply lt_IZR. apply Rle_lt_trans with (p * IZR (2 ^ k))%R; [apply Zfloor_lb|].
    rewrite <- (Rmult_1_l (IZR (2 ^ k))) at 2. apply Rmult_lt_compat_r; lra.
Qed.
Lemma ceil_pos_range p k : (0 <= p < 1)%R -> 0 <= k ->
  0 <= Zceil (p * IZR (2 ^ k)) <= 2 ^ k.
Proof.
  intros [H0 H1] Hk. assert (Hp := IZR_pow2_pos k Hk). split.
  - assert (H : Zceil 0 <= Zceil (p * IZR (2 ^ k))) by (apply Zceil_le, Rmult_le_pos; lra).
    now rewrite Zceil_IZR in H.
  - assert (H : Zceil (p * IZR (2 ^ k)) <= Zceil (IZR (2 ^ k))).
    { apply Zceil_le.
      rewrite <- (Rmult_1_l (IZR (2 ^ k))) at 2. apply Rmult_le_compat_r; lra. }
    now rewrite Zceil_IZR in H.
Qed.

Lemma reduce_phase dbg p : okPhase p -> reduceT N dbg p (t1 N) = Ok p.
Proof.
  intros [Hf Hp]. unfold reduceT.
  destruct zero_spec as [Z1 Z2]. destruct one_spec as [O1 O2].
  destruct (ofZ_spec N L 2 ltac:(lia)) as [W1 W2]. fold (t2 N) in W1, W2.
  rewrite (lt_spec N L _ _ Z1 O1), Z2, O2. rewrite Rlt_bool_true by lra.
  rewrite assert_ok by reflexivity. cbn [bind].
  rewrite (le_spec N L _ _ O1 Hf), O2, Rle_bool_false by lra.
  rewrite (lt_spec N L _ _ Hf Z1), Z2, Rlt_bool_false by lra.
  destruct dbg; [|reflexivity].
  rewrite assert_ok; [reflexivity|]. intros _.
  destruct (red_spec N L) as (A1 & A2 & B1 & B2).
  rewrite (le_spec N L _ _ Hf A1), (le_spec N L _ _ B1 Hf), A2, B2.
  rewrite !Rle_bool_true by lra. reflexivity.
Qed.

Lemma reduceZ_spec dbg v t : 0 < t -> t <= int_max -> - t <= v <= 2 * t - 1 ->
  reduceZ dbg v t = Ok (v mod t).
Proof.
  intros Ht Hm Hv. unfold reduceZ.
  rewrite assert_ok by (intros _; now apply Z.ltb_lt). cbn [bind].
  rewrite assert_ok.
  2: { intros _. apply andb_true_intro; split; apply Z.leb_le; lia. }
  cbn [bind].
  destruct (Z.leb_spec t v).
  - rewrite chk_ok by (unfold int_min; unfold int_max in *; lia). f_equal.
    symmetry. replace v with (v - t + 1 * t) at 1 by lia.
    rewrite Z.mod_add by lia. apply Z.mod_small. lia.
  - destruct (Z.ltb_spec v 0).
    + rewrite chk_ok by (unfold int_min; unfold int_max in *; lia). f_equal.
      symmetry. replace v with (v + t + (-1) * t) at 1 by lia.
      rewrite Z.mod_add by lia. apply Z.mod_small. lia.
    + f_equal. symmetry. apply Z.mod_small. lia.
Qed.

End Derived.
