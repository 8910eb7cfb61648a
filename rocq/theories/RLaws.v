(** * RLaws: the reals satisfy the index laws *)
From Coq Require Import ZArith List Bool Reals Lia Lra.
From Flocq Require Import Core.
From Verif Require Import Num Maths Osc NumFacts RNum Laws.
Local Open Scope R_scope.

Lemma r_minnorm : / 2 ^ 126 = / IZR (2 ^ 126).
Proof. f_equal. rewrite (pow_IZR 2 126). reflexivity. Qed.

Lemma r_msign (p q : R) :
  msign RNum (p - q) =
    if Rlt_bool (Rabs (p - q)) (/ IZR (2 ^ 126)) then 0%Z
    else if Rlt_bool p q then (-1)%Z else 1%Z.
Proof.
  unfold msign. cbn [tlt tabs tminnorm tsignbit RNum]. rewrite r_minnorm.
  destruct (Rlt_bool (Rabs (p - q)) (/ IZR (2 ^ 126))); [reflexivity|].
  destruct (Rlt_bool_spec (p - q) 0), (Rlt_bool_spec p q); try reflexivity; lra.
Qed.

Lemma r_bi (p q : R) : 0 <= p < 1 -> 0 <= q < 1 ->
  -/2 <= stepBi RNum p q <= /2 /\ (stepBi RNum p q = 0 <-> p = q) /\
  exists w : Z, (-1 <= w <= 1)%Z /\ stepBi RNum p q = p - q + IZR w.
Proof.
  intros Hp Hq. unfold stepBi, tfrac, t1. cbn [tlt tsub tadd tdiv tofZ RNum].
  destruct (Rlt_bool_spec (p - q) (-1 / 2)) as [H|H].
  - split; [lra|]. split; [lra|]. exists 1%Z. split; [lia|reflexivity].
  - destruct (Rlt_bool_spec (1 / 2) (p - q)) as [H1|H1].
    + split; [lra|]. split; [lra|]. exists (-1)%Z. split; [lia|]. lra.
    + split; [lra|]. split; [lra|]. exists 0%Z. split; [lia|]. lra.
Qed.

Lemma log2_bpow k : ln (bpow radix2 k) / ln 2 = IZR k.
Proof.
  assert (0 < ln 2) by (rewrite <- ln_1; apply ln_increasing; lra).
  assert (E : ln (bpow radix2 k) = IZR k * ln 2).
  { rewrite bpow_exp. rewrite ln_exp. reflexivity. }
  rewrite E. field. lra.
Qed.

Definition R_Laws : Laws RNum.
Proof.
  assert (H126 : 0 < / IZR (2 ^ 126)) by (apply Rinv_0_lt_compat, IZR_lt; reflexivity).
  refine (mkLaws RNum (fun _ => True) (fun x => x) _ _ _ _ _ _ _ _ _ _ _ _ _ _ _ _ _ _ _ _);
    cbn [T D tadd tsub tmul tdiv tabs tlt tle teq tofZ ttrunc tlog2 RNum] in *.
  - reflexivity.
  - reflexivity.
  - reflexivity.
  - auto.
  - reflexivity.
  - auto.
  - intros n _. split; auto.
  - unfold t0, t1, t2; cbn [tofZ RNum]. repeat split; lra.
  - intros i k _ _. split; auto.
  - intros p k _ _ _. split; auto.
  - intros p q _ _ _ _ H. rewrite r_msign. destruct (Rlt_bool _ (/ _)); [lia|].
    rewrite Rlt_bool_false by lra. lia.
  - intros p q _ _ _ _ H. rewrite r_msign.
    destruct (Rlt_bool_spec (Rabs (p - q)) (/ IZR (2 ^ 126))) as [H1|H1]; [lia|].
    destruct (Rlt_bool_spec p q); [lia|].
    replace (p - q) with 0 in H1 by lra. rewrite Rabs_R0 in H1. lra.
  - intros p q _ _ _ _ H. rewrite r_msign.
    rewrite Rlt_bool_false by (rewrite Rabs_pos_eq; lra). now rewrite Rlt_bool_false by lra.
  - intros p q _ _ _ _ H. rewrite r_msign.
    rewrite Rlt_bool_false by (rewrite Rabs_left1; lra). now rewrite Rlt_bool_true by lra.
  - auto.
  - intros p q _ _ Hp Hq. destruct (r_bi p q Hp Hq) as (A & B & _). auto.
  - intros p q _ _ Hp Hq. split; [exact I|]. unfold stepFwd, t1, t0.
    cbn [tlt tsub tadd tofZ RNum]. destruct (Rlt_bool_spec (p - q) 0); lra.
  - intros k Hk. split; [exact I|]. unfold Z.sub. rewrite bpow_plus.
    rewrite <- (IZR_Zpower radix2) by lia. reflexivity.
  - unfold t0, tfrac; cbn [tdiv tofZ RNum]. apply Rlt_bool_true. lra.
  - intros x k _ _ ->. split; [exact I|]. apply log2_bpow.
Defined.
