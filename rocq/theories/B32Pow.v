(** * B32Pow: maths::isPowerOfTwo in binary32, and concrete libms meeting the assumptions *)
From Coq Require Import ZArith List Bool Reals Lia Lra.
From Flocq Require Import Core IEEE754.BinarySingleNaN.
From Verif Require Import Num Maths NumFacts Laws B32 B32Facts B32Laws Demo.
Local Open Scope R_scope.

(** a log2f that is accurate: within 2^-19 (one unit in the last place of results in
    [16,32)) of the true value for arguments in [1, 2^18] *)
Definition log2_close (lm : Libm) : Prop :=
  forall x : f32, is_finite x = true -> 1 <= v32 x <= IZR (2 ^ 18) ->
    is_finite (lm_log2 lm x) = true /\
    Rabs (v32 (lm_log2 lm x) - ln (v32 x) / ln 2) <= / IZR (2 ^ 19).

Lemma ln2_pos : 0 < ln 2.
Proof. rewrite <- ln_1. apply ln_increasing; lra. Qed.

Lemma ln_pow2 k : (0 <= k)%Z -> ln (IZR (2 ^ k)) = IZR k * ln 2.
Proof.
  intros Hk. change 2%Z with (radix_val radix2) at 1. rewrite IZR_Zpower by assumption.
  rewrite bpow_exp, ln_exp. reflexivity.
Qed.

(** (1 + 1/n)^n >= 2 *)
Lemma bernoulli1 n : (1 <= n)%Z -> ln 2 / IZR n <= ln (1 + / IZR n).
Proof.
  intros Hn. assert (H : 1 <= IZR n) by (now apply IZR_le).
  assert (Hi : 0 < / IZR n) by (apply Rinv_0_lt_compat; lra).
  assert (P : 1 + INR (Z.to_nat n) * / IZR n <= (1 + / IZR n) ^ (Z.to_nat n)) by (apply poly; lra).
  rewrite INR_IZR_INZ, Z2Nat.id, Rinv_r in P by (lia || lra).
  assert (Q : ln 2 <= ln ((1 + / IZR n) ^ Z.to_nat n)).
  { destruct (Rle_lt_or_eq_dec _ _ P) as [P'|P']; [left; apply ln_increasing; lra|right; f_equal; lra]. }
  rewrite ln_pow in Q by lra. rewrite INR_IZR_INZ, Z2Nat.id in Q by lia.
  apply Rmult_le_reg_l with (IZR n); [lra|]. unfold Rdiv. rewrite (Rmult_comm (ln 2)), <- Rmult_assoc, Rinv_r, Rmult_1_l by lra.
  assumption.
Qed.
Lemma bernoulli2 n : (2 <= n)%Z -> ln (1 - / IZR n) <= - (ln 2 / IZR n).
Proof.
  intros Hn. assert (H : 2 <= IZR n) by (now apply IZR_le).
  assert (Hi : 0 < / IZR n) by (apply Rinv_0_lt_compat; lra).
  assert (Hi2 : / IZR n <= / 2) by (apply Rinv_le_contravar; lra).
  assert (A := bernoulli1 n ltac:(lia)).
  assert (B : ln (1 - / IZR n) <= ln (/ (1 + / IZR n))).
  { left. apply ln_increasing; [lra|].
    apply Rmult_lt_reg_r with (1 + / IZR n); [lra|]. rewrite Rinv_l by lra.
    assert (0 < / IZR n * / IZR n) by (now apply Rmult_lt_0_compat). lra. }
  rewrite ln_Rinv in B by lra. lra.
Qed.

(** an integer strictly between 2^k and 2^(k+1), k <= 17: its base-2 logarithm is at least
    2^-18 away from both ends *)
Lemma log2_gap k x : (0 <= k <= 17)%Z -> (2 ^ k < x < 2 ^ (k + 1))%Z ->
  IZR k + / IZR (2 ^ 18) <= ln (IZR x) / ln 2 <= IZR (k + 1) - / IZR (2 ^ 18).
Proof.
  intros Hk Hx. assert (L := ln2_pos).
  assert (P18 : IZR (2 ^ 18) = 262144) by reflexivity.
  assert (H0 : (1 <= 2 ^ k <= 2 ^ 17)%Z).
  { split; [apply (Z.pow_le_mono_r 2 0); lia|apply Z.pow_le_mono_r; lia]. }
  assert (H1 : (2 ^ (k + 1) = 2 * 2 ^ k)%Z) by (rewrite Z.pow_add_r by lia; lia).
  assert (R0 : 1 <= IZR (2 ^ k)) by (now apply IZR_le).
  assert (R1 : IZR (2 ^ k) <= 131072) by (apply (IZR_le _ 131072); lia).
  split; apply Rmult_le_reg_r with (ln 2); auto; unfold Rdiv; rewrite Rmult_assoc, Rinv_l, Rmult_1_r by lra.
  - assert (E : ln (IZR (2 ^ k) * (1 + / IZR (2 ^ k))) <= ln (IZR x)).
    { replace (IZR (2 ^ k) * (1 + / IZR (2 ^ k))) with (IZR (2 ^ k + 1)) by (rewrite plus_IZR; field; lra).
      destruct (Z.eq_dec x (2 ^ k + 1)) as [->|Ne]; [lra|].
      left. apply ln_increasing; [apply (IZR_lt 0); lia|apply IZR_lt; lia]. }
    rewrite ln_mult in E; [|lra|assert (0 < / IZR (2 ^ k)) by (apply Rinv_0_lt_compat; lra); lra].
    rewrite ln_pow2 in E by lia. assert (A := bernoulli1 (2 ^ k) ltac:(lia)).
    assert (C : / 262144 * ln 2 <= ln 2 / IZR (2 ^ k)).
    { unfold Rdiv. rewrite Rmult_comm. apply Rmult_le_compat_l; [lra|].
      apply Rinv_le_contravar; lra. }
    rewrite P18. lra.
  - set (n := (2 ^ (k + 1))%Z) in *.
    assert (Rn : 2 <= IZR n) by (apply IZR_le; lia).
    assert (Rn2 : IZR n <= 262144) by (apply (IZR_le _ 262144); lia).
    assert (Hi2 : / IZR n <= / 2) by (apply Rinv_le_contravar; lra).
    assert (E : ln (IZR x) <= ln (IZR n * (1 - / IZR n))).
    { replace (IZR n * (1 - / IZR n)) with (IZR (n - 1)) by (rewrite minus_IZR; field; lra).
      destruct (Z.eq_dec x (n - 1)) as [->|Ne]; [lra|].
      left. apply ln_increasing; [apply (IZR_lt 0); lia|apply IZR_lt; lia]. }
    rewrite ln_mult in E by lra. unfold n in E at 1. rewrite ln_pow2 in E by lia.
    assert (A := bernoulli2 n ltac:(lia)).
    assert (C : / 262144 * ln 2 <= ln 2 / IZR n).
    { unfold Rdiv. rewrite Rmult_comm. apply Rmult_le_compat_l; [lra|]. apply Rinv_le_contravar; lra. }
    rewrite P18. lra.
Qed.

Section Pow.
Variable lm : Libm.
Hypothesis Hlog : log2_exact lm.
Notation N := (B32 lm).
Notation L := (B32_Laws lm Hlog).

Lemma misPowerOfTwo_not v : log2_close lm -> (1 <= v <= 2 ^ 18)%Z ->
  (forall k, (0 <= k)%Z -> v <> 2 ^ k)%Z -> misPowerOfTwo N v = Ok false.
Proof.
  intros Hc Hv Hn. unfold misPowerOfTwo. destruct (Z.eqb_spec v 0) as [|_]; [lia|].
  destruct (ofZ32 v ltac:(lia)) as [F1 V1].
  change (tofZ N v) with (f32_ofZ v).
  destruct (Hc (f32_ofZ v) F1) as [F2 V2].
  { rewrite V1. split; apply IZR_le; lia. }
  change (tlog2 N (f32_ofZ v)) with (lm_log2 lm (f32_ofZ v)).
  set (y := lm_log2 lm (f32_ofZ v)) in *. rewrite V1 in V2.
  set (k := Z.log2 v). assert (Hk := Z.log2_spec v ltac:(lia)). fold k in Hk.
  assert (Hk0 : (0 <= k)%Z) by apply Z.log2_nonneg.
  assert (Hv2 : (2 ^ k < v < 2 ^ (k + 1))%Z).
  { specialize (Hn k Hk0). rewrite Z.add_1_r. lia. }
  assert (Hk17 : (k <= 17)%Z).
  { destruct (Z_le_gt_dec k 17); [assumption|]. assert (2 ^ 18 <= 2 ^ k)%Z by (apply Z.pow_le_mono_r; lia). lia. }
  assert (G := log2_gap k v ltac:(lia) Hv2).
  assert (E1 : / IZR (2 ^ 18) = / 262144) by reflexivity.
  assert (E2 : / IZR (2 ^ 19) = / 524288) by reflexivity.
  rewrite E1 in G. rewrite E2 in V2. apply Rabs_le_inv in V2. rewrite plus_IZR in G.
  assert (B : IZR k < v32 y < IZR k + 1) by lra.
  assert (KR : 0 <= IZR k <= 17) by (split; apply IZR_le; lia).
  rewrite (mceil_spec N L y), (mfloor_spec N L y); auto.
  - cbn [bind]. change (Laws.val N L y) with (v32 y).
    rewrite (Zfloor_imp k) by (rewrite plus_IZR; lra).
    rewrite (Zceil_imp (k + 1)) by (rewrite minus_IZR, plus_IZR; lra).
    destruct (Z.eqb_spec (k + 1) k); [lia|reflexivity].
  - change (Laws.val N L y) with (v32 y). unfold int_min, int_max. lra.
  - change (Laws.val N L y) with (v32 y). unfold int_min, int_max. lra.
Qed.

(** 2^24 + 1 rounds to 2^24 before its logarithm is taken *)
Lemma misPowerOfTwo_big : misPowerOfTwo N (2 ^ 24 + 1) = Ok true.
Proof.
  unfold misPowerOfTwo. change (2 ^ 24 + 1 =? 0)%Z with false. cbv iota.
  change (tofZ N (2 ^ 24 + 1)) with (f32_ofZ (2 ^ 24 + 1)).
  replace (f32_ofZ (2 ^ 24 + 1)) with (f32_ofZ (2 ^ 24)) by (apply B2SF_inj; vm_compute; reflexivity).
  destruct (ofZ32 (2 ^ 24) ltac:(lia)) as [F1 V1].
  destruct (Hlog (f32_ofZ (2 ^ 24)) 24%Z F1 ltac:(lia)) as [F2 V2].
  { rewrite V1. reflexivity. }
  change (tlog2 N (f32_ofZ (2 ^ 24))) with (lm_log2 lm (f32_ofZ (2 ^ 24))).
  rewrite (mceil_spec N L), (mfloor_spec N L); auto.
  - cbn [bind]. change (Laws.val N L ?y) with (v32 y). rewrite V2.
    rewrite Zfloor_IZR, Zceil_IZR. reflexivity.
  - change (Laws.val N L ?y) with (v32 y). rewrite V2. unfold int_min, int_max. lra.
  - change (Laws.val N L ?y) with (v32 y). rewrite V2. unfold int_min, int_max. lra.
Qed.
End Pow.

(** ** The demonstration libm *)
Lemma demo_exact : log2_exact demo_libm.
Proof.
  intros x k Hx Hk Hv. destruct x as [s|s| |s m e He]; try discriminate.
  - simpl in Hv. assert (A := bpow_gt_0 radix2 k). lra.
  - cbn [lm_log2 demo_libm demo_log2]. destruct s.
    { exfalso. assert (A := bpow_gt_0 radix2 k). rewrite <- Hv in A.
      unfold B2R, F2R in A. cbn in A. assert (B := bpow_gt_0 radix2 e).
      assert (IZR (Zneg m) < 0) by (apply IZR_lt; lia). nra. }
    unfold B2R, F2R in Hv. cbn [Fnum Fexp cond_Zopp] in Hv.
    assert (Hm : (Zpos m = 2 ^ (k - e))%Z).
    { assert (E : IZR (Zpos m) = bpow radix2 (k - e)).
      { unfold Zminus. rewrite bpow_plus, <- Hv. rewrite Rmult_assoc, <- bpow_plus.
        replace (e + - e)%Z with 0%Z by lia. simpl; ring. }
      assert (0 <= k - e)%Z.
      { destruct (Z_le_gt_dec 0 (k - e)); [assumption|exfalso].
        assert (bpow radix2 (k - e) < bpow radix2 0) by (apply bpow_lt; lia).
        assert (1 <= IZR (Zpos m)) by (apply IZR_le; lia). simpl in *. lra. }
      rewrite <- IZR_Zpower in E by assumption. now apply eq_IZR in E. }
    assert (0 <= k - e)%Z.
    { destruct (Z_le_gt_dec 0 (k - e)); [assumption|]. rewrite Z.pow_neg_r in Hm by lia. discriminate. }
    rewrite Hm. rewrite Z.log2_pow2 by assumption. rewrite Z.eqb_refl.
    replace (k - e + e)%Z with k by lia. apply ofZ32. lia.
Qed.

(** ** A libm meeting both assumptions: log2 rounded to 2^-30, then to binary32 *)
Definition ideal_log2 (x : f32) : f32 :=
  binary_normalize 24 128 p32 e32 mode_NE (ZnearestE (ln (v32 x) / ln 2 * IZR (2 ^ 30))) (-30) false.
Definition ideal_libm : Libm := mkLibm ideal_log2 demo_exp demo_exp false (fun _ => 0%Z) (fun _ => SLeaf 1) (fun _ => false).

Lemma ideal_bound x : 1 <= x <= IZR (2 ^ 30) -> 0 <= ln x / ln 2 <= 30.
Proof.
  intros [H1 H2]. assert (L := ln2_pos). split.
  - apply Rmult_le_pos; [|left; now apply Rinv_0_lt_compat]. rewrite <- ln_1.
    destruct H1 as [H1|H1]; [left; apply ln_increasing; lra|right; now f_equal].
  - apply Rmult_le_reg_r with (ln 2); [assumption|]. unfold Rdiv. rewrite Rmult_assoc, Rinv_l, Rmult_1_r by lra.
    rewrite <- (ln_pow2 30) by lia.
    destruct H2 as [H2|H2]; [left; apply ln_increasing; lra|right; now f_equal].
Qed.

Lemma ideal_exact : log2_exact ideal_libm.
Proof.
  intros x k Hx Hk Hv. cbn [lm_log2 ideal_libm]. unfold ideal_log2. rewrite Hv.
  replace (ln (bpow radix2 k) / ln 2) with (IZR k).
  2:{ rewrite bpow_exp, ln_exp. cbn. assert (A := ln2_pos). field. lra. }
  rewrite <- mult_IZR. rewrite Znearest_imp with (n := (k * 2 ^ 30)%Z).
  2:{ rewrite Rminus_diag_eq by reflexivity. rewrite Rabs_R0. lra. }
  assert (E : IZR (k * 2 ^ 30) * bpow radix2 (-30) = IZR k).
  { rewrite mult_IZR. change (2 ^ 30)%Z with (Zpower radix2 30). rewrite Rmult_assoc.
    rewrite IZR_Zpower by lia. rewrite <- bpow_plus. simpl. ring. }
  destruct (norm32 (k * 2 ^ 30) (-30) false) as [A B].
  { rewrite E. apply small32_of_le with (e := 5%Z); [lia|].
    rewrite <- abs_IZR. change (bpow radix2 5) with (IZR 32). apply IZR_le. lia. }
  split; [exact A|]. rewrite E in B. rewrite rnd32_id in B by (apply fmt32_Z; lia). exact B.
Qed.

Lemma ideal_close : log2_close ideal_libm.
Proof.
  intros x Hx Hv. cbn [lm_log2 ideal_libm]. unfold ideal_log2.
  assert (B0 : 0 <= ln (v32 x) / ln 2 <= 30).
  { apply ideal_bound. assert (IZR (2 ^ 18) <= IZR (2 ^ 30)) by (apply IZR_le; lia). lra. }
  set (y := ln (v32 x) / ln 2) in *. set (n := ZnearestE (y * IZR (2 ^ 30))).
  assert (Hn := Znearest_half (fun x => negb (Z.even x)) (y * IZR (2 ^ 30))). fold n in Hn.
  assert (P30 : IZR (2 ^ 30) = 1073741824) by reflexivity. rewrite P30 in Hn.
  assert (Pm : bpow radix2 (-30) = / 1073741824) by reflexivity.
  apply Rabs_le_inv in Hn.
  assert (Hd : Rabs (IZR n * bpow radix2 (-30) - y) <= / 2147483648).
  { rewrite Pm. apply Rabs_le. lra. }
  apply Rabs_le_inv in Hd. set (z := IZR n * bpow radix2 (-30)) in *.
  assert (Hz : Rabs z <= bpow radix2 5).
  { change (bpow radix2 5) with 32. apply Rabs_le. lra. }
  destruct (norm32 n (-30) false) as [A B].
  { apply small32_of_le with (e := 5%Z); [lia|exact Hz]. }
  split; [exact A|]. fold z in B. rewrite B.
  assert (Hr : Rabs (rnd32 z - z) <= / 1048576).
  { destruct (Req_dec z 0) as [->|Hz0].
    - rewrite round_0 by auto with typeclass_instances. rewrite Rminus_diag_eq, Rabs_R0 by reflexivity. lra.
    - assert (U := error_le_half_ulp radix2 (FLT_exp (-149) 24) (fun x => negb (Z.even x)) z).
      assert (V : ulp radix2 (FLT_exp (-149) 24) z <= bpow radix2 (-19)).
      { rewrite ulp_neq_0 by assumption. apply bpow_le. unfold cexp, FLT_exp.
        assert (mag radix2 z <= 5)%Z; [|lia].
        apply mag_le_bpow; [assumption|]. change (bpow radix2 5) with 32. apply Rabs_lt. lra. }
      change (bpow radix2 (-19)) with (/ 524288) in V. lra. }
  apply Rabs_le_inv in Hr. change (IZR (2 ^ 19)) with 524288. apply Rabs_le. lra.
Qed.
