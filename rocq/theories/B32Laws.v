(** * B32Laws: binary32 satisfies the index laws *)
From Coq Require Import ZArith List Bool Reals Lia Lra.
From Flocq Require Import Core Mult_error Plus_error Sterbenz IEEE754.BinarySingleNaN.
From Verif Require Import Num Maths Osc NumFacts B32 B32Facts Laws.
Local Open Scope R_scope.

(** what is assumed of the C library's log2f: exact on powers of two *)
Definition log2_exact (lm : Libm) : Prop :=
  forall (x : f32) (k : Z), is_finite x = true -> (-2 <= k <= 30)%Z -> v32 x = bpow radix2 k ->
    is_finite (lm_log2 lm x) = true /\ v32 (lm_log2 lm x) = IZR k.

Section B32Laws.
Variable lm : Libm.
Notation N := (B32 lm).

Lemma IZR_pow2_ne k : (0 <= k)%Z -> IZR (2 ^ k) <> 0.
Proof. intros H. apply Rgt_not_eq. now apply IZR_pow2_pos. Qed.

Lemma b_half n : (n = 1 \/ n = -1)%Z ->
  fin32 (tfrac N n 2) = true /\ v32 (tfrac N n 2) = IZR n / 2.
Proof.
  intros Hn. unfold tfrac; cbn [tdiv tofZ B32].
  destruct (ofZ32 n) as [A1 A2]; [lia|]. destruct (ofZ32 2) as [B1 B2]; [lia|].
  destruct (div32 (f32_ofZ n) (f32_ofZ 2)) as [C1 C2].
  - assumption.
  - rewrite B2; lra.
  - rewrite A2, B2. apply small32_1. destruct Hn as [-> | ->]; lra.
  - split; [assumption|]. rewrite C2, A2, B2. apply rnd32_id.
    replace (IZR n / 2) with (IZR n * bpow radix2 (-1)) by reflexivity.
    apply fmt32_Ze; lia.
Qed.

Lemma b_grid i k : (0 <= k <= 24)%Z -> (0 <= i <= 2 ^ k)%Z ->
  fin32 (tdiv N (tofZ N i) (tofZ N (2 ^ k))) = true /\
  v32 (tdiv N (tofZ N i) (tofZ N (2 ^ k))) = IZR i / IZR (2 ^ k).
Proof.
  intros Hk Hi. cbn [tdiv tofZ B32].
  assert (Hp := pow2_le24 k Hk).
  destruct (ofZ32 i) as [A1 A2]; [lia|]. destruct (ofZ32 (2 ^ k)) as [B1 B2]; [lia|].
  assert (Hpos := IZR_pow2_pos k ltac:(lia)).
  destruct (div32 (f32_ofZ i) (f32_ofZ (2 ^ k))) as [C1 C2].
  - assumption.
  - rewrite B2; lra.
  - rewrite A2, B2. apply small32_1. split.
    + apply Rle_trans with 0; [lra|]. apply Rmult_le_pos; [apply IZR_le; lia|].
      left; now apply Rinv_0_lt_compat.
    + apply Rmult_le_reg_r with (IZR (2 ^ k)); [assumption|].
      unfold Rdiv. rewrite Rmult_assoc, Rinv_l, Rmult_1_r by lra.
      apply Rle_trans with (IZR (2 ^ k)); [apply IZR_le; lia | lra].
  - split; [assumption|]. rewrite C2, A2, B2. apply rnd32_id.
    replace (IZR i / IZR (2 ^ k)) with (IZR i * bpow radix2 (- k)).
    + apply fmt32_Ze; lia.
    + rewrite bpow_opp, bpow_Z by lia. reflexivity.
Qed.

Lemma b_pos (p : f32) k : fin32 p = true -> 0 <= v32 p <= 1 -> (0 <= k <= 24)%Z ->
  fin32 (tmul N p (tofZ N (2 ^ k))) = true /\
  v32 (tmul N p (tofZ N (2 ^ k))) = v32 p * IZR (2 ^ k).
Proof.
  intros Hf Hp Hk. cbn [tmul tofZ B32].
  assert (Hpow := pow2_le24 k Hk).
  destruct (ofZ32 (2 ^ k)) as [B1 B2]; [lia|].
  assert (Hpos := IZR_pow2_pos k ltac:(lia)).
  destruct (mul32 p (f32_ofZ (2 ^ k))) as [C1 C2]; auto.
  - rewrite B2. apply small32_of_le with k; [lia|]. rewrite bpow_Z by lia.
    rewrite Rabs_pos_eq by (apply Rmult_le_pos; lra).
    rewrite <- (Rmult_1_l (IZR (2 ^ k))) at 2. apply Rmult_le_compat_r; lra.
  - split; [assumption|]. rewrite C2, B2. apply rnd32_id. rewrite <- bpow_Z by lia.
    apply mult_bpow_pos_exact_FLT; [apply fmt32_B2R | lia].
Qed.

Lemma bpow_126 : bpow radix2 (-126) = / IZR (2 ^ 126).
Proof. change (-126)%Z with (- (126))%Z. now rewrite bpow_opp, bpow_Z by lia. Qed.

Lemma b_msign (p q : f32) : fin32 p = true -> fin32 q = true ->
  0 <= v32 p <= 1 -> 0 <= v32 q <= 1 ->
  msign N (tsub N p q) =
    if Rlt_bool (Rabs (rnd32 (v32 p - v32 q))) (/ IZR (2 ^ 126)) then 0%Z
    else if Rlt_bool (v32 p) (v32 q) then (-1)%Z else 1%Z.
Proof.
  intros Fp Fq Hp Hq. unfold msign. cbn [tlt tabs tminnorm tsignbit tsub B32].
  destruct (sub32 p q Fp Fq) as (A & B & C); [apply small32_1; lra|].
  destruct minnorm32 as [M1 M2].
  rewrite Bltb_correct; [|now rewrite is_finite_Babs|assumption].
  rewrite B2R_Babs, B, M2, bpow_126.
  destruct (Rlt_bool_spec (Rabs (rnd32 (v32 p - v32 q))) (/ IZR (2 ^ 126))) as [H|H]; [reflexivity|].
  rewrite C. destruct (Rcompare_spec (v32 p - v32 q) 0) as [H1|H1|H1].
  - rewrite Rlt_bool_true by lra. reflexivity.
  - exfalso. rewrite H1 in H. rewrite round_0 in H; auto with typeclass_instances.
    rewrite Rabs_R0 in H. assert (0 < / IZR (2 ^ 126)); [|lra].
    apply Rinv_0_lt_compat. apply IZR_lt. reflexivity.
  - rewrite Rlt_bool_false by lra. reflexivity.
Qed.

Lemma b_far (x : R) : / IZR (2 ^ 126) <= Rabs x -> / IZR (2 ^ 126) <= Rabs (rnd32 x).
Proof.
  rewrite <- bpow_126. intros H.
  apply abs_round_ge_generic; auto with typeclass_instances. apply fmt32_bpow; lia.
Qed.

Lemma phase_max (x : f32) : v32 x < 1 -> v32 x <= 1 - bpow radix2 (-24).
Proof.
  intros H. 
  assert (E : pred radix2 (FLT_exp (-149) 24) (bpow radix2 0) = 1 - bpow radix2 (-24)).
  { rewrite pred_bpow. simpl. reflexivity. }
  rewrite <- E. apply pred_ge_gt; auto with typeclass_instances.
  - apply fmt32_B2R.
  - apply fmt32_bpow; lia.
Qed.

Lemma phase_diff_bound (p q : f32) : fin32 p = true -> fin32 q = true ->
  0 <= v32 p < 1 -> 0 <= v32 q < 1 -> -1 < rnd32 (v32 p - v32 q) < 1.
Proof.
  intros Fp Fq Hp Hq.
  assert (P := phase_max p ltac:(lra)). assert (Q := phase_max q ltac:(lra)).
  assert (B0 := bpow_gt_0 radix2 (-24)).
  assert (Fb : fmt32 (1 - bpow radix2 (-24))).
  { replace (1 - bpow radix2 (-24)) with (IZR (2 ^ 24 - 1) * bpow radix2 (-24)).
    - apply fmt32_Ze; lia.
    - rewrite minus_IZR. rewrite <- (bpow_Z 24) by lia.
      rewrite Rmult_minus_distr_r, <- bpow_plus. simpl. ring. }
  assert (- (1 - bpow radix2 (-24)) <= rnd32 (v32 p - v32 q)).
  { apply rnd32_ge; [now apply generic_format_opp | lra]. }
  assert (rnd32 (v32 p - v32 q) <= 1 - bpow radix2 (-24)).
  { apply rnd32_le; [assumption | lra]. }
  lra.
Qed.

Lemma b_bi (p q : f32) : fin32 p = true -> fin32 q = true -> 0 <= v32 p < 1 -> 0 <= v32 q < 1 ->
  fin32 (stepBi N p q) = true /\ -/2 <= v32 (stepBi N p q) <= /2 /\
  (v32 (stepBi N p q) = 0 <-> v32 p = v32 q) /\
  v32 (stepBi N p q) =
    (let d := rnd32 (v32 p - v32 q) in
     if Rlt_bool d (-/2) then d + 1 else if Rlt_bool (/2) d then d - 1 else d).
Proof.
  intros Fp Fq Hp Hq. unfold stepBi.
  destruct (subp32 p q Fp Fq) as [A B]; [lra|lra|].
  set (d := @Bminus 24 128 p32 e32 mode_NE p q) in *.
  change (tsub N p q) with d.
  destruct (b_half 1 ltac:(lia)) as [H1 H1']. destruct (b_half (-1) ltac:(lia)) as [H2 H2'].
  destruct (ofZ32 1 ltac:(lia)) as [O1 O2].
  cbv zeta. cbn [tlt B32].
  rewrite (Bltb_correct _ _ d (tfrac N (-1) 2)) by assumption.
  rewrite (Bltb_correct _ _ (tfrac N 1 2) d) by assumption.
  rewrite H1', H2', B.
  assert (HB := phase_diff_bound p q Fp Fq Hp Hq). 
  assert (Z0 := rnd32_0 (v32 p) (v32 q) (fmt32_B2R p) (fmt32_B2R q)).
  assert (Z1 : v32 p = v32 q -> rnd32 (v32 p - v32 q) = 0).
  { intros ->. rewrite Rminus_diag_eq by reflexivity. apply round_0. auto with typeclass_instances. }
  set (r := rnd32 (v32 p - v32 q)) in *.
  assert (Fr : fmt32 r) by (apply generic_format_round; auto with typeclass_instances).
  replace (-1 / 2) with (- / 2) by lra. replace (1 / 2) with (/2) by lra.
  destruct (Rlt_bool_spec r (- / 2)) as [L1|L1].
  - destruct (add32 d (f32_ofZ 1) A O1) as [C1 C2]; [rewrite B, O2; apply small32_1; lra|].
    assert (E : rnd32 (v32 d + v32 (f32_ofZ 1)) = r + 1).
    { rewrite B, O2. apply rnd32_id. replace (r + 1) with (1 - (- r)) by ring.
      apply sterbenz; auto with typeclass_instances.
      - apply (fmt32_Z 1); lia.
      - now apply generic_format_opp.
      - lra. }
    rewrite E in C2. change (tadd N d (t1 N)) with (@Bplus 24 128 p32 e32 mode_NE d (f32_ofZ 1)).
    rewrite C2. split; [assumption|]. split; [lra|]. split; [|reflexivity].
    split; [lra|]. intros X. apply Z1 in X. lra.
  - destruct (Rlt_bool_spec (/ 2) r) as [L2|L2].
    + destruct (sub32 d (f32_ofZ 1) A O1) as (C1 & C2 & _); [rewrite B, O2; apply small32_1; lra|].
      assert (E : rnd32 (v32 d - v32 (f32_ofZ 1)) = r - 1).
      { rewrite B, O2. apply rnd32_id.
        apply sterbenz; auto with typeclass_instances.
        - apply (fmt32_Z 1); lia.
        - lra. }
      rewrite E in C2. change (tsub N d (t1 N)) with (@Bminus 24 128 p32 e32 mode_NE d (f32_ofZ 1)).
      rewrite C2. split; [assumption|]. split; [lra|]. split; [|reflexivity].
      split; [lra|]. intros X. apply Z1 in X. lra.
    + rewrite B. split; [assumption|]. split; [lra|]. split; [|reflexivity].
      split; auto.
Qed.

Lemma b_fwd (p q : f32) : fin32 p = true -> fin32 q = true -> 0 <= v32 p < 1 -> 0 <= v32 q < 1 ->
  fin32 (stepFwd N p q) = true /\ 0 <= v32 (stepFwd N p q) <= 1.
Proof.
  intros Fp Fq Hp Hq. unfold stepFwd.
  destruct (subp32 p q Fp Fq) as [A B]; [lra|lra|].
  set (d := @Bminus 24 128 p32 e32 mode_NE p q) in *.
  change (tsub N p q) with d.
  destruct (ofZ32 0 ltac:(lia)) as [Z1 Z2]. destruct (ofZ32 1 ltac:(lia)) as [O1 O2].
  cbv zeta. cbn [tlt B32]. rewrite (Bltb_correct _ _ d (t0 N)) by assumption.
  change (v32 (t0 N)) with (v32 (f32_ofZ 0)). rewrite Z2, B.
  assert (HB := phase_diff_bound p q Fp Fq Hp Hq).
  set (r := rnd32 (v32 p - v32 q)) in *.
  destruct (Rlt_bool_spec r 0) as [L1|L1].
  - destruct (add32 d (f32_ofZ 1) A O1) as [C1 C2]; [rewrite B, O2; apply small32_1; lra|].
    change (tadd N d (t1 N)) with (@Bplus 24 128 p32 e32 mode_NE d (f32_ofZ 1)).
    rewrite C2, B, O2. split; [assumption|]. split.
    + apply rnd32_ge; [apply (fmt32_Z 0); lia | lra].
    + apply rnd32_le; [apply (fmt32_Z 1); lia | lra].
  - rewrite B. split; [assumption|]. lra.
Qed.

Hypothesis Hlog : log2_exact lm.

Definition B32_Laws : Laws N.
Proof.
  refine (mkLaws N (fun x => fin32 x = true) v32 _ _ _ _ _ _ _ _ _ _ _ _ _ _ _ _ _ _ _ _).
  - intros a b Ha Hb. now apply Bltb_correct.
  - intros a b Ha Hb. now apply Bleb_correct.
  - intros a b Ha Hb. now apply Beqb_correct.
  - intros z Hz. now apply ofZ32.
  - intros a Ha. cbn [ttrunc B32]. unfold f32_trunc. rewrite Ha. now rewrite trunc32.
  - intros a Ha Hi. apply ofZ32_fmt.
    + unfold in_int, int_min, int_max in Hi. apply andb_prop in Hi. destruct Hi as [H1 H2].
      apply Z.leb_le in H1. apply Z.leb_le in H2. lia.
    + apply fmt32_trunc, fmt32_B2R.
  - apply b_half.
  - cbn [tmul tsub B32]. unfold t0, t1, t2; cbn [tofZ B32].
    destruct (ofZ32 0 ltac:(lia)) as [Z1 Z2]. destruct (ofZ32 1 ltac:(lia)) as [O1 O2].
    destruct (ofZ32 2 ltac:(lia)) as [W1 W2].
    destruct (mul32 (f32_ofZ 2) (f32_ofZ 1)) as [A1 A2]; auto;
      [rewrite W2, O2; apply small32_1; lra|].
    destruct (sub32 (f32_ofZ 0) (f32_ofZ 1)) as (B1 & B2 & _); auto;
      [rewrite Z2, O2; apply small32_1; lra|].
    rewrite W2, O2, Rmult_1_r in A2. rewrite Z2, O2 in B2.
    replace (0 - 1) with (-1) in B2 by lra.
    split; [exact A1|]. split; [exact (eq_trans A2 (rnd32_id 2 (fmt32_Z 2 ltac:(lia))))|].
    split; [exact B1|exact (eq_trans B2 (rnd32_id (-1) (fmt32_Z (-1) ltac:(lia))))].
  - apply b_grid.
  - apply b_pos.
  - intros p q Fp Fq Hp Hq Hle. rewrite b_msign by assumption.
    destruct (Rlt_bool _ (/ _)); [lia|]. rewrite Rlt_bool_false by lra. lia.
  - intros p q Fp Fq Hp Hq Hle. rewrite b_msign by assumption.
    destruct (Rlt_bool_spec (Rabs (rnd32 (v32 p - v32 q))) (/ IZR (2 ^ 126))) as [H|H]; [lia|].
    destruct (Rlt_bool_spec (v32 p) (v32 q)) as [H1|H1]; [lia|].
    exfalso. replace (v32 p - v32 q) with 0 in H by lra.
    rewrite round_0 in H; auto with typeclass_instances. rewrite Rabs_R0 in H.
    assert (0 < / IZR (2 ^ 126)) by (apply Rinv_0_lt_compat, IZR_lt; reflexivity). lra.
  - intros p q Fp Fq Hp Hq Hle. rewrite b_msign by assumption.
    assert (0 < / IZR (2 ^ 126)) by (apply Rinv_0_lt_compat, IZR_lt; reflexivity).
    rewrite Rlt_bool_false; [|apply b_far; rewrite Rabs_pos_eq; lra].
    now rewrite Rlt_bool_false by lra.
  - intros p q Fp Fq Hp Hq Hle. rewrite b_msign by assumption.
    assert (0 < / IZR (2 ^ 126)) by (apply Rinv_0_lt_compat, IZR_lt; reflexivity).
    rewrite Rlt_bool_false; [|apply b_far; rewrite Rabs_left1; lra].
    now rewrite Rlt_bool_true by lra.
  - intros a Ha. cbn [tabs B32]. split; [now rewrite is_finite_Babs | apply B2R_Babs].
  - intros p q Fp Fq Hp Hq. destruct (b_bi p q Fp Fq Hp Hq) as (A & B & C & _). auto.
  - apply b_fwd.
  - intros k Hk. cbn [tdiv tofZ B32].
    destruct (ofZ32 (2 ^ k)) as [A1 A2]; [assert (H := pow2_le24 k Hk); lia|].
    destruct (ofZ32 4 ltac:(lia)) as [B1 B2].
    assert (E : v32 (f32_ofZ (2 ^ k)) / v32 (f32_ofZ 4) = bpow radix2 (k - 2)).
    { rewrite A2, B2, <- bpow_Z by lia. unfold Z.sub. rewrite bpow_plus. reflexivity. }
    destruct (div32 (f32_ofZ (2 ^ k)) (f32_ofZ 4)) as [C1 C2].
    + assumption.
    + rewrite B2; lra.
    + rewrite E. apply small32_of_le with (k - 2)%Z; [lia|].
      rewrite Rabs_pos_eq by apply bpow_ge_0. apply Rle_refl.
    + split; [assumption|]. rewrite C2, E. apply rnd32_id, fmt32_bpow. lia.
  - reflexivity.
  - intros x k Hx Hk Hv. now apply Hlog.
Defined.

End B32Laws.

(** every non-subnormal binary32 phase is playable *)
Lemma playable_normal (p : f32) : 0 <= v32 p < 1 -> v32 p = 0 \/ / IZR (2 ^ 126) <= v32 p ->
  playable (v32 p).
Proof.
  intros Hp Hn k i Hk Hi.
  assert (Hpos := IZR_pow2_pos k ltac:(lia)).
  assert (H126 : 0 < / IZR (2 ^ 126)) by (apply Rinv_0_lt_compat, IZR_lt; reflexivity).
  destruct (Z.eq_dec i 0) as [->|Hi0].
  { replace (0 / IZR (2 ^ k)) with 0 by (field; lra).
    destruct Hn as [->|Hn]; [now left|]. right. rewrite Rminus_0_r, Rabs_pos_eq; lra. }
  destruct (Req_dec (v32 p) (IZR i / IZR (2 ^ k))) as [E|NE]; [now left|]. right.
  apply Rnot_lt_le. intros Habs. apply NE. clear NE.
  (* p is at least 2^-25, hence a multiple of 2^-50, as is the grid point *)
  assert (Hg : / IZR (2 ^ 24) <= IZR i / IZR (2 ^ k)).
  { apply Rle_trans with (1 / IZR (2 ^ k)).
    - unfold Rdiv; rewrite Rmult_1_l. apply Rinv_le; [assumption|]. apply IZR_le.
      apply Z.pow_le_mono_r; lia.
    - apply Rmult_le_compat_r; [left; now apply Rinv_0_lt_compat|]. apply (IZR_le 1); lia. }
  assert (H26 : / IZR (2 ^ 126) <= / IZR (2 ^ 25)).
  { apply Rinv_le; [apply IZR_lt; reflexivity|]. apply IZR_le. discriminate. }
  assert (H25 : / IZR (2 ^ 24) = 2 * / IZR (2 ^ 25)).
  { change (2 ^ 25)%Z with (2 * 2 ^ 24)%Z. rewrite mult_IZR. field.
    apply not_0_IZR. discriminate. }
  assert (Hlow : bpow radix2 (-25) <= v32 p).
  { change (-25)%Z with (- (25))%Z. rewrite bpow_opp, bpow_Z by lia.
    apply Rabs_def2 in Habs. lra. }
  assert (Hm : exists m : Z, v32 p = IZR m * bpow radix2 (-50)).
  { assert (F := fmt32_B2R p). 
    set (c := cexp radix2 (FLT_exp (-149) 24) (v32 p)) in *.
    assert (Hc : (-50 <= c)%Z).
    { unfold c, cexp, FLT_exp. assert (-24 <= mag radix2 (v32 p))%Z.
      { apply mag_ge_bpow. rewrite Rabs_pos_eq by lra. exact Hlow. } lia. }
    exists (Ztrunc (scaled_mantissa radix2 (FLT_exp (-149) 24) (v32 p)) * 2 ^ (c + 50))%Z.
    rewrite mult_IZR, <- bpow_Z by lia. rewrite Rmult_assoc, <- bpow_plus.
    replace (c + 50 + -50)%Z with c by lia. exact F. }
  destruct Hm as [m Hm].
  assert (Hgr : IZR i / IZR (2 ^ k) = IZR (i * 2 ^ (50 - k)) * bpow radix2 (-50)).
  { rewrite mult_IZR, <- (bpow_Z (50 - k)) by lia. rewrite Rmult_assoc, <- bpow_plus.
    replace (50 - k + -50)%Z with (- k)%Z by lia. rewrite bpow_opp, bpow_Z by lia. reflexivity. }
  rewrite Hm, Hgr in *. 
  assert (Hd : m = (i * 2 ^ (50 - k))%Z); [|now rewrite Hd].
  rewrite <- Rmult_minus_distr_r, <- minus_IZR, Rabs_mult in Habs.
  rewrite (Rabs_pos_eq (bpow radix2 (-50))) in Habs by apply bpow_ge_0.
  assert (Hlt : Rabs (IZR (m - i * 2 ^ (50 - k))) < 1).
  { apply Rmult_lt_reg_r with (bpow radix2 (-50)); [apply bpow_gt_0|].
    apply Rlt_le_trans with (1 := Habs). rewrite Rmult_1_l. rewrite <- bpow_126.
    apply bpow_le; lia. }
  rewrite <- abs_IZR in Hlt. apply (lt_IZR _ 1) in Hlt. lia.
Qed.
