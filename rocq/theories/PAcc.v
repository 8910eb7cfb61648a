(** * PAcc: phase accumulators in binary32 *)
From Coq Require Import ZArith List Bool Reals Lia Lra Arith.
From Flocq Require Import Core IEEE754.BinarySingleNaN.
From Verif Require Import Num Maths CrossFader Wavetable Filters Osc Spec NumFacts Laws B32 B32Facts B32Laws SpecF SpecO SpecW SpecP SpecA OscRun PWide.
Import ListNotations.
Local Open Scope R_scope.

Definition e23 : R := bpow radix2 (-23).
Lemma e23_def : e23 = / IZR (2 ^ 23). Proof. reflexivity. Qed.
Lemma e23_pos : 0 < e23. Proof. apply bpow_gt_0. Qed.
Lemma e24_e : bpow radix2 (-24) = e23 / 2. Proof. unfold e23. change (-24)%Z with (-23 + -1)%Z. rewrite bpow_plus. cbn [bpow]. change (Z.pow_pos radix2 1) with 2%Z. lra. Qed.
Lemma e25_e : bpow radix2 (-25) = e23 / 4. Proof. unfold e23. change (-25)%Z with (-23 + -2)%Z. rewrite bpow_plus. cbn [bpow]. change (Z.pow_pos radix2 2) with 4%Z. lra. Qed.
Lemma e23_small : e23 <= / 8. Proof. unfold e23. replace (/ 8) with (bpow radix2 (-3)) by reflexivity. apply bpow_le. lia. Qed.

Lemma rnd_opp x : rnd32 (- x) = - rnd32 x. Proof. apply round_NE_opp. Qed.

(** numbers of [1,2) are multiples of 2^-23 *)
Lemma grid12 x : fmt32 x -> 1 <= x < 2 -> exists m : Z, x = IZR m * e23.
Proof.
  intros H Hx. unfold generic_format, F2R, scaled_mantissa, cexp, FLT_exp in H.
  assert (M : (mag radix2 x : Z) = 1%Z).
  { apply mag_unique. rewrite Rabs_pos_eq by lra. change (bpow radix2 (1 - 1)) with 1. change (bpow radix2 1) with 2. exact Hx. }
  rewrite M in H. cbn in H. exists (Ztrunc (x * bpow radix2 23)). exact H.
Qed.

(** one update at the level of real numbers, forward *)
Lemma acc_core p s : fmt32 p -> fmt32 s -> 0 <= p < 1 -> e23 <= s <= / 2 - e23 ->
  let x := rnd32 (p + s) in
  let q := x - IZR (Ztrunc x) in
  let D := rnd32 (q - p) in
  0 < x < 2 /\ fmt32 q /\ 0 <= q < 1 /\ (q = 0 \/ e23 <= q) /\
  Rabs (x - (p + s)) <= e23 / 2 /\
  ((Ztrunc x = 0%Z /\ 0 < D <= / 2 /\ Rabs (D - s) <= 3 / 4 * e23) \/
   (Ztrunc x = 1%Z /\ -1 <= D < - / 2 /\ rnd32 (D + 1) = D + 1 /\ 0 < D + 1 <= / 2 /\ Rabs (D + 1 - s) <= 3 / 4 * e23)).
Proof.
  intros Fp Fs Hp Hs x q D. assert (P := e23_pos). assert (P8 := e23_small).
  assert (Hx0 : s <= x) by (apply rnd32_ge; [exact Fs|lra]).
  assert (Hx2 : x <= 3 / 2).
  { apply rnd32_le; [|lra]. replace (3 / 2) with (IZR 3 * bpow radix2 (-1)) by (cbn; lra). apply fmt32_Ze; lia. }
  assert (Hx : Rabs (x - (p + s)) <= e23 / 2).
  { rewrite <- e24_e. apply (rnd_half (p + s) 1); [lia|]. rewrite Rabs_pos_eq by lra. change (bpow radix2 1) with 2. lra. }
  assert (Fx : fmt32 x) by (apply generic_format_round; auto with typeclass_instances).
  assert (Hx' := Rabs_le_inv _ _ Hx).
  destruct (Rlt_or_le x 1) as [Hl|Hl].
  - assert (T : Ztrunc x = 0%Z) by (rewrite Ztrunc_floor by lra; apply Zfloor_imp; cbn; lra).
    assert (Eq : q = x) by (unfold q; rewrite T; lra).
    assert (Hps : p + s < 1).
    { destruct (Rlt_or_le (p + s) 1) as [h|h]; [exact h|exfalso].
      assert (1 <= x) by (apply rnd32_ge; [apply (fmt32_Z 1); lia|exact h]). lra. }
    assert (Hx5 : Rabs (x - (p + s)) <= e23 / 4).
    { rewrite <- e25_e. apply (rnd_half (p + s) 0); [lia|]. rewrite Rabs_pos_eq by lra. exact Hps. }
    assert (Hx5' := Rabs_le_inv _ _ Hx5).
    assert (HD : Rabs (D - (q - p)) <= e23 / 4).
    { rewrite <- e25_e. apply (rnd_half (q - p) 0); [lia|]. change (bpow radix2 0) with 1. rewrite Eq. apply Rabs_lt. lra. }
    assert (HD' := Rabs_le_inv _ _ HD). rewrite Eq in HD'.
    split; [lra|]. split; [rewrite Eq; exact Fx|]. split; [lra|]. split; [right; lra|]. split; [exact Hx|].
    left. split; [exact T|]. split; [split; [lra|]|].
    + apply rnd32_le; [|lra]. replace (/ 2) with (bpow radix2 (-1)) by reflexivity. apply fmt32_bpow. lia.
    + apply Rabs_le. lra.
  - assert (T : Ztrunc x = 1%Z) by (rewrite Ztrunc_floor by lra; apply Zfloor_imp; cbn; lra).
    assert (Eq : q = x - 1) by (unfold q; rewrite T; lra).
    destruct (grid12 x Fx ltac:(lra)) as [m Hm].
    assert (E1 : 1 = IZR (2 ^ 23) * e23).
    { rewrite e23_def. field. apply IZR_neq. lia. }
    assert (Eqm : q = IZR (m - 2 ^ 23) * e23) by (rewrite minus_IZR, Rmult_minus_distr_r, <- E1, <- Hm; exact Eq).
    assert (Hm0 : (0 <= m - 2 ^ 23)%Z).
    { apply le_IZR. apply Rmult_le_reg_r with e23; [exact P|]. rewrite <- Eqm. lra. }
    assert (Fq : fmt32 q).
    { rewrite Eq. apply Sterbenz.sterbenz; auto with typeclass_instances; [apply (fmt32_Z 1); lia|lra]. }
    assert (HD : Rabs (D - (q - p)) <= e23 / 4).
    { destruct (Req_dec (q - p) (-1)) as [E|E].
      - unfold D. rewrite E. rewrite rnd32_id by (apply (fmt32_Z (-1)); lia). rewrite Rminus_diag_eq by reflexivity. rewrite Rabs_R0. lra.
      - rewrite <- e25_e. apply (rnd_half (q - p) 0); [lia|]. change (bpow radix2 0) with 1. apply Rabs_lt. rewrite Eq in *. lra. }
    assert (HD' := Rabs_le_inv _ _ HD).
    assert (HDu : D <= - / 2 - e23 / 2).
    { apply rnd32_le; [|lra].
      replace (- / 2 - e23 / 2) with (IZR (- (2 ^ 23 + 1)) * bpow radix2 (-24)).
      - apply fmt32_Ze; lia.
      - rewrite e24_e. rewrite opp_IZR, plus_IZR. replace (- (IZR (2 ^ 23) + 1) * (e23 / 2)) with (- (IZR (2 ^ 23) * e23) / 2 - e23 / 2) by lra.
        rewrite <- E1. lra. }
    assert (HDl : -1 <= D) by (apply rnd32_ge; [apply (fmt32_Z (-1)); lia|lra]).
    assert (FD : fmt32 D) by (apply generic_format_round; auto with typeclass_instances).
    assert (HDe : rnd32 (D + 1) = D + 1).
    { apply rnd32_id. replace (D + 1) with (1 - - D) by lra.
      apply Sterbenz.sterbenz; auto with typeclass_instances; [apply (fmt32_Z 1); lia|apply generic_format_opp; exact FD|lra]. }
    split; [lra|]. split; [exact Fq|]. split; [lra|]. split; [|split; [exact Hx|]].
    + destruct (Z.eq_dec (m - 2 ^ 23) 0) as [E|E].
      * left. rewrite Eqm, E. lra.
      * right. rewrite Eqm. replace e23 with (1 * e23) at 1 by lra. apply Rmult_le_compat_r; [lra|]. apply (IZR_le 1). lia.
    + right. split; [exact T|]. split; [lra|]. split; [exact HDe|]. rewrite Eq in *. split; [lra|]. apply Rabs_le. lra.
Qed.

(** ** fmod *)
Lemma trunc_pos x : 0 <= x < 2 -> (x < 1 /\ Ztrunc x = 0%Z) \/ (1 <= x /\ Ztrunc x = 1%Z).
Proof.
  intros H. rewrite Ztrunc_floor by lra. destruct (Rlt_or_le x 1); [left|right]; (split; [assumption|]); apply Zfloor_imp; cbn; lra.
Qed.

Lemma fmod1_ok (x : f32) : fin32 x = true -> -2 < B2R x < 2 ->
  fin32 (fmod1 x) = true /\ B2R (fmod1 x) = B2R x - IZR (Ztrunc (B2R x)).
Proof.
  intros Hf Hx. unfold fmod1. rewrite trunc32.
  assert (H : (Z.abs (Ztrunc (B2R x)) <= 1)%Z /\ fmt32 (B2R x - IZR (Ztrunc (B2R x))) /\ -2 <= B2R x - IZR (Ztrunc (B2R x)) <= 2).
  { destruct (Rle_lt_dec 0 (B2R x)).
    - destruct (trunc_pos (B2R x) ltac:(lra)) as [[L E]|[L E]]; rewrite E; (split; [lia|split; [|lra]]).
      + rewrite Rminus_0_r. apply fmt32_B2R.
      + apply Sterbenz.sterbenz; auto with typeclass_instances; [apply fmt32_B2R|apply (fmt32_Z 1); lia|lra].
    - assert (Eo : Ztrunc (B2R x) = (- Ztrunc (- B2R x))%Z) by (rewrite <- Ztrunc_opp; f_equal; lra).
      destruct (trunc_pos (- B2R x) ltac:(lra)) as [[L E]|[L E]]; rewrite Eo, E; (split; [lia|split; [|cbn; lra]]).
      + cbn [Z.opp]. rewrite Rminus_0_r. apply fmt32_B2R.
      + replace (B2R x - IZR (- (1))) with (1 - - B2R x) by (cbn; lra).
        apply Sterbenz.sterbenz; auto with typeclass_instances; [apply (fmt32_Z 1); lia|apply generic_format_opp, fmt32_B2R|lra]. }
  destruct H as (Ht & Fr & Hb).
  destruct (ofZ32 (Ztrunc (B2R x)) ltac:(lia)) as [O1 O2].
  destruct (sub32 x (f32_ofZ (Ztrunc (B2R x))) Hf O1) as (A1 & A2 & _); [rewrite O2; apply small32_1; exact Hb|].
  rewrite O2, rnd32_id in A2 by exact Fr.
  destruct (Bminus mode_NE x (f32_ofZ (Ztrunc (B2R x)))) as [s| | |s m e b] eqn:E; try discriminate.
  - split; [reflexivity|]. cbn in A2 |- *. exact A2.
  - split; [exact A1|exact A2].
Qed.

(** ** the steps the oscillator computes *)
Section Steps.
Variable lm : Libm.
Notation N := (B32 lm).

Lemma step_fwd (p q : f32) : fin32 p = true -> fin32 q = true -> -2 <= B2R q - B2R p <= 2 -> rnd32 (B2R q - B2R p) + 1 <= 2 ->
  let D := rnd32 (B2R q - B2R p) in
  fin32 (step32 lm kForward p q) = true /\ B2R (step32 lm kForward p q) = if Rlt_bool D 0 then rnd32 (D + 1) else D.
Proof.
  intros Fp Fq Hb H1 D. destruct (ofZ32 1 ltac:(lia)) as [O1 O2]. destruct (ofZ32 0 ltac:(lia)) as [Z1 Z2].
  destruct (sub32 q p Fq Fp) as (A1 & A2 & _); [apply small32_1; lra|]. fold (fsub q p) in *. fold D in A2.
  assert (-2 <= D) by (apply rnd32_ge; [apply (fmt32_Z (-2)); lia|lra]).
  destruct (add32 (fsub q p) (f32_ofZ 1) A1 O1) as (C1 & C2); [rewrite A2, O2; apply small32_1; fold D in H1; lra|].
  fold (fadd (fsub q p) (f32_ofZ 1)) in *. rewrite A2, O2 in C2.
  cbn [step32]. unfold stepFwd, t0, t1. change (tsub N q p) with (fsub q p). change (tofZ N 0) with (f32_ofZ 0). change (tofZ N 1) with (f32_ofZ 1).
  change (tadd N) with fadd.
  assert (L : tlt N (fsub q p) (f32_ofZ 0) = Rlt_bool D 0).
  { change (Bltb (fsub q p) (f32_ofZ 0) = Rlt_bool D 0). rewrite Bltb_correct by assumption. now rewrite A2, Z2. }
  rewrite L. destruct (Rlt_bool D 0); auto.
Qed.

Lemma step_bi (p q : f32) : fin32 p = true -> fin32 q = true -> -2 <= B2R q - B2R p <= 2 ->
  let D := rnd32 (B2R q - B2R p) in
  fin32 (step32 lm kBidirectionnal p q) = true /\
  B2R (step32 lm kBidirectionnal p q) = if Rlt_bool D (- / 2) then rnd32 (D + 1) else if Rlt_bool (/ 2) D then rnd32 (D - 1) else D.
Proof.
  intros Fp Fq Hb D. destruct (ofZ32 1 ltac:(lia)) as [O1 O2].
  destruct (sub32 q p Fq Fp) as (A1 & A2 & _); [apply small32_1; lra|]. fold (fsub q p) in *. fold D in A2.
  assert (Hd : -2 <= D <= 2) by (split; [apply rnd32_ge; [apply (fmt32_Z (-2)); lia|lra]|apply rnd32_le; [apply (fmt32_Z 2); lia|lra]]).
  cbn [step32]. unfold stepBi, t1. change (tsub N q p) with (fsub q p). change (tofZ N 1) with (f32_ofZ 1).
  change (tadd N) with fadd. change (tsub N (fsub q p) (f32_ofZ 1)) with (fsub (fsub q p) (f32_ofZ 1)).
  set (mh := tfrac N (-1) 2). set (ph := tfrac N 1 2).
  assert (Hm : fin32 mh = true /\ B2R (mh : f32) = - / 2) by (split; [reflexivity|vm_compute; lra]).
  assert (Hh : fin32 ph = true /\ B2R (ph : f32) = / 2) by (split; [reflexivity|vm_compute; lra]).
  destruct Hm as [M1 M2]. destruct Hh as [H1 H2].
  assert (L1 : tlt N (fsub q p) mh = Rlt_bool D (- / 2)).
  { change (Bltb (fsub q p) mh = Rlt_bool D (- / 2)). rewrite Bltb_correct by assumption. now rewrite A2, M2. }
  assert (L2 : tlt N ph (fsub q p) = Rlt_bool (/ 2) D).
  { change (Bltb ph (fsub q p) = Rlt_bool (/ 2) D). rewrite Bltb_correct by assumption. now rewrite A2, H2. }
  rewrite L1, L2. destruct (Rlt_bool_spec D (- / 2)) as [h|h]; [|destruct (Rlt_bool_spec (/ 2) D) as [h'|h']].
  - destruct (add32 (fsub q p) (f32_ofZ 1) A1 O1) as (C1 & C2); [rewrite A2, O2; apply small32_1; lra|].
    fold (fadd (fsub q p) (f32_ofZ 1)) in *. rewrite A2, O2 in C2. auto.
  - destruct (sub32 (fsub q p) (f32_ofZ 1) A1 O1) as (C1 & C2 & _); [rewrite A2, O2; apply small32_1; lra|].
    fold (fsub (fsub q p) (f32_ofZ 1)) in *. rewrite A2, O2 in C2. auto.
  - auto.
Qed.

(** one update, forward *)
Lemma acc_fwd (p s : f32) dir : phase01 p -> fairStep s ->
  let q := fmod1 (fadd p s) in
  phase01 q /\ (B2R q = 0 \/ e23 <= B2R q) /\
  (exists k : Z, Rabs (B2R q + IZR k - (B2R p + B2R s)) <= e23 / 2) /\
  fin32 (step32 lm dir p q) = true /\ 0 < B2R (step32 lm dir p q) <= / 2 /\
  Rabs (B2R (step32 lm dir p q) - B2R s) <= 3 / 4 * e23.
Proof.
  intros [Fp Hp] [Fs Hs] q. rewrite <- e23_def in Hs. assert (P := e23_pos).
  destruct (acc_core (B2R p) (B2R s) (fmt32_B2R p) (fmt32_B2R s) Hp Hs) as (Hx & Fq & Hq & Hg & Hd & Hst).
  destruct (add32 p s Fp Fs) as (A1 & A2); [apply small32_1; lra|]. fold (fadd p s) in *.
  destruct (fmod1_ok (fadd p s) A1 ltac:(rewrite A2; lra)) as (Q1 & Q2). fold q in Q1, Q2. rewrite A2 in Q2.
  set (x := rnd32 (B2R p + B2R s)) in *.
  split; [split; [exact Q1|rewrite Q2; exact Hq]|]. split; [rewrite Q2; exact Hg|].
  split; [exists (Ztrunc x); rewrite Q2; replace (x - IZR (Ztrunc x) + IZR (Ztrunc x)) with x by ring; exact Hd|].
  rewrite <- Q2 in Hst.
  destruct dir.
  - destruct (step_fwd p q Fp Q1) as [S1 S2].
    + rewrite Q2. lra.
    + destruct Hst as [(_ & h & _)|(_ & h & _)]; lra.
    + split; [exact S1|]. rewrite S2. destruct Hst as [(_ & h & h')|(_ & h & E & h' & h'')].
      * rewrite Rlt_bool_false by lra. auto.
      * rewrite Rlt_bool_true by lra. rewrite E. auto.
  - destruct (step_bi p q Fp Q1) as [S1 S2].
    + rewrite Q2. lra.
    + split; [exact S1|]. rewrite S2. destruct Hst as [(_ & h & h')|(_ & h & E & h' & h'')].
      * rewrite (Rlt_bool_false _ (- / 2)) by lra. rewrite Rlt_bool_false by lra. auto.
      * rewrite Rlt_bool_true by lra. rewrite E. auto.
Qed.

(** ... and backward: the same phases and steps, negated *)
Lemma acc_bwd (p s : f32) : fin32 p = true -> -1 < B2R p <= 0 -> fin32 s = true -> e23 <= - B2R s <= / 2 - e23 ->
  let q := fmod1 (fadd p s) in
  fin32 q = true /\ -1 < B2R q <= 0 /\ (B2R q = 0 \/ B2R q <= - e23) /\
  (exists k : Z, Rabs (B2R q + IZR k - (B2R p + B2R s)) <= e23 / 2) /\
  fin32 (step32 lm kBidirectionnal p q) = true /\ - / 2 <= B2R (step32 lm kBidirectionnal p q) < 0 /\
  Rabs (B2R (step32 lm kBidirectionnal p q) - B2R s) <= 3 / 4 * e23.
Proof.
  intros Fp Hp Fs Hs q. assert (P := e23_pos).
  destruct (acc_core (- B2R p) (- B2R s)) as (Hx & Fq & Hq & Hg & Hd & Hst);
    [apply generic_format_opp, fmt32_B2R|apply generic_format_opp, fmt32_B2R|lra|lra|].
  destruct (add32 p s Fp Fs) as (A1 & A2); [apply small32_1; lra|]. fold (fadd p s) in *.
  set (x := rnd32 (- B2R p + - B2R s)) in *.
  assert (Ex : B2R (fadd p s) = - x).
  { rewrite A2. unfold x. rewrite <- rnd_opp. f_equal. lra. }
  destruct (fmod1_ok (fadd p s) A1 ltac:(rewrite Ex; lra)) as (Q1 & Q2). fold q in Q1, Q2. rewrite Ex, Ztrunc_opp, opp_IZR in Q2.
  assert (Q3 : B2R q = - (x - IZR (Ztrunc x))) by lra. clear Q2.
  split; [exact Q1|]. split; [lra|]. split; [lra|].
  split.
  { exists (- Ztrunc x)%Z. rewrite Q3, opp_IZR.
    replace (- (x - IZR (Ztrunc x)) + - IZR (Ztrunc x) - (B2R p + B2R s)) with (- (x - (- B2R p + - B2R s))) by lra. rewrite Rabs_Ropp. exact Hd. }
  destruct (step_bi p q Fp Q1) as [S1 S2]; [lra|].
  assert (ED : rnd32 (B2R q - B2R p) = - rnd32 (x - IZR (Ztrunc x) - - B2R p)) by (rewrite <- rnd_opp; f_equal; lra).
  rewrite ED in S2. set (D := rnd32 (x - IZR (Ztrunc x) - - B2R p)) in *.
  split; [exact S1|]. rewrite S2. destruct Hst as [(_ & h & h')|(_ & h & E & h' & h'')].
  - rewrite (Rlt_bool_false _ (- / 2)) by lra. rewrite Rlt_bool_false by lra. split; [lra|].
    replace (- D - B2R s) with (- (D - - B2R s)) by lra. rewrite Rabs_Ropp. exact h'.
  - rewrite (Rlt_bool_false _ (- / 2)) by lra. rewrite Rlt_bool_true by lra.
    replace (- D - 1) with (- (D + 1)) by lra. rewrite rnd_opp, E. split; [lra|].
    replace (- (D + 1) - B2R s) with (- (D + 1 - - B2R s)) by lra. rewrite Rabs_Ropp. exact h''.
Qed.
End Steps.
