(** * PCross: lemmas behind Prop_CrossFader.v *)
From Coq Require Import ZArith List Bool Reals Lia Lra Psatz.
From Flocq Require Import Core Mult_error Plus_error Sterbenz IEEE754.BinarySingleNaN.
From Verif Require Import Num Maths CrossFader Wavetable Spec NumFacts Laws B32 B32Facts B32Laws
  B32Pow Demo SpecF CFFacts WTFacts BuildFacts OscHist CFHist.
Import ListNotations.
Local Open Scope Z_scope.

Lemma rate32_pos lm sr : rate32 lm sr -> (0 < B2R sr)%R.
Proof.
  intros (_ & H & _). apply Rlt_le_trans with (2 := H). apply Rinv_0_lt_compat, IZR_lt. reflexivity.
Qed.

Lemma rate32_mag lm sr : rate32 lm sr -> -99 <= mag radix2 (B2R sr).
Proof.
  intros H. assert (P := rate32_pos lm sr H). destruct H as (_ & H & _).
  assert (E : bpow radix2 (-100) = (/ IZR (2 ^ 100))%R) by reflexivity.
  rewrite <- E in H. replace (-99) with (-100 + 1) by lia.
  rewrite <- (mag_bpow radix2 (-100)). apply mag_le_abs.
  - apply Rgt_not_eq, bpow_gt_0.
  - rewrite (Rabs_pos_eq _ (bpow_ge_0 _ _)), Rabs_pos_eq; lra.
Qed.

Lemma rate32_scaled lm sr e : rate32 lm sr -> -26 <= e -> fmt32 (B2R sr * bpow radix2 e).
Proof.
  intros H He. apply mult_bpow_exact_FLT; [apply fmt32_B2R|]. assert (A := rate32_mag lm sr H). lia.
Qed.

Lemma small32_scaled (sr : f32) e : e <= -1 -> small32 (B2R sr * bpow radix2 e).
Proof.
  intros He. unfold small32. rewrite Rabs_mult, (Rabs_pos_eq (bpow _ _)) by apply bpow_ge_0.
  assert (A := abs_B2R_lt_emax 24 128 sr).
  apply Rle_trans with (bpow radix2 128 * bpow radix2 (-1))%R.
  - apply Rmult_le_compat; [apply Rabs_pos|apply bpow_ge_0|lra|now apply bpow_le].
  - rewrite <- bpow_plus. right. reflexivity.
Qed.

Lemma IZR_bpow k : 0 <= k -> IZR (2 ^ k) = bpow radix2 k.
Proof. intros. now rewrite bpow_Z. Qed.

(** rounding commutes with powers of two, away from the subnormal numbers *)
Lemma rnd32_scale x e : x <> 0%R -> -125 <= mag radix2 x -> -125 <= mag radix2 x + e ->
  rnd32 (x * bpow radix2 e) = (rnd32 x * bpow radix2 e)%R.
Proof.
  intros Hx H1 H2. unfold round, scaled_mantissa, cexp. rewrite mag_mult_bpow by assumption.
  assert (E1 : FLT_exp (-149) 24 (mag radix2 x) = mag radix2 x - 24) by (unfold FLT_exp; lia).
  assert (E2 : FLT_exp (-149) 24 (mag radix2 x + e) = mag radix2 x + e - 24) by (unfold FLT_exp; lia).
  rewrite E1, E2. replace (x * bpow radix2 e * bpow radix2 (- (mag radix2 x + e - 24)))%R
    with (x * bpow radix2 (- (mag radix2 x - 24)))%R.
  - unfold F2R. cbn [Fnum Fexp]. rewrite Rmult_assoc, <- bpow_plus. do 2 f_equal. lia.
  - rewrite Rmult_assoc, <- bpow_plus. do 2 f_equal. lia.
Qed.

(** a product that rounds to 1 is near 1 *)
Lemma rnd32_one x : rnd32 x = 1%R -> (/ 2 < x < 2)%R.
Proof.
  intros H. split; apply Rnot_le_lt; intros C.
  - assert (rnd32 x <= / 2)%R; [|lra]. apply rnd32_le; [|exact C]. apply (fmt32_bpow (-1)). lia.
  - assert (2 <= rnd32 x)%R; [|lra]. apply rnd32_ge; [apply (fmt32_Z 2); lia|exact C].
Qed.

(** [t / sr] when [t] is [sr] times a power of two: exact, also by way of the reciprocal if the
    rate allows it *)
Lemma quotient_pow2 (recip : bool) (t sr : f32) e : -26 <= e <= -1 -> fin32 t = true -> fin32 sr = true ->
  (bpow radix2 (-100) <= v32 sr)%R -> v32 t = (v32 sr * bpow radix2 e)%R ->
  (recip = true -> toF32 (B2R sr * toF32 (1 / B2R sr)) = 1%R) ->
  fin32 (f32_quo recip t sr) = true /\ v32 (f32_quo recip t sr) = bpow radix2 e.
Proof.
  intros He Ft Fs Hs Vt Hr. assert (P := bpow_gt_0 radix2 (-100)). unfold f32_quo. destruct recip.
  - specialize (Hr eq_refl). change (B2R sr) with (v32 sr) in Hr. unfold toF32 in Hr.
    destruct (ofZ32 1 ltac:(lia)) as [F1 V1].
    destruct (div32 (f32_ofZ 1) sr) as [A B]; auto.
    { lra. }
    { rewrite V1. apply small32_of_le with (e := 100); [lia|]. rewrite Rabs_pos_eq.
      - unfold Rdiv. rewrite Rmult_1_l. change 100 with (- -100). rewrite bpow_opp. apply Rinv_le_contravar; lra.
      - unfold Rdiv. rewrite Rmult_1_l. left. apply Rinv_0_lt_compat. lra. }
    rewrite V1 in B. assert (X := rnd32_one _ Hr). set (x := (v32 sr * rnd32 (1 / v32 sr))%R) in *.
    assert (E : (v32 t * v32 (fdiv (f32_ofZ 1) sr) = x * bpow radix2 e)%R) by (rewrite Vt, B; unfold x; ring).
    assert (M : 0 <= mag radix2 x).
    { change 0 with (-1 + 1). rewrite <- (mag_bpow radix2 (-1)). apply mag_le_abs; [apply Rgt_not_eq, bpow_gt_0|].
      rewrite (Rabs_pos_eq _ (bpow_ge_0 _ _)), Rabs_pos_eq by lra. change (bpow radix2 (-1)) with (/ 2)%R. lra. }
    destruct (mul32 t (fdiv (f32_ofZ 1) sr)) as [C D]; auto.
    { rewrite E. apply small32_1. assert (bpow radix2 e <= bpow radix2 (-1))%R by (apply bpow_le; lia).
      change (bpow radix2 (-1)) with (/ 2)%R in *. assert (Z0 := bpow_ge_0 radix2 e). nra. }
    rewrite E, rnd32_scale, Hr, Rmult_1_l in D by (lra || lia). split; [exact C|exact D].
  - assert (E4 : (v32 t / v32 sr = bpow radix2 e)%R) by (rewrite Vt; field; lra).
    destruct (div32 t sr) as [A4 B4]; auto.
    { lra. }
    { rewrite E4. apply small32_of_le with (e := e); [lia|]. rewrite Rabs_pos_eq by apply bpow_ge_0. lra. }
    rewrite E4, rnd32_id in B4 by (apply fmt32_bpow; lia). split; [exact A4|exact B4].
Qed.

(** integer rates whose rounded reciprocal brings them back to 1 *)
Lemma rate32_Z lm z : 1 <= z <= 2 ^ 24 -> B2SF (fmul (f32_ofZ z) (fdiv (f32_ofZ 1) (f32_ofZ z))) = B2SF (f32_ofZ 1) ->
  rate32 lm (f32_ofZ z).
Proof.
  intros Hz Hc. destruct (ofZ32 z ltac:(lia)) as [F V]. destruct (ofZ32 1 ltac:(lia)) as [F1 V1].
  assert (Z1 : (1 <= IZR z)%R) by (apply (IZR_le 1); lia).
  split; [exact F|]. split.
  - rewrite V. apply Rle_trans with 1%R; [|exact Z1]. rewrite <- Rinv_1. apply Rinv_le_contravar; [lra|].
    apply (IZR_le 1). apply Z.lt_le_incl. reflexivity.
  - intros _. unfold toF32. rewrite V.
    assert (Q : (0 <= 1 / IZR z <= 1)%R).
    { unfold Rdiv. rewrite Rmult_1_l. split; [left; apply Rinv_0_lt_compat; lra|].
      rewrite <- Rinv_1. apply Rinv_le_contravar; lra. }
    destruct (div32 (f32_ofZ 1) (f32_ofZ z)) as [A B]; auto.
    { rewrite V. lra. }
    { rewrite V, V1. apply small32_1. lra. }
    rewrite V, V1 in B.
    assert (Q' : (0 <= rnd32 (1 / IZR z) <= 1)%R).
    { split; [apply rnd32_ge; [apply (fmt32_Z 0); lia|lra]|apply rnd32_le; [apply (fmt32_Z 1); lia|lra]]. }
    destruct (mul32 (f32_ofZ z) (fdiv (f32_ofZ 1) (f32_ofZ z))) as [C D]; auto.
    { rewrite V, B. apply small32_of_le with (e := 24); [lia|]. change (bpow radix2 24) with (IZR (2 ^ 24)).
      assert (IZR z <= IZR (2 ^ 24))%R by (apply IZR_le; lia). rewrite Rabs_pos_eq; nra. }
    rewrite V, B in D. transitivity (v32 (f32_ofZ 1)); [|exact V1]. rewrite <- D, <- !SF2R_B2SF. f_equal. exact Hc.
Qed.

Lemma b_scale lm (sr : f32) K i : rate32 lm sr -> 2 <= K <= 24 -> 0 <= i < K - 1 ->
  let N := B32 lm in
  let x := tquo N 80 (tmul N (tmul N (tdiv N sr (tofZ N (2 ^ K))) (t2 N)) (tofZ N (2 ^ i))) sr in
  fin32 x = true /\ v32 x = (IZR (2 ^ (i + 1)) / IZR (2 ^ K))%R.
Proof.
  intros Hr HK Hi. cbv zeta. unfold t2. cbn [tdiv tquo tmul tofZ B32].
  assert (Hp := rate32_pos lm sr Hr). assert (Hf : fin32 sr = true) by apply Hr.
  destruct (ofZ32 (2 ^ K)) as [F1 V1].
  { rewrite Z.abs_eq by (apply Z.pow_nonneg; lia). apply Z.pow_le_mono_r; lia. }
  destruct (ofZ32 (2 ^ i)) as [F2 V2].
  { rewrite Z.abs_eq by (apply Z.pow_nonneg; lia). apply Z.pow_le_mono_r; lia. }
  destruct (ofZ32 2 ltac:(lia)) as [F3 V3]. rewrite IZR_bpow in V1, V2 by lia.
  assert (E1 : (v32 sr / v32 (f32_ofZ (2 ^ K)) = v32 sr * bpow radix2 (-K))%R).
  { rewrite V1. unfold Rdiv. now rewrite bpow_opp. }
  destruct (div32 sr (f32_ofZ (2 ^ K))) as [A1 B1]; auto.
  { rewrite V1. apply Rgt_not_eq, bpow_gt_0. }
  { rewrite E1. apply small32_scaled. lia. }
  rewrite E1, rnd32_id in B1 by (apply (rate32_scaled lm); [assumption|lia]).
  assert (E2 : (v32 (fdiv sr (f32_ofZ (2 ^ K))) * v32 (f32_ofZ 2) = v32 sr * bpow radix2 (1 - K))%R).
  { rewrite B1, V3. unfold Zminus. rewrite (bpow_plus _ 1). change (bpow radix2 1) with 2%R. ring. }
  destruct (mul32 (fdiv sr (f32_ofZ (2 ^ K))) (f32_ofZ 2)) as [A2 B2]; auto.
  { rewrite E2. apply small32_scaled. lia. }
  rewrite E2, rnd32_id in B2 by (apply (rate32_scaled lm); [assumption|lia]).
  set (u := fmul (fdiv sr (f32_ofZ (2 ^ K))) (f32_ofZ 2)) in *.
  assert (E3 : (v32 u * v32 (f32_ofZ (2 ^ i)) = v32 sr * bpow radix2 (1 - K + i))%R).
  { rewrite B2, V2, (bpow_plus _ (1 - K)). ring. }
  destruct (mul32 u (f32_ofZ (2 ^ i))) as [A3 B3]; auto.
  { rewrite E3. apply small32_scaled. lia. }
  rewrite E3, rnd32_id in B3 by (apply (rate32_scaled lm); [assumption|lia]).
  destruct (quotient_pow2 (lm_recip lm 80) (fmul u (f32_ofZ (2 ^ i))) sr (1 - K + i)) as [A4 B4]; auto; try lia; try apply Hr.
  split; [exact A4|]. transitivity (bpow radix2 (1 - K + i)); [exact B4|].
  rewrite !IZR_bpow by lia. unfold Rdiv. rewrite <- bpow_opp, <- bpow_plus. f_equal. lia.
Qed.

Lemma scale32 lm Hlog K (sr : T (B32 lm)) sc : 2 <= K <= 24 -> rate32 lm sr ->
  computeMipMapScale (B32 lm) (2 ^ K) sr = Ok sc -> ScaleOk (B32 lm) (B32_Laws lm Hlog) K sc.
Proof.
  intros HK Hr E.
  destruct (computeMipMapScale_pow2 (B32 lm) (B32_Laws lm Hlog) K sr ltac:(lia)) as (sc' & E' & Hl & Hs).
  assert (sc' = sc) by congruence. subst sc'. split; [assumption|].
  intros i x Hi Hx. rewrite Hs in Hx by assumption. inversion Hx. apply (b_scale lm); auto; lia.
Qed.

(** ** Gains *)
Lemma ofZ32_rnd (z : Z) : Z.abs z <= 2 ^ 31 ->
  fin32 (f32_ofZ z) = true /\ v32 (f32_ofZ z) = rnd32 (IZR z).
Proof.
  intros Hz. unfold f32_ofZ.
  assert (E : (IZR z * bpow radix2 0 = IZR z)%R) by (simpl; ring).
  destruct (norm32 z 0 false) as [H1 H2].
  - rewrite E. apply small32_of_le with 31; [lia|].
    rewrite <- abs_IZR, bpow_Z by lia. now apply IZR_le.
  - rewrite E in H2. split; assumption.
Qed.

Definition gain32 (l n : Z) : f32 := fdiv (f32_ofZ l) (f32_ofZ n).
Definition cogain32 (l n : Z) : f32 := fsub (f32_ofZ 1) (gain32 l n).

Lemma rnd32_mono x y : (x <= y)%R -> (rnd32 x <= rnd32 y)%R.
Proof. intros. apply round_le; auto with typeclass_instances. Qed.

Lemma gain32_ok l n : 0 <= l <= n -> 1 <= n <= int_max ->
  fin32 (gain32 l n) = true /\ (0 <= v32 (gain32 l n) <= 1)%R /\
  (l = 0 -> v32 (gain32 l n) = 0%R) /\ (l = n -> v32 (gain32 l n) = 1%R) /\
  (n <= 2 ^ 24 -> v32 (gain32 l n) = rnd32 (IZR l / IZR n)).
Proof.
  intros Hl Hn. unfold int_max in Hn. unfold gain32.
  destruct (ofZ32_rnd l) as [F1 V1]; [lia|]. destruct (ofZ32_rnd n) as [F2 V2]; [lia|].
  assert (P : (1 <= rnd32 (IZR n))%R).
  { apply rnd32_ge; [apply (fmt32_Z 1); lia|]. apply IZR_le; lia. }
  assert (Q : (0 <= rnd32 (IZR l))%R).
  { apply rnd32_ge; [apply (fmt32_Z 0); lia|]. apply IZR_le; lia. }
  assert (S : (rnd32 (IZR l) <= rnd32 (IZR n))%R) by (apply rnd32_mono, IZR_le; lia).
  assert (D : (0 <= rnd32 (IZR l) / rnd32 (IZR n) <= 1)%R).
  { split.
    - apply Rmult_le_pos; [assumption|]. left. apply Rinv_0_lt_compat. lra.
    - apply Rmult_le_reg_r with (rnd32 (IZR n)); [lra|]. unfold Rdiv. rewrite Rmult_assoc, Rinv_l; lra. }
  destruct (div32 (f32_ofZ l) (f32_ofZ n)) as [A B]; auto.
  { rewrite V2. lra. }
  { rewrite V1, V2. apply small32_1. lra. }
  rewrite V1, V2 in B. split; [exact A|]. rewrite B. split; [|split; [|split]].
  - split; [apply rnd32_ge; [apply (fmt32_Z 0); lia|apply D]|apply rnd32_le; [apply (fmt32_Z 1); lia|apply D]].
  - intros ->. rewrite (rnd32_id (IZR 0)) by (apply (fmt32_Z 0); lia). unfold Rdiv. rewrite Rmult_0_l.
    apply round_0; auto with typeclass_instances.
  - intros ->. unfold Rdiv. rewrite Rinv_r by lra. apply rnd32_id. apply (fmt32_Z 1); lia.
  - intros H. rewrite !(rnd32_id (IZR _)) by (apply fmt32_Z; lia). reflexivity.
Qed.

(** rounding near 1 *)
Lemma rnd32_near1 x : (1 - bpow radix2 (-25) <= x <= 1 + bpow radix2 (-25))%R -> rnd32 x = 1%R.
Proof.
  assert (E25 : bpow radix2 (-25) = (/ 33554432)%R) by reflexivity.
  rewrite E25. intros H. unfold round, scaled_mantissa, cexp.
  destruct (Rlt_or_le x 1) as [Hx|Hx].
  - assert (M : mag radix2 x = 0 :> Z).
    { apply mag_unique. change (bpow radix2 (0 - 1)) with (/ 2)%R. change (bpow radix2 0) with 1%R.
      rewrite Rabs_pos_eq; lra. }
    rewrite M. change (FLT_exp (-149) 24 0) with (-24). change (bpow radix2 (- -24)) with 16777216%R.
    assert (Z1 : ZnearestE (x * 16777216) = 16777216).
    { destruct (Req_dec x (1 - / 33554432)) as [->|Hne].
      - unfold Znearest. replace ((1 - / 33554432) * 16777216)%R with (IZR 16777215 + / 2)%R by lra.
        rewrite (Zfloor_imp 16777215) by (rewrite plus_IZR; lra).
        rewrite (Zceil_imp 16777216) by (rewrite minus_IZR; lra).
        rewrite Rcompare_Eq by lra. reflexivity.
      - apply Znearest_imp. apply Rabs_lt. lra. }
    rewrite Z1. unfold F2R. cbn [Fnum Fexp]. change (bpow radix2 (-24)) with (/ 16777216)%R. lra.
  - assert (M : mag radix2 x = 1 :> Z).
    { apply mag_unique. change (bpow radix2 (1 - 1)) with 1%R. change (bpow radix2 1) with 2%R.
      rewrite Rabs_pos_eq; lra. }
    rewrite M. change (FLT_exp (-149) 24 1) with (-23). change (bpow radix2 (- -23)) with 8388608%R.
    rewrite (Znearest_imp _ _ 8388608) by (apply Rabs_lt; lra).
    unfold F2R. cbn [Fnum Fexp]. change (bpow radix2 (-23)) with (/ 8388608)%R. lra.
Qed.

Lemma cogain32_ok l n : 0 <= l <= n -> 1 <= n <= int_max ->
  fin32 (cogain32 l n) = true /\ (0 <= v32 (cogain32 l n) <= 1)%R /\
  (l = 0 -> v32 (cogain32 l n) = 1%R) /\ (l = n -> v32 (cogain32 l n) = 0%R) /\
  v32 (cogain32 l n) = rnd32 (1 - v32 (gain32 l n)) /\
  fin32 (fadd (gain32 l n) (cogain32 l n)) = true /\
  v32 (fadd (gain32 l n) (cogain32 l n)) = 1%R /\
  fin32 (fadd (cogain32 l n) (gain32 l n)) = true /\
  v32 (fadd (cogain32 l n) (gain32 l n)) = 1%R.
Proof.
  intros Hl Hn. destruct (gain32_ok l n Hl Hn) as (F & G & G0 & G1 & _).
  destruct (ofZ32 1 ltac:(lia)) as [F1 V1]. unfold cogain32. set (f := gain32 l n) in *.
  destruct (sub32 (f32_ofZ 1) f) as (A & B & _); auto.
  { rewrite V1. apply small32_1. lra. }
  rewrite V1 in B. set (g := fsub (f32_ofZ 1) f) in *.
  assert (R : (0 <= v32 g <= 1)%R).
  { rewrite B. split; [apply rnd32_ge; [apply (fmt32_Z 0); lia|lra]|apply rnd32_le; [apply (fmt32_Z 1); lia|lra]]. }
  assert (S1 : rnd32 (v32 f + v32 g) = 1%R).
  { apply rnd32_near1. rewrite B.
    assert (E : (Rabs (rnd32 (1 - v32 f) - (1 - v32 f)) <= bpow radix2 (-25))%R).
    { destruct (Req_dec (1 - v32 f) 0) as [->|Hne].
      - rewrite round_0 by auto with typeclass_instances. rewrite Rminus_0_r, Rabs_R0. apply bpow_ge_0.
      - destruct (Rlt_or_le (1 - v32 f) 1) as [Hlt|Hge].
        + apply Rle_trans with (1 := error_le_half_ulp radix2 (FLT_exp (-149) 24) (fun x => negb (Z.even x)) (1 - v32 f)).
          apply Rle_trans with (/ 2 * bpow radix2 (-24))%R.
          * apply Rmult_le_compat_l; [lra|]. rewrite ulp_neq_0 by assumption. apply bpow_le.
            unfold cexp, FLT_exp. assert (mag radix2 (1 - v32 f) <= 0); [|lia].
            apply mag_le_bpow; [assumption|]. change (bpow radix2 0) with 1%R. apply Rabs_lt. lra.
          * right. change (/ 2)%R with (bpow radix2 (-1)). rewrite <- bpow_plus. reflexivity.
        + assert (v32 f = 0%R) as -> by lra. rewrite Rminus_0_r.
          rewrite rnd32_id by (apply (fmt32_Z 1); lia). rewrite Rminus_diag_eq by reflexivity.
          rewrite Rabs_R0. apply bpow_ge_0. }
    apply Rabs_le_inv in E. lra. }
  destruct (add32 f g) as [A1 B1]; auto. { apply small32_1. lra. }
  destruct (add32 g f) as [A2 B2]; auto. { apply small32_1. lra. }
  split; [exact A|]. split; [exact R|]. split.
  { intros E. rewrite B, (G0 E), Rminus_0_r. apply rnd32_id. apply (fmt32_Z 1); lia. }
  split.
  { intros E. rewrite B, (G1 E). replace (1 - 1)%R with 0%R by lra. apply round_0; auto with typeclass_instances. }
  split; [exact B|]. split; [exact A1|]. split; [rewrite B1; exact S1|]. split; [exact A2|].
  rewrite B2, Rplus_comm. exact S1.
Qed.

(** the outputs of any call *)
Section Out.
Variable lm : Libm.
Notation N := (B32 lm).

Lemma fadeT32 n l p x : fadeT N n (l, p, x) =
  if p <? x then (p, gain32 l n, x, cogain32 l n) else (x, cogain32 l n, p, gain32 l n).
Proof. reflexivity. Qed.

Lemma convex_10 : convex32 (f32_ofZ 1) (f32_ofZ 0).
Proof.
  destruct (ofZ32 1 ltac:(lia)) as [F1 V1]. destruct (ofZ32 0 ltac:(lia)) as [F0 V0].
  destruct (add32 (f32_ofZ 1) (f32_ofZ 0)) as [A B]; auto.
  { rewrite V1, V0. apply small32_1. lra. }
  unfold convex32. rewrite V1, V0 in *. repeat apply conj; auto; try lra.
Qed.

Lemma outS_ok n num s r : 1 <= n <= int_max -> 0 <= r < num -> cfInv n num s ->
  exists mi g mu gu, outS N n s r = (mi, g, mu, gu) /\ convex32 g gu /\
    0 <= mi < num /\
    (mu = mi + 1 \/ (mu = mi /\ B2R gu = 0%R /\ B2R g = 1%R)) /\
    (mu < num \/ gu = f32_ofZ 0).
Proof.
  intros Hn Hr Hs. assert (Hs' := cfStep_inv n num s r ltac:(lia) Hr Hs).
  destruct s as [[l p] x]. unfold outS.
  destruct ((l =? 0) && (r =? x)) eqn:E.
  - exists r, (f32_ofZ 1), (r + 1), (f32_ofZ 0). split; [reflexivity|]. split; [apply convex_10|].
    repeat split; try lia. now right.
  - destruct (cfStep n (l, p, x) r) as [[l1 p1] x1]. rewrite fadeT32.
    destruct Hs' as (A & B & C & D & F).
    destruct (gain32_ok l1 n A Hn) as (G1 & G2 & G3 & G4 & _).
    destruct (cogain32_ok l1 n A Hn) as (H1 & H2 & H3 & H4 & H5 & H6 & H7 & H8 & H9).
    destruct (Z.ltb_spec p1 x1).
    + do 4 eexists. split; [reflexivity|]. split; [unfold convex32; repeat apply conj; auto; lra|].
      repeat split; try lia.
    + do 4 eexists. split; [reflexivity|]. split; [unfold convex32; repeat apply conj; auto; lra|].
      repeat split; try lia.
      assert (l1 = 0 \/ 0 < l1) as [E0|E0] by lia; [right|left; lia].
      split; [lia|]. auto.
Qed.
End Out.

Section C09_16.
Variable lm : Libm.
Hypothesis Hlog : log2_exact lm.
Variable src : Resampler (B32 lm).
Variable dbg : bool.
Notation N := (B32 lm).
Notation reach := (reachable N src dbg (rate32 lm)).

Lemma reach_ok K n w : reach K n w ->
  2 <= K <= 18 /\ (exists nw, WTok K nw w) /\ ScaleOk N (B32_Laws lm Hlog) K (cf_scale (wt_cf w)) /\
  cf_num (wt_cf w) = n /\ n <= int_max /\ (1 <= n -> CFok N (wt_cf w)).
Proof.
  apply (reachable_ok N (B32_Laws lm Hlog) src dbg (rate32 lm)).
  intros K' sr sc HK Hr. now apply scale32.
Qed.

Lemma tlt0 (d : f32) : is_finite d = true -> (0 < B2R d)%R -> tlt N (t0 N) d = true.
Proof.
  intros Hf Hd. destruct (ofZ32 0 ltac:(lia)) as [F V]. change (t0 N) with (f32_ofZ 0). cbn [tlt B32].
  rewrite Bltb_correct by assumption. rewrite V. now apply Rlt_bool_true.
Qed.

Lemma limits_exact K n w i x : reach K n w -> 0 <= i < K - 1 ->
  znth (cf_scale (wt_cf w)) i = Ok x -> is_finite x = true /\ B2R x = (IZR (2 ^ (i + 1)) / IZR (2 ^ K))%R.
Proof.
  intros H Hi Hx. destruct (reach_ok K n w H) as (_ & _ & [_ HS] & _). exact (HS i x Hi Hx).
Qed.

Lemma req32 K n w (d : f32) r : reach K n w -> is_finite d = true -> entryFor K (B2R d) r ->
  req N (wt_cf w) d = r.
Proof.
  intros H Hf He. destruct (reach_ok K n w H) as (HK & _ & HS & _).
  apply (entryFor_fun K (B2R d)); [lia| |assumption].
  exact (req_entry N (B32_Laws lm Hlog) K (wt_cf w) d ltac:(lia) HS Hf).
Qed.

Lemma find_valid K n w (d : f32) : reach K n w -> 1 <= n -> is_finite d = true -> (0 < B2R d)%R ->
  exists w' mi g mu gu, wt_findMipMapIndices N dbg w d = Ok (w', (mi, g, mu, gu)) /\
    convex32 g gu /\ 0 <= mi < wt_numMipMapTables N w /\
    (mu = mi + 1 \/ (mu = mi /\ B2R gu = 0%R /\ B2R g = 1%R)) /\
    (mu < wt_numMipMapTables N w \/ gu = f32_ofZ 0).
Proof.
  intros H Hn Hf Hd. destruct (reach_ok K n w H) as (HK & _ & HS & En & Hm & HC). specialize (HC Hn).
  destruct (find_ok N dbg w d HC (tlt0 d Hf Hd)) as (w' & E). rewrite En in E.
  assert (A := proj1 (CFok_inv N (wt_cf w)) HC). destruct A as [_ A]. rewrite En in A.
  destruct (outS_ok lm n _ (cfState N (wt_cf w)) (req N (wt_cf w) d) ltac:(lia) (req_range N _ d HC) A)
    as (mi & g & mu & gu & Eo & P1 & P2 & P3 & P4).
  exists w', mi, g, mu, gu. rewrite Eo in E. split; [exact E|]. auto.
Qed.

(** a list of steps within one octave *)
Lemma ask32 K n w (ds : list f32) rs : reach K n w -> 1 <= n ->
  Forall2 (fun (d : f32) r => is_finite d = true /\ (0 < B2R d)%R /\ entryFor K (B2R d) r) ds rs ->
  exists w' outs, ask N dbg w ds = Ok (w', outs) /\ length outs = length ds /\
    cfState N (wt_cf w') = cfRun n (cfState N (wt_cf w)) rs /\
    (forall t r, nth_error rs t = Some r ->
      nth_error outs t = Some (outS N n (cfRun n (cfState N (wt_cf w)) (firstn t rs)) r)) /\
    cfInv n (K - 1) (cfState N (wt_cf w)) /\ (forall r, In r rs -> 0 <= r < K - 1) /\
    wt_slots w' = wt_slots w /\ wt_ph w' = wt_ph w /\ n <= int_max.
Proof.
  intros H Hn Hd. destruct (reach_ok K n w H) as (HK & _ & HS & En & Hm & HC). specialize (HC Hn).
  assert (Er : map (req N (wt_cf w)) ds = rs).
  { clear -Hd H Hlog. induction Hd as [|d r ds rs (Hf & Hp & He) _ IH]; [reflexivity|].
    cbn [map]. f_equal; [|exact IH]. eapply req32; eassumption. }
  destruct (ask_spec N dbg ds w HC) as (w' & outs & E & El & S1 & S2 & _ & _ & _ & Es & Eo).
  { clear -Hd. induction Hd as [|d r ds rs (Hf & Hp & He) _ IH]; constructor; auto. now apply tlt0. }
  cbv zeta in Es, Eo. rewrite Er, En in *.
  assert (A := proj1 (CFok_inv N (wt_cf w)) HC). destruct A as [_ A]. rewrite En in A.
  assert (B : zlen (cf_scale (wt_cf w)) = K - 1) by apply HS. rewrite B in A.
  exists w', outs. repeat apply conj; auto; try apply A.
  clear -Hd HK. intros r Hr. induction Hd as [|d r' ds rs (_ & _ & He) _ IH]; [destruct Hr|].
  destruct Hr as [<-|Hr]; [|auto]. unfold entryFor in He. lia.
Qed.

Lemma Forall2_repeat {A B} (P : A -> B -> Prop) (l : list A) b :
  Forall (fun a => P a b) l -> Forall2 P l (repeat b (length l)).
Proof. induction 1; cbn; constructor; auto. Qed.

Lemma nth_error_repeat_lt {A} (a : A) n t : (t < n)%nat -> nth_error (repeat a n) t = Some a.
Proof. revert t. induction n; intros [|t] H; cbn; try lia; auto. apply IHn. lia. Qed.

Lemma firstn_repeat_le {A} (a : A) n t : (t <= n)%nat -> firstn t (repeat a n) = repeat a t.
Proof. revert t. induction n; intros [|t] H; cbn; try lia; auto. f_equal. apply IHn. lia. Qed.

(** the state after [t] or more identical requests *)
Lemma settled_out n r s : 1 <= n <= int_max -> cfStep n s r = (0, r, r) ->
  exists g mu gu, outS N n s r = (r, g, mu, gu) /\ B2R g = 1%R /\ B2R gu = 0%R.
Proof.
  intros Hn E. destruct s as [[l p] x]. unfold outS.
  destruct (ofZ32 1 ltac:(lia)) as [_ V1]. destruct (ofZ32 0 ltac:(lia)) as [_ V0].
  destruct ((l =? 0) && (r =? x)) eqn:E1.
  - exists (f32_ofZ 1), (r + 1), (f32_ofZ 0). auto.
  - rewrite E. rewrite fadeT32. rewrite Z.ltb_irrefl.
    destruct (gain32_ok 0 n ltac:(lia) Hn) as (_ & _ & G & _).
    destruct (cogain32_ok 0 n ltac:(lia) Hn) as (_ & _ & G' & _).
    do 3 eexists. split; [reflexivity|]. auto.
Qed.

Lemma fade_settles K n w (ds : list f32) r : reach K n w -> 1 <= n ->
  Forall (fun d => is_finite d = true /\ (0 < B2R d)%R /\ entryFor K (B2R d) r) ds ->
  exists w' outs, ask N dbg w ds = Ok (w', outs) /\ length outs = length ds /\
    (2 * n + 1 <= Z.of_nat (length ds) -> cfState N (wt_cf w') = (0, r, r)) /\
    forall t, 2 * n <= Z.of_nat t -> (t < length ds)%nat ->
      exists g mu gu, nth_error outs t = Some (r, g, mu, gu) /\ B2R g = 1%R /\ B2R gu = 0%R.
Proof.
  intros H Hn Hd.
  destruct (ask32 K n w ds (repeat r (length ds)) H Hn) as (w' & outs & E & El & Es & Eo & HI & Hr & _ & _ & Hm).
  { now apply Forall2_repeat. }
  exists w', outs. split; [assumption|]. split; [assumption|].
  destruct (Nat.eq_dec (length ds) 0) as [E0|NE0].
  { split; intros; lia. }
  assert (Hr' : 0 <= r < K - 1).
  { apply Hr. destruct (length ds); [lia|]. now left. }
  split.
  - intros Hl. rewrite Es. apply (cfRun_settles n (K - 1)); auto.
  - intros t Ht Htl. rewrite (Eo t r) by (now apply nth_error_repeat_lt).
    rewrite firstn_repeat_le by lia.
    destruct (settled_out n r (cfRun n (cfState N (wt_cf w)) (repeat r t)) ltac:(lia)) as (g & mu & gu & Eout & G).
    { assert (A := cfRun_settles n (K - 1) (cfState N (wt_cf w)) r (S t) HI Hn Hr' ltac:(lia)).
      replace (S t) with (t + 1)%nat in A by lia. rewrite repeat_app, cfRun_app in A. exact A. }
    exists g, mu, gu. rewrite Eout. auto.
Qed.

Lemma fade_step_size K n w (ds : list f32) (d : f32) : reach K n w -> 1 <= n ->
  is_finite d = true -> (0 < B2R d <= / 2)%R -> 2 * n <= Z.of_nat (length ds) ->
  (forall r, entryFor K (B2R d) r ->
    Forall (fun d' => is_finite d' = true /\ (0 < B2R d')%R /\ entryFor K (B2R d') r) ds) ->
  exists w1 outs w2 mi g mu gu len,
    ask N dbg w ds = Ok (w1, outs) /\ wt_findMipMapIndices N dbg w1 d = Ok (w2, (mi, g, mu, gu)) /\
    B2R g = 1%R /\ B2R gu = 0%R /\
    entryFor K (B2R d) mi /\ wt_waveformLen N w2 mi = Ok len /\
    (B2R d * IZR len <= 2)%R /\ (1 <= mi -> (1 <= B2R d * IZR len)%R).
Proof.
  intros H Hn Hf Hd Hl Hds.
  assert (He : exists r, entryFor K (B2R d) r).
  { destruct (reach_ok K n w H) as (HK & _ & HS & _).
    eexists. exact (req_entry N (B32_Laws lm Hlog) K (wt_cf w) d ltac:(lia) HS Hf). }
  destruct He as (r & He). specialize (Hds r He).
  destruct (ask32 K n w (ds ++ [d]) (repeat r (length ds) ++ [r]) H Hn) as
    (w2 & outs2 & E2 & El2 & Es2 & Eo2 & HI & Hr & Hs1 & Hs2 & Hm).
  { apply Forall2_app; [now apply Forall2_repeat|]. constructor; [|constructor]. split; [assumption|]. split; [lra|assumption]. }
  destruct (reach_ok K n w H) as (HK & (nw & HW) & HS & _).
  assert (Ea : exists w1 outs m, ask N dbg w ds = Ok (w1, outs) /\ wt_findMipMapIndices N dbg w1 d = Ok (w2, m) /\ outs2 = outs ++ [m]).
  { clear -E2. revert w w2 outs2 E2. induction ds as [|a ds IH]; intros w w2 outs2 E2; cbn [ask app] in *.
    - apply bind_ok in E2. destruct E2 as ([w1 m] & E & E2). inversion E2; subst.
      exists w, [], m. auto.
    - apply bind_ok in E2. destruct E2 as ([w1 m] & E & E2). apply bind_ok in E2.
      destruct E2 as ([w3 ms] & E3 & E4). inversion E4; subst.
      destruct (IH _ _ _ E3) as (w4 & outs & m' & A & B & C). exists w4, (m :: outs), m'.
      rewrite E. cbn [bind]. rewrite A. cbn [bind]. subst ms. auto. }
  destruct Ea as (w1 & outs & m & A1 & A2 & A3).
  assert (Hr' : 0 <= r < K - 1) by (apply Hr; apply in_or_app; right; now left).
  assert (Elen : length outs = length ds) by (subst outs2; rewrite !app_length in El2; cbn in El2; lia).
  assert (Em : nth_error outs2 (length ds) = Some m).
  { subst outs2. rewrite <- Elen. rewrite nth_error_app2 by lia. now rewrite Nat.sub_diag. }
  rewrite (Eo2 (length ds) r) in Em.
  2:{ rewrite nth_error_app2 by (rewrite repeat_length; lia). rewrite repeat_length, Nat.sub_diag. reflexivity. }
  rewrite firstn_app, repeat_length, Nat.sub_diag, firstn_O, app_nil_r in Em.
  rewrite firstn_repeat_le in Em by lia.
  destruct (settled_out n r (cfRun n (cfState N (wt_cf w)) (repeat r (length ds))) ltac:(lia)) as (g & mu & gu & Eout & G1 & G2).
  { assert (A := cfRun_settles n (K - 1) (cfState N (wt_cf w)) r (S (length ds)) HI Hn Hr' ltac:(lia)).
    replace (S (length ds)) with (length ds + 1)%nat in A by lia. rewrite repeat_app, cfRun_app in A. exact A. }
  rewrite Eout in Em. inversion Em; subst m.
  assert (Wl : wt_waveformLen N w2 r = Ok (2 ^ (K - r))).
  { assert (W0 := wt_len_ok N K nw w r HW Hr'). unfold wt_waveformLen, wt_m, wt_slot in *.
    now rewrite Hs1. }
  exists w1, outs, w2, r, g, mu, gu, (2 ^ (K - r)).
  split; [assumption|]. split; [assumption|]. split; [assumption|]. split; [assumption|].
  split; [assumption|]. split; [assumption|].
  destruct He as (He1 & He2 & He3).
  assert (P1 := IZR_pow2_pos (K - r) ltac:(lia)). assert (P2 := IZR_pow2_pos K ltac:(lia)).
  split.
  - destruct He2 as [->|He2].
    + replace (K - (K - 2)) with 2 by lia. change (IZR (2 ^ 2)) with 4%R. lra.
    + apply Rle_trans with (IZR (2 ^ (r + 1)) / IZR (2 ^ K) * IZR (2 ^ (K - r)))%R.
      { apply Rmult_le_compat_r; lra. }
      right. rewrite !IZR_bpow by lia. unfold Rdiv. rewrite <- bpow_opp, <- !bpow_plus.
      replace (r + 1 + - K + (K - r)) with 1 by lia. reflexivity.
  - intros Hr1. destruct He3 as [He3|He3]; [lia|].
    apply Rle_trans with (IZR (2 ^ r) / IZR (2 ^ K) * IZR (2 ^ (K - r)))%R.
    { right. rewrite !IZR_bpow by lia. unfold Rdiv. rewrite <- bpow_opp, <- !bpow_plus.
      replace (r + - K + (K - r)) with 0 by lia. reflexivity. }
    apply Rmult_le_compat_r; lra.
Qed.

(** linear ramp *)
Lemma fade_ramp K n w (ds0 : list f32) (d : f32) (ds : list f32) p r :
  reach K n w -> 1 <= n <= 2 ^ 24 -> Z.abs (r - p) = 1 ->
  2 * n + 1 <= Z.of_nat (length ds0) ->
  Forall (fun d => is_finite d = true /\ (0 < B2R d)%R /\ entryFor K (B2R d) p) ds0 ->
  is_finite d = true -> (0 < B2R d)%R -> entryFor K (B2R d) r ->
  Forall (fun d => is_finite d = true /\ (0 < B2R d)%R /\ (entryFor K (B2R d) p \/ entryFor K (B2R d) r)) ds ->
  Z.of_nat (length ds) <= n ->
  exists w' outs mi g mu gu,
    ask N dbg w (ds0 ++ d :: ds) = Ok (w', outs ++ [(mi, g, mu, gu)]) /\
    let k := Z.of_nat (length ds) in
    let gold := rnd32 (IZR (n - k) / IZR n) in      (* gain of the old entry p *)
    let gnew := rnd32 (1 - gold) in                 (* gain of the new entry r *)
    if k =? n then mi = r /\ B2R g = 1%R /\ B2R gu = 0%R
    else if p <? r then mi = p /\ mu = r /\ B2R g = gold /\ B2R gu = gnew
    else mi = r /\ mu = p /\ B2R g = gnew /\ B2R gu = gold.
Proof.
  intros H Hn Hpr Hl0 H0 Hf Hd He Hds Hl.
  assert (Hrs : exists rs, length rs = length ds /\ Forall (fun x => x = p \/ x = r) rs /\
    Forall2 (fun (d : f32) r => is_finite d = true /\ (0 < B2R d)%R /\ entryFor K (B2R d) r) ds rs).
  { clear -Hds. induction Hds as [|a ds (A & B & [C|C]) _ (rs & E1 & E2 & E3)].
    - exists []. auto.
    - exists (p :: rs). repeat apply conj; cbn; auto.
    - exists (r :: rs). repeat apply conj; cbn; auto. }
  destruct Hrs as (rs & Erl & Hrs & H2).
  destruct (ask32 K n w (ds0 ++ d :: ds) (repeat p (length ds0) ++ r :: rs) H ltac:(lia)) as
    (w' & outs & E & El & Es & Eo & HI & Hr & _ & _ & Hm).
  { apply Forall2_app; [now apply Forall2_repeat|]. constructor; auto. }
  assert (Hp' : 0 <= p < K - 1).
  { apply Hr. apply in_or_app. left. destruct ds0; [cbn [length] in Hl0; lia|]. now left. }
  assert (Hne : outs <> []) by (intros ->; rewrite app_length in El; cbn in El; lia).
  destruct (exists_last Hne) as (outs0 & m & Em). subst outs.
  destruct m as [[[mi g] mu] gu]. exists w', outs0, mi, g, mu, gu. split; [exact E|].
  assert (Elast : nth_error (outs0 ++ [(mi, g, mu, gu)]) (length ds0 + length ds)%nat = Some (mi, g, mu, gu)).
  { rewrite !app_length in El. cbn [length] in El.
    rewrite nth_error_app2 by lia. replace (_ - _)%nat with 0%nat by lia. reflexivity. }
  set (rl := last (r :: rs) 0).
  assert (Hrl : nth_error (repeat p (length ds0) ++ r :: rs) (length ds0 + length ds)%nat = Some rl).
  { rewrite nth_error_app2 by (rewrite repeat_length; lia). rewrite repeat_length.
    replace (_ + _ - _)%nat with (length rs) by lia. unfold rl. clear.
    revert r. induction rs as [|a rs IH]; intros r; [reflexivity|]. cbn [length nth_error]. rewrite IH. reflexivity. }
  assert (Hst : cfRun n (cfState N (wt_cf w)) (repeat p (length ds0)) = (0, p, p)).
  { apply (cfRun_settles n (K - 1)); auto; lia. }
  assert (Hramp := cfRun_ramp n p r rs ltac:(lia) Hpr Hrs ltac:(lia)).
  set (tl := firstn (length ds) (r :: rs)).
  assert (Hsplit : r :: rs = tl ++ [rl]).
  { unfold tl, rl. rewrite <- Erl. clear. revert r.
    induction rs as [|a rs IH]; intros r; [reflexivity|]. cbn [length firstn app]. f_equal. rewrite (IH a) at 1. reflexivity. }
  apply (eq_trans (eq_sym (Eo _ rl Hrl))) in Elast.
  rewrite firstn_app, repeat_length in Elast.
  replace (length ds0 + length ds - length ds0)%nat with (length ds) in Elast by lia.
  rewrite firstn_all2 in Elast by (rewrite repeat_length; lia).
  rewrite cfRun_app, Hst in Elast. fold tl in Elast.
  assert (Hstep : cfStep n (cfRun n (0, p, p) tl) rl = cfRun n (0, p, p) (r :: rs)).
  { rewrite Hsplit, cfRun_app. reflexivity. }
  rewrite Hramp, Erl in Hstep. cbv zeta.
  assert (Hrlpr : rl = p \/ rl = r).
  { assert (In rl (r :: rs)) as [<-|Hin] by (rewrite Hsplit; apply in_or_app; right; now left); [now right|].
    rewrite Forall_forall in Hrs. auto. }
  (* never idle before the last request, except when it is the first *)
  assert (Hout : outS N n (cfRun n (0, p, p) tl) rl = fadeT N n (cfStep n (cfRun n (0, p, p) tl) rl) ).
  { destruct (cfRun n (0, p, p) tl) as [[l1 p1] x1] eqn:Et. unfold outS.
    destruct ((l1 =? 0) && (rl =? x1)) eqn:Ei; [exfalso|reflexivity].
    apply andb_prop in Ei. destruct Ei as [Ei1 Ei2]. apply Z.eqb_eq in Ei1, Ei2. subst l1 x1.
    unfold tl in Et. destruct ds as [|d1 ds].
    - cbn [length firstn cfRun] in Et. inversion Et; subst. destruct rs; [|cbn in Erl; lia].
      unfold rl in *. cbn in *. lia.
    - cbn [length firstn] in Et.
      assert (Hramp' := cfRun_ramp n p r (firstn (length ds) rs) ltac:(lia) Hpr).
      cbn [length] in *. rewrite firstn_length_le in Hramp' by lia.
      rewrite Et in Hramp'.
      assert (Forall (fun x => x = p \/ x = r) (firstn (length ds) rs)).
      { rewrite Forall_forall in *. intros x Hx. apply Hrs. rewrite <- (firstn_skipn (length ds) rs). apply in_or_app. now left. }
      specialize (Hramp' H1 ltac:(lia)). inversion Hramp'. lia. }
  rewrite Hout, Hstep, fadeT32 in Elast.
  assert (Hn' : 1 <= n <= int_max) by lia.
  set (k := Z.of_nat (length ds)) in *.
  destruct (gain32_ok (n - k) n ltac:(lia) Hn') as (_ & _ & G0 & _ & G).
  destruct (cogain32_ok (n - k) n ltac:(lia) Hn') as (_ & _ & G0' & _ & G' & _).
  specialize (G ltac:(lia)). rewrite G in G'.
  destruct (Z.eqb_spec k n) as [Ek|Nk].
  - rewrite Z.ltb_irrefl in Elast. inversion Elast; subst. repeat split; [apply G0'|apply G0]; lia.
  - destruct (Z.ltb_spec p r); inversion Elast; subst; auto.
Qed.

(** the README rule *)
Lemma fade_rule K n w (ds0 ds : list f32) p rs :
  reach K n w -> 1 <= n ->
  2 * n + 1 <= Z.of_nat (length ds0) ->
  Forall (fun d => is_finite d = true /\ (0 < B2R d)%R /\ entryFor K (B2R d) p) ds0 ->
  Forall2 (fun d r => is_finite d = true /\ (0 < B2R d)%R /\ entryFor K (B2R d) r) ds rs ->
  octaveRule n (p :: rs) ->
  exists w1 outs0 w2 outs,
    ask N dbg w ds0 = Ok (w1, outs0) /\ ask N dbg w1 ds = Ok (w2, outs) /\ length outs = length ds /\
    (* the lower entry moves by at most one per call *)
    (forall t a ga ua gua b gb ub gub,
       nth_error outs t = Some (a, ga, ua, gua) -> nth_error outs (S t) = Some (b, gb, ub, gub) ->
       Z.abs (b - a) <= 1) /\
    (* just before any change of octave the fade is over *)
    (forall t a b, nth_error rs t = Some a -> nth_error rs (S t) = Some b -> a <> b ->
       exists g mu gu, nth_error outs t = Some (a, g, mu, gu) /\ B2R g = 1%R /\ B2R gu = 0%R).
Proof.
  intros H Hn Hl0 H0 H2 Hrule.
  destruct (fade_settles K n w ds0 p H Hn H0) as (w1 & outs0 & E1 & _ & St & _). specialize (St Hl0).
  assert (Hreach1 : reach K n w1).
  { clear -H E1 H0. revert w w1 outs0 H E1 H0. induction ds0 as [|d ds0 IH]; intros w w1 outs0 H E H0; cbn [ask] in E.
    - inversion E; subst; assumption.
    - inversion_clear H0 as [|? ? (Hf & Hd & _) H0']. apply bind_ok in E. destruct E as ([w2 m] & E2 & E).
      apply bind_ok in E. destruct E as ([w3 ms] & E3 & E). inversion E; subst.
      eapply IH; [|exact E3|exact H0']. eapply r_ask; [exact H|exact E2]. }
  destruct (ask32 K n w1 ds rs Hreach1 Hn H2) as (w2 & outs & E2 & El & _ & Eo & HI & Hr & _ & _ & Hm).
  exists w1, outs0, w2, outs. split; [assumption|]. split; [assumption|]. split; [assumption|].
  assert (Hcalm := rule_calm n p rs ltac:(lia) Hrule). rewrite St in Eo.
  assert (Elr : length ds = length rs).
  { clear -H2. induction H2; cbn; congruence. }
  rewrite Elr in El.
  split.
  - intros t a ga ua gua b gb ub gub Ha Hb.
    destruct (nth_error rs t) as [r1|] eqn:R1.
    2:{ apply nth_error_None in R1. assert (t < length outs)%nat by (apply nth_error_Some; congruence). lia. }
    destruct (nth_error rs (S t)) as [r2|] eqn:R2.
    2:{ apply nth_error_None in R2. assert (S t < length outs)%nat by (apply nth_error_Some; congruence). lia. }
    rewrite (Eo _ _ R1) in Ha. rewrite (Eo _ _ R2) in Hb.
    destruct (calm_at n 0 p rs (0, p, p) t r1 ltac:(lia) ltac:(lia) Hcalm ltac:(cbn; repeat split; lia) R1) as (g1 & G1 & C1 & K1).
    assert (K2 := calm_at_0 n 0 p rs (0, p, p) t ltac:(lia) ltac:(lia) Hcalm ltac:(cbn; repeat split; lia)).
    destruct K2 as (g0 & c0 & G0 & C0 & K0).
    rewrite (skipn_nth _ _ _ R1) in C0. rewrite (firstn_nth _ _ _ R1) in K1, Hb. rewrite cfRun_app in K1, Hb. cbn [cfRun] in K1, Hb.
    set (s := cfRun n (0, p, p) (firstn t rs)) in *.
    rewrite (skipn_nth _ _ _ R2) in C1.
    assert (A1 := outS_low N g0 c0 r1 (skipn (S t) rs) n s ltac:(lia) ltac:(lia) K0 C0).
    injection Ha as Ha. rewrite Ha in A1.
    assert (A2 := outS_low N g1 r1 r2 (skipn (S (S t)) rs) n (cfStep n s r1) ltac:(lia) ltac:(lia) K1 C1).
    injection Hb as Hb. rewrite Hb in A2.
    clear - A1 A2.
    destruct (cfStep n s r1) as [[l1 p1] x1]. destruct s as [[l p'] x]. destruct A1 as [A1 _].
    destruct (cfStep n _ r2) as [[l2 p2] x2]. lia.
  - intros t a b Ha Hb Hab.
    destruct (calm_at n 0 p rs (0, p, p) t a ltac:(lia) ltac:(lia) Hcalm ltac:(cbn; repeat split; lia) Ha) as (g1 & G1 & C1 & K1).
    rewrite (skipn_nth _ _ _ Hb) in C1. cbn [calm] in C1. destruct C1 as [(E & _)|(E & -> & _)]; [congruence|].
    rewrite (firstn_nth _ _ _ Ha) in K1. rewrite cfRun_app in K1. cbn [cfRun] in K1.
    rewrite (Eo _ _ Ha). set (s := cfRun n (0, p, p) (firstn t rs)) in *.
    destruct (settled_out n a s ltac:(lia)) as (g & mu & gu & Eout & G2 & G3).
    { destruct (cfStep n s a) as [[l1 p1] x1]. destruct K1 as (-> & -> & K1 & _). rewrite K1 by lia. reflexivity. }
    exists g, mu, gu. rewrite Eout. auto.
Qed.

(** fades of zero or a negative number of samples *)
Notation builtTable := (builtTable lm src dbg).

Lemma built_state K n w i0 : builtTable K n w -> entryFor K (B2R (tfrac N 1 10 : f32)) i0 ->
  cfState N (wt_cf w) = (0, i0, i0) /\ cf_num (wt_cf w) = n /\ 
  forall (d : f32) r, is_finite d = true -> entryFor K (B2R d) r -> req N (wt_cf w) d = r.
Proof.
  intros (wfs & nw & sr & fade & HK & Hnw & Hl & Hm & Hr & Hc & Hb) Hi.
  assert (HR : reach K n w) by (eapply r_build; eassumption).
  destruct (build_reach N (B32_Laws lm Hlog) src dbg (rate32 lm) (scale32 lm Hlog) K nw wfs sr fade n w HK Hnw Hl Hm Hr Hc Hb)
    as (_ & _ & En & _ & _ & L0 & P0).
  destruct (wt_build_some N src dbg (B32_Laws lm Hlog) wfs nw sr fade K w HK Hnw Hl Hm Hb) as (C1 & k' & Ek & Ec).
  destruct (cf_make_pow2 N dbg (B32_Laws lm Hlog) k' K sr ltac:(lia)) as (c & E1 & _ & _ & _ & _ & E6 & _).
  assert (c = wt_cf w) by congruence. subst c.
  assert (Hn : cf_next (wt_cf w) = i0).
  { rewrite E6. change (req N (wt_cf w) (tfrac N 1 10) = i0). apply (req32 K n w); auto; reflexivity. }
  unfold cfState. rewrite L0, P0, Hn. split; [reflexivity|]. split; [assumption|].
  intros d r Hf He. now apply (req32 K n w).
Qed.

(** newIndices on the state alone, positive steps, any fade length *)
Lemma find_raw (w : WT N) (d : f32) : is_finite d = true -> (0 < B2R d)%R ->
  wt_findMipMapIndices N dbg w d =
    let! (c, m) :=
      (if negb (cf_left (wt_cf w) =? 0) then
        let! _ := assert_ dbg (negb (cf_prev (wt_cf w) =? cf_next (wt_cf w))) in
        let c1 := if negb (req N (wt_cf w) d =? cf_next (wt_cf w)) && negb (req N (wt_cf w) d =? cf_prev (wt_cf w))
              then updateIndices N (wt_cf w) (req N (wt_cf w) d) else wt_cf w in
        let! l := chk (cf_left c1 - 1) in
        let c2 := set_left N c1 l in
        let c3 := if l =? 0 then set_prev N c2 (cf_next c2) else c2 in
        Ok (c3, fadeTuple N c3)
      else if req N (wt_cf w) d =? cf_next (wt_cf w) then
        let! _ := assert_ dbg (cf_prev (wt_cf w) =? cf_next (wt_cf w)) in
        Ok (wt_cf w, (req N (wt_cf w) d, t1 N, req N (wt_cf w) d + 1, t0 N))
      else
        let c1 := updateIndices N (set_left N (wt_cf w) (cf_num (wt_cf w))) (req N (wt_cf w) d) in
        Ok (c1, fadeTuple N c1)) in
    Ok (mkWT (wt_slots w) (wt_ph w) c, m).
Proof.
  intros Hf Hd. unfold wt_findMipMapIndices, newIndices, findMipMapIndex.
  rewrite assert_ok by (intros _; now apply tlt0). cbn [bind].
  change (findLoop N d (cf_scale (wt_cf w)) 0) with (req N (wt_cf w) d).
  repeat match goal with |- context [if ?b then _ else _] => destruct b end; reflexivity.
Qed.

Lemma fade_zero K w i0 (d : f32) r : builtTable K 0 w ->
  entryFor K (B2R (tfrac N 1 10 : f32)) i0 ->
  is_finite d = true -> (0 < B2R d)%R -> entryFor K (B2R d) r -> r <> i0 ->
  exists w' mi g mu gu, wt_findMipMapIndices N dbg w d = Ok (w', (mi, g, mu, gu)) /\
    is_nan (g : f32) = true /\ is_nan (gu : f32) = true.
Proof.
  intros HB Hi Hf Hd He Hne. destruct (built_state K 0 w i0 HB Hi) as (Es & En & Hq).
  specialize (Hq d r Hf He). rewrite (find_raw w d Hf Hd), Hq. unfold cfState in Es. injection Es as E1 E2 E3. try rewrite E2 in E3.
  rewrite E1, E3. cbn [Z.eqb negb]. destruct (Z.eqb_spec r i0); [contradiction|].
  unfold fadeTuple, computeFading, updateIndices, set_left. cbn [cf_left cf_num cf_prev cf_next cf_scale bind]. rewrite En.
  assert (G : is_nan (gain32 0 0) = true) by (vm_compute; reflexivity).
  assert (G' : is_nan (cogain32 0 0) = true) by (vm_compute; reflexivity).
  destruct ((if cf_prev (wt_cf w) <? r then r - 1 else r + 1) <? r); do 5 eexists; (split; [reflexivity|auto]).
Qed.

Lemma gain_neg l n : int_min <= l <= n -> n < 0 ->
  is_finite (gain32 l n) = true /\ (1 <= B2R (gain32 l n))%R /\ 
  is_finite (cogain32 l n) = true /\ (B2R (cogain32 l n) <= 0)%R.
Proof.
  intros Hl Hn. unfold int_min in Hl. unfold gain32.
  destruct (ofZ32_rnd l) as [F1 V1]; [lia|]. destruct (ofZ32_rnd n) as [F2 V2]; [lia|].
  assert (P : (rnd32 (IZR n) <= -1)%R).
  { apply rnd32_le; [apply (fmt32_Z (-1)); lia|]. apply (IZR_le n (-1)); lia. }
  assert (S : (rnd32 (IZR l) <= rnd32 (IZR n))%R) by (apply rnd32_mono, IZR_le; lia).
  assert (B : (- IZR (2 ^ 31) <= rnd32 (IZR l))%R).
  { apply rnd32_ge.
    - rewrite <- opp_IZR. replace (IZR (- 2 ^ 31)) with (IZR (-1) * bpow radix2 31)%R by (rewrite bpow_Z by lia; rewrite <- mult_IZR; reflexivity).
      apply fmt32_Ze; lia.
    - rewrite <- opp_IZR. apply IZR_le. lia. }
  assert (D : (1 <= rnd32 (IZR l) / rnd32 (IZR n) <= IZR (2 ^ 31))%R).
  { split.
    - apply Rmult_le_reg_r with (- rnd32 (IZR n))%R; [lra|]. replace (rnd32 (IZR l) / rnd32 (IZR n) * - rnd32 (IZR n))%R with (- rnd32 (IZR l))%R by (field; lra). lra.
    - apply Rmult_le_reg_r with (- rnd32 (IZR n))%R; [lra|]. replace (rnd32 (IZR l) / rnd32 (IZR n) * - rnd32 (IZR n))%R with (- rnd32 (IZR l))%R by (field; lra).
      assert (0 <= IZR (2 ^ 31))%R by (apply IZR_le; lia). nra. }
  destruct (div32 (f32_ofZ l) (f32_ofZ n)) as [A1 B1]; auto.
  { rewrite V2. lra. }
  { rewrite V1, V2. apply small32_of_le with 31; [lia|]. rewrite bpow_Z by lia. rewrite Rabs_pos_eq; lra. }
  rewrite V1, V2 in B1.
  assert (B2 : (1 <= rnd32 (rnd32 (IZR l) / rnd32 (IZR n)) <= IZR (2 ^ 31))%R).
  { split; [apply rnd32_ge; [apply (fmt32_Z 1); lia|lra]|].
    apply rnd32_le; [|lra]. rewrite <- bpow_Z by lia. apply fmt32_bpow. lia. }
  split; [exact A1|]. split; [rewrite B1; lra|].
  destruct (ofZ32 1 ltac:(lia)) as [F V]. 
  destruct (sub32 (f32_ofZ 1) (fdiv (f32_ofZ l) (f32_ofZ n))) as (A3 & B3 & _); auto.
  { rewrite V, B1. apply small32_of_le with 31; [lia|]. rewrite bpow_Z by lia. rewrite Rabs_minus_sym, Rabs_pos_eq; lra. }
  unfold cogain32, gain32. split; [exact A3|]. rewrite B3, V, B1.
  apply rnd32_le; [apply (fmt32_Z 0); lia|]. lra.
Qed.

Lemma fade_negative K n w i0 (d : f32) r (t : nat) : builtTable K n w -> n < 0 ->
  entryFor K (B2R (tfrac N 1 10 : f32)) i0 ->
  is_finite d = true -> (0 < B2R d)%R -> entryFor K (B2R d) r -> r <> i0 ->
  int_min <= n - Z.of_nat t ->
  exists w' outs mi g mu gu, ask N dbg w (repeat d t ++ [d]) = Ok (w', outs ++ [(mi, g, mu, gu)]) /\
    ((mi = r /\ mu = r + 1 /\ (B2R (g : f32) <= 0)%R /\ (1 <= B2R (gu : f32))%R) \/
     (mu = r /\ mi = r - 1 /\ (B2R (gu : f32) <= 0)%R /\ (1 <= B2R (g : f32))%R)).
Proof.
  intros HB Hn Hi Hf Hd He Hne Ht. destruct (built_state K n w i0 HB Hi) as (Es & En & Hq).
  specialize (Hq d r Hf He). unfold cfState in Es. injection Es as E1 E2 E3. try rewrite E2 in E3.
  set (p := if i0 <? r then r - 1 else r + 1).
  (* the tuple at counter [l] *)
  assert (Hout : forall l, int_min <= l <= n -> exists mi g mu gu, fadeT N n (l, p, r) = (mi, g, mu, gu) /\ 
    ((mi = r /\ mu = r + 1 /\ (B2R (g : f32) <= 0)%R /\ (1 <= B2R (gu : f32))%R) \/
     (mu = r /\ mi = r - 1 /\ (B2R (gu : f32) <= 0)%R /\ (1 <= B2R (g : f32))%R))).
  { intros l Hl. destruct (gain_neg l n Hl Hn) as (_ & G1 & _ & G2). rewrite fadeT32.
    unfold p. destruct (Z.ltb_spec i0 r).
    - destruct (Z.ltb_spec (r - 1) r); [|lia]. do 4 eexists. split; [reflexivity|]. right. repeat split; auto.
    - destruct (Z.ltb_spec (r + 1) r); [lia|]. do 4 eexists. split; [reflexivity|]. left. repeat split; auto. }
  (* first request *)
  assert (First : exists w1, wt_findMipMapIndices N dbg w d = Ok (w1, fadeT N n (n, p, r)) /\
     cfState N (wt_cf w1) = (n, p, r) /\ cf_num (wt_cf w1) = n /\ cf_scale (wt_cf w1) = cf_scale (wt_cf w)).
  { rewrite (find_raw w d Hf Hd), Hq. rewrite E1, E3. cbn [Z.eqb negb].
    destruct (Z.eqb_spec r i0); [contradiction|]. cbn [bind].
    eexists. split; [unfold fadeTuple, fadeT, computeFading, updateIndices, set_left; cbn [cf_left cf_num cf_prev cf_next cf_scale];
      rewrite En, E2; fold p; reflexivity|].
    unfold cfState, updateIndices, set_left. cbn [wt_cf cf_left cf_num cf_prev cf_next cf_scale]. rewrite ?En, ?E2. auto. }
  destruct First as (w1 & F1 & S1 & N1 & C1).
  (* later ones *)
  assert (Later : forall t w1 l, cfState N (wt_cf w1) = (l, p, r) -> cf_num (wt_cf w1) = n -> cf_scale (wt_cf w1) = cf_scale (wt_cf w) ->
     l <= n -> int_min <= l - Z.of_nat (S t) -> exists w' outs, ask N dbg w1 (repeat d (S t)) = Ok (w', outs ++ [fadeT N n (l - Z.of_nat (S t), p, r)])).
  { clear -Hq Hf Hd Hn. intros t. 
    assert (Step : forall w1 l, cfState N (wt_cf w1) = (l, p, r) -> cf_num (wt_cf w1) = n -> cf_scale (wt_cf w1) = cf_scale (wt_cf w) ->
      l <= n -> int_min <= l - 1 -> exists w2, wt_findMipMapIndices N dbg w1 d = Ok (w2, fadeT N n (l - 1, p, r)) /\ 
       cfState N (wt_cf w2) = (l - 1, p, r) /\ cf_num (wt_cf w2) = n /\ cf_scale (wt_cf w2) = cf_scale (wt_cf w)).
    { intros w1 l Hs Hnum Hsc Hl Hlo. unfold cfState in Hs. injection Hs as E1 E2 E3.
      assert (Hq1 : req N (wt_cf w1) d = r) by (unfold req in *; now rewrite Hsc).
      rewrite (find_raw w1 d Hf Hd), Hq1, E1, E2, E3. 
      destruct (Z.eqb_spec l 0); [lia|]. cbn [negb]. rewrite assert_ok.
      2:{ intros _. unfold p. apply negb_true_iff, Z.eqb_neq. destruct (i0 <? r); lia. }
      cbn [bind]. rewrite Z.eqb_refl. cbn [negb andb]. rewrite E1.
      unfold chk. replace (in_int (l - 1)) with true.
      2:{ symmetry. unfold in_int. apply andb_true_intro. split; apply Z.leb_le; [assumption|]. unfold int_max. lia. }
      cbn [bind]. destruct (Z.eqb_spec (l - 1) 0); [lia|]. cbn [bind].
      eexists. split; [unfold fadeTuple, fadeT, computeFading, set_left; cbn [cf_left cf_num cf_prev cf_next cf_scale];
         rewrite Hnum, E2, E3; reflexivity|].
      unfold cfState, set_left. cbn [wt_cf cf_left cf_num cf_prev cf_next cf_scale]. rewrite ?E2, ?E3. auto. }
    induction t as [|t IH]; intros w1 l Hs Hnum Hsc Hl Hlo.
    - destruct (Step w1 l Hs Hnum Hsc Hl ltac:(lia)) as (w2 & F & _). exists w2, []. cbn [ask repeat]. rewrite F. cbn [bind]. reflexivity.
    - destruct (Step w1 l Hs Hnum Hsc Hl ltac:(lia)) as (w2 & F & S2 & N2 & C2).
      destruct (IH w2 (l - 1) S2 N2 C2 ltac:(lia) ltac:(lia)) as (w3 & outs & E).
      exists w3, (fadeT N n (l - 1, p, r) :: outs).
      change (repeat d (S (S t))) with (d :: repeat d (S t)). cbn [ask]. rewrite F. cbn [bind].
      cbn [ask] in E. rewrite E. cbn [bind]. 
      replace (l - 1 - Z.of_nat (S t)) with (l - Z.of_nat (S (S t))) by lia. reflexivity. }
  replace (repeat d t ++ [d]) with (d :: repeat d t) by (change [d] with (repeat d 1); rewrite <- repeat_app; replace (t + 1)%nat with (S t) by lia; reflexivity).
  cbn [ask]. rewrite F1. cbn [bind].
  destruct t as [|t].
  - cbn [repeat ask bind]. destruct (Hout n ltac:(lia)) as (mi & g & mu & gu & E & H).
    rewrite E. exists w1, [], mi, g, mu, gu. split; [reflexivity|exact H].
  - destruct (Later t w1 n S1 N1 C1 ltac:(lia) Ht) as (w2 & outs & E).
    destruct (Hout (n - Z.of_nat (S t)) ltac:(lia)) as (mi & g & mu & gu & Eo & H). rewrite Eo in E.
    exists w2, (fadeT N n (n, p, r) :: outs), mi, g, mu, gu. split; [rewrite E; reflexivity|exact H].
Qed.

(** updateSamplerate leaves a freshly built table *)
Lemma resample_is_build K n w (sr fade : f32) n' w' : reach K n w -> rate32 lm sr ->
  tcast N (tmul N fade sr) = Ok n' -> wt_updateSamplerate N src dbg w sr fade = Ok w' ->
  builtTable K n' w'.
Proof.
  intros H Hr Hc Hu. destruct (reach_ok K n w H) as (HK & (nw & HW) & _).
  unfold wt_updateSamplerate in Hu.
  destruct (rebuild_ok N dbg K nw w HW) as (og & Eo & Ho & _). rewrite Eo in Hu. cbn [bind] in Hu.
  unfold wt_numWaveforms in Hu. rewrite (wo_slots _ _ _ _ HW) in Hu.
  apply bind_ok in Hu. destruct Hu as ([w1|] & Eb & Hu); [|discriminate]. inversion Hu; subst w1.
  destruct (wo_nw _ _ _ _ HW) as [Hnw Hm].
  exists og, nw, sr, fade. repeat split; auto; try lia; try apply Hr.
Qed.

(** what the first call on a built table returns *)
Lemma built_first K n w i0 (d : f32) : builtTable K n w ->
  entryFor K (B2R (tfrac N 1 10 : f32)) i0 -> inOctave K i0 d ->
  exists w', wt_findMipMapIndices N dbg w d = Ok (w', (i0, t1 N, i0 + 1, t0 N)) /\
    wt_numMipMapTables N w = K - 1.
Proof.
  intros HB Hi (Hf & Hd & He). destruct (built_state K n w i0 HB Hi) as (Es & En & Hq).
  specialize (Hq d i0 Hf He). unfold cfState in Es. injection Es as E1 E2 E3.
  rewrite (find_raw w d Hf Hd), Hq, E1, E2, E3. cbn [Z.eqb negb]. rewrite Z.eqb_refl.
  rewrite assert_ok by reflexivity. cbn [bind].
  eexists. split; [reflexivity|].
  destruct HB as (wfs & nw & sr & fade & HK & Hnw & Hl & Hm & Hr & Hc & Hb).
  assert (HR : reach K n w) by (eapply r_build; eassumption).
  destruct (reach_ok K n w HR) as (_ & _ & [HS _] & _). exact HS.
Qed.
End C09_16.
