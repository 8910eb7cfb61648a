(** * Prop_Alias: property C59 -- what folds back is what the filter lets through *)
From Coq Require Import ZArith List Bool Reals Lia Lra Arith.
From Flocq Require Import Core IEEE754.BinarySingleNaN.
From Verif Require Import Num Maths CrossFader Wavetable Filters Osc Spec SpecC SpecT NumFacts Laws CFFacts
  WTFacts BuildFacts SimdFacts OscFacts OscStep OscRun OscHist CFHist PTables PHist RNum RLaws B32 B32Facts B32Laws SpecF SpecO SpecW PCross PWork SpecJ Demo.
From Coquelicot Require Import Coquelicot.
From Verif Require Import SpecE SpecX SpecV SpecG SpecH SpecR SpecB ExactMath ExactSig ExactLaws ExactRun ExactHist ExactCover PExact ConvFacts PGain PHarm
  PApx PTerm PPole PSum PTrack PTrackS PTrackH PCover32 PHarm32 Prop_Gain Prop_Harm Prop_Close Prop_Harm32.
Import ListNotations.
Local Open Scope R_scope.

Lemma butterworth_drops n c nu : 0 < c -> c <= Rabs nu ->
  butterworth n (45 / 100) nu <= butterworth n (45 / 100) c.
Proof.
  intros Hc Hn. unfold butterworth. 
  assert (A : (c / (45 / 100)) ^ (2 * n) <= (nu / (45 / 100)) ^ (2 * n)).
  { rewrite !pow_mult. apply pow_incr. split; [apply pow2_ge_0|].
    replace ((nu / (45 / 100)) ^ 2) with ((Rabs nu / (45 / 100)) ^ 2).
    - apply pow_incr. lra.
    - unfold Rdiv. rewrite !Rpow_mult_distr. rewrite RPow_abs, (Rabs_pos_eq (nu ^ 2)) by apply pow2_ge_0. reflexivity. }
  assert (B : 0 <= (c / (45 / 100)) ^ (2 * n)) by (apply pow_le; lra).
  apply Rinv_le_contravar; lra.
Qed.

Lemma bw_stop f n nu c : bwOrder f = Some n -> 0 < c -> c <= Rabs nu ->
  gainAt (filt RNum f) nu <= sqrt (butterworth n (45 / 100) c + / 10000000).
Proof.
  intros Hf Hc Hn. assert (A := C45_butterworth f n nu Hf). assert (B := butterworth_drops n c nu Hc Hn).
  apply Rabs_le_between in A.
  assert (P : 0 <= gainAt (filt RNum f) nu) by apply Cmod_ge_0.
  rewrite <- (sqrt_pow2 (gainAt (filt RNum f) nu) P). apply sqrt_le_1_alt. lra.
Qed.

(** ** C59.  The design of each filter bounds its gain from any frequency [c] up (types 2 and 5
    from 0.61). *)
Theorem C59_stops : forall f c G nu, stops f c G -> c <= Rabs nu -> 0 <= G /\ gainAt (filt RNum f) nu <= G.
Proof.
  intros f c G nu Hs Hn.
  destruct f; destruct Hs as [Hc ->]; split; try apply sqrt_pos; try lra.
  - now apply (bw_stop kType1 2%nat).
  - destruct (C46_stopband kType2 _ nu eq_refl ltac:(lra)) as [_ H]. exact H.
  - now apply (bw_stop kType3 4%nat).
  - now apply (bw_stop kType4 6%nat).
  - destruct (C46_stopband kType5 _ nu eq_refl ltac:(lra)) as [_ H]. exact H.
Qed.
Print Assumptions C59_stops.

(** Played at a constant step, after a while, the harmonics at or above [c] cycles per sample add
    at most [G] of their amplitudes to what is heard: exact arithmetic, then single precision. *)
Theorem C59_aliasing : forall src cfg f c G ops st ys0 dir d r hs eps delta, stops f c G ->
  (1 <= batch cfg)%nat ->
  plays src (dbg cfg) (filt RNum f) None ops (Some st) ys0 -> d <> 0 -> entryFor (id_K st) (Rabs d) r ->
  (forall x, Rabs (wave (entry src st r) x - harmonics hs x) <= eps) -> 0 < delta ->
  exists M, forall ps st' ys,
    plays src (dbg cfg) (filt RNum f) (Some st) [OpProcess RNum dir ps] st' ys -> steady dir (id_phase st) d ps ->
    outputs RNum (Osc.run RNum src cfg (filt RNum f) (osc_new RNum (filt RNum f)) (ops ++ [OpProcess RNum dir ps])) = Ok (ys0 ++ ys) /\
    forall n y, (M <= n)%nat -> nth_error ys n = Some y ->
      Rabs (y - heard (filt RNum f) (below c d hs) d (id_phase st) (S n)) <=
        eps * gainBound (filt RNum f) + G * loudness (above c d hs) + delta.
Proof.
  intros src cfg f c G ops st ys0 dir d r hs eps delta Hs HB H0 Hd Hr Hw Hdel.
  destruct (C49_harmonics src cfg (filt RNum f) ops st ys0 dir d r hs eps delta HB (shipped_exact f) (shipped_stable f) H0 Hd Hr Hw Hdel) as [M HM].
  exists M. intros ps st' ys Hp Hst. destruct (HM ps st' ys Hp Hst) as [Ho Hy]. split; [exact Ho|].
  intros n y Hn Ey. specialize (Hy n y Hn Ey).
  assert (S := heard_split (filt RNum f) c G d (id_phase st) (S n) hs
     (proj1 (C59_stops f c G c Hs (Rle_abs c))) (fun nu H => proj2 (C59_stops f c G nu Hs H))).
  set (a := heard _ hs _ _ _) in *. set (b := heard _ (below _ _ _) _ _ _) in *.
  apply Rabs_le_between in Hy. apply Rabs_le_between in S. apply Rabs_le_between. lra.
Qed.
Print Assumptions C59_aliasing.

Theorem C59_aliasing32 : forall lm src cfg f e c G ops st Ys0 dir d eta r hs eps delta, stops f c G ->
  accurateExp lm -> log2_exact lm -> (1 <= batch cfg)%nat -> (-64 <= e <= 64)%Z ->
  plays32 lm src (Osc.dbg cfg) f e None ops (Some st) Ys0 ->
  0 <= eta -> Rabs d + 2 * eta < / 2 ->
  (forall x, Rabs (curve lm src st r x - harmonics hs x) <= eps) -> 0 < delta ->
  exists M, forall ps st' Ys,
    plays32 lm src (Osc.dbg cfg) f e (Some st) [OpProcess (B32 lm) dir ps] st' Ys ->
    paced (B2R (i_phase lm st)) d eta ps ->
    List.Forall (stepIn (i_K lm st) r) (steps32 lm dir (i_phase lm st) ps) ->
    exists o ys0 ys, Osc.run (B32 lm) src cfg (filt (B32 lm) f) (osc_new (B32 lm) (filt (B32 lm) f))
        (ops ++ [OpProcess (B32 lm) dir ps]) = Ok (o, ys0 ++ ys) /\
      length ys0 = length Ys0 /\ length ys = length ps /\
      forall n y, (M <= n)%nat -> nth_error ys n = Some y ->
        finite y /\
        Rabs (B2R y - heard (filt RNum f) (below c d hs) d (B2R (i_phase lm st)) (S n)) <=
          (eps + bpow radix2 e * eta) * gainBound (filt RNum f) + accuracy f * (bpow radix2 e / IZR (2 ^ 24)) +
          G * loudness (above c d hs) + delta.
Proof.
  intros lm src cfg f e c G ops st Ys0 dir d eta r hs eps delta Hs Hex Hlog HB He H0 Heta Hd Hw Hdel.
  destruct (C55_harmonics32 lm src cfg f e ops st Ys0 dir d eta r hs eps delta Hex Hlog HB He H0 Heta Hd Hw Hdel) as [M HM].
  exists M. intros ps st' Ys Hp Hpc Hin. destruct (HM ps st' Ys Hp Hpc Hin) as (o & ys0 & ys & Er & L0 & L1 & Hy).
  exists o, ys0, ys. split; [exact Er|]. split; [exact L0|]. split; [exact L1|].
  intros n y Hn Ey. destruct (Hy n y Hn Ey) as [Fy Dy]. split; [exact Fy|].
  assert (S := heard_split (filt RNum f) c G d (B2R (i_phase lm st)) (S n) hs
     (proj1 (C59_stops f c G c Hs (Rle_abs c))) (fun nu H => proj2 (C59_stops f c G nu Hs H))).
  set (a := heard _ hs _ _ _) in *. set (b := heard _ (below _ _ _) _ _ _) in *.
  set (yy := B2R y) in *. apply Rabs_le_between in Dy. apply Rabs_le_between in S. apply Rabs_le_between. lra.
Qed.
Print Assumptions C59_aliasing32.

(** What comes back: the samples of a harmonic are those of a tone [k] cycles per sample lower. *)
Theorem C59_folds : forall F k hs d q n, folded F k hs d q n = heard F hs d q n.
Proof.
  intros F k hs d q n. unfold folded, heard. f_equal. apply map_ext. intros h. f_equal. f_equal. f_equal.
  unfold turn.
  replace (2 * PI * number h * (q + d * INR n) + offset h) with
    (2 * PI * (number h * q + (number h * d - IZR k) * INR n) + offset h + 2 * IZR (k * Z.of_nat n) * PI).
  - f_equal.
    + symmetry. apply cos_period_Z.
    + symmetry. set (x := _ + offset h).
      assert (S : forall x k, sin (x + 2 * IZR k * PI) = sin x).
      { clear. intros x k. replace (sin (x + 2 * IZR k * PI)) with (cos (PI / 2 - x + 2 * IZR (- k) * PI)).
        - rewrite cos_period_Z. apply cos_shift.
        - rewrite <- cos_shift. f_equal. rewrite opp_IZR. ring. }
      apply S.
  - rewrite mult_IZR, <- INR_IZR_INZ. ring.
Qed.

(** In the octave of entry [r], which has [2^(K-r)] samples, a harmonic the entry can represent (at
    most half as many periods) is below one cycle per sample: what is heard of those at or above
    [c] is below [G] of their amplitude, those from one half to [c] come back above [1 - c], and
    nothing else comes back at all. *)
Theorem C59_octave : forall K d r k, entryFor K (Rabs d) r -> (r < K - 2)%Z ->
  (2 * Z.abs k <= 2 ^ (K - r))%Z -> Rabs (IZR k * d) < 1.
Proof.
  intros K d r k (Hr & Hu & _) Hl Hk.
  destruct Hu as [E|Hu]; [lia|].
  assert (P : 0 < IZR (2 ^ K)) by (apply IZR_lt, Z.pow_pos_nonneg; lia).
  assert (Q : 0 < IZR (2 ^ r)) by (apply IZR_lt, Z.pow_pos_nonneg; lia).
  assert (EK : IZR (2 ^ K) = IZR (2 ^ r) * IZR (2 ^ (K - r))).
  { rewrite <- mult_IZR, <- Z.pow_add_r by lia. f_equal. f_equal. lia. }
  assert (E1 : IZR (2 ^ (r + 1)) = 2 * IZR (2 ^ r)).
  { rewrite Z.add_1_r, Z.pow_succ_r by lia. now rewrite mult_IZR. }
  rewrite Rabs_mult, <- abs_IZR.
  assert (Kb : 2 * IZR (Z.abs k) <= IZR (2 ^ (K - r))).
  { apply IZR_le in Hk. rewrite mult_IZR in Hk. exact Hk. }
  rewrite E1 in Hu.
  assert (W : 0 < IZR (2 ^ (K - r))) by (apply IZR_lt, Z.pow_pos_nonneg; lia).
  destruct (Z.eq_dec (Z.abs k) 0) as [E|E].
  { rewrite E. rewrite Rmult_0_l. lra. }
  assert (Kp : 0 < IZR (Z.abs k)) by (apply IZR_lt; lia).
  apply Rlt_le_trans with (IZR (Z.abs k) * (2 * IZR (2 ^ r) / IZR (2 ^ K))).
  - now apply Rmult_lt_compat_l.
  - apply Rle_trans with ((IZR (2 ^ (K - r)) / 2) * (2 * IZR (2 ^ r) / IZR (2 ^ K))).
    + apply Rmult_le_compat_r; [|lra]. apply Rmult_le_pos; [lra|]. left. now apply Rinv_0_lt_compat.
    + right. rewrite EK. field. lra.
Qed.
Print Assumptions C59_octave.

(** ** The hypotheses are met, for blocks as long as one likes: eight samples of harmonics 1 and 3
    played 3/16 of a period per sample through type 4; harmonic 3, at 9/16, is above one half and
    at most 47% of it come back, at 7/16. *)
Definition twoTones : list Harmonic := [(1%Z, 1, 0); (3%Z, 1 / 2, 0)].
Definition waveT : list R := List.map (fun i => harmonics twoTones (IZR (Z.of_nat i) / IZR 8)) (seq 0 8).
Definition threes (m : nat) : list R := List.map (fun i => IZR ((3 * Z.of_nat (S i)) mod 16) / 16) (seq 0 m).
Lemma threes_steady m : steady kForward (0 / 16) (3 / 16) (threes m).
Proof.
  unfold steady, threes. assert (G : forall i, List.Forall (fun s => s = 3 / 16)
     (stepsOf kForward (IZR ((3 * Z.of_nat i) mod 16) / 16) (List.map (fun i => IZR ((3 * Z.of_nat (S i)) mod 16) / 16) (seq i m)))).
  { induction m as [|m IH]; intros i; cbn [seq List.map stepsOf]; [constructor|]. apply List.Forall_cons; [|apply IH].
    unfold stepBetween, t0, t1. cbn [tsub tadd tlt tofZ RNum].
    assert (B := Z.mod_pos_bound (3 * Z.of_nat i) 16 ltac:(lia)).
    assert (D := Z.div_mod (3 * Z.of_nat i) 16 ltac:(lia)). set (a := ((3 * Z.of_nat i) mod 16)%Z) in *.
    assert (13 <= a \/ a < 13)%Z as [E|E] by lia.
    - assert (E2 : ((3 * Z.of_nat (S i)) mod 16 = a - 13)%Z).
      { symmetry. apply (Z.mod_unique _ _ (3 * Z.of_nat i / 16 + 1)); lia. }
      rewrite E2, minus_IZR. rewrite Rlt_bool_true by lra. lra.
    - assert (E2 : ((3 * Z.of_nat (S i)) mod 16 = a + 3)%Z).
      { symmetry. apply (Z.mod_unique _ _ (3 * Z.of_nat i / 16)); lia. }
      rewrite E2, plus_IZR. rewrite Rlt_bool_false by lra. lra. }
  exact (G 0%nat).
Qed.
Example C59_case : forall dbg, exists w st0 G eps,
  stops kType4 (1 / 2) G /\ G <= 47 / 100 /\ above (1 / 2) (3 / 16) twoTones = [(3%Z, 1 / 2, 0)] /\
  wt_build RNum (demo_src RNum) dbg waveT 1 1 1 = Ok (Some w) /\
  plays (demo_src RNum) dbg (filt RNum kType4) None [OpInit RNum (Some w) (0 / 16) (3 / 16)] (Some st0) [] /\
  id_phase st0 = 0 / 16 /\ entryFor (id_K st0) (Rabs (3 / 16)) 0 /\
  (forall x, Rabs (wave (entry (demo_src RNum) st0 0) x - harmonics twoTones x) <= eps) /\
  forall m, exists ps st' ys, steady kForward (id_phase st0) (3 / 16) ps /\ length ys = m /\
    plays (demo_src RNum) dbg (filt RNum kType4) (Some st0) [OpProcess RNum kForward ps] st' ys.
Proof.
  intros dbg. destruct (Prop_Move.built8 dbg waveT eq_refl) as (HW & w & Ew).
  assert (E0 : entryFor 3 (3 / 16) 0) by (split; [lia|]; split; [right; cbn; lra|left; reflexivity]).
  assert (Sh : forall i, (0 <= i < 16)%Z -> sharp (IZR i / 16)) by (intros i Hi; apply (sharp_dyadic 4 i); lia).
  destruct (built_fresh (demo_src RNum) dbg (filt RNum kType4) waveT 1 3 w 1 1 1 (0 / 16) (3 / 16) 0 HW)
    as (HT & w' & m & g0 & Fr & HT' & En & Hn1 & Hg & Hcs & Hm); auto; try lra; try exact Prop_Move.fade1; try exact demo_cast.
  { apply (Sh 0%Z). lia. }
  set (st0 := mkIdeal 3 1 waveT w' 0 (0 / 16) (3 / 16) m (repeat (RtoC 0) (length (f_r (filt RNum kType4))))) in *.
  assert (P0 : plays (demo_src RNum) dbg (filt RNum kType4) None [OpInit RNum (Some w) (0 / 16) (3 / 16)] (Some st0) []).
  { eapply pl_load; [left; reflexivity|exact HW|exact HT|exact Fr|constructor]. }
  exists w, st0, (sqrt (butterworth 6 (45 / 100) (1 / 2) + / 10000000)), (bend twoTones 8).
  split; [split; [lra|reflexivity]|]. split.
  { rewrite <- (sqrt_pow2 (47 / 100)) by lra. apply sqrt_le_1_alt. unfold butterworth. cbn [Nat.mul Nat.add].
    replace ((1 / 2 / (45 / 100)) ^ 12) with (10 ^ 12 / 9 ^ 12) by field. lra. }
  split.
  { unfold above, twoTones, number. cbn [filter fst snd].
    destruct (Rlt_dec (Rabs (1 * (3 / 16))) (1 / 2)) as [H|H]; [|rewrite Rabs_pos_eq in H; lra].
    destruct (Rlt_dec (Rabs (3 * (3 / 16))) (1 / 2)) as [H'|H']; [rewrite Rabs_pos_eq in H'; lra|]. reflexivity. }
  split; [exact Ew|]. split; [exact P0|]. split; [reflexivity|]. split.
  { rewrite Rabs_pos_eq by lra. exact E0. }
  split.
  { assert (E : entry (demo_src RNum) st0 0 = waveT) by reflexivity. rewrite E.
    change 8%Z with (zlen waveT) at 1. apply C49_samples; [reflexivity|].
    change (zlen waveT) with 8%Z. intros i Hi. unfold elem, waveT.
    rewrite (nth_indep _ 0 ((fun i => harmonics twoTones (IZR (Z.of_nat i) / IZR 8)) 0%nat)) by (rewrite map_length, seq_length; lia).
    rewrite (map_nth (fun i => harmonics twoTones (IZR (Z.of_nat i) / IZR 8)) (seq 0 8) 0%nat). rewrite seq_nth by lia.
    f_equal. f_equal. f_equal. lia. }
  intros k.
  assert (Ss : List.Forall (fun s => s = 3 / 16) (stepsOf kForward (0 / 16) (threes k))) by apply threes_steady.
  destruct (calm_forward (demo_src RNum) dbg (filt RNum kType4) 1 (threes k) st0 g0 0 (repeat 0%Z k)) as (st' & ys & B); auto.
  - lia.
  - clear. revert g0. induction k as [|k IH]; intros g; cbn [repeat calm]; [exact I|]. left. split; [reflexivity|apply IH].
  - cbn. lra.
  - apply List.Forall_forall. intros p Hp. unfold threes in Hp. apply in_map_iff in Hp. destruct Hp as (i & <- & _).
    apply Sh. apply Z.mod_pos_bound. lia.
  - eapply List.Forall_impl; [|exact Ss]. intros s ->. lra.
  - assert (Lk : length (stepsOf kForward (0 / 16) (threes k)) = k).
    { assert (G : forall ps q, length (stepsOf kForward q ps) = length ps) by (induction ps; intros; cbn; [reflexivity|now f_equal]).
      rewrite G. unfold threes. now rewrite map_length, seq_length. }
    revert Ss Lk. cbn [id_phase id_K st0]. generalize (stepsOf kForward (0 / 16) (threes k)). clear - E0.
    intros l Ss Lk. revert k Lk. induction Ss as [|s l Es Ss IH]; intros k <-; cbn; constructor.
    + rewrite Es. exact E0.
    + now apply IH.
  - exists (threes k), (Some st'), (ys ++ []). split; [exact Ss|]. split.
    + rewrite app_nil_r, (block_length _ _ _ _ _ _ _ _ B). unfold threes. now rewrite map_length, seq_length.
    + eapply pl_process; [exact B|constructor].
Qed.
Example C59_octave_case : entryFor 11 (Rabs (3 / 1000)) 2 /\ (2 < 11 - 2)%Z /\ (2 * Z.abs 256 <= 2 ^ (11 - 2))%Z.
Proof. rewrite Rabs_pos_eq by lra. split; [|split; [lia|discriminate]]. split; [lia|]. split; right; cbn; lra. Qed.
