(** * PBuild: lemmas behind Prop_Build.v *)
From Coq Require Import ZArith List Bool Reals Lia Lra.
From Flocq Require Import Core IEEE754.BinarySingleNaN.
From Verif Require Import Num Maths CrossFader Wavetable Spec NumFacts Laws B32 B32Facts B32Laws
  B32Pow RNum RLaws Demo CFFacts WTFacts BuildFacts.
Import ListNotations.
Local Open Scope Z_scope.

Lemma tle_nonpos lm (sr : f32) : is_finite sr = true -> (B2R sr <= 0)%R ->
  tle (B32 lm) sr (t0 (B32 lm)) = true.
Proof.
  intros Hf Hs. destruct (ofZ32 0 ltac:(lia)) as [F1 V1].
  change (t0 (B32 lm)) with (f32_ofZ 0). cbn [tle B32].
  rewrite Bleb_correct by assumption. rewrite V1. now apply Rle_bool_true.
Qed.

Lemma build_rejects lm src dbg (wfs : list (T (B32 lm))) nw (sr fade : f32) :
  log2_exact lm -> log2_close lm -> zlen wfs <= int_max ->
  (wfs = [] \/ nw <= 0 \/ (is_finite sr = true /\ (B2R sr <= 0)%R) \/ ~ (nw | zlen wfs) \/
   exists len, zlen wfs = nw * len /\ 1 <= len <= 2 ^ 18 /\ forall k, 0 <= k -> len <> 2 ^ k) ->
  wt_build (B32 lm) src dbg wfs nw sr fade = Ok None.
Proof.
  intros Hlog Hclose Hsz H. unfold wt_build.
  destruct (Z.eqb_spec (zlen wfs) 0) as [_|Hl]; [reflexivity|].
  destruct (Z.leb_spec nw 0) as [_|Hn]; [reflexivity|].
  destruct (tle (B32 lm) sr (t0 (B32 lm))) eqn:Es; [reflexivity|].
  destruct (Z.eqb_spec (Z.rem (zlen wfs) nw) 0) as [Hr|Hr]; [|reflexivity]. cbn [negb].
  assert (Hdiv : (nw | zlen wfs)) by (apply Z.rem_divide; [lia|assumption]).
  destruct H as [->|[H|[[Hf Hs]|[H|(len & Hlen & Hrange & Hnp)]]]].
  - now rewrite zlen_nil in Hl.
  - lia.
  - now rewrite tle_nonpos in Es.
  - contradiction.
  - rewrite wrap_int_id by (assert (A := zlen_nonneg _ wfs); unfold int_min; lia).
    rewrite Hlen, Z.mul_comm, Z.quot_mul by lia.
    rewrite misPowerOfTwo_not by assumption. reflexivity.
Qed.

(** shape and contents through the accessors *)
Lemma build_shape lm src dbg (wfs : list (T (B32 lm))) nw (sr fade : f32) K n :
  log2_exact lm -> resamplerOk (B32 lm) src ->
  2 <= K <= 18 -> 1 <= nw -> zlen wfs = nw * 2 ^ K -> nw * 2 ^ K <= int_max ->
  is_finite sr = true -> (0 < B2R sr)%R -> tcast (B32 lm) (tmul (B32 lm) fade sr) = Ok n ->
  exists w, wt_build (B32 lm) src dbg wfs nw sr fade = Ok (Some w) /\
    wt_numWaveforms (B32 lm) w = nw /\ wt_numMipMapTables (B32 lm) w = K - 1 /\
    forall i k, 0 <= i < nw -> 0 <= k < K - 1 ->
      wt_waveformLen (B32 lm) w k = Ok (2 ^ (K - k)) /\
      (exists ph, wt_phases (B32 lm) w k = Ok ph /\ zlen ph = 2 ^ (K - k) + 1) /\
      exists m q md qd,
        wt_m (B32 lm) w i k = Ok m /\ zlen m = 2 ^ (K - k) /\
        wt_q (B32 lm) w i k = Ok q /\ zlen q = 2 ^ (K - k) /\
        wt_mDiff (B32 lm) w i k = Ok md /\ zlen md = 2 ^ (K - k) /\
        wt_qDiff (B32 lm) w i k = Ok qd /\ zlen qd = 2 ^ (K - k).
Proof.
  intros Hlog Hsrc HK Hn Hsz Hmax Hf Hs Hc. pose (L := B32_Laws lm Hlog).
  assert (Ht : tle (B32 lm) sr (t0 (B32 lm)) = false).
  { destruct (ofZ32 0 ltac:(lia)) as [F1 V1]. change (t0 (B32 lm)) with (f32_ofZ 0).
    cbn [tle B32]. rewrite Bleb_correct by assumption. rewrite V1. now apply Rle_bool_false. }
  destruct (wt_build_ok (B32 lm) src dbg L wfs nw sr fade K n HK Hn Hsz Hmax Ht Hc Hsrc) as (w & Hb & HC & _).
  exists w. split; [exact Hb|].
  assert (HW := Contents_WTok _ _ _ _ _ _ Hn Hmax HC).
  split; [exact (ct_nw _ _ _ _ _ _ HC)|]. split; [exact (ct_scale _ _ _ _ _ _ HC)|].
  intros i k Hi Hk. split; [exact (wt_len_ok _ _ _ _ _ HW Hk)|]. split.
  { exists (computePhaseVector (B32 lm) (2 ^ (K - k))). split; [exact (wo_ph _ _ _ _ HW k Hk)|].
    apply zlen_phaseVector. apply Z.pow_nonneg; lia. }
  destruct (wt_slot_ok _ _ _ _ _ _ HW Hi Hk) as (s & ys & Es & Hs' & Hy).
  unfold wt_m, wt_q, wt_mDiff, wt_qDiff. rewrite Es. cbn [bind].
  destruct (sf_shape _ _ _ Hs') as [A B C D]. rewrite Hy in *.
  exists (s_m s), (s_q s), (s_md s), (s_qd s). tauto.
Qed.

(** the phase grid *)
Lemma build_grid lm src dbg (wfs : list (T (B32 lm))) nw (sr fade : f32) K w :
  log2_exact lm -> 2 <= K <= 24 -> 1 <= nw -> zlen wfs = nw * 2 ^ K -> nw * 2 ^ K <= int_max ->
  wt_build (B32 lm) src dbg wfs nw sr fade = Ok (Some w) ->
  forall k, 0 <= k < K - 1 -> exists ph, wt_phases (B32 lm) w k = Ok ph /\
    zlen ph = 2 ^ (K - k) + 1 /\
    forall j, 0 <= j <= 2 ^ (K - k) -> exists x : f32,
      znth ph j = Ok x /\ is_finite x = true /\ B2R x = (IZR j / IZR (2 ^ (K - k)))%R.
Proof.
  intros Hlog HK Hn Hsz Hmax Hb k Hk. pose (L := B32_Laws lm Hlog).
  destruct (wt_build_some (B32 lm) src dbg L wfs nw sr fade K w HK Hn Hsz Hmax Hb) as [HC _].
  exists (computePhaseVector (B32 lm) (2 ^ (K - k))).
  split; [exact (ct_ph _ _ _ _ _ _ HC k Hk)|]. split.
  { apply zlen_phaseVector. apply Z.pow_nonneg; lia. }
  intros j Hj. exists (tdiv (B32 lm) (tofZ (B32 lm) j) (tofZ (B32 lm) (2 ^ (K - k)))).
  split; [now apply znth_phaseVector|]. apply (b_grid lm); lia.
Qed.

(** one- and two-sample waveforms *)
Lemma pos_tle lm (sr : f32) : is_finite sr = true -> (0 < B2R sr)%R -> tle (B32 lm) sr (t0 (B32 lm)) = false.
Proof.
  intros Hf Hs. destruct (ofZ32 0 ltac:(lia)) as [F1 V1]. change (t0 (B32 lm)) with (f32_ofZ 0).
  cbn [tle B32]. rewrite Bleb_correct by assumption. rewrite V1. now apply Rle_bool_false.
Qed.

Lemma build_small lm src dbg (wfs : list (T (B32 lm))) nw (sr fade : f32) K n :
  log2_exact lm -> 0 <= K <= 1 -> 1 <= nw -> zlen wfs = nw * 2 ^ K -> zlen wfs <= int_max ->
  is_finite sr = true -> (0 < B2R sr)%R -> tcast (B32 lm) (tmul (B32 lm) fade sr) = Ok n ->
  wt_build (B32 lm) src dbg wfs nw sr fade =
    if K =? 0 then Fault LengthError else if dbg then Fault AssertFail else Fault OutOfBounds.
Proof.
  intros Hlog HK Hn Hsz Hmax Hf Hs Hc. pose (L := B32_Laws lm Hlog).
  assert (H2 : 1 <= 2 ^ K <= 2) by (assert (K = 0 \/ K = 1) as [->| ->] by lia; simpl; lia).
  unfold wt_build. destruct (Z.eqb_spec (zlen wfs) 0) as [E|_]; [nia|].
  destruct (Z.leb_spec nw 0); [lia|]. rewrite pos_tle by assumption.
  rewrite Hsz at 1. rewrite (Z.mul_comm nw), Z.rem_mul by lia. cbn [negb Z.eqb].
  rewrite wrap_int_id by (assert (A := zlen_nonneg _ wfs); unfold int_min; lia).
  rewrite Hsz, (Z.mul_comm nw), Z.quot_mul by lia.
  rewrite (misPowerOfTwo_pow2 (B32 lm) L) by lia. cbn [bind negb]. rewrite Hc. cbn [bind].
  unfold wt_construct, cf_make, computeMipMapScale.
  rewrite (computeNumMipMapTables_pow2 (B32 lm) L) by lia. cbn [bind].
  assert (K = 0 \/ K = 1) as [->| ->] by lia.
  - reflexivity.
  - change (1 - 1 <? 0) with false. cbv iota. cbn [bind]. unfold findMipMapIndex.
    rewrite (tenth_pos _ L). unfold assert_. rewrite andb_false_r. cbn [bind].
    rewrite chk_ok by (unfold int_min; lia). cbn [bind].
    replace (2 ^ 1 * nw =? zlen wfs) with true by (symmetry; apply Z.eqb_eq; lia).
    rewrite andb_false_r. cbn [bind].
    change (cf_numMipMapTables _ _) with 0. unfold computePhaseVectors.
    rewrite zrange_nil at 1 by lia. cbn [mapr bind].
    rewrite zrange_cons by lia. cbn [mapr]. rewrite chk_ok by (unfold int_min, int_max; lia). cbn [bind].
    unfold subspan. replace ((0 <=? 0 * 2 ^ 1) && (0 <=? 2 ^ 1) && (0 * 2 ^ 1 + 2 ^ 1 <=? zlen wfs)) with true
      by (symmetry; rewrite !andb_true_iff; repeat split; apply Z.leb_le; lia).
    cbn [bind]. unfold buildWaveform, assert_. destruct dbg; reflexivity.
Qed.

(** length ≥ 2^19: always nullptr; 4..2^18: never a fault *)
Lemma build_total lm src dbg (wfs : list (T (B32 lm))) nw (sr fade : f32) K n :
  log2_exact lm -> 2 <= K <= 24 -> 1 <= nw -> zlen wfs = nw * 2 ^ K -> zlen wfs <= int_max ->
  tcast (B32 lm) (tmul (B32 lm) fade sr) = Ok n ->
  exists r, wt_build (B32 lm) src dbg wfs nw sr fade = Ok r /\ (19 <= K -> r = None).
Proof.
  intros Hlog HK Hn Hsz Hmax Hc.
  apply (wt_build_total (B32 lm) src dbg (B32_Laws lm Hlog) wfs nw sr fade K n); auto; lia.
Qed.

Lemma tcast_mul_small lm : tcast (B32 lm) (tmul (B32 lm) (f32_ofZ 1) (f32_ofZ 1)) = Ok 1.
Proof. vm_compute. reflexivity. Qed.

Lemma build_total_refuted lm src dbg : log2_exact lm ->
  (exists (wfs : list (T (B32 lm))) nw sr fade, zlen wfs = nw * 1 /\
     wt_build (B32 lm) src dbg wfs nw sr fade = Fault LengthError) /\
  (exists (wfs : list (T (B32 lm))) nw sr fade, zlen wfs = nw * 2 /\
     wt_build (B32 lm) src dbg wfs nw sr fade = Fault (if dbg then AssertFail else OutOfBounds)) /\
  (exists (wfs : list (T (B32 lm))) nw sr fade, zlen wfs = nw * 4 /\
     wt_build (B32 lm) src dbg wfs nw sr fade = Fault BadCast).
Proof.
  intros Hlog. destruct (ofZ32 1 ltac:(lia)) as [F1 V1].
  assert (P1 : (0 < B2R (f32_ofZ 1))%R) by (rewrite V1; lra).
  assert (M : int_max = 2147483647) by reflexivity.
  split; [|split].
  - exists [f32_ofZ 0], 1, (f32_ofZ 1), (f32_ofZ 1). split; [reflexivity|].
    apply (build_small lm src dbg [f32_ofZ 0] 1 (f32_ofZ 1) (f32_ofZ 1) 0 1 Hlog);
      [lia|lia|reflexivity|rewrite M; cbn; lia|exact F1|exact P1|apply tcast_mul_small].
  - exists [f32_ofZ 0; f32_ofZ 0], 1, (f32_ofZ 1), (f32_ofZ 1). split; [reflexivity|].
    rewrite (build_small lm src dbg [f32_ofZ 0; f32_ofZ 0] 1 (f32_ofZ 1) (f32_ofZ 1) 1 1 Hlog);
      [now destruct dbg|lia|lia|reflexivity|rewrite M; cbn; lia|exact F1|exact P1|apply tcast_mul_small].
  - exists (repeat (f32_ofZ 0) 4), 1, (f32_ofZ 1), (B754_nan). split; [reflexivity|].
    rewrite (wt_build_cases (B32 lm) src dbg (B32_Laws lm Hlog) (repeat (f32_ofZ 0) 4) 1 (f32_ofZ 1) B754_nan 2);
      [|lia|lia|reflexivity|rewrite M; lia|now apply pos_tle].
    change (tcast (B32 lm) (tmul (B32 lm) B754_nan (f32_ofZ 1))) with (@Fault Z BadCast). reflexivity.
Qed.

Lemma build_outcome lm src dbg (wfs : list (T (B32 lm))) nw (sr fade : f32) K n :
  log2_exact lm -> 0 <= K <= 24 -> 1 <= nw -> zlen wfs = nw * 2 ^ K -> zlen wfs <= int_max ->
  is_finite sr = true -> (0 < B2R sr)%R -> tcast (B32 lm) (tmul (B32 lm) fade sr) = Ok n ->
  match wt_build (B32 lm) src dbg wfs nw sr fade with
  | Ok None => 19 <= K \/ ~ resamplerOk (B32 lm) src
  | Ok (Some w) => 2 <= K <= 18
  | Fault LengthError => K = 0
  | Fault AssertFail => K = 1 /\ dbg = true
  | Fault OutOfBounds => K = 1 /\ dbg = false
  | Fault _ => False
  end.
Proof.
  intros Hlog HK Hn Hsz Hmax Hf Hs Hc. assert (K <= 1 \/ 2 <= K) as [H|H] by lia.
  - rewrite (build_small lm src dbg wfs nw sr fade K n) by (auto; lia).
    destruct (Z.eqb_spec K 0); [assumption|]. destruct dbg; split; auto; lia.
  - rewrite (wt_build_cases (B32 lm) src dbg (B32_Laws lm Hlog) wfs nw sr fade K)
      by (auto using pos_tle; lia). rewrite Hc. cbn [bind].
    destruct (wt_construct_cases (B32 lm) src dbg (B32_Laws lm Hlog) wfs nw sr n K)
      as [[-> D]|(w & -> & HC & _)]; auto; try lia.
    exact (ct_K _ _ _ _ _ _ HC).
Qed.
