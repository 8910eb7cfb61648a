(** * Prop_Tables: properties C05-C08, C37, C44 -- the contents of the tables *)
From Coq Require Import ZArith List Bool Reals Lia Lra.
From Flocq Require Import Core IEEE754.BinarySingleNaN.
From Verif Require Import Num Maths CrossFader Wavetable Filters Osc Spec SpecC SpecT SpecF B32 RNum NumFacts Laws
  B32Facts B32Laws B32Pow RLaws WTFacts BuildFacts OscHist Demo PTables PErr PRebuild.
Import ListNotations.
Local Open Scope Z_scope.

(** ** C05 (exact arithmetic): segment j of entry k of waveform i is the straight line from
    sample j to the (cyclically) next sample of that entry, whatever was done to the table. *)
Theorem C05_segments : forall src dbg (wfs : list R) nw K (w : WT RNum) i k,
  wellFormed RNum wfs nw K -> madeFrom RNum src dbg wfs nw w -> 0 <= i < nw -> 0 <= k <= K - 2 ->
  let ys := mipmap RNum src (waveform RNum wfs (2 ^ K) i) k in
  exists M Q X,
    wt_m RNum w i k = Ok M /\ wt_q RNum w i k = Ok Q /\ wt_phases RNum w k = Ok X /\
    zlen M = 2 ^ (K - k) /\ zlen Q = 2 ^ (K - k) /\ zlen X = 2 ^ (K - k) + 1 /\ zlen ys = 2 ^ (K - k) /\
    (forall j, 0 <= j <= 2 ^ (K - k) -> elem X j = (IZR j / IZR (2 ^ (K - k)))%R) /\
    forall j, 0 <= j < 2 ^ (K - k) ->
      (elem M j * elem X j + elem Q j = elem ys j)%R /\
      (elem M j * elem X (j + 1) + elem Q j = cyc ys (j + 1))%R.
Proof.
  intros src dbg wfs nw K w i k W H Hi Hk ys. assert (C := made_contents src dbg wfs nw K w W H).
  assert (HK := ct_K _ _ _ _ _ _ C). assert (Hp := pow2_pos (K - k) ltac:(lia)).
  destruct (slot_of _ _ _ _ _ _ i k C Hi Hk) as (s & Es & S & Ls & _). fold ys in S, Ls.
  exists (s_m s), (s_q s), (computePhaseVector RNum (2 ^ (K - k))).
  unfold wt_m, wt_q, wt_phases. rewrite Es, (ct_ph _ _ _ _ _ _ C k) by lia.
  destruct (sf_shape _ _ _ S) as [LM LQ _ _].
  assert (EX : forall j, 0 <= j <= 2 ^ (K - k) ->
    elem (computePhaseVector RNum (2 ^ (K - k))) j = (IZR j / IZR (2 ^ (K - k)))%R).
  { intros j Hj. exact (at_znth RNum _ _ _ (znth_phaseVector RNum _ j Hj)). }
  do 3 (split; [reflexivity|]). split; [lia|]. split; [lia|].
  split; [rewrite zlen_phaseVector; lia|]. split; [exact Ls|]. split; [exact EX|].
  intros j Hj. rewrite !EX by lia. unfold cyc.
  assert (A := segment_R ys s j). change (zlen (A := R) ys) with (zlen (A := T RNum) ys). rewrite Ls in *.
  apply A; auto; lia.
Qed.
Print Assumptions C05_segments.

(** ** C06 (exact arithmetic): MDiff and QDiff are the changes of slope and intercept at the
    end of each segment; the last one is relative to the next cycle (its intercept is shifted
    by one slope), so that the jump in value is 0 everywhere. *)
Theorem C06_differences : forall src dbg (wfs : list R) nw K (w : WT RNum) i k,
  wellFormed RNum wfs nw K -> madeFrom RNum src dbg wfs nw w -> 0 <= i < nw -> 0 <= k <= K - 2 ->
  let len := 2 ^ (K - k) in
  exists M Q MD QD X,
    wt_m RNum w i k = Ok M /\ wt_q RNum w i k = Ok Q /\
    wt_mDiff RNum w i k = Ok MD /\ wt_qDiff RNum w i k = Ok QD /\ wt_phases RNum w k = Ok X /\
    zlen MD = len /\ zlen QD = len /\
    forall j, 0 <= j < len ->
      elem MD j = (cyc M (j + 1) - elem M j)%R /\
      elem QD j = (cyc Q (j + 1) - (if j =? len - 1 then elem M 0 else 0) - elem Q j)%R /\
      (elem QD j + elem MD j * elem X (j + 1) = 0)%R.
Proof.
  intros src dbg wfs nw K w i k W H Hi Hk len. assert (C := made_contents src dbg wfs nw K w W H).
  assert (HK := ct_K _ _ _ _ _ _ C). assert (Hp := pow2_pos (K - k) ltac:(lia)). fold len in Hp.
  destruct (slot_of _ _ _ _ _ _ i k C Hi Hk) as (s & Es & S & Ls & _). fold len in Ls.
  set (ys := mipmap RNum src (waveform RNum wfs (2 ^ K) i) k) in *.
  exists (s_m s), (s_q s), (s_md s), (s_qd s), (computePhaseVector RNum len).
  unfold wt_m, wt_q, wt_mDiff, wt_qDiff, wt_phases. rewrite Es, (ct_ph _ _ _ _ _ _ C k) by lia. fold len.
  destruct (sf_shape _ _ _ S) as [LM LQ LMD LQD].
  do 5 (split; [reflexivity|]). split; [lia|]. split; [lia|].
  intros j Hj. unfold cyc.
  change (zlen (A := R) (s_m s)) with (zlen (A := T RNum) (s_m s)).
  change (zlen (A := R) (s_q s)) with (zlen (A := T RNum) (s_q s)).
  assert (E1 := sf_md _ _ _ S j ltac:(lia)). assert (E2 := sf_qd _ _ _ S j). assert (E3 := sf_qd_last _ _ _ S).
  assert (E4 := jump_R ys s j ltac:(lia) S ltac:(lia)). rewrite Ls in *.
  rewrite LM, LQ. split; [exact E1|]. split.
  - destruct (Z.eqb_spec j (len - 1)) as [->|Hne].
    + rewrite Z.sub_add, Z.mod_same by lia. eapply eq_trans; [exact E3|]. cbn [tsub RNum]. unfold elem, at_, t0. cbn [tofZ RNum T]. change (T RNum) with R. ring.
    + rewrite Z.mod_small by lia. eapply eq_trans; [exact (E2 ltac:(lia))|].
      cbn [tsub RNum]. unfold elem, at_, t0. cbn [tofZ RNum T]. change (T RNum) with R. ring.
  - assert (EX : elem (computePhaseVector RNum len) (j + 1) = (IZR (j + 1) / IZR len)%R).
    { exact (at_znth RNum _ _ _ (znth_phaseVector RNum len (j + 1) ltac:(lia))). }
    rewrite EX. exact E4.
Qed.
Print Assumptions C06_differences.

(** ** C07 (exact arithmetic): a sample-rate change gives the very table that build would give
    for the original waveforms at the new rate, however often it is done; the tables of
    samples never change. *)
Theorem C07_update_exact : forall src dbg (wfs : list R) nw K (w : WT RNum),
  wellFormed RNum wfs nw K -> madeFrom RNum src dbg wfs nw w ->
  (forall sr fade, wt_updateSamplerate RNum src dbg w sr fade = orNull (wt_build RNum src dbg wfs nw sr fade)) /\
  (forall w', madeFrom RNum src dbg wfs nw w' -> sameTables RNum w w').
Proof.
  intros src dbg wfs nw K w W H. assert (C := made_contents src dbg wfs nw K w W H).
  destruct W as (HK & Hnw & Hl & Hm). split.
  - intros sr fade. now apply (update_R src dbg K nw wfs).
  - intros w' H'. apply (Contents_same RNum src K nw wfs); [assumption|].
    apply (made_contents src dbg wfs nw K w'); [|assumption]. unfold wellFormed; auto.
Qed.
Print Assumptions C07_update_exact.

(** the sample-rate change succeeds for positive rates *)
Theorem C07_update_succeeds : forall src dbg (wfs : list R) nw K (w : WT RNum) (sr fade : R),
  wellFormed RNum wfs nw K -> madeFrom RNum src dbg wfs nw w -> resamplerOk RNum src ->
  (0 < sr)%R -> (Rabs (fade * sr) < 2 ^ 31)%R ->
  exists w', wt_updateSamplerate RNum src dbg w sr fade = Ok w' /\ madeFrom RNum src dbg wfs nw w' /\
    sameTables RNum w w'.
Proof.
  intros src dbg wfs nw K w sr fade W H Hs Hsr Hf. assert (C := made_contents src dbg wfs nw K w W H).
  assert (HK' := ct_K _ _ _ _ _ _ C). assert (W' := W). destruct W as (HK & Hnw & Hl & Hm).
  destruct (wt_build_ok RNum src dbg R_Laws wfs nw sr fade K (Ztrunc (fade * sr))) as (w' & E & _); auto.
  - cbn. apply Rle_bool_false. lra.
  - unfold tcast. cbn [ttrunc tmul RNum]. rewrite in_int_true; [reflexivity|].
    apply Rabs_def2 in Hf. destruct Hf as [H1 H2]. unfold int_min, int_max.
    change 2%R with (IZR 2) in H1, H2. rewrite pow_IZR in H1, H2. change (2 ^ Z.of_nat 31)%Z with 2147483648%Z in *.
    unfold Ztrunc. destruct (Rlt_bool_spec (fade * sr) 0) as [S|S].
    + split; [apply le_IZR; eapply Rle_trans; [|apply Zceil_ub]; change (IZR (-2147483648)) with (- IZR 2147483648)%R; lra|].
      apply le_IZR. assert (IZR (Zceil (fade * sr)) <= 0)%R; [|eapply Rle_trans; [eassumption|apply IZR_le; lia]].
      apply IZR_le. apply Zceil_glb. simpl; lra.
    + split; [apply Z.le_trans with 0; [lia|]; apply Zfloor_lub; simpl; lra|].
      cut (Zfloor (fade * sr) < 2147483648); [lia|]. apply lt_IZR. eapply Rle_lt_trans; [apply Zfloor_lb|lra].
  - exists w'. assert (Eu : wt_updateSamplerate RNum src dbg w sr fade = Ok w').
    { rewrite (update_R src dbg K nw wfs) by auto. now rewrite E. }
    split; [exact Eu|]. assert (M' : madeFrom RNum src dbg wfs nw w') by (eapply m_build; exact E).
    split; [exact M'|]. apply (C07_update_exact src dbg wfs nw K w W' H). exact M'.
Qed.
Print Assumptions C07_update_succeeds.

(** two waveforms of four samples, any resampler that works: such tables exist *)
Example C05_case : forall dbg src, resamplerOk RNum src ->
  wellFormed RNum [0; 1; 0; -1; 1; 2; 3; 4]%R 2 2 /\
  exists w, madeFrom RNum src dbg [0; 1; 0; -1; 1; 2; 3; 4]%R 2 w.
Proof.
  intros dbg src Hs. assert (W : wellFormed RNum [0; 1; 0; -1; 1; 2; 3; 4]%R 2 2).
  { unfold wellFormed, int_max. repeat split; cbn; lia. }
  split; [exact W|]. destruct W as (HK & Hnw & Hl & Hm).
  destruct (wt_build_ok RNum src dbg R_Laws [0; 1; 0; -1; 1; 2; 3; 4]%R 2 48000%R 0%R 2 0) as (w & E & _); auto; try lia.
  - cbn. apply Rle_bool_false. lra.
  - unfold tcast. cbn [ttrunc tmul RNum]. rewrite Rmult_0_l. change 0%R with (IZR 0). now rewrite Ztrunc_IZR.
  - exists w. eapply m_build. exact E.
Qed.

(** the header documents M_diff[i] = M[i] - M[i-1]; that is false of the stored tables *)
Theorem C06_header_refuted : forall src dbg, resamplerOk RNum src ->
  exists wfs w M MD, wellFormed RNum wfs 1 2 /\ madeFrom RNum src dbg wfs 1 w /\
    wt_m RNum w 0 0 = Ok M /\ wt_mDiff RNum w 0 0 = Ok MD /\
    (elem MD 1 <> elem M 1 - elem M 0)%R.
Proof.
  intros src dbg Hs. set (wfs := [0; 1; 0; 0]%R).
  assert (W : wellFormed RNum wfs 1 2) by (unfold wellFormed, int_max; repeat split; cbn; lia).
  assert (W' := W). destruct W' as (HK & Hnw & Hl & Hm).
  destruct (wt_build_ok RNum src dbg R_Laws wfs 1 48000%R 0%R 2 0) as (w & E & C & _); auto; try lia.
  - cbn. apply Rle_bool_false. lra.
  - unfold tcast. cbn [ttrunc tmul RNum]. rewrite Rmult_0_l. change 0%R with (IZR 0). now rewrite Ztrunc_IZR.
  - assert (Mf : madeFrom RNum src dbg wfs 1 w) by (eapply m_build; exact E).
    destruct (C05_segments src dbg wfs 1 2 w 0 0 W Mf ltac:(lia) ltac:(lia)) as (M & Q & X & E1 & E2 & E3 & LM & _ & _ & _ & EX & S).
    destruct (C06_differences src dbg wfs 1 2 w 0 0 W Mf ltac:(lia) ltac:(lia)) as (M' & Q' & MD & QD & X' & F1 & F2 & F3 & F4 & F5 & _ & _ & D).
    assert (M' = M) by congruence. subst M'.
    exists wfs, w, M, MD. split; [exact W|]. split; [exact Mf|]. split; [exact E1|]. split; [exact F3|].
    destruct (D 1 ltac:(cbn; lia)) as [D1 _]. unfold cyc in D1.
    change (zlen M) with (zlen (A := T RNum) M) in D1. rewrite LM in D1.
    change ((1 + 1) mod 2 ^ (2 - 0)) with 2 in D1. rewrite D1.
    destruct (S 0 ltac:(cbn; lia)) as [A0 B0]. destruct (S 1 ltac:(cbn; lia)) as [A1 B1].
    destruct (S 2 ltac:(cbn; lia)) as [A2 B2].
    rewrite !EX in A0, B0, A1, B1, A2, B2 by (cbn; lia).
    change (2 ^ (2 - 0)) with 4 in *. change (mipmap RNum src (waveform RNum wfs (2 ^ 2) 0) 0) with wfs in *.
    cbn in A0, B0, A1, B1, A2, B2. change (Pos.to_nat 1) with 1%nat in *.
    change (Pos.to_nat 2) with 2%nat in *. change (Pos.to_nat 3) with 3%nat in *. cbn in *. lra.
Qed.
Print Assumptions C06_header_refuted.

(** ** C08 (binary32): a sample-rate change is the build of samples at most 2^K/2^22 away from
    those of the current table, for waveforms in [-1,1] of 2^K samples. *)
Theorem C08_update_error : forall lm src dbg (wfs : list (T (B32 lm))) nw K (sr0 fade0 : f32) w0 ds w ms,
  log2_exact lm -> wellFormed (B32 lm) wfs nw K ->
  wt_build (B32 lm) src dbg wfs nw sr0 fade0 = Ok (Some w0) -> ask (B32 lm) dbg w0 ds = Ok (w, ms) ->
  (forall x : f32, In x wfs -> is_finite x = true /\ (-1 <= B2R x <= 1)%R) ->
  exists og, zlen og = zlen wfs /\
    (forall sr fade, wt_updateSamplerate (B32 lm) src dbg w sr fade =
                     orNull (wt_build (B32 lm) src dbg og nw sr fade)) /\
    forall i (x y : f32), znth og i = Ok x -> znth wfs i = Ok y ->
      is_finite x = true /\ (Rabs (B2R x - B2R y) <= IZR (2 ^ K) / IZR (2 ^ 22))%R.
Proof.
  intros lm src dbg wfs nw K sr0 fade0 w0 ds w ms Hlog W Hb Ha Hr.
  assert (W' := W). destruct W' as (HK & Hnw & Hl & Hm).
  destruct (wt_build_some (B32 lm) src dbg (B32_Laws lm Hlog) wfs nw sr0 fade0 K w0 HK Hnw Hl Hm Hb) as [C _].
  assert (C' := ask_contents _ _ _ _ _ _ _ _ _ _ C Ha).
  destruct (rebuild_error lm src dbg wfs nw K w W C' Hr) as (og & _ & A). exists og. exact A.
Qed.
Print Assumptions C08_update_error.

(** in particular 4e-3 (the bound the library's tests use) up to 16384 samples *)
Corollary C08_update_error_16384 : forall lm src dbg (wfs : list (T (B32 lm))) nw K (sr0 fade0 : f32) w0 ds w ms,
  log2_exact lm -> wellFormed (B32 lm) wfs nw K -> K <= 14 ->
  wt_build (B32 lm) src dbg wfs nw sr0 fade0 = Ok (Some w0) -> ask (B32 lm) dbg w0 ds = Ok (w, ms) ->
  (forall x : f32, In x wfs -> is_finite x = true /\ (-1 <= B2R x <= 1)%R) ->
  exists og, zlen og = zlen wfs /\
    (forall sr fade, wt_updateSamplerate (B32 lm) src dbg w sr fade =
                     orNull (wt_build (B32 lm) src dbg og nw sr fade)) /\
    forall i (x y : f32), znth og i = Ok x -> znth wfs i = Ok y ->
      is_finite x = true /\ (Rabs (B2R x - B2R y) <= 4 / 1000)%R.
Proof.
  intros lm src dbg wfs nw K sr0 fade0 w0 ds w ms Hlog W HK Hb Ha Hr.
  destruct (C08_update_error lm src dbg wfs nw K sr0 fade0 w0 ds w ms Hlog W Hb Ha Hr) as (og & A & B & D).
  exists og. split; [exact A|]. split; [exact B|]. intros i x y Hx Hy. destruct (D i x y Hx Hy) as [F E].
  split; [exact F|]. eapply Rle_trans; [exact E|].
  assert (IZR (2 ^ K) <= IZR (2 ^ 14))%R by (apply IZR_le, Z.pow_le_mono_r; lia).
  change (2 ^ 14) with 16384 in H. change (2 ^ 22) with 4194304.
  apply Rle_trans with (16384 / 4194304)%R; [|lra]. apply Rmult_le_compat_r; lra.
Qed.
Print Assumptions C08_update_error_16384.

(** a waveform that is silent but for two neighbouring samples *)
Definition twoPoints {A} (z a b : A) (j n : Z) : list A :=
  repeat z (Z.to_nat j) ++ a :: b :: repeat z (Z.to_nat (n - j - 2)).
Lemma zlen_twoPoints A (z a b : A) j n : 0 <= j -> j + 2 <= n -> zlen (twoPoints z a b j n) = n.
Proof. intros. unfold twoPoints. rewrite zlen_app, !zlen_cons, !zlen_repeat. lia. Qed.
Lemma at_twoPoints A (z a b : A) j n d : 0 <= j ->
  nth (Z.to_nat j) (twoPoints z a b j n) d = a /\ nth (Z.to_nat (j + 1)) (twoPoints z a b j n) d = b.
Proof.
  intros Hj. unfold twoPoints. rewrite !app_nth2; rewrite repeat_length; try lia.
  replace (Z.to_nat j - Z.to_nat j)%nat with 0%nat by lia.
  replace (Z.to_nat (j + 1) - Z.to_nat j)%nat with 1%nat by lia. auto.
Qed.
Lemma In_twoPoints A (z a b : A) j n x : In x (twoPoints z a b j n) -> x = z \/ x = a \/ x = b.
Proof.
  unfold twoPoints. rewrite in_app_iff. cbn. intros [H|[H|[H|H]]]; auto; apply repeat_spec in H; auto.
Qed.

Lemma refuted_at lm src dbg K j n0 d0 n1 d1 : log2_exact lm -> resamplerOk (B32 lm) src ->
  2 <= K <= 18 -> 0 <= j -> j + 2 <= 2 ^ K ->
  let y0 := tfrac (B32 lm) n0 d0 : f32 in let y1 := tfrac (B32 lm) n1 d1 : f32 in
  is_finite y0 = true -> is_finite y1 = true -> (-1 <= B2R y0 <= 1)%R -> (-1 <= B2R y1 <= 1)%R ->
  (let x0 := tdiv (B32 lm) (tofZ (B32 lm) j) (tofZ (B32 lm) (2 ^ K)) in
   let x1 := tdiv (B32 lm) (tofZ (B32 lm) (j + 1)) (tofZ (B32 lm) (2 ^ K)) in
   4 / 1000 < Rabs (B2R (tmad (B32 lm) 60 (computeM (B32 lm) x0 x1 y0 y1) x0
                              (computeQ (B32 lm) x0 x1 y0 y1) : f32) - B2R y0))%R ->
  exists (wfs : list (T (B32 lm))) w og i (x y : f32),
    wellFormed (B32 lm) wfs 1 K /\
    (forall z : f32, In z wfs -> is_finite z = true /\ (-1 <= B2R z <= 1)%R) /\
    wt_build (B32 lm) src dbg wfs 1 (f32_ofZ 48000) (defaultFade (B32 lm)) = Ok (Some w) /\
    rebuildWaveforms (B32 lm) dbg w = Ok og /\
    (forall sr fade, wt_updateSamplerate (B32 lm) src dbg w sr fade =
                     orNull (wt_build (B32 lm) src dbg og 1 sr fade)) /\
    znth og i = Ok x /\ znth wfs i = Ok y /\ (4 / 1000 < Rabs (B2R x - B2R y))%R.
Proof.
  intros Hlog Hs HK Hj Hj2 y0 y1 F0 F1 R0 R1 Hbig.
  set (wfs := twoPoints (t0 (B32 lm)) y0 y1 j (2 ^ K) : list (T (B32 lm))).
  assert (Lw : zlen wfs = 2 ^ K) by (apply zlen_twoPoints; lia).
  assert (P18 : 2 ^ K <= 2 ^ 18) by (apply Z.pow_le_mono_r; lia).
  assert (W : wellFormed (B32 lm) wfs 1 K) by (unfold wellFormed, int_max; lia).
  assert (W' := W). destruct W' as (HK' & Hnw & Hl & Hm).
  destruct (wt_build_ok (B32 lm) src dbg (B32_Laws lm Hlog) wfs 1 (f32_ofZ 48000) (defaultFade (B32 lm)) K 240)
    as (w & E & C & _); auto.
  destruct (rebuild_at (B32 lm) src dbg K 1 wfs w Hnw Hl Hm C) as (og & Er & Lo & Hu & H).
  specialize (H 0 j ltac:(lia) ltac:(lia)). cbn [Z.mul Z.add] in H.
  replace ((j + 1) mod 2 ^ K) with (j + 1) in H by (rewrite Z.mod_small by lia; reflexivity).
  destruct (at_twoPoints _ (t0 (B32 lm)) y0 y1 j (2 ^ K) (t0 (B32 lm)) Hj) as [A0 A1].
  change (at_ wfs j = y0) in A0. change (at_ wfs (j + 1) = y1) in A1.
  rewrite A0, A1 in H.
  exists wfs, w, og, j. eexists. exists y0.
  split; [exact W|]. split.
  { intros z Hz. apply In_twoPoints in Hz. destruct Hz as [->|[->| ->]]; auto.
    destruct (ofZ32 0 ltac:(lia)) as [Z1 Z2]. split; [exact Z1|]. change (t0 (B32 lm)) with (f32_ofZ 0). rewrite Z2. lra. }
  split; [exact E|]. split; [exact Er|]. split; [exact Hu|].
  split; [apply znth_at; lia|]. split; [rewrite znth_at by lia; now rewrite A0|].
  rewrite H. exact Hbig.
Qed.

(** The bound of 0.004 fails for larger tables.  (With m * x + q fused, 32768 samples still meet
    it: only two of the three errors are left.)
    The rebuilt sample, whichever products the compiler fuses: *)
Definition rebuiltBy (f a b : bool) (x0 x1 y0 y1 : f32) : f32 :=
  let X0 := f32_to_f64 x0 in let X1 := f32_to_f64 x1 in let Y0 := f32_to_f64 y0 in let Y1 := f32_to_f64 y1 in
  let sub := @Bminus 53 1024 p64 e64 mode_NE in let m := @Bmult 53 1024 p64 e64 mode_NE in
  let fm := @Bfma 53 1024 p64 e64 mode_NE in let dv := @Bdiv 53 1024 p64 e64 mode_NE in
  let dx := sub X1 X0 in let dy := sub Y1 Y0 in
  let num := if a then sub (m Y0 dx) (m X0 dy) else if b then fm Y0 dx (Bopp (m X0 dy)) else fm (Bopp X0) dy (m Y0 dx) in
  let M := f64_to_f32 (dv dy dx) in let Q := f64_to_f32 (dv num dx) in
  if f then @Bplus 24 128 p32 e32 mode_NE (@Bmult 24 128 p32 e32 mode_NE M x0) Q
  else @Bfma 24 128 p32 e32 mode_NE M x0 Q.
Lemma rebuiltBy_ok lm (x0 x1 y0 y1 : f32) :
  (tmad (B32 lm) 60 (computeM (B32 lm) x0 x1 y0 y1) x0 (computeQ (B32 lm) x0 x1 y0 y1) : f32) =
  rebuiltBy (lm_contract lm 60 =? 0)%Z (lm_contract lm 61 =? 0)%Z (lm_contract lm 61 =? 1)%Z x0 x1 y0 y1.
Proof. reflexivity. Qed.

Theorem C08_larger_tables_refuted : forall lm src dbg K, log2_exact lm -> resamplerOk (B32 lm) src ->
  K = 15 /\ lm_contract lm 60 = 0 \/ K = 16 ->
  exists (wfs : list (T (B32 lm))) w og i (x y : f32),
    wellFormed (B32 lm) wfs 1 K /\
    (forall z : f32, In z wfs -> is_finite z = true /\ (-1 <= B2R z <= 1)%R) /\
    wt_build (B32 lm) src dbg wfs 1 (f32_ofZ 48000) (defaultFade (B32 lm)) = Ok (Some w) /\
    rebuildWaveforms (B32 lm) dbg w = Ok og /\
    (forall sr fade, wt_updateSamplerate (B32 lm) src dbg w sr fade =
                     orNull (wt_build (B32 lm) src dbg og 1 sr fade)) /\
    znth og i = Ok x /\ znth wfs i = Ok y /\ (4 / 1000 < Rabs (B2R x - B2R y))%R.
Proof.
  intros lm src dbg K Hlog Hs [[-> E60] | ->].
  - apply (refuted_at lm src dbg 15 32360 12695603 16777216 (-5267135) 8388608);
      match goal with |- context [tmad] => idtac | _ => auto; try lia; try (vm_compute; lra) end.
    cbv zeta. rewrite rebuiltBy_ok.
    rewrite E60. change (0 =? 0) with true. destruct (lm_contract lm 61 =? 0)%Z, (lm_contract lm 61 =? 1)%Z;
    (vm_compute; unfold Rabs; destruct (Rcase_abs _); lra).
  - apply (refuted_at lm src dbg 16 64572 12125567 16777216 (-7913143) 8388608);
      match goal with |- context [tmad] => idtac | _ => auto; try lia; try (vm_compute; lra) end.
    cbv zeta. rewrite rebuiltBy_ok.
    destruct (lm_contract lm 60 =? 0)%Z, (lm_contract lm 61 =? 0)%Z, (lm_contract lm 61 =? 1)%Z;
    (vm_compute; unfold Rabs; destruct (Rcase_abs _); lra).
Qed.
Print Assumptions C08_larger_tables_refuted.

Example C08_case : forall lm src dbg, log2_exact lm -> resamplerOk (B32 lm) src ->
  exists w0 w ms, wellFormed (B32 lm) (map f32_ofZ [0; 1; 0; -1] : list (T (B32 lm))) 1 2 /\
  wt_build (B32 lm) src dbg (map f32_ofZ [0; 1; 0; -1] : list (T (B32 lm))) 1 (f32_ofZ 48000) (defaultFade (B32 lm)) = Ok (Some w0) /\
  ask (B32 lm) dbg w0 [] = Ok (w, ms) /\
  (forall x : f32, In x (map f32_ofZ [0; 1; 0; -1]) -> is_finite x = true /\ (-1 <= B2R x <= 1)%R).
Proof.
  intros lm src dbg Hlog Hs.
  destruct (wt_build_ok (B32 lm) src dbg (B32_Laws lm Hlog) (map f32_ofZ [0; 1; 0; -1]) 1 (f32_ofZ 48000) (defaultFade (B32 lm)) 2 240)
    as (w & E & C & _); auto; try lia; try reflexivity; try (unfold int_max; lia).
  exists w, w, []. split; [unfold wellFormed, int_max; repeat split; cbn; lia|]. split; [exact E|].
  split; [reflexivity|]. intros x Hx. cbn in Hx.
  destruct Hx as [<-|[<-|[<-|[<-|[]]]]]; (split; [reflexivity|vm_compute; lra]).
Qed.

(** ** C44 (binary32): entry k of waveform i is, bit for bit, the first entry of the table one
    would build from entry k's samples alone: the third of five periods of resampler output
    (second-stage output beyond a ratio of 256). *)
Theorem C44_entries_are_waveforms : forall lm src dbg (wfs : list (T (B32 lm))) nw K (sr fade sr1 fade1 : f32) w w1 i k,
  log2_exact lm -> wellFormed (B32 lm) wfs nw K ->
  wt_build (B32 lm) src dbg wfs nw sr fade = Ok (Some w) -> 0 <= i < nw -> 0 <= k <= K - 2 ->
  wt_build (B32 lm) src dbg (mipmap (B32 lm) src (waveform (B32 lm) wfs (2 ^ K) i) k) 1 sr1 fade1 = Ok (Some w1) ->
  zlen (mipmap (B32 lm) src (waveform (B32 lm) wfs (2 ^ K) i) k) = 2 ^ (K - k) /\
  wt_m (B32 lm) w i k = wt_m (B32 lm) w1 0 0 /\
  wt_q (B32 lm) w i k = wt_q (B32 lm) w1 0 0 /\
  wt_mDiff (B32 lm) w i k = wt_mDiff (B32 lm) w1 0 0 /\
  wt_qDiff (B32 lm) w i k = wt_qDiff (B32 lm) w1 0 0 /\
  wt_phases (B32 lm) w k = wt_phases (B32 lm) w1 0.
Proof.
  intros lm src dbg wfs nw K sr fade sr1 fade1 w w1 i k Hlog (HK & Hnw & Hl & Hm) Hb Hi Hk Hb1.
  destruct (wt_build_some _ src dbg (B32_Laws lm Hlog) wfs nw sr fade K w HK Hnw Hl Hm Hb) as [C _].
  assert (HK' := ct_K _ _ _ _ _ _ C).
  destruct (slot_of _ _ _ _ _ _ i k C Hi Hk) as (s & Es & _ & Lm & _).
  assert (Hp : 0 < 2 ^ (K - k) <= 2 ^ K) by (split; [apply pow2_pos; lia|apply Z.pow_le_mono_r; lia]).
  destruct (wt_build_some _ src dbg (B32_Laws lm Hlog) (mipmap (B32 lm) src (waveform (B32 lm) wfs (2 ^ K) i) k)
     1 sr1 fade1 (K - k) w1 ltac:(lia) ltac:(lia) ltac:(lia) ltac:(nia) Hb1) as [C1 _].
  destruct (entry_is_base _ _ _ _ _ _ i k w1 C Hi Hk C1) as [E1 E2].
  split; [exact Lm|]. unfold wt_m, wt_q, wt_mDiff, wt_qDiff. rewrite E1. auto.
Qed.
Print Assumptions C44_entries_are_waveforms.

(** both tables exist *)
Example C44_case :
  let wfs := map f32_ofZ [0; 1; 2; 3; 4; 3; 2; 1] : list (T FN) in
  wellFormed FN wfs 1 3 /\
  match wt_build FN (demo_src FN) true wfs 1 (f32_ofZ 48000) (defaultFade FN),
        wt_build FN (demo_src FN) true (mipmap FN (demo_src FN) (waveform FN wfs (2 ^ 3) 0) 1) 1 (f32_ofZ 48000) (defaultFade FN)
  with Ok (Some _), Ok (Some _) => true | _, _ => false end = true.
Proof. split; [unfold wellFormed, int_max; repeat split; cbn; lia|vm_compute; reflexivity]. Qed.

(** ** C37 (binary32): a non-positive sample rate makes updateSamplerate dereference a null
    pointer, on every table a program can hold. *)
Theorem C37_bad_rate_crashes : forall lm src dbg (wfs : list (T (B32 lm))) nw K w (sr fade : f32),
  log2_exact lm -> wellFormed (B32 lm) wfs nw K -> madeFrom (B32 lm) src dbg wfs nw w ->
  is_finite sr = true -> (B2R sr <= 0)%R ->
  wt_updateSamplerate (B32 lm) src dbg w sr fade = Fault NullDeref.
Proof.
  intros lm src dbg wfs nw K w sr fade Hlog W H Fs Hs.
  apply (bad_rate (B32 lm) (B32_Laws lm Hlog) src dbg wfs nw K w sr fade W H).
  destruct (ofZ32 0 ltac:(lia)) as [Z1 Z2].
  cbn [tle B32]. change (t0 (B32 lm)) with (f32_ofZ 0).
  assert (A := Bleb_correct 24 128 sr (f32_ofZ 0) Fs Z1). rewrite A, Z2. now apply Rle_bool_true.
Qed.
Print Assumptions C37_bad_rate_crashes.

Theorem C37_oscillator : forall lm src cfg F (wfs : list (T (B32 lm))) nw K (o : Osc (B32 lm)) w (sr : f32),
  log2_exact lm -> wellFormed (B32 lm) wfs nw K -> o_wt o = Some w -> madeFrom (B32 lm) src (dbg cfg) wfs nw w ->
  (is_finite sr = true -> (B2R sr <= 0)%R ->
     apply (B32 lm) src cfg F o (OpUpdateSamplerate (B32 lm) sr) = Fault NullDeref) /\
  (forall o' ys, apply (B32 lm) src cfg F o (OpUpdateSamplerate (B32 lm) sr) = Ok (o', ys) ->
     exists og w', o_wt o' = Some w' /\ zlen og = zlen wfs /\
       wt_build (B32 lm) src (dbg cfg) og nw sr (tfrac (B32 lm) 5 1000) = Ok (Some w')).
Proof.
  intros lm src cfg F wfs nw K o w sr Hlog W Ho H. split.
  - intros Fs Hs. cbn [apply]. unfold osc_updateSamplerate. rewrite Ho. cbn [is_some].
    rewrite assert_ok by reflexivity. cbn [bind].
    erewrite (C37_bad_rate_crashes lm src (dbg cfg) wfs nw K w sr); eauto.
  - intros o' ys Ha. cbn [apply] in Ha. apply NumFacts.bind_ok in Ha. destruct Ha as (o1 & Ha & Hr).
    injection Hr as <- _. unfold osc_updateSamplerate in Ha. rewrite Ho in Ha. cbn [is_some] in Ha.
    rewrite assert_ok in Ha by reflexivity. cbn [bind] in Ha.
    apply NumFacts.bind_ok in Ha. destruct Ha as (w' & Ha & Hr). injection Hr as <-.
    destruct (made_some _ (B32_Laws lm Hlog) src (dbg cfg) wfs nw K w W H) as (og0 & (HK & Hnw & Hl & Hm) & C).
    destruct (rebuild_at _ src (dbg cfg) K nw og0 w Hnw Hl Hm C) as (og & _ & Lo & Hu & _).
    rewrite Hu in Ha. exists og, w'. split; [reflexivity|]. destruct W as (_ & _ & Hl' & _). split; [lia|].
    unfold defaultFade in Ha.
    destruct (wt_build (B32 lm) src (dbg cfg) og nw sr (tfrac (B32 lm) 5 1000)) as [[?|]|]; try discriminate.
    now injection Ha as ->.
Qed.
Print Assumptions C37_oscillator.

Example C37_case : forall lm src dbg, log2_exact lm -> resamplerOk (B32 lm) src ->
  exists w, madeFrom (B32 lm) src dbg (map f32_ofZ [0; 1; 0; -1] : list (T (B32 lm))) 1 w /\
    wt_updateSamplerate (B32 lm) src dbg w (f32_ofZ 0) (defaultFade (B32 lm)) = Fault NullDeref.
Proof.
  intros lm src dbg Hlog Hs. destruct (C08_case lm src dbg Hlog Hs) as (w & _ & _ & W & E & _).
  exists w. assert (H : madeFrom (B32 lm) src dbg (map f32_ofZ [0; 1; 0; -1]) 1 w) by (eapply m_build; exact E).
  split; [exact H|]. apply (C37_bad_rate_crashes lm src dbg (map f32_ofZ [0; 1; 0; -1]) 1 2 w); auto.
  destruct (ofZ32 0 ltac:(lia)) as [_ ->]. lra.
Qed.
