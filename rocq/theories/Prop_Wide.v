(** * Prop_Wide: property C52 -- phases outside [0,1)

    The library asks for phases in [0,1); its own tests/tones_generator.cpp feeds phases of
    (-1,0] for negative frequencies, and a phase accumulated in single precision may round to
    1.  [okHistW] (SpecP.v) is [okHist] with phases of [-1,2) other than the negative ones from
    -2^-25 on. *)
From Coq Require Import ZArith List Bool Reals Lia Lra Arith.
From Flocq Require Import Core IEEE754.BinarySingleNaN.
From Verif Require Import Num Maths CrossFader Wavetable Filters Osc Spec NumFacts Laws B32 B32Facts B32Laws B32Pow Demo SpecF SpecO
  OscRun PHist PBuild Prop_Build Prop_CrossFader RNum SpecP PWide.
Import ListNotations.
Local Open Scope Z_scope.

(** every history with such phases is free of undefined behaviour, unless a step that is not
    forward lands on the start of the cycle (C22) *)
Theorem C52_wide_safe : forall lm src cfg F ops, log2_exact lm -> resamplerOk (B32 lm) src ->
  (1 <= batch cfg)%nat -> filterShape (B32 lm) F ->
  okHistW lm src (dbg cfg) true None ops ->
  exists o ys, run (B32 lm) src cfg F (osc_new (B32 lm) F) ops = Ok (o, ys).
Proof.
  intros lm src cfg F ops Hlog Hsrc HB HF H.
  destruct (run_wide lm Hlog src cfg F HB HF Hsrc true ops None _ eq_refl H) as [E|[E _]]; [exact E|discriminate].
Qed.
Print Assumptions C52_wide_safe.

Theorem C52_wide_only_fault : forall lm src cfg F ops, log2_exact lm -> resamplerOk (B32 lm) src ->
  (1 <= batch cfg)%nat -> filterShape (B32 lm) F ->
  okHistW lm src (dbg cfg) false None ops ->
  (exists o ys, run (B32 lm) src cfg F (osc_new (B32 lm) F) ops = Ok (o, ys)) \/
  run (B32 lm) src cfg F (osc_new (B32 lm) F) ops = Fault OutOfBounds.
Proof.
  intros lm src cfg F ops Hlog Hsrc HB HF H.
  destruct (run_wide lm Hlog src cfg F HB HF Hsrc false ops None _ eq_refl H) as [E|[_ E]]; [now left|now right].
Qed.
Print Assumptions C52_wide_only_fault.

(** in exact arithmetic only the position in the cycle matters: replacing each phase by its
    position in the cycle changes no sample, no step and no fault *)
Theorem C52_only_the_position_matters : forall src cfg F ops, wideHist 0 ops ->
  sameRun (run RNum src cfg F (osc_new RNum F) ops) (run RNum src cfg F (osc_new RNum F) (map cycOp ops)).
Proof.
  intros src cfg F ops H.
  assert (S := run_cyc src cfg F ops (osc_new RNum F) ltac:(cbn; lra) H). rewrite new_cyc in S.
  destruct (run RNum src cfg F (osc_new RNum F) ops) as [[o ys]|e];
  destruct (run RNum src cfg F (osc_new RNum F) (map cycOp ops)) as [[o' ys']|e']; cbn in S |- *; try contradiction; [|exact S].
  destruct S as [-> ->]. auto.
Qed.
Print Assumptions C52_only_the_position_matters.

(** ** phase 1 *)
(** two outcomes of one sample that differ at most in the last phase recorded *)
Definition sameSample lm (one zero : f32) (a b : res (Osc (B32 lm) * list (T (B32 lm)))) : Prop :=
  match a, b with
  | Ok (o, ys), Ok (o', ys') =>
      ys = ys' /\ o_wt o = o_wt o' /\ o_y o = o_y o' /\ o_phred o = o_phred o' /\ o_pd o = o_pd o' /\
      o_mm o = o_mm o' /\ o_j o = o_j o' /\ o_pj o = o_pj o' /\ o_wf o = o_wf o' /\
      o_phase o = one /\ o_phase o' = zero
  | Fault e, Fault e' => e = e'
  | _, _ => False
  end.

Lemma inj_pos (x y : f32) : fin32 x = true -> fin32 y = true -> (0 < B2R x)%R -> B2R x = B2R y -> x = y.
Proof.
  intros Hx Hy Hp E. apply B2R_inj; auto.
  - destruct x as [| | |]; try discriminate; [cbn in Hp; lra|reflexivity].
  - destruct y as [| | |]; try discriminate; [cbn in E; rewrite E in Hp; lra|reflexivity].
Qed.

Lemma one_step lm dir (prev : f32) : fin32 prev = true -> (0 < B2R prev < 1)%R ->
  (dir = kBidirectionnal -> (/ 2 < B2R prev)%R) ->
  stepOf (B32 lm) dir (f32_ofZ 1) prev = stepOf (B32 lm) dir (f32_ofZ 0) prev.
Proof.
  intros Hf Hr Hd. destruct (ofZ32 1 ltac:(lia)) as [O1 O2]. destruct (ofZ32 0 ltac:(lia)) as [Z1 Z2].
  destruct (sub32 (f32_ofZ 1) prev O1 Hf) as (A1 & A2 & _); [rewrite O2; apply small32_1; lra|]. rewrite O2 in A2.
  destruct (sub32 (f32_ofZ 0) prev Z1 Hf) as (B1 & B2 & _); [rewrite Z2; apply small32_1; lra|]. rewrite Z2 in B2.
  fold (fsub (f32_ofZ 1) prev) in *. fold (fsub (f32_ofZ 0) prev) in *.
  assert (EB : B2R (fsub (f32_ofZ 0) prev) = (- B2R prev)%R).
  { rewrite B2. replace (0 - B2R prev)%R with (- B2R prev)%R by lra. apply rnd32_id. apply generic_format_opp, fmt32_B2R. }
  destruct (add32 (fsub (f32_ofZ 0) prev) (f32_ofZ 1) B1 O1) as (C1 & C2); [rewrite EB, O2; apply small32_1; lra|].
  rewrite EB, O2 in C2. fold (fadd (fsub (f32_ofZ 0) prev) (f32_ofZ 1)) in *.
  assert (P : (0 < rnd32 (1 - B2R prev))%R).
  { apply Rlt_le_trans with (bpow radix2 (-149)); [apply bpow_gt_0|].
    destruct (Rle_lt_or_eq_dec 0 (rnd32 (1 - B2R prev))) as [H|H].
    - apply rnd32_ge; [apply (fmt32_Z 0); lia|lra].
    - apply rnd32_ge; [apply fmt32_bpow; lia|].
      assert (Hp : (B2R prev <= 1 - bpow radix2 (-24))%R).
      { assert (Pd : pred radix2 (FLT_exp (-149) 24) 1 = (1 - bpow radix2 (-24))%R).
        { rewrite <- (pred_bpow radix2 (FLT_exp (-149) 24) 0) at 1. reflexivity. }
        rewrite <- Pd. apply pred_ge_gt; auto with typeclass_instances; [apply fmt32_B2R|apply (fmt32_Z 1); lia|lra]. }
      apply Rle_trans with (bpow radix2 (-24)); [apply bpow_le; lia|lra].
    - exfalso. symmetry in H. apply rnd32_0 in H; [lra|apply (fmt32_Z 1); lia|apply fmt32_B2R]. }
  assert (EE : fsub (f32_ofZ 1) prev = fadd (fsub (f32_ofZ 0) prev) (f32_ofZ 1)).
  { apply inj_pos; auto; [rewrite A2; exact P|]. rewrite A2, C2. f_equal. lra. }
  destruct dir; cbn [stepOf].
  - unfold stepFwd. unfold t1, t0.
    change (tsub (B32 lm) (f32_ofZ 1) prev) with (fsub (f32_ofZ 1) prev).
    change (tsub (B32 lm) (f32_ofZ 0) prev) with (fsub (f32_ofZ 0) prev).
    change (tofZ (B32 lm) 0) with (f32_ofZ 0). change (tofZ (B32 lm) 1) with (f32_ofZ 1).
    change (tadd (B32 lm)) with fadd.
    assert (L1 : tlt (B32 lm) (fsub (f32_ofZ 1) prev) (f32_ofZ 0) = false).
    { change (Bltb (fsub (f32_ofZ 1) prev) (f32_ofZ 0) = false). rewrite Bltb_correct by assumption.
      rewrite A2, Z2. apply Rlt_bool_false. lra. }
    assert (L2 : tlt (B32 lm) (fsub (f32_ofZ 0) prev) (f32_ofZ 0) = true).
    { change (Bltb (fsub (f32_ofZ 0) prev) (f32_ofZ 0) = true). rewrite Bltb_correct by assumption.
      rewrite EB, Z2. apply Rlt_bool_true. lra. }
    rewrite L1, L2. exact EE.
  - unfold stepBi. unfold t1, t0. specialize (Hd eq_refl).
    change (tsub (B32 lm) (f32_ofZ 1) prev) with (fsub (f32_ofZ 1) prev).
    change (tsub (B32 lm) (f32_ofZ 0) prev) with (fsub (f32_ofZ 0) prev).
    change (tofZ (B32 lm) 1) with (f32_ofZ 1).
    change (tadd (B32 lm)) with fadd.
    set (mh := tfrac (B32 lm) (-1) 2). set (ph := tfrac (B32 lm) 1 2).
    assert (Hm : fin32 mh = true /\ B2R (mh : f32) = (- / 2)%R).
    { split; [reflexivity|]. vm_compute. lra. }
    assert (Hh : fin32 ph = true /\ B2R (ph : f32) = (/ 2)%R).
    { split; [reflexivity|]. vm_compute. lra. }
    destruct Hm as [M1 M2]. destruct Hh as [H1 H2].
    assert (L1 : tlt (B32 lm) (fsub (f32_ofZ 1) prev) mh = false).
    { change (Bltb (fsub (f32_ofZ 1) prev) mh = false). rewrite Bltb_correct by assumption.
      rewrite A2, M2. apply Rlt_bool_false. lra. }
    assert (L2 : tlt (B32 lm) ph (fsub (f32_ofZ 1) prev) = false).
    { change (Bltb ph (fsub (f32_ofZ 1) prev) = false). rewrite Bltb_correct by assumption.
      rewrite A2, H2. apply Rlt_bool_false. apply rnd32_le; [|lra].
      replace (/ 2)%R with (bpow radix2 (-1)) by reflexivity. apply fmt32_bpow. lia. }
    assert (L3 : tlt (B32 lm) (fsub (f32_ofZ 0) prev) mh = true).
    { change (Bltb (fsub (f32_ofZ 0) prev) mh = true). rewrite Bltb_correct by assumption.
      rewrite EB, M2. apply Rlt_bool_true. lra. }
    rewrite L1, L2, L3. exact EE.
Qed.

(** a sample at phase 1 is, bit for bit, a sample at phase 0, when play moves forward to it *)
Theorem C52_phase_one : forall lm cfg F (o : Osc (B32 lm)) dir,
  log2_exact lm ->
  fin32 (prevPhase (B32 lm) o) = true -> (0 < B2R (prevPhase (B32 lm) o : f32) < 1)%R ->
  (dir = kBidirectionnal -> (/ 2 < B2R (prevPhase (B32 lm) o : f32))%R) ->
  sameSample lm (f32_ofZ 1) (f32_ofZ 0)
    (process (B32 lm) cfg F dir o [f32_ofZ 1] [f32_ofZ 0]) (process (B32 lm) cfg F dir o [f32_ofZ 0] [f32_ofZ 0]).
Proof.
  intros lm cfg F o dir Hlog Hf Hr Hd. unfold prevPhase in *.
  assert (Hred : redTo (B32 lm) cfg (f32_ofZ 1) (f32_ofZ 0)).
  { split.
    - unfold reduceT. rewrite assert_ok by (intros _; reflexivity). cbn [bind].
      rewrite assert_ok by (intros _; reflexivity). reflexivity.
    - unfold reduceT. rewrite assert_ok by (intros _; reflexivity). cbn [bind].
      rewrite assert_ok by (intros _; reflexivity). reflexivity. }
  assert (E := one_wide (B32 lm) cfg F dir o (f32_ofZ 1) (f32_ofZ 0) (o_phase o) Hred (one_step lm dir (o_phase o) Hf Hr Hd)).
  assert (Eo : set_ph (B32 lm) o (o_phase o) = o) by (destruct o; reflexivity). rewrite Eo in E.
  unfold process. destruct (assert_ (dbg cfg) (is_some (o_wt o))) as [[]|e]; cbn [bind]; [|reflexivity].
  change (zlen [f32_ofZ 1]) with (zlen [f32_ofZ 0]).
  destruct (assert_ (dbg cfg) _) as [[]|e]; cbn [bind]; [|reflexivity].
  cbn [processLoop].
  assert (Ph : forall o1 y, processOne (B32 lm) cfg F dir o (f32_ofZ 0) = Ok (o1, y) -> o_phase o1 = f32_ofZ 0).
  { intros o1 y. unfold processOne. destruct (o_wt o) as [w|]; [|discriminate].
    assert (A : forall pd, processSampleFwd (B32 lm) cfg F o w (f32_ofZ 0) pd = Ok (o1, y) -> o_phase o1 = f32_ofZ 0).
    { intros pd A. unfold processSampleFwd in A. apply bind_ok in A. destruct A as (x & _ & A).
      apply bind_ok in A. destruct A as (a & _ & A). apply bind_ok in A. destruct A as (ic & _ & A). inversion A. reflexivity. }
    assert (B : forall pd, processSampleBwd (B32 lm) cfg F o w (f32_ofZ 0) pd = Ok (o1, y) -> o_phase o1 = f32_ofZ 0).
    { intros pd A'. unfold processSampleBwd in A'. apply bind_ok in A'. destruct A' as (x & _ & A').
      apply bind_ok in A'. destruct A' as (a & _ & A'). apply bind_ok in A'. destruct A' as (ic & _ & A'). inversion A'. reflexivity. }
    destruct dir.
    - intros H. apply bind_ok in H. destruct H as ([] & _ & H). now apply A in H.
    - destruct (tle (B32 lm) _ _); [apply A|apply B]. }
  rewrite E. destruct (processOne (B32 lm) cfg F dir o (f32_ofZ 0)) as [[o1 y]|e]; cbn [bind]; [|reflexivity].
  specialize (Ph o1 y eq_refl). cbn. auto 12.
Qed.
Print Assumptions C52_phase_one.

(** but a step from phase 1 is rounded more coarsely than a step from phase 0 would be: to
    within 2^-25 (so a next phase below 2^-25 repeats phase 1) *)
Theorem C52_after_phase_one : forall lm dir (p : f32), log2_exact lm ->
  fin32 p = true -> (0 <= B2R p < / 2)%R ->
  (dir = kBidirectionnal -> (B2R p <= / 2 - / IZR (2 ^ 24))%R) ->
  (Rabs (B2R (step32 lm dir (f32_ofZ 1) p) - B2R p) <= / IZR (2 ^ 25))%R.
Proof.
  intros lm dir p Hlog Hf Hr Hbi. destruct (ofZ32 1 ltac:(lia)) as [O1 O2]. destruct (ofZ32 0 ltac:(lia)) as [Z1 Z2].
  destruct (sub32 p (f32_ofZ 1) Hf O1) as (A1 & A2 & _); [rewrite O2; apply small32_1; lra|]. rewrite O2 in A2.
  fold (fsub p (f32_ofZ 1)) in *.
  assert (Hb : (-1 <= rnd32 (B2R p - 1) <= - / 2)%R).
  { split; [apply rnd32_ge; [apply (fmt32_Z (-1)); lia|lra]|]. apply rnd32_le; [|lra].
    replace (- / 2)%R with (IZR (-1) * bpow radix2 (-1))%R by (cbn; lra). apply fmt32_Ze; lia. }
  assert (He : (Rabs (rnd32 (B2R p - 1) - (B2R p - 1)) <= / IZR (2 ^ 25))%R).
  { rewrite <- (bpow_Z 25) by lia. rewrite <- bpow_opp. change (- (25))%Z with (0 - 25)%Z.
    destruct (Req_dec (B2R p) 0) as [E0|E0].
    - rewrite E0. replace (0 - 1)%R with (IZR (-1)) by lra. rewrite rnd32_id by (apply (fmt32_Z (-1)); lia).
      rewrite Rminus_diag_eq by reflexivity. rewrite Rabs_R0. apply bpow_ge_0.
    - apply rnd_half; [lia|]. change (bpow radix2 0) with 1%R. rewrite Rabs_left by lra. lra. }
  destruct (add32 (fsub p (f32_ofZ 1)) (f32_ofZ 1) A1 O1) as (C1 & C2); [rewrite A2, O2; apply small32_1; lra|].
  rewrite A2, O2 in C2. fold (fadd (fsub p (f32_ofZ 1)) (f32_ofZ 1)) in *.
  assert (X : rnd32 (rnd32 (B2R p - 1) + 1) = (rnd32 (B2R p - 1) + 1)%R).
  { replace (rnd32 (B2R p - 1) + 1)%R with (1 - - rnd32 (B2R p - 1))%R by lra.
    apply rnd32_id. apply Sterbenz.sterbenz; auto with typeclass_instances.
    - apply (fmt32_Z 1); lia.
    - apply generic_format_opp. rewrite <- A2. apply fmt32_B2R.
    - lra. }
  rewrite X in C2.
  assert (G : (Rabs (B2R (fadd (fsub p (f32_ofZ 1)) (f32_ofZ 1)) - B2R p) <= / IZR (2 ^ 25))%R).
  { rewrite C2. replace (rnd32 (B2R p - 1) + 1 - B2R p)%R with (rnd32 (B2R p - 1) - (B2R p - 1))%R by lra. exact He. }
  destruct dir; cbn [step32].
  - unfold stepFwd. unfold t1, t0.
    change (tsub (B32 lm) p (tofZ (B32 lm) 1)) with (fsub p (f32_ofZ 1)).
    change (tofZ (B32 lm) 0) with (f32_ofZ 0). change (tofZ (B32 lm) 1) with (f32_ofZ 1).
    change (tadd (B32 lm)) with fadd. change (tsub (B32 lm) p (f32_ofZ 1)) with (fsub p (f32_ofZ 1)).
    assert (L1 : tlt (B32 lm) (fsub p (f32_ofZ 1)) (f32_ofZ 0) = true).
    { change (Bltb (fsub p (f32_ofZ 1)) (f32_ofZ 0) = true). rewrite Bltb_correct by assumption.
      rewrite A2, Z2. apply Rlt_bool_true. lra. }
    rewrite L1. exact G.
  - unfold stepBi. unfold t1.
    change (tofZ (B32 lm) 1) with (f32_ofZ 1). change (tadd (B32 lm)) with fadd.
    change (tsub (B32 lm)) with fsub.
    set (mh := tfrac (B32 lm) (-1) 2). set (ph := tfrac (B32 lm) 1 2).
    assert (Hm : fin32 mh = true /\ B2R (mh : f32) = (- / 2)%R).
    { split; [reflexivity|]. vm_compute. lra. }
    assert (Hh : fin32 ph = true /\ B2R (ph : f32) = (/ 2)%R).
    { split; [reflexivity|]. vm_compute. lra. }
    destruct Hm as [M1 M2]. destruct Hh as [H1 H2].
    assert (L1 : tlt (B32 lm) (fsub p (f32_ofZ 1)) mh = Rlt_bool (rnd32 (B2R p - 1)) (- / 2)).
    { change (Bltb (fsub p (f32_ofZ 1)) mh = Rlt_bool (rnd32 (B2R p - 1)) (- / 2)). rewrite Bltb_correct by assumption.
      now rewrite A2, M2. }
    assert (L2 : tlt (B32 lm) ph (fsub p (f32_ofZ 1)) = false).
    { change (Bltb ph (fsub p (f32_ofZ 1)) = false). rewrite Bltb_correct by assumption.
      rewrite A2, H2. apply Rlt_bool_false. lra. }
    rewrite L1, L2. destruct (Rlt_bool_spec (rnd32 (B2R p - 1)) (- / 2)) as [Hl|Hl]; [exact G|].
    exfalso. specialize (Hbi eq_refl).
    assert (E1 : (rnd32 (B2R p - 1) <= - / 2 - / IZR (2 ^ 24))%R).
    { apply rnd32_le; [|lra].
      replace (- / 2 - / IZR (2 ^ 24))%R with (IZR (- (2 ^ 23 + 1)) * bpow radix2 (-24))%R.
      - apply fmt32_Ze; lia.
      - change (bpow radix2 (-24)) with (/ IZR (2 ^ 24))%R. change (- (2 ^ 23 + 1))%Z with (-8388609)%Z.
        change (2 ^ 24)%Z with 16777216%Z. lra. }
    assert (E2 : (0 < / IZR (2 ^ 24))%R) by (apply Rinv_0_lt_compat; apply IZR_lt; reflexivity).
    lra.
Qed.
Print Assumptions C52_after_phase_one.

(** ** the phases left out: a negative phase from -2^-25 on stands, after reduction, on phase 1
    -- past the last segment.  Tables of eight samples, fade of one sample, 48 kHz: start at
    phase 5/8 moving by 4/10, forward to -2^-26 and then by 1/16.  Every step is forward, so the
    situation of C22 does not occur, yet the last sample reads past the end of the phases; every
    shipped filter, debug and release, either direction argument.  *)
Definition tinyOps (w : WT FN) (dir : Direction) (p : f32) : list (Op FN) :=
  [OpInit FN (Some w) (fl 5 8) (fl 4 10); OpProcess FN dir [p; fl 1 16]].
Definition tinyTest (d : bool) (f : FilterType) (dir : Direction) : bool :=
  match wt_build FN (demo_src FN) d demo16 2 sr48 (fl 1 40000) with
  | Ok (Some w) =>
      match run FN (demo_src FN) (mkCfg d 4) (filt FN f) (osc_new FN (filt FN f)) (tinyOps w dir (fl (-1) (2 ^ 26))) with
      | Fault OutOfBounds => true | _ => false end
  | _ => false end.

Theorem C52_tiny_negative_refuted : forall (d : bool) (f : FilterType) (dir : Direction),
  exists w, usable demo_libm (demo_src FN) d w /\
    B2R (fl (-1) (2 ^ 26)) = (- / IZR (2 ^ 26))%R /\
    (0 < B2R (step32 demo_libm dir (fl 5 8) (fl (-1) (2 ^ 26))) <= / 2)%R /\
    (0 < B2R (step32 demo_libm dir (fl (-1) (2 ^ 26)) (fl 1 16)) <= / 2)%R /\
    run FN (demo_src FN) (mkCfg d 4) (filt FN f) (osc_new FN (filt FN f)) (tinyOps w dir (fl (-1) (2 ^ 26))) = Fault OutOfBounds.
Proof.
  intros d f dir.
  assert (H : tinyTest d f dir = true) by (destruct d, f, dir; vm_compute; reflexivity).
  unfold tinyTest in H. destruct (wt_build _ _ _ _ _ _ _) as [[w|]|] eqn:E; try discriminate.
  exists w. split; [|split; [|split; [|split]]].
  - exists 3, 1. split; [|lia]. eapply (r_build FN _ _ _ _ demo16 2 sr48 (fl 1 40000)).
    + lia.
    + lia.
    + reflexivity.
    + unfold int_max; lia.
    + exact (CF_rate _).
    + vm_compute; reflexivity.
    + exact E.
  - vm_compute. lra.
  - destruct dir; vm_compute; lra.
  - destruct dir; vm_compute; lra.
  - destruct (run _ _ _ _ _ _) as [|[]]; try discriminate. reflexivity.
Qed.
Print Assumptions C52_tiny_negative_refuted.

(** ** concrete cases *)
(** negative phases played backward, as tests/tones_generator.cpp does, then phases of [1,2) *)
Definition wideOps (w : WT FN) : list (Op FN) :=
  [OpInit FN (Some w) (fl (-1) 8) (fl (-1) 8); OpProcess FN kBidirectionnal [fl (-1) 4; fl (-1) 2; fl (-7) 8; fl (-1) 16];
   OpReset FN (fl 3 4) (fl 1 8); OpProcess FN kForward [fl 7 8; fl 1 1; fl 1 8]; OpProcess FN kBidirectionnal [fl 5 4; fl 3 2]].
Example C52_case_safe : exists w, okHistW demo_libm (demo_src FN) true true None (wideOps w).
Proof.
  destruct (wt_build FN (demo_src FN) true demo16 2 sr48 (defaultFade FN)) as [[w|]|] eqn:E.
  2,3: assert (H := C04_case); rewrite E in H; discriminate.
  exists w. unfold wideOps. cbn [okHistW okBlockW].
  split.
  { exists 3, 240. split; [|lia]. eapply (r_build FN _ _ _ _ demo16 2 sr48 (defaultFade FN)); try lia; try exact E.
    - reflexivity.
    - unfold int_max; lia.
    - exact (CF_rate _).
    - vm_compute; reflexivity. }
  unfold okInitW, okStepW, phaseWide, offZero.
  repeat match goal with
  | |- _ /\ _ => split
  | |- kBidirectionnal = kForward -> _ => let H := fresh in intros H; discriminate H
  | |- _ = true -> _ => intros _
  | |- kForward = kForward -> _ => intros _
  end; try exact I;
  try match goal with
  | |- _ = true => vm_compute; reflexivity
  | |- (_ <= _)%R => vm_compute; lra
  | |- (_ < _)%R => vm_compute; lra
  | |- _ <> _ => vm_compute; lra
  end;
  first [left; vm_compute; lra | right; split; [vm_compute; lra|repeat split; vm_compute; lra] | right; vm_compute; lra].
Qed.

Example C52_case_real : forall w, wideHist 0
  [OpInit RNum (Some w) (-1/8)%R (-1/8)%R; OpProcess RNum kBidirectionnal [(-1/4)%R; (-1/2)%R; (-7/8)%R; (-1/16)%R];
   OpReset RNum (3/4)%R (1/8)%R; OpProcess RNum kForward [(7/8)%R; 1%R; (1/8)%R]].
Proof.
  intros w. cbn [wideHist wideBlock wideStep last].
  repeat match goal with |- _ /\ _ => split end; try exact I; try lra;
  try (unfold Rabs; destruct (Rcase_abs _); lra).
  all: unfold wideStep; repeat match goal with |- _ /\ _ => split end; try lra; try (unfold Rabs; destruct (Rcase_abs _); lra).
Qed.

(** forward, in either mode, from 15/16 to 1 *)
Example C52_case_one : fin32 (fl 15 16) = true /\ (0 < B2R (fl 15 16) < 1)%R /\ (/ 2 < B2R (fl 15 16))%R /\
  B2R (step32 demo_libm kForward (fl 15 16) (f32_ofZ 1)) = (/ 16)%R /\
  B2R (step32 demo_libm kBidirectionnal (fl 15 16) (f32_ofZ 0)) = (/ 16)%R.
Proof. repeat split; vm_compute; try reflexivity; lra. Qed.
Example C52_case_after : fin32 (fl 3 8) = true /\ (0 <= B2R (fl 3 8) < / 2)%R /\ (B2R (fl 3 8) <= / 2 - / IZR (2 ^ 24))%R.
Proof. repeat split; vm_compute; try reflexivity; lra. Qed.
