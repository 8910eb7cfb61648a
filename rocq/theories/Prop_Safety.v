(** * Prop_Safety: properties C21, C22 -- no undefined behaviour, on any history of API calls

    [okHist] (SpecO.v) is what a careful caller does: tables come from build with a fade of
    at least one sample, phases are in [0,1), waveform indices are valid, sample rates sane;
    in a debug build steps are non-zero and, with kForward, at most half a cycle.  [run]
    performs the calls on a new oscillator; [Fault _] would be an out-of-bounds access, a
    null dereference, a signed overflow, an invalid shift or conversion, or a failed
    assertion. *)
From Coq Require Import ZArith List Bool Reals Lia Lra Arith.
From Flocq Require Import Core IEEE754.BinarySingleNaN.
From Verif Require Import Num Maths CrossFader Wavetable Filters Osc Spec B32 B32Laws B32Pow Demo SpecF SpecO
  PHist PBuild Prop_Build Prop_CrossFader.
Import ListNotations.
Local Open Scope Z_scope.

(** ** C21.  Any filter, SIMD width, debug or release.  First with the situation of C22
    excluded (no step that is not forward lands on phase 0): everything succeeds. *)
Theorem C21_safe : forall lm src cfg F ops, log2_exact lm -> resamplerOk (B32 lm) src ->
  (1 <= batch cfg)%nat -> filterShape (B32 lm) F ->
  okHist lm src (dbg cfg) true None ops ->
  exists o ys, run (B32 lm) src cfg F (osc_new (B32 lm) F) ops = Ok (o, ys).
Proof.
  intros lm src cfg F ops Hlog Hsrc HB HF H.
  destruct (hist_safe lm Hlog src cfg F HB HF Hsrc true ops H) as [E|[E _]]; [exact E|discriminate].
Qed.
Print Assumptions C21_safe.

(** without that exclusion the only possible fault is the out-of-bounds read of C22 *)
Theorem C21_only_fault : forall lm src cfg F ops, log2_exact lm -> resamplerOk (B32 lm) src ->
  (1 <= batch cfg)%nat -> filterShape (B32 lm) F ->
  okHist lm src (dbg cfg) false None ops ->
  (exists o ys, run (B32 lm) src cfg F (osc_new (B32 lm) F) ops = Ok (o, ys)) \/
  run (B32 lm) src cfg F (osc_new (B32 lm) F) ops = Fault OutOfBounds.
Proof.
  intros lm src cfg F ops Hlog Hsrc HB HF H.
  destruct (hist_safe lm Hlog src cfg F HB HF Hsrc false ops H) as [E|[_ E]]; [now left|now right].
Qed.
Print Assumptions C21_only_fault.

(** ** C22: refuted.  Tables of eight samples, fade of one sample, 48 kHz: start at phase 3/4
    moving by -3/8, play backward to 3/8 and 0, then step forward by 1/16.  The last sample
    reads phases[-1]; every shipped filter, debug and release. *)
Definition trapOps (w : WT FN) : list (Op FN) :=
  [OpInit FN (Some w) (fl 3 4) (fl (-3) 8); OpProcess FN kBidirectionnal [fl 3 8; fl 0 1; fl 1 16]].
Definition trapTest (d : bool) (f : FilterType) : bool :=
  match wt_build FN (demo_src FN) d demo16 2 sr48 (fl 1 40000) with
  | Ok (Some w) =>
      match run FN (demo_src FN) (mkCfg d 4) (filt FN f) (osc_new FN (filt FN f)) (trapOps w) with
      | Fault OutOfBounds => true | _ => false end
  | _ => false end.
Theorem C22_reverse_zero_refuted : forall (d : bool) (f : FilterType),
  exists w, okHist demo_libm (demo_src FN) d false None (trapOps w) /\
    run FN (demo_src FN) (mkCfg d 4) (filt FN f) (osc_new FN (filt FN f)) (trapOps w) = Fault OutOfBounds.
Proof.
  intros d f.
  assert (H : trapTest d f = true) by (destruct d, f; vm_compute; reflexivity).
  unfold trapTest in H. destruct (wt_build _ _ _ _ _ _ _) as [[w|]|] eqn:E; try discriminate.
  exists w. split.
  - split; [|split].
    + exists 3, 1. split; [|lia]. eapply (r_build FN _ _ _ _ demo16 2 sr48 (fl 1 40000)).
      * lia.
      * lia.
      * reflexivity.
      * unfold int_max; lia.
      * exact (CF_rate _).
      * vm_compute; reflexivity.
      * exact E.
    + split; [split; [reflexivity|vm_compute; lra]|]. split; [reflexivity|]. split; [intros _; vm_compute; lra|discriminate].
    + split; [|exact I]. repeat split; try (vm_compute; reflexivity); try discriminate; try (vm_compute; lra);
        intros _; split; vm_compute; lra.
  - destruct (run _ _ _ _ _ _) as [|[]]; try discriminate. reflexivity.
Qed.
Print Assumptions C22_reverse_zero_refuted.

(** exactly when it happens: after any history, processing one more phase [p] reads out of
    bounds iff the previous step was not forward, the oscillator stands on segment index 0
    (for a backward step: on phase 0), and the lower mipmap entry now requested is below the
    previous one; otherwise it succeeds *)
Theorem C22_exactly_when : forall lm src cfg F ops o ys dir (p : f32),
  log2_exact lm -> resamplerOk (B32 lm) src -> (1 <= batch cfg)%nat -> filterShape (B32 lm) F ->
  okHist lm src (dbg cfg) false None ops ->
  run (B32 lm) src cfg F (osc_new (B32 lm) F) ops = Ok (o, ys) -> o_wt o <> None ->
  okStep lm (dbg cfg) false dir (prevPhase (B32 lm) o) p ->
  ((B2R (prevPhaseDiff (B32 lm) o : f32) < 0)%R -> (o_j o = 0 <-> B2R (prevPhase (B32 lm) o : f32) = 0%R)) /\
  exists w w' mi (g : f32) mu (gu : f32),
    o_wt o = Some w /\
    wt_findMipMapIndices (B32 lm) (dbg cfg) w (tabs (B32 lm) (step32 lm dir (prevPhase (B32 lm) o) p)) =
      Ok (w', (mi, g, mu, gu)) /\
    if (Rle_bool (B2R (prevPhaseDiff (B32 lm) o : f32)) 0 && (o_j o =? 0) && (mi <? o_mm o))
    then process (B32 lm) cfg F dir o [p] [t0 (B32 lm)] = Fault OutOfBounds
    else exists o' y, process (B32 lm) cfg F dir o [p] [t0 (B32 lm)] = Ok (o', [y]).
Proof.
  intros lm src cfg F ops o ys dir p Hlog Hsrc HB HF.
  exact (fault_exactly lm Hlog src cfg F HB HF Hsrc ops o ys dir p).
Qed.
Print Assumptions C22_exactly_when.

(** a history meeting the hypotheses of C21_safe: forward and backward blocks, a change of
    waveform, a reset and a change of sample rate *)
Definition safeOps (w : WT FN) : list (Op FN) :=
  [OpInit FN (Some w) (fl 0 1) (fl 4 10); OpProcess FN kForward [fl 1 4; fl 1 2; fl 7 8; fl 1 8];
   OpSetWaveform FN 1; OpProcess FN kBidirectionnal [fl 1 16; fl 15 16; fl 1 2]; OpSwap FN None (fl 0 1) (fl 0 1);
   OpReset FN (fl 1 2) (fl (-1) 8); OpUpdateSamplerate FN (f32_ofZ 44100); OpProcess FN kBidirectionnal [fl 3 8; fl 7 16]].
Example C21_case : exists w, wt_build FN (demo_src FN) true demo16 2 sr48 (defaultFade FN) = Ok (Some w) /\
  okHist demo_libm (demo_src FN) true true None (safeOps w) /\ filterShape FN (filt FN kType2).
Proof.
  destruct (wt_build FN (demo_src FN) true demo16 2 sr48 (defaultFade FN)) as [[w|]|] eqn:E.
  2,3: assert (H := C04_case); rewrite E in H; discriminate.
  exists w. split; [reflexivity|]. split; [|repeat split; reflexivity].
  assert (Hn : wt_numWaveforms FN w = 2).
  { destruct (C02_build_shape demo_libm (demo_src FN) true demo16 2 sr48 (defaultFade FN) 3 240) as (w' & E' & Hn & _);
      try lia; try reflexivity; try apply C02_case; try (unfold int_max; lia).
    assert (Ew : Ok (Some w) = Ok (Some w')) by exact (eq_trans (eq_sym E) E'). inversion Ew. subst w'. exact Hn. }
  unfold safeOps. cbn [okHist okBlock]. change (wt_numWaveforms (B32 demo_libm) w) with (wt_numWaveforms FN w). rewrite Hn.
  split.
  { exists 3, 240. split; [|lia]. eapply (r_build FN _ _ _ _ demo16 2 sr48 (defaultFade FN)); try lia; try exact E.
    - reflexivity.
    - unfold int_max; lia.
    - exact (CF_rate _).
    - vm_compute; reflexivity. }
  assert (H44 : okRate demo_libm (f32_ofZ 44100)).
  { split; [reflexivity|]. split; [vm_compute; lra|]. apply (C09_usual_rates demo_libm 44100). cbn; tauto. }
  repeat match goal with |- _ /\ _ => split end; try exact H44; try exact I; try lia;
    try (vm_compute; reflexivity); try (intros _); try (vm_compute; lra); 
    try (split; vm_compute; lra); try (left; vm_compute; lra); try (right; split; vm_compute; lra).
Qed.
