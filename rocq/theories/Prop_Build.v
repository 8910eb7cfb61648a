(** * Prop_Build: properties C01-C04 -- WavetableData::build

    [lm] is the C library (log2f, complex exp) and [src] the resampler: both arbitrary up to
    the assumptions a theorem names.  [Ok None] is nullptr. *)
From Coq Require Import ZArith List Bool Reals Lia Lra.
From Flocq Require Import Core IEEE754.BinarySingleNaN.
From Verif Require Import Num Maths CrossFader Wavetable Spec B32 B32Laws B32Pow Demo PBuild.
Import ListNotations.
Local Open Scope Z_scope.

(** ** C01 *)
Theorem C01_build_rejects : forall (lm : Libm) src dbg (wfs : list (T (B32 lm))) nw (sr fade : f32),
  log2_exact lm -> log2_close lm -> zlen wfs <= int_max ->
  (wfs = [] \/ nw <= 0 \/ (is_finite sr = true /\ (B2R sr <= 0)%R) \/ ~ (nw | zlen wfs) \/
   exists len, zlen wfs = nw * len /\ 1 <= len <= 2 ^ 18 /\ forall k, 0 <= k -> len <> 2 ^ k) ->
  wt_build (B32 lm) src dbg wfs nw sr fade = Ok None.
Proof. exact build_rejects. Qed.
Print Assumptions C01_build_rejects.

(** a libm meeting both assumptions, and twelve samples in two waveforms of six *)
Example C01_libm : log2_exact ideal_libm /\ log2_close ideal_libm.
Proof. exact (conj ideal_exact ideal_close). Qed.
Example C01_case : let wfs := map f32_ofZ [1;2;3;4;5;6;7;8;9;10;11;12] in
  wfs <> [] /\ (2 | zlen wfs) /\ zlen wfs = 2 * 6 /\ 1 <= 6 <= 2 ^ 18 /\ forall k, 0 <= k -> 6 <> 2 ^ k.
Proof.
  repeat split; try lia; try discriminate.
  - exists 6. reflexivity.
  - intros k Hk E. assert (k <= 2 \/ 3 <= k) as [H|H] by lia.
    + assert (k = 0 \/ k = 1 \/ k = 2) as [->|[->| ->]] by lia; discriminate.
    + assert (2 ^ 3 <= 2 ^ k) by (apply Z.pow_le_mono_r; lia). lia.
Qed.

(** ** C02 *)
Theorem C02_build_shape : forall lm src dbg (wfs : list (T (B32 lm))) nw (sr fade : f32) K n,
  log2_exact lm -> resamplerOk (B32 lm) src ->
  2 <= K <= 18 -> 1 <= nw -> zlen wfs = nw * 2 ^ K -> nw * 2 ^ K <= int_max ->
  is_finite sr = true -> (0 < B2R sr)%R -> tcast (B32 lm) (tmul (B32 lm) fade sr) = Ok n ->
  exists w, wt_build (B32 lm) src dbg wfs nw sr fade = Ok (Some w) /\
    wt_numWaveforms (B32 lm) w = nw /\ wt_numMipMapTables (B32 lm) w = K - 1 /\
    forall i k, 0 <= i < nw -> 0 <= k < K - 1 ->
      wt_waveformLen (B32 lm) w k = Ok (2 ^ (K - k)) /\
      (exists ph, wt_phases (B32 lm) w k = Ok ph /\ zlen ph = 2 ^ (K - k) + 1) /\
      exists m q md qd,
        wt_m (B32 lm) w i k = Ok m /\ zlen m = 2 ^ (K - k) /\
        wt_q (B32 lm) w i k = Ok q /\ zlen q = 2 ^ (K - k) /\
        wt_mDiff (B32 lm) w i k = Ok md /\ zlen md = 2 ^ (K - k) /\
        wt_qDiff (B32 lm) w i k = Ok qd /\ zlen qd = 2 ^ (K - k).
Proof. exact build_shape. Qed.
Print Assumptions C02_build_shape.

(** two waveforms of eight samples at 48 kHz, the default fade: 240 samples *)
Definition demo16 : list f32 := map f32_ofZ [0;1;2;3;4;3;2;1;0;-1;-2;-3;-4;-3;-2;-1].
Definition sr48 : f32 := f32_ofZ 48000.
Example C02_case : log2_exact demo_libm /\ resamplerOk FN (demo_src FN) /\
  zlen (A := T FN) demo16 = 2 * 2 ^ 3 /\ is_finite sr48 = true /\ (0 < B2R sr48)%R /\
  tcast FN (tmul FN (defaultFade FN) sr48) = Ok 240.
Proof.
  split; [exact demo_exact|]. split; [intros inp ratio cap; repeat split|].
  split; [reflexivity|]. split; [reflexivity|]. split; [|vm_compute; reflexivity].
  change sr48 with (f32_ofZ 48000). destruct (B32Facts.ofZ32 48000 ltac:(lia)) as [_ ->].
  apply (IZR_lt 0); lia.
Qed.

(** ** C03: refuted.  One-sample waveforms make build throw std::length_error, two-sample
    waveforms make it index an empty vector (assertion in debug builds), for every sample
    content and every libm / resampler. *)
Theorem C03_build_total_refuted : forall lm src dbg, log2_exact lm ->
  (exists (wfs : list (T (B32 lm))) nw sr fade, zlen wfs = nw * 1 /\
     wt_build (B32 lm) src dbg wfs nw sr fade = Fault LengthError) /\
  (exists (wfs : list (T (B32 lm))) nw sr fade, zlen wfs = nw * 2 /\
     wt_build (B32 lm) src dbg wfs nw sr fade = Fault (if dbg then AssertFail else OutOfBounds)) /\
  (exists (wfs : list (T (B32 lm))) nw sr fade, zlen wfs = nw * 4 /\
     wt_build (B32 lm) src dbg wfs nw sr fade = Fault BadCast).
Proof. exact build_total_refuted. Qed.
Print Assumptions C03_build_total_refuted.

(** what happens instead, for every request whose per-waveform length is a power of two *)
Theorem C03_build_outcome : forall lm src dbg (wfs : list (T (B32 lm))) nw (sr fade : f32) K n,
  log2_exact lm -> 0 <= K <= 24 -> 1 <= nw -> zlen wfs = nw * 2 ^ K -> zlen wfs <= int_max ->
  is_finite sr = true -> (0 < B2R sr)%R -> tcast (B32 lm) (tmul (B32 lm) fade sr) = Ok n ->
  (K = 0 -> wt_build (B32 lm) src dbg wfs nw sr fade = Fault LengthError) /\
  (K = 1 -> wt_build (B32 lm) src dbg wfs nw sr fade = Fault (if dbg then AssertFail else OutOfBounds)) /\
  (2 <= K <= 18 -> resamplerOk (B32 lm) src -> exists w, wt_build (B32 lm) src dbg wfs nw sr fade = Ok (Some w)) /\
  (2 <= K <= 18 -> exists r, wt_build (B32 lm) src dbg wfs nw sr fade = Ok r) /\
  (19 <= K -> wt_build (B32 lm) src dbg wfs nw sr fade = Ok None).
Proof.
  intros lm src dbg wfs nw sr fade K n Hlog HK Hn Hsz Hmax Hf Hs Hc.
  assert (H := build_outcome lm src dbg wfs nw sr fade K n Hlog HK Hn Hsz Hmax Hf Hs Hc).
  assert (Hsm : K <= 1 -> wt_build (B32 lm) src dbg wfs nw sr fade =
     Fault (if K =? 0 then LengthError else if dbg then AssertFail else OutOfBounds)).
  { intros. rewrite (build_small lm src dbg wfs nw sr fade K n) by (auto; lia).
    destruct (K =? 0), dbg; reflexivity. }
  repeat split.
  - intros ->. exact (Hsm ltac:(lia)).
  - intros ->. exact (Hsm ltac:(lia)).
  - intros HK2 Hr. destruct (wt_build _ _ _ _ _ _ _) as [[w|]|[]]; eauto; try lia; try contradiction.
    destruct H; [lia|contradiction].
  - intros HK2. destruct (wt_build _ _ _ _ _ _ _) as [[w|]|[]]; eauto; try lia; try contradiction.
  - intros HK2. destruct (wt_build _ _ _ _ _ _ _) as [[w|]|[]]; eauto; try lia; try contradiction.
Qed.
Print Assumptions C03_build_outcome.

(** ** C04 *)
Theorem C04_phase_grid : forall lm src dbg (wfs : list (T (B32 lm))) nw (sr fade : f32) K w,
  log2_exact lm -> 2 <= K <= 24 -> 1 <= nw -> zlen wfs = nw * 2 ^ K -> nw * 2 ^ K <= int_max ->
  wt_build (B32 lm) src dbg wfs nw sr fade = Ok (Some w) ->
  forall k, 0 <= k < K - 1 -> exists ph, wt_phases (B32 lm) w k = Ok ph /\
    zlen ph = 2 ^ (K - k) + 1 /\
    forall j, 0 <= j <= 2 ^ (K - k) -> exists x : f32,
      znth ph j = Ok x /\ is_finite x = true /\ B2R x = (IZR j / IZR (2 ^ (K - k)))%R.
Proof. exact build_grid. Qed.
Print Assumptions C04_phase_grid.
Example C04_case :
  match wt_build FN (demo_src FN) true demo16 2 sr48 (defaultFade FN) with Ok (Some _) => true | _ => false end = true.
Proof. vm_compute. reflexivity. Qed.
