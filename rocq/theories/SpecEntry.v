(** * SpecEntry: tables that hold the same samples in one entry *)
From Coq Require Import ZArith List.
From Verif Require Import Num Wavetable Spec.
Local Open Scope Z_scope.

(** the samples of entry [r] are the same for each of the [nw] waveforms of 2^K samples *)
Definition sameEntry (N : Num) (src1 src2 : Resampler N) (wfs1 wfs2 : list (T N)) (nw K r : Z) : Prop :=
  forall i, 0 <= i < nw ->
    mipmap N src1 (waveform N wfs1 (2 ^ K) i) r = mipmap N src2 (waveform N wfs2 (2 ^ K) i) r.
