(** * SpecO: histories of oscillator calls a careful caller makes (binary32) *)
From Coq Require Import ZArith List Bool Reals.
From Flocq Require Import Core IEEE754.BinarySingleNaN.
From Verif Require Import Num Maths CrossFader Wavetable Osc Spec B32 SpecF.
Import ListNotations.
Local Open Scope Z_scope.

(** a phase the oscillator may be given *)
Definition phase01 (p : f32) : Prop := is_finite p = true /\ (0 <= B2R p < 1)%R.

(** the four coefficient lists of a filter have the same length *)
Definition filterShape (N : Num) (F : Filt N) : Prop :=
  length (f_z F) = length (f_r F) /\ length (f_zp2 F) = length (f_r F) /\ length (f_ez F) = length (f_r F).

Section Hist.
Variable lm : Libm.
Variable src : Resampler (B32 lm).
Variable debug : bool.
Notation N := (B32 lm).

(** the phase step from [prev] to [p] *)
Definition step32 (dir : Direction) (prev p : f32) : f32 :=
  match dir with kForward => stepFwd N p prev | kBidirectionnal => stepBi N p prev end.

(** a table that may be given to an oscillator: built from a well-formed request with a fade
    of at least one sample, possibly used and re-sampled since *)
Definition usable (w : WT N) : Prop :=
  exists K n, reachable N src debug (rate32 lm) K n w /\ 1 <= n.

(** [noReverse0]: exclude steps (or initial states) that are not forward and stand on phase 0
    -- the situation of C22 *)
Variable noReverse0 : bool.

Definition okInit (p d : f32) : Prop :=
  phase01 p /\ is_finite d = true /\ (debug = true -> B2R d <> 0%R) /\
  (noReverse0 = true -> (0 < B2R d)%R \/ (B2R d < 0)%R /\ B2R p <> 0%R).

(** in a debug build the step must not be zero, and with kForward at most half a cycle *)
Definition okStep (dir : Direction) (prev p : f32) : Prop :=
  phase01 p /\
  (debug = true -> B2R (step32 dir prev p) <> 0%R /\ (B2R (step32 dir prev p) <= / 2)%R) /\
  (noReverse0 = true -> (0 < B2R (step32 dir prev p))%R \/
                        (B2R (step32 dir prev p) < 0)%R /\ B2R p <> 0%R).

Fixpoint okBlock (dir : Direction) (prev : f32) (ps : list f32) : Prop :=
  match ps with [] => True | p :: t => okStep dir prev p /\ okBlock dir p t end.

(** a sample rate for updateSamplerate (whose fade is 5 ms): from 256 Hz to 2^38 Hz, usable with
    this compiler (SpecF) *)
Definition okRate (sr : f32) : Prop :=
  is_finite sr = true /\ (256 <= B2R sr <= IZR (2 ^ 38))%R /\ quotientOk lm sr.

(** a history of calls, tracking the last phase and the number of waveforms loaded;
    [None]: nothing loaded yet *)
Fixpoint okHist (st : option (f32 * Z)) (ops : list (Op N)) : Prop :=
  match ops with
  | [] => True
  | OpInit _ None _ _ :: rest | OpSwap _ None _ _ :: rest => okHist st rest
  | OpInit _ (Some w) p d :: rest | OpSwap _ (Some w) p d :: rest =>
      usable w /\ okInit p d /\ okHist (Some (p, wt_numWaveforms N w)) rest
  | OpReset _ p d :: rest =>
      match st with Some (_, nw) => okInit p d /\ okHist (Some (p, nw)) rest | None => False end
  | OpSetWaveform _ k :: rest =>
      match st with Some (_, nw) => 0 <= k < nw /\ okHist st rest | None => False end
  | OpUpdateSamplerate _ sr :: rest =>
      match st with Some _ => okRate sr /\ okHist st rest | None => False end
  | OpProcess _ dir ps :: rest =>
      match st with
      | Some (prev, nw) => okBlock dir prev ps /\ okHist (Some (last ps prev, nw)) rest
      | None => False
      end
  end.
End Hist.
