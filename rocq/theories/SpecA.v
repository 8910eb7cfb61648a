(** * SpecA: phase accumulators (tests/tones_generator.cpp, tests/sweep_generator.cpp) *)
From Coq Require Import ZArith List Bool Reals.
From Flocq Require Import Core IEEE754.BinarySingleNaN.
From Verif Require Import Num Maths CrossFader Wavetable Osc Spec B32 SpecF SpecO.
Import ListNotations.
Local Open Scope Z_scope.

(** std::fmod(x, 1.0F) -- tests/tones_generator.cpp:26, tests/sweep_generator.cpp:27, 42.  Exact
    in C: x minus its integer part, with the sign of x.  Simplification: for finite x, |x| < 2^24
    (the sums below are less than 2) *)
Definition fmod1 (x : f32) : f32 :=
  match @Bminus 24 128 p32 e32 mode_NE x (f32_ofZ (Btrunc x)) with
  | B754_zero _ => B754_zero (Bsign x)
  | r => r
  end.

(** phase = std::fmod(phase + phase_step, 1.0F), once per step -- the loops of
    generateTonePhase (tests/tones_generator.cpp:25-28, constant step), generateLinearSweepPhase
    and generateExpSweepPhase (tests/sweep_generator.cpp:25-29, 40-44, the step varies) *)
Fixpoint accum (p : f32) (ss : list f32) : list f32 :=
  match ss with
  | [] => []
  | s :: t => let q := fmod1 (@Bplus 24 128 p32 e32 mode_NE p s) in q :: accum q t
  end.

(** steps of at least 2^-23 and at most 1/2 - 2^-23 of a cycle (at 44.1 kHz: from 0.006 Hz to
    0.006 Hz below half the sample rate) *)
Definition fairStep (s : f32) : Prop :=
  is_finite s = true /\ (/ IZR (2 ^ 23) <= B2R s <= / 2 - / IZR (2 ^ 23))%R.

Section Tones.
Variable lm : Libm.
Notation N := (B32 lm).

(** generateTone -- tests/tones_generator.cpp:85-104: reset to phase 0 with the step of the tone,
    then one block of [n] samples (process's default direction is kBidirectionnal) *)
Definition tone (t : f32 * nat) : list (Op N) :=
  let '(s, n) := t in
  [OpReset N (f32_ofZ 0) s; OpProcess N kBidirectionnal (accum (f32_ofZ 0) (repeat s n))].

(** the whole program -- tests/tones_generator.cpp:157-190: init with the default state
    (phase 0, step 0.4), then the tones *)
Definition tones (w : WT N) (ts : list (f32 * nat)) : list (Op N) :=
  OpInit N (Some w) (f32_ofZ 0) (tfrac N 4 10) :: flat_map tone ts.
End Tones.

(** a step, forward or backward, that stays in the octave of entry [r] of a table of base length
    2^K even when it is off by 2^-23 *)
Definition octaveStep (K r : Z) (s : f32) : Prop :=
  is_finite s = true /\ (/ IZR (2 ^ 23) <= Rabs (B2R s) <= / 2 - / IZR (2 ^ 23))%R /\
  entryFor K (Rabs (B2R s) - / IZR (2 ^ 23)) r /\ entryFor K (Rabs (B2R s) + / IZR (2 ^ 23)) r.
