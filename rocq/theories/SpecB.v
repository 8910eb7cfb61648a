(** * SpecB: what the filters keep out

    The gain left at and above a frequency, by the design of each filter. *)
From Coq Require Import ZArith List Bool Reals.
From Verif Require Import Num Filters Osc RNum.
From Coquelicot Require Import Coquelicot.
From Verif Require Import SpecE SpecX SpecV SpecG SpecH.
Import ListNotations.
Local Open Scope R_scope.

(** [stops f c G]: by its design, the filter [f] lets through at most [G] of the amplitude of any
    tone of [c] cycles per sample or more.  Types 1, 3 and 4 are Butterworth filters (orders 2, 4,
    6; cut-off 0.45; one part in 10^7 of the power for the decimals of the coefficients); types
    2 and 5 have a stop band that begins at 0.61. *)
Definition stops (f : FilterType) (c G : R) : Prop :=
  match f with
  | kType1 => 0 < c /\ G = sqrt (butterworth 2 (45 / 100) c + / 10000000)
  | kType3 => 0 < c /\ G = sqrt (butterworth 4 (45 / 100) c + / 10000000)
  | kType4 => 0 < c /\ G = sqrt (butterworth 6 (45 / 100) c + / 10000000)
  | kType2 | kType5 => 61 / 100 <= c /\ G = 205 / 100000
  end.

(** the same harmonics, each heard at its own frequency less [k] cycles per sample *)
Definition folded (F : Filt RNum) (k : Z) (hs : list Harmonic) (d q : R) (n : nat) : R :=
  rsum (List.map (fun h => amplitude h *
     fst (transfer F (axis (number h * d)) *
          turn (2 * PI * (number h * q + (number h * d - IZR k) * INR n) + offset h))%C) hs).
