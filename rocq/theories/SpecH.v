(** * SpecH: sums of harmonics

    A periodic waveform described by its harmonics, and what is heard when each harmonic goes
    through the filter on its own. *)
From Coq Require Import ZArith List Bool Reals.
From Verif Require Import Num Osc RNum.
From Coquelicot Require Import Coquelicot.
From Verif Require Import SpecE SpecX SpecV SpecG.
Import ListNotations.
Local Open Scope R_scope.

(** a harmonic: its number, amplitude and phase *)
Definition Harmonic : Type := (Z * R * R)%type.
Definition number (h : Harmonic) : R := IZR (fst (fst h)).
Definition amplitude (h : Harmonic) : R := snd (fst h).
Definition offset (h : Harmonic) : R := snd h.
Definition rsum (l : list R) : R := fold_right Rplus 0 l.

(** the waveform made of the harmonics [hs], one period per unit of phase *)
Definition harmonics (hs : list Harmonic) (x : R) : R :=
  rsum (List.map (fun h => amplitude h * cos (2 * PI * number h * x + offset h)) hs).

(** the harmonics [hs] played at [d] periods per sample from phase [q], each multiplied by
    the filter's transfer function at its own frequency, [n] samples later *)
Definition heard (F : Filt RNum) (hs : list Harmonic) (d q : R) (n : nat) : R :=
  rsum (List.map (fun h => amplitude h *
     fst (transfer F (axis (number h * d)) * turn (2 * PI * number h * (q + d * INR n) + offset h))%C) hs).

(** total amplitude *)
Definition loudness (hs : list Harmonic) : R := rsum (List.map (fun h => Rabs (amplitude h)) hs).

(** harmonics that, played at [d] periods per sample, are below / not below the frequency [c] *)
Definition below (c d : R) (hs : list Harmonic) : list Harmonic :=
  filter (fun h => if Rlt_dec (Rabs (number h * d)) c then true else false) hs.
Definition above (c d : R) (hs : list Harmonic) : list Harmonic :=
  filter (fun h => if Rlt_dec (Rabs (number h * d)) c then false else true) hs.

(** every step of the phases [ps] played from [q] is [d] *)
Definition steady (dir : Direction) (q d : R) (ps : list R) : Prop :=
  List.Forall (fun s => s = d) (stepsOf dir q ps).

(** what straight lines between [len] samples per period cost: sum of |a| (2 pi k / len)^2 / 8 *)
Definition bend (hs : list Harmonic) (len : Z) : R :=
  rsum (List.map (fun h => Rabs (amplitude h) * ((2 * PI * number h / IZR len) ^ 2 / 8)) hs).
