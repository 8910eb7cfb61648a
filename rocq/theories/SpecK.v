(** * SpecK: misuse (for C58) *)
From Coq Require Import ZArith List Bool Reals.
From Flocq Require Import Core IEEE754.BinarySingleNaN.
From Verif Require Import Num CrossFader Wavetable Osc B32.
Import ListNotations.

(** phases far from [0,1): NaN, infinite, at least 3 or below -2 *)
Definition badPhase (p : f32) : Prop := is_finite p = false \/ (3 <= B2R p)%R \/ (B2R p < -2)%R.

(** phases outside [-1,2]: NaN, infinite, above 2 or below -1 *)
Definition outsidePhase (p : f32) : Prop := is_finite p = false \/ (2 < B2R p)%R \/ (B2R p < -1)%R.

Section Calls.
Context {N : Num}.
(** calls that do not hand over a table *)
Definition noTable (op : Op N) : bool :=
  match op with OpInit _ (Some _) _ _ | OpSwap _ (Some _) _ _ => false | _ => true end.
(** calls that are given a null table: they do nothing *)
Definition nullTable (op : Op N) : bool :=
  match op with OpInit _ None _ _ | OpSwap _ None _ _ => true | _ => false end.
(** calls that do not look at the table: those above, selections and empty blocks *)
Definition looksAway (op : Op N) : bool :=
  match op with
  | OpInit _ None _ _ | OpSwap _ None _ _ | OpSetWaveform _ _ | OpProcess _ _ [] => true
  | _ => false end.
End Calls.
