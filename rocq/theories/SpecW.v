(** * SpecW: vocabulary of the statements about work per sample (binary32) *)
From Coq Require Import ZArith List Bool Reals.
From Flocq Require Import Core IEEE754.BinarySingleNaN.
From Verif Require Import Num Maths Wavetable Osc Spec B32 SpecF SpecO.
Import ListNotations.
Local Open Scope Z_scope.

(** a phase that is 0, or not below 2^-100: a step between two such phases is never so small that its reciprocal overflows *)
Definition plainPhase (p : f32) : Prop := phase01 p /\ (B2R p = 0%R \/ (/ IZR (2 ^ 100) <= B2R p)%R).

Section Steps.
Variable lm : Libm.
(** the successive phase steps of a block starting from phase [prev] *)
Fixpoint steps32 (dir : Direction) (prev : f32) (ps : list f32) : list f32 :=
  match ps with [] => [] | p :: t => step32 lm dir prev p :: steps32 dir p t end.
End Steps.

(** a step, in either direction, of octave [r] and shorter than half a cycle *)
Definition stepIn (K r : Z) (d : f32) : Prop :=
  B2R d <> 0%R /\ (Rabs (B2R d) < / 2)%R /\ entryFor K (Rabs (B2R d)) r.
