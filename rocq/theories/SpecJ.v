(** * SpecJ: phases at an even pace, calls that only play *)
From Coq Require Import ZArith List Bool Reals.
From Flocq Require Import Core IEEE754.BinarySingleNaN.
From Verif Require Import Num Osc B32.
Import ListNotations.
Local Open Scope R_scope.

(** modulo whole turns, the n-th of the phases [ps] is within [eta] of [q] + n [d] *)
Definition paced (q d eta : R) (ps : list (binary_float 24 128)) : Prop :=
  forall n p, nth_error ps n = Some p ->
  exists turns : Z, Rabs (B2R p - (q + d * INR (S n)) - IZR turns) <= eta.

(** processing and waveform selection *)
Definition onlyPlays {lm : Libm} (op : Op (B32 lm)) : Prop :=
  match op with OpProcess _ _ _ | OpSetWaveform _ _ => True | _ => False end.
