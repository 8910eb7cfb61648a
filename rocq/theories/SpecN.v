(** * SpecN: vocabulary of the statements about NaN *)
From Coq Require Import ZArith List Bool.
From Flocq Require Import Core IEEE754.BinarySingleNaN.
From Verif Require Import Num Wavetable Osc B32.
Import ListNotations.

Notation nan := (@B754_nan 24 128).

(** a complex number with a NaN component *)
Definition nanC (c : f32 * f32) : Prop := fst c = nan \/ snd c = nan.

Section SpecN.
Variable lm : Libm.
Notation N := (B32 lm).

(** exp of NaN is NaN (ISO C, Annex G) *)
Definition nanExp : Prop := lm_cexp lm (nan, nan) = (nan, nan) /\ lm_xexp lm (nan, nan) = (nan, nan).

(** some filter state of the oscillator is NaN *)
Definition someNan (o : Osc N) : Prop := exists c, In c (o_y o) /\ nanC c.

(** the calls that keep the filter memory *)
Definition keepsMemory (op : Op N) : Prop :=
  match op with OpSetWaveform _ _ | OpUpdateSamplerate _ _ | OpProcess _ _ _ => True
  | OpInit _ None _ _ | OpSwap _ None _ _ => True | _ => False end.
End SpecN.
