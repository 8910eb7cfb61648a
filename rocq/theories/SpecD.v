(** * SpecD: tables that are played and re-sampled again and again (for C48) *)
From Coq Require Import ZArith List Bool.
From Verif Require Import Num Maths CrossFader Wavetable Spec SpecC SpecT.
Import ListNotations.

Section Many.
Variable N : Num.
Variable src : Resampler N.
Variable dbg : bool.
(** [later w0 n w]: from the table [w0], by any mixture of samples played (each asks the table
    for mipmap indices) and exactly [n] sample-rate changes, one gets the table [w] *)
Inductive later (w0 : WT N) : nat -> WT N -> Prop :=
| later_here : later w0 0 w0
| later_ask n w d w' m :
    later w0 n w -> wt_findMipMapIndices N dbg w d = Ok (w', m) -> later w0 n w'
| later_update n w sr fade w' :
    later w0 n w -> wt_updateSamplerate N src dbg w sr fade = Ok w' -> later w0 (S n) w'.
End Many.
