(** * SpecT: vocabulary of the statements about table contents *)
From Coq Require Import ZArith List Bool Reals.
From Verif Require Import Num CrossFader Wavetable Spec RNum.
Import ListNotations.
Local Open Scope Z_scope.

Section Made.
Variable N : Num.
Variable src : Resampler N.
Variable dbg : bool.

(** [nw] waveforms of 2^K samples each, as build's documentation asks for *)
Definition wellFormed (wfs : list (T N)) (nw K : Z) : Prop :=
  2 <= K <= 24 /\ 1 <= nw /\ zlen wfs = nw * 2 ^ K /\ nw * 2 ^ K <= int_max.

(** the tables a program can hold after building from [wfs]: fresh from build, then played
    (asked for mipmap entries) and re-sampled, any number of times *)
Inductive madeFrom (wfs : list (T N)) (nw : Z) : WT N -> Prop :=
| m_build sr fade w :
    wt_build N src dbg wfs nw sr fade = Ok (Some w) -> madeFrom wfs nw w
| m_ask w d w' m :
    madeFrom wfs nw w -> wt_findMipMapIndices N dbg w d = Ok (w', m) -> madeFrom wfs nw w'
| m_resample w sr fade w' :
    madeFrom wfs nw w -> wt_updateSamplerate N src dbg w sr fade = Ok w' -> madeFrom wfs nw w'.
End Made.

(** element [j] of a list of reals, and sample [j] of a periodic waveform *)
Definition elem (l : list R) (j : Z) : R := nth (Z.to_nat j) l 0%R.
Definition cyc (l : list R) (j : Z) : R := elem l (j mod zlen l).

(** one step of a build or a sample-rate change: what the caller holds afterwards *)
Definition orNull {A} (r : res (option A)) : res A :=
  match r with Ok (Some a) => Ok a | Ok None => Fault NullDeref | Fault f => Fault f end.
