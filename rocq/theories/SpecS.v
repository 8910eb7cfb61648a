(** * SpecS: vocabulary for C60 -- scripts of calls that differ in the samples of their tables
    only, and mirrored (inverted) samples *)
From Coq Require Import ZArith List Bool Reals.
From Flocq Require Import Core IEEE754.BinarySingleNaN.
From Verif Require Import Num Wavetable Osc B32.
Import ListNotations.
Local Open Scope Z_scope.

Section Scripts.
Variable N : Num.
Variable src : Resampler N.
Variable dbg : bool.
(** how the samples of the two scripts are related *)
Variable rel : T N -> T N -> Prop.

(** a resampler that treats related inputs alike: same report, related output *)
Definition evenHanded : Prop :=
  forall xs ys ratio cap, Forall2 rel xs ys ->
    let ox := src xs ratio cap in let oy := src ys ratio cap in
    so_err ox = so_err oy /\ so_used ox = so_used oy /\ so_gen ox = so_gen oy /\
    Forall2 rel (so_data ox) (so_data oy).

(** two tables built with the same arguments from related samples *)
Definition relTables (w w' : WT N) : Prop :=
  exists xs ys nw sr fade, Forall2 rel xs ys /\
    wt_build N src dbg xs nw sr fade = Ok (Some w) /\
    wt_build N src dbg ys nw sr fade = Ok (Some w').

(** the same calls, but for the tables they load *)
Inductive relScripts : list (Op N) -> list (Op N) -> Prop :=
| rs_nil : relScripts [] []
| rs_init w w' p d l l' : relTables w w' -> relScripts l l' ->
    relScripts (OpInit N (Some w) p d :: l) (OpInit N (Some w') p d :: l')
| rs_swap w w' p d l l' : relTables w w' -> relScripts l l' ->
    relScripts (OpSwap N (Some w) p d :: l) (OpSwap N (Some w') p d :: l')
| rs_other op l l' :
    match op with OpInit _ (Some _) _ _ | OpSwap _ (Some _) _ _ => False | _ => True end ->
    relScripts l l' -> relScripts (op :: l) (op :: l').
End Scripts.

(** the second float is the first one inverted: [y == -x] as C++ compares floats (so the sign
    of a zero does not count), or both are NaN *)
Definition inverted (x y : f32) : Prop :=
  @Beqb 24 128 (Bopp x) y = true \/ x = B754_nan /\ y = B754_nan.

(** a float equal to zero (either sign) *)
Definition zero32 (x : f32) : Prop := exists s, x = B754_zero s.

(** a script whose every table is built from zero samples *)
Definition silentTable (lm : Libm) (src : Resampler (B32 lm)) (dbg : bool) (w : WT (B32 lm)) : Prop :=
  exists xs nw sr fade, Forall zero32 xs /\ wt_build (B32 lm) src dbg xs nw sr fade = Ok (Some w).
Definition silentScript (lm : Libm) (src : Resampler (B32 lm)) (dbg : bool) : list (Op (B32 lm)) -> Prop :=
  Forall (fun op => match op with
    | OpInit _ (Some w) _ _ | OpSwap _ (Some w) _ _ => silentTable lm src dbg w
    | _ => True end).
