(** * Mem: process when the phase span and the output span live in one piece of memory

    [process] in Osc.v takes two separate lists.  In C++ the two spans are windows into memory
    and may overlap; here the loop is written on the memory itself. *)
From Coq Require Import ZArith List Bool.
From Verif Require Import Num Maths CrossFader Wavetable Filters Osc.
Import ListNotations.
Local Open Scope Z_scope.

(** a span: offset of its first element and number of elements *)
Record Window : Type := mkWindow { wn_at : nat; wn_len : nat }.

Section Mem.
Variable N : Num.
Variable cfg : Cfg.
Variable F : Filt N.
Notation dbg := (dbg cfg).

(** the loops of processFwd and processBi -- adwt/adwt.cpp:376-384, 392-406.  [phase] is a
    reference into the phase span, read before [output] is written: processSampleFwd and
    processSampleBwd take it by value (adwt/adwt.cpp:410, 504) and store to [output] after
    computing the sample (491-493, 597-599). *)
Fixpoint memLoop (dir : Direction) (o : Osc N) (mem : list (T N)) (a b : nat) (n : nat)
  : res (Osc N * list (T N)) :=
  match n with
  | O => Ok (o, mem)
  | S n' =>
      let! p := znth mem (Z.of_nat a) in
      let! (o1, y) := processOne N cfg F dir o p in
      let! mem1 := zset mem (Z.of_nat b) y in
      memLoop dir o1 mem1 (S a) (S b) n'
  end.

(** Oscillator::process on two windows of one memory -- adwt/adwt.hpp:149-156,
    adwt/adwt.cpp:371-407; iter::zip stops at the shorter span *)
Definition processMem (dir : Direction) (o : Osc N) (mem : list (T N)) (phases output : Window)
  : res (Osc N * list (T N)) :=
  let! _ := assert_ dbg (is_some (o_wt o)) in
  let! _ := assert_ dbg (Z.of_nat (wn_len phases) =? Z.of_nat (wn_len output)) in
  memLoop dir o mem (wn_at phases) (wn_at output) (Nat.min (wn_len phases) (wn_len output)).

End Mem.
