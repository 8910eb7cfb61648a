(** * SpecL: call sequences that differ in the waveforms they select *)
From Coq Require Import ZArith List Bool Reals.
From Verif Require Import Num CrossFader Wavetable Osc.
Import ListNotations.

(** the same call, or two selections of (possibly different) waveforms *)
Definition sameButWaveform {N : Num} (a b : Op N) : Prop :=
  a = b \/ exists i j, a = OpSetWaveform N i /\ b = OpSetWaveform N j.

(** number of samples a sequence of calls asks for *)
Definition asked {N : Num} (ops : list (Op N)) : nat :=
  list_sum (map (fun op => match op with OpProcess _ _ ps => length ps | _ => 0%nat end) ops).
