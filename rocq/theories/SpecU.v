(** * SpecU: programs that differ slightly (for C63) *)
From Coq Require Import ZArith List Bool Reals.
From Flocq Require Import Core IEEE754.BinarySingleNaN.
From Verif Require Import Num CrossFader Wavetable Osc Spec SpecC SpecT RNum B32 SpecF SpecO SpecW.
From Coquelicot Require Import Coquelicot.
From Verif Require Import SpecE.
Import ListNotations.
Local Open Scope R_scope.

(** phases at most [eps] of a cycle apart, on the circle *)
Definition nearPhase (eps p p' : R) : Prop := exists n : Z, Rabs (p' - p - IZR n) <= eps.

(** steps in the same direction and the same octave: between the same powers of two *)
Definition sameOctave (d d' : R) : Prop :=
  0 < d * d' /\ exists i : Z, bpow radix2 i <= Rabs d < bpow radix2 (i + 1) /\ bpow radix2 i <= Rabs d' < bpow radix2 (i + 1).

Section Near.
Variable src : Resampler RNum.
Variable dbg : bool.
(** [eps]: phases, in cycles; [delta]: samples; [S]: slope of the waveforms per cycle *)
Variables eps delta S : R.

(** two tables built alike, from samples whose mipmap entries differ by at most [delta]; the
    first ones' consecutive samples differ by at most S / length *)
Definition nearTables (w w' : WT RNum) : Prop :=
  exists xs xs' nw K sr fade,
    wellFormed RNum xs nw K /\ wellFormed RNum xs' nw K /\ 0 < sr /\ 1 <= fade * sr < IZR int_max /\
    wt_build RNum src dbg xs nw sr fade = Ok (Some w) /\ wt_build RNum src dbg xs' nw sr fade = Ok (Some w') /\
    forall i k j, (0 <= i < nw)%Z -> (0 <= k <= K - 2)%Z ->
      let ys := mipmap RNum src (waveform RNum xs (2 ^ K) i) k in
      let ys' := mipmap RNum src (waveform RNum xs' (2 ^ K) i) k in
      Rabs (cyc ys' j - cyc ys j) <= delta /\
      Rabs (cyc ys (j + 1) - cyc ys j) * IZR (zlen ys) <= S.

(** two programs making the same calls with nearby tables and phases, and steps in the same
    octaves; [q] and [q'] are the last phases played before them *)
Inductive nearScripts : R -> R -> list (Op RNum) -> list (Op RNum) -> Prop :=
| ns_nil q q' : nearScripts q q' [] []
| ns_null q q' op l l' :
    (exists p d, op = OpInit RNum None p d \/ op = OpSwap RNum None p d) ->
    nearScripts q q' l l' -> nearScripts q q' (op :: l) (op :: l')
| ns_init q q' w w' p p' d d' l l' :
    nearTables w w' -> nearPhase eps p p' -> sameOctave d d' -> nearScripts p p' l l' ->
    nearScripts q q' (OpInit RNum (Some w) p d :: l) (OpInit RNum (Some w') p' d' :: l')
| ns_swap q q' w w' p p' d d' l l' :
    nearTables w w' -> nearPhase eps p p' -> sameOctave d d' -> nearScripts p p' l l' ->
    nearScripts q q' (OpSwap RNum (Some w) p d :: l) (OpSwap RNum (Some w') p' d' :: l')
| ns_reset q q' p p' d d' l l' :
    nearPhase eps p p' -> sameOctave d d' -> nearScripts p p' l l' ->
    nearScripts q q' (OpReset RNum p d :: l) (OpReset RNum p' d' :: l')
| ns_select q q' k l l' :
    nearScripts q q' l l' -> nearScripts q q' (OpSetWaveform RNum k :: l) (OpSetWaveform RNum k :: l')
| ns_rate q q' sr l l' :
    nearScripts q q' l l' -> nearScripts q q' (OpUpdateSamplerate RNum sr :: l) (OpUpdateSamplerate RNum sr :: l')
| ns_process q q' dir ps ps' l l' :
    Forall2 (nearPhase eps) ps ps' -> Forall2 sameOctave (stepsOf dir q ps) (stepsOf dir q' ps') ->
    nearScripts (last ps q) (last ps' q') l l' ->
    nearScripts q q' (OpProcess RNum dir ps :: l) (OpProcess RNum dir ps' :: l').
End Near.

(** the same for binary32 programs, with the same tables in both: phases at most [eps] of a
    cycle apart, computed steps in the same octaves *)
Section Near32.
Variable lm : Libm.
Variable eps : R.
Notation N := (B32 lm).
Definition nearPhase32 (p p' : f32) : Prop := nearPhase eps (B2R p) (B2R p').
Definition sameOctave32 (d d' : f32) : Prop := sameOctave (B2R d) (B2R d').

Inductive nearScripts32 : f32 -> f32 -> list (Op N) -> list (Op N) -> Prop :=
| n3_nil q q' : nearScripts32 q q' [] []
| n3_null q q' op l l' :
    (exists p d, op = OpInit N None p d \/ op = OpSwap N None p d) ->
    nearScripts32 q q' l l' -> nearScripts32 q q' (op :: l) (op :: l')
| n3_init q q' w p p' d d' l l' :
    nearPhase32 p p' -> sameOctave32 d d' -> nearScripts32 p p' l l' ->
    nearScripts32 q q' (OpInit N (Some w) p d :: l) (OpInit N (Some w) p' d' :: l')
| n3_swap q q' w p p' d d' l l' :
    nearPhase32 p p' -> sameOctave32 d d' -> nearScripts32 p p' l l' ->
    nearScripts32 q q' (OpSwap N (Some w) p d :: l) (OpSwap N (Some w) p' d' :: l')
| n3_reset q q' p p' d d' l l' :
    nearPhase32 p p' -> sameOctave32 d d' -> nearScripts32 p p' l l' ->
    nearScripts32 q q' (OpReset N p d :: l) (OpReset N p' d' :: l')
| n3_select q q' k l l' :
    nearScripts32 q q' l l' -> nearScripts32 q q' (OpSetWaveform N k :: l) (OpSetWaveform N k :: l')
| n3_rate q q' sr l l' :
    nearScripts32 q q' l l' -> nearScripts32 q q' (OpUpdateSamplerate N sr :: l) (OpUpdateSamplerate N sr :: l')
| n3_process q q' dir ps ps' l l' :
    Forall2 nearPhase32 ps ps' -> Forall2 sameOctave32 (steps32 lm dir q ps) (steps32 lm dir q' ps') ->
    nearScripts32 (last ps q) (last ps' q') l l' ->
    nearScripts32 q q' (OpProcess N dir ps :: l) (OpProcess N dir ps' :: l').
End Near32.
