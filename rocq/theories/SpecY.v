(** * SpecY: vocabulary for the statements about clicks (moves between table entries after
    which the library starts a sample in the wrong segment) *)
From Coq Require Import ZArith List Bool Reals.
From Flocq Require Import Core.
From Verif Require Import Num CrossFader Wavetable Osc Spec SpecC SpecT RNum.
From Coquelicot Require Import Coquelicot.
From Verif Require Import SpecE.
Import ListNotations.
Local Open Scope R_scope.

(** how much the waveform through [ys] bends at sample [i] *)
Definition kink (ys : list R) (i : Z) : R := cyc ys (i - 1) - 2 * cyc ys i + cyc ys (i + 1).

(** minus what a pole [z] makes, by the end of a sample, of a ramp of slope 1 per sample that
    lasted [s] samples and ended when the sample began *)
Definition click (z : C) (s : R) : C :=
  (cexp z * (1 + RtoC s * z - cexp (RtoC s * z)) / (z * z))%C.

(** sum of [f i] for lo <= i < hi *)
Definition sumFrom (f : Z -> C) (lo hi : Z) : C := fold_right (fun i s => (f i + s)%C) (RtoC 0) (zrange lo hi).

(** what a sample to phase [p] should sound like: SpecE.sample without the restriction on the
    moves between entries *)
Inductive ideally (src : Resampler RNum) (dbg : bool) (F : Filt RNum) (dir : Direction) (st : Ideal) (p : R)
  : R -> Prop :=
| ideally_ d w' m g mu gu :
    sharp p ->
    d = stepBetween RNum dir (id_phase st) p -> d <> 0 -> -/2 <= d <= /2 ->
    wt_findMipMapIndices RNum dbg (id_tab st) (Rabs d) = Ok (w', (m, g, mu, gu)) ->
    ideally src dbg F dir st p
      (audible (allPoles F (mixed src st (id_phase st) d (m, g, mu, gu)) (id_mem st))).

(** filter memory [ys] with 2 r e(z) added for every pole *)
Definition disturbed (F : Filt RNum) (e : C -> C) (ys : list C) : list C :=
  List.map (fun t => (snd t + 2 * fst (fst t) * e (snd (fst t)))%C) (combine (combine (f_r F) (f_z F)) ys).
