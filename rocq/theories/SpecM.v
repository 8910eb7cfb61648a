(** * SpecM: vocabulary of the symmetry statements -- the same history along a phase axis that
    is moved, and possibly turned over *)
From Coq Require Import ZArith List Bool Reals.
From Flocq Require Import Core.
From Verif Require Import Num CrossFader Wavetable Osc Spec SpecC SpecT RNum.
From Coquelicot Require Import Coquelicot.
From Verif Require Import SpecE.
Import ListNotations.
Local Open Scope R_scope.

(** the phase axis turned over or not, then moved by [s], back into [0,1) *)
Definition sg (turn : bool) : R := if turn then -1 else 1.
Definition moved (turn : bool) (s p : R) : R :=
  let t := sg turn * p + s in t - IZR (Zfloor t).

(** [ys'] is [ys] rotated by [h] samples; [ys'] is [ys] mirrored (read backwards), its
    sample 0 becoming sample [h] *)
Definition rotated (h : Z) (ys ys' : list R) : Prop :=
  zlen ys' = zlen ys /\ forall j, cyc ys' (j + h) = cyc ys j.
Definition mirrored (h : Z) (ys ys' : list R) : Prop :=
  zlen ys' = zlen ys /\ forall j, cyc ys' (h - j) = cyc ys j.

Section Moved.
Variable src : Resampler RNum.
Variable dbg : bool.
Variable turn : bool.
Variable s : R.
(** tables of 2^K samples, of which the entries 0 to M can be heard *)
Variables K M : Z.

(** two tables built with the same settings, such that the second one contains the waveforms
    of the first along the moved axis, in every entry up to [M] *)
Definition movedTables (w w' : WT RNum) : Prop :=
  exists wfs wfs' nw sr fade,
    wellFormed RNum wfs nw K /\ wellFormed RNum wfs' nw K /\
    0 < sr /\ 1 <= fade * sr < IZR int_max /\
    wt_build RNum src dbg wfs nw sr fade = Ok (Some w) /\
    wt_build RNum src dbg wfs' nw sr fade = Ok (Some w') /\
    forall i k t, (0 <= i < nw)%Z -> (0 <= k <= M)%Z -> (k <= K - 2)%Z ->
      wave (mipmap RNum src (waveform RNum wfs' (2 ^ K) i) k) (sg turn * t + s) =
      wave (mipmap RNum src (waveform RNum wfs (2 ^ K) i) k) t.

(** steps for which only entries up to [M] can be heard: slow ones, or any when [M] is the
    last entry *)
Definition slow (d : R) : Prop := Rabs d < IZR (2 ^ M) / IZR (2 ^ K) \/ (K - 2 <= M)%Z.

(** the same calls along the moved axis; [q] is the phase before the calls.  A forward block
    becomes a bidirectional one when the axis is turned over.  In bidirectional blocks, steps
    of exactly half a cycle are excluded: their direction depends on the phases themselves,
    not only on their difference. *)
Inductive movedOps : R -> list (Op RNum) -> list (Op RNum) -> Prop :=
| mo_nil q : movedOps q [] []
| mo_null q op a b : (exists p d, op = OpInit RNum None p d \/ op = OpSwap RNum None p d) ->
    movedOps q a b -> movedOps q (op :: a) (op :: b)
| mo_init q w w' p d a b : movedTables w w' -> slow d -> movedOps p a b ->
    movedOps q (OpInit RNum (Some w) p d :: a)
               (OpInit RNum (Some w') (moved turn s p) (sg turn * d) :: b)
| mo_swap q w w' p d a b : movedTables w w' -> slow d -> movedOps p a b ->
    movedOps q (OpSwap RNum (Some w) p d :: a)
               (OpSwap RNum (Some w') (moved turn s p) (sg turn * d) :: b)
| mo_reset q p d a b : slow d -> movedOps p a b ->
    movedOps q (OpReset RNum p d :: a) (OpReset RNum (moved turn s p) (sg turn * d) :: b)
| mo_select q k a b : movedOps q a b ->
    movedOps q (OpSetWaveform RNum k :: a) (OpSetWaveform RNum k :: b)
| mo_rate q sr a b : movedOps q a b ->
    movedOps q (OpUpdateSamplerate RNum sr :: a) (OpUpdateSamplerate RNum sr :: b)
| mo_process q dir dir' ps a b :
    dir' = (if turn then kBidirectionnal else dir) ->
    List.Forall slow (stepsOf dir q ps) ->
    (dir' = kForward \/ List.Forall (fun d => Rabs d <> /2) (stepsOf dir q ps)) ->
    movedOps (last ps q) a b ->
    movedOps q (OpProcess RNum dir ps :: a)
      (OpProcess RNum dir' (List.map (moved turn s) ps) :: b).
End Moved.
