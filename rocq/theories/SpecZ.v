(** * SpecZ: standing still (for C64)

    The ideal oscillator of SpecE does not say what a sample is whose phase is that of the
    sample before.  Here it may stand still: the filter is fed with the value of the waveform at
    that phase. *)
From Coq Require Import ZArith List Bool Reals.
From Flocq Require Import Core.
From Verif Require Import Num CrossFader Wavetable Osc Spec SpecC SpecT RNum.
From Coquelicot Require Import Coquelicot.
From Verif Require Import SpecE.
Import ListNotations.
Local Open Scope R_scope.

(** phase [p] is one of the [2^k] grid points of an entry of [2^k] samples *)
Definition onGrid (k : Z) (p : R) : Prop := exists i : Z, p = IZR i / IZR (2 ^ k).

Section Still.
Variable src : Resampler RNum.
Variable dbg : bool.
Variable F : Filt RNum.

(** one sample; the same as [SpecE.sample] except that the step may be 0 *)
Inductive sample0 (dir : Direction) (st : Ideal) (p : R) : Ideal -> R -> Prop :=
| sample0_ d w' m g mu gu mem :
    sharp p ->
    d = stepBetween RNum dir (id_phase st) p -> -/2 <= d <= /2 ->
    wt_findMipMapIndices RNum dbg (id_tab st) (Rabs d) = Ok (w', (m, g, mu, gu)) ->
    traceable st m \/ id_step st = 0 /\ (id_entry st <= m)%Z ->
    (d = 0 -> ~ onGrid (id_K st - m) p) ->         (* standing on a grid point: left out *)
    (d < 0 -> id_step st <> 0) ->                  (* going back right after standing: left out *)
    mem = allPoles F (mixed src st (id_phase st) d (m, g, mu, gu)) (id_mem st) ->
    sample0 dir st p
      (mkIdeal (id_K st) (id_nw st) (id_wfs st) w' (id_wf st) p d m mem) (audible mem).

Inductive block0 (dir : Direction) : Ideal -> list R -> Ideal -> list R -> Prop :=
| block0_nil st : block0 dir st [] st []
| block0_cons st p st1 y ps st2 ys :
    sample0 dir st p st1 y -> block0 dir st1 ps st2 ys ->
    block0 dir st (p :: ps) st2 (y :: ys).

(** whole histories of calls: those of [SpecE.plays] and blocks that stand still *)
Inductive roams : option Ideal -> list (Op RNum) -> option Ideal -> list R -> Prop :=
| ro_end st : roams st [] st []
| ro_plays st ops st1 ys rest st2 zs :
    plays src dbg F st ops st1 ys -> roams st1 rest st2 zs -> roams st (ops ++ rest) st2 (ys ++ zs)
| ro_block st dir ps st1 ys rest st2 zs :
    block0 dir st ps st1 ys -> roams (Some st1) rest st2 zs ->
    roams (Some st) (OpProcess RNum dir ps :: rest) st2 (ys ++ zs).
End Still.

(** steps that never turn back right after standing *)
Fixpoint noTurn (steps : list R) : Prop :=
  match steps with
  | a :: ((b :: _) as rest) => (a = 0 -> 0 <= b) /\ noTurn rest
  | _ => True
  end.

(** the grid points where a block stands still: phase [p] comes after [q] with step 0 *)
Fixpoint standsOff (dir : Direction) (k : Z) (q : R) (ps : list R) : Prop :=
  match ps with
  | [] => True
  | p :: rest => (stepBetween RNum dir q p = 0 -> ~ onGrid k p) /\ standsOff dir k p rest
  end.
