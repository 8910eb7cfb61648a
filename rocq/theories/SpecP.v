(** * SpecP: phases outside [0,1) (the library documents [0,1), tests/tones_generator.cpp
    feeds phases of (-1,0] for negative frequencies) *)
From Coq Require Import ZArith List Bool Reals.
From Flocq Require Import Core IEEE754.BinarySingleNaN.
From Verif Require Import Num Maths CrossFader Wavetable Osc Spec B32 SpecF SpecO RNum.
Import ListNotations.
Local Open Scope Z_scope.

(** a phase of [-1,2), but not one of the tiny negative numbers from -2^-25 on, whose sum with
    one rounds to one *)
Definition phaseWide (p : f32) : Prop :=
  is_finite p = true /\ (-1 <= B2R p < 2)%R /\ ((B2R p < - / IZR (2 ^ 25))%R \/ (0 <= B2R p)%R).

(** not on the start of the cycle *)
Definition offZero (p : f32) : Prop := B2R p <> 0%R /\ B2R p <> 1%R /\ B2R p <> (-1)%R.

Section Hist.
Variable lm : Libm.
Variable src : Resampler (B32 lm).
Variable debug : bool.
Notation N := (B32 lm).
(** [noReverse0]: exclude steps (or initial states) that are not forward and stand on the start
    of the cycle -- the situation of C22 *)
Variable noReverse0 : bool.

Definition okInitW (p d : f32) : Prop :=
  phaseWide p /\ is_finite d = true /\ (debug = true -> B2R d <> 0%R) /\
  (noReverse0 = true -> (0 < B2R d)%R \/ (B2R d < 0)%R /\ offZero p).

(** kForward is only given steps it reads as forward; in a debug build no step is zero or more
    than half a cycle *)
Definition okStepW (dir : Direction) (prev p : f32) : Prop :=
  phaseWide p /\
  (dir = kForward -> (0 <= B2R (step32 lm dir prev p))%R) /\
  (debug = true -> B2R (step32 lm dir prev p) <> 0%R /\ (- / 2 <= B2R (step32 lm dir prev p) <= / 2)%R) /\
  (noReverse0 = true -> (0 < B2R (step32 lm dir prev p))%R \/
                        (B2R (step32 lm dir prev p) < 0)%R /\ offZero p).

Fixpoint okBlockW (dir : Direction) (prev : f32) (ps : list f32) : Prop :=
  match ps with [] => True | p :: t => okStepW dir prev p /\ okBlockW dir p t end.

(** [okHist] of SpecO.v with these wider phases *)
Fixpoint okHistW (st : option (f32 * Z)) (ops : list (Op N)) : Prop :=
  match ops with
  | [] => True
  | OpInit _ None _ _ :: rest | OpSwap _ None _ _ :: rest => okHistW st rest
  | OpInit _ (Some w) p d :: rest | OpSwap _ (Some w) p d :: rest =>
      usable lm src debug w /\ okInitW p d /\ okHistW (Some (p, wt_numWaveforms N w)) rest
  | OpReset _ p d :: rest =>
      match st with Some (_, nw) => okInitW p d /\ okHistW (Some (p, nw)) rest | None => False end
  | OpSetWaveform _ k :: rest =>
      match st with Some (_, nw) => 0 <= k < nw /\ okHistW st rest | None => False end
  | OpUpdateSamplerate _ sr :: rest =>
      match st with Some _ => okRate lm sr /\ okHistW st rest | None => False end
  | OpProcess _ dir ps :: rest =>
      match st with
      | Some (prev, nw) => okBlockW dir prev ps /\ okHistW (Some (last ps prev, nw)) rest
      | None => False
      end
  end.
End Hist.

(** ** exact arithmetic: the position in the cycle of a phase, and a history with every phase
    replaced by its position in the cycle *)
Definition cyc (p : R) : R := (p - IZR (Zfloor p))%R.

Definition cycOp (op : Op RNum) : Op RNum :=
  match op with
  | OpInit _ w p d => OpInit RNum w (cyc p) d
  | OpSwap _ w p d => OpSwap RNum w (cyc p) d
  | OpReset _ p d => OpReset RNum (cyc p) d
  | OpProcess _ dir ps => OpProcess RNum dir (map cyc ps)
  | op => op
  end.

(** phases of [-1,2); consecutive ones less than a cycle and a half apart (kForward: at most a
    cycle back and less than a cycle ahead) and not half a cycle apart *)
Definition wideStep (dir : Direction) (prev p : R) : Prop :=
  (-1 <= p < 2)%R /\
  match dir with
  | kForward => (-1 <= p - prev < 1)%R
  | kBidirectionnal => (Rabs (p - prev) < 3 / 2)%R /\ Rabs (p - prev) <> (1 / 2)%R
  end.
Fixpoint wideBlock (dir : Direction) (prev : R) (ps : list R) : Prop :=
  match ps with [] => True | p :: t => wideStep dir prev p /\ wideBlock dir p t end.
(** along a history; [prev] is the last phase given (0 for a new oscillator) *)
Fixpoint wideHist (prev : R) (ops : list (Op RNum)) : Prop :=
  match ops with
  | [] => True
  | OpInit _ None _ _ :: rest | OpSwap _ None _ _ :: rest => wideHist prev rest
  | OpInit _ (Some _) p _ :: rest | OpSwap _ (Some _) p _ :: rest | OpReset _ p _ :: rest =>
      (-1 <= p < 2)%R /\ wideHist p rest
  | OpProcess _ dir ps :: rest => wideBlock dir prev ps /\ wideHist (last ps prev) rest
  | _ :: rest => wideHist prev rest
  end.

(** two outcomes that a caller cannot tell apart (but for the last phase as it was given) *)
Definition sameRun (a b : res (Osc RNum * list R)) : Prop :=
  match a, b with
  | Ok (o, ys), Ok (o', ys') =>
      ys = ys' /\ prevPhaseDiff RNum o = prevPhaseDiff RNum o' /\ o_wf o = o_wf o' /\ o_wt o = o_wt o' /\
      prevPhase RNum o' = cyc (prevPhase RNum o)
  | Fault e, Fault e' => e = e'
  | _, _ => False
  end.
