(** * SpecRate: calls that stay in one octave; calls that differ in the sample rate *)
From Coq Require Import ZArith List Bool Reals.
From Flocq Require Import Core IEEE754.BinarySingleNaN.
From Verif Require Import Num Wavetable Osc Spec B32 SpecF SpecO SpecW.
Import ListNotations.
Local Open Scope Z_scope.

Section Rate.
Variable lm : Libm.
Notation N := (B32 lm).

(** a step served by entry [r] of a table of base length 2^K; not zero, and with kForward not
    backwards *)
Definition stays (K r : Z) (dir : Direction) (s : f32) : Prop :=
  is_finite s = true /\ B2R s <> 0%R /\ (dir = kForward -> (0 < B2R s)%R) /\ entryFor K (Rabs (B2R s)) r.

(** calls, from phase [prev], that reset, select waveforms and ask for blocks of samples, all
    with steps that stay with entry [r] *)
Fixpoint staysIn (K r : Z) (prev : f32) (ops : list (Op N)) : Prop :=
  match ops with
  | [] => True
  | OpReset _ p d :: rest => stays K r kBidirectionnal d /\ staysIn K r p rest
  | OpSetWaveform _ _ :: rest => staysIn K r prev rest
  | OpProcess _ dir ps :: rest =>
      Forall (stays K r dir) (steps32 lm dir prev ps) /\ staysIn K r (last ps prev) rest
  | _ => False
  end.

(** [n] samples of fade at the rate [sr], for updateSamplerate (whose fade is 5 ms) *)
Definition fadeOf (sr : f32) (n : Z) : Prop := tcast N (tmul N (defaultFade N) sr) = Ok n.

(** the same call, or two calls to updateSamplerate with rates whose fades have the same number
    of samples *)
Definition sameFade (a b : Op N) : Prop :=
  a = b \/
  exists sr1 sr2 n, a = OpUpdateSamplerate N sr1 /\ b = OpUpdateSamplerate N sr2 /\
    okRate lm sr1 /\ okRate lm sr2 /\ fadeOf sr1 n /\ fadeOf sr2 n.
End Rate.
