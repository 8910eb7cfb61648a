(** * SpecBank: the same calls for two sets of waveforms *)
From Coq Require Import ZArith List.
From Verif Require Import Num Wavetable Osc Spec.
Local Open Scope Z_scope.

Section Bank.
Variable N : Num.

(** waveform [i] of the set [wfs1] of [nw1] has the same samples as waveform [j] of the set
    [wfs2] of [nw2] *)
Definition sameWave (K : Z) (wfs1 wfs2 : list (T N)) (nw1 nw2 i j : Z) : Prop :=
  0 <= i < nw1 /\ 0 <= j < nw2 /\ waveform N wfs1 (2 ^ K) i = waveform N wfs2 (2 ^ K) j.

(** the same call, but for the number of the waveform selected; no call loads a table *)
Definition moved (J : Z -> Z -> Prop) (op1 op2 : Op N) : Prop :=
  match op1 with
  | OpInit _ (Some _) _ _ | OpSwap _ (Some _) _ _ => False
  | OpSetWaveform _ i => match op2 with OpSetWaveform _ j => J i j | _ => False end
  | _ => op2 = op1
  end.

(** calls that neither load a table nor select a waveform *)
Definition plain (op : Op N) : Prop :=
  match op with
  | OpInit _ (Some _) _ _ | OpSwap _ (Some _) _ _ | OpSetWaveform _ _ => False
  | _ => True
  end.
End Bank.
