(** * SpecC: vocabulary for statements about sequences of oscillator calls *)
From Coq Require Import ZArith List Bool.
From Verif Require Import Num Wavetable Osc.
Import ListNotations.
Local Open Scope Z_scope.

Section Calls.
Variable N : Num.

(** what the caller of a history sees: the samples, or the fault *)
Definition outputs (r : res (Osc N * list (T N))) : res (list (T N)) := let! (_, ys) := r in Ok ys.

(** the phase step from [q] to [p], wrapped forwards or to the nearest direction *)
Definition stepBetween (dir : Direction) (q p : T N) : T N :=
  let d := tsub N p q in
  match dir with
  | kForward => if tlt N d (t0 N) then tadd N d (t1 N) else d
  | kBidirectionnal =>
      if tlt N d (tfrac N (-1) 2) then tadd N d (t1 N)
      else if tlt N (tfrac N 1 2) d then tsub N d (t1 N) else d
  end.

(** calls that stay with waveform [k] of the loaded table *)
Definition staysOn (k : Z) (op : Op N) : Prop :=
  match op with
  | OpInit _ (Some _) _ _ | OpSwap _ (Some _) _ _ => False
  | OpSetWaveform _ k' => k' = k
  | _ => True
  end.

(** same table samples and phase grids (the cross-fader may differ) *)
Definition sameTables (w w' : WT N) : Prop := wt_slots w' = wt_slots w /\ wt_ph w' = wt_ph w.
End Calls.
