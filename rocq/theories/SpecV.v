(** * SpecV: continuous-time convolution, the filter as a whole

    What the output of the library is to be compared with when the filter is seen as one
    linear time-invariant system of full order: conjugate poles included, impulse response,
    convolution integral. *)
From Coq Require Import ZArith List Bool Reals.
From Flocq Require Import Core.
From Verif Require Import Num CrossFader Wavetable Osc Spec SpecC SpecT RNum.
From Coquelicot Require Import Coquelicot.
From Verif Require Import SpecE SpecX.
Import ListNotations.
Local Open Scope R_scope.

(** complex conjugate *)
Definition conj (z : C) : C := (fst z, - snd z).

(** the filter of full order: every pole and residue and their conjugates *)
Definition fullPoles (F : Filt RNum) : list (C * C) :=
  let half := combine (f_r F) (f_z F) in
  half ++ List.map (fun e : C * C => (conj (fst e), conj (snd e))) half.

(** its impulse response: the sum over all poles of r exp(z t) *)
Definition impulse (F : Filt RNum) (t : R) : C :=
  fold_right Cplus (RtoC 0) (List.map (fun e : C * C => (fst e * cexp (RtoC t * snd e))%C) (fullPoles F)).

(** pieces of signal played one after the other, one per unit of time (0 afterwards) *)
Definition signal (xs : list (R -> R)) (t : R) : R :=
  nth (Z.to_nat (Zfloor t)) xs (fun _ => 0) (t - IZR (Zfloor t)).

(** the signal through the filter, read at time [n]: the convolution integral *)
Definition filtered (F : Filt RNum) (xs : list (R -> R)) (n : nat) : R :=
  RInt (fun t => fst (impulse F (INR n - t)) * signal xs t) 0 (INR n).

Section Heard.
Variable src : Resampler RNum.
Variable dbg : bool.
Variable F : Filt RNum.

(** the waveforms read during one sample: phase running at constant speed from the last
    phase to [p], the mipmap entries mixed with their gains *)
Definition reads (dir : Direction) (st : Ideal) (p : R) (x : R -> R) : Prop :=
  let d := stepBetween RNum dir (id_phase st) p in
  exists w' mm, wt_findMipMapIndices RNum dbg (id_tab st) (Rabs d) = Ok (w', mm) /\
    x = mixed src st (id_phase st) d mm.

Inductive blockReads (dir : Direction) : Ideal -> list R -> Ideal -> list (R -> R) -> Prop :=
| br_nil st : blockReads dir st [] st []
| br_cons st p st1 y x ps st2 xs :
    sample src dbg F dir st p st1 y -> reads dir st p x ->
    blockReads dir st1 ps st2 xs -> blockReads dir st (p :: ps) st2 (x :: xs).

(** ... and during a history of calls that neither load a table nor reset *)
Inductive historyReads : Ideal -> list (Op RNum) -> list (R -> R) -> Prop :=
| hr_end st : historyReads st [] []
| hr_null st op rest xs :
    (exists p d, op = OpInit RNum None p d \/ op = OpSwap RNum None p d) ->
    historyReads st rest xs -> historyReads st (op :: rest) xs
| hr_select st k rest xs :
    historyReads (mkIdeal (id_K st) (id_nw st) (id_wfs st) (id_tab st) k (id_phase st)
                     (id_step st) (id_entry st) (id_mem st)) rest xs ->
    historyReads st (OpSetWaveform RNum k :: rest) xs
| hr_rate st sr w' rest xs :
    wt_updateSamplerate RNum src dbg (id_tab st) sr (5 / 1000) = Ok w' ->
    historyReads (mkIdeal (id_K st) (id_nw st) (id_wfs st) w' (id_wf st) (id_phase st)
                     (id_step st) (id_entry st) (id_mem st)) rest xs ->
    historyReads st (OpUpdateSamplerate RNum sr :: rest) xs
| hr_process st dir ps st1 xs rest ys :
    blockReads dir st ps st1 xs -> historyReads st1 rest ys ->
    historyReads st (OpProcess RNum dir ps :: rest) (xs ++ ys).
End Heard.

(** calls that clear the filter *)
Definition clears (op : Op RNum) : Prop :=
  match op with OpInit (Some _) _ _ | OpSwap (Some _) _ _ | OpReset _ _ => True | _ => False end.
