(** * Spec: the independent specification the property theorems are stated against.

    Nothing here refers to how the library computes; it only uses the number system, lists
    and the resampler's interface. *)
From Coq Require Import ZArith List Bool Reals.
From Verif Require Import Num CrossFader Wavetable.
Import ListNotations.
Local Open Scope Z_scope.

(** ** Building tables *)
Section Build.
Variable N : Num.
Variable src : Resampler N.

(** waveform [i] of a span holding waveforms of [len] samples one after the other *)
Definition waveform (wfs : list (T N)) (len i : Z) : list (T N) :=
  firstn (Z.to_nat len) (skipn (Z.to_nat (i * len)) wfs).

(** the third of the five periods the resampler returns when fed five periods of [wf] and
    asked to divide the rate by [ratio] *)
Definition thirdOfFive (wf : list (T N)) (ratio : Z) : list (T N) :=
  let out := zlen wf / ratio in
  let data := so_data (src (wf ++ wf ++ wf ++ wf ++ wf) ratio (5 * out)) in
  firstn (Z.to_nat out) (skipn (Z.to_nat (2 * out))
    (firstn (Z.to_nat (5 * out)) (data ++ repeat (t0 N) (Z.to_nat (5 * out))))).

(** samples of mipmap entry [i]: the waveform itself, divided by 2^i -- in two stages when
    2^i exceeds the resampler's limit 2^8 *)
Definition mipmap (wf : list (T N)) (i : Z) : list (T N) :=
  if i =? 0 then wf
  else if i <=? 8 then thirdOfFive wf (2 ^ i)
  else thirdOfFive (thirdOfFive wf (2 ^ (i - 8))) 256.

(** a resampler that never fails and consumes / produces what it is asked to *)
Definition resamplerOk : Prop := forall inp ratio cap,
  so_err (src inp ratio cap) = 0 /\
  so_used (src inp ratio cap) = zlen inp /\
  so_gen (src inp ratio cap) = cap.
End Build.

(** ** Cross-fading *)
Section Fade.
Variable N : Num.
Variable src : Resampler N.
Variable dbg : bool.

(** a sequence of findMipMapIndices calls, with everything they return *)
Fixpoint ask (w : WT N) (ds : list (T N)) : res (WT N * list (MMI N)) :=
  match ds with
  | [] => Ok (w, [])
  | d :: rest =>
      let! (w1, m) := wt_findMipMapIndices N dbg w d in
      let! (w2, ms) := ask w1 rest in
      Ok (w2, m :: ms)
  end.

(** tables in use, of base length 2^K and with a fade of [n] samples: built from well-formed
    arguments at a sample rate satisfying [rate], then asked for mipmap entries
    (with any step the build accepts) and re-sampled, any number of times *)
Variable rate : T N -> Prop.
Inductive reachable (K : Z) : Z -> WT N -> Prop :=
| r_build wfs nw sr fade n w :
    2 <= K <= 24 -> 1 <= nw -> zlen wfs = nw * 2 ^ K -> nw * 2 ^ K <= int_max -> rate sr ->
    tcast N (tmul N fade sr) = Ok n -> wt_build N src dbg wfs nw sr fade = Ok (Some w) ->
    reachable K n w
| r_ask n w d w' m :
    reachable K n w -> wt_findMipMapIndices N dbg w d = Ok (w', m) ->
    reachable K n w'
| r_resample n w sr fade n' w' :
    reachable K n w -> rate sr -> tcast N (tmul N fade sr) = Ok n' ->
    wt_updateSamplerate N src dbg w sr fade = Ok w' -> reachable K n' w'.
End Fade.

(** entry [i] of a table of base length 2^K is the one for phase step [d]: entry i serves
    steps from 2^i/2^K up to (excluding) 2^(i+1)/2^K; the first also everything below, the
    last (K-2) everything above *)
Definition entryFor (K : Z) (d : R) (i : Z) : Prop :=
  0 <= i <= K - 2 /\
  (i = K - 2 \/ (d < IZR (2 ^ (i + 1)) / IZR (2 ^ K))%R) /\
  (i = 0 \/ (IZR (2 ^ i) / IZR (2 ^ K) <= d)%R).

(** the README's rule on the successive octaves [octs]: no jump of more than one octave, and
    more than [n] calls between two changes *)
Definition octaveRule (n : Z) (octs : list Z) : Prop :=
  (forall i a b, nth_error octs i = Some a -> nth_error octs (S i) = Some b -> Z.abs (b - a) <= 1) /\
  (forall i j a b c e, (i < j)%nat ->
     nth_error octs i = Some a -> nth_error octs (S i) = Some b -> a <> b ->
     nth_error octs j = Some c -> nth_error octs (S j) = Some e -> c <> e ->
     n < Z.of_nat j - Z.of_nat i).
