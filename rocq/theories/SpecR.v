(** * SpecR: the ideal the binary32 oscillator is compared with

    The same ideal as in SpecE -- the waveform drawn by straight lines through the samples,
    read at a phase that moves at constant speed from one phase to the next, filtered by the
    continuous-time filter and sampled -- but fed with the binary32 samples, phases and
    cross-fade gains.  Everything between them and the output is exact here. *)
From Coq Require Import ZArith List Bool Reals.
From Flocq Require Import Core IEEE754.BinarySingleNaN.
From Verif Require Import Num CrossFader Wavetable Filters Osc Spec SpecC SpecT RNum B32 SpecF SpecO SpecW.
From Coquelicot Require Import Coquelicot.
From Verif Require Import SpecE.
Import ListNotations.
Local Open Scope R_scope.

Definition finite (x : f32) : Prop := BinarySingleNaN.is_finite x = true.

(** what is asked of the two complex exponentials (cexpf and xsimd::exp): for arguments with
    real part in [-16, 0] and imaginary part in [-16, 16], an error of at most 8/2^24 of the
    modulus of the result *)
Definition accurateExp (lm : Libm) : Prop :=
  forall f, f = lm_cexp lm \/ f = lm_xexp lm ->
  forall a b : f32, finite a -> finite b -> -16 <= B2R a <= 0 -> Rabs (B2R b) <= 16 ->
    let r := f (a, b) in
    finite (fst r) /\ finite (snd r) /\
    Cmod ((B2R (fst r), B2R (snd r)) - cexp (B2R a, B2R b))%C <= 8 / IZR (2 ^ 24) * exp (B2R a).

(** samples and slopes bounded by 2^c; the slope is per unit of phase *)
Definition tame (c : Z) (ys : list f32) : Prop :=
  (forall y, In y ys -> finite y /\ Rabs (B2R y) <= bpow radix2 c) /\
  (forall j, Rabs (cyc (List.map (@B2R 24 128) ys) (j + 1) - cyc (List.map (@B2R 24 128) ys) j) * IZR (zlen ys) <= bpow radix2 c).

Section Ref.
Variable lm : Libm.
Variable src : Resampler (B32 lm).
Variable dbg : bool.
Variable f : FilterType.
Variable c : Z.
Notation N := (B32 lm).

(** samples of mipmap entry [k] of waveform [i] *)
Definition entry32 (wfs : list f32) (K i k : Z) : list f32 := mipmap N src (waveform N wfs (2 ^ K) i) k.
(** every entry of every waveform is tame *)
Definition tameAll (wfs : list f32) (nw K : Z) : Prop :=
  forall i k, (0 <= i < nw)%Z -> (0 <= k <= K - 2)%Z -> tame c (entry32 wfs K i k).

(** tables in use, with the samples they hold: built from [wfs] with a fade of at least one
    sample, then played and re-sampled (which replaces the samples by the ones the table
    gives back) any number of times *)
Inductive table32 (K nw : Z) : list f32 -> WT N -> Prop :=
| t32_build wfs sr fade n w :
    wellFormed N wfs nw K -> rate32 lm sr -> tcast N (tmul N fade sr) = Ok n -> (1 <= n)%Z ->
    wt_build N src dbg wfs nw sr fade = Ok (Some w) -> table32 K nw wfs w
| t32_ask wfs w d w' m :
    table32 K nw wfs w -> wt_findMipMapIndices N dbg w d = Ok (w', m) -> table32 K nw wfs w'
| t32_resample wfs w sr fade n w' wfs' :
    table32 K nw wfs w -> rate32 lm sr -> tcast N (tmul N fade sr) = Ok n -> (1 <= n)%Z ->
    rebuildWaveforms N dbg w = Ok wfs' ->
    wt_updateSamplerate N src dbg w sr fade = Ok w' -> table32 K nw wfs' w'.

(** the ideal oscillator: the table (for its cross-fader) and the samples it holds, the
    selected waveform, last phase, last step, last (lower) mipmap entry, filter memory *)
Record Ideal32 : Type := mkI32 {
  i_K : Z; i_nw : Z; i_wfs : list f32; i_tab : WT N;
  i_wf : Z; i_phase : f32; i_step : f32; i_entry : Z; i_mem : list C }.

(** the waveform of entry [k] *)
Definition curve (st : Ideal32) (k : Z) (t : R) : R :=
  wave (List.map (@B2R 24 128) (entry32 (i_wfs st) (i_K st) (i_wf st) k)) t.

(** as SpecE.traceable: moves between entries after which the library still knows where
    it is *)
Definition traceable32 (st : Ideal32) (m : Z) : Prop :=
  let m0 := i_entry st in
  (0 < B2R (i_step st) /\ (m0 - 1 <= m)%Z) \/
  (B2R (i_step st) < 0 /\
    (m = m0 \/ (m = m0 - 1)%Z /\ B2R (i_phase st) <> 0 \/
     (m0 < m)%Z /\ (Zceil (B2R (i_phase st) * IZR (2 ^ (i_K st - m0))) mod 2 ^ (m - m0) = 0)%Z)).

(** one sample.  The step [s] the library computes is not zero and shorter than half a cycle;
    [d] is the exact displacement, from the last phase to [p] modulo 1, shorter than half a
    cycle; the library's cross-fader answers with two entries and their gains *)
Inductive sample32 (dir : Direction) (st : Ideal32) (p : f32) : Ideal32 -> R -> Prop :=
| sample32_ s d k w' m g mu gu mem :
    plainPhase p ->
    s = step32 lm dir (i_phase st) p -> B2R s <> 0 -> Rabs (B2R s) < / 2 ->
    B2R (i_phase st) + d = B2R p + IZR k -> Rabs d < / 2 ->
    wt_findMipMapIndices N dbg (i_tab st) (tabs N s) = Ok (w', (m, g, mu, gu)) ->
    traceable32 st m ->
    mem = allPoles (filt RNum f)
            (fun u => B2R g * curve st m (B2R (i_phase st) + d * u)
                    + B2R gu * curve st mu (B2R (i_phase st) + d * u)) (i_mem st) ->
    sample32 dir st p
      (mkI32 (i_K st) (i_nw st) (i_wfs st) w' (i_wf st) p s m mem) (audible mem).

Inductive block32 (dir : Direction) : Ideal32 -> list f32 -> Ideal32 -> list R -> Prop :=
| block32_nil st : block32 dir st [] st []
| block32_cons st p st1 y ps st2 ys :
    sample32 dir st p st1 y -> block32 dir st1 ps st2 ys ->
    block32 dir st (p :: ps) st2 (y :: ys).

(** silent memory at phase [p], expecting steps of about [d] *)
Inductive fresh32 (K nw : Z) (wfs : list f32) (w : WT N) (wf : Z) (p d : f32) : Ideal32 -> Prop :=
| fresh32_ w' m g mu gu :
    plainPhase p -> finite d -> B2R d <> 0 ->
    wt_findMipMapIndices N dbg w (tabs N d) = Ok (w', (m, g, mu, gu)) ->
    fresh32 K nw wfs w wf p d
      (mkI32 K nw wfs w' wf p d m (repeat (RtoC 0) (numCoeffs f))).

(** whole histories of calls *)
Inductive plays32 : option Ideal32 -> list (Op N) -> option Ideal32 -> list R -> Prop :=
| p32_end st : plays32 st [] st []
| p32_null st op rest st' ys :
    (exists p d, op = OpInit N None p d \/ op = OpSwap N None p d) ->
    plays32 st rest st' ys -> plays32 st (op :: rest) st' ys
| p32_load st op w p d K nw wfs st1 rest st' ys :
    op = OpInit N (Some w) p d \/ op = OpSwap N (Some w) p d ->
    table32 K nw wfs w -> tameAll wfs nw K ->
    fresh32 K nw wfs w 0 p d st1 ->
    plays32 (Some st1) rest st' ys -> plays32 st (op :: rest) st' ys
| p32_reset st p d st1 rest st' ys :
    fresh32 (i_K st) (i_nw st) (i_wfs st) (i_tab st) (i_wf st) p d st1 ->
    plays32 (Some st1) rest st' ys -> plays32 (Some st) (OpReset N p d :: rest) st' ys
| p32_select st k rest st' ys :
    (0 <= k < i_nw st)%Z ->
    plays32 (Some (mkI32 (i_K st) (i_nw st) (i_wfs st) (i_tab st) k (i_phase st)
                         (i_step st) (i_entry st) (i_mem st))) rest st' ys ->
    plays32 (Some st) (OpSetWaveform N k :: rest) st' ys
| p32_rate st sr w' wfs' rest st' ys :
    okRate lm sr -> rebuildWaveforms N dbg (i_tab st) = Ok wfs' ->
    wt_updateSamplerate N src dbg (i_tab st) sr (defaultFade N) = Ok w' ->
    tameAll wfs' (i_nw st) (i_K st) ->
    plays32 (Some (mkI32 (i_K st) (i_nw st) wfs' w' (i_wf st) (i_phase st)
                         (i_step st) (i_entry st) (i_mem st))) rest st' ys ->
    plays32 (Some st) (OpUpdateSamplerate N sr :: rest) st' ys
| p32_process st dir ps st1 ys rest st' zs :
    block32 dir st ps st1 ys ->
    plays32 (Some st1) rest st' zs ->
    plays32 (Some st) (OpProcess N dir ps :: rest) st' (ys ++ zs).
End Ref.

(** how far the output of a shipped filter may be from the ideal, in units of 2^c/2^24, and
    how large the ideal output can be, in units of 2^c *)
Definition accuracy (f : FilterType) : R :=
  match f with kType1 => 530 | kType2 => 11800 | kType3 => 1360 | kType4 => 3560 | kType5 => 6320 end.
Definition loudest (f : FilterType) : R :=
  match f with kType1 => 4.7 | kType2 => 127.3 | kType3 => 11.8 | kType4 => 30.6 | kType5 => 58.3 end.
