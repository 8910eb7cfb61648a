(** * Prop_Invert: property C60 -- inverted samples give the inverted output, in binary32 *)
From Coq Require Import ZArith List Bool Reals Lia Lra Arith.
From Flocq Require Import Core IEEE754.BinarySingleNaN.
From Verif Require Import Num Maths CrossFader Wavetable Filters Osc Spec SpecC SpecT NumFacts B32 B32Facts Demo SpecF SpecO SpecS Rel PInv
  Prop_Build Prop_Safety.
Import ListNotations.
Local Open Scope Z_scope.

Lemma inverted_preserved lm : Preserved (B32 lm) inverted (inv 53 1024).
Proof.
  destruct (inv_preserved lm).
  constructor; intros; unfold inverted in *;
    repeat match goal with K : @Beqb 24 128 _ _ = true \/ _ |- _ => apply inv_Beqb in K end;
    try (apply (inv_Beqb 24 128)); auto.
Qed.

(** ** C60.  Take two scripts of calls that are the same but for the tables they load: where
    the first loads a table made of samples xs, the second loads one made of -xs (same number
    of waveforms, sample rate and fade).  Then both abort alike, or the second's output is the
    first's inverted, sample by sample and exactly (floats equal up to the sign of a zero;
    where one is NaN so is the other).  Any filter coefficients, SIMD width, debug or release,
    libm, fused products, order of the sum over the poles, any phases, any calls in any order
    (histories that leave the documented domain included), for any resampler that treats -xs
    as it treats xs. *)
Theorem C60_inverted : forall lm src cfg F l1 l2,
  evenHanded (B32 lm) src inverted -> relScripts (B32 lm) src (dbg cfg) inverted l1 l2 ->
  match outputs (B32 lm) (Osc.run (B32 lm) src cfg F (osc_new (B32 lm) F) l1),
        outputs (B32 lm) (Osc.run (B32 lm) src cfg F (osc_new (B32 lm) F) l2) with
  | Ok ys1, Ok ys2 => Forall2 inverted ys1 ys2
  | Fault f1, Fault f2 => f1 = f2
  | _, _ => False
  end.
Proof.
  intros lm src cfg F l1 l2 Hs Hl.
  assert (H := run2 (B32 lm) inverted _ (inverted_preserved lm) src Hs cfg F l1 l2 Hl _ _
     (new2 (B32 lm) inverted _ (inverted_preserved lm) F)).
  unfold R2, outputs in *.
  destruct (Osc.run (B32 lm) src cfg F (osc_new (B32 lm) F) l1) as [[o1 ys1]|],
    (Osc.run (B32 lm) src cfg F (osc_new (B32 lm) F) l2) as [[o2 ys2]|]; cbn in *; try contradiction; auto.
  exact (proj2 H).
Qed.
Print Assumptions C60_inverted.

(** The tables themselves: WavetableData::build accepts -xs exactly when it accepts xs (so the
    tables [relScripts] speaks of exist), and aborts on the one exactly when it aborts on the
    other. *)
Theorem C60_build : forall lm src dbg xs ys nw sr fade,
  evenHanded (B32 lm) src inverted -> Forall2 inverted xs ys ->
  match wt_build (B32 lm) src dbg xs nw sr fade, wt_build (B32 lm) src dbg ys nw sr fade with
  | Ok (Some w1), Ok (Some w2) => relTables (B32 lm) src dbg inverted w1 w2
  | Ok None, Ok None => True
  | Fault f1, Fault f2 => f1 = f2
  | _, _ => False
  end.
Proof.
  intros lm src dbg xs ys nw sr fade Hs Hxy.
  assert (H := build2 (B32 lm) inverted _ (inverted_preserved lm) src Hs dbg xs ys nw sr fade Hxy).
  unfold R2 in H.
  destruct (wt_build (B32 lm) src dbg xs nw sr fade) as [[w1|]|] eqn:E1,
    (wt_build (B32 lm) src dbg ys nw sr fade) as [[w2|]|] eqn:E2; cbn in *; try contradiction; auto.
  exists xs, ys, nw, sr, fade. auto.
Qed.
Print Assumptions C60_build.

Lemma zero_inverted x : zero32 x -> inverted x x.
Proof. intros [s ->]. left. now destruct s. Qed.
Lemma inverted_self x : inverted x x -> zero32 x \/ x = B754_nan.
Proof.
  intros H. apply (inv_Beqb 24 128) in H.
  destruct x as [s|s| |s m e K]; [left; now exists s| |now right|]; exfalso; inversion H; now destruct s.
Qed.
Lemma silent_related lm src dbg l : silentScript lm src dbg l -> relScripts (B32 lm) src dbg inverted l l.
Proof.
  induction 1 as [|op l Hop Hl IH]; [constructor|].
  assert (Tab : forall w, silentTable lm src dbg w -> relTables (B32 lm) src dbg inverted w w).
  { intros w (xs & nw & sr & fade & Z & E). exists xs, xs, nw, sr, fade. repeat split; auto.
    clear - Z. induction Z as [|x xs Z _ IH]; constructor; [now apply zero_inverted|exact IH]. }
  destruct op as [[w|] p d|[w|] p d| | | | ]; try (now apply rs_other); [apply rs_init|apply rs_swap]; auto.
Qed.

(** Silence: when every table loaded is made of zeros, every sample that comes out is a zero,
    never a stray non-zero number (NaN is the one other possibility, for phases whose
    exponential overflows). *)
Theorem C60_silence : forall lm src cfg F ops o ys,
  evenHanded (B32 lm) src inverted -> silentScript lm src (dbg cfg) ops ->
  Osc.run (B32 lm) src cfg F (osc_new (B32 lm) F) ops = Ok (o, ys) ->
  Forall (fun y => zero32 y \/ y = B754_nan) ys.
Proof.
  intros lm src cfg F ops o ys Hs Hl E.
  assert (H := C60_inverted lm src cfg F ops ops Hs (silent_related lm src (dbg cfg) ops Hl)).
  rewrite E in H. cbn in H. clear - H.
  assert (Q : forall l m : list f32, Forall2 inverted l m -> l = m -> Forall (fun y => zero32 y \/ y = B754_nan) l).
  { induction 1 as [|x y l m K _ IH]; intros V; [constructor|]. injection V as -> ->. constructor; [now apply inverted_self|auto]. }
  now apply (Q ys ys).
Qed.
Print Assumptions C60_silence.

(** ** The hypotheses are met *)
Lemma decimate_rel {A} (P : A -> A -> Prop) r : forall xs ys, Forall2 P xs ys -> forall k, Forall2 P (decimate r k xs) (decimate r k ys).
Proof. induction 1 as [|x y xs ys H _ IH]; intros [|k]; cbn [decimate]; [constructor..|constructor; auto|auto]. Qed.
(** the decimating resampler is even-handed *)
Example demo_even lm : evenHanded (B32 lm) (demo_src (B32 lm)) inverted.
Proof.
  intros xs ys ratio cap H. unfold demo_src. cbn [so_err so_used so_gen so_data].
  pose proof (decimate_rel inverted (Z.to_nat ratio) xs ys H 0%nat) as D.
  assert (E : zlen xs = zlen ys) by exact (F2_zlen inverted _ _ H).
  assert (E2 : zlen (decimate (Z.to_nat ratio) 0 xs) = zlen (decimate (Z.to_nat ratio) 0 ys)) by exact (F2_zlen inverted _ _ D).
  repeat split; auto.
Qed.
Lemma opp_inverted x : inverted x (Bopp x).
Proof.
  apply (inv_Beqb 24 128). destruct x; cbn [Bopp]; constructor.
Qed.

(** two waveforms of eight samples and the same inverted: forward and backward blocks, a change
    of waveform, a reset and a change of sample rate; neither run aborts *)
Example C60_case : exists w w' o ys,
  wt_build FN (demo_src FN) true demo16 2 sr48 (defaultFade FN) = Ok (Some w) /\
  wt_build FN (demo_src FN) true (map Bopp demo16) 2 sr48 (defaultFade FN) = Ok (Some w') /\
  relScripts FN (demo_src FN) true inverted (safeOps w) (safeOps w') /\
  Osc.run FN (demo_src FN) (mkCfg true 4) (filt FN kType2) (osc_new FN (filt FN kType2)) (safeOps w) = Ok (o, ys).
Proof.
  destruct C21_case as (w & E & HH & HF).
  destruct (C21_safe demo_libm (demo_src FN) (mkCfg true 4) (filt FN kType2) (safeOps w)) as (o & ys & R);
    [apply C02_case|apply C02_case|cbn; lia|exact HF|exact HH|].
  assert (B := C60_build demo_libm (demo_src FN) true demo16 (map Bopp demo16) 2 sr48 (defaultFade FN) (demo_even demo_libm)).
  assert (I2 : Forall2 inverted demo16 (map Bopp demo16)).
  { generalize demo16. induction l as [|x l IH]; cbn [map]; constructor; [apply opp_inverted|exact IH]. }
  specialize (B I2). change (B32 demo_libm) with FN in B. rewrite E in B.
  destruct (wt_build FN (demo_src FN) true (map Bopp demo16) 2 sr48 (defaultFade FN)) as [[w'|]|] eqn:E'; try contradiction.
  exists w, w', o, ys. split; [exact E|]. split; [reflexivity|]. split; [|exact R].
  unfold safeOps. apply rs_init; [exact B|]. repeat (apply rs_other; [exact I|]). apply rs_nil.
Qed.

(** sixteen zeros: the table builds, and the same calls make a silent script *)
Example C60_silence_case : exists w,
  wt_build FN (demo_src FN) true (repeat (B754_zero false : f32) 16) 2 sr48 (defaultFade FN) = Ok (Some w) /\
  silentScript demo_libm (demo_src FN) true (safeOps w).
Proof.
  destruct (C02_build_shape demo_libm (demo_src FN) true (repeat (B754_zero false) 16) 2 sr48 (defaultFade FN) 3 240) as (w & E & _);
      try lia; try reflexivity; try apply C02_case; try (unfold int_max; lia).
  exists w. split; [exact E|].
  unfold safeOps. constructor; [|repeat (constructor; [exact I|]); constructor].
  exists (repeat (B754_zero false) 16), 2, sr48, (defaultFade FN). split; [|exact E].
  repeat (constructor; [now exists false|]). constructor.
Qed.
