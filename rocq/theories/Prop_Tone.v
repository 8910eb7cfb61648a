(** * Prop_Tone: property C54 -- the tone generator of tests/tones_generator.cpp *)
From Coq Require Import ZArith List Bool Reals Lia Lra Arith.
From Flocq Require Import Core IEEE754.BinarySingleNaN.
From Verif Require Import Num Maths CrossFader Wavetable Filters Osc Spec SpecC SpecT NumFacts Laws B32 B32Facts B32Laws B32Pow Demo SpecF SpecO SpecW
  OscRun PHist Prop_Build Prop_CrossFader Prop_Safety SpecP SpecA PWide PAcc PTone Prop_Wide Prop_Acc.
From Coquelicot Require Import Coquelicot.
From Verif Require Import SpecE SpecR Prop_Close Prop_CloseEx.
Import ListNotations.
Local Open Scope R_scope.

(** ** C54: tests/tones_generator.cpp.  Any number of tones, forward (positive frequency) and
    backward (negative), each within its octave and at least as long as the fade: no undefined
    behaviour, one sample per phase -- provided the first tone does not use the second highest
    entry of the table *)
Theorem C54_tones_safe : forall lm src cfg F K n w ts, log2_exact lm ->
  (1 <= batch cfg)%nat -> filterShape (B32 lm) F -> builtTable lm src (dbg cfg) K n w -> (1 <= n)%Z ->
  List.Forall (fun t => (exists r, octaveStep K r (fst t)) /\ (n <= Z.of_nat (snd t))%Z) ts ->
  match ts with [] => True | t :: _ => ~ octaveStep K (K - 3) (fst t) end ->
  exists o ys, run (B32 lm) src cfg F (osc_new (B32 lm) F) (tones lm w ts) = Ok (o, ys) /\
    length ys = list_sum (List.map snd ts).
Proof.
  intros lm src cfg F K n w ts Hlog HB HF HT Hn Hts Hfirst.
  destruct (init_state lm Hlog src cfg F HB K n Hn w HT) as (o1 & w1 & E1 & Q1 & L1).
  unfold tones. cbn [Osc.run Osc.apply]. unfold osc_init in E1 |- *.
  rewrite E1. cbn [bind].
  destruct ts as [|[s m] ts].
  - exists o1, []. split; reflexivity.
  - inversion_clear Hts as [|? ? [[r Hr] Hm] Ht]. cbn [fst snd] in *.
    destruct (tones_first lm Hlog src cfg F HB HF K n Hn ts s m r o1 w1 Q1 Hr Hm Ht) as (o2 & ys & E2 & L2).
    { destruct L1 as [L1|L1]; [left; exact L1|right]. rewrite L1. intros ->. contradiction. }
    exists o2, ys. rewrite E2. cbn [bind]. split; [reflexivity|exact L2].
Qed.
Print Assumptions C54_tones_safe.

(** with forward tones nothing but the size of the steps matters *)
Theorem C54_forward_tones_safe : forall lm src cfg F w ts, log2_exact lm -> resamplerOk (B32 lm) src ->
  (1 <= batch cfg)%nat -> filterShape (B32 lm) F -> usable lm src (dbg cfg) w ->
  List.Forall (fun t => fairStep (fst t)) ts ->
  exists o ys, run (B32 lm) src cfg F (osc_new (B32 lm) F) (tones lm w ts) = Ok (o, ys).
Proof.
  intros lm src cfg F w ts Hlog Hsrc HB HF Hu Hts. apply C21_safe; auto.
  destruct (ofZ32 0 ltac:(lia)) as [Z1 Z2]. assert (H0 : phase01 (f32_ofZ 0)) by (split; [exact Z1|rewrite Z2; lra]).
  unfold tones. cbn [okHist]. split; [exact Hu|]. split.
  - assert (Fd : fin32 (tfrac (B32 lm) 4 10 : f32) = true) by reflexivity.
    assert (Vd : 0 < B2R (tfrac (B32 lm) 4 10 : f32)) by (vm_compute; lra).
    split; [exact H0|]. split; [exact Fd|]. split; [intros _; lra|intros _; left; exact Vd].
  - generalize (f32_ofZ 0) at 1. induction Hts as [|[s m] ts [Fs Hs] Hts IH]; intros prev; [exact I|].
    cbn [flat_map tone app okHist fst] in *. rewrite <- e23_def in Hs. assert (P := e23_pos). split; [|split].
    + split; [exact H0|]. split; [exact Fs|]. split; [intros _; lra|intros _; left; lra].
    + apply C53_careful; [exact H0|]. apply Forall_forall. intros x Hx. apply repeat_spec in Hx. subst x.
      split; [exact Fs|]. rewrite <- e23_def. lra.
    + apply IH.
Qed.
Print Assumptions C54_forward_tones_safe.

(** the exception is real: when the first tone uses the second highest entry, the oscillator
    first finishes the fade that init's default step of 0.4 has started and then turns back.
    Tables of eight samples at 48 kHz, a fade of 9 samples, the first tone at -6 kHz (1/8 of a
    cycle back per sample): it stands on phase 0 when that happens and reads phases[-1]. *)
Definition toneTest (d : bool) (f : FilterType) : bool :=
  match wt_build FN (demo_src FN) d demo16 2 sr48 (fl 1 5000) with
  | Ok (Some w) =>
      match run FN (demo_src FN) (mkCfg d 4) (filt FN f) (osc_new FN (filt FN f)) (tones demo_libm w [(fl (-1) 8, 12%nat)]) with
      | Fault OutOfBounds => true | _ => false end
  | _ => false end.

Lemma oct18 : octaveStep 3 0 (fl (-1) 8).
Proof.
  assert (V : B2R (fl (-1) 8) = - / 8) by (vm_compute; lra). unfold octaveStep, entryFor. rewrite V, Rabs_Ropp, Rabs_pos_eq by lra.
  assert (A : / IZR (2 ^ 23) <= / 16) by (apply Rinv_le; [lra|apply IZR_le; lia]).
  assert (B : 0 < / IZR (2 ^ 23)) by (apply Rinv_0_lt_compat, IZR_lt; reflexivity).
  change (IZR (2 ^ (0 + 1))) with 2. change (IZR (2 ^ 3)) with 8. change (IZR (2 ^ 0)) with 1.
  split; [reflexivity|]. split; [split; lra|]. split; (split; [lia|]; split; [right; lra|left; reflexivity]).
Qed.

Theorem C54_first_tone_refuted : forall (d : bool) (f : FilterType), exists w,
  builtTable demo_libm (demo_src FN) d 3 9 w /\ octaveStep 3 (3 - 3) (fl (-1) 8) /\
  run FN (demo_src FN) (mkCfg d 4) (filt FN f) (osc_new FN (filt FN f)) (tones demo_libm w [(fl (-1) 8, 12%nat)]) = Fault OutOfBounds.
Proof.
  intros d f.
  assert (H : toneTest d f = true) by (destruct d, f; vm_compute; reflexivity).
  unfold toneTest in H. destruct (wt_build _ _ _ _ _ _ _) as [[w|]|] eqn:E; try discriminate.
  exists w. split; [|split].
  - exists demo16, 2%Z, sr48, (fl 1 5000). split; [lia|]. split; [lia|]. split; [reflexivity|]. split; [unfold int_max; lia|].
    split; [exact (CF_rate _)|]. split; [vm_compute; reflexivity|exact E].
  - exact oct18.
  - destruct (run _ _ _ _ _ _) as [|[]]; try discriminate. reflexivity.
Qed.
Print Assumptions C54_first_tone_refuted.

(** ** a case: the same tables, four tones of both directions and both entries *)
Lemma oct38 : octaveStep 3 1 (fl 3 8) /\ octaveStep 3 1 (fl (-3) 8) /\ octaveStep 3 0 (fl 1 16) /\ ~ octaveStep 3 0 (fl 3 8).
Proof.
  assert (V1 : B2R (fl 3 8) = 3 / 8) by (vm_compute; lra). assert (V2 : B2R (fl (-3) 8) = - (3 / 8)) by (vm_compute; lra).
  assert (V3 : B2R (fl 1 16) = / 16) by (vm_compute; lra).
  assert (A : / IZR (2 ^ 23) <= / 32) by (apply Rinv_le; [lra|apply IZR_le; lia]).
  assert (B : 0 < / IZR (2 ^ 23)) by (apply Rinv_0_lt_compat, IZR_lt; reflexivity).
  unfold octaveStep, entryFor. rewrite V1, V2, V3, Rabs_Ropp, !Rabs_pos_eq by lra.
  change (IZR (2 ^ (0 + 1))) with 2. change (IZR (2 ^ 3)) with 8. change (IZR (2 ^ 0)) with 1. change (IZR (2 ^ 1)) with 2.
  split; [|split; [|split]].
  - split; [reflexivity|]. split; [split; lra|]. split; (split; [lia|]; split; [left; reflexivity|right; lra]).
  - split; [reflexivity|]. split; [split; lra|]. split; (split; [lia|]; split; [left; reflexivity|right; lra]).
  - split; [reflexivity|]. split; [split; lra|]. split; (split; [lia|]; split; [right; lra|left; reflexivity]).
  - intros (_ & _ & (_ & [H|H] & _) & _); [discriminate|lra].
Qed.
Example C54_case : exists w, builtTable demo_libm (demo_src FN) true 3 9 w /\
  let ts := [(fl 3 8, 9%nat); (fl (-1) 8, 20%nat); (fl (-3) 8, 12%nat); (fl 1 16, 9%nat)] in
  List.Forall (fun t => (exists r, octaveStep 3 r (fst t)) /\ (9 <= Z.of_nat (snd t))%Z) ts /\ ~ octaveStep 3 (3 - 3) (fl 3 8).
Proof.
  destruct (C54_first_tone_refuted true kType1) as (w & Hw & _). exists w. split; [exact Hw|]. destruct oct38 as (H1 & H2 & H3 & H4).
  split; [|exact H4]. repeat constructor; cbn [fst snd]; try lia; eexists; [exact H1|exact oct18|exact H2|exact H3].
Qed.
