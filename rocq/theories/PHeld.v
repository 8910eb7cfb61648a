(** * PHeld: the table an oscillator holds was built from a well-formed request *)
From Coq Require Import ZArith List Bool Reals Lia Lra Arith.
From Flocq Require Import Core IEEE754.BinarySingleNaN.
From Verif Require Import Num Maths CrossFader Wavetable Filters Osc Spec NumFacts Laws B32 B32Facts
  B32Laws B32Pow SpecF SpecO CFFacts WTFacts BuildFacts OscFacts OscHist CFHist PCross PHist.
Import ListNotations.
Local Open Scope Z_scope.

Section Held.
Variable lm : Libm.
Hypothesis Hlog : log2_exact lm.
Variable src : Resampler (B32 lm).
Variable cfg : Cfg.
Variable F : Filt (B32 lm).
Hypothesis HB : (1 <= batch cfg)%nat.
Notation N := (B32 lm).
Notation L := (B32_Laws lm Hlog).
Notation dbg := (dbg cfg).
Notation usab := (usable lm src dbg).

Definition held (o : Osc N) : Prop := forall w, o_wt o = Some w -> usab w.

Lemma usable_ask w d w' m : usab w -> wt_findMipMapIndices N dbg w d = Ok (w', m) -> usab w'.
Proof. intros (K & n & Hr & Hn) E. exists K, n. split; [eapply r_ask; eauto|exact Hn]. Qed.

Lemma reset_held o p d o' : held o -> resetInternals N cfg F o p d = Ok o' -> held o'.
Proof.
  intros Ho E. unfold resetInternals in E. apply bind_ok in E. destruct E as ([] & _ & E).
  destruct (o_wt o) as [w|] eqn:Ew; [|discriminate].
  apply bind_ok in E. destruct E as (ph & _ & E).
  apply bind_ok in E. destruct E as ([w1 [[[mi g] mu] gu]] & Ef & E).
  apply bind_ok in E. destruct E as (len & _ & E). apply bind_ok in E. destruct E as (j & _ & E).
  assert (Eo : o_wt o' = Some w1) by (inversion E; reflexivity).
  intros w' Hw'. rewrite Eo in Hw'. inversion Hw'; subst w'. exact (usable_ask w _ w1 _ (Ho w Ew) Ef).
Qed.

Lemma one_held dir o p o' y : held o -> processOne N cfg F dir o p = Ok (o', y) -> held o'.
Proof.
  intros Ho E. unfold processOne in E. destruct (o_wt o) as [w|] eqn:Ew; [|discriminate].
  assert (Fw : forall pd, processSampleFwd N cfg F o w p pd = Ok (o', y) -> held o').
  { intros pd E1. unfold processSampleFwd in E1. apply bind_ok in E1. destruct E1 as (x & Ex & E1).
    apply bind_ok in E1. destruct E1 as (a & _ & E1). apply bind_ok in E1. destruct E1 as (icpx & _ & E1).
    assert (Eo : o_wt o' = Some (ix_wt N x)).
    { unfold finish in E1. inversion E1. reflexivity. }
    unfold idxFwd in Ex. apply bind_ok in Ex. destruct Ex as ([] & _ & Ex).
    apply bind_ok in Ex. destruct Ex as ([w1 [[[mi g] mu] gu]] & Ef & Ex).
    repeat (apply bind_ok in Ex; destruct Ex as (? & _ & Ex)).
    assert (Ei : ix_wt N x = w1) by (inversion Ex; reflexivity).
    intros w' Hw'. rewrite Eo, Ei in Hw'. inversion Hw'; subst w'. exact (usable_ask w _ w1 _ (Ho w Ew) Ef). }
  assert (Bw : forall pd, processSampleBwd N cfg F o w p pd = Ok (o', y) -> held o').
  { intros pd E1. unfold processSampleBwd in E1. apply bind_ok in E1. destruct E1 as (x & Ex & E1).
    apply bind_ok in E1. destruct E1 as (a & _ & E1). apply bind_ok in E1. destruct E1 as (icpx & _ & E1).
    assert (Eo : o_wt o' = Some (ix_wt N x)).
    { unfold finish in E1. inversion E1. reflexivity. }
    unfold idxBwd in Ex. apply bind_ok in Ex. destruct Ex as ([] & _ & Ex).
    apply bind_ok in Ex. destruct Ex as ([w1 [[[mi g] mu] gu]] & Ef & Ex).
    repeat (apply bind_ok in Ex; destruct Ex as (? & _ & Ex)).
    assert (Ei : ix_wt N x = w1) by (inversion Ex; reflexivity).
    intros w' Hw'. rewrite Eo, Ei in Hw'. inversion Hw'; subst w'. exact (usable_ask w _ w1 _ (Ho w Ew) Ef). }
  destruct dir; cbv zeta in E.
  - apply bind_ok in E. destruct E as ([] & _ & E). eapply Fw. exact E.
  - destruct (tle N _ _); [eapply Fw|eapply Bw]; exact E.
Qed.

Lemma loop_held dir ps : forall o out o' ys, held o -> processLoop N cfg F dir o ps out = Ok (o', ys) -> held o'.
Proof.
  induction ps as [|p ps IH]; intros o out o' ys Ho E; cbn [processLoop] in E.
  - assert (o = o') by congruence. now subst.
  - destruct out as [|z out]; [assert (o = o') by congruence; now subst|].
    apply bind_ok in E. destruct E as ([o1 y] & E1 & E). apply bind_ok in E. destruct E as ([o2 zs] & E2 & E).
    assert (o2 = o') by congruence. subst o2. eapply IH; [|exact E2]. eapply one_held; eassumption.
Qed.

Lemma resample_held o sr o' : held o -> okRate lm sr -> osc_updateSamplerate N src cfg o sr = Ok o' -> held o'.
Proof.
  intros Ho Hs E. unfold osc_updateSamplerate in E. apply bind_ok in E. destruct E as ([] & _ & E).
  destruct (o_wt o) as [w|] eqn:Ew; [|discriminate]. apply bind_ok in E. destruct E as (w1 & E1 & E).
  intros w' Hw'. assert (o_wt o' = Some w1) by (inversion E; reflexivity).
  assert (w' = w1) by congruence. subst w'.
  destruct (Ho w Ew) as (K & n & Hr & Hn). destruct (okRate_ok lm Hlog cfg HB sr Hs) as (_ & n' & Hn' & Hpos).
  exists K, n'. split; [|lia]. eapply r_resample; [exact Hr| |exact Hn'|exact E1].
  destruct Hs as (Hf & [H1 _] & H2). split; [exact Hf|]. split; [|exact H2].
  apply Rle_trans with 1%R; [|lra]. rewrite <- Rinv_1. apply Rinv_le; [lra|]. apply (IZR_le 1). lia.
Qed.

Lemma run_held strict ops : forall st o o' ys, held o -> okHist lm src dbg strict st ops ->
  run N src cfg F o ops = Ok (o', ys) -> held o'.
Proof.
  assert (Load : forall o w p d o1, usab w -> resetInternals N cfg F (set_wt N o (Some w)) p d = Ok o1 ->
    held (set_wf N o1 0)).
  { intros o w p d o1 Hu E. apply reset_held in E; [exact E|]. intros w' Hw'. cbn [set_wt o_wt] in Hw'.
    assert (w = w') by congruence. now subst. }
  induction ops as [|op ops IH]; intros st o o' ys Ho Hh E; cbn [run] in E.
  - assert (o = o') by congruence. now subst.
  - apply bind_ok in E. destruct E as ([o1 zs] & E1 & E). apply bind_ok in E. destruct E as ([o2 zs2] & E2 & E).
    assert (o2 = o') by congruence. subst o2. clear E.
    destruct op as [[w|] p d|[w|] p d|p d|k|sr|dir ps]; cbn [okHist] in Hh; cbn [apply] in E1.
    + destruct Hh as (Hu & Hi & Hh). cbn [osc_init] in E1. apply bind_ok in E1. destruct E1 as ([o3 z] & E1 & E3).
      apply bind_ok in E1. destruct E1 as (o4 & E1 & E4).
      assert (o1 = set_wf N o4 0) by congruence. subst o1.
      eapply IH; [|exact Hh|exact E2]. eapply Load; eassumption.
    + cbn [osc_init bind] in E1. assert (o = o1) by congruence. subst o1. eapply IH; eassumption.
    + destruct Hh as (Hu & Hi & Hh). cbn [osc_swap] in E1. apply bind_ok in E1. destruct E1 as ([o3 z] & E1 & E3).
      apply bind_ok in E1. destruct E1 as (o4 & E1 & E4).
      assert (o1 = set_wf N o4 0) by congruence. subst o1.
      eapply IH; [|exact Hh|exact E2]. eapply Load; eassumption.
    + cbn [osc_swap bind] in E1. assert (o = o1) by congruence. subst o1. eapply IH; eassumption.
    + destruct st as [[q nw]|]; [|contradiction]. destruct Hh as (Hi & Hh).
      apply bind_ok in E1. destruct E1 as (o3 & E1 & E3). assert (o1 = o3) by congruence. subst o3.
      eapply IH; [|exact Hh|exact E2]. eapply reset_held; eassumption.
    + destruct st as [[q nw]|]; [|contradiction]. destruct Hh as (Hi & Hh).
      apply bind_ok in E1. destruct E1 as (o3 & E1 & E3). unfold setWaveform in E1.
      apply bind_ok in E1. destruct E1 as ([] & _ & E1). assert (o1 = set_wf N o k) by congruence. subst o1.
      eapply IH; [|exact Hh|exact E2]. exact Ho.
    + destruct st as [[q nw]|]; [|contradiction]. destruct Hh as (Hi & Hh).
      apply bind_ok in E1. destruct E1 as (o3 & E1 & E3). assert (o1 = o3) by congruence. subst o3.
      eapply IH; [|exact Hh|exact E2]. eapply resample_held; eassumption.
    + destruct st as [[q nw]|]; [|contradiction]. destruct Hh as (Hi & Hh).
      unfold process in E1. apply bind_ok in E1. destruct E1 as ([] & _ & E1). apply bind_ok in E1. destruct E1 as ([] & _ & E1).
      eapply IH; [|exact Hh|exact E2]. eapply loop_held; eassumption.
Qed.

Lemma held_usable strict ops o ys w : okHist lm src dbg strict None ops ->
  run N src cfg F (osc_new N F) ops = Ok (o, ys) -> o_wt o = Some w -> usab w.
Proof. intros Hh E Hw. eapply run_held; [|exact Hh|exact E|exact Hw]. intros w' H. discriminate. Qed.
End Held.
