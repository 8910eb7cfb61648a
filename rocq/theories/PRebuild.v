(** * PRebuild: what updateSamplerate rebuilds, in any number system and in binary32 *)
From Coq Require Import ZArith List Bool Reals Lia Lra.
From Flocq Require Import Core IEEE754.BinarySingleNaN.
From Verif Require Import Num Maths CrossFader Wavetable Filters Osc Spec SpecC SpecT SpecF B32 NumFacts Laws
  B32Facts B32Laws WTFacts BuildFacts OscHist PTables PErr.
Import ListNotations.
Local Open Scope Z_scope.

Section Gen.
Variable N : Num.
Variable L : Laws N.
Variable src : Resampler N.
Variable dbg : bool.

Lemma made_some wfs nw K w : wellFormed N wfs nw K -> madeFrom N src dbg wfs nw w ->
  exists og, wellFormed N og nw K /\ Contents N src K nw og w.
Proof.
  intros W H. assert (W' := W). destruct W' as (HK & Hnw & Hl & Hm).
  induction H as [sr fade w H|w d w' m H (og & IH1 & IH2) E|w sr fade w' H (og & IH1 & IH2) E].
  - exists wfs. split; [assumption|].
    now destruct (wt_build_some N src dbg L wfs nw sr fade K w HK Hnw Hl Hm H).
  - exists og. split; [assumption|]. eapply find_contents; eassumption.
  - destruct IH1 as (_ & _ & Lo & _).
    assert (WT := Contents_WTok N src K nw og w Hnw Hm IH2).
    destruct (rebuild_ok N dbg K nw w WT) as (og' & Er & Lr & _).
    unfold wt_updateSamplerate in E. rewrite Er in E. cbn [bind] in E.
    unfold wt_numWaveforms in E. rewrite (ct_nw _ _ _ _ _ _ IH2) in E.
    destruct (wt_build N src dbg og' nw sr fade) as [[w2|]|] eqn:Eb; try discriminate.
    cbn [bind] in E. injection E as <-. exists og'.
    assert (W' : wellFormed N og' nw K) by (unfold wellFormed; auto).
    split; [assumption|].
    now destruct (wt_build_some N src dbg L og' nw sr fade K w2 HK Hnw Lr Hm Eb).
Qed.

Lemma bad_rate wfs nw K w sr fade : wellFormed N wfs nw K -> madeFrom N src dbg wfs nw w ->
  tle N sr (t0 N) = true -> wt_updateSamplerate N src dbg w sr fade = Fault NullDeref.
Proof.
  intros W H Hsr. destruct (made_some wfs nw K w W H) as (og & (HK & Hnw & Hl & Hm) & C).
  assert (WT := Contents_WTok N src K nw og w Hnw Hm C).
  destruct (rebuild_ok N dbg K nw w WT) as (og' & Er & Lr & _).
  unfold wt_updateSamplerate. rewrite Er. cbn [bind]. unfold wt_build. rewrite Hsr.
  destruct (zlen og' =? 0); [reflexivity|]. destruct (_ <=? 0); reflexivity.
Qed.

(** the samples the re-sampled table is built from *)
Lemma rebuild_at K nw wfs w : 1 <= nw -> zlen wfs = nw * 2 ^ K -> nw * 2 ^ K <= int_max ->
  Contents N src K nw wfs w ->
  exists og, rebuildWaveforms N dbg w = Ok og /\ zlen og = zlen wfs /\
    (forall sr fade, wt_updateSamplerate N src dbg w sr fade = orNull (wt_build N src dbg og nw sr fade)) /\
    forall i j, 0 <= i < nw -> 0 <= j < 2 ^ K ->
      at_ og (i * 2 ^ K + j) =
      let x0 := tdiv N (tofZ N j) (tofZ N (2 ^ K)) in
      let x1 := tdiv N (tofZ N (j + 1)) (tofZ N (2 ^ K)) in
      let y0 := at_ wfs (i * 2 ^ K + j) in
      let y1 := at_ wfs (i * 2 ^ K + (j + 1) mod 2 ^ K) in
      tmad N 60 (computeM N x0 x1 y0 y1) x0 (computeQ N x0 x1 y0 y1).
Proof.
  intros Hnw Hl Hm C. assert (WT := Contents_WTok N src K nw wfs w Hnw Hm C).
  assert (HK := ct_K _ _ _ _ _ _ C). assert (Hp := pow2_pos K ltac:(lia)).
  destruct (rebuild_ok N dbg K nw w WT) as (og & Er & Lr & H). exists og.
  split; [assumption|]. split; [lia|]. split.
  { intros sr fade. unfold wt_updateSamplerate. rewrite Er. cbn [bind].
    unfold wt_numWaveforms. rewrite (ct_nw _ _ _ _ _ _ C).
    destruct (wt_build N src dbg og nw sr fade) as [[w'|]|f]; reflexivity. }
  intros i j Hi Hj.
  destruct (slot_of _ _ _ _ _ _ i 0 C Hi ltac:(lia)) as (s & Es & S & Ls & _).
  rewrite Z.sub_0_r in *. change (mipmap N src (waveform N wfs (2 ^ K) i) 0) with (waveform N wfs (2 ^ K) i) in *.
  rewrite <- waveform_at by lia. rewrite (H i s Hi Es).
  destruct (sf_shape _ _ _ S) as [LM LQ _ _].
  rewrite at_rebuildLoop; rewrite ?zlen_phaseVector; try lia.
  assert (Ep := znth_phaseVector N (2 ^ K) j ltac:(lia)). apply at_znth in Ep. rewrite Ep.
  rewrite (sf_m _ _ _ S), (sf_q _ _ _ S) by lia. rewrite Ls.
  assert (0 <= (j + 1) mod 2 ^ K < 2 ^ K) by (apply Z.mod_pos_bound; lia).
  rewrite !waveform_at by lia. reflexivity.
Qed.

(** entry k of waveform i is entry 0 of a table of its own *)
Lemma waveform_whole (l : list (T N)) len : zlen l = len -> waveform N l len 0 = l.
Proof.
  intros H. unfold waveform. cbn [Z.mul Z.to_nat skipn]. apply firstn_all2. unfold zlen in H. lia.
Qed.
Lemma entry_is_base K nw wfs w i k w1 : Contents N src K nw wfs w -> 0 <= i < nw -> 0 <= k <= K - 2 ->
  Contents N src (K - k) 1 (mipmap N src (waveform N wfs (2 ^ K) i) k) w1 ->
  wt_slot N w i k = wt_slot N w1 0 0 /\ wt_phases N w k = wt_phases N w1 0.
Proof.
  intros C Hi Hk C1. assert (HK := ct_K _ _ _ _ _ _ C).
  destruct (slot_of _ _ _ _ _ _ i k C Hi Hk) as (s & Es & _ & Lm & Ec).
  destruct (slot_of _ _ _ _ _ _ 0 0 C1 ltac:(lia) ltac:(lia)) as (s1 & Es1 & _ & _ & Ec1).
  rewrite Z.sub_0_r in Ec1. rewrite waveform_whole in Ec1 by assumption.
  change (mipmap N src (mipmap N src (waveform N wfs (2 ^ K) i) k) 0)
    with (mipmap N src (waveform N wfs (2 ^ K) i) k) in Ec1.
  split; [congruence|]. unfold wt_phases.
  rewrite (ct_ph _ _ _ _ _ _ C k), (ct_ph _ _ _ _ _ _ C1 0) by lia. now rewrite Z.sub_0_r.
Qed.

Lemma ask_contents K nw wfs ds : forall w w' ms, Contents N src K nw wfs w -> ask N dbg w ds = Ok (w', ms) ->
  Contents N src K nw wfs w'.
Proof.
  induction ds as [|d ds IH]; intros w w' ms C H; cbn [ask] in H.
  - now injection H as <- _.
  - apply bind_ok in H. destruct H as ((w1 & m) & E & H). apply bind_ok in H. destruct H as ((w2 & ms2) & E2 & H).
    injection H as <- _. eapply IH; [|exact E2]. eapply find_contents; eassumption.
Qed.
End Gen.

Section F32.
Variable lm : Libm.
Notation N := (B32 lm).
Variable src : Resampler N.
Variable dbg : bool.
Hypothesis Hlog : log2_exact lm.
Notation L := (B32_Laws lm Hlog).

Lemma rebuild_error (wfs : list (T N)) nw K w : wellFormed N wfs nw K -> Contents N src K nw wfs w ->
  (forall x, In x wfs -> is_finite x = true /\ (-1 <= B2R x <= 1)%R) ->
  exists og, rebuildWaveforms N dbg w = Ok og /\ zlen og = zlen wfs /\
    (forall sr fade, wt_updateSamplerate N src dbg w sr fade = orNull (wt_build N src dbg og nw sr fade)) /\
    forall i (x y : f32), znth og i = Ok x -> znth wfs i = Ok y ->
      is_finite x = true /\ (Rabs (B2R x - B2R y) <= IZR (2 ^ K) / IZR (2 ^ 22))%R.
Proof.
  intros (HK & Hnw & Hl & Hm) C Hr. assert (HK' := ct_K _ _ _ _ _ _ C).
  assert (Hp := pow2_pos K ltac:(lia)).
  destruct (rebuild_at N src dbg K nw wfs w Hnw Hl Hm C) as (og & Er & Lo & Hu & H).
  exists og. split; [assumption|]. split; [assumption|]. split; [assumption|].
  intros a x y Hx Hy. assert (Ra := znth_range _ _ _ _ Hy).
  assert (E : a = (a / 2 ^ K) * 2 ^ K + a mod 2 ^ K) by (rewrite Z.mul_comm; apply Z.div_mod; lia).
  assert (Hmo : 0 <= a mod 2 ^ K < 2 ^ K) by (apply Z.mod_pos_bound; lia).
  assert (Hd : 0 <= a / 2 ^ K < nw).
  { split; [apply Z.div_pos; lia|]. apply Z.div_lt_upper_bound; lia. }
  specialize (H _ _ Hd Hmo). rewrite <- E in H. cbv zeta in H.
  assert (Hin : forall b, 0 <= b < zlen wfs -> is_finite (at_ (N := N) wfs b) = true /\ (-1 <= B2R (at_ (N := N) wfs b) <= 1)%R).
  { intros b Hb. apply Hr. eapply znth_In. apply (znth_at N wfs b Hb). }
  assert (Hmo1 : 0 <= (a mod 2 ^ K + 1) mod 2 ^ K < 2 ^ K) by (apply Z.mod_pos_bound; lia).
  destruct (Hin a Ra) as [F0 R0]. destruct (Hin (a / 2 ^ K * 2 ^ K + (a mod 2 ^ K + 1) mod 2 ^ K)) as [F1 R1]; [nia|].
  apply at_znth in Hx. apply at_znth in Hy. rewrite <- Hx, <- Hy. rewrite H.
  destruct (rebuilt_close lm K (a mod 2 ^ K) (at_ (N := N) wfs a)
     (at_ (N := N) wfs (a / 2 ^ K * 2 ^ K + (a mod 2 ^ K + 1) mod 2 ^ K))) as [A B]; auto.
  - apply Rabs_le. lra.
  - apply Rabs_le. lra.
  - split; [exact A|]. eapply Rle_trans; [exact B|]. apply Req_le.
    unfold Zminus. rewrite bpow_plus. rewrite bpow_Z by lia. reflexivity.
Qed.
End F32.
