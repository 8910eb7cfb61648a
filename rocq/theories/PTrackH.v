(** * PTrackH: whole histories of the binary32 oscillator against the ideal of SpecR *)
From Coq Require Import ZArith List Bool Reals Lia Lra Arith.
From Flocq Require Import Core IEEE754.BinarySingleNaN.
From Verif Require Import Num Maths CrossFader Wavetable Filters Osc Spec SpecC SpecT NumFacts Laws CFFacts
  WTFacts BuildFacts SimdFacts OscFacts OscStep OscRun OscHist CFHist PTables PRebuild RNum RLaws B32 B32Facts B32Laws
  SpecF SpecO SpecW PCross PHist PWork.
From Coquelicot Require Import Coquelicot.
From Verif Require Import SpecE SpecR ExactMath ExactStep ExactRun ExactSig ExactMove PExact PApx PSlope PTerm PVal PFwd PCoef PPole PSum PTrack PTrackS.
Import ListNotations.
Local Open Scope R_scope.

Section Hist.
Variable lm : Libm.
Hypothesis Hex : expAccurate lm.
Hypothesis Hlog : log2_exact lm.
Variable src : Resampler (B32 lm).
Variable cfg : Cfg.
Hypothesis HB : (1 <= batch cfg)%nat.
Variable f : FilterType.
Variable c : Z.
Hypothesis Hc : (-64 <= c <= 64)%Z.
Notation N := (B32 lm).
Notation L := (B32_Laws lm Hlog).
Notation F := (filt N f).
Notation n := (numCoeffs f).
Notation dbg := (Osc.dbg cfg).
Notation S := (bpow radix2 c).
Notation u := (eps * S).
Notation tracks := (tracks lm Hlog src cfg f c).

(** an output sample against the ideal one *)
Definition close (y : f32) (Y : R) : Prop := near y Y (outErr f * u) /\ Rabs Y <= outSize f * S.

Lemma block_near dir st ps st' Ys : block32 lm src dbg f dir st ps st' Ys ->
  forall (o : Osc N) (out : list (T N)), tracks st o -> length out = length ps ->
  exists o' ys, processLoop N cfg F dir o ps out = Ok (o', ys) /\ tracks st' o' /\ Forall2 close ys Ys.
Proof.
  induction 1 as [st|st p st1 y ps st2 ys Hs Hb IH]; intros o out Tr Hl.
  - destruct out; [|discriminate]. exists o, []. auto.
  - destruct out as [|z out]; [discriminate|]. cbn [processLoop].
    destruct (sample_near lm Hex Hlog src cfg HB f c Hc dir st p st1 y o Tr Hs) as (o1 & x & E1 & T1 & C1).
    rewrite E1. cbn [bind]. destruct (IH o1 out T1 ltac:(now injection Hl)) as (o2 & xs & E2 & T2 & C2).
    rewrite E2. cbn [bind]. exists o2, (x :: xs). split; [reflexivity|]. split; [exact T2|]. constructor; assumption.
Qed.

Lemma process_near dir st ps st' Ys (o : Osc N) : block32 lm src dbg f dir st ps st' Ys -> tracks st o ->
  exists o' ys, Osc.apply N src cfg F o (OpProcess N dir ps) = Ok (o', ys) /\ tracks st' o' /\ Forall2 close ys Ys.
Proof.
  intros Hb Tr. cbn [Osc.apply]. unfold process. rewrite (oo_wt _ _ _ _ _ _ _ (tk_ok _ _ _ _ _ _ _ _ Tr)).
  rewrite assert_ok by reflexivity. cbn [bind].
  rewrite assert_ok.
  2:{ intros _. unfold zlen. rewrite map_length. apply Z.eqb_refl. }
  cbn [bind]. destruct (block_near dir st ps st' Ys Hb o (List.map (fun _ => t0 N) ps) Tr) as (o' & ys & E & T & C).
  { apply map_length. }
  exists o', ys. auto.
Qed.

Lemma reset32_mm (o o' : Osc N) w p d w' m g mu gu : o_wt o = Some w ->
  resetInternals N cfg F o p d = Ok o' ->
  wt_findMipMapIndices N dbg w (tabs N d) = Ok (w', (m, g, mu, gu)) -> o_mm o' = m /\ o_wt o' = Some w'.
Proof.
  intros Ew E Ef. unfold resetInternals in E. rewrite Ew in E.
  apply bind_ok in E. destruct E as (? & _ & E).
  apply bind_ok in E. destruct E as (ph & _ & E).
  rewrite Ef in E. cbn [bind] in E.
  apply bind_ok in E. destruct E as (len & _ & E).
  apply bind_ok in E. destruct E as (j & _ & E). injection E as <-. auto.
Qed.

Lemma silent_ok k d : nth_error (poleErr f) k = Some d -> memOk S (c0 N) (RtoC 0) d.
Proof.
  intros Hd.
  assert (Hk : (k < n)%nat) by (rewrite <- (err_len f); apply nth_error_Some; congruence).
  destruct (poleAt lm Hex cfg HB f k Hk) as (zl & zh & rho & r2 & m & e & b & Ee & _ & R & _).
  rewrite Hd in Ee. injection Ee as ->. destruct R.
  assert (0 < S) by apply bpow_gt_0.
  split; cbn [fst snd].
  - split; [split; reflexivity|]. 
    replace (cv (c0 N) - RtoC 0)%C with (RtoC 0).
    + rewrite Cmod_R, Rabs_R0. apply Rmult_le_pos; [lra|]. unfold eps. lra.
    + unfold cv. cbn. unfold RtoC, Cminus, Cplus, Copp. cbn. f_equal; ring.
  - rewrite Cmod_R, Rabs_R0. apply Rmult_le_pos; lra.
Qed.

Lemma fresh_near K nw wfs w wf p d st1 (o : Osc N) :
  table32 lm src dbg K nw wfs w -> tameAll lm src c wfs nw K -> (0 <= wf < nw)%Z ->
  fresh32 lm dbg f K nw wfs w wf p d st1 -> o_wt o = Some w -> o_wf o = wf ->
  exists o', resetInternals N cfg F o p d = Ok o' /\ tracks st1 o'.
Proof.
  intros HT Ht Hwf Hf Ew Ewf. destruct Hf as [w' m g mu gu Hsh Hdf Hd0 Hfd].
  destruct (table32_ok lm Hlog src dbg _ _ _ _ HT) as (HW & Ct & nf & Hr & Hnf).
  destruct (reach_ok lm Hlog src dbg K nf w Hr) as (HK & _ & HSc & En & Hm & HCf). specialize (HCf Hnf).
  assert (W : WTok K nw w) by (destruct HW as (_ & Hnw & _ & Hm'); exact (Contents_WTok N src K nw wfs w Hnw Hm' Ct)).
  assert (Hi : initPre N L cfg false p d).
  { split; [apply Hsh|]. split; [exact Hdf|]. split; [intros _; exact Hd0|discriminate]. }
  destruct (resetInternals_fine N L cfg F HB false K nw o w p d Ew W HCf
              ltac:(rewrite Ewf; exact Hwf) Hi) as (o' & w2 & E & HO & _ & E1 & E2 & E3 & E4 & _).
  exists o'. split; [exact E|].
  destruct (reset32_mm o o' w p d w' m g mu gu Ew E Hfd) as [Em Ew'].
  assert (Ew2 := oo_wt _ _ _ _ _ _ _ HO). rewrite Ew' in Ew2. injection Ew2 as <-.
  constructor; cbn [i_K i_nw i_wfs i_tab i_wf i_phase i_step i_entry i_mem]; auto.
  - rewrite E3. exact Ewf.
  - apply repeat_length.
  - intros k y Y dd Hy HY Hd. rewrite E4 in Hy.
    apply nth_error_In, repeat_spec in Hy. apply nth_error_In, repeat_spec in HY. subst y Y.
    now apply silent_ok with k.
  - eapply t32_ask; [exact HT|exact Hfd].
Qed.

Definition tracksO (st : option (Ideal32 lm)) (o : Osc N) : Prop :=
  match st with Some st => tracks st o | None => True end.

Lemma set_wf_tracks st (o : Osc N) k : tracks st o -> (0 <= k < i_nw lm st)%Z ->
  tracks (mkI32 lm (i_K lm st) (i_nw lm st) (i_wfs lm st) (i_tab lm st) k (i_phase lm st)
                  (i_step lm st) (i_entry lm st) (i_mem lm st)) (set_wf N o k).
Proof.
  intros [] Hk. constructor; cbn; auto. now apply OscOk_set_wf.
Qed.

Lemma load_near K nw wfs w p d st1 (o : Osc N) :
  table32 lm src dbg K nw wfs w -> tameAll lm src c wfs nw K ->
  fresh32 lm dbg f K nw wfs w 0 p d st1 ->
  exists o1, resetInternals N cfg F (set_wt N o (Some w)) p d = Ok o1 /\ tracks st1 (set_wf N o1 0).
Proof.
  intros HT Ht Hf.
  assert (Hnw : (0 <= 0 < nw)%Z).
  { destruct (table32_ok lm Hlog src dbg _ _ _ _ HT) as ((_ & H & _) & _). lia. }
  destruct (fresh_near K nw wfs w 0 p d st1 (set_wf N (set_wt N o (Some w)) 0) HT Ht Hnw Hf eq_refl eq_refl)
    as (o' & E & Tr).
  assert (Er : resetInternals N cfg F (set_wf N (set_wt N o (Some w)) 0) p d =
     let! o1 := resetInternals N cfg F (set_wt N o (Some w)) p d in Ok (set_wf N o1 0)).
  { unfold resetInternals. cbn [o_wt set_wt set_wf o_pj o_wf].
    destruct (assert_ dbg _); cbn [bind]; [|reflexivity].
    destruct (reduceT N dbg p (t1 N)); cbn [bind]; [|reflexivity].
    destruct (wt_findMipMapIndices N dbg w (tabs N d)) as [[w1 [[[a1 a2] a3] a4]]|]; cbn [bind]; [|reflexivity].
    destruct (wt_waveformLen N w1 a1); cbn [bind]; [|reflexivity].
    destruct (if tle N (t0 N) d then _ else _); cbn [bind]; reflexivity. }
  rewrite Er in E. apply bind_ok in E. destruct E as (o1 & E1 & E2). injection E2 as <-.
  exists o1. auto.
Qed.

Lemma rate_near st sr w' wfs' (o : Osc N) : tracks st o -> okRate lm sr ->
  rebuildWaveforms N dbg (i_tab lm st) = Ok wfs' ->
  wt_updateSamplerate N src dbg (i_tab lm st) sr (defaultFade N) = Ok w' ->
  tameAll lm src c wfs' (i_nw lm st) (i_K lm st) ->
  exists o', osc_updateSamplerate N src cfg o sr = Ok o' /\
  tracks (mkI32 lm (i_K lm st) (i_nw lm st) wfs' w' (i_wf lm st) (i_phase lm st)
                         (i_step lm st) (i_entry lm st) (i_mem lm st)) o'.
Proof.
  intros Tr Hs Hw Hu Ht. unfold osc_updateSamplerate. rewrite (oo_wt _ _ _ _ _ _ _ (tk_ok _ _ _ _ _ _ _ _ Tr)).
  rewrite assert_ok by reflexivity. cbn [bind]. rewrite Hu. cbn [bind]. eexists. split; [reflexivity|].
  assert (HT : table32 lm src dbg (i_K lm st) (i_nw lm st) wfs' w').
  { destruct (okRate_ok lm Hlog cfg HB sr Hs) as (_ & n' & Hn' & Hpos).
    eapply t32_resample; [exact (tk_tab _ _ _ _ _ _ _ _ Tr)| |exact Hn'|lia|exact Hw|exact Hu].
    destruct Hs as (Hf & [H1 _] & H2). split; [exact Hf|]. split; [|exact H2].
    apply Rle_trans with 1%R; [|lra]. rewrite <- Rinv_1. apply Rinv_le; [lra|]. apply (IZR_le 1). lia. }
  destruct (table32_ok lm Hlog src dbg _ _ _ _ HT) as (HW & Ct & nf & Hr & Hnf).
  destruct (reach_ok lm Hlog src dbg _ nf w' Hr) as (HK & _ & _ & _ & _ & HCf). specialize (HCf Hnf).
  assert (W : WTok (i_K lm st) (i_nw lm st) w') by (destruct HW as (_ & Hnw & _ & Hm'); exact (Contents_WTok N src _ _ wfs' w' Hnw Hm' Ct)).
  destruct Tr. constructor; cbn [i_K i_nw i_wfs i_tab i_wf i_phase i_step i_entry i_mem o_phase o_pd o_mm o_wf o_y set_wt]; auto.
  now apply OscOk_set_wt with (w := i_tab lm st).
Qed.

Theorem plays_near st ops st' Ys : plays32 lm src dbg f c st ops st' Ys ->
  forall o : Osc N, tracksO st o ->
  exists o' ys, Osc.run N src cfg F o ops = Ok (o', ys) /\ tracksO st' o' /\ Forall2 close ys Ys.
Proof.
  induction 1 as [st|st op rest st' ys Hop Hp IH|st op w p d K nw wfs st1 rest st' ys Hop HT Ht Hf Hp IH
                 |st p d st1 rest st' ys Hf Hp IH|st k rest st' ys Hk Hp IH|st sr w' wfs' rest st' ys Hs Hw Hu Ht Hp IH
                 |st dir ps st1 ys rest st' zs Hb Hp IH]; intros o Tr.
  - exists o, []. split; [reflexivity|]. auto.
  - destruct Hop as (p & d & [-> | ->]); cbn [Osc.run Osc.apply osc_init osc_swap bind];
      destruct (IH o Tr) as (o' & zs & E & T & C); rewrite E; cbn [bind app]; eauto 6.
  - destruct (load_near K nw wfs w p d st1 o HT Ht Hf) as (o1 & E1 & T1).
    destruct Hop as [-> | ->]; cbn [Osc.run Osc.apply osc_init osc_swap bind];
      rewrite E1; cbn [bind]; destruct (IH _ T1) as (o' & zs & E & T & C); rewrite E; cbn [bind app]; eauto 6.
  - cbn [tracksO] in Tr.
    assert (Hwf := oo_wf _ _ _ _ _ _ _ (tk_ok _ _ _ _ _ _ _ _ Tr)). rewrite (tk_wf _ _ _ _ _ _ _ _ Tr) in Hwf.
    destruct (fresh_near _ _ _ _ _ p d st1 o (tk_tab _ _ _ _ _ _ _ _ Tr) (tk_tame _ _ _ _ _ _ _ _ Tr) Hwf Hf
      (oo_wt _ _ _ _ _ _ _ (tk_ok _ _ _ _ _ _ _ _ Tr)) (tk_wf _ _ _ _ _ _ _ _ Tr)) as (o1 & E1 & T1).
    cbn [Osc.run Osc.apply]. rewrite E1. cbn [bind]. destruct (IH o1 T1) as (o' & zs & E & T & C). rewrite E. cbn [bind app]. eauto 6.
  - cbn [tracksO] in Tr. cbn [Osc.run Osc.apply]. unfold setWaveform.
    rewrite (oo_wt _ _ _ _ _ _ _ (tk_ok _ _ _ _ _ _ _ _ Tr)), assert_ok by reflexivity. cbn [bind].
    destruct (IH _ (set_wf_tracks st o k Tr Hk)) as (o' & zs & E & T & C). rewrite E. cbn [bind app]. eauto 6.
  - cbn [tracksO] in Tr. cbn [Osc.run Osc.apply].
    destruct (rate_near st sr w' wfs' o Tr Hs Hw Hu Ht) as (o1 & E1 & T1). rewrite E1. cbn [bind].
    destruct (IH _ T1) as (o' & zs & E & T & C). rewrite E. cbn [bind app]. eauto 6.
  - cbn [tracksO] in Tr. cbn [Osc.run].
    destruct (process_near dir st ps st1 ys o Hb Tr) as (o1 & xs & E1 & T1 & C1). rewrite E1. cbn [bind].
    destruct (IH _ T1) as (o' & xs2 & E & T & C). rewrite E. cbn [bind]. exists o', (xs ++ xs2).
    split; [reflexivity|]. split; [exact T|]. now apply Forall2_app.
Qed.
End Hist.
