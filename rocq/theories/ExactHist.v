(** * ExactHist: whole histories in exact arithmetic *)
From Coq Require Import ZArith List Bool Reals Lia Lra Arith.
From Flocq Require Import Core.
From Verif Require Import Num Maths CrossFader Wavetable Filters Osc Spec SpecC SpecT NumFacts Laws CFFacts
  WTFacts BuildFacts SimdFacts OscFacts OscStep OscRun OscHist CFHist PTables RNum RLaws.
From Coquelicot Require Import Coquelicot.
From Verif Require Import SpecE ExactMath ExactStep ExactRun.
Import ListNotations.
Local Open Scope R_scope.

Section Hist.
Variable src : Resampler RNum.
Variable cfg : Cfg.
Variable F : Filt RNum.
Hypothesis HB : (1 <= batch cfg)%nat.
Hypothesis HF : exactFilter F.
Notation dbg := (dbg cfg).
Notation n := (kNumCoeffs RNum F).
Notation tracks := (tracks src cfg F).

Lemma block_exact dir st ps st' ys : block src dbg F dir st ps st' ys ->
  forall (o : Osc RNum) out, tracks st o -> length out = length ps ->
  exists o', processLoop RNum cfg F dir o ps out = Ok (o', ys) /\ tracks st' o'.
Proof.
  induction 1 as [st|st p st1 y ps st2 ys Hs Hb IH]; intros o out Tr Hl.
  - destruct out; [|discriminate]. exists o. auto.
  - destruct out as [|z out]; [discriminate|]. cbn [processLoop].
    destruct (sample_exact src cfg F HB HF dir st p st1 y o Tr Hs) as (o1 & E1 & T1).
    rewrite E1. cbn [bind]. destruct (IH o1 out T1 ltac:(now injection Hl)) as (o2 & E2 & T2).
    rewrite E2. cbn [bind]. exists o2. auto.
Qed.

Lemma process_exact dir st ps st' ys (o : Osc RNum) : block src dbg F dir st ps st' ys -> tracks st o ->
  exists o', Osc.apply RNum src cfg F o (OpProcess RNum dir ps) = Ok (o', ys) /\ tracks st' o'.
Proof.
  intros Hb Tr. cbn [Osc.apply]. unfold process. rewrite (oo_wt _ _ _ _ _ _ _ (tr_ok _ _ _ _ _ Tr)).
  rewrite assert_ok by reflexivity. cbn [bind].
  rewrite assert_ok.
  2:{ intros _. unfold zlen. rewrite map_length. apply Z.eqb_refl. }
  cbn [bind]. destruct (block_exact dir st ps st' ys Hb o (List.map (fun _ => t0 RNum) ps) Tr) as (o' & E & T).
  { apply map_length. }
  exists o'. split; [exact E|exact T].
Qed.

Lemma reset_mm (o o' : Osc RNum) w p d w' m g mu gu : o_wt o = Some w ->
  resetInternals RNum cfg F o p d = Ok o' ->
  wt_findMipMapIndices RNum dbg w (Rabs d) = Ok (w', (m, g, mu, gu)) -> o_mm o' = m /\ o_wt o' = Some w'.
Proof.
  intros Ew E Ef. unfold resetInternals in E. rewrite Ew in E.
  apply bind_ok in E. destruct E as (? & _ & E).
  apply bind_ok in E. destruct E as (ph & _ & E).
  change (tabs RNum d) with (Rabs d) in E. rewrite Ef in E. cbn [bind] in E.
  apply bind_ok in E. destruct E as (len & _ & E).
  apply bind_ok in E. destruct E as (j & _ & E). injection E as <-. auto.
Qed.

Lemma fresh_exact K nw wfs w wf p d st1 (o : Osc RNum) :
  wellFormed RNum wfs nw K -> table src dbg wfs nw w -> (0 <= wf < nw)%Z ->
  fresh dbg F K nw wfs w wf p d st1 -> o_wt o = Some w -> o_wf o = wf ->
  exists o', resetInternals RNum cfg F o p d = Ok o' /\ tracks st1 o'.
Proof.
  intros HW HT Hwf Hf Ew Ewf. destruct Hf as [w' m g mu gu Hsh Hd0 Hfd].
  destruct (table_ok src dbg _ _ _ _ HW HT) as (Ct & W & CF).
  assert (Hi : initPre RNum LR cfg false p d).
  { destruct (sharp_playable p Hsh) as [Hp _]. split; [exact Hp|]. split; [exact I|].
    split; [intros _; exact Hd0|discriminate]. }
  destruct (resetInternals_fine RNum LR cfg F HB false K nw o w p d Ew W CF
              ltac:(rewrite Ewf; exact Hwf) Hi) as (o' & w2 & E & HO & _ & E1 & E2 & E3 & E4 & _).
  exists o'. split; [exact E|].
  destruct (reset_mm o o' w p d w' m g mu gu Ew E Hfd) as [Em Ew'].
  assert (Ew2 := oo_wt _ _ _ _ _ _ _ HO). rewrite Ew' in Ew2. injection Ew2 as <-.
  constructor; cbn [id_K id_nw id_wfs id_tab id_wf id_phase id_step id_entry id_mem]; auto.
  - rewrite E3. exact Ewf.
  - eapply (t_ask src dbg _ _ w); [exact HT| |exact Hfd]. now apply Rabs_pos_lt.
Qed.

Definition tracksO (st : option Ideal) (o : Osc RNum) : Prop :=
  match st with Some st => tracks st o | None => True end.

Lemma set_wf_tracks st (o : Osc RNum) k : tracks st o -> (0 <= k < id_nw st)%Z ->
  tracks (mkIdeal (id_K st) (id_nw st) (id_wfs st) (id_tab st) k (id_phase st)
                  (id_step st) (id_entry st) (id_mem st)) (set_wf RNum o k).
Proof.
  intros [] Hk. constructor; cbn; auto. now apply OscOk_set_wf.
Qed.

Lemma load_exact K nw wfs w p d st1 (o : Osc RNum) :
  wellFormed RNum wfs nw K -> table src dbg wfs nw w ->
  fresh dbg F K nw wfs w 0 p d st1 ->
  exists o1, resetInternals RNum cfg F (set_wt RNum o (Some w)) p d = Ok o1 /\ tracks st1 (set_wf RNum o1 0).
Proof.
  intros HW HT Hf.
  assert (Hnw : (0 <= 0 < nw)%Z) by (destruct HW as (_ & H & _); lia).
  destruct (fresh_exact K nw wfs w 0 p d st1 (set_wf RNum (set_wt RNum o (Some w)) 0) HW HT Hnw Hf eq_refl eq_refl)
    as (o' & E & Tr).
  assert (Er : resetInternals RNum cfg F (set_wf RNum (set_wt RNum o (Some w)) 0) p d =
     let! o1 := resetInternals RNum cfg F (set_wt RNum o (Some w)) p d in Ok (set_wf RNum o1 0)).
  { unfold resetInternals. cbn [o_wt set_wt set_wf o_pj o_wf].
    destruct (assert_ dbg _); cbn [bind]; [|reflexivity].
    destruct (reduceT RNum dbg p (t1 RNum)); cbn [bind]; [|reflexivity].
    destruct (wt_findMipMapIndices RNum dbg w (tabs RNum d)) as [[w1 [[[a1 a2] a3] a4]]|]; cbn [bind]; [|reflexivity].
    destruct (wt_waveformLen RNum w1 a1); cbn [bind]; [|reflexivity].
    destruct (if tle RNum (t0 RNum) d then _ else _); cbn [bind]; reflexivity. }
  rewrite Er in E. apply bind_ok in E. destruct E as (o1 & E1 & E2). injection E2 as <-.
  exists o1. auto.
Qed.

Lemma rate_exact st sr w' (o : Osc RNum) : tracks st o -> 200 <= sr -> sr < IZR int_max ->
  wt_updateSamplerate RNum src dbg (id_tab st) sr (5 / 1000) = Ok w' ->
  exists o', osc_updateSamplerate RNum src cfg o sr = Ok o' /\
  tracks (mkIdeal (id_K st) (id_nw st) (id_wfs st) w' (id_wf st) (id_phase st)
                         (id_step st) (id_entry st) (id_mem st)) o'.
Proof.
  intros Tr H1 H2 Hu. unfold osc_updateSamplerate. rewrite (oo_wt _ _ _ _ _ _ _ (tr_ok _ _ _ _ _ Tr)).
  rewrite assert_ok by reflexivity. cbn [bind].
  change (defaultFade RNum) with (5 / 1000 : R). rewrite Hu. cbn [bind]. eexists. split; [reflexivity|].
  assert (HT : table src dbg (id_wfs st) (id_nw st) w').
  { eapply t_resample; [exact (tr_tab _ _ _ _ _ Tr)| | |exact Hu]; lra. }
  destruct (table_ok src dbg _ _ _ _ (tr_well _ _ _ _ _ Tr) HT) as (_ & W & CF).
  destruct Tr. constructor; cbn [id_K id_nw id_wfs id_tab id_wf id_phase id_step id_entry id_mem o_phase o_pd o_mm o_wf o_y set_wt]; auto.
  now apply OscOk_set_wt with (w := id_tab st).
Qed.

Theorem plays_exact st ops st' ys : plays src dbg F st ops st' ys ->
  forall o : Osc RNum, tracksO st o ->
  exists o', Osc.run RNum src cfg F o ops = Ok (o', ys) /\ tracksO st' o'.
Proof.
  induction 1 as [st|st op rest st' ys Hop Hp IH|st op w p d K nw wfs st1 rest st' ys Hop HW HT Hf Hp IH
                 |st p d st1 rest st' ys Hf Hp IH|st k rest st' ys Hk Hp IH|st sr w' rest st' ys H1 H2 Hu Hp IH
                 |st dir ps st1 ys rest st' zs Hb Hp IH]; intros o Tr.
  - exists o. auto.
  - destruct Hop as (p & d & [-> | ->]); cbn [Osc.run Osc.apply osc_init osc_swap bind];
      destruct (IH o Tr) as (o' & E & T); rewrite E; cbn [bind app]; eauto.
  - destruct (load_exact K nw wfs w p d st1 o HW HT Hf) as (o1 & E1 & T1).
    destruct Hop as [-> | ->]; cbn [Osc.run Osc.apply osc_init osc_swap bind];
      rewrite E1; cbn [bind]; destruct (IH _ T1) as (o' & E & T); rewrite E; cbn [bind app]; eauto.
  - cbn [tracksO] in Tr.
    assert (Hwf := oo_wf _ _ _ _ _ _ _ (tr_ok _ _ _ _ _ Tr)). rewrite (tr_wf _ _ _ _ _ Tr) in Hwf.
    destruct (fresh_exact _ _ _ _ _ p d st1 o (tr_well _ _ _ _ _ Tr) (tr_tab _ _ _ _ _ Tr) Hwf Hf
      (oo_wt _ _ _ _ _ _ _ (tr_ok _ _ _ _ _ Tr)) (tr_wf _ _ _ _ _ Tr)) as (o1 & E1 & T1).
    cbn [Osc.run Osc.apply]. rewrite E1. cbn [bind]. destruct (IH o1 T1) as (o' & E & T). rewrite E. cbn [bind app]. eauto.
  - cbn [tracksO] in Tr. cbn [Osc.run Osc.apply]. unfold setWaveform.
    rewrite (oo_wt _ _ _ _ _ _ _ (tr_ok _ _ _ _ _ Tr)), assert_ok by reflexivity. cbn [bind].
    destruct (IH _ (set_wf_tracks st o k Tr Hk)) as (o' & E & T). rewrite E. cbn [bind app]. eauto.
  - cbn [tracksO] in Tr. cbn [Osc.run Osc.apply].
    destruct (rate_exact st sr w' o Tr H1 H2 Hu) as (o1 & E1 & T1). rewrite E1. cbn [bind].
    destruct (IH _ T1) as (o' & E & T). rewrite E. cbn [bind app]. eauto.
  - cbn [tracksO] in Tr. cbn [Osc.run].
    destruct (process_exact dir st ps st1 ys o Hb Tr) as (o1 & E1 & T1). rewrite E1. cbn [bind].
    destruct (IH _ T1) as (o' & E & T). rewrite E. cbn [bind]. eauto.
Qed.
End Hist.
