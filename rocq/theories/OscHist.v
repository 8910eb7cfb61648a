(** * OscHist: every history of API calls, any number system with the index laws *)
From Coq Require Import ZArith List Bool Reals Lia Lra Arith.
From Flocq Require Import Core.
From Verif Require Import Num Maths CrossFader Wavetable Filters Osc Spec NumFacts Laws CFFacts WTFacts
  BuildFacts SimdFacts OscFacts OscStep OscRun.
Import ListNotations.
Local Open Scope Z_scope.

Section Rebuild.
Variable N : Num.

Lemma zlen_rebuildLoop m : forall q x, zlen q = zlen m -> zlen m <= zlen x ->
  zlen (rebuildLoop N m q x) = zlen m.
Proof.
  unfold zlen. intros q x H1 H2. f_equal.
  assert (H1' : length q = length m) by lia. assert (H2' : (length m <= length x)%nat) by lia.
  clear H1 H2. revert q x H1' H2'.
  induction m as [|a m IH]; intros [|b q] [|p x]; cbn [length rebuildLoop]; intros; try lia.
  rewrite IH; lia.
Qed.

Lemma at_rebuildLoop m : forall q x j, zlen q = zlen m -> zlen m <= zlen x -> 0 <= j < zlen m ->
  at_ (rebuildLoop N m q x) j = tmad N 60 (at_ m j) (at_ x j) (at_ q j).
Proof.
  unfold at_. intros q x j H1 H2 Hj. unfold zlen in *.
  assert (Hn : (Z.to_nat j < length m)%nat) by lia. clear Hj.
  assert (H1' : length q = length m) by lia. assert (H2' : (length m <= length x)%nat) by lia.
  clear H1 H2. revert q x H1' H2' Hn. generalize (Z.to_nat j) as k. clear j.
  induction m as [|a m IH]; intros k [|b q] [|p x]; cbn [length rebuildLoop]; intros; try lia.
  destruct k as [|k]; [reflexivity|]. cbn [nth]. apply IH; lia.
Qed.

Lemma zlen_concat A (ps : list (list A)) len : (forall p, In p ps -> zlen p = len) ->
  zlen (concat ps) = zlen ps * len.
Proof.
  induction ps as [|p ps IH]; intros H; [reflexivity|]. cbn [concat].
  rewrite zlen_app, zlen_cons, IH, (H p (or_introl eq_refl)); [lia|]. intros; apply H; now right.
Qed.

Lemma waveform_concat (ps : list (list (T N))) len i p : 0 <= len ->
  (forall p, In p ps -> zlen p = len) -> znth ps i = Ok p -> waveform N (concat ps) len i = p.
Proof.
  intros Hlen. unfold waveform. revert i.
  induction ps as [|a ps IH]; intros i H Hi; assert (R := znth_range _ _ _ _ Hi);
    rewrite ?zlen_nil, ?zlen_cons in R; [lia|].
  assert (Ha : zlen a = len) by (apply H; now left).
  cbn [concat]. destruct (Z.eq_dec i 0) as [->|Hne].
  - rewrite znth_cons_0 in Hi. inversion Hi; subst a. cbn [Z.mul Z.to_nat skipn].
    rewrite firstn_app. replace (Z.to_nat len - length p)%nat with 0%nat by (unfold zlen in Ha; lia).
    rewrite firstn_O, app_nil_r. apply firstn_all2. unfold zlen in Ha; lia.
  - rewrite znth_cons_S in Hi by lia. rewrite <- (IH (i - 1)); auto.
    2:{ intros; apply H; now right. }
    f_equal. rewrite skipn_app. rewrite skipn_all2 by (unfold zlen in Ha; nia).
    cbn [app]. f_equal. unfold zlen in Ha. nia.
Qed.

Lemma znth_at_error A (l : list A) i a : znth l i = Ok a -> nth_error l (Z.to_nat i) = Some a.
Proof.
  unfold znth. destruct (i <? 0); [discriminate|]. destruct (nth_error l (Z.to_nat i)); congruence.
Qed.

Lemma rebuild_ok dbg K nw w : WTok K nw w ->
  exists og, rebuildWaveforms N dbg w = Ok og /\ zlen og = nw * 2 ^ K /\
    forall i s, 0 <= i < nw -> wt_slot N w i 0 = Ok s ->
      waveform N og (2 ^ K) i = rebuildLoop N (s_m s) (s_q s) (computePhaseVector N (2 ^ K)).
Proof.
  intros HW. assert (HK := wo_K _ _ _ _ HW). assert (Hnw := wo_nw _ _ _ _ HW).
  unfold rebuildWaveforms. rewrite assert_ok.
  2:{ intros _. rewrite (wo_phn _ _ _ _ HW). destruct (Z.eqb_spec (K - 1) 0); [lia|reflexivity]. }
  cbn [bind]. rewrite (wt_len_ok N K nw w 0 HW) by lia. cbn [bind]. rewrite Z.sub_0_r.
  unfold wt_numWaveforms. rewrite (wo_slots _ _ _ _ HW).
  assert (Hp := pow2_pos K ltac:(lia)).
  rewrite chk_ok by (unfold int_min; nia). cbn [bind].
  set (f := fun k => match wt_slot N w k 0 with
     | Ok s => rebuildLoop N (s_m s) (s_q s) (computePhaseVector N (2 ^ K)) | Fault _ => [] end).
  assert (Hf : forall i, In i (zrange 0 nw) ->
     (let! m := wt_m N w i 0 in let! q := wt_q N w i 0 in
      let! x := wt_phases N w 0 in Ok (rebuildLoop N m q x)) = Ok (f i)).
  { intros i Hi. apply In_zrange in Hi. unfold f, wt_m, wt_q, wt_phases.
    destruct (wt_slot_ok N K nw w i 0 HW ltac:(lia) ltac:(lia)) as (s & ys & E & _). rewrite E. cbn [bind].
    rewrite (wo_ph _ _ _ _ HW 0 ltac:(lia)), Z.sub_0_r. reflexivity. }
  rewrite (mapr_map _ _ _ _ _ Hf). cbn [bind]. eexists. split; [reflexivity|].
  assert (Hlen : forall p, In p (map f (zrange 0 nw)) -> zlen p = 2 ^ K).
  { intros p Hin. apply in_map_iff in Hin. destruct Hin as (i & <- & Hi). apply In_zrange in Hi.
    unfold f. destruct (wt_slot_ok N K nw w i 0 HW ltac:(lia) ltac:(lia)) as (s & ys & E & S & D).
    rewrite E. rewrite Z.sub_0_r in D. destruct (sf_shape _ _ _ S) as [M Q _ _].
    rewrite zlen_rebuildLoop; rewrite ?zlen_phaseVector; lia. }
  split.
  - rewrite (zlen_concat _ _ _ Hlen), zlen_map, zlen_zrange. lia.
  - intros i s Hi Es. apply waveform_concat; [lia|assumption|].
    rewrite znth_map, znth_zrange by lia. unfold f. cbn. now rewrite Es.
Qed.
End Rebuild.

Section OscHist.
Variable N : Num.
Variable L : Laws N.
Variable src : Resampler N.
Variable cfg : Cfg.
Variable F : Filt N.
Notation dbg := (dbg cfg).
Notation B := (batch cfg).
Notation n := (kNumCoeffs N F).
Notation fin := (fin N L).
Notation val := (val N L).
Notation OscOk := (OscOk N L F).
Hypothesis HB : (1 <= B)%nat.
Hypothesis HF : filtOk N F.
Hypothesis Hsrc : resamplerOk N src.

Definition tableOk (w : WT N) : Prop := exists K nw, WTok K nw w /\ CFok N (wt_cf w).
Definition oscInv (o : Osc N) : Prop := exists K nw w, OscOk K nw o w.

(** a sample rate updateSamplerate accepts: positive, 5 ms are at least one sample *)
Definition rateOk (sr fade : T N) : Prop :=
  tle N sr (t0 N) = false /\ exists k, tcast N (tmul N fade sr) = Ok k /\ 1 <= k.

Lemma build_tableOk wfs nw sr fade K w k :
  2 <= K <= 24 -> 1 <= nw -> zlen wfs = nw * 2 ^ K -> nw * 2 ^ K <= int_max ->
  tcast N (tmul N fade sr) = Ok k -> 1 <= k ->
  wt_build N src dbg wfs nw sr fade = Ok (Some w) -> WTok K nw w /\ CFok N (wt_cf w).
Proof.
  intros HK Hnw Hl Hm Hk Hk1 Hb.
  destruct (wt_build_some N src dbg L wfs nw sr fade K w HK Hnw Hl Hm Hb) as (C1 & k' & Ek & Ec).
  assert (k' = k) by congruence. subst k'.
  split; [eapply Contents_WTok; eassumption|].
  assert (Hki : k <= int_max).
  { unfold tcast in Hk. destruct (ttrunc N _) as [v|]; [|discriminate].
    destruct (in_int v) eqn:Ei; [|discriminate]. inversion Hk; subst.
    unfold in_int in Ei. apply andb_prop in Ei. destruct Ei as [_ Ei]. now apply Z.leb_le in Ei. }
  apply (cf_make_ok N dbg k (2 ^ K) sr (wt_cf w)); auto.
  rewrite (ct_scale _ _ _ _ _ _ C1). assert (A := ct_K _ _ _ _ _ _ C1). lia.
Qed.

Lemma updateSamplerate_ok K nw w sr fade : WTok K nw w -> rateOk sr fade ->
  exists w', wt_updateSamplerate N src dbg w sr fade = Ok w' /\ WTok K nw w' /\ CFok N (wt_cf w').
Proof.
  intros HW [Hsr (k & Hk & Hk1)]. assert (HK := wo_K _ _ _ _ HW). assert (Hnw := wo_nw _ _ _ _ HW).
  unfold wt_updateSamplerate. destruct (rebuild_ok N dbg K nw w HW) as (og & E & Hl & _).
  rewrite E. cbn [bind]. unfold wt_numWaveforms. rewrite (wo_slots _ _ _ _ HW).
  destruct (wt_build_ok N src dbg L og nw sr fade K k) as (w' & Eb & _); auto; try lia.
  rewrite Eb. cbn [bind]. exists w'. split; [reflexivity|].
  eapply build_tableOk; eauto; lia.
Qed.

(** ** Preconditions of the API calls *)
Section Pre.
Variable strict : bool.

(** one phase: in [0,1); in a debug build the step must not be 0 and forward steps are at
    most half a cycle.  [strict] further excludes the situation of C22: a step that is not
    forward and lands on phase 0. *)
Definition stepPre (dir : Direction) (prev p : T N) : Prop :=
  okPhase N L p /\
  (dbg = true -> val (stepOf N dir p prev) <> 0%R /\ (val (stepOf N dir p prev) <= / 2)%R) /\
  (strict = true -> (0 < val (stepOf N dir p prev))%R \/
                    (val (stepOf N dir p prev) < 0)%R /\ val p <> 0%R).
Fixpoint blockPre (dir : Direction) (prev : T N) (ps : list (T N)) : Prop :=
  match ps with
  | [] => True
  | p :: t => stepPre dir prev p /\ blockPre dir p t
  end.
(** initial state arguments *)
Definition initPre (p d : T N) : Prop :=
  okPhase N L p /\ fin d /\ (dbg = true -> val d <> 0%R) /\
  (strict = true -> (0 < val d)%R \/ (val d < 0)%R /\ val p <> 0%R).

Definition opPre (o : Osc N) (op : Op N) : Prop :=
  match op with
  | OpInit _ wd p d | OpSwap _ wd p d =>
      match wd with Some w => tableOk w /\ initPre p d | None => True end
  | OpReset _ p d => initPre p d
  | OpSetWaveform _ k => match o_wt o with Some w => 0 <= k < wt_numWaveforms N w | None => False end
  | OpUpdateSamplerate _ sr => rateOk sr (defaultFade N)
  | OpProcess _ dir ps => blockPre dir (prevPhase N o) ps
  end.

Fixpoint histPre (o : Osc N) (ops : list (Op N)) : Prop :=
  match ops with
  | [] => True
  | op :: rest => opPre o op /\
      forall o' ys, apply N src cfg F o op = Ok (o', ys) -> histPre o' rest
  end.

(** with [strict], the state from which nothing can go wrong *)
Definition clear (o : Osc N) : Prop :=
  strict = true -> (0 < val (o_pd o))%R \/ (val (o_pd o) < 0)%R /\ val (o_phred o) <> 0%R.

Lemma clear_notrap K nw o w : OscOk K nw o w -> clear o -> strict = true -> ~ trap N L o.
Proof.
  intros HO Hc Hs [H1 H2]. destruct (Hc Hs) as [H|[H H']]; [lra|].
  assert (Hj := oo_jb _ _ _ _ _ _ _ HO H). rewrite H2 in Hj.
  assert (HP := P_range N L F K nw o w HO).
  assert (A := IZR_pow2_pos (K - o_mm o)). assert (HK := K_range N L F K nw o w HO).
  assert (Hm := oo_mm _ _ _ _ _ _ _ HO). specialize (A ltac:(lia)).
  assert (C := Zceil_ub (pos N L K (o_mm o) (o_phred o))). rewrite <- Hj in C.
  unfold pos in C. assert (0 < val (o_phred o) * IZR (2 ^ (K - o_mm o)))%R by (apply Rmult_lt_0_compat; lra).
  lra.
Qed.

Definition good (o : Osc N) : Prop := oscInv o /\ clear o.

(** outcome of a computation on a good oscillator *)
Definition fineT {A} (P : A -> Prop) (r : res A) : Prop :=
  (exists a, r = Ok a /\ P a) \/ (strict = false /\ r = Fault OutOfBounds).

Lemma fine_bind A A' (P : A -> Prop) (Q : A' -> Prop) r (k : A -> res A') :
  fineT P r -> (forall a, P a -> fineT Q (k a)) -> fineT Q (bind r k).
Proof.
  intros [(a & -> & Ha)|[Hs ->]] Hk; [now apply Hk|]. right. auto.
Qed.

Lemma processOne_fine dir o p : good o -> stepPre dir (o_phase o) p ->
  fineT (fun r => good (fst r) /\ o_phase (fst r) = p) (processOne N cfg F dir o p).
Proof.
  intros [(K & nw & w & HO) Hc] (H1 & H2 & H3).
  assert (A := processOne_ok N cfg F L HB HF K nw o w HO dir p H1).
  cbv zeta in A. specialize (A H2).
  set (pd := stepOf N dir p (o_phase o)) in *.
  destruct (Rle_bool (val (o_pd o)) 0 && (o_j o =? 0) && (miOf N w _ <? o_mm o)) eqn:Eb.
  - right. split; [|assumption].
    destruct strict eqn:Es; [exfalso|reflexivity].
    apply andb_prop in Eb. destruct Eb as [Eb _]. apply andb_prop in Eb. destruct Eb as [E1 E2].
    apply (clear_notrap K nw o w HO Hc Es). split; [|now apply Z.eqb_eq].
    destruct (Rle_bool_spec (val (o_pd o)) 0); [assumption|discriminate].
  - left. destruct A as (o' & out & iv & E & S). exists (o', out). split; [assumption|].
    cbn [fst]. split; [|exact (sp_phase _ _ _ _ _ _ _ _ _ _ _ _ _ S)].
    split; [exists K, nw, (wtNext N w (if Rle_bool 0 (val pd) then pd else tabs N pd)); exact (sp_ok _ _ _ _ _ _ _ _ _ _ _ _ _ S)|].
    intros Hs. rewrite (sp_pd _ _ _ _ _ _ _ _ _ _ _ _ _ S).
    assert (Ep := oo_phase _ _ _ _ _ _ _ (sp_ok _ _ _ _ _ _ _ _ _ _ _ _ _ S)).
    rewrite (sp_phase _ _ _ _ _ _ _ _ _ _ _ _ _ S) in Ep. rewrite <- Ep. now apply H3.
Qed.

Lemma processLoop_fine dir ps : forall o out, good o -> blockPre dir (o_phase o) ps ->
  fineT (fun r => good (fst r)) (processLoop N cfg F dir o ps out).
Proof.
  induction ps as [|p ps IH]; intros o out Hg Hp.
  - left. exists (o, out). split; [destruct out; reflexivity|assumption].
  - destruct out as [|z out]; [left; exists (o, []); split; [reflexivity|assumption]|].
    cbn [processLoop]. destruct Hp as [Hp1 Hp2].
    eapply fine_bind; [apply processOne_fine; eassumption|].
    intros [o1 y] [Hg1 E1]. cbn [fst] in *.
    eapply fine_bind; [apply IH; [assumption|rewrite E1; assumption]|].
    intros [o2 ys] Hg2. cbn [fst] in *. left. eexists. split; [reflexivity|assumption].
Qed.

Lemma resetInternals_fine K nw o w p d : o_wt o = Some w -> WTok K nw w -> CFok N (wt_cf w) ->
  0 <= o_wf o < nw -> initPre p d ->
  exists o' w', resetInternals N cfg F o p d = Ok o' /\ OscOk K nw o' w' /\ clear o' /\
    o_phase o' = p /\ o_pd o' = d /\ o_wf o' = o_wf o /\ o_y o' = repeat (c0 N) n /\
    w' = wtNext N w (tabs N d).
Proof.
  intros Ew HW HC Hwf (Hp & Hf & Hd & Hst). unfold resetInternals. rewrite Ew.
  rewrite assert_ok by reflexivity. cbn [bind].
  rewrite (reduce_phase N L _ p Hp). cbn [bind].
  destruct (abs_spec N L d Hf) as [Fa Va]. destruct (zero_spec N L) as [Z1 Z2].
  destruct (wtNext_ok N cfg K nw w (tabs N d) HW HC) as (E1 & W1 & C1 & _ & _ & M1 & _ & _).
  { intros D. rewrite (lt_spec N L _ _ Z1 Fa), Z2, Va. apply Rlt_bool_true. apply Rabs_pos_lt. auto. }
  rewrite E1. cbn [bind]. rewrite mmiOf_eta. cbn [bind].
  rewrite (wt_len_ok N K nw _ _ W1 M1). cbn [bind].
  rewrite (le_spec N L _ _ Z1 Hf), Z2.
  assert (HK := wo_K _ _ _ _ HW). destruct Hp as [Hp1 Hp2].
  rewrite (floor_pos_spec N L p (K - miOf N w (tabs N d)) Hp1 ltac:(lra) ltac:(lia)).
  rewrite (ceil_pos_spec N L p (K - miOf N w (tabs N d)) Hp1 ltac:(lra) ltac:(lia)).
  destruct (Rle_bool_spec 0 (val d)) as [H|H]; cbn [bind]; do 2 eexists; (split; [reflexivity|]).
  - split; [|split; [exact Hst|auto 8]]. constructor; cbn; auto; try (split; assumption).
    + now rewrite repeat_length.
    + intros; lra.
  - split; [|split; [exact Hst|auto 8]]. constructor; cbn; auto; try (split; assumption).
    + now rewrite repeat_length.
    + intros; lra.
Qed.

Lemma OscOk_set_wf K nw o w k : OscOk K nw o w -> 0 <= k < nw -> OscOk K nw (set_wf N o k) w.
Proof. intros [] Hk. constructor; cbn; auto. Qed.
Lemma OscOk_set_wt K nw o w w' : OscOk K nw o w -> WTok K nw w' -> CFok N (wt_cf w') ->
  OscOk K nw (set_wt N o (Some w')) w'.
Proof. intros [] H1 H2. constructor; cbn; auto. Qed.

Lemma load_fine o w p d : tableOk w -> initPre p d ->
  exists o1, resetInternals N cfg F (set_wt N o (Some w)) p d = Ok o1 /\ good (set_wf N o1 0).
Proof.
  intros (K & nw & HW & HC) Hi.
  (* the waveform index of the old state is irrelevant: it is overwritten afterwards *)
  assert (Hnw := wo_nw _ _ _ _ HW).
  destruct (resetInternals_fine K nw (set_wf N (set_wt N o (Some w)) 0) w p d) as
    (o' & w' & E & H1 & H2 & _); auto; [cbn; lia|].
  assert (Er : resetInternals N cfg F (set_wf N (set_wt N o (Some w)) 0) p d =
     let! o1 := resetInternals N cfg F (set_wt N o (Some w)) p d in Ok (set_wf N o1 0)).
  { unfold resetInternals. cbn [o_wt set_wt set_wf o_pj o_wf].
    destruct (assert_ dbg _); cbn [bind]; [|reflexivity].
    destruct (reduceT N dbg p (t1 N)); cbn [bind]; [|reflexivity].
    destruct (wt_findMipMapIndices N dbg w (tabs N d)) as [[w1 [[[a1 a2] a3] a4]]|]; cbn [bind]; [|reflexivity].
    destruct (wt_waveformLen N w1 a1); cbn [bind]; [|reflexivity].
    destruct (if tle N (t0 N) d then _ else _); cbn [bind]; reflexivity. }
  rewrite Er in E. apply bind_ok in E. destruct E as (o1 & E1 & E2). inversion E2; subst o'.
  exists o1. split; [assumption|]. split; [exists K, nw, w'; assumption|assumption].
Qed.

Lemma init_fine o w p d : tableOk w -> initPre p d ->
  exists o', osc_init N cfg F o (Some w) p d = Ok (o', 0) /\ good o'.
Proof.
  intros Hw Hi. unfold osc_init. destruct (load_fine o w p d Hw Hi) as (o1 & E & G).
  rewrite E. cbn [bind]. eauto.
Qed.
Lemma swap_fine o w p d : tableOk w -> initPre p d ->
  exists o', osc_swap N cfg F o (Some w) p d = Ok (o', o_wt o) /\ good o'.
Proof.
  intros Hw Hi. unfold osc_swap. destruct (load_fine o w p d Hw Hi) as (o1 & E & G).
  rewrite E. cbn [bind]. eauto.
Qed.

Lemma apply_fine o op : good o -> opPre o op ->
  fineT (fun r => good (fst r)) (apply N src cfg F o op).
Proof.
  intros Hg Hp. destruct op as [wd p d|wd p d|p d|k|sr|dir ps]; cbn [apply opPre] in *.
  - destruct wd as [w|].
    + destruct Hp as [Hw Hi]. destruct (init_fine o w p d Hw Hi) as (o' & E & G).
      rewrite E. cbn [bind]. left. eexists. split; [reflexivity|assumption].
    + left. eexists. split; [reflexivity|assumption].
  - destruct wd as [w|].
    + destruct Hp as [Hw Hi]. destruct (swap_fine o w p d Hw Hi) as (o' & E & G).
      rewrite E. cbn [bind]. left. eexists. split; [reflexivity|assumption].
    + left. eexists. split; [reflexivity|assumption].
  - destruct Hg as [(K & nw & w & HO) _].
    destruct (resetInternals_fine K nw o w p d) as (o' & w' & E & H1 & H2 & _); auto; try apply HO.
    rewrite E. cbn [bind]. left. eexists. split; [reflexivity|]. split; [exists K, nw, w'; assumption|assumption].
  - destruct Hg as [(K & nw & w & HO) Hc]. unfold setWaveform. rewrite (oo_wt _ _ _ _ _ _ _ HO) in *.
    rewrite assert_ok by reflexivity. cbn [bind]. left. eexists. split; [reflexivity|].
    unfold wt_numWaveforms in Hp. rewrite (wo_slots _ _ _ _ (oo_W _ _ _ _ _ _ _ HO)) in Hp.
    split; [exists K, nw, w; now apply OscOk_set_wf|exact Hc].
  - destruct Hg as [(K & nw & w & HO) Hc]. unfold osc_updateSamplerate.
    rewrite (oo_wt _ _ _ _ _ _ _ HO). rewrite assert_ok by reflexivity. cbn [bind].
    destruct (updateSamplerate_ok K nw w sr (defaultFade N) (oo_W _ _ _ _ _ _ _ HO) Hp) as (w' & E & W1 & C1).
    rewrite E. cbn [bind]. left. eexists. split; [reflexivity|].
    split; [exists K, nw, w'; now apply (OscOk_set_wt K nw o w)|exact Hc].
  - unfold process.
    assert (Hs : is_some (o_wt o) = true).
    { destruct Hg as [(K & nw & w & HO) _]. now rewrite (oo_wt _ _ _ _ _ _ _ HO). }
    rewrite Hs. rewrite assert_ok by reflexivity. cbn [bind].
    rewrite assert_ok by (intros _; rewrite zlen_map; apply Z.eqb_refl). cbn [bind].
    now apply processLoop_fine.
Qed.

Theorem run_fine ops : forall o, good o -> histPre o ops ->
  fineT (fun r => good (fst r)) (run N src cfg F o ops).
Proof.
  induction ops as [|op ops IH]; intros o Hg Hp.
  - left. eexists. split; [reflexivity|assumption].
  - cbn [run]. destruct Hp as [Hp1 Hp2].
    destruct (apply_fine o op Hg Hp1) as [([o1 ys] & E & G1)|[Hs E]].
    + rewrite E. cbn [bind]. eapply fine_bind; [apply IH; [exact G1|eapply Hp2; eassumption]|].
      intros [o2 zs] G2. left. eexists. split; [reflexivity|assumption].
    + rewrite E. right. auto.
Qed.
End Pre.
End OscHist.
