(** * PHist: lemmas behind the history properties (C20-C22) *)
From Coq Require Import ZArith List Bool Reals Lia Lra Arith.
From Flocq Require Import Core IEEE754.BinarySingleNaN.
From Verif Require Import Num Maths CrossFader Wavetable Filters Osc Spec NumFacts Laws B32 B32Facts
  B32Laws B32Pow SpecF SpecO CFFacts WTFacts BuildFacts SimdFacts OscFacts OscStep OscRun OscHist CFHist PCross PBuild.
Import ListNotations.
Local Open Scope Z_scope.

Section Track.
Variable N : Num.
Variable L : Laws N.
Variable src : Resampler N.
Variable cfg : Cfg.
Variable F : Filt N.
Hypothesis HB : (1 <= batch cfg)%nat.
Hypothesis HF : filtOk N F.
Hypothesis Hsrc : resamplerOk N src.
Notation dbg := (dbg cfg).
Variable strict : bool.
Notation good := (good N L F strict).

Lemma last_cons A (l : list A) p d : last (p :: l) d = last l p.
Proof.
  revert p d. induction l as [|q l IH]; intros p d; [reflexivity|].
  change (last (p :: q :: l) d) with (last (q :: l) d). rewrite IH. symmetry. apply IH.
Qed.

(** number of waveforms of the loaded table *)
Definition nwOf (o : Osc N) : Z := match o_wt o with Some w => wt_numWaveforms N w | None => 0 end.

Lemma nwOf_ok K nw o w : OscOk N L F K nw o w -> nwOf o = nw.
Proof.
  intros HO. unfold nwOf. rewrite (oo_wt _ _ _ _ _ _ _ HO). exact (wo_slots _ _ _ _ (oo_W _ _ _ _ _ _ _ HO)).
Qed.

Lemma processOne_track dir o p o' y : good o -> stepPre N L cfg strict dir (o_phase o) p ->
  processOne N cfg F dir o p = Ok (o', y) ->
  good o' /\ o_phase o' = p /\ nwOf o' = nwOf o /\ o_wf o' = o_wf o /\
  o_pd o' = stepOf N dir p (o_phase o).
Proof.
  intros Hg Hp E.
  destruct (processOne_fine N L cfg F HB HF strict dir o p Hg Hp) as [([o2 y2] & E2 & G & P)|[_ E2]].
  2:{ congruence. }
  rewrite E in E2. inversion E2; subst o2 y2. cbn [fst] in *. split; [assumption|]. split; [assumption|].
  destruct Hg as [(K & nw & w & HO) Hc]. destruct Hp as (H1 & H2 & H3).
  assert (A := processOne_ok N cfg F L HB HF K nw o w HO dir p H1 H2). cbv zeta in A.
  destruct (_ && _) in A; [congruence|].
  destruct A as (o2 & out & iv & E3 & S). rewrite E in E3. inversion E3; subst o2 out.
  split; [|split; [exact (sp_wf _ _ _ _ _ _ _ _ _ _ _ _ _ S)|exact (sp_pd _ _ _ _ _ _ _ _ _ _ _ _ _ S)]].
  rewrite (nwOf_ok K nw _ _ (sp_ok _ _ _ _ _ _ _ _ _ _ _ _ _ S)), (nwOf_ok K nw _ _ HO). reflexivity.
Qed.

Lemma processLoop_track dir ps : forall o out o' ys, good o -> blockPre N L cfg strict dir (o_phase o) ps ->
  length out = length ps -> processLoop N cfg F dir o ps out = Ok (o', ys) ->
  good o' /\ o_phase o' = last ps (o_phase o) /\ nwOf o' = nwOf o /\ o_wf o' = o_wf o /\ length ys = length ps.
Proof.
  induction ps as [|p ps IH]; intros o out o' ys Hg Hp Hl E.
  - destruct out; [|discriminate]. inversion E; subst. auto.
  - destruct out as [|z out]; [discriminate|]. cbn [processLoop] in E. destruct Hp as [Hp1 Hp2].
    apply bind_ok in E. destruct E as ([o1 y] & E1 & E). apply bind_ok in E. destruct E as ([o2 zs] & E2 & E).
    inversion E; subst. destruct (processOne_track dir o p o1 y Hg Hp1 E1) as (G1 & P1 & N1 & W1 & _).
    rewrite <- P1 in Hp2. cbn [length] in Hl.
    destruct (IH o1 out o' zs G1 Hp2 ltac:(lia) E2) as (G2 & P2 & N2 & W2 & L2).
    split; [assumption|]. split; [|split; [congruence|split; [congruence|cbn; lia]]].
    rewrite P2, P1. symmetry. apply last_cons.
Qed.

Lemma reset_track o p d o' : good o -> initPre N L cfg strict p d -> resetInternals N cfg F o p d = Ok o' ->
  good o' /\ o_phase o' = p /\ o_pd o' = d /\ nwOf o' = nwOf o /\ o_wf o' = o_wf o.
Proof.
  intros Hg Hi E. destruct Hg as [(K & nw & w & HO) Hc].
  destruct (resetInternals_fine N L cfg F HB strict K nw o w p d) as (o1 & w1 & E1 & H1 & H2 & P & D & W & _); auto; try apply HO.
  rewrite E in E1. inversion E1; subst o1. split; [split; [exists K, nw, w1; assumption|assumption]|].
  split; [assumption|]. split; [assumption|]. split; [|assumption].
  now rewrite (nwOf_ok K nw _ _ H1), (nwOf_ok K nw _ _ HO).
Qed.

Lemma load_track o w p d o1 : tableOk N w -> initPre N L cfg strict p d ->
  resetInternals N cfg F (set_wt N o (Some w)) p d = Ok o1 ->
  good (set_wf N o1 0) /\ o_phase o1 = p /\ o_pd o1 = d /\ nwOf o1 = wt_numWaveforms N w.
Proof.
  intros Hw Hi E. destruct (load_fine N L cfg F HB strict o w p d Hw Hi) as (o2 & E2 & G).
  assert (o1 = o2) by congruence. subst o2. split; [assumption|].
  unfold resetInternals in E. cbn [o_wt set_wt] in E.
  apply bind_ok in E. destruct E as ([] & _ & E). apply bind_ok in E. destruct E as (ph & _ & E).
  apply bind_ok in E. destruct E as ([w1 [[[mi g] mu] gu]] & Ef & E).
  apply bind_ok in E. destruct E as (len & _ & E). apply bind_ok in E. destruct E as (j & _ & E).
  inversion E; subst. cbn. split; [reflexivity|]. split; [reflexivity|].
  destruct (find_shape N dbg w _ w1 _ Ef) as (S1 & _). unfold nwOf, wt_numWaveforms. cbn. now rewrite S1.
Qed.
End Track.

Section Main.
Variable lm : Libm.
Hypothesis Hlog : log2_exact lm.
Variable src : Resampler (B32 lm).
Variable cfg : Cfg.
Variable F : Filt (B32 lm).
Notation N := (B32 lm).
Notation L := (B32_Laws lm Hlog).
Hypothesis HB : (1 <= batch cfg)%nat.
Hypothesis HF : filterShape N F.
Hypothesis Hsrc : resamplerOk N src.
Variable strict : bool.
Notation good := (good N L F strict).
Notation hist := (okHist lm src (dbg cfg) strict).

Lemma HF' : filtOk N F.
Proof. destruct HF as (A & B & C). constructor; assumption. Qed.

Lemma usable_ok w : usable lm src (dbg cfg) w -> tableOk N w.
Proof.
  intros (K & n & H & Hn). destruct (reach_ok lm Hlog src (dbg cfg) K n w H) as (_ & (nw & HW) & _ & _ & _ & HC).
  exists K, nw. auto.
Qed.

Lemma okRate_ok (sr : f32) : okRate lm sr -> rateOk N sr (defaultFade N).
Proof.
  intros (Hf & [H1 H2] & _). split.
  - destruct (zero_spec N L) as [Z1 Z2].
    rewrite (le_spec N L sr (t0 N) Hf Z1), Z2. apply Rle_bool_false. cbn [val B32_Laws]. unfold L. cbn. lra.
  - assert (Hd : is_finite (defaultFade N : f32) = true /\ (/ 256 <= B2R (defaultFade N : f32) <= 3 / 512)%R).
    { change (defaultFade N) with (fdiv (f32_ofZ 5) (f32_ofZ 1000)).
      split; [vm_compute; reflexivity|]. vm_compute. lra. }
    destruct Hd as [D1 D2]. set (fd := defaultFade N : f32) in *.
    assert (P : (1 <= B2R fd * B2R sr <= 3 * IZR (2 ^ 29))%R).
    { split.
      - apply Rle_trans with (/ 256 * 256)%R; [lra|]. apply Rmult_le_compat; lra.
      - apply Rle_trans with (3 / 512 * IZR (2 ^ 38))%R; [|change (IZR (2 ^ 38)) with (512 * IZR (2 ^ 29))%R || (replace (IZR (2 ^ 38)) with (512 * IZR (2 ^ 29))%R by (rewrite <- mult_IZR; reflexivity)); lra].
        apply Rmult_le_compat; lra. }
    assert (S3 : fmt32 (3 * IZR (2 ^ 29))).
    { rewrite <- bpow_Z by lia. apply (fmt32_Ze 3 29); lia. }
    destruct (mul32 fd sr D1 Hf) as [M1 M2].
    { apply small32_of_le with 31; [lia|]. rewrite bpow_Z by lia. rewrite Rabs_pos_eq by lra.
      apply Rle_trans with (1 := proj2 P). rewrite <- mult_IZR. apply IZR_le. lia. }
    assert (R : (1 <= B2R (fmul fd sr) <= IZR (3 * 2 ^ 29))%R).
    { rewrite M2. split; [apply rnd32_ge; [apply (fmt32_Z 1); lia|lra]|].
      rewrite mult_IZR. apply rnd32_le; [assumption|lra]. }
    change (tmul N fd sr) with (fmul fd sr).
    unfold tcast. rewrite (trunc_spec N L (fmul fd sr) M1). change (val N L (fmul fd sr)) with (B2R (fmul fd sr)).
    assert (T : 1 <= Ztrunc (B2R (fmul fd sr)) <= 3 * 2 ^ 29).
    { split; [rewrite <- (Ztrunc_IZR 1)|rewrite <- (Ztrunc_IZR (3 * 2 ^ 29))]; apply Ztrunc_le; apply R. }
    rewrite in_int_true by (unfold int_min, int_max; lia). eexists. split; [reflexivity|lia].
Qed.

Lemma okInit_ok (p d : f32) : okInit (dbg cfg) strict p d -> initPre N L cfg strict p d.
Proof. intros (A & B & C & D). split; [exact A|]. split; [exact B|]. split; [exact C|exact D]. Qed.

Lemma okBlock_ok dir ps : forall prev : f32, okBlock lm (dbg cfg) strict dir prev ps -> blockPre N L cfg strict dir prev ps.
Proof.
  induction ps as [|p ps IH]; intros prev; [intros _; exact I|]. intros [(A & B & C) D].
  split; [|now apply IH]. split; [exact A|]. split; destruct dir; assumption.
Qed.

(** what a well-behaved history does *)
Definition tracked (st : option (f32 * Z)) (o : Osc N) : Prop :=
  match st with
  | Some (p, nw) => good o /\ o_phase o = p /\ nwOf N o = nw
  | None => o = osc_new N F
  end.

Lemma run_tracked ops : forall st o, tracked st o -> hist st ops ->
  (exists o' ys, run N src cfg F o ops = Ok (o', ys) /\ exists st', tracked st' o') \/
  (strict = false /\ run N src cfg F o ops = Fault OutOfBounds).
Proof.
  induction ops as [|op ops IH]; intros st o Ht Hh.
  { left. exists o, []. split; [reflexivity|eauto]. }
  (* one step that succeeds *)
  assert (Step : forall o1 ys st1, apply N src cfg F o op = Ok (o1, ys) -> tracked st1 o1 -> hist st1 ops ->
    (exists o' ys, run N src cfg F o (op :: ops) = Ok (o', ys) /\ exists st', tracked st' o') \/
    (strict = false /\ run N src cfg F o (op :: ops) = Fault OutOfBounds)).
  { intros o1 ys st1 E T1 H1. cbn [run]. rewrite E. cbn [bind].
    destruct (IH st1 o1 T1 H1) as [(o2 & zs & E2 & T2)|[E1 E2]]; rewrite E2; cbn [bind]; [left|right]; eauto. }
  assert (HFf := HF').
  (* loading a table *)
  assert (Load : forall w p d o1, usable lm src (dbg cfg) w -> okInit (dbg cfg) strict p d ->
    resetInternals N cfg F (set_wt N o (Some w)) p d = Ok o1 ->
    tracked (Some (p, wt_numWaveforms N w)) (set_wf N o1 0)).
  { intros w p d o1 Hu Hi E.
    destruct (load_track N L cfg F HB strict o w p d o1 (usable_ok w Hu) (okInit_ok p d Hi) E) as (G & P & D & W).
    split; [exact G|]. split; [exact P|exact W]. }
  destruct op as [wd p d|wd p d|p d|k|sr|dir ps].
  - destruct wd as [w|]; cbn [okHist] in Hh.
    + destruct Hh as (Hu & Hi & Hh).
      destruct (load_fine N L cfg F HB strict o w p d (usable_ok w Hu) (okInit_ok p d Hi)) as (o1 & E & _).
      eapply Step; [|exact (Load w p d o1 Hu Hi E)|exact Hh].
      cbn [apply osc_init]. rewrite E. reflexivity.
    + eapply Step; [reflexivity|exact Ht|exact Hh].
  - destruct wd as [w|]; cbn [okHist] in Hh.
    + destruct Hh as (Hu & Hi & Hh).
      destruct (load_fine N L cfg F HB strict o w p d (usable_ok w Hu) (okInit_ok p d Hi)) as (o1 & E & _).
      eapply Step; [|exact (Load w p d o1 Hu Hi E)|exact Hh].
      cbn [apply osc_swap]. rewrite E. reflexivity.
    + eapply Step; [reflexivity|exact Ht|exact Hh].
  - cbn [okHist] in Hh. destruct st as [[prev nw]|]; [|contradiction]. destruct Hh as (Hi & Hh).
    destruct Ht as (G & P & W).
    destruct (apply_fine N L src cfg F HB HFf Hsrc strict o (OpReset N p d) G (okInit_ok p d Hi)) as [([o1 ys] & E & _)|[E1 E2]].
    + eapply Step; [exact E| |exact Hh]. cbn [apply] in E. apply bind_ok in E. destruct E as (o2 & E & Eq).
      inversion Eq; subst. destruct (reset_track N L cfg F HB strict o p d o1 G (okInit_ok p d Hi) E) as (G1 & P1 & _ & W1 & _).
      split; [exact G1|]. split; [exact P1|exact W1].
    + right. split; [assumption|]. cbn [run]. rewrite E2. reflexivity.
  - cbn [okHist] in Hh. destruct st as [[prev nw]|]; [|contradiction]. destruct Hh as (Hk & Hh).
    destruct Ht as (G & P & W).
    assert (Hp : opPre N L cfg strict o (OpSetWaveform N k)).
    { cbn [opPre]. unfold nwOf in W. destruct G as [(K & nw' & w & HO) _]. rewrite (oo_wt _ _ _ _ _ _ _ HO) in *. rewrite W. exact Hk. }
    destruct (apply_fine N L src cfg F HB HFf Hsrc strict o _ G Hp) as [([o1 ys] & E & G1)|[E1 E2]].
    + eapply Step; [exact E| |exact Hh]. cbn [apply] in E. unfold setWaveform in E.
      apply bind_ok in E. destruct E as (o2 & E & Eq). apply bind_ok in E. destruct E as ([] & _ & E).
      inversion E; subst o2. inversion Eq; subst. split; [exact G1|]. split; reflexivity.
    + right. split; [assumption|]. cbn [run]. rewrite E2. reflexivity.
  - cbn [okHist] in Hh. destruct st as [[prev nw]|]; [|contradiction]. destruct Hh as (Hk & Hh).
    destruct Ht as (G & P & W).
    destruct (apply_fine N L src cfg F HB HFf Hsrc strict o (OpUpdateSamplerate N sr) G (okRate_ok sr Hk)) as [([o1 ys] & E & G1)|[E1 E2]].
    + eapply Step; [exact E| |exact Hh]. cbn [apply] in E.
      apply bind_ok in E. destruct E as (o2 & E & Eq). inversion Eq; subst o2 ys. clear Eq.
      split; [exact G1|].
      destruct G as [(K & nw' & w & HO) _]. unfold osc_updateSamplerate in E.
      apply bind_ok in E. destruct E as ([] & _ & E). rewrite (oo_wt _ _ _ _ _ _ _ HO) in E.
      destruct (updateSamplerate_ok N L src cfg HB Hsrc K nw' w sr (defaultFade N) (oo_W _ _ _ _ _ _ _ HO) (okRate_ok sr Hk)) as (w' & E' & W1 & C1).
      rewrite E' in E. cbn [bind] in E. inversion E; subst o1. cbn [set_wt o_phase]. split; [exact P|].
      rewrite <- W. rewrite (nwOf_ok N L F K nw' _ _ HO). unfold nwOf. cbn [set_wt o_wt]. exact (wo_slots _ _ _ _ W1).
    + right. split; [assumption|]. cbn [run]. rewrite E2. reflexivity.
  - cbn [okHist] in Hh. destruct st as [[prev nw]|]; [|contradiction]. destruct Hh as (Hk & Hh).
    destruct Ht as (G & P & W). apply okBlock_ok in Hk. rewrite <- P in Hk.
    destruct (apply_fine N L src cfg F HB HFf Hsrc strict o (OpProcess N dir ps) G Hk) as [([o1 ys] & E & G1)|[E1 E2]].
    + eapply Step; [exact E| |exact Hh]. cbn [apply] in E. unfold process in E.
      apply bind_ok in E. destruct E as ([] & _ & E). apply bind_ok in E. destruct E as ([] & _ & E).
      destruct (processLoop_track N L cfg F HB HFf strict dir ps o _ o1 ys G Hk ltac:(now rewrite map_length) E) as (G2 & P2 & W2 & _).
      split; [exact G2|]. rewrite P2, P, W2. auto.
    + right. split; [assumption|]. cbn [run]. rewrite E2. reflexivity.
Qed.

Lemma hist_safe ops : hist None ops ->
  (exists o ys, run N src cfg F (osc_new N F) ops = Ok (o, ys)) \/
  (strict = false /\ run N src cfg F (osc_new N F) ops = Fault OutOfBounds).
Proof.
  intros H. destruct (run_tracked ops None (osc_new N F) eq_refl H) as [(o & ys & E & _)|H1]; [left|right]; eauto.
Qed.
End Main.

Lemma findLoop_ext N d d' sc : (forall x, tlt N d x = tlt N d' x) -> forall i, findLoop N d sc i = findLoop N d' sc i.
Proof.
  intros H. induction sc as [|a sc IH]; intros i; [reflexivity|]. cbn [findLoop].
  destruct sc; [reflexivity|]. rewrite H, IH. reflexivity.
Qed.

Lemma abs_lt lm (d x : f32) : is_finite d = true -> (0 <= B2R d)%R ->
  tlt (B32 lm) d x = tlt (B32 lm) (tabs (B32 lm) d) x.
Proof.
  intros Hf Hd. destruct d as [s| | |s m e b]; try discriminate.
  - destruct s; [|reflexivity]. destruct x as [[]|[]| |[]]; reflexivity.
  - destruct s; [|reflexivity]. exfalso.
    assert (B2R (B754_finite true m e b : f32) < 0)%R; [|lra].
    unfold B2R. apply F2R_lt_0. reflexivity.
Qed.

Section Exactly.
Variable lm : Libm.
Hypothesis Hlog : log2_exact lm.
Variable src : Resampler (B32 lm).
Variable cfg : Cfg.
Variable F : Filt (B32 lm).
Notation N := (B32 lm).
Notation L := (B32_Laws lm Hlog).
Hypothesis HB : (1 <= batch cfg)%nat.
Hypothesis HF : filterShape N F.
Hypothesis Hsrc : resamplerOk N src.

(** the one fault, exactly *)
Lemma fault_exactly ops o ys dir (p : f32) :
  okHist lm src (dbg cfg) false None ops -> run N src cfg F (osc_new N F) ops = Ok (o, ys) ->
  o_wt o <> None -> okStep lm (dbg cfg) false dir (prevPhase N o) p ->
  ((B2R (prevPhaseDiff N o : f32) < 0)%R -> (o_j o = 0 <-> B2R (prevPhase N o : f32) = 0%R)) /\
  exists w w' mi (g : f32) mu (gu : f32),
    o_wt o = Some w /\
    wt_findMipMapIndices N (dbg cfg) w (tabs N (step32 lm dir (prevPhase N o) p)) = Ok (w', (mi, g, mu, gu)) /\
    if (Rle_bool (B2R (prevPhaseDiff N o : f32)) 0 && (o_j o =? 0) && (mi <? o_mm o))
    then process N cfg F dir o [p] [t0 N] = Fault OutOfBounds
    else exists o' y, process N cfg F dir o [p] [t0 N] = Ok (o', [y]).
Proof.
  intros Hh Hr Hw Hp.
  destruct (run_tracked lm Hlog src cfg F HB HF Hsrc false ops None (osc_new N F) eq_refl Hh) as [(o2 & zs & E & st & T)|[_ E]].
  2:{ congruence. }
  rewrite Hr in E. inversion E; subst o2 zs. destruct st as [[q nw]|]; [|cbn in T; subst o; contradiction].
  destruct T as ([(K & nw' & w & HO) _] & Pq & Wn).
  assert (HF2 := HF' lm F HF).
  split.
  { intros Hneg. change (B2R (prevPhaseDiff N o)) with (val N L (o_pd o)) in Hneg.
    rewrite (oo_jb _ _ _ _ _ _ _ HO Hneg). unfold prevPhase.
    assert (Ep := oo_phase _ _ _ _ _ _ _ HO). destruct (oo_phred _ _ _ _ _ _ _ HO) as [Q1 Q2].
    change (B2R (o_phase o)) with (val N L (o_phase o)). rewrite Ep.
    assert (HKr := K_range N L F K nw' o w HO). assert (Hmm := oo_mm _ _ _ _ _ _ _ HO).
    assert (Pp := IZR_pow2_pos (K - o_mm o) ltac:(lia)). unfold pos.
    split.
    - intros H0. assert (C := Zceil_ub (val N L (o_phred o) * IZR (2 ^ (K - o_mm o)))). rewrite H0 in C.
      destruct (Rle_lt_or_eq_dec _ _ (proj1 Q2)) as [Hlt|]; [|lra].
      assert (0 < val N L (o_phred o) * IZR (2 ^ (K - o_mm o)))%R by (apply Rmult_lt_0_compat; lra). lra.
    - intros ->. rewrite Rmult_0_l. apply (Zceil_IZR 0). }
  destruct Hp as (P1 & P2 & _).
  assert (A := processOne_ok N cfg F L HB HF2 K nw' o w HO dir p P1).
  change (stepOf N dir p (o_phase o)) with (step32 lm dir (prevPhase N o) p) in A.
  destruct (step_facts N F L K nw' o w HO dir p P1) as (Sf & _ & _).
  change (stepOf N dir p (o_phase o)) with (step32 lm dir (prevPhase N o) p) in Sf.
  set (pd := step32 lm dir (prevPhase N o) p) in *. cbv zeta in A. specialize (A P2).
  destruct (abs_spec N L pd Sf) as [Fa Va].
  (* the step's magnitude, as findMipMapIndices sees it *)
  assert (Ed : req N (wt_cf w) (if Rle_bool 0 (val N L pd) then pd else tabs N pd) = req N (wt_cf w) (tabs N pd)).
  { destruct (Rle_bool_spec 0 (val N L pd)) as [H|H]; [|reflexivity].
    unfold req. apply findLoop_ext. intros x. now apply abs_lt. }
  assert (Eo : mmiOf N w (if Rle_bool 0 (val N L pd) then pd else tabs N pd) = mmiOf N w (tabs N pd)).
  { unfold mmiOf. now rewrite Ed. }
  unfold miOf in A. rewrite Eo in A.
  destruct (zero_spec N L) as [Z1 Z2].
  destruct (wtNext_ok N cfg K nw' w (tabs N pd) (oo_W _ _ _ _ _ _ _ HO) (oo_cf _ _ _ _ _ _ _ HO)) as (E1 & _).
  { intros D. rewrite (lt_spec N L _ _ Z1 Fa), Z2, Va. apply Rlt_bool_true, Rabs_pos_lt. now apply P2. }
  destruct (mmiOf N w (tabs N pd)) as [[[mi g] mu] gu] eqn:Em. cbn [fst snd] in A.
  exists w, (wtNext N w (tabs N pd)), mi, g, mu, gu.
  split; [exact (oo_wt _ _ _ _ _ _ _ HO)|]. split; [exact E1|].
  unfold process. rewrite (oo_wt _ _ _ _ _ _ _ HO). cbn [is_some]. rewrite assert_ok by reflexivity. cbn [bind].
  rewrite assert_ok by reflexivity. cbn [bind processLoop].
  change (B2R (prevPhaseDiff N o)) with (val N L (o_pd o)).
  destruct (Rle_bool (val N L (o_pd o)) 0 && (o_j o =? 0) && (mi <? o_mm o)).
  - rewrite A. reflexivity.
  - destruct A as (o' & out & iv & Ep & _). rewrite Ep. cbn [bind]. eauto.
Qed.
End Exactly.
