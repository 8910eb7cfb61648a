(** * Prop_Rate: property C65 -- the sample rate matters only through the length of the cross-fade *)
From Coq Require Import ZArith List Bool Reals Lia Lra Arith.
From Flocq Require Import Core IEEE754.BinarySingleNaN.
From Verif Require Import Num Maths CrossFader Wavetable Filters Osc Spec SpecC SpecT NumFacts Laws CFFacts
  WTFacts BuildFacts OscFacts OscStep OscRun OscHist CFHist RNum RLaws B32 B32Facts B32Laws B32Pow Demo
  SpecF SpecO SpecW PCross PHist PHeld SpecL PLoop PRate SpecRate PRate32 Prop_Build Prop_CrossFader.
Import ListNotations.
Local Open Scope Z_scope.

(** ** C65, tables.  Whatever the samples, two requests at usable sample rates whose fades have
    the same number of samples build the very same table, or fail in the same way ... *)
Theorem C65_build_same : forall lm src dbg wfs nw K (sr1 sr2 fade1 fade2 : f32),
  log2_exact lm -> wellFormed (B32 lm) wfs nw K -> rate32 lm sr1 -> rate32 lm sr2 ->
  tcast (B32 lm) (tmul (B32 lm) fade1 sr1) = tcast (B32 lm) (tmul (B32 lm) fade2 sr2) ->
  wt_build (B32 lm) src dbg wfs nw sr1 fade1 = wt_build (B32 lm) src dbg wfs nw sr2 fade2.
Proof. intros lm src dbg wfs nw K sr1 sr2 fade1 fade2 Hlog. exact (build_same lm Hlog src dbg wfs nw K sr1 sr2 fade1 fade2). Qed.
Print Assumptions C65_build_same.

(** ... and updateSamplerate of any table in use too. *)
Theorem C65_resample_same : forall lm src dbg K n w (sr1 sr2 fade1 fade2 : f32),
  log2_exact lm -> reachable (B32 lm) src dbg (rate32 lm) K n w -> rate32 lm sr1 -> rate32 lm sr2 ->
  tcast (B32 lm) (tmul (B32 lm) fade1 sr1) = tcast (B32 lm) (tmul (B32 lm) fade2 sr2) ->
  wt_updateSamplerate (B32 lm) src dbg w sr1 fade1 = wt_updateSamplerate (B32 lm) src dbg w sr2 fade2.
Proof. intros lm src dbg K n w sr1 sr2 fade1 fade2 Hlog. exact (resample_same lm Hlog src dbg K n w sr1 sr2 fade1 fade2). Qed.
Print Assumptions C65_resample_same.

Section Run.
Variable lm : Libm.
Hypothesis Hlog : log2_exact lm.
Variable src : Resampler (B32 lm).
Variable cfg : Cfg.
Variable F : Filt (B32 lm).
Hypothesis HB : (1 <= batch cfg)%nat.
Notation N := (B32 lm).
Notation L := (B32_Laws lm Hlog).
Notation dbg := (dbg cfg).
Notation run := (Osc.run N src cfg F).
Notation apply := (Osc.apply N src cfg F).

Lemma ok_rate32 (sr : f32) : okRate lm sr -> rate32 lm sr.
Proof.
  intros (Hf & [H1 _] & H2). split; [exact Hf|]. split; [|exact H2].
  apply Rle_trans with 1%R; [|lra]. rewrite <- Rinv_1. apply Rinv_le; [lra|]. apply (IZR_le 1). lia.
Qed.

Lemma hist_head strict st op ops : okHist lm src dbg strict st (op :: ops) ->
  okHist lm src dbg strict st [op] /\ exists st', okHist lm src dbg strict st' ops.
Proof.
  destruct op as [[w|] p d|[w|] p d|p d|k|sr|dir ps]; cbn [okHist]; try tauto; eauto.
  - intros (A & B & C). eauto.
  - intros (A & B & C). eauto.
  - destruct st as [[q nw]|]; [|tauto]. intros (A & B). eauto.
  - destruct st as [[q nw]|]; [|tauto]. intros (A & B). eauto.
  - destruct st as [[q nw]|]; [|tauto]. intros (A & B). eauto.
  - destruct st as [[q nw]|]; [|tauto]. intros (A & B). eauto.
Qed.

Lemma fade_same strict ops1 ops2 : Forall2 (sameFade lm) ops1 ops2 -> forall st o, held lm src cfg o ->
  okHist lm src dbg strict st ops1 -> run o ops1 = run o ops2.
Proof.
  induction 1 as [|a b ops1 ops2 Hab _ IH]; intros st o Ho Hh; [reflexivity|].
  destruct (hist_head strict st a ops1 Hh) as [Ha [st' Hr]]. cbn [Osc.run].
  assert (E : apply o a = apply o b).
  { destruct Hab as [->|(sr1 & sr2 & n & -> & -> & K1 & K2 & F1 & F2)]; [reflexivity|].
    cbn [Osc.apply]. f_equal. unfold osc_updateSamplerate. destruct (assert_ _ _); cbn [bind]; [|reflexivity].
    destruct (o_wt o) as [w|] eqn:Ew; [|reflexivity]. destruct (Ho w Ew) as (K & m & Hre & _).
    rewrite (resample_same lm Hlog src dbg K m w sr1 sr2 _ _ Hre (ok_rate32 _ K1) (ok_rate32 _ K2) (eq_trans F1 (eq_sym F2))).
    reflexivity. }
  rewrite <- E. destruct (apply o a) as [[o1 ys]|f] eqn:Ea; cbn [bind]; [|reflexivity].
  rewrite (IH st' o1); [reflexivity| |exact Hr].
  apply (run_held lm Hlog src cfg F HB strict [a] st o o1 ys Ho Ha). cbn [Osc.run]. rewrite Ea. cbn [bind]. now rewrite app_nil_r.
Qed.

(** two tables fresh from the same samples *)
Record twins (K : Z) (w1 w2 : WT N) : Prop := {
  tw_slots : wt_slots w1 = wt_slots w2;
  tw_ph : wt_ph w1 = wt_ph w2;
  tw_sc : cf_scale (wt_cf w1) = cf_scale (wt_cf w2);
  tw_l1 : cf_left (wt_cf w1) = 0;
  tw_l2 : cf_left (wt_cf w2) = 0;
  tw_p1 : cf_prev (wt_cf w1) = cf_next (wt_cf w1);
  tw_p2 : cf_prev (wt_cf w2) = cf_next (wt_cf w2);
  tw_x1 : cf_next (wt_cf w1) = findLoop N (tfrac N 1 10) (cf_scale (wt_cf w1)) 0;
  tw_x2 : cf_next (wt_cf w2) = findLoop N (tfrac N 1 10) (cf_scale (wt_cf w2)) 0;
  tw_r : exists n, reachable N src dbg (rate32 lm) K n w1 }.

Lemma twins_build wfs nw K (sr1 sr2 fade1 fade2 : f32) w1 w2 : wellFormed N wfs nw K -> rate32 lm sr1 -> rate32 lm sr2 ->
  wt_build N src dbg wfs nw sr1 fade1 = Ok (Some w1) -> wt_build N src dbg wfs nw sr2 fade2 = Ok (Some w2) ->
  twins K w1 w2 /\ tcast N (tmul N fade1 sr1) = Ok (cf_num (wt_cf w1)) /\ tcast N (tmul N fade2 sr2) = Ok (cf_num (wt_cf w2)).
Proof.
  intros HW R1 R2 E1 E2. destruct (build_slots lm Hlog src dbg wfs nw K sr1 sr2 fade1 fade2 w1 w2 HW R1 R2 E1 E2) as (A & B & C).
  destruct (fresh_state lm Hlog src dbg wfs nw K sr1 fade1 w1 HW R1 E1) as (n1 & T1 & N1 & P1 & Q1 & X1 & H1).
  destruct (fresh_state lm Hlog src dbg wfs nw K sr2 fade2 w2 HW R2 E2) as (n2 & T2 & N2 & P2 & Q2 & X2 & H2).
  split; [|split; congruence]. constructor; auto. eauto.
Qed.

Lemma twins_resample o w K (sr1 sr2 : f32) o1 o2 : held lm src cfg o -> o_wt o = Some w -> wt_numMipMapTables N w = K - 1 ->
  okRate lm sr1 -> okRate lm sr2 ->
  osc_updateSamplerate N src cfg o sr1 = Ok o1 -> osc_updateSamplerate N src cfg o sr2 = Ok o2 ->
  exists w1 w2, o1 = set_wt N o (Some w1) /\ o2 = set_wt N o (Some w2) /\ twins K w1 w2 /\
    fadeOf lm sr1 (cf_num (wt_cf w1)) /\ fadeOf lm sr2 (cf_num (wt_cf w2)).
Proof.
  intros Ho Ew HK R1 R2 E1 E2. destruct (Ho w Ew) as (K' & m & Hre & _).
  destruct (reach_ok lm Hlog src dbg K' m w Hre) as (_ & (nw' & HWT) & _).
  assert (K' = K). { unfold wt_numMipMapTables, cf_numMipMapTables in HK. rewrite (wo_scale _ _ _ _ HWT) in HK. lia. } subst K'.
  destruct (resample_shape lm Hlog src dbg K m w Hre) as (og & nw & HW & _ & HU).
  unfold osc_updateSamplerate in E1, E2. rewrite Ew in E1, E2. rewrite HU in E1. rewrite HU in E2.
  destruct (assert_ dbg (is_some (Some w))) as [[]|]; cbn [bind] in E1, E2; [|discriminate E1].
  destruct (wt_build N src dbg og nw sr1 (defaultFade N)) as [[w1|]|] eqn:B1; cbn [bind] in E1; try discriminate E1.
  destruct (wt_build N src dbg og nw sr2 (defaultFade N)) as [[w2|]|] eqn:B2; cbn [bind] in E2; try discriminate E2.
  destruct (twins_build og nw K sr1 sr2 _ _ w1 w2 HW (ok_rate32 _ R1) (ok_rate32 _ R2) B1 B2) as (T & F1 & F2).
  exists w1, w2. split; [congruence|]. split; [congruence|]. split; [exact T|]. split; [exact F1|exact F2].
Qed.

Lemma twins_calm K w1 w2 r : twins K w1 w2 -> entryFor K (B2R (tfrac N 1 10 : f32)) r ->
  calm N (cf_scale (wt_cf w1)) r w1 w2.
Proof.
  intros [A B C D E G H I J (n & HR)] He.
  assert (X : findLoop N (tfrac N 1 10) (cf_scale (wt_cf w1)) 0 = r).
  { apply (asks32 lm Hlog src dbg K n w1 r (tfrac N 1 10) HR); [reflexivity|exact He]. }
  constructor; auto; try congruence.
Qed.

Lemma twins_inert K w1 w2 r : twins K w1 w2 -> 1 <= cf_num (wt_cf w1) -> 1 <= cf_num (wt_cf w2) ->
  inert N (cf_scale (wt_cf w1)) r w1 (cf_num (wt_cf w1) + 1) w1 /\ inert N (cf_scale (wt_cf w1)) r w2 (cf_num (wt_cf w2) + 1) w2.
Proof. intros [A B C D E G H I J _] H1 H2. split; apply inert_fresh; auto. Qed.

(** init, then calls *)
Lemma init_run o w (p d : f32) ops r : outputs N (run o (OpInit N (Some w) p d :: ops)) = r ->
  outputs N (let! o1 := resetInternals N cfg F (set_wt N o (Some w)) p d in run (set_wf N o1 0) ops) = r.
Proof.
  intros <-. cbn [Osc.run Osc.apply osc_init].
  destruct (resetInternals N cfg F (set_wt N o (Some w)) p d) as [o1|]; cbn [bind]; [|reflexivity].
  destruct (run (set_wf N o1 0) ops) as [[o2 ys]|]; reflexivity.
Qed.

Lemma no_fade_init o K w1 w2 r (p d : f32) ops : twins K w1 w2 -> entryFor K (B2R (tfrac N 1 10 : f32)) r ->
  stays K r kBidirectionnal d -> staysIn lm K r p ops ->
  outputs N (run o (OpInit N (Some w1) p d :: ops)) = outputs N (run o (OpInit N (Some w2) p d :: ops)).
Proof.
  intros T He Hd Hs. destruct (tw_r _ _ _ T) as (n & HR). assert (C := twins_calm K w1 w2 r T He).
  assert (Ad := proj1 (asks_stays lm Hlog src dbg K n w1 r _ d HR Hd)).
  assert (As := asks_ops lm Hlog src dbg K n w1 r ops HR p Hs).
  apply eq_trans with (1 := eq_sym (init_run o w1 p d ops _ eq_refl)). apply eq_trans with (2 := init_run o w2 p d ops _ eq_refl).
  assert (R := calm_reset N cfg F (cf_scale (wt_cf w1)) r (set_wt N o (Some w1)) (set_wt N o (Some w2)) w1 w2 p d eq_refl eq_refl C eq_refl Ad).
  destruct (resetInternals N cfg F (set_wt N o (Some w1)) p d) as [o1|], (resetInternals N cfg F (set_wt N o (Some w2)) p d) as [o2|];
    cbn [bind]; try contradiction; [|now rewrite R].
  eapply sameRes_outputs. eapply (calm_run N src cfg F (cf_scale (wt_cf w1)) r); [|exact As].
  destruct R as (A & B1 & B2 & B3 & B4 & B5 & B6 & B7 & B8). split; [exact A|]. cbn. repeat split; assumption.
Qed.

Lemma no_fade_resample o w K (sr1 sr2 : f32) r ops : held lm src cfg o -> o_wt o = Some w -> wt_numMipMapTables N w = K - 1 ->
  okRate lm sr1 -> okRate lm sr2 -> entryFor K (B2R (tfrac N 1 10 : f32)) r -> staysIn lm K r (prevPhase N o) ops ->
  forall o1 o2, osc_updateSamplerate N src cfg o sr1 = Ok o1 -> osc_updateSamplerate N src cfg o sr2 = Ok o2 ->
  outputs N (run o1 ops) = outputs N (run o2 ops).
Proof.
  intros Ho Ew HK R1 R2 He Hs o1 o2 E1 E2.
  destruct (twins_resample o w K sr1 sr2 o1 o2 Ho Ew HK R1 R2 E1 E2) as (w1 & w2 & -> & -> & T & _).
  destruct (tw_r _ _ _ T) as (n & HR). assert (C := twins_calm K w1 w2 r T He).
  assert (As := asks_ops lm Hlog src dbg K n w1 r ops HR _ Hs).
  eapply sameRes_outputs. eapply (calm_run N src cfg F (cf_scale (wt_cf w1)) r); [|exact As].
  split; [cbn; eauto|]. repeat split.
Qed.

Lemma init_lazy sc r o w (p d : f32) pre o' ys : inert N sc r w (cf_num (wt_cf w) + 1) w ->
  asks N sc r (tabs N d) -> opsAsk N sc r p pre -> run o (OpInit N (Some w) p d :: pre) = Ok (o', ys) ->
  exists q', lazy N sc r w (cf_num (wt_cf w) - Z.of_nat (asked pre)) q' o' /\ o_wf o' = wfAfter N pre 0.
Proof.
  clear HB. intros I Ad As E. cbn [Osc.run Osc.apply osc_init] in E. apply bind_ok in E. destruct E as ([o3 zs] & E3 & E).
  apply bind_ok in E3. destruct E3 as ([o4 z] & E4 & E3). apply bind_ok in E4. destruct E4 as (o5 & E5 & E4).
  apply bind_ok in E. destruct E as ([o6 us] & E6 & E). injection E4 as <- <-. injection E3 as <- <-. injection E as <- <-.
  destruct (lazy_reset N cfg F sc r w _ (set_wt N o (Some w)) w p d o5 eq_refl I Ad E5) as [(w' & W1 & W2 & W3) _].
  replace (cf_num (wt_cf w) + 1 - 1) with (cf_num (wt_cf w)) in W2 by lia.
  exact (lazy_run N src cfg F sc r w pre (cf_num (wt_cf w)) p (set_wf N o5 0) o6 us
    (ex_intro _ w' (conj W1 (conj W2 W3))) As E6).
Qed.

Lemma after_init o K w1 w2 r (p d : f32) pre o1 ys1 o2 ys2 (p2 d2 : f32) ops : twins K w1 w2 ->
  1 <= cf_num (wt_cf w1) <= Z.of_nat (asked pre) -> 1 <= cf_num (wt_cf w2) <= Z.of_nat (asked pre) ->
  stays K r kBidirectionnal d -> staysIn lm K r p pre ->
  run o (OpInit N (Some w1) p d :: pre) = Ok (o1, ys1) -> run o (OpInit N (Some w2) p d :: pre) = Ok (o2, ys2) ->
  stays K r kBidirectionnal d2 -> staysIn lm K r p2 ops ->
  outputs N (run o1 (OpReset N p2 d2 :: ops)) = outputs N (run o2 (OpReset N p2 d2 :: ops)).
Proof.
  clear HB. intros T A1 A2 Hd Hs E1 E2 Hd2 Hs2. destruct (tw_r _ _ _ T) as (n & HR).
  destruct (twins_inert K w1 w2 r T ltac:(lia) ltac:(lia)) as [I1 I2].
  assert (Ad := proj1 (asks_stays lm Hlog src dbg K n w1 r _ d HR Hd)).
  assert (As := asks_ops lm Hlog src dbg K n w1 r pre HR p Hs).
  assert (Ad2 := proj1 (asks_stays lm Hlog src dbg K n w1 r _ d2 HR Hd2)).
  assert (As2 := asks_ops lm Hlog src dbg K n w1 r ops HR p2 Hs2).
  destruct (init_lazy _ r o w1 p d pre o1 ys1 I1 Ad As E1) as (q1 & L1 & W1). destruct (init_lazy _ r o w2 p d pre o2 ys2 I2 Ad As E2) as (q2 & L2 & W2).
  eapply (rest_reset N src cfg F (cf_scale (wt_cf w1)) r w1 w2); [apply T|apply T| | |exact L1|exact L2|congruence|split; assumption]; lia.
Qed.

Lemma after_resample o w K (sr1 sr2 : f32) n1 n2 r pre o1 ys1 o2 ys2 (p2 d2 : f32) ops :
  held lm src cfg o -> o_wt o = Some w -> wt_numMipMapTables N w = K - 1 ->
  okRate lm sr1 -> okRate lm sr2 -> fadeOf lm sr1 n1 -> fadeOf lm sr2 n2 ->
  n1 < Z.of_nat (asked pre) -> n2 < Z.of_nat (asked pre) -> staysIn lm K r (prevPhase N o) pre ->
  run o (OpUpdateSamplerate N sr1 :: pre) = Ok (o1, ys1) -> run o (OpUpdateSamplerate N sr2 :: pre) = Ok (o2, ys2) ->
  stays K r kBidirectionnal d2 -> staysIn lm K r p2 ops ->
  outputs N (run o1 (OpReset N p2 d2 :: ops)) = outputs N (run o2 (OpReset N p2 d2 :: ops)).
Proof.
  intros Ho Ew HK R1 R2 F1 F2 A1 A2 Hs E1 E2 Hd2 Hs2.
  cbn [Osc.run Osc.apply] in E1, E2.
  apply bind_ok in E1. destruct E1 as ([o3 zs] & E3 & E1). apply bind_ok in E3. destruct E3 as (u1 & U1 & E3).
  apply bind_ok in E1. destruct E1 as ([o4 us] & E4 & E1). injection E3 as <- <-. injection E1 as <- <-.
  apply bind_ok in E2. destruct E2 as ([o5 zs2] & E3 & E2). apply bind_ok in E3. destruct E3 as (u2 & U2 & E3).
  apply bind_ok in E2. destruct E2 as ([o6 us2] & E5 & E2). injection E3 as <- <-. injection E2 as <- <-.
  destruct (twins_resample o w K sr1 sr2 u1 u2 Ho Ew HK R1 R2 U1 U2) as (w1 & w2 & -> & -> & T & G1 & G2).
  destruct (okRate_ok lm Hlog cfg HB sr1 R1) as (_ & m1 & M1 & P1). destruct (okRate_ok lm Hlog cfg HB sr2 R2) as (_ & m2 & M2 & P2).
  unfold fadeOf in F1, F2, G1, G2.
  assert (cf_num (wt_cf w1) = n1) by congruence. assert (cf_num (wt_cf w2) = n2) by congruence.
  assert (m1 = n1) by (rewrite F1 in M1; congruence). assert (m2 = n2) by (rewrite F2 in M2; congruence).
  destruct (tw_r _ _ _ T) as (n & HR).
  destruct (twins_inert K w1 w2 r T ltac:(lia) ltac:(lia)) as [I1 I2].
  assert (As := asks_ops lm Hlog src dbg K n w1 r pre HR _ Hs).
  assert (Ad2 := proj1 (asks_stays lm Hlog src dbg K n w1 r _ d2 HR Hd2)).
  assert (As2 := asks_ops lm Hlog src dbg K n w1 r ops HR p2 Hs2).
  destruct (lazy_run N src cfg F (cf_scale (wt_cf w1)) r w1 pre (cf_num (wt_cf w1) + 1) (o_phase o) (set_wt N o (Some w1)) o4 us
    (ex_intro _ w1 (conj eq_refl (conj I1 eq_refl))) As E4) as (q1 & L1 & W1).
  destruct (lazy_run N src cfg F (cf_scale (wt_cf w1)) r w2 pre (cf_num (wt_cf w2) + 1) (o_phase o) (set_wt N o (Some w2)) o6 us2
    (ex_intro _ w2 (conj eq_refl (conj I2 eq_refl))) As E5) as (q2 & L2 & W2).
  eapply (rest_reset N src cfg F (cf_scale (wt_cf w1)) r w1 w2); [apply T|apply T| | |exact L1|exact L2|rewrite W1, W2; reflexivity|split; assumption]; lia.
Qed.
End Run.

(** ** C65, histories.  Two programs that differ in the rates they give to updateSamplerate, but
    not in the number of samples its 5 ms fade then takes, behave in the very same way. *)
Theorem C65_same_fade_length : forall lm src cfg F strict ops1 ops2,
  log2_exact lm -> (1 <= batch cfg)%nat ->
  okHist lm src (Osc.dbg cfg) strict None ops1 -> Forall2 (sameFade lm) ops1 ops2 ->
  Osc.run (B32 lm) src cfg F (osc_new (B32 lm) F) ops1 = Osc.run (B32 lm) src cfg F (osc_new (B32 lm) F) ops2.
Proof.
  intros lm src cfg F strict ops1 ops2 Hlog HB Hh H. eapply (fade_same lm Hlog src cfg F HB strict); [exact H| |exact Hh].
  intros w E. discriminate E.
Qed.
Print Assumptions C65_same_fade_length.

(** ** C65, fades of different lengths.  As long as every step stays in the octave of step 0.1,
    where a fresh table stands, two tables built from the same samples at different rates and
    with different fades play the same samples, or fault in the same way ... *)
Theorem C65_no_fade : forall lm src cfg F wfs nw K (sr1 sr2 fade1 fade2 : f32) w1 w2 r (p d : f32) ops o,
  log2_exact lm -> wellFormed (B32 lm) wfs nw K -> rate32 lm sr1 -> rate32 lm sr2 ->
  wt_build (B32 lm) src (Osc.dbg cfg) wfs nw sr1 fade1 = Ok (Some w1) ->
  wt_build (B32 lm) src (Osc.dbg cfg) wfs nw sr2 fade2 = Ok (Some w2) ->
  entryFor K (B2R (tfrac (B32 lm) 1 10 : f32)) r ->
  stays K r kBidirectionnal d -> staysIn lm K r p ops ->
  outputs (B32 lm) (Osc.run (B32 lm) src cfg F o (OpInit (B32 lm) (Some w1) p d :: ops)) =
  outputs (B32 lm) (Osc.run (B32 lm) src cfg F o (OpInit (B32 lm) (Some w2) p d :: ops)).
Proof.
  intros lm src cfg F wfs nw K sr1 sr2 fade1 fade2 w1 w2 r p d ops o Hlog HW R1 R2 E1 E2 He Hd Hs.
  destruct (twins_build lm Hlog src cfg wfs nw K sr1 sr2 fade1 fade2 w1 w2 HW R1 R2 E1 E2) as (T & _).
  exact (no_fade_init lm Hlog src cfg F o K w1 w2 r p d ops T He Hd Hs).
Qed.
Print Assumptions C65_no_fade.

(** ... and so does an oscillator re-sampled, after any history, to either of two rates. *)
Theorem C65_no_fade_resampled : forall lm src cfg F strict ops0 o ys w K (sr1 sr2 : f32) r ops,
  log2_exact lm -> (1 <= batch cfg)%nat -> filterShape (B32 lm) F -> resamplerOk (B32 lm) src ->
  okHist lm src (Osc.dbg cfg) strict None ops0 ->
  Osc.run (B32 lm) src cfg F (osc_new (B32 lm) F) ops0 = Ok (o, ys) ->
  o_wt o = Some w -> wt_numMipMapTables (B32 lm) w = K - 1 ->
  okRate lm sr1 -> okRate lm sr2 -> entryFor K (B2R (tfrac (B32 lm) 1 10 : f32)) r ->
  staysIn lm K r (prevPhase (B32 lm) o) ops ->
  outputs (B32 lm) (Osc.run (B32 lm) src cfg F o (OpUpdateSamplerate (B32 lm) sr1 :: ops)) =
  outputs (B32 lm) (Osc.run (B32 lm) src cfg F o (OpUpdateSamplerate (B32 lm) sr2 :: ops)).
Proof.
  intros lm src cfg F strict ops0 o ys w K sr1 sr2 r ops Hlog HB HF Hsrc Hh E Ew HK R1 R2 He Hs.
  assert (Ho : held lm src cfg o) by (intros w0 E0; exact (held_usable lm Hlog src cfg F HB strict ops0 o ys w0 Hh E E0)).
  assert (G : forall sr, okRate lm sr -> exists o1, osc_updateSamplerate (B32 lm) src cfg o sr = Ok o1).
  { intros sr R. destruct (Ho w Ew) as (K' & m & Hre & _).
    destruct (reach_ok lm Hlog src (Osc.dbg cfg) K' m w Hre) as (_ & (nw' & HWT) & _).
    destruct (updateSamplerate_ok (B32 lm) (B32_Laws lm Hlog) src cfg HB Hsrc K' nw' w sr (defaultFade (B32 lm)) HWT
      (okRate_ok lm Hlog cfg HB sr R)) as (w' & Eu & _).
    unfold osc_updateSamplerate. rewrite Ew. rewrite assert_ok by reflexivity. cbn [bind]. rewrite Eu. cbn [bind]. eauto. }
  destruct (G sr1 R1) as (o1 & E1). destruct (G sr2 R2) as (o2 & E2).
  assert (X := no_fade_resample lm Hlog src cfg F HB o w K sr1 sr2 r ops Ho Ew HK R1 R2 He Hs o1 o2 E1 E2).
  cbn [Osc.run Osc.apply]. rewrite E1, E2. cbn [bind].
  destruct (Osc.run (B32 lm) src cfg F o1 ops) as [[a b]|], (Osc.run (B32 lm) src cfg F o2 ops) as [[a' b']|]; exact X.
Qed.
Print Assumptions C65_no_fade_resampled.

(** In any other octave the fades are heard, but once both are over -- after as many samples
    asked for in that octave as the longer one has -- and the oscillator has been reset, the
    two programs play the same samples again: first for tables just loaded ... *)
Theorem C65_after_fade : forall lm src cfg F wfs nw K (sr1 sr2 fade1 fade2 : f32) n1 n2 w1 w2 r (p d : f32) pre o
    o1 ys1 o2 ys2 (p2 d2 : f32) ops,
  log2_exact lm -> wellFormed (B32 lm) wfs nw K -> rate32 lm sr1 -> rate32 lm sr2 ->
  tcast (B32 lm) (tmul (B32 lm) fade1 sr1) = Ok n1 -> tcast (B32 lm) (tmul (B32 lm) fade2 sr2) = Ok n2 ->
  wt_build (B32 lm) src (Osc.dbg cfg) wfs nw sr1 fade1 = Ok (Some w1) ->
  wt_build (B32 lm) src (Osc.dbg cfg) wfs nw sr2 fade2 = Ok (Some w2) ->
  1 <= n1 <= Z.of_nat (asked pre) -> 1 <= n2 <= Z.of_nat (asked pre) ->
  stays K r kBidirectionnal d -> staysIn lm K r p pre ->
  Osc.run (B32 lm) src cfg F o (OpInit (B32 lm) (Some w1) p d :: pre) = Ok (o1, ys1) ->
  Osc.run (B32 lm) src cfg F o (OpInit (B32 lm) (Some w2) p d :: pre) = Ok (o2, ys2) ->
  stays K r kBidirectionnal d2 -> staysIn lm K r p2 ops ->
  outputs (B32 lm) (Osc.run (B32 lm) src cfg F o1 (OpReset (B32 lm) p2 d2 :: ops)) =
  outputs (B32 lm) (Osc.run (B32 lm) src cfg F o2 (OpReset (B32 lm) p2 d2 :: ops)).
Proof.
  intros lm src cfg F wfs nw K sr1 sr2 fade1 fade2 n1 n2 w1 w2 r p d pre o o1 ys1 o2 ys2 p2 d2 ops Hlog HW R1 R2 C1 C2 B1 B2 A1 A2 Hd Hs E1 E2 Hd2 Hs2.
  destruct (twins_build lm Hlog src cfg wfs nw K sr1 sr2 fade1 fade2 w1 w2 HW R1 R2 B1 B2) as (T & T1 & T2).
  assert (cf_num (wt_cf w1) = n1) by congruence. assert (cf_num (wt_cf w2) = n2) by congruence.
  apply (after_init lm Hlog src cfg F o K w1 w2 r p d pre o1 ys1 o2 ys2 p2 d2 ops); auto; lia.
Qed.
Print Assumptions C65_after_fade.

(** ... and for an oscillator re-sampled after any history, whatever it was doing. *)
Theorem C65_after_fade_resampled : forall lm src cfg F strict ops0 o ys w K (sr1 sr2 : f32) n1 n2 r pre o1 ys1 o2 ys2 (p2 d2 : f32) ops,
  log2_exact lm -> (1 <= batch cfg)%nat ->
  okHist lm src (Osc.dbg cfg) strict None ops0 ->
  Osc.run (B32 lm) src cfg F (osc_new (B32 lm) F) ops0 = Ok (o, ys) ->
  o_wt o = Some w -> wt_numMipMapTables (B32 lm) w = K - 1 ->
  okRate lm sr1 -> okRate lm sr2 -> fadeOf lm sr1 n1 -> fadeOf lm sr2 n2 ->
  n1 < Z.of_nat (asked pre) -> n2 < Z.of_nat (asked pre) -> staysIn lm K r (prevPhase (B32 lm) o) pre ->
  Osc.run (B32 lm) src cfg F o (OpUpdateSamplerate (B32 lm) sr1 :: pre) = Ok (o1, ys1) ->
  Osc.run (B32 lm) src cfg F o (OpUpdateSamplerate (B32 lm) sr2 :: pre) = Ok (o2, ys2) ->
  stays K r kBidirectionnal d2 -> staysIn lm K r p2 ops ->
  outputs (B32 lm) (Osc.run (B32 lm) src cfg F o1 (OpReset (B32 lm) p2 d2 :: ops)) =
  outputs (B32 lm) (Osc.run (B32 lm) src cfg F o2 (OpReset (B32 lm) p2 d2 :: ops)).
Proof.
  intros lm src cfg F strict ops0 o ys w K sr1 sr2 n1 n2 r pre o1 ys1 o2 ys2 p2 d2 ops Hlog HB Hh E Ew HK R1 R2 F1 F2 A1 A2 Hs E1 E2 Hd2 Hs2.
  assert (Ho : held lm src cfg o) by (intros w0 E0; exact (held_usable lm Hlog src cfg F HB strict ops0 o ys w0 Hh E E0)).
  exact (after_resample lm Hlog src cfg F HB o w K sr1 sr2 n1 n2 r pre o1 ys1 o2 ys2 p2 d2 ops Ho Ew HK R1 R2 F1 F2 A1 A2 Hs E1 E2 Hd2 Hs2).
Qed.
Print Assumptions C65_after_fade_resampled.

(** ** The hypotheses are met: tables of 8-sample waveforms in a debug build; rates of 44100 and
    44150 Hz share a 5 ms fade of 220 samples; 256 and 512 Hz have fades of 1 and 2 samples. *)
From Verif Require Import Prop_Safety.
Local Open Scope R_scope.
Local Ltac real := vm_compute; lra.
Local Ltac stay := split; [vm_compute; reflexivity|split; [real|split; [first [intros _; real|intros; discriminate]
  |split; [lia|split; [first [left; lia|right; first [rewrite Rabs_pos_eq by real|rewrite Rabs_left by real]; real]
    |first [left; lia|right; first [rewrite Rabs_pos_eq by real|rewrite Rabs_left by real]; real]]]]]].
Local Ltac history H := repeat match goal with |- _ /\ _ => split end; try exact H; try exact I; try lia;
    try (vm_compute; reflexivity); try (intros _); try (vm_compute; lra);
    try (split; vm_compute; lra); try (left; vm_compute; lra); try (right; split; vm_compute; lra).

Lemma rate_demo z : (256 <= z <= 2 ^ 24)%Z -> okRate demo_libm (f32_ofZ z).
Proof.
  intros Hz. destruct (ofZ32 z ltac:(lia)) as [F V]. split; [exact F|]. split.
  - rewrite V. split; apply IZR_le; lia.
  - intros H. discriminate H.
Qed.

Lemma rate_table (fade : f32) n : tcast FN (tmul FN fade sr48) = Ok n -> (1 <= n)%Z ->
  exists w, wt_build FN (demo_src FN) true demo16 2 sr48 fade = Ok (Some w) /\ wt_numWaveforms FN w = 2%Z /\
    wt_numMipMapTables FN w = (3 - 1)%Z /\ usable demo_libm (demo_src FN) true w.
Proof.
  intros Hc Hn. destruct (C02_build_shape demo_libm (demo_src FN) true demo16 2 sr48 fade 3 n) as (w & E & A & B & _);
    try lia; try reflexivity; try apply C02_case; try (unfold int_max; lia); try exact Hc.
  exists w. split; [exact E|]. split; [exact A|]. split; [exact B|].
  exists 3%Z, n. split; [|exact Hn]. eapply (r_build FN _ _ _ _ demo16 2 sr48 fade); try lia; try exact E; try exact Hc.
  - reflexivity.
  - unfold int_max; lia.
  - exact (CF_rate _).
Qed.

(** the same history with two rates *)
Definition rateOps (w : WT FN) (sr : T FN) : list (Op FN) :=
  [OpInit FN (Some w) (fl 0 1) (fl 4 10); OpProcess FN kForward [fl 1 4; fl 1 2; fl 7 8; fl 1 8];
   OpUpdateSamplerate FN sr; OpProcess FN kBidirectionnal [fl 3 8; fl 7 16]].
Example C65_same_fade_case : exists w, okHist demo_libm (demo_src FN) true true None (rateOps w (f32_ofZ 44100)) /\
  Forall2 (sameFade demo_libm) (rateOps w (f32_ofZ 44100)) (rateOps w (f32_ofZ 44150)).
Proof.
  destruct (rate_table (defaultFade FN) 240) as (w & E & Hn & Hm & Hu); [vm_compute; reflexivity|lia|].
  assert (H44 := rate_demo 44100 ltac:(lia)).
  exists w. split.
  - unfold rateOps. cbn [okHist okBlock].
    split; [exact Hu|]. history H44.
  - unfold rateOps. repeat (constructor; [first [left; reflexivity|right]|]); [|constructor].
    exists (f32_ofZ 44100), (f32_ofZ 44150), 220%Z. split; [reflexivity|]. split; [reflexivity|].
    split; [exact H44|]. split; [exact (rate_demo 44150 ltac:(lia))|]. split; vm_compute; reflexivity.
Qed.

(** fades of 240 samples and of one sample, in octave 0 all along *)
Definition quietOps : list (Op FN) :=
  [OpProcess FN kForward [fl 1 8; fl 1 4; fl 7 16]; OpReset FN (fl 1 2) (fl (-1) 8); OpSetWaveform FN 1;
   OpProcess FN kBidirectionnal [fl 3 8; fl 7 16]].
Example C65_no_fade_case : exists w1 w2,
  wt_build FN (demo_src FN) true demo16 2 sr48 (defaultFade FN) = Ok (Some w1) /\
  wt_build FN (demo_src FN) true demo16 2 sr48 (fl 1 40000) = Ok (Some w2) /\
  cf_num (wt_cf w1) <> cf_num (wt_cf w2) /\
  entryFor 3 (B2R (tfrac FN 1 10 : f32)) 0 /\ stays 3 0 kBidirectionnal (fl 1 8) /\ staysIn demo_libm 3 0 (fl 0 1) quietOps.
Proof.
  destruct (rate_table (defaultFade FN) 240) as (w1 & E1 & _); [vm_compute; reflexivity|lia|].
  destruct (rate_table (fl 1 40000) 1) as (w2 & E2 & _); [vm_compute; reflexivity|lia|].
  exists w1, w2. split; [exact E1|]. split; [exact E2|]. split.
  { assert (HW : wellFormed FN demo16 2 3) by (repeat split; try lia; try reflexivity; unfold int_max; lia).
    destruct (fresh_state demo_libm demo_exact (demo_src FN) true demo16 2 3 sr48 _ w1 HW (CF_rate _) E1) as (n1 & T1 & N1 & _).
    destruct (fresh_state demo_libm demo_exact (demo_src FN) true demo16 2 3 sr48 _ w2 HW (CF_rate _) E2) as (n2 & T2 & N2 & _).
    assert (M1 : n1 = 240%Z) by (assert (X : tcast FN (tmul FN (defaultFade FN) sr48) = Ok 240%Z) by (vm_compute; reflexivity); assert (Q : Ok 240%Z = Ok n1) by exact (eq_trans (eq_sym X) T1); now injection Q).
    assert (M2 : n2 = 1%Z) by (assert (X : tcast FN (tmul FN (fl 1 40000) sr48) = Ok 1%Z) by (vm_compute; reflexivity); assert (Q : Ok 1%Z = Ok n2) by exact (eq_trans (eq_sym X) T2); now injection Q).
    intros Q. assert (X : 240%Z = 1%Z) by exact (eq_trans (eq_sym (eq_trans N1 M1)) (eq_trans Q (eq_trans N2 M2))). discriminate X. }
  split; [split; [lia|split; [right; real|left; lia]]|]. split; [stay|].
  unfold quietOps. cbn [staysIn steps32]. repeat match goal with |- _ /\ _ => split end.
  - repeat (constructor; [stay|]). constructor.
  - stay.
  - repeat (constructor; [stay|]). constructor.
  - exact I.
Qed.


(** fades of 1 and 2 samples, in octave 1: two samples are enough *)
Definition preOps : list (Op FN) := [OpProcess FN kForward [fl 5 16; fl 5 8; fl 15 16]].
Definition postOps : list (Op FN) := [OpProcess FN kBidirectionnal [fl 1 16; fl 3 8]; OpSetWaveform FN 1; OpProcess FN kForward [fl 3 4]].
Notation ocfg := (mkCfg true 4).
Notation orun := (Osc.run FN (demo_src FN) ocfg (filt FN kType2)).
Notation onew := (osc_new FN (filt FN kType2)).

Lemma pre_runs w more : usable demo_libm (demo_src FN) true w -> wt_numWaveforms FN w = 2%Z ->
  okHist demo_libm (demo_src FN) true true (Some (fl 15 16, 2%Z)) more ->
  okHist demo_libm (demo_src FN) true true None (OpInit FN (Some w) (fl 0 1) (fl 5 16) :: preOps ++ more) /\
  exists o ys, orun onew (OpInit FN (Some w) (fl 0 1) (fl 5 16) :: preOps ++ more) = Ok (o, ys).
Proof.
  intros Hu Hn Hm.
  assert (Hh : okHist demo_libm (demo_src FN) true true None (OpInit FN (Some w) (fl 0 1) (fl 5 16) :: preOps ++ more)).
  { unfold preOps. cbn [okHist okBlock app last]. change (wt_numWaveforms (B32 demo_libm) w) with (wt_numWaveforms FN w). rewrite Hn.
    split; [exact Hu|]. history Hm. }
  split; [exact Hh|]. apply (C21_safe demo_libm (demo_src FN) ocfg (filt FN kType2)); auto.
  - exact demo_exact.
  - intros inp ratio cap; repeat split.
  - cbn; lia.
  - repeat split; reflexivity.
Qed.
Lemma pre_stays : stays 3 1 kBidirectionnal (fl 5 16) /\ staysIn demo_libm 3 1 (fl 0 1) preOps /\
  stays 3 1 kBidirectionnal (fl (-3) 8) /\ staysIn demo_libm 3 1 (fl 1 2) postOps.
Proof.
  split; [stay|]. split; [|split; [stay|]].
  - unfold preOps. cbn [staysIn steps32]. split; [|exact I]. repeat (constructor; [stay|]). constructor.
  - unfold postOps. cbn [staysIn steps32]. repeat match goal with |- _ /\ _ => split end.
    + repeat (constructor; [stay|]). constructor.
    + repeat (constructor; [stay|]). constructor.
    + exact I.
Qed.

Example C65_after_fade_case : exists w1 w2 o1 ys1 o2 ys2,
  tcast FN (tmul FN (fl 1 40000) sr48) = Ok 1%Z /\ tcast FN (tmul FN (fl 2 40000) sr48) = Ok 2%Z /\
  wt_build FN (demo_src FN) true demo16 2 sr48 (fl 1 40000) = Ok (Some w1) /\
  wt_build FN (demo_src FN) true demo16 2 sr48 (fl 2 40000) = Ok (Some w2) /\
  (2 <= Z.of_nat (asked preOps))%Z /\
  stays 3 1 kBidirectionnal (fl 5 16) /\ staysIn demo_libm 3 1 (fl 0 1) preOps /\
  orun onew (OpInit FN (Some w1) (fl 0 1) (fl 5 16) :: preOps) = Ok (o1, ys1) /\
  orun onew (OpInit FN (Some w2) (fl 0 1) (fl 5 16) :: preOps) = Ok (o2, ys2) /\
  stays 3 1 kBidirectionnal (fl (-3) 8) /\ staysIn demo_libm 3 1 (fl 1 2) postOps.
Proof.
  destruct (rate_table (fl 1 40000) 1) as (w1 & E1 & N1 & _ & U1); [vm_compute; reflexivity|lia|].
  destruct (rate_table (fl 2 40000) 2) as (w2 & E2 & N2 & _ & U2); [vm_compute; reflexivity|lia|].
  destruct (pre_runs w1 [] U1 N1 I) as (_ & o1 & ys1 & R1). destruct (pre_runs w2 [] U2 N2 I) as (_ & o2 & ys2 & R2).
  destruct pre_stays as (S1 & S2 & S3 & S4).
  exists w1, w2, o1, ys1, o2, ys2. split; [vm_compute; reflexivity|]. split; [vm_compute; reflexivity|].
  split; [exact E1|]. split; [exact E2|]. split; [cbn; lia|].
  split; [exact S1|]. split; [exact S2|]. split; [exact R1|]. split; [exact R2|]. split; [exact S3|exact S4].
Qed.

Lemma run_two (a b : list (Op FN)) o o1 ys : Osc.run FN (demo_src FN) (mkCfg true 4) (filt FN kType2) o a = Ok (o1, ys) ->
  Osc.run FN (demo_src FN) (mkCfg true 4) (filt FN kType2) o (a ++ b) =
  let! (o2, zs) := Osc.run FN (demo_src FN) (mkCfg true 4) (filt FN kType2) o1 b in Ok (o2, ys ++ zs).
Proof.
  revert o ys. induction a as [|x a IH]; intros o ys E; cbn [Osc.run app] in *.
  - injection E as <- <-. destruct (Osc.run FN _ _ _ o b) as [[o2 zs]|]; reflexivity.
  - apply bind_ok in E. destruct E as ([o3 us] & E1 & E). apply bind_ok in E. destruct E as ([o4 vs] & E2 & E). injection E as <- <-.
    rewrite E1. cbn [bind]. rewrite (IH o3 vs E2).
    destruct (Osc.run FN _ _ _ o4 b) as [[o2 zs]|]; cbn [bind]; [|reflexivity]. now rewrite app_assoc.
Qed.

(** an oscillator re-sampled to 256 or 512 Hz after some play, then playing in octave 1 *)
Definition backOps : list (Op FN) := OpReset FN (fl 0 1) (fl 5 16) :: preOps.
Example C65_resampled_case : exists w o ys v o1 ys1 o2 ys2,
  okHist demo_libm (demo_src FN) true true None (OpInit FN (Some w) (fl 0 1) (fl 5 16) :: preOps) /\
  orun onew (OpInit FN (Some w) (fl 0 1) (fl 5 16) :: preOps) = Ok (o, ys) /\
  o_wt o = Some v /\ wt_numMipMapTables FN v = (3 - 1)%Z /\
  okRate demo_libm (f32_ofZ 256) /\ okRate demo_libm (f32_ofZ 512) /\
  fadeOf demo_libm (f32_ofZ 256) 1 /\ fadeOf demo_libm (f32_ofZ 512) 2 /\
  (2 < Z.of_nat (asked backOps))%Z /\ staysIn demo_libm 3 1 (prevPhase FN o) backOps /\
  orun o (OpUpdateSamplerate FN (f32_ofZ 256) :: backOps) = Ok (o1, ys1) /\
  orun o (OpUpdateSamplerate FN (f32_ofZ 512) :: backOps) = Ok (o2, ys2) /\
  stays 3 1 kBidirectionnal (fl (-3) 8) /\ staysIn demo_libm 3 1 (fl 1 2) postOps.
Proof.
  destruct (rate_table (fl 1 40000) 1) as (w & E & Nw & Nm & U); [vm_compute; reflexivity|lia|].
  destruct (pre_runs w [] U Nw I) as (H0 & o & ys & R0). rewrite app_nil_r in H0, R0.
  destruct pre_stays as (S1 & S2 & S3 & S4).
  assert (HW : wellFormed FN demo16 2 3) by (repeat split; try lia; try reflexivity; unfold int_max; lia).
  destruct (twins_build demo_libm demo_exact (demo_src FN) ocfg demo16 2 3 sr48 sr48 _ _ w w HW (CF_rate _) (CF_rate _) E E) as (T & T1 & _).
  assert (Nf : @cf_num (B32 demo_libm) (@wt_cf (B32 demo_libm) w) = 1%Z).
  { assert (X : tcast FN (tmul FN (fl 1 40000) sr48) = Ok 1%Z) by (vm_compute; reflexivity).
    assert (Q : Ok 1%Z = Ok (cf_num (wt_cf w))) by exact (eq_trans (eq_sym X) T1). now injection Q. }
  destruct (twins_inert demo_libm (demo_src FN) ocfg 3 w w 1 T ltac:(rewrite Nf; lia) ltac:(rewrite Nf; lia)) as [I1 _].
  destruct (tw_r _ _ _ _ _ _ T) as (n & HR).
  destruct (init_lazy demo_libm (demo_src FN) ocfg (filt FN kType2) (cf_scale (wt_cf w)) 1 onew w (fl 0 1) (fl 5 16) preOps o ys I1
    (proj1 (asks_stays demo_libm demo_exact (demo_src FN) true 3 n w 1 _ _ HR S1))
    (asks_ops demo_libm demo_exact (demo_src FN) true 3 n w 1 preOps HR _ S2) R0) as (q & (v & V1 & V2 & V3) & _).
  assert (A : forall z, (256 <= z <= 2 ^ 24)%Z -> exists o' ys', orun o (OpUpdateSamplerate FN (f32_ofZ z) :: backOps) = Ok (o', ys')).
  { intros z Hz. assert (HR' := rate_demo z Hz).
    destruct (pre_runs w (OpUpdateSamplerate FN (f32_ofZ z) :: backOps) U Nw) as (_ & o3 & ys3 & R3).
    { unfold backOps, preOps. cbn [okHist okBlock]. split; [exact HR'|]. history HR'. }
    change (OpInit FN (Some w) (fl 0 1) (fl 5 16) :: preOps ++ OpUpdateSamplerate FN (f32_ofZ z) :: backOps) with
      ((OpInit FN (Some w) (fl 0 1) (fl 5 16) :: preOps) ++ OpUpdateSamplerate FN (f32_ofZ z) :: backOps) in R3.
    rewrite (run_two _ _ onew o ys R0) in R3.
    destruct (orun o (OpUpdateSamplerate FN (f32_ofZ z) :: backOps)) as [[o' ys']|]; [eauto|discriminate R3]. }
  destruct (A 256%Z ltac:(lia)) as (o1 & ys1 & R1). destruct (A 512%Z ltac:(lia)) as (o2 & ys2 & R2).
  exists w, o, ys, v, o1, ys1, o2, ys2.
  split; [exact H0|]. split; [exact R0|]. split; [exact V1|]. split.
  { destruct V2 as (_ & _ & V2 & _). exact (eq_trans (f_equal (fun l => zlen l) V2) Nm). }
  split; [exact (rate_demo 256 ltac:(lia))|]. split; [exact (rate_demo 512 ltac:(lia))|].
  split; [vm_compute; reflexivity|]. split; [vm_compute; reflexivity|]. split; [cbn; lia|].
  split; [split; [exact S1|exact S2]|]. split; [exact R1|]. split; [exact R2|]. split; [exact S3|exact S4].
Qed.
