(** * PBank: the place of a waveform in its set has no influence (lemmas behind C67) *)
From Coq Require Import ZArith List Bool Lia Arith.
From Verif Require Import Num Maths CrossFader Wavetable Filters Osc NumFacts Laws WTFacts Spec BuildFacts
  OscHist SpecC SpecBank PLoop.
Import ListNotations.
Local Open Scope Z_scope.

Section PBank.
Variable N : Num.
Variable src : Resampler N.
Variable cfg : Cfg.
Variable F : Filt N.
Variable L : Laws N.
Variable Hsrc : resamplerOk N src.
Variables K nw1 nw2 : Z.
(** waveform [i] of the first set stands for waveform [j] of the second *)
Variable J : Z -> Z -> Prop.
Hypothesis HJ : forall i j, J i j -> 0 <= i < nw1 /\ 0 <= j < nw2.
Notation dbg := (dbg cfg).

(** two tables of the same lengths that agree on all such waveforms *)
Record agree (w1 w2 : WT N) : Prop := {
  ag_1 : WTok K nw1 w1;
  ag_2 : WTok K nw2 w2;
  ag_ph : wt_ph w1 = wt_ph w2;
  ag_cf : wt_cf w1 = wt_cf w2;
  ag_slot : forall i j, J i j -> znth (wt_slots w1) i = znth (wt_slots w2) j }.

Lemma agree_len w1 w2 k : agree w1 w2 -> wt_waveformLen N w1 k = wt_waveformLen N w2 k.
Proof.
  intros [W1 W2 _ _ _].
  assert (A : forall nw w, WTok K nw w -> wt_waveformLen N w k =
    if (0 <=? k) && (k <? K - 1) then Ok (2 ^ (K - k)) else Fault OutOfBounds).
  { intros nw w W. assert (HK := wo_K _ _ _ _ W). assert (Hn := wo_nw _ _ _ _ W).
    unfold wt_waveformLen, wt_m, wt_slot.
    destruct (znth_ok _ (wt_slots w) 0) as [ws Ews]; [rewrite (wo_slots _ _ _ _ W); lia|].
    rewrite Ews. cbn [bind]. assert (Hl := wo_num _ _ _ _ W _ _ Ews).
    destruct (Z.leb_spec 0 k); cbn [andb]; [destruct (Z.ltb_spec k (K - 1)); cbn [andb]|].
    - destruct (znth_ok _ ws k) as [s Es]; [lia|]. rewrite Es. cbn [bind].
      destruct (slotAt_of N K k s ltac:(lia) (wo_slot _ _ _ _ W _ _ _ _ Ews Es)) as (ys & Hy & Hs).
      f_equal. rewrite (so_m _ _ _ (sf_shape _ _ _ Hs)). assumption.
    - rewrite znth_fault by lia. reflexivity.
    - rewrite znth_fault by lia. reflexivity. }
  now rewrite (A nw1 w1 W1), (A nw2 w2 W2).
Qed.

Lemma agree_slot w1 w2 i j k : agree w1 w2 -> J i j -> wt_slot N w1 i k = wt_slot N w2 j k.
Proof. intros A H. unfold wt_slot. now rewrite (ag_slot _ _ A i j H). Qed.

Lemma WTok_cf nw (w : WT N) c : WTok K nw w -> zlen (cf_scale c) = K - 1 -> WTok K nw (mkWT (wt_slots w) (wt_ph w) c).
Proof. intros [A1 A2 A3 A4 A5 A6 A7 A8] H. constructor; cbn; auto. Qed.

Lemma find_scale c d c' m : newIndices N dbg c d = Ok (c', m) -> cf_scale c' = cf_scale c.
Proof.
  unfold newIndices. intros H. apply bind_ok in H. destruct H as (i & _ & H).
  destruct (negb (cf_left c =? 0)).
  - apply bind_ok in H. destruct H as ([] & _ & H). apply bind_ok in H. destruct H as (l & _ & H).
    inversion H; subst. destruct (l =? 0); destruct (negb _ && negb _); reflexivity.
  - destruct (i =? cf_next c).
    + apply bind_ok in H. destruct H as ([] & _ & H). inversion H; subst. reflexivity.
    + inversion H; subst. reflexivity.
Qed.

Lemma agree_find w1 w2 d : agree w1 w2 ->
  (exists f, wt_findMipMapIndices N dbg w1 d = Fault f /\ wt_findMipMapIndices N dbg w2 d = Fault f) \/
  (exists w1' w2' m, wt_findMipMapIndices N dbg w1 d = Ok (w1', m) /\
     wt_findMipMapIndices N dbg w2 d = Ok (w2', m) /\ agree w1' w2').
Proof.
  intros [W1 W2 A1 A2 A3]. unfold wt_findMipMapIndices. rewrite A2.
  destruct (newIndices N dbg (wt_cf w2) d) as [[c m]|f] eqn:E; cbn [bind]; [|left; eauto].
  right. do 3 eexists. split; [reflexivity|]. split; [reflexivity|].
  assert (Hs := find_scale _ _ _ _ E).
  constructor; cbn; auto; apply WTok_cf; auto; rewrite Hs; apply (wo_scale _ _ _ _ W2).
Qed.

(** oscillators that agree but for the sets of waveforms their tables hold *)
Definition twin (o1 o2 : Osc N) : Prop :=
  (exists w1 w2, o_wt o1 = Some w1 /\ o_wt o2 = Some w2 /\ agree w1 w2) /\
  o_y o1 = o_y o2 /\ o_phase o1 = o_phase o2 /\ o_phred o1 = o_phred o2 /\
  o_pd o1 = o_pd o2 /\ o_mm o1 = o_mm o2 /\ o_j o1 = o_j o2 /\ o_pj o1 = o_pj o2 /\
  J (o_wf o1) (o_wf o2).

Definition idxTwin (r1 r2 : res (Idx N)) : Prop :=
  match r1, r2 with
  | Ok (mkIdx _ w1 a b c d e f g h i j k), Ok (mkIdx _ w2 a' b' c' d' e' f' g' h' i' j' k') =>
      agree w1 w2 /\ (a, b, c, d, e, f) = (a', b', c', d', e', f') /\ (g, h, i, j, k) = (g', h', i', j', k')
  | Fault f1, Fault f2 => f1 = f2
  | _, _ => False
  end.

Lemma bind_twin A (r : res A) k1 k2 : (forall a, r = Ok a -> idxTwin (k1 a) (k2 a)) -> idxTwin (bind r k1) (bind r k2).
Proof. intros H. destruct r; cbn [bind]; [now apply H|reflexivity]. Qed.

Lemma idx_twin o1 o2 w1 w2 p d : agree w1 w2 -> o_phred o1 = o_phred o2 -> o_pd o1 = o_pd o2 ->
  o_mm o1 = o_mm o2 -> o_j o1 = o_j o2 ->
  idxTwin (idxFwd N cfg o1 w1 p d) (idxFwd N cfg o2 w2 p d) /\
  idxTwin (idxBwd N cfg o1 w1 p d) (idxBwd N cfg o2 w2 p d).
Proof.
  intros A E1 E2 E3 E4. unfold idxFwd, idxBwd. rewrite E1, E2, E3, E4. split.
  - apply bind_twin. intros [] _.
    destruct (agree_find w1 w2 d A) as [(f & Ef1 & Ef2)|(w1' & w2' & [[[mi g] mu] gu] & Ef1 & Ef2 & A')];
      rewrite Ef1, Ef2; cbn [bind]; [reflexivity|].
    unfold wt_phases. rewrite (ag_ph _ _ A'), (agree_len _ _ mi A').
    repeat (apply bind_twin; intros ? _). cbn. auto.
  - apply bind_twin. intros [] _.
    destruct (agree_find w1 w2 (tabs N d) A) as [(f & Ef1 & Ef2)|(w1' & w2' & [[[mi g] mu] gu] & Ef1 & Ef2 & A')];
      rewrite Ef1, Ef2; cbn [bind]; [reflexivity|].
    unfold wt_phases. rewrite (ag_ph _ _ A'), (agree_len _ _ mi A').
    repeat (apply bind_twin; intros ? _). cbn. auto.
Qed.

Lemma fwdI_twin w1 w2 k1 k2 pr arr mi a b d p : agree w1 w2 -> J k1 k2 ->
  computeFwdI N cfg F w1 k1 pr arr mi a b d p = computeFwdI N cfg F w2 k2 pr arr mi a b d p.
Proof.
  intros A HW. unfold computeFwdI, computeI0, computeISumFwd, wt_m, wt_q, wt_mDiff, wt_qDiff, wt_phases.
  rewrite (agree_slot _ _ _ _ mi A HW), (agree_len _ _ mi A), (ag_ph _ _ A). reflexivity.
Qed.
Lemma bwdI_twin w1 w2 k1 k2 pr arr mi j a b d p : agree w1 w2 -> J k1 k2 ->
  computeBwdI N cfg F w1 k1 pr arr mi j a b d p = computeBwdI N cfg F w2 k2 pr arr mi j a b d p.
Proof.
  intros A HW. unfold computeBwdI, computeI0, computeISumBwd, wt_m, wt_q, wt_mDiff, wt_qDiff, wt_phases.
  rewrite (agree_slot _ _ _ _ mi A HW), (agree_len _ _ mi A), (ag_ph _ _ A). reflexivity.
Qed.

Lemma sample_twin o1 o2 w1 w2 p d : agree w1 w2 -> twin o1 o2 ->
  sameRes N twin (processSampleFwd N cfg F o1 w1 p d) (processSampleFwd N cfg F o2 w2 p d) /\
  sameRes N twin (processSampleBwd N cfg F o1 w1 p d) (processSampleBwd N cfg F o2 w2 p d).
Proof.
  intros A (_ & E2 & E3 & E4 & E5 & E6 & E7 & E8 & E9).
  destruct (idx_twin o1 o2 w1 w2 p d A E4 E5 E6 E7) as [If Ib]. split.
  - unfold processSampleFwd.
    destruct (idxFwd N cfg o1 w1 p d) as [[v1 a1 b1 c1 d1 e1 f1 g1 h1 i1 j1 k1]|],
      (idxFwd N cfg o2 w2 p d) as [[v2 a2 b2 c2 d2 e2 f2 g2 h2 i2 j2 k2]|]; cbn [bind]; try contradiction; [|exact If].
    cbn in If. destruct If as (A' & X & Y). injection X as -> -> -> -> -> ->. injection Y as -> -> -> -> ->.
    cbn [ix_wt ix_mi ix_w ix_mu ix_wu ix_phred ix_len ix_j ix_pj ix_jmin ix_jmin_red ix_jmax_p_red].
    rewrite E4, (fwdI_twin v1 v2 (o_wf o1) (o_wf o2)) by assumption.
    destruct (computeFwdI _ _ _ v2 _ _ _ a2 _ _ _ _); cbn [bind]; [|reflexivity].
    destruct (negb (teq N d2 (t0 N))).
    + rewrite (fwdI_twin v1 v2 (o_wf o1) (o_wf o2)) by assumption. destruct (computeFwdI _ _ _ v2 _ _ _ c2 _ _ _ _); cbn [bind]; [|reflexivity].
      unfold finish. rewrite E2. cbn. split; [|reflexivity].
      split; [exists v1, v2; auto|]. cbn; repeat split; assumption.
    + cbn [bind]. unfold finish. rewrite E2. cbn. split; [|reflexivity].
      split; [exists v1, v2; auto|]. cbn; repeat split; assumption.
  - unfold processSampleBwd.
    destruct (idxBwd N cfg o1 w1 p d) as [[v1 a1 b1 c1 d1 e1 f1 g1 h1 i1 j1 k1]|],
      (idxBwd N cfg o2 w2 p d) as [[v2 a2 b2 c2 d2 e2 f2 g2 h2 i2 j2 k2]|]; cbn [bind]; try contradiction; [|exact Ib].
    cbn in Ib. destruct Ib as (A' & X & Y). injection X as -> -> -> -> -> ->. injection Y as -> -> -> -> ->.
    cbn [ix_wt ix_mi ix_w ix_mu ix_wu ix_phred ix_len ix_j ix_pj ix_jmin ix_jmin_red ix_jmax_p_red].
    rewrite E4, (bwdI_twin v1 v2 (o_wf o1) (o_wf o2)) by assumption.
    destruct (computeBwdI _ _ _ v2 _ _ _ a2 _ _ _ _ _); cbn [bind]; [|reflexivity].
    destruct (negb (teq N d2 (t0 N))).
    + rewrite (bwdI_twin v1 v2 (o_wf o1) (o_wf o2)) by assumption. destruct (computeBwdI _ _ _ v2 _ _ _ c2 _ _ _ _ _); cbn [bind]; [|reflexivity].
      unfold finish. rewrite E2. cbn. split; [|reflexivity].
      split; [exists v1, v2; auto|]. cbn; repeat split; assumption.
    + cbn [bind]. unfold finish. rewrite E2. cbn. split; [|reflexivity].
      split; [exists v1, v2; auto|]. cbn; repeat split; assumption.
Qed.

Lemma one_twin dir o1 o2 p : twin o1 o2 ->
  sameRes N twin (processOne N cfg F dir o1 p) (processOne N cfg F dir o2 p).
Proof.
  intros H. assert (H' := H). destruct H as ((w1 & w2 & E1 & E2 & A) & _ & E3 & _).
  unfold processOne. rewrite E1, E2, E3. destruct dir.
  - destruct (assert_ _ _); cbn [bind]; [|reflexivity]. now apply sample_twin.
  - destruct (tle _ _ _); now apply sample_twin.
Qed.

Lemma loop_twin dir ps : forall o1 o2 out, twin o1 o2 ->
  sameRes N twin (processLoop N cfg F dir o1 ps out) (processLoop N cfg F dir o2 ps out).
Proof.
  induction ps as [|p ps IH]; intros o1 o2 [|z out] H; cbn [Osc.processLoop]; try (split; [assumption|reflexivity]).
  eapply sameRes_bind; [now apply one_twin|]. intros o3 o4 y H1.
  eapply sameRes_bind; [now apply IH|]. intros o5 o6 ys H2. split; [assumption|reflexivity].
Qed.

(** ** building and re-sampling *)
Lemma build_agree wfs1 wfs2 sr fade w1 w2 : 2 <= K <= 24 -> 1 <= nw1 -> 1 <= nw2 -> nw1 * 2 ^ K <= int_max -> nw2 * 2 ^ K <= int_max ->
  zlen wfs1 = nw1 * 2 ^ K -> zlen wfs2 = nw2 * 2 ^ K ->
  (forall i j, J i j -> waveform N wfs1 (2 ^ K) i = waveform N wfs2 (2 ^ K) j) ->
  wt_build N src dbg wfs1 nw1 sr fade = Ok (Some w1) -> wt_build N src dbg wfs2 nw2 sr fade = Ok (Some w2) ->
  agree w1 w2.
Proof.
  intros HK Hn1 Hn2 Hm1 Hm2 H1 H2 Hw B1 B2.
  destruct (wt_build_some N src dbg L _ _ _ _ K _ HK Hn1 H1 Hm1 B1) as (C1 & n1 & En1 & Ec1).
  destruct (wt_build_some N src dbg L _ _ _ _ K _ HK Hn2 H2 Hm2 B2) as (C2 & n2 & En2 & Ec2).
  constructor.
  - now apply (Contents_WTok N src K nw1 wfs1).
  - now apply (Contents_WTok N src K nw2 wfs2).
  - apply list_ext_znth.
    + now rewrite (ct_phn _ _ _ _ _ _ C1), (ct_phn _ _ _ _ _ _ C2).
    + intros i Hi. rewrite (ct_phn _ _ _ _ _ _ C1) in Hi.
      now rewrite (ct_ph _ _ _ _ _ _ C1), (ct_ph _ _ _ _ _ _ C2) by lia.
  - rewrite En1 in En2. inversion En2; subst n2. rewrite Ec1 in Ec2. congruence.
  - intros i0 j0 HW. destruct (HJ i0 j0 HW) as [Hi0 Hj0].
    destruct (znth_ok _ (wt_slots w1) i0) as [s1 E1]; [rewrite (ct_nw _ _ _ _ _ _ C1); lia|].
    destruct (znth_ok _ (wt_slots w2) j0) as [s2 E2]; [rewrite (ct_nw _ _ _ _ _ _ C2); lia|].
    rewrite E1, E2. f_equal.
    assert (L1 := ct_num _ _ _ _ _ _ C1 _ _ E1). assert (L2 := ct_num _ _ _ _ _ _ C2 _ _ E2).
    apply list_ext_znth; [congruence|]. intros i Hi.
    destruct (znth_ok _ s1 i) as [x1 X1]; [lia|]. destruct (znth_ok _ s2 i) as [x2 X2]; [lia|].
    destruct (ct_slots _ _ _ _ _ _ C1 _ _ E1 _ _ X1) as [_ S1].
    destruct (ct_slots _ _ _ _ _ _ C2 _ _ E2 _ _ X2) as [_ S2].
    rewrite X1, X2. rewrite (Hw i0 j0 HW) in S1. congruence.
Qed.

Lemma update_agree w1 w2 sr fade : agree w1 w2 ->
  (exists f, wt_updateSamplerate N src dbg w1 sr fade = Fault f /\ wt_updateSamplerate N src dbg w2 sr fade = Fault f) \/
  (exists w1' w2', wt_updateSamplerate N src dbg w1 sr fade = Ok w1' /\
     wt_updateSamplerate N src dbg w2 sr fade = Ok w2' /\ agree w1' w2').
Proof.
  intros A. assert (W1 := ag_1 _ _ A). assert (W2 := ag_2 _ _ A).
  assert (HK := wo_K _ _ _ _ W1). destruct (wo_nw _ _ _ _ W1) as [Hn1 Hm1]. destruct (wo_nw _ _ _ _ W2) as [Hn2 Hm2].
  destruct (rebuild_ok N dbg K nw1 w1 W1) as (og1 & E1 & H1 & G1).
  destruct (rebuild_ok N dbg K nw2 w2 W2) as (og2 & E2 & H2 & G2).
  assert (Hw : forall i j, J i j -> waveform N og1 (2 ^ K) i = waveform N og2 (2 ^ K) j).
  { intros i j HW. destruct (HJ i j HW) as [Hi Hj]. assert (S := agree_slot w1 w2 i j 0 A HW).
    destruct (wt_slot N w1 i 0) as [s|] eqn:Es.
    - rewrite (G1 i s Hi Es). symmetry in S. rewrite (G2 j s Hj S). reflexivity.
    - exfalso. unfold wt_slot in Es.
      destruct (znth_ok _ (wt_slots w1) i) as [ws Ews]; [rewrite (wo_slots _ _ _ _ W1); lia|].
      rewrite Ews in Es. cbn [bind] in Es.
      destruct (znth_ok _ ws 0) as [x Ex]; [rewrite (wo_num _ _ _ _ W1 _ _ Ews); lia|]. congruence. }
  unfold wt_updateSamplerate. rewrite E1, E2. cbn [bind]. unfold wt_numWaveforms.
  rewrite (wo_slots _ _ _ _ W1), (wo_slots _ _ _ _ W2).
  assert (Z1 : (zlen og1 =? 0) = false) by (apply Z.eqb_neq; assert (0 < 2 ^ K) by (apply pow2_pos; lia); nia).
  assert (Z2 : (zlen og2 =? 0) = false) by (apply Z.eqb_neq; assert (0 < 2 ^ K) by (apply pow2_pos; lia); nia).
  destruct (tle N sr (t0 N)) eqn:Hsr.
  { left. exists NullDeref. unfold wt_build. rewrite Z1, Z2, Hsr.
    destruct (Z.leb_spec nw1 0); [lia|]. destruct (Z.leb_spec nw2 0); [lia|]. split; reflexivity. }
  destruct (tcast N (tmul N fade sr)) as [n|f] eqn:Hn.
  - right.
    destruct (wt_build_ok N src dbg L og1 nw1 sr fade K n) as (v1 & B1 & _); auto; try lia.
    destruct (wt_build_ok N src dbg L og2 nw2 sr fade K n) as (v2 & B2 & _); auto; try lia.
    exists v1, v2. rewrite B1, B2. cbn [bind]. split; [reflexivity|]. split; [reflexivity|].
    apply (build_agree og1 og2 sr fade); auto; lia.
  - left. exists f.
    rewrite (wt_build_cases N src dbg L og1 nw1 sr fade K), (wt_build_cases N src dbg L og2 nw2 sr fade K) by (auto; lia).
    rewrite Hn. split; reflexivity.
Qed.

Lemma reset_twin o1 o2 p d w1 w2 : o_wt o1 = Some w1 -> o_wt o2 = Some w2 -> agree w1 w2 -> o_pj o1 = o_pj o2 ->
  match resetInternals N cfg F o1 p d, resetInternals N cfg F o2 p d with
  | Ok r1, Ok r2 => (forall i j, J i j -> twin (set_wf N r1 i) (set_wf N r2 j)) /\ o_wf r1 = o_wf o1 /\ o_wf r2 = o_wf o2
  | Fault f1, Fault f2 => f1 = f2
  | _, _ => False
  end.
Proof.
  intros E1 E2 A E3. unfold resetInternals. rewrite E1, E2. cbn [is_some].
  destruct (assert_ _ _); cbn [bind]; [|reflexivity].
  destruct (reduceT _ _ _ _); cbn [bind]; [|reflexivity].
  destruct (agree_find w1 w2 (tabs N d) A) as [(f & Ef1 & Ef2)|(w1' & w2' & [[[mi g] mu] gu] & Ef1 & Ef2 & A')];
    rewrite Ef1, Ef2; cbn [bind]; [reflexivity|].
  rewrite (agree_len _ _ mi A').
  destruct (wt_waveformLen _ _ _); cbn [bind]; [|reflexivity].
  destruct (if tle _ _ _ then _ else _); cbn [bind]; [|reflexivity].
  split; [|split; reflexivity]. intros i j HW. split; [cbn; eauto 10|]. rewrite E3. repeat split. exact HW.
Qed.

Notation follows := (moved N J).

Lemma apply_twin o1 o2 op1 op2 : follows op1 op2 -> twin o1 o2 ->
  sameRes N twin (apply N src cfg F o1 op1) (apply N src cfg F o2 op2).
Proof.
  intros Hop H. assert (H' := H).
  destruct H as ((w1 & w2 & E1 & E1' & A) & E2 & E3 & E4 & E5 & E6 & E7 & E8 & E9).
  destruct op1 as [[w|] p d|[w|] p d|p d|k|sr|dir ps]; cbn [moved] in Hop; try contradiction.
  - subst op2. split; auto.
  - subst op2. split; auto.
  - subst op2. cbn [apply]. assert (R := reset_twin o1 o2 p d w1 w2 E1 E1' A E8).
    destruct (resetInternals _ _ _ o1 _ _) as [r1|], (resetInternals _ _ _ o2 _ _) as [r2|]; cbn [bind]; try contradiction; auto.
    destruct R as (R & X & Y). split; [|reflexivity]. specialize (R _ _ E9).
    destruct r1, r2. cbn in X, Y. subst. exact R.
  - destruct op2 as [| | |k2| |]; try contradiction. cbn [apply].
    unfold setWaveform. rewrite E1, E1'. destruct (assert_ _ _); cbn [bind]; [|reflexivity].
    split; [|reflexivity]. split; [cbn; eauto 10|]. repeat split; auto.
  - subst op2. cbn [apply]. unfold osc_updateSamplerate. rewrite E1, E1'. cbn [is_some]. destruct (assert_ _ _); cbn [bind]; [|reflexivity].
    destruct (update_agree w1 w2 sr (defaultFade N) A) as [(f & X1 & X2)|(v1 & v2 & X1 & X2 & A')];
      rewrite X1, X2; cbn [bind]; [reflexivity|].
    split; [|reflexivity]. split; [cbn; eauto 10|]. repeat split; auto.
  - subst op2. cbn [apply]. unfold process. rewrite E1, E1'. cbn [is_some]. destruct (assert_ _ _); cbn [bind]; [|reflexivity].
    destruct (assert_ _ _); cbn [bind]; [|reflexivity]. now apply loop_twin.
Qed.

Lemma run_twin ops1 ops2 : Forall2 follows ops1 ops2 -> forall o1 o2, twin o1 o2 ->
  sameRes N twin (run N src cfg F o1 ops1) (run N src cfg F o2 ops2).
Proof.
  induction 1 as [|op1 op2 ops1 ops2 Hop _ IH]; intros o1 o2 H; cbn [run].
  - split; auto.
  - eapply sameRes_bind; [now apply apply_twin|]. intros o3 o4 ys H1'.
    eapply sameRes_bind; [now apply IH|]. intros o5 o6 zs H2'. split; [assumption|reflexivity].
Qed.

Lemma moved_run o w1 w2 i j p d ops1 ops2 : agree w1 w2 -> J i j -> Forall2 follows ops1 ops2 ->
  outputs N (run N src cfg F o (OpInit N (Some w1) p d :: OpSetWaveform N i :: ops1)) =
  outputs N (run N src cfg F o (OpInit N (Some w2) p d :: OpSetWaveform N j :: ops2)).
Proof.
  intros A HW Hk. cbn [run apply osc_init].
  assert (R := reset_twin (set_wt N o (Some w1)) (set_wt N o (Some w2)) p d w1 w2 eq_refl eq_refl A eq_refl).
  destruct (resetInternals _ _ _ (set_wt N o (Some w1)) _ _) as [r1|],
    (resetInternals _ _ _ (set_wt N o (Some w2)) _ _) as [r2|]; cbn [bind]; try contradiction; [|now subst].
  destruct R as (R0 & _). destruct (R0 i j HW) as (R1 & R). unfold setWaveform. destruct R1 as (v1 & v2 & V1 & V2 & A').
  cbn [o_wt set_wf] in V1, V2 |- *. rewrite V1, V2. cbn [is_some].
  destruct (assert_ _ _); cbn [bind]; [|reflexivity].
  apply (sameRes_outputs N twin). eapply sameRes_bind.
  2:{ intros o3 o4 zs H. cbn. split; [exact H|reflexivity]. }
  eapply sameRes_bind; [apply run_twin; [exact Hk|]|].
  2:{ intros o3 o4 zs H. cbn. split; [exact H|reflexivity]. }
  split; [|exact R]. cbn. eauto 10.
Qed.

(** without the selections: the oscillators stand on their first waveforms *)
Lemma first_run o w1 w2 p d ops1 ops2 : agree w1 w2 -> J 0 0 -> Forall2 follows ops1 ops2 ->
  outputs N (run N src cfg F o (OpInit N (Some w1) p d :: ops1)) =
  outputs N (run N src cfg F o (OpInit N (Some w2) p d :: ops2)).
Proof.
  intros A HW Hk. cbn [run apply osc_init].
  assert (R := reset_twin (set_wt N o (Some w1)) (set_wt N o (Some w2)) p d w1 w2 eq_refl eq_refl A eq_refl).
  destruct (resetInternals _ _ _ (set_wt N o (Some w1)) _ _) as [r1|],
    (resetInternals _ _ _ (set_wt N o (Some w2)) _ _) as [r2|]; cbn [bind]; try contradiction; [|now subst].
  destruct R as (R0 & _).
  apply (sameRes_outputs N twin). eapply sameRes_bind; [apply (run_twin ops1 ops2 Hk); exact (R0 0 0 HW)|].
  intros o3 o4 zs H. cbn. split; [exact H|reflexivity].
Qed.
End PBank.
