(** * PEntry: two tables that agree on one entry, at rest on it, play alike (lemmas behind C66) *)
From Coq Require Import ZArith List Bool Lia Arith.
From Verif Require Import Num Maths CrossFader Wavetable Filters Osc NumFacts CFFacts SpecC SpecL PLoop PRate.
Import ListNotations.
Local Open Scope Z_scope.

Section PEntry.
Variable N : Num.
Variables src1 src2 : Resampler N.
Variable cfg : Cfg.
Variable F : Filt N.
Notation dbg := (dbg cfg).
Variable sc : list (T N).
Variable r : Z.
Hypothesis Hzero : teq N (t0 N) (t0 N) = true.
Notation asks := (asks N sc r).
Notation stepAsks := (stepAsks N sc r).
Notation blockAsks := (blockAsks N sc r).
Notation opsAsk := (opsAsk N sc r).

(** ** Two tables at rest on entry [r] that agree on it *)
Record akin (w1 w2 : WT N) : Prop := {
  ak_slots : forall i, wt_slot N w1 i r = wt_slot N w2 i r;
  ak_ph : wt_phases N w1 r = wt_phases N w2 r;
  ak_sc1 : cf_scale (wt_cf w1) = sc;
  ak_sc2 : cf_scale (wt_cf w2) = sc;
  ak_l1 : cf_left (wt_cf w1) = 0;
  ak_l2 : cf_left (wt_cf w2) = 0;
  ak_p : cf_prev (wt_cf w1) = cf_prev (wt_cf w2);
  ak_x1 : cf_next (wt_cf w1) = r;
  ak_x2 : cf_next (wt_cf w2) = r }.

Lemma akin_find w1 w2 d : akin w1 w2 -> asks d ->
  (exists f, wt_findMipMapIndices N dbg w1 d = Fault f /\ wt_findMipMapIndices N dbg w2 d = Fault f) \/
  (exists g mu, wt_findMipMapIndices N dbg w1 d = Ok (w1, (r, g, mu, t0 N)) /\ wt_findMipMapIndices N dbg w2 d = Ok (w2, (r, g, mu, t0 N))).
Proof.
  destruct w1 as [s1 p1 [n1 c1 l1 a1 x1]], w2 as [s2 p2 [n2 c2 l2 a2 x2]].
  intros [A1 A2 A3 A4 A5 A6 A7 A8 A9] Ha. cbn [wt_cf cf_scale cf_left cf_next cf_prev wt_slots] in A3, A4, A5, A6, A7, A8, A9.
  subst c1 c2 l1 l2 a2 x1 x2.
  unfold wt_findMipMapIndices, newIndices, findMipMapIndex. cbn [wt_cf cf_scale cf_left cf_next cf_prev wt_slots wt_ph].
  destruct (assert_ _ (tlt N (t0 N) d)) as [[]|f]; cbn [bind]; [|left; eauto].
  unfold PRate.asks in Ha. rewrite Ha. cbn [Z.eqb negb]. rewrite Z.eqb_refl.
  destruct (assert_ dbg (a1 =? r)) as [[]|f]; cbn [bind]; [|left; eauto].
  right. eauto.
Qed.

Definition idxCalm (w1 w2 : WT N) (r1 r2 : res (Idx N)) : Prop :=
  match r1, r2 with
  | Ok (mkIdx _ v1 a b c d e f g h i j k), Ok (mkIdx _ v2 a' b' c' d' e' f' g' h' i' j' k') =>
      v1 = w1 /\ v2 = w2 /\ a = r /\ d = t0 N /\ (a, b, c, d, e, f) = (a', b', c', d', e', f') /\ (g, h, i, j, k) = (g', h', i', j', k')
  | Fault f1, Fault f2 => f1 = f2
  | _, _ => False
  end.

Lemma bind_akin w1 w2 A (q : res A) k1 k2 : (forall a, idxCalm w1 w2 (k1 a) (k2 a)) -> idxCalm w1 w2 (bind q k1) (bind q k2).
Proof. intros H. destruct q; cbn [bind]; [now apply H|reflexivity]. Qed.

Lemma akin_len w1 w2 : akin w1 w2 -> wt_waveformLen N w1 r = wt_waveformLen N w2 r.
Proof. intros C. unfold wt_waveformLen, wt_m. now rewrite (ak_slots _ _ C). Qed.

Lemma akin_idx o1 o2 w1 w2 p d : akin w1 w2 -> o_phred o1 = o_phred o2 -> o_pd o1 = o_pd o2 ->
  o_mm o1 = o_mm o2 -> o_j o1 = o_j o2 ->
  (asks d -> idxCalm w1 w2 (idxFwd N cfg o1 w1 p d) (idxFwd N cfg o2 w2 p d)) /\
  (asks (tabs N d) -> idxCalm w1 w2 (idxBwd N cfg o1 w1 p d) (idxBwd N cfg o2 w2 p d)).
Proof.
  intros A E1 E2 E3 E4. unfold idxFwd, idxBwd. rewrite E1, E2, E3, E4. split; intros Ha.
  - apply bind_akin. intros [].
    destruct (akin_find w1 w2 d A Ha) as [(f & Ef1 & Ef2)|(g & mu & Ef1 & Ef2)];
      rewrite Ef1, Ef2; cbn [bind]; [reflexivity|].
    rewrite (ak_ph _ _ A), (akin_len _ _ A).
    repeat (apply bind_akin; intros ?). cbn. repeat split.
  - apply bind_akin. intros [].
    destruct (akin_find w1 w2 (tabs N d) A Ha) as [(f & Ef1 & Ef2)|(g & mu & Ef1 & Ef2)];
      rewrite Ef1, Ef2; cbn [bind]; [reflexivity|].
    rewrite (ak_ph _ _ A), (akin_len _ _ A).
    repeat (apply bind_akin; intros ?). cbn. repeat split.
Qed.

Lemma akin_fwdI w1 w2 wf pr arr a b d p : akin w1 w2 ->
  computeFwdI N cfg F w1 wf pr arr r a b d p = computeFwdI N cfg F w2 wf pr arr r a b d p.
Proof.
  intros A. unfold computeFwdI, computeI0, computeISumFwd, wt_m, wt_q, wt_mDiff, wt_qDiff.
  rewrite !(ak_slots _ _ A), (akin_len _ _ A), (ak_ph _ _ A). reflexivity.
Qed.
Lemma akin_bwdI w1 w2 wf pr arr j a b d p : akin w1 w2 ->
  computeBwdI N cfg F w1 wf pr arr r j a b d p = computeBwdI N cfg F w2 wf pr arr r j a b d p.
Proof.
  intros A. unfold computeBwdI, computeI0, computeISumBwd, wt_m, wt_q, wt_mDiff, wt_qDiff.
  rewrite !(ak_slots _ _ A), (akin_len _ _ A), (ak_ph _ _ A). reflexivity.
Qed.

(** oscillators equal but for tables that agree on entry [r], standing at phase [q] *)
Definition kinE (q : T N) (o1 o2 : Osc N) : Prop :=
  (exists w1 w2, o_wt o1 = Some w1 /\ o_wt o2 = Some w2 /\ akin w1 w2) /\
  o_y o1 = o_y o2 /\ o_phase o1 = q /\ o_phase o2 = q /\ o_phred o1 = o_phred o2 /\
  o_pd o1 = o_pd o2 /\ o_mm o1 = o_mm o2 /\ o_j o1 = o_j o2 /\ o_wf o1 = o_wf o2.

Lemma akin_sample o1 o2 w1 w2 q p d : akin w1 w2 -> kinE q o1 o2 ->
  (asks d -> sameRes N (kinE p) (processSampleFwd N cfg F o1 w1 p d) (processSampleFwd N cfg F o2 w2 p d)) /\
  (asks (tabs N d) -> sameRes N (kinE p) (processSampleBwd N cfg F o1 w1 p d) (processSampleBwd N cfg F o2 w2 p d)).
Proof.
  intros A (_ & E2 & _ & _ & E4 & E5 & E6 & E7 & E8).
  destruct (akin_idx o1 o2 w1 w2 p d A E4 E5 E6 E7) as [If Ib]. split; intros Ha; [specialize (If Ha)|specialize (Ib Ha)].
  - unfold processSampleFwd.
    destruct (idxFwd N cfg o1 w1 p d) as [[v1 a1 b1 c1 d1 e1 f1 g1 h1 i1 j1 k1]|],
      (idxFwd N cfg o2 w2 p d) as [[v2 a2 b2 c2 d2 e2 f2 g2 h2 i2 j2 k2]|]; cbn [bind]; try contradiction; [|exact If].
    cbn in If. destruct If as (-> & -> & -> & -> & X & Y). injection X as <- -> -> <- -> ->. injection Y as -> -> -> -> ->.
    cbn [ix_wt ix_mi ix_w ix_mu ix_wu ix_phred ix_len ix_j ix_pj ix_jmin_red ix_jmax_p_red].
    rewrite E8, E4, (akin_fwdI w1 w2) by assumption.
    destruct (computeFwdI _ _ _ w2 _ _ _ r _ _ _ _); cbn [bind]; [|reflexivity].
    rewrite Hzero. cbn [negb bind].
    unfold finish. rewrite E2, E8. cbn. split; [|reflexivity].
      split; [exists w1, w2; auto|]. cbn; repeat split; assumption.
  - unfold processSampleBwd.
    destruct (idxBwd N cfg o1 w1 p d) as [[v1 a1 b1 c1 d1 e1 f1 g1 h1 i1 j1 k1]|],
      (idxBwd N cfg o2 w2 p d) as [[v2 a2 b2 c2 d2 e2 f2 g2 h2 i2 j2 k2]|]; cbn [bind]; try contradiction; [|exact Ib].
    cbn in Ib. destruct Ib as (-> & -> & -> & -> & X & Y). injection X as <- -> -> <- -> ->. injection Y as -> -> -> -> ->.
    cbn [ix_wt ix_mi ix_w ix_mu ix_wu ix_phred ix_len ix_j ix_pj ix_jmin ix_jmin_red ix_jmax_p_red].
    rewrite E8, E4, (akin_bwdI w1 w2) by assumption.
    destruct (computeBwdI _ _ _ w2 _ _ _ r _ _ _ _ _); cbn [bind]; [|reflexivity].
    rewrite Hzero. cbn [negb bind].
    unfold finish. rewrite E2, E8. cbn. split; [|reflexivity].
      split; [exists w1, w2; auto|]. cbn; repeat split; assumption.
Qed.

Lemma akin_one dir q o1 o2 p : kinE q o1 o2 -> stepAsks dir q p ->
  sameRes N (kinE p) (processOne N cfg F dir o1 p) (processOne N cfg F dir o2 p).
Proof.
  intros H Ha. assert (H' := H). destruct H as ((w1 & w2 & E1 & E2 & A) & _ & E3 & E4 & _).
  unfold processOne. rewrite E1, E2, E3, E4. unfold PRate.stepAsks in Ha. destruct dir.
  - destruct (assert_ _ _); cbn [bind]; [|reflexivity]. now apply (akin_sample o1 o2 w1 w2 q).
  - cbv zeta. destruct (tle N (t0 N) (stepBi N p q)); now apply (akin_sample o1 o2 w1 w2 q).
Qed.

Lemma akin_loop dir ps : forall q o1 o2 out, kinE q o1 o2 -> blockAsks dir q ps -> length out = length ps ->
  sameRes N (kinE (last ps q)) (processLoop N cfg F dir o1 ps out) (processLoop N cfg F dir o2 ps out).
Proof.
  induction ps as [|p ps IH]; intros q o1 o2 [|z out] H Hb Hl; try discriminate Hl; cbn [Osc.processLoop].
  - split; [assumption|reflexivity].
  - destruct Hb as [H1 H2]. eapply sameRes_bind; [now apply (akin_one dir q)|]. intros o3 o4 y H3.
    rewrite last_at.
    eapply sameRes_bind; [apply (IH p); [assumption..|now injection Hl]|]. intros o5 o6 ys H4. split; [assumption|reflexivity].
Qed.

Lemma akin_reset o1 o2 w1 w2 p d : o_wt o1 = Some w1 -> o_wt o2 = Some w2 -> akin w1 w2 -> o_wf o1 = o_wf o2 ->
  asks (tabs N d) ->
  match resetInternals N cfg F o1 p d, resetInternals N cfg F o2 p d with
  | Ok r1, Ok r2 => kinE p r1 r2
  | Fault f1, Fault f2 => f1 = f2
  | _, _ => False
  end.
Proof.
  intros E1 E2 A E3 Ha. unfold resetInternals. rewrite E1, E2. cbn [is_some].
  destruct (assert_ _ _); cbn [bind]; [|reflexivity].
  destruct (reduceT _ _ _ _); cbn [bind]; [|reflexivity].
  destruct (akin_find w1 w2 (tabs N d) A Ha) as [(f & Ef1 & Ef2)|(g & mu & Ef1 & Ef2)];
    rewrite Ef1, Ef2; cbn [bind]; [reflexivity|].
  rewrite (akin_len _ _ A).
  destruct (wt_waveformLen _ _ _); cbn [bind]; [|reflexivity].
  destruct (if tle _ _ _ then _ else _); cbn [bind]; [|reflexivity].
  split; [cbn; eauto 10|]. cbn. rewrite E3. repeat split.
Qed.

Lemma akin_run ops : forall q o1 o2, kinE q o1 o2 -> opsAsk q ops ->
  sameRes N (fun _ _ => True) (run N src1 cfg F o1 ops) (run N src2 cfg F o2 ops).
Proof.
  assert (X : forall op q o1 o2, kinE q o1 o2 -> opsAsk q [op] ->
    sameRes N (kinE (match op with OpReset _ p _ => p | OpProcess _ _ ps => last ps q | _ => q end))
      (apply N src1 cfg F o1 op) (apply N src2 cfg F o2 op)).
  { intros op q o1 o2 H Ha. assert (H' := H).
    destruct H as ((w1 & w2 & E1 & E1' & A) & E2 & E3 & E3' & E4 & E5 & E6 & E7 & E8).
    destruct op as [wd p d|wd p d|p d|k|sr|dir ps]; cbn [apply]; cbn [opsAsk] in Ha; try contradiction.
    - assert (R := akin_reset o1 o2 w1 w2 p d E1 E1' A E8 (proj1 Ha)).
      destruct (resetInternals _ _ _ o1 _ _) as [r1|], (resetInternals _ _ _ o2 _ _) as [r2|]; cbn [bind]; try contradiction; auto.
      split; [exact R|reflexivity].
    - unfold setWaveform. rewrite E1, E1'. destruct (assert_ _ _); cbn [bind]; [|reflexivity].
      split; [|reflexivity]. split; [cbn; eauto 10|]. repeat split; auto.
    - unfold process. rewrite E1, E1'. cbn [is_some]. destruct (assert_ _ _); cbn [bind]; [|reflexivity].
      destruct (assert_ _ _); cbn [bind]; [|reflexivity]. apply akin_loop; [assumption|apply Ha|apply map_length]. }
  induction ops as [|op ops IH]; intros q o1 o2 H Ha; cbn [run].
  - split; auto.
  - eapply sameRes_bind; [apply (X op q); [assumption|]|].
    { destruct op; cbn [opsAsk] in *; tauto. }
    intros o3 o4 ys H1. eapply sameRes_bind; [eapply IH; [exact H1|]|].
    { destruct op; cbn [opsAsk] in *; tauto. }
    intros o5 o6 zs _. split; [exact I|reflexivity].
Qed.

End PEntry.
