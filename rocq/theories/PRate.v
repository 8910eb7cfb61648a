(** * PRate: the length of the cross-fade has no influence while nothing fades (lemmas behind C65) *)
From Coq Require Import ZArith List Bool Lia Arith.
From Verif Require Import Num Maths CrossFader Wavetable Filters Osc NumFacts CFFacts SpecC SpecL PLoop.
Import ListNotations.
Local Open Scope Z_scope.

Lemma last_at A (l : list A) : forall p d, last (p :: l) d = last l p.
Proof. induction l as [|a l IH]; intros p d; [reflexivity|]. transitivity (last (a :: l) d); [reflexivity|]. rewrite !IH. reflexivity. Qed.

Section PRate.
Variable N : Num.
Variable src : Resampler N.
Variable cfg : Cfg.
Variable F : Filt N.
Notation dbg := (dbg cfg).
Variable sc : list (T N).
Variable r : Z.

(** a request for entry [r] *)
Definition asks (d : T N) : Prop := findLoop N d sc 0 = r.
Definition stepAsks (dir : Direction) (prev p : T N) : Prop :=
  match dir with
  | kForward => asks (stepFwd N p prev)
  | kBidirectionnal => asks (if tle N (t0 N) (stepBi N p prev) then stepBi N p prev else tabs N (stepBi N p prev))
  end.
Fixpoint blockAsks (dir : Direction) (prev : T N) (ps : list (T N)) : Prop :=
  match ps with [] => True | p :: t => stepAsks dir prev p /\ blockAsks dir p t end.
Fixpoint opsAsk (prev : T N) (ops : list (Op N)) : Prop :=
  match ops with
  | [] => True
  | OpReset _ p d :: t => asks (tabs N d) /\ opsAsk p t
  | OpSetWaveform _ _ :: t => opsAsk prev t
  | OpProcess _ dir ps :: t => blockAsks dir prev ps /\ opsAsk (last ps prev) t
  | _ => False
  end.

(** ** Two tables at rest on entry [r] that differ in the length of the fade *)
Record calm (w1 w2 : WT N) : Prop := {
  cm_slots : wt_slots w1 = wt_slots w2;
  cm_ph : wt_ph w1 = wt_ph w2;
  cm_sc1 : cf_scale (wt_cf w1) = sc;
  cm_sc2 : cf_scale (wt_cf w2) = sc;
  cm_l1 : cf_left (wt_cf w1) = 0;
  cm_l2 : cf_left (wt_cf w2) = 0;
  cm_p : cf_prev (wt_cf w1) = cf_prev (wt_cf w2);
  cm_x1 : cf_next (wt_cf w1) = r;
  cm_x2 : cf_next (wt_cf w2) = r }.

Lemma calm_find w1 w2 d : calm w1 w2 -> asks d ->
  (exists f, wt_findMipMapIndices N dbg w1 d = Fault f /\ wt_findMipMapIndices N dbg w2 d = Fault f) \/
  (exists m, wt_findMipMapIndices N dbg w1 d = Ok (w1, m) /\ wt_findMipMapIndices N dbg w2 d = Ok (w2, m)).
Proof.
  destruct w1 as [s1 p1 [n1 c1 l1 a1 x1]], w2 as [s2 p2 [n2 c2 l2 a2 x2]].
  intros [A1 A2 A3 A4 A5 A6 A7 A8 A9] Ha. cbn in *. subst s2 p2 c1 c2 l1 l2 a2 x1 x2.
  unfold wt_findMipMapIndices, newIndices, findMipMapIndex. cbn [wt_cf cf_scale cf_left cf_next cf_prev wt_slots wt_ph].
  destruct (assert_ _ (tlt N (t0 N) d)) as [[]|f]; cbn [bind]; [|left; eauto].
  unfold asks in Ha. rewrite Ha. cbn [Z.eqb negb]. rewrite Z.eqb_refl.
  destruct (assert_ dbg (a1 =? r)) as [[]|f]; cbn [bind]; [|left; eauto].
  right. eauto.
Qed.

Definition idxCalm (w1 w2 : WT N) (r1 r2 : res (Idx N)) : Prop :=
  match r1, r2 with
  | Ok (mkIdx _ v1 a b c d e f g h i j k), Ok (mkIdx _ v2 a' b' c' d' e' f' g' h' i' j' k') =>
      v1 = w1 /\ v2 = w2 /\ (a, b, c, d, e, f) = (a', b', c', d', e', f') /\ (g, h, i, j, k) = (g', h', i', j', k')
  | Fault f1, Fault f2 => f1 = f2
  | _, _ => False
  end.

Lemma bind_calm w1 w2 A (q : res A) k1 k2 : (forall a, idxCalm w1 w2 (k1 a) (k2 a)) -> idxCalm w1 w2 (bind q k1) (bind q k2).
Proof. intros H. destruct q; cbn [bind]; [now apply H|reflexivity]. Qed.

Lemma calm_len w1 w2 k : calm w1 w2 -> wt_waveformLen N w1 k = wt_waveformLen N w2 k.
Proof. intros C. unfold wt_waveformLen, wt_m, wt_slot. now rewrite (cm_slots _ _ C). Qed.

Lemma calm_idx o1 o2 w1 w2 p d : calm w1 w2 -> o_phred o1 = o_phred o2 -> o_pd o1 = o_pd o2 ->
  o_mm o1 = o_mm o2 -> o_j o1 = o_j o2 ->
  (asks d -> idxCalm w1 w2 (idxFwd N cfg o1 w1 p d) (idxFwd N cfg o2 w2 p d)) /\
  (asks (tabs N d) -> idxCalm w1 w2 (idxBwd N cfg o1 w1 p d) (idxBwd N cfg o2 w2 p d)).
Proof.
  intros A E1 E2 E3 E4. unfold idxFwd, idxBwd. rewrite E1, E2, E3, E4. split; intros Ha.
  - apply bind_calm. intros [].
    destruct (calm_find w1 w2 d A Ha) as [(f & Ef1 & Ef2)|([[[mi g] mu] gu] & Ef1 & Ef2)];
      rewrite Ef1, Ef2; cbn [bind]; [reflexivity|].
    unfold wt_phases. rewrite (cm_ph _ _ A), (calm_len _ _ mi A).
    repeat (apply bind_calm; intros ?). cbn. auto.
  - apply bind_calm. intros [].
    destruct (calm_find w1 w2 (tabs N d) A Ha) as [(f & Ef1 & Ef2)|([[[mi g] mu] gu] & Ef1 & Ef2)];
      rewrite Ef1, Ef2; cbn [bind]; [reflexivity|].
    unfold wt_phases. rewrite (cm_ph _ _ A), (calm_len _ _ mi A).
    repeat (apply bind_calm; intros ?). cbn. auto.
Qed.

Lemma calm_fwdI w1 w2 wf pr arr mi a b d p : calm w1 w2 ->
  computeFwdI N cfg F w1 wf pr arr mi a b d p = computeFwdI N cfg F w2 wf pr arr mi a b d p.
Proof.
  intros A. unfold computeFwdI, computeI0, computeISumFwd, wt_m, wt_q, wt_mDiff, wt_qDiff, wt_phases, wt_slot.
  rewrite (cm_slots _ _ A), (calm_len _ _ mi A), (cm_ph _ _ A). reflexivity.
Qed.
Lemma calm_bwdI w1 w2 wf pr arr mi j a b d p : calm w1 w2 ->
  computeBwdI N cfg F w1 wf pr arr mi j a b d p = computeBwdI N cfg F w2 wf pr arr mi j a b d p.
Proof.
  intros A. unfold computeBwdI, computeI0, computeISumBwd, wt_m, wt_q, wt_mDiff, wt_qDiff, wt_phases, wt_slot.
  rewrite (cm_slots _ _ A), (calm_len _ _ mi A), (cm_ph _ _ A). reflexivity.
Qed.

(** oscillators equal but for the lengths of their tables' fades, standing at phase [q] *)
Definition kin (q : T N) (o1 o2 : Osc N) : Prop :=
  (exists w1 w2, o_wt o1 = Some w1 /\ o_wt o2 = Some w2 /\ calm w1 w2) /\
  o_y o1 = o_y o2 /\ o_phase o1 = q /\ o_phase o2 = q /\ o_phred o1 = o_phred o2 /\
  o_pd o1 = o_pd o2 /\ o_mm o1 = o_mm o2 /\ o_j o1 = o_j o2 /\ o_wf o1 = o_wf o2.

Lemma calm_sample o1 o2 w1 w2 q p d : calm w1 w2 -> kin q o1 o2 ->
  (asks d -> sameRes N (kin p) (processSampleFwd N cfg F o1 w1 p d) (processSampleFwd N cfg F o2 w2 p d)) /\
  (asks (tabs N d) -> sameRes N (kin p) (processSampleBwd N cfg F o1 w1 p d) (processSampleBwd N cfg F o2 w2 p d)).
Proof.
  intros A (_ & E2 & _ & _ & E4 & E5 & E6 & E7 & E8).
  destruct (calm_idx o1 o2 w1 w2 p d A E4 E5 E6 E7) as [If Ib]. split; intros Ha; [specialize (If Ha)|specialize (Ib Ha)].
  - unfold processSampleFwd.
    destruct (idxFwd N cfg o1 w1 p d) as [[v1 a1 b1 c1 d1 e1 f1 g1 h1 i1 j1 k1]|],
      (idxFwd N cfg o2 w2 p d) as [[v2 a2 b2 c2 d2 e2 f2 g2 h2 i2 j2 k2]|]; cbn [bind]; try contradiction; [|exact If].
    cbn in If. destruct If as (-> & -> & X & Y). injection X as -> -> -> -> -> ->. injection Y as -> -> -> -> ->.
    cbn [ix_wt ix_mi ix_w ix_mu ix_wu ix_phred ix_len ix_j ix_pj ix_jmin_red ix_jmax_p_red].
    rewrite E8, E4, (calm_fwdI w1 w2) by assumption.
    destruct (computeFwdI _ _ _ w2 _ _ _ a2 _ _ _ _); cbn [bind]; [|reflexivity].
    destruct (negb (teq N d2 (t0 N))).
    + rewrite (calm_fwdI w1 w2) by assumption. destruct (computeFwdI _ _ _ w2 _ _ _ c2 _ _ _ _); cbn [bind]; [|reflexivity].
      unfold finish. rewrite E2, E8. cbn. split; [|reflexivity].
      split; [exists w1, w2; auto|]. cbn; repeat split; assumption.
    + cbn [bind]. unfold finish. rewrite E2, E8. cbn. split; [|reflexivity].
      split; [exists w1, w2; auto|]. cbn; repeat split; assumption.
  - unfold processSampleBwd.
    destruct (idxBwd N cfg o1 w1 p d) as [[v1 a1 b1 c1 d1 e1 f1 g1 h1 i1 j1 k1]|],
      (idxBwd N cfg o2 w2 p d) as [[v2 a2 b2 c2 d2 e2 f2 g2 h2 i2 j2 k2]|]; cbn [bind]; try contradiction; [|exact Ib].
    cbn in Ib. destruct Ib as (-> & -> & X & Y). injection X as -> -> -> -> -> ->. injection Y as -> -> -> -> ->.
    cbn [ix_wt ix_mi ix_w ix_mu ix_wu ix_phred ix_len ix_j ix_pj ix_jmin ix_jmin_red ix_jmax_p_red].
    rewrite E8, E4, (calm_bwdI w1 w2) by assumption.
    destruct (computeBwdI _ _ _ w2 _ _ _ a2 _ _ _ _ _); cbn [bind]; [|reflexivity].
    destruct (negb (teq N d2 (t0 N))).
    + rewrite (calm_bwdI w1 w2) by assumption. destruct (computeBwdI _ _ _ w2 _ _ _ c2 _ _ _ _ _); cbn [bind]; [|reflexivity].
      unfold finish. rewrite E2, E8. cbn. split; [|reflexivity].
      split; [exists w1, w2; auto|]. cbn; repeat split; assumption.
    + cbn [bind]. unfold finish. rewrite E2, E8. cbn. split; [|reflexivity].
      split; [exists w1, w2; auto|]. cbn; repeat split; assumption.
Qed.

Lemma calm_one dir q o1 o2 p : kin q o1 o2 -> stepAsks dir q p ->
  sameRes N (kin p) (processOne N cfg F dir o1 p) (processOne N cfg F dir o2 p).
Proof.
  intros H Ha. assert (H' := H). destruct H as ((w1 & w2 & E1 & E2 & A) & _ & E3 & E4 & _).
  unfold processOne. rewrite E1, E2, E3, E4. unfold stepAsks in Ha. destruct dir.
  - destruct (assert_ _ _); cbn [bind]; [|reflexivity]. now apply (calm_sample o1 o2 w1 w2 q).
  - cbv zeta. destruct (tle N (t0 N) (stepBi N p q)); now apply (calm_sample o1 o2 w1 w2 q).
Qed.

Lemma calm_loop dir ps : forall q o1 o2 out, kin q o1 o2 -> blockAsks dir q ps -> length out = length ps ->
  sameRes N (kin (last ps q)) (processLoop N cfg F dir o1 ps out) (processLoop N cfg F dir o2 ps out).
Proof.
  induction ps as [|p ps IH]; intros q o1 o2 [|z out] H Hb Hl; try discriminate Hl; cbn [Osc.processLoop].
  - split; [assumption|reflexivity].
  - destruct Hb as [H1 H2]. eapply sameRes_bind; [now apply (calm_one dir q)|]. intros o3 o4 y H3.
    rewrite last_at.
    eapply sameRes_bind; [apply (IH p); [assumption..|now injection Hl]|]. intros o5 o6 ys H4. split; [assumption|reflexivity].
Qed.

Lemma calm_reset o1 o2 w1 w2 p d : o_wt o1 = Some w1 -> o_wt o2 = Some w2 -> calm w1 w2 -> o_wf o1 = o_wf o2 ->
  asks (tabs N d) ->
  match resetInternals N cfg F o1 p d, resetInternals N cfg F o2 p d with
  | Ok r1, Ok r2 => kin p r1 r2
  | Fault f1, Fault f2 => f1 = f2
  | _, _ => False
  end.
Proof.
  intros E1 E2 A E3 Ha. unfold resetInternals. rewrite E1, E2. cbn [is_some].
  destruct (assert_ _ _); cbn [bind]; [|reflexivity].
  destruct (reduceT _ _ _ _); cbn [bind]; [|reflexivity].
  destruct (calm_find w1 w2 (tabs N d) A Ha) as [(f & Ef1 & Ef2)|([[[mi g] mu] gu] & Ef1 & Ef2)];
    rewrite Ef1, Ef2; cbn [bind]; [reflexivity|].
  rewrite (calm_len _ _ mi A).
  destruct (wt_waveformLen _ _ _); cbn [bind]; [|reflexivity].
  destruct (if tle _ _ _ then _ else _); cbn [bind]; [|reflexivity].
  split; [cbn; eauto 10|]. cbn. rewrite E3. repeat split.
Qed.

Lemma calm_run ops : forall q o1 o2, kin q o1 o2 -> opsAsk q ops ->
  sameRes N (fun _ _ => True) (run N src cfg F o1 ops) (run N src cfg F o2 ops).
Proof.
  assert (X : forall op q o1 o2, kin q o1 o2 -> opsAsk q [op] ->
    sameRes N (kin (match op with OpReset _ p _ => p | OpProcess _ _ ps => last ps q | _ => q end))
      (apply N src cfg F o1 op) (apply N src cfg F o2 op)).
  { intros op q o1 o2 H Ha. assert (H' := H).
    destruct H as ((w1 & w2 & E1 & E1' & A) & E2 & E3 & E3' & E4 & E5 & E6 & E7 & E8).
    destruct op as [wd p d|wd p d|p d|k|sr|dir ps]; cbn [apply]; cbn [opsAsk] in Ha; try contradiction.
    - assert (R := calm_reset o1 o2 w1 w2 p d E1 E1' A E8 (proj1 Ha)).
      destruct (resetInternals _ _ _ o1 _ _) as [r1|], (resetInternals _ _ _ o2 _ _) as [r2|]; cbn [bind]; try contradiction; auto.
      split; [exact R|reflexivity].
    - unfold setWaveform. rewrite E1, E1'. destruct (assert_ _ _); cbn [bind]; [|reflexivity].
      split; [|reflexivity]. split; [cbn; eauto 10|]. repeat split; auto.
    - unfold process. rewrite E1, E1'. cbn [is_some]. destruct (assert_ _ _); cbn [bind]; [|reflexivity].
      destruct (assert_ _ _); cbn [bind]; [|reflexivity]. apply calm_loop; [assumption|apply Ha|apply map_length]. }
  induction ops as [|op ops IH]; intros q o1 o2 H Ha; cbn [run].
  - split; auto.
  - eapply sameRes_bind; [apply (X op q); [assumption|]|].
    { destruct op; cbn [opsAsk] in *; tauto. }
    intros o3 o4 ys H1. eapply sameRes_bind; [eapply IH; [exact H1|]|].
    { destruct op; cbn [opsAsk] in *; tauto. }
    intros o5 o6 zs _. split; [exact I|reflexivity].
Qed.

(** ** One oscillator whose requests are all for entry [r] comes to rest on it *)
Definition inert (w0 : WT N) (m : Z) (w : WT N) : Prop :=
  wt_slots w = wt_slots w0 /\ wt_ph w = wt_ph w0 /\ cf_scale (wt_cf w) = sc /\ 1 <= cf_num (wt_cf w) /\
  ((cf_next (wt_cf w) = r /\ 0 <= cf_left (wt_cf w) <= Z.max 0 m /\ (cf_left (wt_cf w) = 0 -> cf_prev (wt_cf w) = r)) \/
   (cf_left (wt_cf w) = 0 /\ cf_prev (wt_cf w) = cf_next (wt_cf w) /\ cf_num (wt_cf w) + 1 <= m)).

Lemma inert_find w0 m w d w' x : inert w0 m w -> asks d -> wt_findMipMapIndices N dbg w d = Ok (w', x) -> inert w0 (m - 1) w'.
Proof.
  destruct w as [s p [n c l a y]]. intros (A1 & A2 & A3 & A4 & A5) Ha E. cbn in *. subst s p c.
  unfold wt_findMipMapIndices, newIndices, findMipMapIndex in E. cbn [wt_cf cf_scale cf_left cf_next cf_prev wt_slots wt_ph] in E.
  apply bind_ok in E. destruct E as ([c1 x1] & E & E'). inversion E'; subst; clear E'.
  apply bind_ok in E. destruct E as (i & E1 & E). apply bind_ok in E1. destruct E1 as ([] & _ & E1).
  unfold asks in Ha. assert (i = r) by congruence. subst i.
  unfold inert. cbn [wt_slots wt_ph wt_cf].
  destruct (Z.eqb_spec l 0) as [->|Hl]; cbn [negb] in E.
  - destruct (Z.eqb_spec r y) as [Ey|Ey].
    + apply bind_ok in E. destruct E as ([] & _ & E). inversion E; subst c1. cbn. repeat split; auto. left.
      destruct A5 as [(B1 & B2 & B3)|(B1 & B2 & B3)]; repeat split; auto; try lia.
    + inversion E; subst c1. unfold updateIndices, set_left. cbn. repeat split; auto. left.
      destruct A5 as [(B1 & B2 & B3)|(B1 & B2 & B3)]; repeat split; auto; lia.
  - destruct A5 as [(B1 & B2 & B3)|(B1 & B2 & B3)]; [|lia]. subst y. rewrite Z.eqb_refl in E. cbn [negb andb] in E.
    apply bind_ok in E. destruct E as ([] & _ & E). apply bind_ok in E. destruct E as (l' & E9 & E).
    unfold chk in E9. destruct (in_int _) in E9; [|discriminate]. injection E9 as <-. inversion E; subst c1; clear E.
    unfold set_left, set_prev. cbn [cf_left cf_next cf_prev cf_num cf_scale].
    destruct (Z.eqb_spec (l - 1) 0); cbn; repeat split; auto; left; repeat split; auto; lia.
Qed.

Definition lazy (w0 : WT N) (m : Z) (q : T N) (o : Osc N) : Prop :=
  exists w, o_wt o = Some w /\ inert w0 m w /\ o_phase o = q.

Lemma lazy_one w0 m dir q o p o' y : lazy w0 m q o -> stepAsks dir q p -> processOne N cfg F dir o p = Ok (o', y) ->
  lazy w0 (m - 1) p o' /\ o_wf o' = o_wf o.
Proof.
  intros (w & Ew & Hi & Eq) Ha E. unfold processOne in E. rewrite Ew, Eq in E.
  assert (Fw : forall d, asks d -> processSampleFwd N cfg F o w p d = Ok (o', y) -> lazy w0 (m - 1) p o' /\ o_wf o' = o_wf o).
  { intros d Hd E1. unfold processSampleFwd in E1. apply bind_ok in E1. destruct E1 as (x & Ex & E1).
    apply bind_ok in E1. destruct E1 as (a & _ & E1). apply bind_ok in E1. destruct E1 as (icpx & _ & E1).
    unfold finish in E1. inversion E1; subst; clear E1. cbn [o_wf]. split; [|reflexivity].
    unfold idxFwd in Ex. apply bind_ok in Ex. destruct Ex as ([] & _ & Ex).
    apply bind_ok in Ex. destruct Ex as ([w1 [[[mi g] mu] gu]] & Ef & Ex).
    repeat (apply bind_ok in Ex; destruct Ex as (? & _ & Ex)). inversion Ex; subst; clear Ex.
    eexists. split; [reflexivity|]. split; [|reflexivity]. eapply inert_find; eassumption. }
  assert (Bw : forall d, asks (tabs N d) -> processSampleBwd N cfg F o w p d = Ok (o', y) -> lazy w0 (m - 1) p o' /\ o_wf o' = o_wf o).
  { intros d Hd E1. unfold processSampleBwd in E1. apply bind_ok in E1. destruct E1 as (x & Ex & E1).
    apply bind_ok in E1. destruct E1 as (a & _ & E1). apply bind_ok in E1. destruct E1 as (icpx & _ & E1).
    unfold finish in E1. inversion E1; subst; clear E1. cbn [o_wf]. split; [|reflexivity].
    unfold idxBwd in Ex. apply bind_ok in Ex. destruct Ex as ([] & _ & Ex).
    apply bind_ok in Ex. destruct Ex as ([w1 [[[mi g] mu] gu]] & Ef & Ex).
    repeat (apply bind_ok in Ex; destruct Ex as (? & _ & Ex)). inversion Ex; subst; clear Ex.
    eexists. split; [reflexivity|]. split; [|reflexivity]. eapply inert_find; eassumption. }
  unfold stepAsks in Ha. destruct dir; cbv zeta in E.
  - apply bind_ok in E. destruct E as ([] & _ & E). exact (Fw _ Ha E).
  - destruct (tle N (t0 N) (stepBi N p q)); [exact (Fw _ Ha E)|exact (Bw _ Ha E)].
Qed.

Lemma lazy_loop w0 dir ps : forall m q o out o' ys, lazy w0 m q o -> blockAsks dir q ps -> length out = length ps ->
  processLoop N cfg F dir o ps out = Ok (o', ys) ->
  lazy w0 (m - Z.of_nat (length ps)) (last ps q) o' /\ o_wf o' = o_wf o.
Proof.
  induction ps as [|p ps IH]; intros m q o [|z out] o' ys H Hb Hl E; try discriminate Hl; cbn [Osc.processLoop] in E.
  - inversion E; subst. cbn [length last]. rewrite Z.sub_0_r. auto.
  - destruct Hb as [H1 H2]. apply bind_ok in E. destruct E as ([o1 y] & E1 & E). apply bind_ok in E. destruct E as ([o2 zs] & E2 & E).
    inversion E; subst. destruct (lazy_one w0 m dir q o p o1 y H H1 E1) as [L1 W1].
    destruct (IH (m - 1) p o1 out o' zs L1 H2 ltac:(now injection Hl) E2) as [L2 W2].
    rewrite last_at. cbn [length]. replace (m - Z.of_nat (S (length ps))) with (m - 1 - Z.of_nat (length ps)) by lia.
    split; [exact L2|congruence].
Qed.

Lemma lazy_reset w0 m o w p d o' : o_wt o = Some w -> inert w0 m w -> asks (tabs N d) ->
  resetInternals N cfg F o p d = Ok o' -> lazy w0 (m - 1) p o' /\ o_wf o' = o_wf o.
Proof.
  intros Ew Hi Ha E. unfold resetInternals in E. rewrite Ew in E. apply bind_ok in E. destruct E as ([] & _ & E).
  apply bind_ok in E. destruct E as (ph & _ & E). apply bind_ok in E. destruct E as ([w1 [[[mi g] mu] gu]] & Ef & E).
  apply bind_ok in E. destruct E as (len & _ & E). apply bind_ok in E. destruct E as (j & _ & E).
  inversion E; subst. split; [|reflexivity]. eexists. split; [reflexivity|]. split; [|reflexivity].
  eapply inert_find; eassumption.
Qed.

Lemma inert_less w0 m m' w : m <= m' -> inert w0 m w -> inert w0 m' w.
Proof.
  intros H (A1 & A2 & A3 & A4 & A5). unfold inert. repeat split; auto.
  destruct A5 as [(B1 & B2 & B3)|(B1 & B2 & B3)]; [left|right]; repeat split; auto; lia.
Qed.

Definition wfAfter (ops : list (Op N)) (k : Z) : Z :=
  fold_left (fun k op => match op with OpSetWaveform _ i => i | _ => k end) ops k.

Lemma lazy_run w0 ops : forall m q o o' ys, lazy w0 m q o -> opsAsk q ops -> run N src cfg F o ops = Ok (o', ys) ->
  exists q', lazy w0 (m - Z.of_nat (asked ops)) q' o' /\ o_wf o' = wfAfter ops (o_wf o).
Proof.
  induction ops as [|op ops IH]; intros m q o o' ys H Ha E; cbn [run] in E.
  - inversion E; subst. exists q. cbn. rewrite Z.sub_0_r. auto.
  - apply bind_ok in E. destruct E as ([o1 zs] & E1 & E). apply bind_ok in E. destruct E as ([o2 us] & E2 & E).
    inversion E; subst; clear E. assert (H' := H). destruct H as (w & Ew & Hi & Eq).
    destruct op as [wd p d|wd p d|p d|k|sr|dir ps]; cbn [apply] in E1; cbn [opsAsk] in Ha; try contradiction.
    + apply bind_ok in E1. destruct E1 as (o3 & E1 & E3). inversion E3; subst; clear E3.
      destruct (lazy_reset w0 m o w p d o1 Ew Hi (proj1 Ha) E1) as [(w1 & Ew1 & Hi1 & Eq1) W1].
      destruct (IH m p o1 o' us) as (q' & L2 & W2); [|exact (proj2 Ha)|exact E2|].
      { exists w1. split; [exact Ew1|]. split; [|exact Eq1]. eapply inert_less; [|exact Hi1]. lia. }
      exists q'. split; [exact L2|]. rewrite W2, W1. reflexivity.
    + apply bind_ok in E1. destruct E1 as (o3 & E1 & E3). inversion E3; subst; clear E3.
      unfold setWaveform in E1. apply bind_ok in E1. destruct E1 as ([] & _ & E1). inversion E1; subst; clear E1.
      destruct (IH m (o_phase o) (set_wf N o k) o' us) as (q' & L2 & W2); [|exact Ha|exact E2|].
      { exists w. auto. }
      exists q'. split; [exact L2|]. rewrite W2. reflexivity.
    + destruct Ha as [Ha1 Ha2]. unfold process in E1. apply bind_ok in E1. destruct E1 as ([] & _ & E1).
      apply bind_ok in E1. destruct E1 as ([] & _ & E1).
      destruct (lazy_loop w0 dir ps m q o _ o1 zs H' Ha1 ltac:(apply map_length) E1) as [L1 W1].
      destruct (IH _ _ o1 o' us L1 Ha2 E2) as (q' & L2 & W2).
      exists q'. split; [|rewrite W2, W1; reflexivity].
      change (asked (OpProcess N dir ps :: ops)) with (length ps + asked ops)%nat.
      replace (m - Z.of_nat (length ps + asked ops)) with (m - Z.of_nat (length ps) - Z.of_nat (asked ops)) by lia. exact L2.
Qed.

Lemma inert_calm w1 w2 v1 v2 m1 m2 : wt_slots w1 = wt_slots w2 -> wt_ph w1 = wt_ph w2 -> m1 <= 0 -> m2 <= 0 ->
  inert w1 m1 v1 -> inert w2 m2 v2 -> calm v1 v2.
Proof.
  intros S P M1 M2 (A1 & A2 & A3 & A4 & [(A5 & A6 & A7)|(A5 & A6 & A7)]) (B1 & B2 & B3 & B4 & [(B5 & B6 & B7)|(B5 & B6 & B7)]); try lia.
  assert (cf_left (wt_cf v1) = 0) by lia. assert (cf_left (wt_cf v2) = 0) by lia.
  constructor; try congruence; auto. rewrite A7, B7; auto.
Qed.

(** a fresh table *)
Lemma inert_fresh w : cf_scale (wt_cf w) = sc -> 1 <= cf_num (wt_cf w) -> cf_left (wt_cf w) = 0 ->
  cf_prev (wt_cf w) = cf_next (wt_cf w) -> inert w (cf_num (wt_cf w) + 1) w.
Proof. intros. unfold inert. repeat split; auto. right. repeat split; auto. lia. Qed.

(** once both are at rest, everything after a reset is the same *)
Lemma rest_reset w1 w2 m1 m2 q1 q2 o1 o2 p d ops : wt_slots w1 = wt_slots w2 -> wt_ph w1 = wt_ph w2 -> m1 <= 0 -> m2 <= 0 ->
  lazy w1 m1 q1 o1 -> lazy w2 m2 q2 o2 -> o_wf o1 = o_wf o2 -> opsAsk q1 (OpReset N p d :: ops) ->
  outputs N (run N src cfg F o1 (OpReset N p d :: ops)) = outputs N (run N src cfg F o2 (OpReset N p d :: ops)).
Proof.
  intros S P M1 M2 (v1 & V1 & I1 & _) (v2 & V2 & I2 & _) Hw [Ha Hops].
  assert (C := inert_calm w1 w2 v1 v2 m1 m2 S P M1 M2 I1 I2).
  assert (R := calm_reset o1 o2 v1 v2 p d V1 V2 C Hw Ha).
  apply (sameRes_outputs N (fun _ _ => True)). cbn [run apply].
  destruct (resetInternals N cfg F o1 p d) as [r1|], (resetInternals N cfg F o2 p d) as [r2|]; cbn [bind]; try contradiction; [|exact R].
  eapply sameRes_bind; [eapply calm_run; [exact R|exact Hops]|]. intros o5 o6 zs _. split; [exact I|reflexivity].
Qed.
End PRate.
