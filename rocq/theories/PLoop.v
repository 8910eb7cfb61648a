(** * PLoop: lemmas behind Prop_Calls.v (C19, C20, C34-C36), any number system *)
From Coq Require Import ZArith List Bool Lia Arith.
From Verif Require Import Num Maths CrossFader Wavetable Filters Osc NumFacts SpecC.
Import ListNotations.
Local Open Scope Z_scope.

Section PLoop.
Variable N : Num.
Variable src : Resampler N.
Variable cfg : Cfg.
Variable F : Filt N.
Notation dbg := (dbg cfg).
Notation process := (process N cfg F).
Notation processLoop := (processLoop N cfg F).
Notation processOne := (processOne N cfg F).
Notation run := (run N src cfg F).

Notation stp := (stepBetween N).

Lemma find_keeps w d w' m : wt_findMipMapIndices N dbg w d = Ok (w', m) ->
  wt_slots w' = wt_slots w /\ wt_ph w' = wt_ph w.
Proof.
  unfold wt_findMipMapIndices. intros H. apply bind_ok in H. destruct H as ([c mm] & _ & H).
  inversion H; subst. auto.
Qed.

Lemma idxFwd_keeps o w p d x : idxFwd N cfg o w p d = Ok x ->
  wt_slots (ix_wt N x) = wt_slots w /\ wt_ph (ix_wt N x) = wt_ph w.
Proof.
  unfold idxFwd. intros H.
  apply bind_ok in H. destruct H as ([] & _ & H).
  apply bind_ok in H. destruct H as ([w' [[[mi wg] mu] wgu]] & Ef & H).
  repeat (apply bind_ok in H; destruct H as (? & _ & H)). inversion H; subst. cbn. now apply (find_keeps _ _ _ _ Ef).
Qed.
Lemma idxBwd_keeps o w p d x : idxBwd N cfg o w p d = Ok x ->
  wt_slots (ix_wt N x) = wt_slots w /\ wt_ph (ix_wt N x) = wt_ph w.
Proof.
  unfold idxBwd. intros H.
  apply bind_ok in H. destruct H as ([] & _ & H).
  apply bind_ok in H. destruct H as ([w' [[[mi wg] mu] wgu]] & Ef & H).
  repeat (apply bind_ok in H; destruct H as (? & _ & H)). inversion H; subst. cbn. now apply (find_keeps _ _ _ _ Ef).
Qed.

Lemma sample_shape o w p d o' y :
  (processSampleFwd N cfg F o w p d = Ok (o', y) \/ processSampleBwd N cfg F o w p d = Ok (o', y)) ->
  o_phase o' = p /\ o_pd o' = d /\ o_wf o' = o_wf o /\
  exists w', o_wt o' = Some w' /\ wt_slots w' = wt_slots w /\ wt_ph w' = wt_ph w.
Proof.
  intros [H|H]; unfold processSampleFwd, processSampleBwd in H;
    apply bind_ok in H; destruct H as (x & Ex & H); apply bind_ok in H; destruct H as (a & _ & H);
    apply bind_ok in H; destruct H as (i & _ & H); unfold finish in H; inversion H; subst; cbn;
    repeat split; eexists; (split; [reflexivity|]); [now apply (idxFwd_keeps _ _ _ _ _ Ex)|now apply (idxBwd_keeps _ _ _ _ _ Ex)].
Qed.

Lemma one_shape dir o p o' y : processOne dir o p = Ok (o', y) ->
  o_phase o' = p /\ o_pd o' = stp dir (o_phase o) p /\ o_wf o' = o_wf o /\
  exists w w', o_wt o = Some w /\ o_wt o' = Some w' /\ wt_slots w' = wt_slots w /\ wt_ph w' = wt_ph w.
Proof.
  unfold Osc.processOne. destruct (o_wt o) as [w|]; [|discriminate]. destruct dir; cbn [stepBetween]; fold (stepFwd N p (o_phase o)); fold (stepBi N p (o_phase o)); intros H.
  - apply bind_ok in H. destruct H as ([] & _ & H).
    destruct (sample_shape _ _ _ _ _ _ (or_introl H)) as (A & B & C & w' & D). eauto 10.
  - destruct (tle N (t0 N) _).
    + destruct (sample_shape _ _ _ _ _ _ (or_introl H)) as (A & B & C & w' & D). eauto 10.
    + destruct (sample_shape _ _ _ _ _ _ (or_intror H)) as (A & B & C & w' & D). eauto 10.
Qed.

(** ** C19 *)
Lemma loop_app dir a : forall o oa b ob, length oa = length a ->
  processLoop dir o (a ++ b) (oa ++ ob) =
    let! (o1, ya) := processLoop dir o a oa in
    let! (o2, yb) := processLoop dir o1 b ob in Ok (o2, ya ++ yb).
Proof.
  induction a as [|p a IH]; intros o [|z oa] b ob Hl; try discriminate; cbn [app Osc.processLoop bind].
  - destruct (processLoop dir o b ob) as [[o2 yb]|]; reflexivity.
  - destruct (processOne dir o p) as [[o1 y]|f]; cbn [bind]; [|reflexivity].
    rewrite IH by (cbn in Hl; lia).
    destruct (processLoop dir o1 a oa) as [[o2 ya]|f]; cbn [bind]; [|reflexivity].
    destruct (processLoop dir o2 b ob) as [[o3 yb]|f]; reflexivity.
Qed.

Lemma loop_some dir ps : forall o out o' ys, processLoop dir o ps out = Ok (o', ys) ->
  is_some (o_wt o) = true -> is_some (o_wt o') = true.
Proof.
  induction ps as [|p ps IH]; intros o [|z out] o' ys H Hs; cbn [Osc.processLoop] in H; try (inversion H; subst; assumption).
  apply bind_ok in H. destruct H as ([o1 y] & E1 & H). apply bind_ok in H. destruct H as ([o2 zs] & E2 & H).
  inversion H; subst. destruct (one_shape _ _ _ _ _ E1) as (_ & _ & _ & w & w' & _ & E & _).
  apply (IH _ _ _ _ E2). now rewrite E.
Qed.

Lemma zlen_eqb A B (a : list A) (b : list B) : length a = length b -> (zlen a =? zlen b) = true.
Proof. intros H. unfold zlen. rewrite H. apply Z.eqb_refl. Qed.

Lemma process_app dir o a b oa ob : length oa = length a -> length ob = length b ->
  process dir o (a ++ b) (oa ++ ob) =
    let! (o1, ya) := process dir o a oa in
    let! (o2, yb) := process dir o1 b ob in Ok (o2, ya ++ yb).
Proof.
  intros Ha Hb. unfold Osc.process.
  rewrite !(zlen_eqb _ _ a oa), !(zlen_eqb _ _ (a ++ b) (oa ++ ob)) by (rewrite ?app_length; lia).
  rewrite !(assert_ok dbg true) by reflexivity. cbn [bind].
  destruct (assert_ dbg (is_some (o_wt o))) as [[]|f] eqn:Ea; cbn [bind]; [|reflexivity].
  rewrite loop_app by assumption.
  destruct (processLoop dir o a oa) as [[o1 ya]|f] eqn:E; cbn [bind]; [|reflexivity].
  rewrite (zlen_eqb _ _ b ob) by lia. rewrite (assert_ok dbg true) by reflexivity. cbn [bind].
  replace (assert_ dbg (is_some (o_wt o1))) with (Ok tt) by
   (symmetry; apply assert_ok; intros D; apply (loop_some _ _ _ _ _ _ E);
    unfold assert_ in Ea; rewrite D in Ea; destruct (is_some (o_wt o)); [reflexivity|discriminate]).
  reflexivity.
Qed.

Lemma map_t0_len (l : list (T N)) : length (map (fun _ => t0 N) l) = length l.
Proof. apply map_length. Qed.

Lemma run_blocks dir blocks : forall o, blocks <> [] ->
  run o (map (OpProcess N dir) blocks) = run o [OpProcess N dir (concat blocks)].
Proof.
  assert (One : forall o ps, run o [OpProcess N dir ps] = process dir o ps (map (fun _ => t0 N) ps)).
  { intros o ps. cbn [Osc.run apply]. destruct (process _ _ _ _) as [[o1 ys]|f]; cbn [bind]; [|reflexivity].
    now rewrite app_nil_r. }
  induction blocks as [|b blocks IH]; intros o Hne; [contradiction|].
  destruct blocks as [|b2 blocks].
  - cbn [concat map]. now rewrite app_nil_r.
  - change (map (OpProcess N dir) (b :: b2 :: blocks)) with
      (OpProcess N dir b :: map (OpProcess N dir) (b2 :: blocks)).
    change (concat (b :: b2 :: blocks)) with (b ++ concat (b2 :: blocks)).
    rewrite (One o (b ++ _)), map_app. rewrite process_app by apply map_t0_len.
    assert (R : forall op ops, run o (op :: ops) = let! (o1, ys) := apply N src cfg F o op in
      let! (o2, zs) := run o1 ops in Ok (o2, ys ++ zs)) by reflexivity.
    rewrite R. cbn [apply].
    destruct (process dir o b _) as [[o1 ya]|f]; cbn [bind]; [|reflexivity].
    rewrite (IH o1) by discriminate. rewrite One.
    destruct (process dir o1 (concat (b2 :: blocks)) _) as [[o2 yb]|f]; reflexivity.
Qed.

(** ** C20 *)
Lemma loop_shape dir ps : forall o out o' ys, processLoop dir o ps out = Ok (o', ys) -> length out = length ps ->
  length ys = length ps /\ o_phase o' = last ps (o_phase o) /\ o_wf o' = o_wf o /\
  (ps <> [] -> o_pd o' = stp dir (last (removelast ps) (o_phase o)) (last ps (o_phase o))) /\
  (forall w, o_wt o = Some w -> exists w', o_wt o' = Some w' /\ wt_slots w' = wt_slots w /\ wt_ph w' = wt_ph w).
Proof.
  assert (Lc : forall (l : list (T N)) p d, last (p :: l) d = last l p).
  { induction l as [|q l IH]; intros p d; [reflexivity|].
    change (last (p :: q :: l) d) with (last (q :: l) d). rewrite IH. symmetry. apply IH. }
  induction ps as [|p ps IH]; intros o [|z out] o' ys H Hl; try discriminate; cbn [Osc.processLoop] in H.
  - inversion H; subst. repeat split; auto; [contradiction|]. intros w Hw. eauto.
  - apply bind_ok in H. destruct H as ([o1 y] & E1 & H). apply bind_ok in H. destruct H as ([o2 zs] & E2 & H).
    inversion H; subst. destruct (one_shape _ _ _ _ _ E1) as (A & B & C & w & w1 & D1 & D2 & D3 & D4).
    destruct (IH _ _ _ _ E2 ltac:(cbn in Hl; lia)) as (I1 & I2 & I3 & I4 & I5).
    split; [cbn; lia|]. split; [rewrite I2, A; symmetry; apply Lc|]. split; [congruence|]. split.
    + intros _. destruct ps as [|q ps].
      * cbn [Osc.processLoop] in E2. assert (Eo : o1 = o') by (destruct out; congruence). rewrite <- Eo. exact B.
      * rewrite I4 by discriminate. rewrite A.
        change (removelast (p :: q :: ps)) with (p :: removelast (q :: ps)).
        rewrite !Lc. reflexivity.
    + intros w0 Hw0. rewrite D1 in Hw0. inversion Hw0; subst w0.
      destruct (I5 w1 D2) as (w2 & J1 & J2 & J3). exists w2. split; [assumption|]. split; congruence.
Qed.

Lemma process_prefix dir o ps out o' ys k : process dir o ps out = Ok (o', ys) -> length out = length ps ->
  exists o1, process dir o (firstn k ps) (firstn k out) = Ok (o1, firstn k ys).
Proof.
  intros H Hl. rewrite <- (firstn_skipn k ps), <- (firstn_skipn k out) in H.
  rewrite process_app in H by (rewrite ?firstn_length, ?skipn_length; lia).
  apply bind_ok in H. destruct H as ([o1 ya] & E1 & H). apply bind_ok in H. destruct H as ([o2 yb] & E2 & H).
  inversion H; subst. exists o1. rewrite E1. f_equal. f_equal.
  unfold Osc.process in E1. apply bind_ok in E1. destruct E1 as ([] & _ & E1). apply bind_ok in E1. destruct E1 as ([] & _ & E1).
  destruct (loop_shape _ _ _ _ _ _ E1) as (A & _); [rewrite !firstn_length; lia|].
  rewrite firstn_length in A. 
  destruct (le_lt_dec k (length ps)) as [Hk|Hk].
  - rewrite firstn_app. replace (k - length ya)%nat with 0%nat by lia. rewrite firstn_O, app_nil_r. symmetry. apply firstn_all2. lia.
  - unfold Osc.process in E2. apply bind_ok in E2. destruct E2 as ([] & _ & E2). apply bind_ok in E2. destruct E2 as ([] & _ & E2).
    destruct (loop_shape _ _ _ _ _ _ E2) as (A2 & _); [rewrite !skipn_length; lia|]. rewrite skipn_length in A2.
    destruct yb; [|cbn in A2; lia]. rewrite app_nil_r. symmetry. apply firstn_all2. lia.
Qed.

(** ** C35: oscillators equal up to prev_j_red_, which nothing reads *)
Definition same (o1 o2 : Osc N) : Prop :=
  o_wt o1 = o_wt o2 /\ o_y o1 = o_y o2 /\ o_phase o1 = o_phase o2 /\ o_phred o1 = o_phred o2 /\
  o_pd o1 = o_pd o2 /\ o_mm o1 = o_mm o2 /\ o_j o1 = o_j o2 /\ o_wf o1 = o_wf o2.
(** outcomes: same fault, or same values with related oscillators *)
Definition sameRes {A} (R : Osc N -> Osc N -> Prop) (r1 r2 : res (Osc N * A)) : Prop :=
  match r1, r2 with
  | Ok (o1, a1), Ok (o2, a2) => R o1 o2 /\ a1 = a2
  | Fault f1, Fault f2 => f1 = f2
  | _, _ => False
  end.

Lemma same_refl o : same o o.
Proof. repeat split. Qed.

Lemma sameRes_bind A A' (R R' : Osc N -> Osc N -> Prop) r1 r2 (k1 k2 : Osc N * A -> res (Osc N * A')) :
  sameRes R r1 r2 -> (forall o1 o2 a, R o1 o2 -> sameRes R' (k1 (o1, a)) (k2 (o2, a))) ->
  sameRes R' (bind r1 k1) (bind r2 k2).
Proof.
  intros H K. destruct r1 as [[o1 a1]|f1], r2 as [[o2 a2]|f2]; cbn in *; try contradiction; auto.
  destruct H as [H ->]. now apply K.
Qed.
Lemma sameRes_refl A r : sameRes same (A := A) r r.
Proof. destruct r as [[o a]|f]; cbn; auto using same_refl. Qed.

Lemma same_sample o1 o2 w p d : same o1 o2 ->
  sameRes same (processSampleFwd N cfg F o1 w p d) (processSampleFwd N cfg F o2 w p d) /\
  sameRes same (processSampleBwd N cfg F o1 w p d) (processSampleBwd N cfg F o2 w p d).
Proof.
  intros (E1 & E2 & E3 & E4 & E5 & E6 & E7 & E8).
  destruct o1 as [w1 y1 ph1 pr1 pd1 mm1 j1 pj1 wf1], o2 as [w2 y2 ph2 pr2 pd2 mm2 j2 pj2 wf2].
  cbn in *. subst. split.
  - unfold processSampleFwd. change (idxFwd N cfg (mkOsc w2 y2 ph2 pr2 pd2 mm2 j2 pj1 wf2) w p d) with
      (idxFwd N cfg (mkOsc w2 y2 ph2 pr2 pd2 mm2 j2 pj2 wf2) w p d).
    destruct (idxFwd _ _ _ _ _ _) as [x|]; cbn [bind]; [|reflexivity]. cbn [o_wf o_phred].
    destruct (computeFwdI _ _ _ _ _ _ _ _ _ _ _ _) as [a|]; cbn [bind]; [|reflexivity].
    destruct (if negb _ then _ else _) as [i|]; cbn [bind]; [|reflexivity].
    unfold finish. cbn. split; [|reflexivity]. repeat split.
  - unfold processSampleBwd. change (idxBwd N cfg (mkOsc w2 y2 ph2 pr2 pd2 mm2 j2 pj1 wf2) w p d) with
      (idxBwd N cfg (mkOsc w2 y2 ph2 pr2 pd2 mm2 j2 pj2 wf2) w p d).
    destruct (idxBwd _ _ _ _ _ _) as [x|]; cbn [bind]; [|reflexivity]. cbn [o_wf o_phred].
    destruct (computeBwdI _ _ _ _ _ _ _ _ _ _ _ _ _) as [a|]; cbn [bind]; [|reflexivity].
    destruct (if negb _ then _ else _) as [i|]; cbn [bind]; [|reflexivity].
    unfold finish. cbn. split; [|reflexivity]. repeat split.
Qed.

Lemma same_one dir o1 o2 p : same o1 o2 -> sameRes same (processOne dir o1 p) (processOne dir o2 p).
Proof.
  intros H. assert (H' := H). destruct H as (E1 & _ & E3 & _). unfold Osc.processOne. rewrite E1, E3.
  destruct (o_wt o2) as [w|]; [|reflexivity]. destruct dir.
  - destruct (assert_ _ _); cbn [bind]; [|reflexivity]. now apply same_sample.
  - destruct (tle _ _ _); now apply same_sample.
Qed.

Lemma same_loop dir ps : forall o1 o2 out, same o1 o2 -> sameRes same (processLoop dir o1 ps out) (processLoop dir o2 ps out).
Proof.
  induction ps as [|p ps IH]; intros o1 o2 [|z out] H; cbn [Osc.processLoop]; try (split; [assumption|reflexivity]).
  eapply sameRes_bind; [now apply same_one|]. intros o3 o4 y H1.
  eapply sameRes_bind; [now apply IH|]. intros o5 o6 ys H2. split; [assumption|reflexivity].
Qed.

Lemma same_reset o1 o2 p d : o_wt o1 = o_wt o2 -> o_wf o1 = o_wf o2 ->
  match resetInternals N cfg F o1 p d, resetInternals N cfg F o2 p d with
  | Ok r1, Ok r2 => same r1 r2
  | Fault f1, Fault f2 => f1 = f2
  | _, _ => False
  end.
Proof.
  intros E1 E2. unfold resetInternals. rewrite E1, E2.
  destruct (assert_ _ _); cbn [bind]; [|reflexivity].
  destruct (o_wt o2) as [w|]; [|reflexivity].
  destruct (reduceT _ _ _ _); cbn [bind]; [|reflexivity].
  destruct (wt_findMipMapIndices _ _ _ _) as [[w' [[[mi g] mu] gu]]|]; cbn [bind]; [|reflexivity].
  destruct (wt_waveformLen _ _ _); cbn [bind]; [|reflexivity].
  destruct (if tle _ _ _ then _ else _); cbn [bind]; [|reflexivity].
  repeat split.
Qed.

Lemma same_apply o1 o2 op : same o1 o2 -> sameRes same (apply N src cfg F o1 op) (apply N src cfg F o2 op).
Proof.
  intros H. assert (H' := H). destruct H as (E1 & E2 & E3 & E4 & E5 & E6 & E7 & E8).
  assert (Ld : forall w p d, match resetInternals N cfg F (set_wt N o1 (Some w)) p d, resetInternals N cfg F (set_wt N o2 (Some w)) p d with
    | Ok r1, Ok r2 => same (set_wf N r1 0) (set_wf N r2 0)
    | Fault f1, Fault f2 => f1 = f2
    | _, _ => False
    end).
  { intros w p d. assert (A := same_reset (set_wt N o1 (Some w)) (set_wt N o2 (Some w)) p d eq_refl E8).
    destruct (resetInternals _ _ _ (set_wt N o1 (Some w)) _ _), (resetInternals _ _ _ (set_wt N o2 (Some w)) _ _); auto.
    destruct A as (A1 & A2 & A3 & A4 & A5 & A6 & A7 & A8). repeat split; assumption. }
  destruct op as [[w|] p d|[w|] p d|p d|k|sr|dir ps]; cbn [apply osc_init osc_swap].
  - specialize (Ld w p d). destruct (resetInternals _ _ _ (set_wt N o1 _) _ _), (resetInternals _ _ _ (set_wt N o2 _) _ _); cbn [bind]; try contradiction; auto.
    split; auto.
  - split; auto.
  - specialize (Ld w p d). destruct (resetInternals _ _ _ (set_wt N o1 _) _ _), (resetInternals _ _ _ (set_wt N o2 _) _ _); cbn [bind]; try contradiction; auto.
    split; auto.
  - split; auto.
  - assert (A := same_reset o1 o2 p d E1 E8).
    destruct (resetInternals _ _ _ o1 _ _), (resetInternals _ _ _ o2 _ _); cbn [bind]; try contradiction; auto. split; auto.
  - unfold setWaveform. rewrite E1. destruct (assert_ _ _); cbn [bind]; [|reflexivity]. split; [|reflexivity]. repeat split; auto.
  - unfold osc_updateSamplerate. rewrite E1. destruct (assert_ _ _); cbn [bind]; [|reflexivity].
    destruct (o_wt o2); [|reflexivity]. destruct (wt_updateSamplerate _ _ _ _ _ _); cbn [bind]; [|reflexivity].
    split; [|reflexivity]. repeat split; auto.
  - unfold Osc.process. rewrite E1. destruct (assert_ _ _); cbn [bind]; [|reflexivity].
    destruct (assert_ _ _); cbn [bind]; [|reflexivity]. now apply same_loop.
Qed.

Lemma same_run ops : forall o1 o2, same o1 o2 -> sameRes same (run o1 ops) (run o2 ops).
Proof.
  induction ops as [|op ops IH]; intros o1 o2 H; cbn [Osc.run].
  - split; auto.
  - eapply sameRes_bind; [now apply same_apply|]. intros o3 o4 ys H1.
    eapply sameRes_bind; [now apply IH|]. intros o5 o6 zs H2. split; [assumption|reflexivity].
Qed.

Notation outputs := (outputs N).

Lemma sameRes_outputs R r1 r2 : sameRes R r1 r2 -> outputs r1 = outputs r2.
Proof.
  destruct r1 as [[o1 y1]|f1], r2 as [[o2 y2]|f2]; cbn; try contradiction; [intros [_ ->]|intros ->]; reflexivity.
Qed.

Lemma reset_forgets o1 o2 p d ops : o_wt o1 = o_wt o2 -> o_wf o1 = o_wf o2 ->
  outputs (run o1 (OpReset N p d :: ops)) = outputs (run o2 (OpReset N p d :: ops)).
Proof.
  intros E1 E2. cbn [Osc.run apply]. assert (A := same_reset o1 o2 p d E1 E2).
  destruct (resetInternals _ _ _ o1 _ _) as [r1|], (resetInternals _ _ _ o2 _ _) as [r2|]; cbn [bind]; try contradiction.
  2:{ now subst. }
  assert (S := same_run ops r1 r2 A).
  destruct (run r1 ops) as [[o3 y3]|], (run r2 ops) as [[o4 y4]|]; cbn in *; try contradiction; [destruct S as [_ ->]|subst]; reflexivity.
Qed.

Lemma load_forgets o1 o2 w p d ops (swap : bool) :
  let op := if swap then OpSwap N (Some w) p d else OpInit N (Some w) p d in
  outputs (run o1 (op :: ops)) = outputs (run o2 (op :: ops)).
Proof.
  intros op.
  assert (A : sameRes same (apply N src cfg F o1 op) (apply N src cfg F o2 op)).
  { unfold op.
    assert (Ld : match resetInternals N cfg F (set_wf N (set_wt N o1 (Some w)) 0) p d, resetInternals N cfg F (set_wf N (set_wt N o2 (Some w)) 0) p d with
    | Ok r1, Ok r2 => same r1 r2
    | Fault f1, Fault f2 => f1 = f2
    | _, _ => False end) by now apply same_reset.
    assert (Er : forall o, resetInternals N cfg F (set_wf N (set_wt N o (Some w)) 0) p d =
      let! o1 := resetInternals N cfg F (set_wt N o (Some w)) p d in Ok (set_wf N o1 0)).
    { intros o. unfold resetInternals. cbn [o_wt set_wt set_wf o_pj o_wf].
      destruct (assert_ dbg _); cbn [bind]; [|reflexivity].
      destruct (reduceT N dbg p (t1 N)); cbn [bind]; [|reflexivity].
      destruct (wt_findMipMapIndices N dbg w (tabs N d)) as [[w1 [[[a1 a2] a3] a4]]|]; cbn [bind]; [|reflexivity].
      destruct (wt_waveformLen N w1 a1); cbn [bind]; [|reflexivity].
      destruct (if tle N (t0 N) d then _ else _); cbn [bind]; reflexivity. }
    rewrite !Er in Ld. destruct swap; cbn [apply osc_init osc_swap];
    destruct (resetInternals _ _ _ (set_wt N o1 _) _ _), (resetInternals _ _ _ (set_wt N o2 _) _ _); cbn [bind] in *; try contradiction; auto; split; auto. }
  cbn [Osc.run]. 
  apply (sameRes_outputs same). eapply sameRes_bind; [exact A|]. intros o3 o4 ys H1.
  eapply sameRes_bind; [now apply same_run|]. intros o5 o6 zs H2. split; [assumption|reflexivity].
Qed.
End PLoop.
