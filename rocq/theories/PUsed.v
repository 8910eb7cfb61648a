(** * PUsed: whatever its cross-fader was doing, a table whose requests are all for one entry
    comes to rest on it (lemmas behind C68) *)
From Coq Require Import ZArith List Bool Lia Arith.
From Verif Require Import Num Maths CrossFader Wavetable Filters Osc NumFacts CFFacts SpecC SpecL PLoop PRate.
Import ListNotations.
Local Open Scope Z_scope.

Section PUsed.
Variable N : Num.
Variable src : Resampler N.
Variable cfg : Cfg.
Variable F : Filt N.
Notation dbg := (dbg cfg).
Variable sc : list (T N).
Variable r : Z.
Notation asks := (asks N sc r).
Notation stepAsks := (stepAsks N sc r).
Notation blockAsks := (blockAsks N sc r).
Notation opsAsk := (opsAsk N sc r).

(** requests for entry [r] left before the cross-fader is at rest on it *)
Definition toRest (c : CF N) : Z :=
  if cf_left c =? 0 then (if cf_next c =? r then 0 else cf_num c + 1)
  else if negb (cf_next c =? r) && (cf_prev c =? r) then cf_left c + cf_num c + 1 else cf_left c.

Definition worn (w0 : WT N) (m : Z) (w : WT N) : Prop :=
  wt_slots w = wt_slots w0 /\ wt_ph w = wt_ph w0 /\ cf_scale (wt_cf w) = sc /\ 1 <= cf_num (wt_cf w) /\
  0 <= cf_left (wt_cf w) /\ (cf_left (wt_cf w) = 0 -> cf_prev (wt_cf w) = cf_next (wt_cf w)) /\
  toRest (wt_cf w) <= Z.max 0 m.

Lemma worn_find w0 m w d w' x : worn w0 m w -> asks d -> wt_findMipMapIndices N dbg w d = Ok (w', x) -> worn w0 (m - 1) w'.
Proof.
  destruct w as [s p [n c l a y]]. intros (A1 & A2 & A3 & A4 & A5 & A6 & A7) Ha E. cbn in A1, A2, A3, A4, A5, A6, A7. subst s p c.
  unfold wt_findMipMapIndices, newIndices, findMipMapIndex in E. cbn [wt_cf cf_scale cf_left cf_next cf_prev wt_slots wt_ph] in E.
  apply bind_ok in E. destruct E as ([c1 x1] & E & E'). inversion E'; subst; clear E'.
  apply bind_ok in E. destruct E as (i & E1 & E). apply bind_ok in E1. destruct E1 as ([] & _ & E1).
  unfold PRate.asks in Ha. assert (i = r) by congruence. subst i.
  unfold worn. cbn [wt_slots wt_ph wt_cf].
  unfold toRest in A7. cbn [cf_left cf_next cf_prev cf_num] in A7.
  destruct (Z.eqb_spec l 0) as [->|Hl]; cbn [negb] in E.
  - rewrite (Z.eqb_sym r y) in E. destruct (Z.eqb_spec y r) as [Ey|Ey].
    + apply bind_ok in E. destruct E as ([] & _ & E). inversion E; subst c1. unfold toRest. cbn. rewrite (proj2 (Z.eqb_eq y r) Ey).
      repeat split; auto; lia.
    + inversion E; subst c1. unfold toRest, updateIndices, set_left. cbn. rewrite Z.eqb_refl. cbn [negb andb].
      destruct (Z.eqb_spec n 0); [lia|]. repeat split; auto; lia.
  - apply bind_ok in E. destruct E as ([] & _ & E). apply bind_ok in E. destruct E as (l' & E9 & E).
    rewrite (Z.eqb_sym r y), (Z.eqb_sym r a) in E, E9.
    destruct (Z.eqb_spec y r) as [Ey|Ey]; [|destruct (Z.eqb_spec a r) as [Ea|Ea]]; cbn [negb andb] in E, E9, A7;
      unfold chk in E9; destruct (in_int _) in E9; try discriminate; injection E9 as <-; inversion E; subst c1; clear E;
      unfold set_left, set_prev, updateIndices, toRest; cbn [cf_left cf_next cf_prev cf_num cf_scale].
    + destruct (Z.eqb_spec (l - 1) 0) as [Hz|Hz]; cbn [cf_left cf_next cf_prev cf_num cf_scale];
        rewrite (proj2 (Z.eqb_eq y r) Ey); cbn [negb andb]; [rewrite Hz; cbn [Z.eqb]|destruct (Z.eqb_spec (l - 1) 0); [lia|]];
        repeat split; auto; lia.
    + destruct (Z.eqb_spec (l - 1) 0) as [Hz|Hz]; cbn [cf_left cf_next cf_prev cf_num cf_scale];
        rewrite (proj2 (Z.eqb_neq y r) Ey); cbn [negb andb]; [rewrite Hz; cbn [Z.eqb]|destruct (Z.eqb_spec (l - 1) 0); [lia|]; rewrite (proj2 (Z.eqb_eq a r) Ea)];
        repeat split; auto; lia.
    + destruct (Z.eqb_spec (l - 1) 0) as [Hz|Hz]; cbn [cf_left cf_next cf_prev cf_num cf_scale];
        rewrite Z.eqb_refl; cbn [negb andb]; [rewrite Hz; cbn [Z.eqb]|destruct (Z.eqb_spec (l - 1) 0); [lia|]];
        repeat split; auto; lia.
Qed.

Definition tired (w0 : WT N) (m : Z) (q : T N) (o : Osc N) : Prop :=
  exists w, o_wt o = Some w /\ worn w0 m w /\ o_phase o = q.

Lemma tired_one w0 m dir q o p o' y : tired w0 m q o -> stepAsks dir q p -> processOne N cfg F dir o p = Ok (o', y) ->
  tired w0 (m - 1) p o' /\ o_wf o' = o_wf o.
Proof.
  intros (w & Ew & Hi & Eq) Ha E. unfold processOne in E. rewrite Ew, Eq in E.
  assert (Fw : forall d, asks d -> processSampleFwd N cfg F o w p d = Ok (o', y) -> tired w0 (m - 1) p o' /\ o_wf o' = o_wf o).
  { intros d Hd E1. unfold processSampleFwd in E1. apply bind_ok in E1. destruct E1 as (x & Ex & E1).
    apply bind_ok in E1. destruct E1 as (a & _ & E1). apply bind_ok in E1. destruct E1 as (icpx & _ & E1).
    unfold finish in E1. inversion E1; subst; clear E1. cbn [o_wf]. split; [|reflexivity].
    unfold idxFwd in Ex. apply bind_ok in Ex. destruct Ex as ([] & _ & Ex).
    apply bind_ok in Ex. destruct Ex as ([w1 [[[mi g] mu] gu]] & Ef & Ex).
    repeat (apply bind_ok in Ex; destruct Ex as (? & _ & Ex)). inversion Ex; subst; clear Ex.
    eexists. split; [reflexivity|]. split; [|reflexivity]. eapply worn_find; eassumption. }
  assert (Bw : forall d, asks (tabs N d) -> processSampleBwd N cfg F o w p d = Ok (o', y) -> tired w0 (m - 1) p o' /\ o_wf o' = o_wf o).
  { intros d Hd E1. unfold processSampleBwd in E1. apply bind_ok in E1. destruct E1 as (x & Ex & E1).
    apply bind_ok in E1. destruct E1 as (a & _ & E1). apply bind_ok in E1. destruct E1 as (icpx & _ & E1).
    unfold finish in E1. inversion E1; subst; clear E1. cbn [o_wf]. split; [|reflexivity].
    unfold idxBwd in Ex. apply bind_ok in Ex. destruct Ex as ([] & _ & Ex).
    apply bind_ok in Ex. destruct Ex as ([w1 [[[mi g] mu] gu]] & Ef & Ex).
    repeat (apply bind_ok in Ex; destruct Ex as (? & _ & Ex)). inversion Ex; subst; clear Ex.
    eexists. split; [reflexivity|]. split; [|reflexivity]. eapply worn_find; eassumption. }
  unfold PRate.stepAsks in Ha. destruct dir; cbv zeta in E.
  - apply bind_ok in E. destruct E as ([] & _ & E). exact (Fw _ Ha E).
  - destruct (tle N (t0 N) (stepBi N p q)); [exact (Fw _ Ha E)|exact (Bw _ Ha E)].
Qed.

Lemma tired_loop w0 dir ps : forall m q o out o' ys, tired w0 m q o -> blockAsks dir q ps -> length out = length ps ->
  processLoop N cfg F dir o ps out = Ok (o', ys) ->
  tired w0 (m - Z.of_nat (length ps)) (last ps q) o' /\ o_wf o' = o_wf o.
Proof.
  induction ps as [|p ps IH]; intros m q o [|z out] o' ys H Hb Hl E; try discriminate Hl; cbn [Osc.processLoop] in E.
  - inversion E; subst. cbn [length last]. rewrite Z.sub_0_r. auto.
  - destruct Hb as [H1 H2]. apply bind_ok in E. destruct E as ([o1 y] & E1 & E). apply bind_ok in E. destruct E as ([o2 zs] & E2 & E).
    inversion E; subst. destruct (tired_one w0 m dir q o p o1 y H H1 E1) as [L1 W1].
    destruct (IH (m - 1) p o1 out o' zs L1 H2 ltac:(now injection Hl) E2) as [L2 W2].
    rewrite last_at. cbn [length]. replace (m - Z.of_nat (S (length ps))) with (m - 1 - Z.of_nat (length ps)) by lia.
    split; [exact L2|congruence].
Qed.

Lemma tired_reset w0 m o w p d o' : o_wt o = Some w -> worn w0 m w -> asks (tabs N d) ->
  resetInternals N cfg F o p d = Ok o' -> tired w0 (m - 1) p o' /\ o_wf o' = o_wf o.
Proof.
  intros Ew Hi Ha E. unfold resetInternals in E. rewrite Ew in E. apply bind_ok in E. destruct E as ([] & _ & E).
  apply bind_ok in E. destruct E as (ph & _ & E). apply bind_ok in E. destruct E as ([w1 [[[mi g] mu] gu]] & Ef & E).
  apply bind_ok in E. destruct E as (len & _ & E). apply bind_ok in E. destruct E as (j & _ & E).
  inversion E; subst. split; [|reflexivity]. eexists. split; [reflexivity|]. split; [|reflexivity].
  eapply worn_find; eassumption.
Qed.

Lemma worn_less w0 m m' w : m <= m' -> worn w0 m w -> worn w0 m' w.
Proof. intros H (A1 & A2 & A3 & A4 & A5 & A6 & A7). unfold worn. repeat split; auto. lia. Qed.

Lemma tired_run w0 ops : forall m q o o' ys, tired w0 m q o -> opsAsk q ops -> run N src cfg F o ops = Ok (o', ys) ->
  exists q', tired w0 (m - Z.of_nat (asked ops)) q' o' /\ o_wf o' = wfAfter N ops (o_wf o).
Proof.
  induction ops as [|op ops IH]; intros m q o o' ys H Ha E; cbn [run] in E.
  - inversion E; subst. exists q. cbn. rewrite Z.sub_0_r. auto.
  - apply bind_ok in E. destruct E as ([o1 zs] & E1 & E). apply bind_ok in E. destruct E as ([o2 us] & E2 & E).
    inversion E; subst; clear E. assert (H' := H). destruct H as (w & Ew & Hi & Eq).
    destruct op as [wd p d|wd p d|p d|k|sr|dir ps]; cbn [apply] in E1; cbn [PRate.opsAsk] in Ha; try contradiction.
    + apply bind_ok in E1. destruct E1 as (o3 & E1 & E3). inversion E3; subst; clear E3.
      destruct (tired_reset w0 m o w p d o1 Ew Hi (proj1 Ha) E1) as [(w1 & Ew1 & Hi1 & Eq1) W1].
      destruct (IH m p o1 o' us) as (q' & L2 & W2); [|exact (proj2 Ha)|exact E2|].
      { exists w1. split; [exact Ew1|]. split; [|exact Eq1]. eapply worn_less; [|exact Hi1]. lia. }
      exists q'. split; [exact L2|]. rewrite W2, W1. reflexivity.
    + apply bind_ok in E1. destruct E1 as (o3 & E1 & E3). inversion E3; subst; clear E3.
      unfold setWaveform in E1. apply bind_ok in E1. destruct E1 as ([] & _ & E1). inversion E1; subst; clear E1.
      destruct (IH m (o_phase o) (set_wf N o k) o' us) as (q' & L2 & W2); [|exact Ha|exact E2|].
      { exists w. auto. }
      exists q'. split; [exact L2|]. rewrite W2. reflexivity.
    + destruct Ha as [Ha1 Ha2]. unfold process in E1. apply bind_ok in E1. destruct E1 as ([] & _ & E1).
      apply bind_ok in E1. destruct E1 as ([] & _ & E1).
      destruct (tired_loop w0 dir ps m q o _ o1 zs H' Ha1 ltac:(apply map_length) E1) as [L1 W1].
      destruct (IH _ _ o1 o' us L1 Ha2 E2) as (q' & L2 & W2).
      exists q'. split; [|rewrite W2, W1; reflexivity].
      change (asked (OpProcess N dir ps :: ops)) with (length ps + asked ops)%nat.
      replace (m - Z.of_nat (length ps + asked ops)) with (m - Z.of_nat (length ps) - Z.of_nat (asked ops)) by lia. exact L2.
Qed.


(** a table in any state *)
Lemma worn_any w : cf_scale (wt_cf w) = sc -> 1 <= cf_num (wt_cf w) -> 0 <= cf_left (wt_cf w) <= cf_num (wt_cf w) ->
  (cf_left (wt_cf w) = 0 -> cf_prev (wt_cf w) = cf_next (wt_cf w)) -> worn w (2 * cf_num (wt_cf w) + 1) w.
Proof.
  intros H1 H2 H3 H4. unfold worn, toRest. repeat split; auto; try lia.
  destruct (Z.eqb_spec (cf_left (wt_cf w)) 0); destruct (Z.eqb_spec (cf_next (wt_cf w)) r);
    destruct (Z.eqb_spec (cf_prev (wt_cf w)) r); cbn [negb andb]; lia.
Qed.

Lemma worn_calm w1 w2 v1 v2 m1 m2 : wt_slots w1 = wt_slots w2 -> wt_ph w1 = wt_ph w2 -> m1 <= 0 -> m2 <= 0 ->
  worn w1 m1 v1 -> worn w2 m2 v2 -> calm N sc r v1 v2.
Proof.
  intros S P M1 M2 (A1 & A2 & A3 & A4 & A5 & A6 & A7) (B1 & B2 & B3 & B4 & B5 & B6 & B7).
  assert (G : forall c : CF N, 1 <= cf_num c -> 0 <= cf_left c -> toRest c <= 0 -> cf_left c = 0 /\ cf_next c = r).
  { intros c Hn Hl H. unfold toRest in H. destruct (Z.eqb_spec (cf_left c) 0).
    - destruct (Z.eqb_spec (cf_next c) r); [auto|lia].
    - destruct (negb _ && _); lia. }
  destruct (G (wt_cf v1) A4 A5 ltac:(lia)) as [X1 Y1]. destruct (G (wt_cf v2) B4 B5 ltac:(lia)) as [X2 Y2].
  constructor; try congruence; auto. rewrite A6, B6; congruence.
Qed.

Lemma tired_rest w1 w2 m1 m2 q1 q2 o1 o2 p d ops : wt_slots w1 = wt_slots w2 -> wt_ph w1 = wt_ph w2 -> m1 <= 0 -> m2 <= 0 ->
  tired w1 m1 q1 o1 -> tired w2 m2 q2 o2 -> o_wf o1 = o_wf o2 -> opsAsk q1 (OpReset N p d :: ops) ->
  outputs N (run N src cfg F o1 (OpReset N p d :: ops)) = outputs N (run N src cfg F o2 (OpReset N p d :: ops)).
Proof.
  intros S P M1 M2 (v1 & V1 & I1 & _) (v2 & V2 & I2 & _) Hw [Ha Hops].
  assert (C := worn_calm w1 w2 v1 v2 m1 m2 S P M1 M2 I1 I2).
  assert (R := calm_reset N cfg F sc r o1 o2 v1 v2 p d V1 V2 C Hw Ha).
  apply (sameRes_outputs N (fun _ _ => True)). cbn [run apply].
  destruct (resetInternals N cfg F o1 p d) as [r1|], (resetInternals N cfg F o2 p d) as [r2|]; cbn [bind]; try contradiction; [|exact R].
  eapply sameRes_bind; [eapply (calm_run N src cfg F sc r); [exact R|exact Hops]|]. intros o5 o6 zs _. split; [exact I|reflexivity].
Qed.
End PUsed.
