(** * PMisuse: lemmas behind C58 *)
From Coq Require Import ZArith List Bool Reals Lia Lra.
From Flocq Require Import Core IEEE754.BinarySingleNaN.
From Verif Require Import Num Maths CrossFader Wavetable Filters Osc Spec NumFacts Laws B32 B32Facts B32Laws B32Pow WTFacts
  CFFacts OscFacts OscStep OscRun OscHist PMaths PLoop SpecF SpecO SpecK.
Import ListNotations.
Local Open Scope Z_scope.

(** ** binary32 numbers above or below a bound, infinities included *)
Section Bounds.
Local Open Scope R_scope.
Definition above (c : R) (x : f32) : Prop := x = B754_infinity false \/ fin32 x = true /\ c <= v32 x.
Definition below (c : R) (x : f32) : Prop := x = B754_infinity true \/ fin32 x = true /\ v32 x <= c.

Lemma sign_pos (x : f32) : fin32 x = true -> 0 < v32 x -> Bsign x = false.
Proof.
  destruct x as [s|s| |s m e B]; try discriminate; intros _ H; cbn in H |- *; try lra.
  destruct s; [|reflexivity]. exfalso. assert (F2R (Float radix2 (Zneg m) e) < 0) by now apply F2R_lt_0. cbn in *. lra.
Qed.
Lemma sign_neg (x : f32) : fin32 x = true -> v32 x < 0 -> Bsign x = true.
Proof.
  destruct x as [s|s| |s m e B]; try discriminate; intros _ H; cbn in H |- *; try lra.
  destruct s; [reflexivity|]. exfalso. assert (0 < F2R (Float radix2 (Zpos m) e)) by now apply F2R_gt_0. cbn in *. lra.
Qed.
Lemma inf_of (x : f32) s : B2SF x = binary_overflow 24 128 mode_NE s -> x = B754_infinity s.
Proof. destruct x as [t|t| |t m e B]; cbn; destruct s; intros H; inversion H; try reflexivity. Qed.

Notation sub := (@Bminus 24 128 p32 e32 mode_NE).
Notation add := (@Bplus 24 128 p32 e32 mode_NE).
Notation mul := (@Bmult 24 128 p32 e32 mode_NE).

Lemma sub_any (x y : f32) : fin32 x = true -> fin32 y = true ->
  fin32 (sub x y) = true /\ v32 (sub x y) = rnd32 (v32 x - v32 y) \/ sub x y = B754_infinity (Bsign x).
Proof.
  intros Hx Hy. generalize (Bminus_correct 24 128 p32 e32 mode_NE x y Hx Hy).
  change (SpecFloat.fexp 24 128) with (FLT_exp (-149) 24). simpl round_mode.
  destruct (Rlt_bool _ _); [left; tauto|]. intros [H _]. right. now apply inf_of.
Qed.
Lemma add_any (x y : f32) : fin32 x = true -> fin32 y = true ->
  fin32 (add x y) = true /\ v32 (add x y) = rnd32 (v32 x + v32 y) \/ add x y = B754_infinity (Bsign x).
Proof.
  intros Hx Hy. generalize (Bplus_correct 24 128 p32 e32 mode_NE x y Hx Hy).
  change (SpecFloat.fexp 24 128) with (FLT_exp (-149) 24). simpl round_mode.
  destruct (Rlt_bool _ _); [left; tauto|]. intros [H _]. right. now apply inf_of.
Qed.
Lemma mul_any (x y : f32) : fin32 x = true -> fin32 y = true ->
  fin32 (mul x y) = true /\ v32 (mul x y) = rnd32 (v32 x * v32 y) \/ mul x y = B754_infinity (xorb (Bsign x) (Bsign y)).
Proof.
  intros Hx Hy. generalize (Bmult_correct 24 128 p32 e32 mode_NE x y).
  change (SpecFloat.fexp 24 128) with (FLT_exp (-149) 24). simpl round_mode. rewrite Hx, Hy.
  destruct (Rlt_bool _ _); [left; tauto|]. intros H. right. now apply inf_of.
Qed.

Lemma above_sub a b x y : above a x -> fin32 y = true -> v32 y <= b -> 0 < a -> fmt32 (a - b) -> above (a - b) (sub x y).
Proof.
  intros [E|[Hx Ha]] Hy Hb P F.
  - subst x. destruct y as [s|s| |s m e B]; try discriminate; left; reflexivity.
  - destruct (sub_any x y Hx Hy) as [[H1 H2]|H].
    + right. split; [exact H1|]. rewrite H2. apply rnd32_ge; [exact F|lra].
    + left. rewrite H, sign_pos by (assumption || lra). reflexivity.
Qed.
Lemma below_sub a b x y : below a x -> fin32 y = true -> b <= v32 y -> a < 0 -> fmt32 (a - b) -> below (a - b) (sub x y).
Proof.
  intros [E|[Hx Ha]] Hy Hb P F.
  - subst x. destruct y as [s|s| |s m e B]; try discriminate; left; reflexivity.
  - destruct (sub_any x y Hx Hy) as [[H1 H2]|H].
    + right. split; [exact H1|]. rewrite H2. apply rnd32_le; [exact F|lra].
    + left. rewrite H, sign_neg by (assumption || lra). reflexivity.
Qed.
Lemma below_add a b x y : below a x -> fin32 y = true -> v32 y <= b -> a < 0 -> fmt32 (a + b) -> below (a + b) (add x y).
Proof.
  intros [E|[Hx Ha]] Hy Hb P F.
  - subst x. destruct y as [s|s| |s m e B]; try discriminate; left; reflexivity.
  - destruct (add_any x y Hx Hy) as [[H1 H2]|H].
    + right. split; [exact H1|]. rewrite H2. apply rnd32_le; [exact F|lra].
    + left. rewrite H, sign_neg by (assumption || lra). reflexivity.
Qed.
Lemma inf_mul s y : fin32 y = true -> 0 < v32 y -> mul (B754_infinity s) y = B754_infinity s.
Proof.
  intros Hy P. assert (S := sign_pos y Hy P). destruct y as [t|t| |t m e B]; try discriminate; cbn in P; [lra|].
  cbn in S. subst t. cbn. now rewrite xorb_false_r.
Qed.
Lemma above_mul a b x y : above a x -> fin32 y = true -> v32 y = b -> 0 < b -> 0 < a -> fmt32 (a * b) -> above (a * b) (mul x y).
Proof.
  intros [E|[Hx Ha]] Hy Hb P Q F.
  - subst x. left. apply inf_mul; [assumption|lra].
  - destruct (mul_any x y Hx Hy) as [[H1 H2]|H].
    + right. split; [exact H1|]. rewrite H2. apply rnd32_ge; [exact F|]. rewrite Hb. apply Rmult_le_compat_r; lra.
    + left. rewrite H, !sign_pos by (assumption || lra). reflexivity.
Qed.
Lemma below_mul a b x y : below a x -> fin32 y = true -> v32 y = b -> 0 < b -> a < 0 -> fmt32 (a * b) -> below (a * b) (mul x y).
Proof.
  intros [E|[Hx Ha]] Hy Hb P Q F.
  - subst x. left. apply inf_mul; [assumption|lra].
  - destruct (mul_any x y Hx Hy) as [[H1 H2]|H].
    + right. split; [exact H1|]. rewrite H2. apply rnd32_le; [exact F|]. rewrite Hb. apply Rmult_le_compat_r; lra.
    + left. rewrite H, (sign_neg x), (sign_pos y) by (assumption || lra). reflexivity.
Qed.

Lemma nan_sub y : sub B754_nan y = B754_nan. Proof. now destruct y. Qed.
Lemma nan_mul y : mul B754_nan y = B754_nan. Proof. now destruct y. Qed.

(** comparisons *)
Lemma le_above a b x y : above a x -> fin32 y = true -> v32 y = b -> b <= a -> Bleb y x = true.
Proof.
  intros [E|[Hx Ha]] Hy Hb P.
  - subst x. destruct y as [s|s| |s m e B]; try discriminate; destruct s || idtac; reflexivity.
  - rewrite Bleb_correct by assumption. apply Rle_bool_true. change (v32 y <= v32 x). lra.
Qed.
Lemma lt_above a b x y : above a x -> fin32 y = true -> v32 y = b -> b < a -> Bltb y x = true.
Proof.
  intros [E|[Hx Ha]] Hy Hb P.
  - subst x. destruct y as [s|s| |s m e B]; try discriminate; destruct s || idtac; reflexivity.
  - rewrite Bltb_correct by assumption. apply Rlt_bool_true. change (v32 y < v32 x). lra.
Qed.
Lemma nle_above a b x y : above a x -> fin32 y = true -> v32 y = b -> b < a -> Bleb x y = false.
Proof.
  intros [E|[Hx Ha]] Hy Hb P.
  - subst x. destruct y as [s|s| |s m e B]; try discriminate; destruct s || idtac; reflexivity.
  - rewrite Bleb_correct by assumption. apply Rle_bool_false. change (v32 y < v32 x). lra.
Qed.
Lemma nlt_above a b x y : above a x -> fin32 y = true -> v32 y = b -> b <= a -> Bltb x y = false.
Proof.
  intros [E|[Hx Ha]] Hy Hb P.
  - subst x. destruct y as [s|s| |s m e B]; try discriminate; destruct s || idtac; reflexivity.
  - rewrite Bltb_correct by assumption. apply Rlt_bool_false. change (v32 y <= v32 x). lra.
Qed.
Lemma nle_below a b x y : below a x -> fin32 y = true -> v32 y = b -> a < b -> Bleb y x = false.
Proof.
  intros [E|[Hx Ha]] Hy Hb P.
  - subst x. destruct y as [s|s| |s m e B]; try discriminate; destruct s || idtac; reflexivity.
  - rewrite Bleb_correct by assumption. apply Rle_bool_false. change (v32 x < v32 y). lra.
Qed.
Lemma nlt_below a b x y : below a x -> fin32 y = true -> v32 y = b -> a <= b -> Bltb y x = false.
Proof.
  intros [E|[Hx Ha]] Hy Hb P.
  - subst x. destruct y as [s|s| |s m e B]; try discriminate; destruct s || idtac; reflexivity.
  - rewrite Bltb_correct by assumption. apply Rlt_bool_false. change (v32 x <= v32 y). lra.
Qed.
Lemma lt_below a b x y : below a x -> fin32 y = true -> v32 y = b -> a < b -> Bltb x y = true.
Proof.
  intros [E|[Hx Ha]] Hy Hb P.
  - subst x. destruct y as [s|s| |s m e B]; try discriminate; destruct s || idtac; reflexivity.
  - rewrite Bltb_correct by assumption. apply Rlt_bool_true. change (v32 x < v32 y). lra.
Qed.
End Bounds.

(** ** what a sample that succeeds has done, any number system *)
Section Needs.
Variable N : Num.
Variable cfg : Cfg.
Variable F : Filt N.
Notation dbg := (dbg cfg).

Lemma slot_len K nw w i mi m : WTok K nw w -> wt_m N w i mi = Ok m -> 0 <= mi < K - 1 /\ zlen m = 2 ^ (K - mi).
Proof.
  intros W H. unfold wt_m in H. apply bind_ok in H. destruct H as (s & E & H). inversion H; subst m. clear H.
  unfold wt_slot in E. apply bind_ok in E. destruct E as (ws & E1 & E2).
  assert (R := znth_range _ _ _ _ E2). rewrite (wo_num _ _ _ _ W _ _ E1) in R.
  assert (K2 := wo_K _ _ _ _ W).
  destruct (slotAt_of N K mi s ltac:(lia) (wo_slot _ _ _ _ W _ _ _ _ E1 E2)) as (ys & L & S).
  split; [exact R|]. destruct S as [[L1 _ _ _] _ _ _ _ _]. now rewrite L1.
Qed.

Lemma WTok_slots K nw (w w' : WT N) : WTok K nw w -> wt_slots w' = wt_slots w -> wt_ph w' = wt_ph w ->
  zlen (cf_scale (wt_cf w')) = K - 1 -> WTok K nw w'.
Proof. intros [A1 A2 A3 A4 A5 A6 A7 A8] E1 E2 E3. constructor; rewrite ?E1, ?E2; assumption. Qed.

(** both sample functions: the reduced phase times the length of an entry converts to int, and the
    resulting index is within that entry *)
Definition landed (round : T N -> res Z) (off : Z) (p : T N) : Prop :=
  exists phred k j jo jr, reduceT N dbg p (t1 N) = Ok phred /\ 2 <= k <= 18 /\
    round (tmul N phred (tofZ N (2 ^ k))) = Ok j /\ chk (j - off) = Ok jo /\
    reduceZ dbg jo (2 ^ k) = Ok jr /\ 0 <= jr < 2 ^ k.

Lemma I0_in K nw w wf arr mi a b pd x y r : WTok K nw w -> computeI0 N cfg F w wf arr mi a b pd x y = Ok r ->
  0 <= mi < K - 1 /\ 0 <= a < 2 ^ (K - mi) /\ 0 <= b < 2 ^ (K - mi).
Proof.
  intros W H. unfold computeI0 in H. apply bind_ok in H. destruct H as (m & Em & H).
  apply bind_ok in H. destruct H as (q & Eq & H). apply bind_ok in H. destruct H as (mp & E1 & H).
  apply bind_ok in H. destruct H as (qp & _ & H). apply bind_ok in H. destruct H as (mn & E2 & _).
  destruct (slot_len _ _ _ _ _ _ W Em) as (R & L). apply znth_range in E1, E2. rewrite L in *. auto.
Qed.

Lemma find_scale w d w' m : wt_findMipMapIndices N dbg w d = Ok (w', m) ->
  wt_slots w' = wt_slots w /\ wt_ph w' = wt_ph w /\ cf_scale (wt_cf w') = cf_scale (wt_cf w).
Proof.
  unfold wt_findMipMapIndices. intros H. apply bind_ok in H. destruct H as ([c mm] & E & H).
  inversion H; subst. repeat split. cbn [wt_cf]. unfold newIndices in E. apply bind_ok in E. destruct E as (i & _ & E).
  destruct (negb (cf_left (wt_cf w) =? 0)).
  - apply bind_ok in E. destruct E as ([] & _ & E). apply bind_ok in E. destruct E as (l & _ & E).
    inversion E; subst. destruct (l =? 0); cbn [set_prev set_left cf_scale]; destruct (negb _ && negb _); reflexivity.
  - destruct (i =? _); [apply bind_ok in E; destruct E as ([] & _ & E)|]; inversion E; subst; reflexivity.
Qed.

Lemma fwd_needs K nw w o p pd r : WTok K nw w -> processSampleFwd N cfg F o w p pd = Ok r ->
  landed (mfloor N) 0 p.
Proof.
  intros W H. unfold processSampleFwd in H. apply bind_ok in H. destruct H as (x & Ex & H).
  apply bind_ok in H. destruct H as (a & Ea & _).
  unfold idxFwd in Ex. apply bind_ok in Ex. destruct Ex as ([] & _ & Ex).
  apply bind_ok in Ex. destruct Ex as ([w' [[[mi wg] mu] wgu]] & Ef & Ex).
  destruct (find_scale _ _ _ _ Ef) as (F1 & F2 & F3).
  assert (W' : WTok K nw w') by (apply (WTok_slots K nw w); auto; rewrite F3; apply (wo_scale _ _ _ _ W)).
  apply bind_ok in Ex. destruct Ex as (ph & _ & Ex). apply bind_ok in Ex. destruct Ex as (phred & Er & Ex).
  apply bind_ok in Ex. destruct Ex as (len & El & Ex). apply bind_ok in Ex. destruct Ex as (j & _ & Ex).
  apply bind_ok in Ex. destruct Ex as (pj & _ & Ex). apply bind_ok in Ex. destruct Ex as (j' & Ej & Ex).
  apply bind_ok in Ex. destruct Ex as (jm & _ & Ex). apply bind_ok in Ex. destruct Ex as (jn & _ & Ex).
  apply bind_ok in Ex. destruct Ex as (jx & Ejx & Ex). inversion Ex; subst x. clear Ex.
  cbn [ix_wt ix_mi ix_jmin_red ix_jmax_p_red ix_phred] in Ea.
  unfold computeFwdI in Ea. apply bind_ok in Ea. destruct Ea as (a1 & Ea & _).
  destruct (I0_in _ _ _ _ _ _ _ _ _ _ _ _ W' Ea) as (R & _ & B).
  unfold wt_waveformLen in El. apply bind_ok in El. destruct El as (m & Em & El). inversion El; subst len. clear El.
  destruct (slot_len _ _ _ _ _ _ W' Em) as (_ & L). rewrite L in *.
  assert (K2 := wo_K _ _ _ _ W). exists phred, (K - mi), j', j', jx.
  split; [exact Er|]. split; [lia|]. split; [exact Ej|]. split; [|split; [exact Ejx|exact B]].
  rewrite Z.sub_0_r. unfold mfloor in Ej. apply bind_ok in Ej. destruct Ej as (iv & Ec & Ej).
  unfold tcast in Ec. destruct (ttrunc N _) as [z|]; [|discriminate]. destruct (in_int z) eqn:Hi; [|discriminate]. inversion Ec; subst iv.
  destruct (tle N _ _); [inversion Ej; subst j'; unfold chk; now rewrite Hi|].
  unfold chk in *. destruct (in_int (z - 1)) eqn:Hi'; [|discriminate]. inversion Ej; subst j'. now rewrite Hi'.
Qed.

Lemma bwd_needs K nw w o p pd r : WTok K nw w -> processSampleBwd N cfg F o w p pd = Ok r ->
  landed (mceil N) 1 p.
Proof.
  intros W H. unfold processSampleBwd in H. apply bind_ok in H. destruct H as (x & Ex & H).
  apply bind_ok in H. destruct H as (a & Ea & _).
  unfold idxBwd in Ex. apply bind_ok in Ex. destruct Ex as ([] & _ & Ex).
  apply bind_ok in Ex. destruct Ex as ([w' [[[mi wg] mu] wgu]] & Ef & Ex).
  destruct (find_scale _ _ _ _ Ef) as (F1 & F2 & F3).
  assert (W' : WTok K nw w') by (apply (WTok_slots K nw w); auto; rewrite F3; apply (wo_scale _ _ _ _ W)).
  apply bind_ok in Ex. destruct Ex as (ph & _ & Ex). apply bind_ok in Ex. destruct Ex as (phred & Er & Ex).
  apply bind_ok in Ex. destruct Ex as (len & El & Ex). apply bind_ok in Ex. destruct Ex as (j & _ & Ex).
  apply bind_ok in Ex. destruct Ex as (pj & _ & Ex). apply bind_ok in Ex. destruct Ex as (j' & Ej & Ex).
  apply bind_ok in Ex. destruct Ex as (jm & Ejm & Ex). apply bind_ok in Ex. destruct Ex as (jn & Ejn & Ex).
  apply bind_ok in Ex. destruct Ex as (jx & _ & Ex). inversion Ex; subst x. clear Ex.
  cbn [ix_wt ix_mi ix_jmin ix_jmin_red ix_jmax_p_red ix_phred] in Ea.
  unfold computeBwdI in Ea. apply bind_ok in Ea. destruct Ea as ([] & _ & Ea).
  apply bind_ok in Ea. destruct Ea as (a1 & Ea & _).
  destruct (I0_in _ _ _ _ _ _ _ _ _ _ _ _ W' Ea) as (R & _ & B).
  unfold wt_waveformLen in El. apply bind_ok in El. destruct El as (m & Em & El). inversion El; subst len. clear El.
  destruct (slot_len _ _ _ _ _ _ W' Em) as (_ & L). rewrite L in *.
  assert (K2 := wo_K _ _ _ _ W). exists phred, (K - mi), j', jm, jn.
  split; [exact Er|]. split; [lia|]. split; [exact Ej|]. split; [exact Ejm|]. split; [exact Ejn|exact B].
Qed.

(** ** a waveform that is not in the table *)
Lemma bad_wf dir o w p r k : processOne N cfg F dir o p = Ok r -> o_wt o = Some w ->
  ~ (0 <= k < wt_numWaveforms N w) -> processOne N cfg F dir (set_wf N o k) p = Fault OutOfBounds.
Proof.
  intros H Ew Hk.
  assert (M : forall x, wt_slots (ix_wt N x) = wt_slots w -> forall mi, wt_m N (ix_wt N x) k mi = Fault OutOfBounds).
  { intros x E mi. unfold wt_m, wt_slot. rewrite E, znth_fault by exact Hk. reflexivity. }
  assert (FW : forall pd, processSampleFwd N cfg F o w p pd = Ok r ->
    processSampleFwd N cfg F (set_wf N o k) w p pd = Fault OutOfBounds).
  { intros pd E. unfold processSampleFwd in *. change (idxFwd N cfg (set_wf N o k) w p pd) with (idxFwd N cfg o w p pd).
    apply bind_ok in E. destruct E as (x & Ex & E). rewrite Ex. cbn [bind].
    unfold computeFwdI, computeI0. cbn [set_wf o_wf]. rewrite M by apply (idxFwd_keeps N cfg _ _ _ _ _ Ex). reflexivity. }
  assert (BW : forall pd, processSampleBwd N cfg F o w p pd = Ok r ->
    processSampleBwd N cfg F (set_wf N o k) w p pd = Fault OutOfBounds).
  { intros pd E. unfold processSampleBwd in *. change (idxBwd N cfg (set_wf N o k) w p pd) with (idxBwd N cfg o w p pd).
    apply bind_ok in E. destruct E as (x & Ex & E). rewrite Ex. cbn [bind].
    apply bind_ok in E. destruct E as (a & Ea & _). unfold computeBwdI in *.
    apply bind_ok in Ea. destruct Ea as ([] & Ea & _). rewrite Ea. cbn [bind].
    unfold computeI0. cbn [set_wf o_wf]. rewrite M by apply (idxBwd_keeps N cfg _ _ _ _ _ Ex). reflexivity. }
  unfold processOne in *. cbn [set_wf o_wt o_phase]. rewrite Ew in *. destruct dir.
  - apply bind_ok in H. destruct H as ([] & E & H). rewrite E. cbn [bind]. now apply FW.
  - destruct (tle N _ _); [now apply FW|now apply BW].
Qed.
End Needs.

(** ** phases far away *)
Section Bad.
Variable lm : Libm.
Variable cfg : Cfg.
Variable F : Filt (B32 lm).
Notation N := (B32 lm).
Notation dbg := (dbg cfg).

Lemma one32 : fin32 (t1 N) = true /\ v32 (t1 N) = 1%R.
Proof. exact (ofZ32 1 ltac:(cbn; lia)). Qed.
Lemma zero32 : fin32 (t0 N) = true /\ v32 (t0 N) = 0%R.
Proof. exact (ofZ32 0 ltac:(cbn; lia)). Qed.

Definition gap : R := (IZR (2 ^ 22 + 1) * bpow radix2 (-22))%R.   (* 1 + 2^-22 *)
Lemma gap_val : (1 < gap)%R.
Proof.
  unfold gap. rewrite plus_IZR, Rmult_plus_distr_r. rewrite <- (bpow_Z 22) by lia. rewrite <- bpow_plus.
  change (bpow radix2 (22 + -22)) with 1%R. assert (X := bpow_gt_0 radix2 (-22)). lra.
Qed.

Lemma bad_cases (p : f32) : badPhase p -> p = B754_nan \/ above 3 p \/ below (- gap - 1) p.
Proof.
  intros H. destruct p as [s|s| |s m e B] eqn:E.
  - destruct H as [H|[H|H]]; [discriminate| |]; cbn in H; lra.
  - destruct s; [right; right|right; left]; left; reflexivity.
  - now left.
  - rewrite <- E in *. assert (Hf : fin32 p = true) by now subst p.
    destruct H as [H|[H|H]].
    + subst p. discriminate.
    + right; left. right. auto.
    + right; right. right. split; [exact Hf|].
      assert (X : (succ radix2 (FLT_exp (-149) 24) (bpow radix2 1) <= - B2R p)%R).
      { apply succ_le_lt; [auto with typeclass_instances|apply fmt32_bpow; lia|apply generic_format_opp, fmt32_B2R|].
        change (bpow radix2 1) with 2%R. lra. }
      rewrite succ_eq_pos in X by apply bpow_ge_0. rewrite ulp_bpow in X. change (FLT_exp (-149) 24 (1 + 1)) with (-22) in X.
      change (bpow radix2 1) with 2%R in X. change (v32 p) with (B2R p).
      unfold gap. rewrite plus_IZR, Rmult_plus_distr_r. rewrite <- (bpow_Z 22) by lia. rewrite <- bpow_plus.
      change (bpow radix2 (22 + -22)) with 1%R. lra.
Qed.

Lemma reduce_inv (p q : f32) : reduceT N dbg p (t1 N) = Ok q ->
  q = if tle N (t1 N) p then tsub N p (t1 N) else if tlt N p (t0 N) then tadd N p (t1 N) else p.
Proof.
  unfold reduceT. intros H. apply bind_ok in H. destruct H as ([] & _ & H). apply bind_ok in H. destruct H as ([] & _ & H).
  destruct (tle N (t1 N) p); [congruence|]. destruct (tlt N p (t0 N)); congruence.
Qed.

Lemma reduce_bad (p q : f32) : reduceT N dbg p (t1 N) = Ok q ->
  (p = B754_nan -> q = B754_nan) /\ (above 3 p -> above 2 q) /\ (below (- gap - 1) p -> below (- gap) q).
Proof.
  intros H. apply reduce_inv in H.
  change (q = if Bleb (t1 N : f32) p then @Bminus 24 128 p32 e32 mode_NE p (t1 N)
              else if Bltb p (t0 N : f32) then @Bplus 24 128 p32 e32 mode_NE p (t1 N) else p) in H.
  destruct one32 as (O1 & O2). destruct zero32 as (Z1 & Z2). assert (G := gap_val).
  split; [|split].
  - intros ->. exact H.
  - intros A. rewrite (le_above 3 1 p (t1 N) A O1 O2 ltac:(lra)) in H. subst q.
    replace 2%R with (3 - 1)%R by lra. apply above_sub; auto; try lra. replace (3 - 1)%R with 2%R by lra. apply (fmt32_Z 2). cbn. lia.
  - intros A. rewrite (nle_below (- gap - 1) 1 p (t1 N) A O1 O2 ltac:(lra)) in H.
    rewrite (lt_below (- gap - 1) 0 p (t0 N) A Z1 Z2 ltac:(lra)) in H. subst q.
    replace (- gap)%R with (- gap - 1 + 1)%R by lra. apply below_add; auto; try lra.
    replace (- gap - 1 + 1)%R with (- gap)%R by lra. apply generic_format_opp. apply fmt32_Ze; cbn; lia.
Qed.

Lemma pow_fl k : 2 <= k <= 18 -> fin32 (tofZ N (2 ^ k)) = true /\ v32 (tofZ N (2 ^ k)) = IZR (2 ^ k).
Proof.
  intros H. apply ofZ32. rewrite Z.abs_eq by (apply Z.pow_nonneg; lia). apply Z.pow_le_mono_r; lia.
Qed.

Lemma round_ok (x : f32) j : mfloor N x = Ok j \/ mceil N x = Ok j ->
  fin32 x = true /\ (- IZR (2 ^ 31) <= B2R x < IZR (2 ^ 31))%R.
Proof.
  intros H.
  destruct (is_finite x) eqn:E; [|exfalso; unfold mfloor, mceil in H; rewrite (cast_bad lm x) in H by auto; cbn in H; destruct H; discriminate].
  split; [reflexivity|].
  destruct (Rlt_dec (B2R x) (- IZR (2 ^ 31))) as [A|A]; [exfalso; unfold mfloor, mceil in H; rewrite (cast_bad lm x) in H by auto; cbn in H; destruct H; discriminate|].
  destruct (Rle_dec (IZR (2 ^ 31)) (B2R x)) as [B|B]; [exfalso; unfold mfloor, mceil in H; rewrite (cast_bad lm x) in H by auto; cbn in H; destruct H; discriminate|].
  lra.
Qed.
Lemma floor_val (x : f32) j : mfloor N x = Ok j -> j = Zfloor (B2R x).
Proof. intros H. destruct (round_ok x j (or_introl H)) as (A & B). rewrite (floor_ok lm x A B) in H. congruence. Qed.
Lemma ceil_val (x : f32) j : mceil N x = Ok j -> j = Zceil (B2R x).
Proof. intros H. destruct (round_ok x j (or_intror H)) as (A & B). rewrite (ceil_ok lm x A B) in H. congruence. Qed.

Lemma fmt_scale k a : 2 <= k <= 18 -> fmt32 a -> (a = 2 \/ a = - gap)%R -> fmt32 (a * IZR (2 ^ k)).
Proof.
  intros Hk _ [->| ->].
  - rewrite <- bpow_Z by lia. apply (fmt32_Ze 2 k); cbn; lia.
  - unfold gap. replace (- (IZR (2 ^ 22 + 1) * bpow radix2 (-22)) * IZR (2 ^ k))%R with (- (IZR (2 ^ 22 + 1) * bpow radix2 (k - 22)))%R.
    + apply generic_format_opp. apply fmt32_Ze; cbn; lia.
    + rewrite <- (bpow_Z k) by lia. change (k - 22) with (k + (-22)). rewrite bpow_plus.
      generalize (IZR (2 ^ 22 + 1)) (bpow radix2 (-22)) (bpow radix2 k). intros. ring.
Qed.

Lemma not_landed round off (p : f32) :
  (round = mfloor N /\ off = 0 /\ badPhase p) \/ (round = mceil N /\ off = 1 /\ (p = B754_nan \/ below (- gap - 1) p)) ->
  ~ landed N cfg round off p.
Proof.
  intros HR (phred & k & j & jo & jr & Er & Hk & Ej & Eo & Ez & Rg).
  destruct (reduce_bad p phred Er) as (Q1 & Q2 & Q3). destruct (pow_fl k Hk) as (P1 & P2).
  assert (Pp : (0 < IZR (2 ^ k))%R) by (apply IZR_lt, Z.pow_pos_nonneg; lia). assert (G := gap_val).
  assert (C : p = B754_nan \/ above 3 p /\ round = mfloor N /\ off = 0 \/ below (- gap - 1) p).
  { destruct HR as [(-> & -> & B)|(-> & -> & [B|B])]; auto. destruct (bad_cases p B) as [|[|]]; auto. }
  assert (RO : fin32 (tmul N phred (tofZ N (2 ^ k))) = true).
  { refine (proj1 (round_ok _ j _)). destruct HR as [(E & _)|(E & _)]; rewrite E in Ej; auto. }
  change (fin32 (@Bmult 24 128 p32 e32 mode_NE phred (tofZ N (2 ^ k))) = true) in RO.
  unfold reduceZ in Ez. apply bind_ok in Ez. destruct Ez as ([] & _ & Ez). apply bind_ok in Ez. destruct Ez as ([] & _ & Ez).
  unfold chk in Eo. destruct (in_int (j - off)); [|discriminate]. inversion Eo; subst jo. clear Eo.
  destruct C as [->|[(A & -> & ->)|A]].
  - rewrite (Q1 eq_refl) in RO. rewrite nan_mul in RO. discriminate.
  - specialize (Q2 A). apply floor_val in Ej.
    destruct (above_mul 2 (IZR (2 ^ k)) phred (tofZ N (2 ^ k)) Q2 P1 P2 Pp ltac:(lra)
      ltac:(apply fmt_scale; auto; apply (fmt32_Z 2); cbn; lia)) as [X|[_ X]].
    { rewrite X in RO. discriminate. }
    assert (2 * 2 ^ k <= j).
    { subst j. rewrite <- (Zfloor_IZR (2 * 2 ^ k)). apply Zfloor_le. rewrite mult_IZR. exact X. }
    destruct (Z.leb_spec (2 ^ k) (j - 0)); [|lia]. unfold chk in Ez. destruct (in_int _); [|discriminate]. inversion Ez. lia.
  - specialize (Q3 A).
    destruct (below_mul (- gap) (IZR (2 ^ k)) phred (tofZ N (2 ^ k)) Q3 P1 P2 Pp ltac:(lra)
      ltac:(apply fmt_scale; auto; apply generic_format_opp; apply fmt32_Ze; cbn; lia)) as [X|[_ X]].
    { rewrite X in RO. discriminate. }
    assert (V : (B2R (tmul N phred (tofZ N (2 ^ k)) : f32) < IZR (- 2 ^ k))%R).
    { eapply Rle_lt_trans; [exact X|]. rewrite opp_IZR. assert (0 < (gap - 1) * IZR (2 ^ k))%R by (apply Rmult_lt_0_compat; lra). lra. }
    assert (j - off < - 2 ^ k).
    { destruct HR as [(E & -> & _)|(E & -> & _)]; rewrite E in Ej.
      - apply floor_val in Ej. subst j. apply lt_IZR. rewrite Z.sub_0_r. eapply Rle_lt_trans; [apply Zfloor_lb|exact V].
      - apply ceil_val in Ej. assert (j <= - 2 ^ k); [|lia]. subst j. rewrite <- (Zceil_IZR (- 2 ^ k)). apply Zceil_le. lra. }
    assert (0 < 2 ^ k) by (apply Z.pow_pos_nonneg; lia).
    destruct (Z.leb_spec (2 ^ k) (j - off)); [lia|]. destruct (Z.ltb_spec (j - off) 0); [|lia].
    unfold chk in Ez. destruct (in_int _); [|discriminate]. inversion Ez. lia.
Qed.

Lemma half32 : fin32 (tfrac N 1 2) = true /\ v32 (tfrac N 1 2) = (/ 2)%R.
Proof. split; [reflexivity|]. vm_compute. lra. Qed.
Lemma mhalf32 : fin32 (tfrac N (-1) 2) = true /\ v32 (tfrac N (-1) 2) = (- / 2)%R.
Proof. split; [reflexivity|]. vm_compute. lra. Qed.

Notation sub := (@Bminus 24 128 p32 e32 mode_NE).
Notation add := (@Bplus 24 128 p32 e32 mode_NE).

Lemma first_step (q p : f32) : phase01 q -> badPhase p ->
  p = B754_nan /\ sub p q = B754_nan \/ above 3 p /\ above 2 (sub p q) \/
  below (- gap - 1) p /\ below (- gap - 1) (sub p q).
Proof.
  intros [Q1 Q2] B. assert (G := gap_val). destruct (bad_cases p B) as [->|[A|A]].
  - left. split; [reflexivity|apply nan_sub].
  - right; left. split; [exact A|]. replace 2%R with (3 - 1)%R by lra. apply above_sub; auto; try lra.
    replace (3 - 1)%R with 2%R by lra. apply (fmt32_Z 2). cbn; lia.
  - right; right. split; [exact A|]. replace (- gap - 1)%R with (- gap - 1 - 0)%R by lra. apply below_sub; auto; try lra.
    replace (- gap - 1 - 0)%R with (- (IZR (2 ^ 23 + 1) * bpow radix2 (-22)))%R.
      * apply generic_format_opp. apply fmt32_Ze; cbn; lia.
      * unfold gap. rewrite !plus_IZR, !Rmult_plus_distr_r. rewrite <- (bpow_Z 22), <- (bpow_Z 23) by lia. rewrite <- !bpow_plus.
        change (bpow radix2 (22 + -22)) with 1%R. change (bpow radix2 (23 + -22)) with 2%R. lra.
Qed.

Lemma fmt_gap : fmt32 (- gap).
Proof. apply generic_format_opp. apply fmt32_Ze; cbn; lia. Qed.

Lemma step_bi (q p : f32) : phase01 q -> badPhase p ->
  let pd := stepBi N p q : f32 in
  p = B754_nan /\ pd = B754_nan \/ above 3 p /\ above 1 pd \/ below (- gap - 1) p /\ below (- gap) pd.
Proof.
  intros Q B pd. assert (G := gap_val). destruct one32 as (O1 & O2). destruct half32 as (H1 & H2). destruct mhalf32 as (M1 & M2).
  assert (E : pd = if Bltb (sub p q) (tfrac N (-1) 2) then add (sub p q) (t1 N)
                   else if Bltb (tfrac N 1 2) (sub p q) then sub (sub p q) (t1 N) else sub p q) by reflexivity.
  destruct (first_step q p Q B) as [[A1 A2]|[[A1 A2]|[A1 A2]]].
  - left. split; [exact A1|]. rewrite E, A2. reflexivity.
  - right; left. split; [exact A1|]. rewrite E.
    rewrite (nlt_above 2 (- / 2) _ _ A2 M1 M2 ltac:(lra)), (lt_above 2 (/ 2) _ _ A2 H1 H2 ltac:(lra)).
    replace 1%R with (2 - 1)%R by lra. apply above_sub; auto; try lra. replace (2 - 1)%R with 1%R by lra. apply (fmt32_Z 1). cbn; lia.
  - right; right. split; [exact A1|]. rewrite E.
    rewrite (lt_below (- gap - 1) (- / 2) _ _ A2 M1 M2 ltac:(lra)).
    replace (- gap)%R with (- gap - 1 + 1)%R by lra. apply below_add; auto; try lra.
    replace (- gap - 1 + 1)%R with (- gap)%R by lra. apply fmt_gap.
Qed.

Lemma step_fwd (q p : f32) : phase01 q -> badPhase p ->
  let pd := stepFwd N p q : f32 in
  p = B754_nan /\ pd = B754_nan \/ above 3 p /\ above 2 pd \/ below (- gap - 1) p /\ below (- gap) pd.
Proof.
  intros Q B pd. assert (G := gap_val). destruct one32 as (O1 & O2). destruct zero32 as (Z1 & Z2).
  assert (E : pd = if Bltb (sub p q) (t0 N) then add (sub p q) (t1 N) else sub p q) by reflexivity.
  destruct (first_step q p Q B) as [[A1 A2]|[[A1 A2]|[A1 A2]]].
  - left. split; [exact A1|]. rewrite E, A2. reflexivity.
  - right; left. split; [exact A1|]. rewrite E. now rewrite (nlt_above 2 0 _ _ A2 Z1 Z2 ltac:(lra)).
  - right; right. split; [exact A1|]. rewrite E.
    rewrite (lt_below (- gap - 1) 0 _ _ A2 Z1 Z2 ltac:(lra)).
    replace (- gap)%R with (- gap - 1 + 1)%R by lra. apply below_add; auto; try lra.
    replace (- gap - 1 + 1)%R with (- gap)%R by lra. apply fmt_gap.
Qed.

Lemma bad_one K nw (o : Osc N) w dir (p : f32) : o_wt o = Some w -> WTok K nw w -> phase01 (o_phase o) -> badPhase p ->
  exists f, processOne N cfg F dir o p = Fault f /\ (dbg = true -> f = AssertFail).
Proof.
  intros Ew W Q B. assert (G := gap_val).
  assert (NO : forall r, processOne N cfg F dir o p <> Ok r).
  { intros r H. unfold processOne in H. rewrite Ew in H. destruct dir.
    - apply bind_ok in H. destruct H as ([] & _ & H).
      apply (not_landed (mfloor N) 0 p); [left; auto|]. exact (fwd_needs N cfg F _ _ _ _ _ _ _ W H).
    - destruct (step_bi (o_phase o) p Q B) as [[A1 A2]|[[A1 A2]|[A1 A2]]].
      + change (stepBi N p (o_phase o)) with (stepBi N p (o_phase o) : f32) in H. rewrite A2 in H.
        apply (not_landed (mceil N) 1 p); [right; auto|]. exact (bwd_needs N cfg F _ _ _ _ _ _ _ W H).
      + destruct (tle N _ _) eqn:E.
        * apply (not_landed (mfloor N) 0 p); [left; auto|]. exact (fwd_needs N cfg F _ _ _ _ _ _ _ W H).
        * exfalso. assert (X := le_above 1 0 _ _ A2 (proj1 zero32) (proj2 zero32) ltac:(lra)).
          change (tle N (t0 N) (stepBi N p (o_phase o)) = true) in X. rewrite X in E. discriminate.
      + destruct (tle N _ _) eqn:E.
        * exfalso. assert (X := nle_below (- gap) 0 _ _ A2 (proj1 zero32) (proj2 zero32) ltac:(lra)).
          change (tle N (t0 N) (stepBi N p (o_phase o)) = false) in X. rewrite X in E. discriminate.
        * apply (not_landed (mceil N) 1 p); [right; auto|]. exact (bwd_needs N cfg F _ _ _ _ _ _ _ W H). }
  destruct (processOne N cfg F dir o p) as [r|f] eqn:E; [exfalso; exact (NO r eq_refl)|].
  exists f. split; [reflexivity|]. intros D. unfold processOne in E. rewrite Ew in E. destruct dir.
  - assert (A : tlt N (t0 N) (stepFwd N p (o_phase o)) && tle N (stepFwd N p (o_phase o)) (tfrac N 1 2) = false).
    { destruct (step_fwd (o_phase o) p Q B) as [[_ A]|[[_ A]|[_ A]]].
      - change (stepFwd N p (o_phase o)) with (stepFwd N p (o_phase o) : f32). rewrite A. reflexivity.
      - apply andb_false_iff. right. exact (nle_above 2 (/ 2) _ _ A (proj1 half32) (proj2 half32) ltac:(lra)).
      - apply andb_false_iff. left. exact (nlt_below (- gap) 0 _ _ A (proj1 zero32) (proj2 zero32) ltac:(lra)). }
    unfold assert_ in E. rewrite D, A in E. cbn in E. congruence.
  - destruct (step_bi (o_phase o) p Q B) as [[_ A]|[[_ A]|[_ A]]].
    + change (stepBi N p (o_phase o)) with (stepBi N p (o_phase o) : f32) in E. rewrite A in E.
      unfold processSampleBwd, idxBwd, assert_ in E. rewrite D in E. cbn in E. congruence.
    + assert (X := le_above 1 0 _ _ A (proj1 zero32) (proj2 zero32) ltac:(lra)).
      change (tle N (t0 N) (stepBi N p (o_phase o)) = true) in X. rewrite X in E.
      assert (Y := nle_above 1 (/ 2) _ _ A (proj1 half32) (proj2 half32) ltac:(lra)).
      change (tle N (stepBi N p (o_phase o)) (tfrac N 1 2) = false) in Y.
      unfold processSampleFwd, idxFwd, assert_ in E. rewrite D, Y, andb_false_r in E. cbn in E. congruence.
    + assert (X := nle_below (- gap) 0 _ _ A (proj1 zero32) (proj2 zero32) ltac:(lra)).
      change (tle N (t0 N) (stepBi N p (o_phase o)) = false) in X. rewrite X in E.
      assert (Y := nle_below (- gap) (- / 2) _ _ A (proj1 mhalf32) (proj2 mhalf32) ltac:(lra)).
      change (tle N (tfrac N (-1) 2) (stepBi N p (o_phase o)) = false) in Y.
      unfold processSampleBwd, idxBwd, assert_ in E. rewrite D, Y, andb_false_r in E. cbn in E. congruence.
Qed.

(** ** a debug build, phases outside [-1,2] *)
Lemma reduce_outside (p : f32) : dbg = true -> outsidePhase p -> reduceT N dbg p (t1 N) = Fault AssertFail.
Proof.
  intros D B.
  assert (A : tle N p (tmul N (t2 N) (t1 N)) && tle N (tsub N (t0 N) (t1 N)) p = false).
  { assert (T2 : fin32 (tmul N (t2 N) (t1 N)) = true /\ v32 (tmul N (t2 N) (t1 N)) = 2%R) by (split; [reflexivity|vm_compute; lra]).
    assert (TM : fin32 (tsub N (t0 N) (t1 N)) = true /\ v32 (tsub N (t0 N) (t1 N)) = (-1)%R) by (split; [reflexivity|vm_compute; lra]).
    destruct (fin32 p) eqn:Hf.
    - destruct B as [B|[B|B]]; [change (fin32 p = false) in B; congruence| |]; apply andb_false_iff.
      + left. change (Bleb p (tmul N (t2 N) (t1 N)) = false). rewrite Bleb_correct by tauto.
        apply Rle_bool_false. rewrite (proj2 T2). exact B.
      + right. change (Bleb (tsub N (t0 N) (t1 N)) p = false). rewrite Bleb_correct by tauto.
        apply Rle_bool_false. rewrite (proj2 TM). exact B.
    - destruct p as [s|s| |s m e Bd]; try discriminate; [|reflexivity]. destruct s; reflexivity. }
  unfold reduceT, assert_. rewrite D, A. cbn. reflexivity.
Qed.

Lemma outside_one K nw (o : Osc N) w dir (p : f32) : o_wt o = Some w -> WTok K nw w -> CFok N (wt_cf w) ->
  dbg = true -> outsidePhase p -> processOne N cfg F dir o p = Fault AssertFail.
Proof.
  intros Ew W HC D B. assert (ER := reduce_outside p D B).
  assert (FW : forall pd, processSampleFwd N cfg F o w p pd = Fault AssertFail).
  { intros pd. unfold processSampleFwd, idxFwd. destruct (tlt N (t0 N) pd && tle N pd (tfrac N 1 2)) eqn:A.
    - apply andb_true_iff in A. destruct A as (A & _).
      destruct (wtNext_ok N cfg K nw w pd W HC (fun _ => A)) as (E & W1 & _ & _ & _ & M1 & _).
      unfold assert_ at 1. rewrite D. cbn [negb andb bind]. rewrite <- D, E. cbn [bind]. rewrite mmiOf_eta.
      unfold wt_phases. rewrite (wo_ph _ _ _ _ W1 _ M1). cbn [bind]. rewrite ER. reflexivity.
    - unfold assert_. rewrite D. reflexivity. }
  assert (BW : forall pd, processSampleBwd N cfg F o w p pd = Fault AssertFail).
  { intros pd. unfold processSampleBwd, idxBwd. destruct (tlt N pd (t0 N) && tle N (tfrac N (-1) 2) pd) eqn:A.
    - apply andb_true_iff in A. destruct A as (A & _).
      assert (A' : tlt N (t0 N) (tabs N pd) = true).
      { change (Bltb (pd : f32) (t0 N) = true) in A. change (Bltb (t0 N) (Babs (pd : f32)) = true).
        destruct pd as [s|s| |s m e Bd]; try destruct s; try discriminate; reflexivity. }
      destruct (wtNext_ok N cfg K nw w (tabs N pd) W HC (fun _ => A')) as (E & W1 & _ & _ & _ & M1 & _).
      unfold assert_ at 1. rewrite D. cbn [negb andb bind]. rewrite <- D, E. cbn [bind]. rewrite mmiOf_eta.
      unfold wt_phases. rewrite (wo_ph _ _ _ _ W1 _ M1). cbn [bind]. rewrite ER. reflexivity.
    - unfold assert_. rewrite D. reflexivity. }
  unfold processOne. rewrite Ew. destruct dir.
  - unfold assert_. rewrite D. cbn [andb]. destruct (negb _); [reflexivity|]. cbn [bind]. apply FW.
  - destruct (tle N _ _); auto.
Qed.

(** ** starting from such a phase *)
Lemma nonfin_sub (x y : f32) : fin32 x = false -> fin32 (sub x y) = false.
Proof. destruct x as [s|s| |s m e B]; try discriminate; destruct y as [t|t| |t m' e' B']; intros _; try reflexivity; cbn; destruct (Bool.eqb _ _); reflexivity. Qed.
Lemma nonfin_add (x y : f32) : fin32 x = false -> fin32 (add x y) = false.
Proof. destruct x as [s|s| |s m e B]; try discriminate; destruct y as [t|t| |t m' e' B']; intros _; try reflexivity; cbn; destruct (Bool.eqb _ _); reflexivity. Qed.
Lemma nonfin_mul (x y : f32) : fin32 x = false -> fin32 (@Bmult 24 128 p32 e32 mode_NE x y) = false.
Proof. destruct x as [s|s| |s m e B]; try discriminate; destruct y as [t|t| |t m' e' B']; intros _; reflexivity. Qed.

Lemma bad_reset (o : Osc N) w (p d : f32) : o_wt o = Some w ->
  (dbg = true -> badPhase p -> resetInternals N cfg F o p d = Fault AssertFail) /\
  (is_finite p = false -> exists f, resetInternals N cfg F o p d = Fault f).
Proof.
  intros Ew. assert (G := gap_val). destruct one32 as (O1 & O2). split.
  - intros D B. unfold resetInternals. rewrite Ew. unfold assert_ at 1. cbn [is_some negb]. rewrite andb_false_r. cbn [bind].
    assert (A : tle N p (tmul N (t2 N) (t1 N)) && tle N (tsub N (t0 N) (t1 N)) p = false).
    { assert (T2 : fin32 (tmul N (t2 N) (t1 N)) = true /\ v32 (tmul N (t2 N) (t1 N)) = 2%R) by (split; [reflexivity|vm_compute; lra]).
      assert (TM : fin32 (tsub N (t0 N) (t1 N)) = true /\ v32 (tsub N (t0 N) (t1 N)) = (-1)%R) by (split; [reflexivity|vm_compute; lra]).
      destruct (bad_cases p B) as [->|[A|A]]; [reflexivity| |].
      - apply andb_false_iff. left. exact (nle_above 3 2 _ _ A (proj1 T2) (proj2 T2) ltac:(lra)).
      - apply andb_false_iff. right. exact (nle_below (- gap - 1) (-1) _ _ A (proj1 TM) (proj2 TM) ltac:(lra)). }
    unfold reduceT, assert_. rewrite D, A. cbn. reflexivity.
  - intros B. destruct (resetInternals N cfg F o p d) as [o'|f] eqn:E; [|eauto]. exfalso.
    unfold resetInternals in E. rewrite Ew in E. apply bind_ok in E. destruct E as ([] & _ & E).
    apply bind_ok in E. destruct E as (q & Er & E). apply bind_ok in E. destruct E as ([w' [[[mi x1] x2] x3]] & _ & E).
    apply bind_ok in E. destruct E as (len & _ & E). apply bind_ok in E. destruct E as (j & Ej & _).
    assert (Q : fin32 q = false).
    { apply reduce_inv in Er. rewrite Er. destruct (tle N _ _); [now apply nonfin_sub|]. destruct (tlt N _ _); [now apply nonfin_add|exact B]. }
    assert (X := nonfin_mul q (tofZ N len) Q).
    assert (Y : fin32 (@Bmult 24 128 p32 e32 mode_NE q (tofZ N len)) = true).
    { refine (proj1 (round_ok _ j _)). destruct (tle N _ _); auto. }
    rewrite Y in X. discriminate.
Qed.
End Bad.
