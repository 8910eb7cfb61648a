(** * ExactMove: histories along a moved phase axis (supporting lemmas) *)
From Coq Require Import ZArith List Bool Reals Lia Lra Arith Psatz.
From Flocq Require Import Core.
From Verif Require Import Num Maths CrossFader Wavetable Filters Osc Spec SpecC SpecT NumFacts Laws CFFacts
  WTFacts BuildFacts OscFacts OscStep OscRun OscHist CFHist PTables RNum RLaws.
From Coquelicot Require Import Coquelicot.
From Verif Require Import SpecE SpecM ExactMath ExactStep ExactRun ExactHist ExactCover ExactLaws PExact.
Import ListNotations.
Local Open Scope R_scope.

(** ** Which entries are heard *)
Definition lowS (M : Z) (st : Z * Z * Z) : Prop := let '(l, p, x) := st in (l = 0 \/ (p <= M /\ x <= M))%Z.

Lemma low_find M K n st r : (1 <= n)%Z -> cfInv n (K - 1) st -> lowS M st -> (0 <= r <= K - 2)%Z ->
  (r + 1 <= M \/ K - 2 <= M)%Z ->
  lowS M (cfStep n st r) /\
  forall m g mu gu, outS RNum n st r = (m, g, mu, gu) -> (m <= M)%Z /\ (gu <> 0 -> (mu <= M)%Z).
Proof.
  destruct st as [[l p] x]. intros Hn (H1 & H2 & H3 & H4 & H5) HL Hr Hm.
  unfold cfInv, lowS in *. unfold outS, cfStep, fadeT.
  destruct (Z.eqb_spec l 0) as [El|El]; cbn [andb].
  - destruct (Z.eqb_spec r x) as [Er|Er].
    + split; [lia|]. intros m g mu gu E. injection E as <- <- <- <-. split; [lia|]. intros N. exfalso. apply N. reflexivity.
    + split; [destruct (p <? r)%Z eqn:Ep; lia|].
      intros m g mu gu E. destruct (p <? r)%Z eqn:Ep.
      * destruct (Z.ltb_spec (r - 1) r); injection E as <- <- <- <-; lia.
      * destruct (Z.ltb_spec (r + 1) r); injection E as <- <- <- <-; lia.
  - destruct (negb (r =? x)%Z && negb (r =? p)%Z) eqn:En.
    + apply andb_prop in En. destruct En as [E1 E2]. apply negb_true_iff, Z.eqb_neq in E1, E2.
      destruct (Z.ltb_spec p r); destruct (Z.eqb_spec (l - 1) 0);
      (split; [lia|]; intros m g mu gu E; match type of E with context [if (?a <? ?b)%Z then _ else _] => destruct (Z.ltb_spec a b) end;
       injection E as <- <- <- <-; lia).
    + destruct (Z.eqb_spec (l - 1) 0);
      (split; [lia|]; intros m g mu gu E; match type of E with context [if (?a <? ?b)%Z then _ else _] => destruct (Z.ltb_spec a b) end;
       injection E as <- <- <- <-; lia).
Qed.

Lemma slow_entry K M d r : (2 <= K)%Z -> (1 <= M)%Z -> entryFor K (Rabs d) r -> slow K M d ->
  (0 <= r <= K - 2)%Z /\ (r + 1 <= M \/ K - 2 <= M)%Z.
Proof.
  intros HK HM (H1 & H2 & H3) [Hs|Hs]; [|lia]. split; [lia|].
  destruct (Z.eq_dec r 0) as [->|Hr]; [lia|]. destruct H3 as [H3|H3]; [lia|].
  left. destruct (Z_lt_le_dec r M) as [H|H]; [lia|]. exfalso.
  assert (HKp := IZR_pow2_pos K ltac:(lia)).
  assert (IZR (2 ^ M) <= IZR (2 ^ r)) by (apply IZR_le, Z.pow_le_mono_r; lia).
  assert (IZR (2 ^ M) / IZR (2 ^ K) <= IZR (2 ^ r) / IZR (2 ^ K)).
  { unfold Rdiv. apply Rmult_le_compat_r; [left; now apply Rinv_0_lt_compat|assumption]. }
  lra.
Qed.

Lemma entryFor_some K d : (2 <= K)%Z -> exists r, entryFor K d r.
Proof.
  intros HK.
  enough (G : forall m : nat, (Z.of_nat m <= K - 2)%Z -> (exists r, entryFor K d r) \/
            IZR (2 ^ Z.of_nat m) / IZR (2 ^ K) <= d \/ m = 0%nat).
  { destruct (G (Z.to_nat (K - 2)) ltac:(lia)) as [H|H]; [exact H|].
    exists (K - 2)%Z. split; [lia|]. split; [left; reflexivity|].
    destruct H as [H|H]; [right; rewrite Z2Nat.id in H by lia; exact H|left; lia]. }
  induction m as [|m IH]; intros Hm; [right; right; reflexivity|].
  destruct (IH ltac:(lia)) as [H|H]; [left; exact H|].
  destruct (Rlt_le_dec d (IZR (2 ^ Z.of_nat (S m)) / IZR (2 ^ K))) as [Hd|Hd]; [|right; left; exact Hd].
  left. exists (Z.of_nat m). split; [lia|]. split.
  - right. replace (Z.of_nat m + 1)%Z with (Z.of_nat (S m)) by lia. exact Hd.
  - destruct H as [H|H]; [right; exact H|left; lia].
Qed.

(** ** Tables fresh from build *)
Section Built.
Variable src : Resampler RNum.
Variable dbg : bool.

Lemma built_cf wfs wfs' nw K w w' sr fade : wellFormed RNum wfs nw K -> wellFormed RNum wfs' nw K ->
  0 < sr -> 1 <= fade * sr < IZR int_max ->
  wt_build RNum src dbg wfs nw sr fade = Ok (Some w) -> wt_build RNum src dbg wfs' nw sr fade = Ok (Some w') ->
  cf_num (wt_cf w) = cf_num (wt_cf w') /\ cfState RNum (wt_cf w) = cfState RNum (wt_cf w') /\
  cf_left (wt_cf w) = 0%Z.
Proof.
  intros (HK & Hnw & Hl & Hm) (_ & _ & Hl' & _) Hs Hf Hb Hb'.
  destruct (wt_build_some RNum src dbg LR wfs nw sr fade K w HK Hnw Hl Hm Hb) as (C1 & n & Ek & Ec).
  destruct (wt_build_some RNum src dbg LR wfs' nw sr fade K w' HK Hnw Hl' Hm Hb') as (C1' & n' & Ek' & Ec').
  assert (n' = n) by congruence. subst n'. assert (E : wt_cf w' = wt_cf w) by congruence. rewrite E.
  split; [reflexivity|]. split; [reflexivity|].
  destruct (cf_make_pow2 RNum dbg LR n K sr ltac:(lia)) as (c & Ec2 & _ & _ & N3 & _).
  rewrite Ec in Ec2. injection Ec2 as Ec2. now rewrite Ec2.
Qed.
End Built.

(** ** The two ideal oscillators side by side *)
Section Twin.
Variable src : Resampler RNum.
Variable dbg : bool.
Variable F : Filt RNum.
Hypothesis HF : exactFilter F.
Variable turn : bool.
Variable s : R.
Variables K M : Z.
Hypothesis HM : (1 <= M)%Z.
Notation sgn := (sg turn).

Lemma sgn_cases : sgn = 1 \/ sgn = -1.
Proof. unfold sg. destruct turn; auto. Qed.
Lemma abs_sgn d : Rabs (sgn * d) = Rabs d.
Proof. destruct sgn_cases as [-> | ->]; [f_equal; ring|]. rewrite <- (Rabs_Ropp d). f_equal. ring. Qed.

Record twin (st st' : Ideal) : Prop := {
  tw_l : live src dbg F st; tw_l' : live src dbg F st';
  tw_K : id_K st = K; tw_K' : id_K st' = K; tw_nw : id_nw st' = id_nw st; tw_wf : id_wf st' = id_wf st;
  tw_mem : id_mem st' = id_mem st;
  tw_num : cf_num (wt_cf (id_tab st')) = cf_num (wt_cf (id_tab st));
  tw_cf : cfState RNum (wt_cf (id_tab st')) = cfState RNum (wt_cf (id_tab st));
  tw_low : lowS M (cfState RNum (wt_cf (id_tab st)));
  tw_phase : exists k, id_phase st' = sgn * id_phase st + s + IZR k;
  tw_wave : forall i k t, (0 <= i < id_nw st)%Z -> (0 <= k <= M)%Z -> (k <= K - 2)%Z ->
      wave (mipmap RNum src (waveform RNum (id_wfs st') (2 ^ K) i) k) (sgn * t + s) =
      wave (mipmap RNum src (waveform RNum (id_wfs st) (2 ^ K) i) k) t
}.

Lemma moved_lap p : exists k, moved turn s p = sgn * p + s + IZR k.
Proof. exists (- Zfloor (sgn * p + s))%Z. unfold moved. rewrite opp_IZR. ring. Qed.

(** both cross-faders answer the same *)
Lemma twin_find wfs wfs' nw w w' d w1 w1' m m' : wellFormed RNum wfs nw K -> wellFormed RNum wfs' nw K ->
  table src dbg wfs nw w -> table src dbg wfs' nw w' ->
  cf_num (wt_cf w') = cf_num (wt_cf w) -> cfState RNum (wt_cf w') = cfState RNum (wt_cf w) ->
  lowS M (cfState RNum (wt_cf w)) -> d <> 0 -> slow K M d ->
  wt_findMipMapIndices RNum dbg w (Rabs d) = Ok (w1, m) ->
  wt_findMipMapIndices RNum dbg w' (Rabs (sgn * d)) = Ok (w1', m') ->
  m' = m /\ cf_num (wt_cf w1') = cf_num (wt_cf w1) /\ cfState RNum (wt_cf w1') = cfState RNum (wt_cf w1) /\
  lowS M (cfState RNum (wt_cf w1)) /\
  (let '(a, g, b, gu) := m in (a <= M)%Z /\ (gu <> 0 -> (b <= M)%Z)).
Proof.
  intros HW HW' HT HT' En Es HL Hd Hsl H H'. rewrite abs_sgn in H'.
  assert (HK : (2 <= K)%Z) by (destruct HW; lia).
  destruct (entryFor_some K (Rabs d) HK) as (r & Hr).
  destruct (slow_entry K M d r HK HM Hr Hsl) as (Hr1 & Hr2).
  assert (Hpos := Rabs_pos_lt d Hd).
  destruct (find_R src dbg wfs nw K w (Rabs d) r HW HT Hpos Hr) as (v & Ev & Sv & Nv & _ & Hn1).
  destruct (find_R src dbg wfs' nw K w' (Rabs d) r HW' HT' Hpos Hr) as (v' & Ev' & Sv' & Nv' & _ & _).
  rewrite H in Ev. rewrite H' in Ev'. 
  assert (Em : m = outS RNum (cf_num (wt_cf w)) (cfState RNum (wt_cf w)) r) by congruence.
  assert (Em' : m' = outS RNum (cf_num (wt_cf w')) (cfState RNum (wt_cf w')) r) by congruence.
  assert (w1 = v) by congruence. assert (w1' = v') by congruence. clear Ev Ev' H H'. subst v v'.
  destruct (table_ok src dbg _ _ _ _ HW HT) as (_ & _ & CF).
  assert (I0 := proj2 (proj1 (CFok_inv RNum (wt_cf w)) CF)).
  rewrite (proj1 (table_scale src dbg wfs nw K w HW HT)) in I0.
  destruct (low_find M K _ _ r Hn1 I0 HL Hr1 Hr2) as (L1 & L2).
  rewrite Sv, Sv', Em, Em', Nv, Nv', En, Es. repeat (split; [reflexivity|]). split; [exact L1|].
  destruct (outS RNum (cf_num (wt_cf w)) (cfState RNum (wt_cf w)) r) as [[[a g] b] gu] eqn:Eo.
  exact (L2 a g b gu eq_refl).
Qed.

(** the steps correspond *)
Lemma step_same dir dir' (q p q' p' : R) k1 k2 : 0 <= q < 1 -> 0 <= p < 1 -> 0 <= q' < 1 -> 0 <= p' < 1 ->
  q' = sgn * q + s + IZR k1 -> p' = sgn * p + s + IZR k2 ->
  dir' = (if turn then kBidirectionnal else dir) ->
  let d : R := stepBetween RNum dir q p in
  let d' : R := stepBetween RNum dir' q' p' in
  - / 2 <= d <= / 2 -> - / 2 <= d' <= / 2 -> (dir' = kForward \/ Rabs d <> / 2) ->
  d' = sgn * d.
Proof.
  intros Hq Hp Hq' Hp' Eq Ep Edir d d' Hd Hd' Hh.
  destruct (step_R dir q p Hq Hp) as (a & Ea). fold d in Ea.
  destruct (step_R dir' q' p' Hq' Hp') as (b & Eb). fold d' in Eb.
  assert (Ej : exists j, d' = sgn * d + IZR j).
  { destruct sgn_cases as [Es|Es]; rewrite Es in *.
    - exists (k2 + b - a - k1)%Z. rewrite !minus_IZR, plus_IZR. lra.
    - exists (k2 + b + a - k1)%Z. rewrite !minus_IZR, !plus_IZR. lra. }
  destruct Ej as (j & Ej).
  assert (Hs1 : - / 2 <= sgn * d <= / 2) by (destruct sgn_cases as [-> | ->]; lra).
  assert (Hj : (-1 <= j <= 1)%Z).
  { split; apply le_IZR; lra. }
  destruct Hh as [Hh|Hh].
  - assert (H : turn = false) by (rewrite Hh in Edir; destruct turn; congruence).
    assert (Hdir : dir = kForward) by (rewrite H in Edir; congruence).
    assert (Es : sgn = 1) by (unfold sg; now rewrite H). rewrite Es in *.
    assert (G : forall x y : R, 0 <= x < 1 -> 0 <= y < 1 -> 0 <= stepBetween RNum kForward x y).
    { clear. intros x y Hx Hy. unfold stepBetween, t0, t1. cbn [tsub tadd tlt tofZ RNum].
      destruct (Rlt_bool_spec (y - x) 0); lra. }
    assert (0 <= d) by (unfold d; rewrite Hdir; now apply G).
    assert (0 <= d') by (unfold d'; rewrite Hh; now apply G).
    assert (j = 0)%Z. { assert (-1 < j)%Z by (apply lt_IZR; lra). assert (j < 1)%Z by (apply lt_IZR; lra). lia. }
    subst j. rewrite Ej. ring.
  - assert (N1 : d <> / 2 /\ d <> - / 2).
    { split; intros N; apply Hh; rewrite N; [rewrite Rabs_pos_eq; lra|]. rewrite Rabs_Ropp, Rabs_pos_eq; lra. }
    assert (j = 0 \/ j = 1 \/ j = -1)%Z as [-> | [-> | ->]] by lia.
    + rewrite Ej. ring.
    + exfalso. destruct sgn_cases as [E | E]; rewrite E in *; [apply (proj2 N1)|apply (proj1 N1)]; lra.
    + exfalso. destruct sgn_cases as [E | E]; rewrite E in *; [apply (proj1 N1)|apply (proj2 N1)]; lra.
Qed.

Lemma twin_sample dir dir' st st' p st1 st1' y y' : twin st st' ->
  dir' = (if turn then kBidirectionnal else dir) ->
  slow K M (stepBetween RNum dir (id_phase st) p) ->
  (dir' = kForward \/ Rabs (stepBetween RNum dir (id_phase st) p) <> / 2) ->
  sample src dbg F dir st p st1 y -> sample src dbg F dir' st' (moved turn s p) st1' y' ->
  twin st1 st1' /\ y' = y /\ id_phase st1 = p.
Proof.
  intros Tw Edir Hsl Hh S S'.
  assert (L1 := sample_live src dbg F HF _ _ _ _ _ (tw_l _ _ Tw) S).
  assert (L1' := sample_live src dbg F HF _ _ _ _ _ (tw_l' _ _ Tw) S').
  destruct S as [d w1 m g mu gu mem Hsh Ed Hd0 Hdr Hf Htr Em].
  destruct S' as [d' w1' m' g' mu' gu' mem' Hsh' Ed' Hd0' Hdr' Hf' Htr' Em'].
  destruct (tw_phase _ _ Tw) as (k1 & Ek1). destruct (moved_lap p) as (k2 & Ek2).
  assert (Edd : d' = sgn * d).
  { rewrite Ed'. rewrite Ed. eapply step_same; [exact (lv_phase _ _ _ _ (tw_l _ _ Tw))|exact (proj1 Hsh)|
      exact (lv_phase _ _ _ _ (tw_l' _ _ Tw))|exact (proj1 Hsh')|exact Ek1|exact Ek2|exact Edir|
      rewrite <- Ed; exact Hdr|rewrite <- Ed'; exact Hdr'|exact Hh]. }
  rewrite <- Ed in Hsl.
  assert (HW := lv_well _ _ _ _ (tw_l _ _ Tw)). assert (HW' := lv_well _ _ _ _ (tw_l' _ _ Tw)).
  assert (HT := lv_tab _ _ _ _ (tw_l _ _ Tw)). assert (HT' := lv_tab _ _ _ _ (tw_l' _ _ Tw)).
  rewrite (tw_K _ _ Tw) in HW. rewrite (tw_K' _ _ Tw), (tw_nw _ _ Tw) in HW'. rewrite (tw_nw _ _ Tw) in HT'.
  rewrite Edd in Hf'.
  destruct (twin_find _ _ _ _ _ d _ _ _ _ HW HW' HT HT' (tw_num _ _ Tw) (tw_cf _ _ Tw) (tw_low _ _ Tw) Hd0 Hsl Hf Hf')
    as (Emm & Enum & Ecf & Hlow & Hhm & Hhu).
  injection Emm as -> -> -> ->.
  destruct (find_gains src dbg _ _ _ _ _ _ _ _ _ _ HW HT (Rabs_pos_lt d Hd0) Hf) as (R1 & _ & _ & _ & R2 & _).
  assert (Emem : mem' = mem).
  { rewrite Em, Em', (tw_mem _ _ Tw). apply allPoles_ext. intros u _. unfold mixed.
    assert (G : forall k, (0 <= k <= M)%Z -> (k <= K - 2)%Z ->
       wave (entry src st' k) (id_phase st' + d' * u) = wave (entry src st k) (id_phase st + d * u)).
    { intros k Hk1 Hk2.
      replace (id_phase st' + d' * u) with (sgn * (id_phase st + d * u) + s + IZR k1) by (rewrite Ek1, Edd; ring).
      assert (Hpos := entry_len src dbg F st' k (tw_l' _ _ Tw) ltac:(rewrite (tw_K' _ _ Tw); lia)).
      rewrite (wave_lap (entry src st' k) ltac:(lia)). unfold entry. rewrite (tw_wf _ _ Tw), (tw_K _ _ Tw), (tw_K' _ _ Tw).
      apply (tw_wave _ _ Tw); [exact (lv_wf _ _ _ _ (tw_l _ _ Tw))|assumption|assumption]. }
    rewrite (G m) by lia.
    destruct (Req_dec gu 0) as [E0|E0]; [rewrite E0, !Rmult_0_l; reflexivity|].
    rewrite (G mu); [reflexivity| |]; specialize (R2 E0); specialize (Hhu E0); lia. }
  split; [|split; [now rewrite Emem|reflexivity]].
  constructor; cbn [id_K id_nw id_wfs id_tab id_wf id_phase id_step id_entry id_mem]; auto; try apply Tw.
  exists k2. exact Ek2.
Qed.

Lemma twin_block dir dir' : dir' = (if turn then kBidirectionnal else dir) ->
  forall ps st st' st1 st1' ys ys', twin st st' ->
  List.Forall (slow K M) (stepsOf dir (id_phase st) ps) ->
  (dir' = kForward \/ List.Forall (fun d => Rabs d <> /2) (stepsOf dir (id_phase st) ps)) ->
  block src dbg F dir st ps st1 ys -> block src dbg F dir' st' (List.map (moved turn s) ps) st1' ys' ->
  twin st1 st1' /\ ys' = ys /\ id_phase st1 = last ps (id_phase st).
Proof.
  intros Edir ps. induction ps as [|p ps IH]; intros st st' st1 st1' ys ys' Tw H1 H2 B B'; cbn [List.map] in B'.
  - inversion B; inversion B'; subst. split; [assumption|]. split; reflexivity.
  - inversion B as [|? ? sa y ? ? zs Sa Ba]; subst. inversion B' as [|? ? sb y' ? ? zs' Sb Bb]; subst.
    cbn [stepsOf] in H1, H2. inversion_clear H1 as [|? ? H1a H1b].
    assert (H2a : (if turn then kBidirectionnal else dir) = kForward \/ Rabs (stepBetween RNum dir (id_phase st) p) <> / 2).
    { destruct H2 as [H2|H2]; [now left|right]. now inversion_clear H2. }
    destruct (twin_sample dir _ st st' p sa sb y y' Tw eq_refl H1a H2a Sa Sb) as (Tw1 & Ey & Eph).
    rewrite <- Eph in H1b. assert (H2' := H2). rewrite <- Eph in H2'. clear H2. rename H2' into H2.
    destruct (IH sa sb st1 st1' zs zs' Tw1 H1b) as (Tw2 & Ez & El); auto.
    { destruct H2 as [H2|H2]; [now left|right]. now inversion_clear H2. }
    split; [assumption|]. split; [congruence|]. rewrite El, Eph. destruct ps as [|p2 ps]; [reflexivity|].
    cbn [last]. clear. revert p2; induction ps as [|p3 ps IH]; intros; [reflexivity|]. cbn [last] in *. apply IH.
Qed.

Lemma twin_fresh wfs wfs' nw w w' wf p d st1 st1' :
  wellFormed RNum wfs nw K -> wellFormed RNum wfs' nw K -> table src dbg wfs nw w -> table src dbg wfs' nw w' ->
  (0 <= wf < nw)%Z ->
  cf_num (wt_cf w') = cf_num (wt_cf w) -> cfState RNum (wt_cf w') = cfState RNum (wt_cf w) ->
  lowS M (cfState RNum (wt_cf w)) -> slow K M d ->
  (forall i k t, (0 <= i < nw)%Z -> (0 <= k <= M)%Z -> (k <= K - 2)%Z ->
      wave (mipmap RNum src (waveform RNum wfs' (2 ^ K) i) k) (sgn * t + s) =
      wave (mipmap RNum src (waveform RNum wfs (2 ^ K) i) k) t) ->
  fresh dbg F K nw wfs w wf p d st1 -> fresh dbg F K nw wfs' w' wf (moved turn s p) (sgn * d) st1' ->
  twin st1 st1' /\ id_phase st1 = p.
Proof.
  intros HW HW' HT HT' Hwf En Es HL Hsl Hw Hf Hf'.
  assert (L1 := fresh_live src dbg F _ _ _ _ _ _ _ _ HW HT Hwf Hf).
  assert (L1' := fresh_live src dbg F _ _ _ _ _ _ _ _ HW' HT' Hwf Hf').
  destruct Hf as [w1 m g mu gu Hsh Hd0 Hfi]. destruct Hf' as [w1' m' g' mu' gu' Hsh' Hd0' Hfi'].
  destruct (twin_find _ _ _ _ _ d _ _ _ _ HW HW' HT HT' En Es HL Hd0 Hsl Hfi Hfi') as (Emm & Enum & Ecf & Hlow & _).
  split; [|reflexivity]. constructor; cbn [id_K id_nw id_wfs id_tab id_wf id_phase id_step id_entry id_mem]; auto.
  apply moved_lap.
Qed.

Definition twinO (q : R) (a b : option Ideal) : Prop :=
  match a, b with
  | None, None => True
  | Some st, Some st' => twin st st' /\ id_phase st = q
  | _, _ => False
  end.

Lemma load_twin w w' p d K1 nw1 wfs1 st1 K2 nw2 wfs2 st2 : movedTables src dbg turn s K M w w' -> slow K M d ->
  wellFormed RNum wfs1 nw1 K1 -> table src dbg wfs1 nw1 w -> fresh dbg F K1 nw1 wfs1 w 0 p d st1 ->
  wellFormed RNum wfs2 nw2 K2 -> table src dbg wfs2 nw2 w' ->
  fresh dbg F K2 nw2 wfs2 w' 0 (moved turn s p) (sgn * d) st2 ->
  twin st1 st2 /\ id_phase st1 = p.
Proof.
  intros (wfs & wfs' & nw & sr & fade & HW & HW' & Hs & Hf & Hb & Hb' & Hwv) Hsl HW1 HT1 F1 HW2 HT2 F2.
  assert (HT := t_build src dbg wfs nw sr fade w Hs Hf Hb). assert (HT' := t_build src dbg wfs' nw sr fade w' Hs Hf Hb').
  assert (Hnw : (1 <= nw)%Z) by (destruct HW as (_ & ? & _); lia). assert (HK : (2 <= K)%Z) by (destruct HW; lia).
  assert (U1 := fun i k => table_unique src dbg _ _ _ _ _ _ _ i k HW HT HW1 HT1).
  assert (U2 := fun i k => table_unique src dbg _ _ _ _ _ _ _ i k HW' HT' HW2 HT2).
  destruct (U1 0%Z 0%Z ltac:(lia) ltac:(lia)) as (<- & <- & _).
  destruct (U2 0%Z 0%Z ltac:(lia) ltac:(lia)) as (<- & <- & _).
  destruct (built_cf src dbg wfs wfs' nw K w w' sr fade HW HW' Hs Hf Hb Hb') as (En & Es & El).
  eapply (twin_fresh wfs1 wfs2 nw w w' 0); eauto.
  - lia.
  - unfold lowS, cfState. left. exact El.
  - intros i k t Hi Hk Hk2. destruct (U1 i k Hi ltac:(lia)) as (_ & _ & <-). destruct (U2 i k Hi ltac:(lia)) as (_ & _ & <-).
    now apply Hwv.
Qed.

Lemma rate_twin st st' sr w w' : twin st st' -> 200 <= sr -> sr < IZR int_max ->
  wt_updateSamplerate RNum src dbg (id_tab st) sr (5 / 1000) = Ok w ->
  wt_updateSamplerate RNum src dbg (id_tab st') sr (5 / 1000) = Ok w' ->
  twin (mkIdeal (id_K st) (id_nw st) (id_wfs st) w (id_wf st) (id_phase st) (id_step st) (id_entry st) (id_mem st))
       (mkIdeal (id_K st') (id_nw st') (id_wfs st') w' (id_wf st') (id_phase st') (id_step st') (id_entry st') (id_mem st')).
Proof.
  intros Tw H1 H2 Hu Hu'.
  assert (L1 := live_rate src dbg F st sr w (tw_l _ _ Tw) H1 H2 Hu).
  assert (L1' := live_rate src dbg F st' sr w' (tw_l' _ _ Tw) H1 H2 Hu').
  assert (HW := lv_well _ _ _ _ (tw_l _ _ Tw)). assert (HW' := lv_well _ _ _ _ (tw_l' _ _ Tw)).
  assert (HT := lv_tab _ _ _ _ (tw_l _ _ Tw)). assert (HT' := lv_tab _ _ _ _ (tw_l' _ _ Tw)).
  destruct (table_ok src dbg _ _ _ _ HW HT) as (Ct & _). destruct (table_ok src dbg _ _ _ _ HW' HT') as (Ct' & _).
  assert (HWd := HW). assert (HWd' := HW'). destruct HWd as (_ & a1 & a2 & a3). destruct HWd' as (_ & b1 & b2 & b3).
  rewrite (update_R src dbg _ _ _ _ _ _ a1 a2 a3 Ct) in Hu. rewrite (update_R src dbg _ _ _ _ _ _ b1 b2 b3 Ct') in Hu'.
  destruct (wt_build RNum src dbg (id_wfs st) (id_nw st) sr (5 / 1000)) as [[v|]|] eqn:Eb; try discriminate.
  destruct (wt_build RNum src dbg (id_wfs st') (id_nw st') sr (5 / 1000)) as [[v'|]|] eqn:Eb'; try discriminate.
  injection Hu as ->. injection Hu' as ->.
  rewrite (tw_K _ _ Tw) in HW. rewrite (tw_K' _ _ Tw), (tw_nw _ _ Tw) in HW'. rewrite (tw_nw _ _ Tw) in Eb'.
  destruct (built_cf src dbg _ _ _ _ w w' sr (5/1000) HW HW' ltac:(lra) ltac:(lra) Eb Eb') as (En & Es & El).
  constructor; cbn [id_K id_nw id_wfs id_tab id_wf id_phase id_step id_entry id_mem]; auto; try apply Tw.
  unfold lowS, cfState. left. exact El.
Qed.

Notation Plays := (plays src dbg F).
Lemma inv_null x op rest st ys : (exists p d, op = OpInit RNum None p d \/ op = OpSwap RNum None p d) ->
  Plays x (op :: rest) st ys -> Plays x rest st ys.
Proof.
  intros Hop H. destruct Hop as (p & d & [-> | ->]); inversion H; subst; auto;
      match goal with H : _ \/ _ |- _ => destruct H; discriminate end.
Qed.
Lemma inv_load x op w p d rest st ys : op = OpInit RNum (Some w) p d \/ op = OpSwap RNum (Some w) p d ->
  Plays x (op :: rest) st ys -> exists K nw wfs st1, wellFormed RNum wfs nw K /\ table src dbg wfs nw w /\
    fresh dbg F K nw wfs w 0 p d st1 /\ Plays (Some st1) rest st ys.
Proof.
  intros Hop H. inversion H as [|? ? ? ? ? Hn|? ? v e f k n ws s1 ? ? ? Ho Hw Ht Hf Hp| | | |]; subst;
    try (destruct Hop; discriminate).
  - destruct Hn as (a & b & [E|E]); destruct Hop as [E'|E']; rewrite E in E'; discriminate.
  - exists k, n, ws, s1. destruct Hop as [-> | ->], Ho as [E|E]; try discriminate; injection E as <- <- <-; auto.
Qed.
Lemma inv_reset x p d rest st ys : Plays x (OpReset RNum p d :: rest) st ys ->
  exists s0 st1, x = Some s0 /\ fresh dbg F (id_K s0) (id_nw s0) (id_wfs s0) (id_tab s0) (id_wf s0) p d st1 /\
    Plays (Some st1) rest st ys.
Proof.
  intros H. inversion H as [|? ? ? ? ? Hn|? ? v e f k n ws s1 ? ? ? Ho Hw Ht Hf Hp| s0 ? ? s1 | | |]; subst.
  - destruct Hn as (a & b & [E|E]); discriminate.
  - destruct Ho; discriminate.
  - exists s0, s1. auto.
Qed.
Lemma inv_select x k rest st ys : Plays x (OpSetWaveform RNum k :: rest) st ys ->
  exists s0, x = Some s0 /\ (0 <= k < id_nw s0)%Z /\
    Plays (Some (mkIdeal (id_K s0) (id_nw s0) (id_wfs s0) (id_tab s0) k (id_phase s0)
                         (id_step s0) (id_entry s0) (id_mem s0))) rest st ys.
Proof.
  intros H. inversion H as [|? ? ? ? ? Hn|? ? v e f k0 n ws s1 ? ? ? Ho Hw Ht Hf Hp| |s0 | |]; subst.
  - destruct Hn as (a & b & [E|E]); discriminate.
  - destruct Ho; discriminate.
  - exists s0. auto.
Qed.
Lemma inv_rate x sr rest st ys : Plays x (OpUpdateSamplerate RNum sr :: rest) st ys ->
  exists s0 w', x = Some s0 /\ 200 <= sr /\ sr < IZR int_max /\
    wt_updateSamplerate RNum src dbg (id_tab s0) sr (5 / 1000) = Ok w' /\
    Plays (Some (mkIdeal (id_K s0) (id_nw s0) (id_wfs s0) w' (id_wf s0) (id_phase s0)
                         (id_step s0) (id_entry s0) (id_mem s0))) rest st ys.
Proof.
  intros H. inversion H as [|? ? ? ? ? Hn|? ? v e f k0 n ws s1 ? ? ? Ho Hw Ht Hf Hp| | |s0 ? w' |]; subst.
  - destruct Hn as (a & b & [E|E]); discriminate.
  - destruct Ho; discriminate.
  - exists s0, w'. auto.
Qed.
Lemma inv_process x dir ps rest st ys : Plays x (OpProcess RNum dir ps :: rest) st ys ->
  exists s0 st1 y1 y2, x = Some s0 /\ ys = y1 ++ y2 /\ block src dbg F dir s0 ps st1 y1 /\ Plays (Some st1) rest st y2.
Proof.
  intros H. inversion H as [|? ? ? ? ? Hn|? ? v e f k0 n ws s1 ? ? ? Ho Hw Ht Hf Hp| | | |s0 ? ? st1 y1 ? ? y2]; subst.
  - destruct Hn as (a & b & [E|E]); discriminate.
  - destruct Ho; discriminate.
  - exists s0, st1, y1, y2. auto.
Qed.

Lemma twin_plays ops ops' q : movedOps src dbg turn s K M q ops ops' ->
  forall a b st st' ys ys', twinO q a b -> Plays a ops st ys -> Plays b ops' st' ys' -> ys' = ys.
Proof.
  induction 1 as [q|q op a0 b0 Hop Hm IH|q w w' p d a0 b0 Hw Hs Hm IH|q w w' p d a0 b0 Hw Hs Hm IH|q p d a0 b0 Hs Hm IH
    |q k a0 b0 Hm IH|q sr a0 b0 Hm IH|q dir dir' ps a0 b0 Hdir Hsl Hh Hm IH]; intros a b st st' ys ys' Tw P P'.
  - inversion P; inversion P'; subst; reflexivity.
  - apply inv_null in P; [|exact Hop]. apply inv_null in P'; [|exact Hop]. eapply IH; eauto.
  - apply (inv_load _ _ w p d) in P; [|now left].
    apply (inv_load _ _ w' (moved turn s p) (sgn * d)) in P'; [|now left].
    destruct P as (K1 & nw1 & wfs1 & st1 & HW1 & HT1 & F1 & P1).
    destruct P' as (K2 & nw2 & wfs2 & st2 & HW2 & HT2 & F2 & P2).
    eapply (IH (Some st1) (Some st2)); eauto. cbn [twinO]. exact (load_twin w w' p d K1 nw1 wfs1 st1 K2 nw2 wfs2 st2 Hw Hs HW1 HT1 F1 HW2 HT2 F2).
  - apply (inv_load _ _ w p d) in P; [|now right].
    apply (inv_load _ _ w' (moved turn s p) (sgn * d)) in P'; [|now right].
    destruct P as (K1 & nw1 & wfs1 & st1 & HW1 & HT1 & F1 & P1).
    destruct P' as (K2 & nw2 & wfs2 & st2 & HW2 & HT2 & F2 & P2).
    eapply (IH (Some st1) (Some st2)); eauto. cbn [twinO]. exact (load_twin w w' p d K1 nw1 wfs1 st1 K2 nw2 wfs2 st2 Hw Hs HW1 HT1 F1 HW2 HT2 F2).
  - apply inv_reset in P. apply inv_reset in P'.
    destruct P as (s1 & st1 & -> & F1 & P1). destruct P' as (s2 & st2 & -> & F2 & P2).
    cbn [twinO] in Tw. destruct Tw as [Tw _].
    eapply (IH (Some st1) (Some st2)); eauto. cbn [twinO].
    assert (HW := lv_well _ _ _ _ (tw_l _ _ Tw)). assert (HW' := lv_well _ _ _ _ (tw_l' _ _ Tw)).
    assert (HT := lv_tab _ _ _ _ (tw_l _ _ Tw)). assert (HT' := lv_tab _ _ _ _ (tw_l' _ _ Tw)).
    rewrite (tw_K _ _ Tw) in *. rewrite (tw_K' _ _ Tw), (tw_nw _ _ Tw), (tw_wf _ _ Tw) in *.
    exact (twin_fresh _ _ _ _ _ _ _ _ _ _ HW HW' HT HT' (lv_wf _ _ _ _ (tw_l _ _ Tw)) (tw_num _ _ Tw) (tw_cf _ _ Tw)
      (tw_low _ _ Tw) Hs (tw_wave _ _ Tw) F1 F2).
  - apply inv_select in P. apply inv_select in P'.
    destruct P as (s1 & -> & Hk & P1). destruct P' as (s2 & -> & Hk' & P2).
    cbn [twinO] in Tw. destruct Tw as [Tw Eph]. eapply IH; [|exact P1|exact P2]. cbn [twinO id_phase]. split; [|exact Eph].
    assert (L1 := live_select src dbg F s1 k (tw_l _ _ Tw) Hk). assert (L2 := live_select src dbg F s2 k (tw_l' _ _ Tw) Hk').
    constructor; cbn [id_K id_nw id_wfs id_tab id_wf id_phase id_step id_entry id_mem]; auto; apply Tw.
  - apply inv_rate in P. apply inv_rate in P'.
    destruct P as (s1 & v & -> & R1 & R2 & R3 & P1). destruct P' as (s2 & v' & -> & _ & _ & R3' & P2).
    cbn [twinO] in Tw. destruct Tw as [Tw Eph]. eapply IH; [|exact P1|exact P2]. cbn [twinO]. split; [|exact Eph].
    exact (rate_twin s1 s2 sr v v' Tw R1 R2 R3 R3').
  - apply inv_process in P. apply inv_process in P'.
    destruct P as (s1 & st1 & y1 & z1 & -> & -> & B1 & P1). destruct P' as (s2 & st2 & y2 & z2 & -> & -> & B2 & P2).
    cbn [twinO] in Tw. destruct Tw as [Tw Eph]. subst q. subst dir'.
    destruct (twin_block dir _ eq_refl ps s1 s2 st1 st2 y1 y2 Tw Hsl Hh B1 B2) as (Tw2 & Ey & El).
    rewrite Ey. f_equal. eapply (IH (Some st1) (Some st2)); eauto. cbn [twinO]. split; [exact Tw2|exact El].
Qed.
End Twin.

(** ** When two tables correspond *)
Section Waves.
Variables ys ys' : list R.
Hypothesis Hlen : (1 <= zlen ys)%Z.
Notation n := (IZR (zlen ys)).

Lemma rotated_wave h t : rotated h ys ys' -> wave ys' (1 * t + IZR h / n) = wave ys t.
Proof.
  intros (El & Hc). assert (Hn : n <> 0) by (apply not_0_IZR; lia). unfold wave. rewrite El.
  replace ((1 * t + IZR h / n) * n) with (t * n + IZR h) by (field; exact Hn).
  replace (Zfloor (t * n + IZR h)) with (Zfloor (t * n) + h)%Z.
  - rewrite (Hc (Zfloor (t * n))). replace (Zfloor (t * n) + h + 1)%Z with (Zfloor (t * n) + 1 + h)%Z by lia.
    rewrite Hc, plus_IZR. ring.
  - symmetry. apply Zfloor_imp. assert (A := Zfloor_lb (t * n)). assert (B := Zfloor_ub (t * n)).
    rewrite plus_IZR, !plus_IZR. lra.
Qed.

Lemma mirrored_wave h t : mirrored h ys ys' -> wave ys' (-1 * t + IZR h / n) = wave ys t.
Proof.
  intros (El & Hc). assert (Hn : n <> 0) by (apply not_0_IZR; lia).
  rewrite (wave_poly ys'), El. set (k := Zfloor (t * n)).
  assert (A := Zfloor_lb (t * n)). assert (B := Zfloor_ub (t * n)). fold k in A, B.
  assert (E : (-1 * t + IZR h / n) * n = IZR h - t * n) by (field; exact Hn).
  rewrite (poly_line (cyc ys') n (h - k - 1)).
  - unfold line. rewrite E. unfold wave. fold k.
    replace (h - k - 1 + 1)%Z with (h - k)%Z by lia. replace (h - k - 1)%Z with (h - (k + 1))%Z by lia.
    rewrite !Hc, !minus_IZR, plus_IZR. ring.
  - rewrite E, !minus_IZR. lra.
Qed.
End Waves.
