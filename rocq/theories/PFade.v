(** * PFade: proof support for C56 *)
From Coq Require Import ZArith List Bool Reals Lia Lra Arith.
From Flocq Require Import Core.
From Verif Require Import Num Maths CrossFader Wavetable Filters Osc Spec SpecC SpecT NumFacts Laws CFFacts
  WTFacts BuildFacts SimdFacts OscFacts OscStep OscRun OscHist CFHist PTables PHist RNum RLaws.
From Coquelicot Require Import Coquelicot.
From Verif Require Import SpecE SpecX SpecV SpecG SpecH SpecL ExactMath ExactStep ExactRun ExactHist ExactCover ExactSig ExactLaws
  PExact ConvFacts PGain PHarm.
Import ListNotations.
Local Open Scope R_scope.

(** ** Memories that approach each other *)
Definition memDiff (D : R) (ws : list R) (m1 m2 : list C) : Prop :=
  forall j w y z, nth_error ws j = Some w -> nth_error m1 j = Some y -> nth_error m2 j = Some z ->
    Cmod (y - z)%C <= D * w.

Lemma onePole_same r z x y y' : (onePole r z x y - onePole r z x y' = cexp z * (y - y'))%C.
Proof. unfold onePole. ring. Qed.
Lemma allPoles_nth_inv (F : Filt RNum) x ys j v : nth_error (allPoles F x ys) j = Some v ->
  exists r z y, nth_error (combine (f_r F) (f_z F)) j = Some (r, z) /\ nth_error ys j = Some y /\ v = onePole r z x y.
Proof.
  unfold allPoles. generalize (combine (f_r F) (f_z F)) as l. intros l. revert j ys.
  induction l as [|[r z] l IH]; intros [|j] [|y0 ys] H; try discriminate; cbn in H |- *.
  - injection H as <-. do 3 eexists. split; [reflexivity|]. split; reflexivity.
  - now apply IH.
Qed.
Lemma memDiff_step (F : Filt RNum) theta D ws x m1 m2 : List.Forall (fun z : C => exp (fst z) <= theta) (f_z F) -> 0 <= D ->
  List.Forall (fun w => 0 <= w) ws -> memDiff D ws m1 m2 -> memDiff (theta * D) ws (allPoles F x m1) (allPoles F x m2).
Proof.
  intros Ht HD Hws H j w y z Ew Ey Ez.
  destruct (allPoles_nth_inv _ _ _ _ _ Ey) as (r & p & y0 & E1 & E2 & ->).
  destruct (allPoles_nth_inv _ _ _ _ _ Ez) as (r' & p' & z0 & E1' & E2' & ->).
  rewrite E1 in E1'. assert (r' = r) by congruence. assert (p' = p) by congruence. subst r' p'.
  rewrite onePole_same, Cmod_mult, cmod_cexp. assert (A := H j w y0 z0 Ew E2 E2').
  assert (T : exp (fst p) <= theta).
  { rewrite List.Forall_forall in Ht. apply Ht. apply nth_error_In in E1. now apply in_combine_r in E1. }
  assert (P := exp_pos (fst p)).
  assert (W : 0 <= w) by (rewrite List.Forall_forall in Hws; apply Hws; now apply nth_error_In in Ew).
  rewrite Rmult_assoc. apply Rmult_le_compat; [exact (Rlt_le _ _ P)|apply Cmod_ge_0|exact T|exact A].
Qed.
Lemma memDiff_sum D ws : forall m1 m2, length m1 = length ws -> length m2 = length ws -> memDiff D ws m1 m2 ->
  Rabs (audible m1 - audible m2) <= D * rsum ws.
Proof.
  induction ws as [|w ws IH]; intros [|y m1] [|z m2] L1 L2 H; try discriminate.
  - cbn. rewrite Rminus_0_r, Rabs_R0. lra.
  - unfold audible. cbn [List.map List.fold_right rsum].
    replace (fst y + _ - (fst z + _)) with (fst (y - z)%C + (audible m1 - audible m2)) by (unfold audible; cbn; ring).
    eapply Rle_trans; [apply Rabs_triang|]. unfold rsum. cbn [List.fold_right]. fold (rsum ws). rewrite Rmult_plus_distr_l. apply Rplus_le_compat.
    + eapply Rle_trans; [apply fst_le_Cmod|]. exact (H 0%nat w y z eq_refl eq_refl eq_refl).
    + apply IH; [now injection L1|now injection L2|]. intros j w' y' z' A B E. exact (H (S j) w' y' z' A B E).
Qed.
Lemma memDiff_zero D ws n : 0 <= D -> List.Forall (fun w => 0 <= w) ws -> memDiff D ws (repeat (RtoC 0) n) (repeat (RtoC 0) n).
Proof.
  intros HD Hws j w y z Ew Ey Ez. apply nth_error_In, repeat_spec in Ey, Ez. subst.
  replace (RtoC 0 - RtoC 0)%C with (RtoC 0) by ring. rewrite Cmod_0.
  apply Rmult_le_pos; [exact HD|]. rewrite List.Forall_forall in Hws. apply Hws. now apply nth_error_In in Ew.
Qed.

Definition optRel {A} (P : A -> A -> Prop) (x y : option A) : Prop :=
  match x, y with Some a, Some b => P a b | None, None => True | _, _ => False end.

Section Exact.
Variable src : Resampler RNum.
Variable dbg : bool.
Variable F : Filt RNum.
Hypothesis HF : exactFilter F.

(** the same state up to the selected waveform and the filter memory *)
Record twin (a b : Ideal) : Prop := {
  tw_K : id_K a = id_K b; tw_nw : id_nw a = id_nw b; tw_wfs : id_wfs a = id_wfs b; tw_tab : id_tab a = id_tab b;
  tw_ph : id_phase a = id_phase b; tw_st : id_step a = id_step b; tw_en : id_entry a = id_entry b }.
Definition sameNw (a b : Ideal) : Prop := id_nw a = id_nw b.

Lemma twin_sample dir a b p a' y : twin a b -> sample src dbg F dir a p a' y ->
  exists b' z x, sample src dbg F dir b p b' z /\ twin a' b' /\ id_wf a' = id_wf a /\ id_wf b' = id_wf b /\
    y = audible (id_mem a') /\ z = audible (id_mem b') /\
    (id_wf a = id_wf b -> id_mem a' = allPoles F x (id_mem a) /\ id_mem b' = allPoles F x (id_mem b)).
Proof.
  intros [] S. destruct S as [d w' m g mu gu mem Hsh Hd Hd0 Hdr Hf Htr Hmem].
  eexists. eexists. exists (mixed src a (id_phase a) d (m, g, mu, gu)). split.
  - eapply (sample_ src dbg F dir b p d w' m g mu gu); [exact Hsh| |exact Hd0|exact Hdr| | |reflexivity].
    + now rewrite <- tw_ph0.
    + now rewrite <- tw_tab0.
    + unfold traceable in *. rewrite <- tw_K0, <- tw_ph0, <- tw_st0, <- tw_en0. exact Htr.
  - split; [constructor; cbn; auto|]. cbn [id_wf id_mem]. repeat (split; [reflexivity|]). intros Ew. split; [exact Hmem|].
    rewrite <- tw_ph0. unfold mixed, entry. rewrite <- Ew, <- tw_wfs0, <- tw_K0. reflexivity.
Qed.
Lemma twin_block dir a ps a' ys : block src dbg F dir a ps a' ys -> forall b, twin a b ->
  exists b' zs, block src dbg F dir b ps b' zs /\ twin a' b'.
Proof.
  induction 1 as [st|st p st1 y ps st2 ys Hs Hb IH]; intros b T.
  - exists b, []. split; [constructor|exact T].
  - destruct (twin_sample _ _ _ _ _ _ T Hs) as (b1 & z & x & Sb & T1 & _). destruct (IH b1 T1) as (b' & zs & B & T2).
    exists b', (z :: zs). split; [econstructor; eassumption|exact T2].
Qed.
Lemma twin_fresh K nw wfs w wf wf' p d a : fresh dbg F K nw wfs w wf p d a -> exists b, fresh dbg F K nw wfs w wf' p d b /\ twin a b /\
  id_wf a = wf /\ id_wf b = wf' /\ id_mem a = repeat (RtoC 0) (length (f_r F)) /\ id_mem b = repeat (RtoC 0) (length (f_r F)).
Proof.
  intros S. destruct S as [w' m g mu gu Hsh Hd0 Hf]. eexists. split; [econstructor; eassumption|].
  split; [constructor; reflexivity|]. repeat (split; [reflexivity|]). reflexivity.
Qed.
Lemma block_nw dir a ps a' ys : block src dbg F dir a ps a' ys -> id_nw a' = id_nw a.
Proof. induction 1 as [|st p st1 y ps st2 ys Hs Hb IH]; [reflexivity|]. rewrite IH. destruct Hs. reflexivity. Qed.
Lemma fresh_nw K nw wfs w wf p d a : fresh dbg F K nw wfs w wf p d a -> id_nw a = nw.
Proof. intros S. now destruct S. Qed.

(** what a history starting with a given call looks like *)
Lemma plays_inv st op rest st' ys : plays src dbg F st (op :: rest) st' ys ->
  match op with
  | OpInit None _ _ | OpSwap None _ _ => plays src dbg F st rest st' ys
  | OpInit (Some w) p d | OpSwap (Some w) p d => exists K nw wfs st1, wellFormed RNum wfs nw K /\ table src dbg wfs nw w /\
      fresh dbg F K nw wfs w 0 p d st1 /\ plays src dbg F (Some st1) rest st' ys
  | OpReset p d => exists s st1, st = Some s /\ fresh dbg F (id_K s) (id_nw s) (id_wfs s) (id_tab s) (id_wf s) p d st1 /\
      plays src dbg F (Some st1) rest st' ys
  | OpSetWaveform k => exists s, st = Some s /\ (0 <= k < id_nw s)%Z /\
      plays src dbg F (Some (mkIdeal (id_K s) (id_nw s) (id_wfs s) (id_tab s) k (id_phase s) (id_step s) (id_entry s) (id_mem s))) rest st' ys
  | OpUpdateSamplerate sr => exists s w', st = Some s /\ 200 <= sr /\ sr < IZR int_max /\
      wt_updateSamplerate RNum src dbg (id_tab s) sr (5 / 1000) = Ok w' /\
      plays src dbg F (Some (mkIdeal (id_K s) (id_nw s) (id_wfs s) w' (id_wf s) (id_phase s) (id_step s) (id_entry s) (id_mem s))) rest st' ys
  | OpProcess dir ps => exists s st1 y1 y2, st = Some s /\ block src dbg F dir s ps st1 y1 /\ ys = y1 ++ y2 /\
      plays src dbg F (Some st1) rest st' y2
  end.
Proof.
  intros H. remember (op :: rest) as l eqn:E. destruct H as [st|st op0 rest0 st' ys Hop Hp|st op0 w p d K nw wfs st1 rest0 st' ys Hop HW HT Hf Hp
                 |st p d st1 rest0 st' ys Hf Hp|st k rest0 st' ys Hk Hp|st sr w' rest0 st' ys H1 H2 Hu Hp
                 |st dir ps st1 ys rest0 st' zs Hb Hp]; try discriminate; injection E as E1 E2; subst.
  - destruct Hop as (p & d & [-> | ->]); exact Hp.
  - destruct Hop as [-> | ->]; exists K, nw, wfs, st1; auto.
  - exists st, st1. auto.
  - exists st. auto.
  - exists st, w'. auto.
  - exists st, st1, ys, zs. auto.
Qed.

Lemma twinO_some s (t : option Ideal) : optRel twin (Some s) t -> exists b, t = Some b /\ twin s b.
Proof. destruct t as [b|]; cbn; [eauto|tauto]. Qed.
Lemma nwO_some s (t : option Ideal) : optRel sameNw (Some s) t -> exists b, t = Some b /\ id_nw s = id_nw b.
Proof. destruct t as [b|]; cbn; [eauto|tauto]. Qed.

(** a second script, equal up to selections, played on the samples of the first *)
Lemma replay s1 ops1 s1' Y1 : plays src dbg F s1 ops1 s1' Y1 -> forall ops2 s2 s2' Y2, Forall2 sameButWaveform ops1 ops2 ->
  plays src dbg F s2 ops2 s2' Y2 -> forall t2, optRel twin s1 t2 -> optRel sameNw s2 t2 ->
  exists t2' Z2, plays src dbg F t2 ops2 t2' Z2 /\ optRel twin s1' t2' /\ optRel sameNw s2' t2'.
Proof.
  induction 1 as [st|st op rest st' ys Hop Hp IH|st op w p d K nw wfs st1 rest st' ys Hop HW HT Hf Hp IH
                 |st p d st1 rest st' ys Hf Hp IH|st k rest st' ys Hk Hp IH|st sr w' rest st' ys H1 H2 Hu Hp IH
                 |st dir ps st1 ys rest st' zs Hb Hp IH]; intros ops2 s2 s2' Y2 HS P2 t2 T Nw; inversion HS as [|o1 o2 l1 l2 Hs HSr]; subst.
  - inversion P2; subst. exists t2, []. split; [constructor|]. split; assumption.
  - destruct Hop as (p & d & Ho). destruct Hs as [<- | (i & j & -> & ->)]; [|destruct Ho; discriminate].
    assert (P2' : plays src dbg F s2 l2 s2' Y2) by (destruct Ho as [-> | ->]; exact (plays_inv _ _ _ _ _ P2)).
    destruct (IH _ _ _ _ HSr P2' t2 T Nw) as (t2' & Z2 & A & B). exists t2', Z2. split; [|exact B]. eapply pl_null; [|exact A]. exists p, d. exact Ho.
  - destruct Hs as [<- | (i & j & -> & ->)]; [|destruct Hop; discriminate].
    assert (Q : exists K nw wfs st1, wellFormed RNum wfs nw K /\ table src dbg wfs nw w /\
      fresh dbg F K nw wfs w 0 p d st1 /\ plays src dbg F (Some st1) l2 s2' Y2) by (destruct Hop as [-> | ->]; exact (plays_inv _ _ _ _ _ P2)).
    destruct Q as (K2 & nw2 & wfs2 & st2 & HW2 & HT2 & Hf2 & P2').
    assert (En : nw = nw2).
    { destruct (table_unique src dbg wfs nw K wfs2 nw2 K2 w 0 0 HW HT HW2 HT2) as (_ & E & _); [destruct HW as (_ & ? & _); lia|destruct HW; lia|exact E]. }
    destruct (twin_fresh _ _ _ _ _ 0%Z _ _ _ Hf) as (b & Fb & Tb & _).
    destruct (IH _ _ _ _ HSr P2' (Some b) Tb) as (t2' & Z2 & A & B).
    { cbn. unfold sameNw. rewrite (fresh_nw _ _ _ _ _ _ _ _ Hf2), (fresh_nw _ _ _ _ _ _ _ _ Fb). now symmetry. }
    exists t2', Z2. split; [|exact B]. eapply pl_load; [exact Hop|exact HW|exact HT|exact Fb|exact A].
  - destruct Hs as [<- | (i & j & E & E9)]; [|discriminate E]. destruct (plays_inv _ _ _ _ _ P2) as (s & sb & -> & Hf2 & P2').
    destruct (twinO_some _ _ T) as (b & -> & Tb). cbn in Nw. unfold sameNw in Nw.
    destruct (twin_fresh _ _ _ _ _ (id_wf b) _ _ _ Hf) as (b1 & Fb & Tb1 & _).
    rewrite (tw_K _ _ Tb), (tw_nw _ _ Tb), (tw_wfs _ _ Tb), (tw_tab _ _ Tb) in Fb.
    destruct (IH _ _ _ _ HSr P2' (Some b1) Tb1) as (t2' & Z2 & A & B).
    { cbn. unfold sameNw. rewrite (fresh_nw _ _ _ _ _ _ _ _ Hf2), (fresh_nw _ _ _ _ _ _ _ _ Fb). exact Nw. }
    exists t2', Z2. split; [|exact B]. eapply pl_reset; [exact Fb|exact A].
  - assert (Hj : exists j, o2 = OpSetWaveform RNum j) by (destruct Hs as [<- | (i & j & E & ->)]; eauto). destruct Hj as [j ->].
    destruct (plays_inv _ _ _ _ _ P2) as (s & -> & Hj & P2'). destruct (twinO_some _ _ T) as (b & -> & Tb). cbn in Nw. unfold sameNw in Nw.
    destruct (IH _ _ _ _ HSr P2' (Some (mkIdeal (id_K b) (id_nw b) (id_wfs b) (id_tab b) j (id_phase b) (id_step b) (id_entry b) (id_mem b)))) as (t2' & Z2 & A & B).
    { cbn. destruct Tb. constructor; cbn; assumption. }
    { cbn. exact Nw. }
    exists t2', Z2. split; [|exact B]. eapply pl_select; [|exact A]. lia.
  - destruct Hs as [<- | (i & j & E & E9)]; [|discriminate E]. destruct (plays_inv _ _ _ _ _ P2) as (s & w2 & -> & _ & _ & _ & P2').
    destruct (twinO_some _ _ T) as (b & -> & Tb). cbn in Nw. unfold sameNw in Nw.
    destruct (IH _ _ _ _ HSr P2' (Some (mkIdeal (id_K b) (id_nw b) (id_wfs b) w' (id_wf b) (id_phase b) (id_step b) (id_entry b) (id_mem b)))) as (t2' & Z2 & A & B).
    { cbn. destruct Tb. constructor; cbn; auto. }
    { cbn. exact Nw. }
    exists t2', Z2. split; [|exact B]. eapply pl_rate; [exact H1|exact H2| |exact A]. now rewrite <- (tw_tab _ _ Tb).
  - destruct Hs as [<- | (i & j & E & E9)]; [|discriminate E]. destruct (plays_inv _ _ _ _ _ P2) as (s & sb & y1 & y2 & -> & Hb2 & -> & P2').
    destruct (twinO_some _ _ T) as (b & -> & Tb). cbn in Nw. unfold sameNw in Nw.
    destruct (twin_block _ _ _ _ _ Hb b Tb) as (b1 & zb & Bb & Tb1).
    destruct (IH _ _ _ _ HSr P2' (Some b1) Tb1) as (t2' & Z2 & A & B).
    { cbn. unfold sameNw. rewrite (block_nw _ _ _ _ _ Hb2), (block_nw _ _ _ _ _ Bb). exact Nw. }
    exists t2', (zb ++ Z2). split; [|exact B]. eapply pl_process; [exact Bb|exact A].
Qed.

(** ** From the same selection on *)
Variables (theta : R) (ws : list R).
Hypothesis Hth : List.Forall (fun z : C => exp (fst z) <= theta) (f_z F).
Hypothesis Hth1 : 0 <= theta <= 1.
Hypothesis Hws : List.Forall (fun w => 0 <= w) ws.
Hypothesis Lws : length ws = length (f_r F).

Record nearTwin (D : R) (a b : Ideal) : Prop := {
  nt_twin : twin a b; nt_wf : id_wf a = id_wf b;
  nt_la : length (id_mem a) = length (f_r F); nt_lb : length (id_mem b) = length (f_r F);
  nt_mem : memDiff D ws (id_mem a) (id_mem b) }.

Definition fading (D : R) (Y Z : list R) : Prop :=
  length Y = length Z /\ forall n y z, nth_error Y n = Some y -> nth_error Z n = Some z -> Rabs (y - z) <= D * theta ^ S n * rsum ws.

Lemma fading_app D Y Z Y2 Z2 : fading D Y Z -> fading (theta ^ length Y * D) Y2 Z2 -> fading D (Y ++ Y2) (Z ++ Z2).
Proof.
  intros [L H] [L2 H2]. split; [rewrite !app_length; congruence|]. intros n y z Ey Ez.
  destruct (Nat.lt_ge_cases n (length Y)) as [Hn|Hn].
  - rewrite nth_error_app1 in Ey, Ez by lia. now apply H.
  - rewrite nth_error_app2 in Ey, Ez by lia. rewrite <- L in Ez. assert (A := H2 _ _ _ Ey Ez).
    replace (D * theta ^ S n) with (theta ^ length Y * D * theta ^ S (n - length Y)); [exact A|].
    replace (S n) with (length Y + S (n - length Y))%nat by lia. rewrite pow_add. ring.
Qed.
Lemma near_block dir a ps a' ys : block src dbg F dir a ps a' ys -> forall b D, 0 <= D -> nearTwin D a b ->
  exists b' zs, block src dbg F dir b ps b' zs /\ nearTwin (theta ^ length ys * D) a' b' /\ fading D ys zs.
Proof.
  induction 1 as [st|st p st1 y ps st2 ys Hs Hb IH]; intros b D HD [T W La Lb M].
  - exists b, []. split; [constructor|]. split; [|split; [reflexivity|intros [|n]; discriminate]].
    cbn [length pow]. rewrite Rmult_1_l. constructor; assumption.
  - destruct (twin_sample _ _ _ _ _ _ T Hs) as (b1 & z & x & Sb & T1 & Wa & Wb & Ey & Ez & Hm). destruct (Hm W) as [Ma Mb].
    assert (N1 : nearTwin (theta * D) st1 b1).
    { constructor; [exact T1|congruence|rewrite Ma; now apply length_allP|rewrite Mb; now apply length_allP|].
      rewrite Ma, Mb. now apply memDiff_step. }
    destruct (IH b1 (theta * D) ltac:(apply Rmult_le_pos; lra) N1) as (b' & zs & B & N2 & Fd).
    exists b', (z :: zs). split; [econstructor; eassumption|]. split.
    + cbn [length]. replace (theta ^ S (length ys) * D) with (theta ^ length ys * (theta * D)) by (cbn [pow]; ring). exact N2.
    + apply (fading_app D [y] [z] ys zs).
      * split; [reflexivity|]. intros [|[|n]] v w Ev Ew; cbn in Ev, Ew; try discriminate.
        assert (v = y) by congruence. assert (w = z) by congruence. subst v w. rewrite Ey, Ez.
        replace (D * theta ^ 1) with (theta * D) by ring. apply memDiff_sum; [rewrite (nt_la _ _ _ N1); lia|rewrite (nt_lb _ _ _ N1); lia|apply N1].
      * cbn [length]. replace (theta ^ 1 * D) with (theta * D) by ring. exact Fd.
Qed.

Lemma decayR s1 ops s1' Y1 : plays src dbg F s1 ops s1' Y1 -> forall s2 s2' Y2,
  plays src dbg F s2 ops s2' Y2 -> forall t2 D, 0 <= D -> optRel (nearTwin D) s1 t2 -> optRel sameNw s2 t2 ->
  exists t2' Z2, plays src dbg F t2 ops t2' Z2 /\ fading D Y1 Z2.
Proof.
  induction 1 as [st|st op rest st' ys Hop Hp IH|st op w p d K nw wfs st1 rest st' ys Hop HW HT Hf Hp IH
                 |st p d st1 rest st' ys Hf Hp IH|st k rest st' ys Hk Hp IH|st sr w' rest st' ys H1 H2 Hu Hp IH
                 |st dir ps st1 ys rest st' zs Hb Hp IH]; intros s2 s2' Y2 P2 t2 D HD T Nw.
  - exists t2, []. split; [constructor|]. split; [reflexivity|intros [|n]; discriminate].
  - destruct Hop as (p & d & Ho).
    assert (P2' : plays src dbg F s2 rest s2' Y2) by (destruct Ho as [-> | ->]; exact (plays_inv _ _ _ _ _ P2)).
    destruct (IH _ _ _ P2' t2 D HD T Nw) as (t2' & Z2 & A & B). exists t2', Z2. split; [|exact B]. eapply pl_null; [|exact A]. exists p, d. exact Ho.
  - assert (Q : exists K nw wfs st1, wellFormed RNum wfs nw K /\ table src dbg wfs nw w /\
      fresh dbg F K nw wfs w 0 p d st1 /\ plays src dbg F (Some st1) rest s2' Y2) by (destruct Hop as [-> | ->]; exact (plays_inv _ _ _ _ _ P2)).
    destruct Q as (K2 & nw2 & wfs2 & st2 & HW2 & HT2 & Hf2 & P2').
    assert (En : nw = nw2).
    { destruct (table_unique src dbg wfs nw K wfs2 nw2 K2 w 0 0 HW HT HW2 HT2) as (_ & E & _); [destruct HW as (_ & ? & _); lia|destruct HW; lia|exact E]. }
    destruct (twin_fresh _ _ _ _ _ 0%Z _ _ _ Hf) as (b & Fb & Tb & Wa & Wb & Ma & Mb).
    destruct (IH _ _ _ P2' (Some b) D HD) as (t2' & Z2 & A & B).
    { cbn. constructor; [exact Tb|congruence|rewrite Ma; apply repeat_length|rewrite Mb; apply repeat_length|rewrite Ma, Mb; now apply memDiff_zero]. }
    { cbn. unfold sameNw. rewrite (fresh_nw _ _ _ _ _ _ _ _ Hf2), (fresh_nw _ _ _ _ _ _ _ _ Fb). now symmetry. }
    exists t2', Z2. split; [|exact B]. eapply pl_load; [exact Hop|exact HW|exact HT|exact Fb|exact A].
  - destruct (plays_inv _ _ _ _ _ P2) as (s & sb & -> & Hf2 & P2').
    destruct t2 as [b|]; [|contradiction]. cbn in T, Nw. unfold sameNw in Nw. destruct T as [Tb Wt _ _ _].
    destruct (twin_fresh _ _ _ _ _ (id_wf b) _ _ _ Hf) as (b1 & Fb & Tb1 & Wa & Wb & Ma & Mb).
    rewrite (tw_K _ _ Tb), (tw_nw _ _ Tb), (tw_wfs _ _ Tb), (tw_tab _ _ Tb) in Fb.
    destruct (IH _ _ _ P2' (Some b1) D HD) as (t2' & Z2 & A & B).
    { cbn. constructor; [exact Tb1|congruence|rewrite Ma; apply repeat_length|rewrite Mb; apply repeat_length|rewrite Ma, Mb; now apply memDiff_zero]. }
    { cbn. unfold sameNw. rewrite (fresh_nw _ _ _ _ _ _ _ _ Hf2), (fresh_nw _ _ _ _ _ _ _ _ Fb). exact Nw. }
    exists t2', Z2. split; [|exact B]. eapply pl_reset; [exact Fb|exact A].
  - destruct (plays_inv _ _ _ _ _ P2) as (s & -> & Hj & P2'). destruct t2 as [b|]; [|contradiction]. cbn in T, Nw. unfold sameNw in Nw.
    destruct T as [Tb Wt La Lb M].
    destruct (IH _ _ _ P2' (Some (mkIdeal (id_K b) (id_nw b) (id_wfs b) (id_tab b) k (id_phase b) (id_step b) (id_entry b) (id_mem b))) D HD) as (t2' & Z2 & A & B).
    { cbn. constructor; cbn; auto. destruct Tb. constructor; cbn; assumption. }
    { cbn. exact Nw. }
    exists t2', Z2. split; [|exact B]. eapply pl_select; [|exact A]. lia.
  - destruct (plays_inv _ _ _ _ _ P2) as (s & w2 & -> & _ & _ & _ & P2'). destruct t2 as [b|]; [|contradiction]. cbn in T, Nw. unfold sameNw in Nw.
    destruct T as [Tb Wt La Lb M].
    destruct (IH _ _ _ P2' (Some (mkIdeal (id_K b) (id_nw b) (id_wfs b) w' (id_wf b) (id_phase b) (id_step b) (id_entry b) (id_mem b))) D HD) as (t2' & Z2 & A & B).
    { cbn. constructor; cbn; auto. destruct Tb. constructor; cbn; auto. }
    { cbn. exact Nw. }
    exists t2', Z2. split; [|exact B]. eapply pl_rate; [exact H1|exact H2| |exact A]. now rewrite <- (tw_tab _ _ Tb).
  - destruct (plays_inv _ _ _ _ _ P2) as (s & sb & y1 & y2 & -> & Hb2 & -> & P2'). destruct t2 as [b|]; [|contradiction]. cbn in T, Nw. unfold sameNw in Nw.
    destruct (near_block _ _ _ _ _ Hb b D HD T) as (b1 & zb & Bb & Nb & Fd).
    destruct (IH _ _ _ P2' (Some b1) (theta ^ length ys * D)) as (t2' & Z2 & A & B).
    { apply Rmult_le_pos; [apply pow_le; lra|exact HD]. }
    { exact Nb. }
    { cbn. unfold sameNw. rewrite (block_nw _ _ _ _ _ Hb2), (block_nw _ _ _ _ _ Bb). exact Nw. }
    exists t2', (zb ++ Z2). split; [eapply pl_process; [exact Bb|exact A]|]. now apply fading_app.
Qed.
End Exact.

Lemma plays_app_inv src dbg F ops1 ops2 : forall st st2 ys, plays src dbg F st (ops1 ++ ops2) st2 ys ->
  exists st1 y1 y2, plays src dbg F st ops1 st1 y1 /\ plays src dbg F st1 ops2 st2 y2 /\ ys = y1 ++ y2.
Proof.
  induction ops1 as [|op ops1 IH]; intros st st2 ys H.
  - exists st, [], ys. split; [constructor|]. split; [exact H|reflexivity].
  - cbn [app] in H. remember (op :: ops1 ++ ops2) as l eqn:E. destruct H as [st|st op0 rest0 st' ys Hop Hp|st op0 w p d K nw wfs st1 rest0 st' ys Hop HW HT Hf Hp
                 |st p d st1 rest0 st' ys Hf Hp|st k rest0 st' ys Hk Hp|st sr w' rest0 st' ys H1 H2 Hu Hp
                 |st dir ps st1 ys rest0 st' zs Hb Hp]; try discriminate; injection E as E1 E2; subst;
      destruct (IH _ _ _ Hp) as (sm & y1 & y2 & A & B & ->).
    + exists sm, y1, y2. split; [|auto]. eapply pl_null; eassumption.
    + exists sm, y1, y2. split; [|auto]. eapply pl_load; [exact Hop|exact HW|exact HT|exact Hf|exact A].
    + exists sm, y1, y2. split; [|auto]. eapply pl_reset; [exact Hf|exact A].
    + exists sm, y1, y2. split; [|auto]. eapply pl_select; eassumption.
    + exists sm, y1, y2. split; [|auto]. eapply pl_rate; eassumption.
    + exists sm, (ys ++ y1), y2. split; [eapply pl_process; eassumption|]. split; [exact B|]. apply app_assoc.
Qed.

(** the final state stays within bounds *)
Lemma plays_within_st src dbg F (HF : exactFilter F) B (Hst : stable F) st ops st' ys : 0 <= B -> plays src dbg F st ops st' ys ->
  withinO src dbg F B st -> loads src dbg (fun y => Rabs y <= B) ops -> withinO src dbg F B st'.
Proof.
  intros HB. induction 1 as [st|st op rest st' ys Hop Hp IH|st op w p d K nw wfs st1 rest st' ys Hop HW HT Hf Hp IH
                 |st p d st1 rest st' ys Hf Hp IH|st k rest st' ys Hk Hp IH|st sr w' rest st' ys H1 H2 Hu Hp IH
                 |st dir ps st1 ys rest st' zs Hb Hp IH]; intros W HL.
  all: try assert (HL' : loads src dbg (fun y => Rabs y <= B) rest) by (intros w9 p9 d9 Hin; apply (HL w9 p9 d9); destruct Hin; [left|right]; now right).
  - exact W.
  - apply IH; assumption.
  - apply IH; [|assumption]. cbn [withinO]. split.
    + eapply fresh_live; try eassumption. destruct HW as (_ & H & _). lia.
    + eapply fresh_within; try eassumption. 
      apply (samplesOf_all src dbg _ w wfs nw K); auto. apply (HL w p d). destruct Hop as [-> | ->]; [left|right]; now left.
  - destruct W as [L W]. apply IH; [|assumption]. split.
    + eapply fresh_live; try eassumption; apply L.
    + eapply fresh_within; try eassumption. apply W.
  - destruct W as [L W]. apply IH; [|assumption]. split; [now apply live_select|exact W].
  - destruct W as [L W]. apply IH; [|assumption]. split; [eapply live_rate; eassumption|exact W].
  - destruct W as [L W]. destruct (block_within src dbg F HF B Hst _ _ _ _ _ Hb L W) as [W1 Y1].
    apply IH; [|assumption]. split; [eapply block_live; eassumption|assumption].
Qed.
