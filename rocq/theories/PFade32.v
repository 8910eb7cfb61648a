(** * PFade32: proof support for C56, single precision *)
From Coq Require Import ZArith List Bool Reals Lia Lra Arith.
From Flocq Require Import Core IEEE754.BinarySingleNaN.
From Verif Require Import Num Maths CrossFader Wavetable Filters Osc Spec SpecC SpecT NumFacts Laws CFFacts
  WTFacts BuildFacts SimdFacts OscFacts OscStep OscRun OscHist CFHist PTables PHist RNum RLaws B32 B32Facts B32Laws SpecF SpecO SpecW PCross PWork SpecJ.
From Coquelicot Require Import Coquelicot.
From Verif Require Import SpecE SpecX SpecV SpecG SpecH SpecR SpecL ExactMath ExactSig ExactLaws PExact ConvFacts PGain PHarm
  PApx PTerm PPole PSum PTrack PTrackS PTrackH PCover32 PFade.
Import ListNotations.
Local Open Scope R_scope.

Section Single.
Variable lm : Libm.
Hypothesis Hlog : log2_exact lm.
Variable src : Resampler (B32 lm).
Variable dbg : bool.
Variable f : FilterType.
Variable c : Z.
Notation F := (filt RNum f).
Notation N := (B32 lm).

(** the same state up to the selected waveform and the filter memory *)
Record twin3 (a b : Ideal32 lm) : Prop := {
  tv_K : i_K lm a = i_K lm b; tv_nw : i_nw lm a = i_nw lm b; tv_wfs : i_wfs lm a = i_wfs lm b; tv_tab : i_tab lm a = i_tab lm b;
  tv_ph : i_phase lm a = i_phase lm b; tv_st : i_step lm a = i_step lm b; tv_en : i_entry lm a = i_entry lm b }.
Definition sameNw3 (a b : Ideal32 lm) : Prop := i_nw lm a = i_nw lm b.

Lemma table_nw K nw wfs K' nw' wfs' w : table32 lm src dbg K nw wfs w -> table32 lm src dbg K' nw' wfs' w -> nw = nw'.
Proof.
  intros H H'. destruct (table32_ok lm Hlog src dbg _ _ _ _ H) as (_ & Ct & _). destruct (table32_ok lm Hlog src dbg _ _ _ _ H') as (_ & Ct' & _).
  assert (A := ct_nw _ _ _ _ _ _ Ct). assert (A' := ct_nw _ _ _ _ _ _ Ct'). congruence.
Qed.
Lemma len_allP x ys : length ys = numCoeffs f -> length (allPoles F x ys) = numCoeffs f.
Proof.
  intros H. assert (E : length (f_r F) = numCoeffs f) by (destruct f; reflexivity). rewrite <- E in *. apply length_allP; [apply shipped_exact|exact H].
Qed.
Lemma twin_sample3 dir a b p a' y : twin3 a b -> sample32 lm src dbg f dir a p a' y ->
  exists b' z x, sample32 lm src dbg f dir b p b' z /\ twin3 a' b' /\ i_wf lm a' = i_wf lm a /\ i_wf lm b' = i_wf lm b /\
    y = audible (i_mem lm a') /\ z = audible (i_mem lm b') /\
    (i_wf lm a = i_wf lm b -> i_mem lm a' = allPoles F x (i_mem lm a) /\ i_mem lm b' = allPoles F x (i_mem lm b)).
Proof.
  intros [] S. destruct S as [s d k w' m g mu gu mem Hsh Hs Hs0 Hs1 Hd Hd1 Hf Htr Hmem].
  eexists. eexists. exists (fun u => B2R g * curve lm src a m (B2R (i_phase lm a) + d * u)
                    + B2R gu * curve lm src a mu (B2R (i_phase lm a) + d * u)). split.
  - eapply (sample32_ lm src dbg f dir b p s d k w' m g mu gu); [exact Hsh| |exact Hs0|exact Hs1| |exact Hd1| | |reflexivity].
    + now rewrite <- tv_ph0.
    + now rewrite <- tv_ph0.
    + now rewrite <- tv_tab0.
    + unfold traceable32 in *. rewrite <- tv_K0, <- tv_ph0, <- tv_st0, <- tv_en0. exact Htr.
  - split; [constructor; cbn; auto|]. cbn [i_wf i_mem]. repeat (split; [reflexivity|]). intros Ew. split; [exact Hmem|].
    rewrite <- tv_ph0. unfold curve. rewrite <- Ew, <- tv_wfs0, <- tv_K0. reflexivity.
Qed.
Lemma twin_block3 dir a ps a' ys : block32 lm src dbg f dir a ps a' ys -> forall b, twin3 a b ->
  exists b' zs, block32 lm src dbg f dir b ps b' zs /\ twin3 a' b'.
Proof.
  induction 1 as [st|st p st1 y ps st2 ys Hs Hb IH]; intros b T.
  - exists b, []. split; [constructor|exact T].
  - destruct (twin_sample3 _ _ _ _ _ _ T Hs) as (b1 & z & x & Sb & T1 & _). destruct (IH b1 T1) as (b' & zs & B & T2).
    exists b', (z :: zs). split; [econstructor; eassumption|exact T2].
Qed.
Lemma twin_fresh3 K nw wfs w wf wf' p d a : fresh32 lm dbg f K nw wfs w wf p d a -> exists b, fresh32 lm dbg f K nw wfs w wf' p d b /\ twin3 a b /\
  i_wf lm a = wf /\ i_wf lm b = wf' /\ i_mem lm a = repeat (RtoC 0) (numCoeffs f) /\ i_mem lm b = repeat (RtoC 0) (numCoeffs f).
Proof.
  intros S. destruct S as [w' m g mu gu Hsh Hfd Hd0 Hf]. eexists. split; [econstructor; eassumption|].
  split; [constructor; reflexivity|]. repeat (split; [reflexivity|]). reflexivity.
Qed.
Lemma block_nw3 dir a ps a' ys : block32 lm src dbg f dir a ps a' ys -> i_nw lm a' = i_nw lm a.
Proof. induction 1 as [|st p st1 y ps st2 ys Hs Hb IH]; [reflexivity|]. rewrite IH. destruct Hs. reflexivity. Qed.
Lemma fresh_nw3 K nw wfs w wf p d a : fresh32 lm dbg f K nw wfs w wf p d a -> i_nw lm a = nw.
Proof. intros S. now destruct S. Qed.

(** what a history starting with a given call looks like *)
Lemma plays_inv3 st op rest st' ys : plays32 lm src dbg f c st (op :: rest) st' ys ->
  match op with
  | OpInit None _ _ | OpSwap None _ _ => plays32 lm src dbg f c st rest st' ys
  | OpInit (Some w) p d | OpSwap (Some w) p d => exists K nw wfs st1, table32 lm src dbg K nw wfs w /\ tameAll lm src c wfs nw K /\
      fresh32 lm dbg f K nw wfs w 0 p d st1 /\ plays32 lm src dbg f c (Some st1) rest st' ys
  | OpReset p d => exists s st1, st = Some s /\ fresh32 lm dbg f (i_K lm s) (i_nw lm s) (i_wfs lm s) (i_tab lm s) (i_wf lm s) p d st1 /\
      plays32 lm src dbg f c (Some st1) rest st' ys
  | OpSetWaveform k => exists s, st = Some s /\ (0 <= k < i_nw lm s)%Z /\
      plays32 lm src dbg f c (Some (mkI32 lm (i_K lm s) (i_nw lm s) (i_wfs lm s) (i_tab lm s) k (i_phase lm s) (i_step lm s) (i_entry lm s) (i_mem lm s))) rest st' ys
  | OpUpdateSamplerate sr => exists s w' wfs', st = Some s /\ okRate lm sr /\ rebuildWaveforms N dbg (i_tab lm s) = Ok wfs' /\
      wt_updateSamplerate N src dbg (i_tab lm s) sr (defaultFade N) = Ok w' /\ tameAll lm src c wfs' (i_nw lm s) (i_K lm s) /\
      plays32 lm src dbg f c (Some (mkI32 lm (i_K lm s) (i_nw lm s) wfs' w' (i_wf lm s) (i_phase lm s) (i_step lm s) (i_entry lm s) (i_mem lm s))) rest st' ys
  | OpProcess dir ps => exists s st1 y1 y2, st = Some s /\ block32 lm src dbg f dir s ps st1 y1 /\ ys = y1 ++ y2 /\
      plays32 lm src dbg f c (Some st1) rest st' y2
  end.
Proof.
  intros H. remember (op :: rest) as l eqn:E. destruct H as [st|st op0 rest0 st' ys Hop Hp|st op0 w p d K nw wfs st1 rest0 st' ys Hop HT Ht Hf Hp
                 |st p d st1 rest0 st' ys Hf Hp|st k rest0 st' ys Hk Hp|st sr w' wfs' rest0 st' ys H1 H2 Hu Ht Hp
                 |st dir ps st1 ys rest0 st' zs Hb Hp]; try discriminate; injection E as E1 E2; subst.
  - destruct Hop as (p & d & [-> | ->]); exact Hp.
  - destruct Hop as [-> | ->]; exists K, nw, wfs, st1; auto.
  - exists st, st1. auto.
  - exists st. auto.
  - exists st, w', wfs'. auto 8.
  - exists st, st1, ys, zs. auto.
Qed.

Lemma twinO_some3 s (t : option (Ideal32 lm)) : optRel twin3 (Some s) t -> exists b, t = Some b /\ twin3 s b.
Proof. destruct t as [b|]; cbn; [eauto|tauto]. Qed.
Lemma nwO_some3 s (t : option (Ideal32 lm)) : optRel sameNw3 (Some s) t -> exists b, t = Some b /\ i_nw lm s = i_nw lm b.
Proof. destruct t as [b|]; cbn; [eauto|tauto]. Qed.

(** a second script, equal up to selections, played on the samples of the first *)
Lemma replay3 s1 ops1 s1' Y1 : plays32 lm src dbg f c s1 ops1 s1' Y1 -> forall ops2 s2 s2' Y2, Forall2 sameButWaveform ops1 ops2 ->
  plays32 lm src dbg f c s2 ops2 s2' Y2 -> forall t2, optRel twin3 s1 t2 -> optRel sameNw3 s2 t2 ->
  exists t2' Z2, plays32 lm src dbg f c t2 ops2 t2' Z2 /\ optRel twin3 s1' t2' /\ optRel sameNw3 s2' t2'.
Proof.
  induction 1 as [st|st op rest st' ys Hop Hp IH|st op w p d K nw wfs st1 rest st' ys Hop HT Ht Hf Hp IH
                 |st p d st1 rest st' ys Hf Hp IH|st k rest st' ys Hk Hp IH|st sr w' wfs' rest st' ys H1 H2 Hu Ht Hp IH
                 |st dir ps st1 ys rest st' zs Hb Hp IH]; intros ops2 s2 s2' Y2 HS P2 t2 T Nw; inversion HS as [|o1 o2 l1 l2 Hs HSr]; subst.
  - inversion P2; subst. exists t2, []. split; [constructor|]. split; assumption.
  - destruct Hop as (p & d & Ho). destruct Hs as [<- | (i & j & -> & ->)]; [|destruct Ho; discriminate].
    assert (P2' : plays32 lm src dbg f c s2 l2 s2' Y2) by (destruct Ho as [-> | ->]; exact (plays_inv3 _ _ _ _ _ P2)).
    destruct (IH _ _ _ _ HSr P2' t2 T Nw) as (t2' & Z2 & A & B). exists t2', Z2. split; [|exact B]. eapply p32_null; [|exact A]. exists p, d. exact Ho.
  - destruct Hs as [<- | (i & j & -> & ->)]; [|destruct Hop; discriminate].
    assert (Q : exists K nw wfs st1, table32 lm src dbg K nw wfs w /\ tameAll lm src c wfs nw K /\
      fresh32 lm dbg f K nw wfs w 0 p d st1 /\ plays32 lm src dbg f c (Some st1) l2 s2' Y2) by (destruct Hop as [-> | ->]; exact (plays_inv3 _ _ _ _ _ P2)).
    destruct Q as (K2 & nw2 & wfs2 & st2 & HT2 & Ht2 & Hf2 & P2').
    assert (En : nw = nw2).
    { exact (table_nw _ _ _ _ _ _ _ HT HT2). }
    destruct (twin_fresh3 _ _ _ _ _ 0%Z _ _ _ Hf) as (b & Fb & Tb & _).
    destruct (IH _ _ _ _ HSr P2' (Some b) Tb) as (t2' & Z2 & A & B).
    { cbn. unfold sameNw3. rewrite (fresh_nw3 _ _ _ _ _ _ _ _ Hf2), (fresh_nw3 _ _ _ _ _ _ _ _ Fb). now symmetry. }
    exists t2', Z2. split; [|exact B]. eapply p32_load; [exact Hop|exact HT|exact Ht|exact Fb|exact A].
  - destruct Hs as [<- | (i & j & E & E9)]; [|discriminate E]. destruct (plays_inv3 _ _ _ _ _ P2) as (s & sb & -> & Hf2 & P2').
    destruct (twinO_some3 _ _ T) as (b & -> & Tb). cbn in Nw. unfold sameNw3 in Nw.
    destruct (twin_fresh3 _ _ _ _ _ (i_wf lm b) _ _ _ Hf) as (b1 & Fb & Tb1 & _).
    rewrite (tv_K _ _ Tb), (tv_nw _ _ Tb), (tv_wfs _ _ Tb), (tv_tab _ _ Tb) in Fb.
    destruct (IH _ _ _ _ HSr P2' (Some b1) Tb1) as (t2' & Z2 & A & B).
    { cbn. unfold sameNw3. rewrite (fresh_nw3 _ _ _ _ _ _ _ _ Hf2), (fresh_nw3 _ _ _ _ _ _ _ _ Fb). exact Nw. }
    exists t2', Z2. split; [|exact B]. eapply p32_reset; [exact Fb|exact A].
  - assert (Hj : exists j, o2 = OpSetWaveform N j) by (destruct Hs as [<- | (i & j & E & ->)]; eauto). destruct Hj as [j ->].
    destruct (plays_inv3 _ _ _ _ _ P2) as (s & -> & Hj & P2'). destruct (twinO_some3 _ _ T) as (b & -> & Tb). cbn in Nw. unfold sameNw3 in Nw.
    destruct (IH _ _ _ _ HSr P2' (Some (mkI32 lm (i_K lm b) (i_nw lm b) (i_wfs lm b) (i_tab lm b) j (i_phase lm b) (i_step lm b) (i_entry lm b) (i_mem lm b)))) as (t2' & Z2 & A & B).
    { cbn. destruct Tb. constructor; cbn; assumption. }
    { cbn. exact Nw. }
    exists t2', Z2. split; [|exact B]. eapply p32_select; [|exact A]. lia.
  - destruct Hs as [<- | (i & j & E & E9)]; [|discriminate E]. destruct (plays_inv3 _ _ _ _ _ P2) as (s & w2 & wfs2 & -> & _ & _ & _ & _ & P2').
    destruct (twinO_some3 _ _ T) as (b & -> & Tb). cbn in Nw. unfold sameNw3 in Nw.
    destruct (IH _ _ _ _ HSr P2' (Some (mkI32 lm (i_K lm b) (i_nw lm b) wfs' w' (i_wf lm b) (i_phase lm b) (i_step lm b) (i_entry lm b) (i_mem lm b)))) as (t2' & Z2 & A & B).
    { cbn. destruct Tb. constructor; cbn; auto. }
    { cbn. exact Nw. }
    exists t2', Z2. split; [|exact B]. eapply p32_rate; [exact H1| | | |exact A]; rewrite <- ?(tv_tab _ _ Tb), <- ?(tv_nw _ _ Tb), <- ?(tv_K _ _ Tb); assumption.
  - destruct Hs as [<- | (i & j & E & E9)]; [|discriminate E]. destruct (plays_inv3 _ _ _ _ _ P2) as (s & sb & y1 & y2 & -> & Hb2 & -> & P2').
    destruct (twinO_some3 _ _ T) as (b & -> & Tb). cbn in Nw. unfold sameNw3 in Nw.
    destruct (twin_block3 _ _ _ _ _ Hb b Tb) as (b1 & zb & Bb & Tb1).
    destruct (IH _ _ _ _ HSr P2' (Some b1) Tb1) as (t2' & Z2 & A & B).
    { cbn. unfold sameNw3. rewrite (block_nw3 _ _ _ _ _ Hb2), (block_nw3 _ _ _ _ _ Bb). exact Nw. }
    exists t2', (zb ++ Z2). split; [|exact B]. eapply p32_process; [exact Bb|exact A].
Qed.

(** ** From the same selection on *)
Variables (theta : R) (ws : list R).
Hypothesis Hth : List.Forall (fun z : C => exp (fst z) <= theta) (f_z F).
Hypothesis Hth1 : 0 <= theta <= 1.
Hypothesis Hws : List.Forall (fun w => 0 <= w) ws.
Hypothesis Lws : length ws = numCoeffs f.

Record nearTwin3 (D : R) (a b : Ideal32 lm) : Prop := {
  nv_twin : twin3 a b; nv_wf : i_wf lm a = i_wf lm b;
  nv_la : length (i_mem lm a) = numCoeffs f; nv_lb : length (i_mem lm b) = numCoeffs f;
  nv_mem : memDiff D ws (i_mem lm a) (i_mem lm b) }.

Definition fading3 (D : R) (Y Z : list R) : Prop :=
  length Y = length Z /\ forall n y z, nth_error Y n = Some y -> nth_error Z n = Some z -> Rabs (y - z) <= D * theta ^ S n * rsum ws.

Lemma fading_app3 D Y Z Y2 Z2 : fading3 D Y Z -> fading3 (theta ^ length Y * D) Y2 Z2 -> fading3 D (Y ++ Y2) (Z ++ Z2).
Proof.
  intros [L H] [L2 H2]. split; [rewrite !app_length; congruence|]. intros n y z Ey Ez.
  destruct (Nat.lt_ge_cases n (length Y)) as [Hn|Hn].
  - rewrite nth_error_app1 in Ey, Ez by lia. now apply H.
  - rewrite nth_error_app2 in Ey, Ez by lia. rewrite <- L in Ez. assert (A := H2 _ _ _ Ey Ez).
    replace (D * theta ^ S n) with (theta ^ length Y * D * theta ^ S (n - length Y)); [exact A|].
    replace (S n) with (length Y + S (n - length Y))%nat by lia. rewrite pow_add. ring.
Qed.
Lemma near_block3 dir a ps a' ys : block32 lm src dbg f dir a ps a' ys -> forall b D, 0 <= D -> nearTwin3 D a b ->
  exists b' zs, block32 lm src dbg f dir b ps b' zs /\ nearTwin3 (theta ^ length ys * D) a' b' /\ fading3 D ys zs.
Proof.
  induction 1 as [st|st p st1 y ps st2 ys Hs Hb IH]; intros b D HD [T W La Lb M].
  - exists b, []. split; [constructor|]. split; [|split; [reflexivity|intros [|n]; discriminate]].
    cbn [length pow]. rewrite Rmult_1_l. constructor; assumption.
  - destruct (twin_sample3 _ _ _ _ _ _ T Hs) as (b1 & z & x & Sb & T1 & Wa & Wb & Ey & Ez & Hm). destruct (Hm W) as [Ma Mb].
    assert (N1 : nearTwin3 (theta * D) st1 b1).
    { constructor; [exact T1|congruence|rewrite Ma; now apply len_allP|rewrite Mb; now apply len_allP|].
      rewrite Ma, Mb. now apply memDiff_step. }
    destruct (IH b1 (theta * D) ltac:(apply Rmult_le_pos; lra) N1) as (b' & zs & B & N2 & Fd).
    exists b', (z :: zs). split; [econstructor; eassumption|]. split.
    + cbn [length]. replace (theta ^ S (length ys) * D) with (theta ^ length ys * (theta * D)) by (cbn [pow]; ring). exact N2.
    + apply (fading_app3 D [y] [z] ys zs).
      * split; [reflexivity|]. intros [|[|n]] v w Ev Ew; cbn in Ev, Ew; try discriminate.
        assert (v = y) by congruence. assert (w = z) by congruence. subst v w. rewrite Ey, Ez.
        replace (D * theta ^ 1) with (theta * D) by ring. apply memDiff_sum; [rewrite (nv_la _ _ _ N1); lia|rewrite (nv_lb _ _ _ N1); lia|apply N1].
      * cbn [length]. replace (theta ^ 1 * D) with (theta * D) by ring. exact Fd.
Qed.

Lemma decayR3 s1 ops s1' Y1 : plays32 lm src dbg f c s1 ops s1' Y1 -> forall s2 s2' Y2,
  plays32 lm src dbg f c s2 ops s2' Y2 -> forall t2 D, 0 <= D -> optRel (nearTwin3 D) s1 t2 -> optRel sameNw3 s2 t2 ->
  exists t2' Z2, plays32 lm src dbg f c t2 ops t2' Z2 /\ fading3 D Y1 Z2.
Proof.
  induction 1 as [st|st op rest st' ys Hop Hp IH|st op w p d K nw wfs st1 rest st' ys Hop HT Ht Hf Hp IH
                 |st p d st1 rest st' ys Hf Hp IH|st k rest st' ys Hk Hp IH|st sr w' wfs' rest st' ys H1 H2 Hu Ht Hp IH
                 |st dir ps st1 ys rest st' zs Hb Hp IH]; intros s2 s2' Y2 P2 t2 D HD T Nw.
  - exists t2, []. split; [constructor|]. split; [reflexivity|intros [|n]; discriminate].
  - destruct Hop as (p & d & Ho).
    assert (P2' : plays32 lm src dbg f c s2 rest s2' Y2) by (destruct Ho as [-> | ->]; exact (plays_inv3 _ _ _ _ _ P2)).
    destruct (IH _ _ _ P2' t2 D HD T Nw) as (t2' & Z2 & A & B). exists t2', Z2. split; [|exact B]. eapply p32_null; [|exact A]. exists p, d. exact Ho.
  - assert (Q : exists K nw wfs st1, table32 lm src dbg K nw wfs w /\ tameAll lm src c wfs nw K /\
      fresh32 lm dbg f K nw wfs w 0 p d st1 /\ plays32 lm src dbg f c (Some st1) rest s2' Y2) by (destruct Hop as [-> | ->]; exact (plays_inv3 _ _ _ _ _ P2)).
    destruct Q as (K2 & nw2 & wfs2 & st2 & HT2 & Ht2 & Hf2 & P2').
    assert (En : nw = nw2).
    { exact (table_nw _ _ _ _ _ _ _ HT HT2). }
    destruct (twin_fresh3 _ _ _ _ _ 0%Z _ _ _ Hf) as (b & Fb & Tb & Wa & Wb & Ma & Mb).
    destruct (IH _ _ _ P2' (Some b) D HD) as (t2' & Z2 & A & B).
    { cbn. constructor; [exact Tb|congruence|rewrite Ma; apply repeat_length|rewrite Mb; apply repeat_length|rewrite Ma, Mb; now apply memDiff_zero]. }
    { cbn. unfold sameNw3. rewrite (fresh_nw3 _ _ _ _ _ _ _ _ Hf2), (fresh_nw3 _ _ _ _ _ _ _ _ Fb). now symmetry. }
    exists t2', Z2. split; [|exact B]. eapply p32_load; [exact Hop|exact HT|exact Ht|exact Fb|exact A].
  - destruct (plays_inv3 _ _ _ _ _ P2) as (s & sb & -> & Hf2 & P2').
    destruct t2 as [b|]; [|contradiction]. cbn in T, Nw. unfold sameNw3 in Nw. destruct T as [Tb Wt _ _ _].
    destruct (twin_fresh3 _ _ _ _ _ (i_wf lm b) _ _ _ Hf) as (b1 & Fb & Tb1 & Wa & Wb & Ma & Mb).
    rewrite (tv_K _ _ Tb), (tv_nw _ _ Tb), (tv_wfs _ _ Tb), (tv_tab _ _ Tb) in Fb.
    destruct (IH _ _ _ P2' (Some b1) D HD) as (t2' & Z2 & A & B).
    { cbn. constructor; [exact Tb1|congruence|rewrite Ma; apply repeat_length|rewrite Mb; apply repeat_length|rewrite Ma, Mb; now apply memDiff_zero]. }
    { cbn. unfold sameNw3. rewrite (fresh_nw3 _ _ _ _ _ _ _ _ Hf2), (fresh_nw3 _ _ _ _ _ _ _ _ Fb). exact Nw. }
    exists t2', Z2. split; [|exact B]. eapply p32_reset; [exact Fb|exact A].
  - destruct (plays_inv3 _ _ _ _ _ P2) as (s & -> & Hj & P2'). destruct t2 as [b|]; [|contradiction]. cbn in T, Nw. unfold sameNw3 in Nw.
    destruct T as [Tb Wt La Lb M].
    destruct (IH _ _ _ P2' (Some (mkI32 lm (i_K lm b) (i_nw lm b) (i_wfs lm b) (i_tab lm b) k (i_phase lm b) (i_step lm b) (i_entry lm b) (i_mem lm b))) D HD) as (t2' & Z2 & A & B).
    { cbn. constructor; cbn; auto. destruct Tb. constructor; cbn; assumption. }
    { cbn. exact Nw. }
    exists t2', Z2. split; [|exact B]. eapply p32_select; [|exact A]. lia.
  - destruct (plays_inv3 _ _ _ _ _ P2) as (s & w2 & wfs2 & -> & _ & _ & _ & _ & P2'). destruct t2 as [b|]; [|contradiction]. cbn in T, Nw. unfold sameNw3 in Nw.
    destruct T as [Tb Wt La Lb M].
    destruct (IH _ _ _ P2' (Some (mkI32 lm (i_K lm b) (i_nw lm b) wfs' w' (i_wf lm b) (i_phase lm b) (i_step lm b) (i_entry lm b) (i_mem lm b))) D HD) as (t2' & Z2 & A & B).
    { cbn. constructor; cbn; auto. destruct Tb. constructor; cbn; auto. }
    { cbn. exact Nw. }
    exists t2', Z2. split; [|exact B]. eapply p32_rate; [exact H1| | | |exact A]; rewrite <- ?(tv_tab _ _ Tb), <- ?(tv_nw _ _ Tb), <- ?(tv_K _ _ Tb); assumption.
  - destruct (plays_inv3 _ _ _ _ _ P2) as (s & sb & y1 & y2 & -> & Hb2 & -> & P2'). destruct t2 as [b|]; [|contradiction]. cbn in T, Nw. unfold sameNw3 in Nw.
    destruct (near_block3 _ _ _ _ _ Hb b D HD T) as (b1 & zb & Bb & Nb & Fd).
    destruct (IH _ _ _ P2' (Some b1) (theta ^ length ys * D)) as (t2' & Z2 & A & B).
    { apply Rmult_le_pos; [apply pow_le; lra|exact HD]. }
    { exact Nb. }
    { cbn. unfold sameNw3. rewrite (block_nw3 _ _ _ _ _ Hb2), (block_nw3 _ _ _ _ _ Bb). exact Nw. }
    exists t2', (zb ++ Z2). split; [eapply p32_process; [exact Bb|exact A]|]. now apply fading_app3.
Qed.
End Single.
