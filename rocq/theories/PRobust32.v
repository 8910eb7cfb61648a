(** * PRobust32: proof support for C63, single precision *)
From Coq Require Import ZArith List Bool Reals Lia Lra Arith.
From Flocq Require Import Core IEEE754.BinarySingleNaN.
From Verif Require Import Num Maths CrossFader Wavetable Filters Osc Spec SpecC SpecT NumFacts Laws CFFacts
  WTFacts BuildFacts SimdFacts OscFacts OscStep OscRun OscHist CFHist PTables PHist RNum RLaws B32 B32Facts B32Laws SpecF SpecO SpecW PCross PWork SpecJ.
From Coquelicot Require Import Coquelicot.
From Verif Require Import SpecE SpecX SpecV SpecG SpecH SpecR SpecL SpecU ExactMath ExactSig ExactLaws ExactMove PExact ConvFacts PGain PHarm
  PApx PErr PTerm PPole PCoef PSum PTrack PTrackS PTrackH PCover32 PHarm32 PFade PFade32 PRobust.
Import ListNotations.
Local Open Scope R_scope.

Lemma disp_one (q p d d' : R) k k' : q + d = p + IZR k -> q + d' = p + IZR k' -> Rabs d < / 2 -> Rabs d' < / 2 -> d = d'.
Proof. exact (disp_unique (mkCfg true 1) (le_n 1) kType1 0 (le_n 1) q p d d' k k'). Qed.

(** the exact displacements of two nearby movements with computed steps in one octave *)
Lemma near_steps32 lm dir eps (q q' p p' : f32) d d' k k' : eps < /8 -> phase01 q -> phase01 p -> phase01 q' -> phase01 p' ->
  sameOctave32 (step32 lm dir q p) (step32 lm dir q' p') ->
  Rabs (B2R (step32 lm dir q p)) < /2 -> Rabs (B2R (step32 lm dir q' p')) < /2 ->
  B2R q + d = B2R p + IZR k -> Rabs d < /2 -> B2R q' + d' = B2R p' + IZR k' -> Rabs d' < /2 ->
  nearPhase32 eps q q' -> nearPhase32 eps p p' ->
  exists n : Z, forall u, 0 <= u <= 1 -> Rabs (B2R q' + d' * u - IZR n - (B2R q + d * u)) <= eps.
Proof.
  intros He Hq Hp Hq' Hp' (Hs & _) S1 S2 Ed Hd Ed' Hd' (n & Hn) (m & Hm).
  assert (Half : / IZR (2 ^ 1) = /2) by reflexivity.
  destruct (true_step lm dir q p 1 Hq Hp ltac:(lia)) as [TF TB]; [rewrite Half; exact S1|].
  destruct (true_step lm dir q' p' 1 Hq' Hp' ltac:(lia)) as [TF' TB']; [rewrite Half; exact S2|].
  rewrite Half in *.
  assert (PF : forall (a b x : R) j, a + x = b + IZR j -> Rabs x < /2 -> (exists i, (i = 0 \/ i = 1)%Z /\ 0 <= b - a + IZR i < /2) -> 0 <= x).
  { intros a b x j E1 E2 (i & _ & Hi). assert (E3 : a + (b - a + IZR i) = b + IZR i) by ring.
    assert (x = b - a + IZR i) by (apply (disp_one a b _ _ j i E1 E3 E2); apply Rabs_def1; lra). lra. }
  assert (PB : forall (a b x : R) j, a + x = b + IZR j -> Rabs x < /2 -> (exists i, (i = 0 \/ i = 1)%Z /\ 0 <= a - b + IZR i < /2) -> x <= 0).
  { intros a b x j E1 E2 (i & _ & Hi). assert (E3 : a + - (a - b + IZR i) = b + IZR (- i)) by (rewrite opp_IZR; ring).
    assert (x = - (a - b + IZR i)) by (apply (disp_one a b _ _ j (- i)%Z E1 E3 E2); apply Rabs_def1; lra). lra. }
  assert (Hd0 := Hd). assert (Hd0' := Hd'). apply Rabs_def2 in Hd. apply Rabs_def2 in Hd'.
  assert (Hdd : -/2 <= d' - d <= /2).
  { destruct (Rlt_le_dec (B2R (step32 lm dir q p)) 0) as [Hl|Hl].
    - assert (B2R (step32 lm dir q' p') < 0) by nra.
      assert (A1 := PB _ _ _ _ Ed Hd0 (TB Hl)). assert (A2 := PB _ _ _ _ Ed' Hd0' (TB' H)). lra.
    - assert (0 <= B2R (step32 lm dir q' p')) by nra.
      assert (A1 := PF _ _ _ _ Ed Hd0 (TF Hl)). assert (A2 := PF _ _ _ _ Ed' Hd0' (TF' H)). lra. }
  assert (E : d' - d = (B2R p' - B2R p - IZR m) - (B2R q' - B2R q - IZR n) + IZR (m - n - k + k')).
  { rewrite plus_IZR, !minus_IZR. lra. }
  apply Rabs_le_between in Hn. apply Rabs_le_between in Hm.
  assert (Z0 : (m - n - k + k')%Z = 0%Z).
  { assert (-1 < m - n - k + k')%Z by (apply lt_IZR; lra). assert (m - n - k + k' < 1)%Z by (apply lt_IZR; lra). lia. }
  rewrite Z0, Rplus_0_r in E. exists n. intros u Hu.
  replace (B2R q' + d' * u - IZR n - (B2R q + d * u)) with ((B2R q' - B2R q - IZR n) * (1 - u) + (B2R p' - B2R p - IZR m) * u).
  - apply Rabs_le. split; nra.
  - replace d' with (d + (B2R p' - B2R p - IZR m - (B2R q' - B2R q - IZR n))) by lra. ring.
Qed.

Section Single.
Variable lm : Libm.
Hypothesis Hex : expAccurate lm.
Hypothesis Hlog : log2_exact lm.
Variable src : Resampler (B32 lm).
Variable dbg : bool.
Variable f : FilterType.
Variable c : Z.
Variable eps : R.
Hypothesis He : 0 <= eps < /8.
Notation F := (filt RNum f).
Notation N := (B32 lm).
Notation S0 := (bpow radix2 c).
Notation D := (bpow radix2 c * eps).
Notation ws := (List.map snd (poleErr f)).

Lemma D_pos : 0 <= D.
Proof. apply Rmult_le_pos; [apply bpow_ge_0|lra]. Qed.
Lemma ws_pos : List.Forall (fun w => 0 <= w) ws.
Proof. destruct f; cbn [poleErr List.map snd]; repeat constructor; lra. Qed.
Lemma ws_len : length ws = numCoeffs f.
Proof. destruct f; reflexivity. Qed.
Lemma r_len : length (f_r F) = numCoeffs f.
Proof. destruct f; reflexivity. Qed.

(** one sample of every pole *)
Lemma allPoles_near32 x x' m m' : (forall u, continuous x u) -> (forall u, continuous x' u) ->
  (forall u, 0 <= u <= 1 -> Rabs (x' u - x u) <= 1.0001 * D) ->
  memDiff D ws m' m -> memDiff D ws (allPoles F x' m') (allPoles F x m).
Proof.
  intros Hc Hc' Hx Hm j w y' y Ew Ey' Ey. assert (HD := D_pos). set (DD := D) in *.
  destruct (allPoles_nth_inv _ _ _ _ _ Ey) as (r & p & y0 & E1 & E2 & ->).
  destruct (allPoles_nth_inv _ _ _ _ _ Ey') as (r' & p' & z0 & E1' & E2' & ->).
  rewrite E1 in E1'. assert (r' = r) by congruence. assert (p' = p) by congruence. subst r' p'.
  rewrite onePole_diff by assumption.
  assert (Hj : (j < numCoeffs f)%nat).
  { rewrite <- ws_len. apply nth_error_Some. congruence. }
  destruct (pole_at lm Hex f j Hj) as (zl & zh & rho & r2 & Ed & P).
  destruct (err_at f j zl zh rho r2 Ed) as (em & ee & b & Eb & [_ _ _ Hb0 Hb _]).
  assert (w = b) by (rewrite (map_nth_error snd j (poleErr f) Eb) in Ew; cbn in Ew; congruence). subst w.
  assert (Er : nth j (f_r F) (c0 RNum) = r /\ nth j (f_z F) (c0 RNum) = p).
  { assert (A : forall (l m : list C) j a b, nth_error (combine l m) j = Some (a, b) -> nth_error l j = Some a /\ nth_error m j = Some b).
    { clear. induction l as [|x l IH]; intros [|y m] [|j] a b H; cbn in H; try discriminate; [split; cbn; congruence|]. cbn. now apply IH. }
    destruct (A _ _ _ _ _ E1) as [A1 A2]. split; apply nth_error_nth; assumption. }
  destruct Er as [Er Ez]. rewrite Er, Ez in P.
  unfold onePole.
  assert (X1 : Cmod (cexp p * (z0 - y0))%C <= IZR rho / 10000 * (DD * b)).
  { rewrite Cmod_mult. apply Rmult_le_compat; [apply Cmod_ge_0|apply Cmod_ge_0|apply (po_rho _ _ _ _ _ _ _ _ _ P)|].
    exact (Hm j b z0 y0 Ew E2' E2). }
  assert (X2 : Cmod (2 * r * response p (fun u => (1 * x' u + -1 * x u)%R))%C <= IZR r2 / 1000 * (1.0001 * DD)).
  { rewrite Cmod_mult. apply Rmult_le_compat; [apply Cmod_ge_0|apply Cmod_ge_0| |].
    - rewrite Cmod_mult. replace (Cmod 2) with 2; [apply (po_r2 _ _ _ _ _ _ _ _ _ P)|].
      rewrite Cmod_R, Rabs_pos_eq; lra.
    - apply response_small; [apply (po_neg _ _ _ _ _ _ _ _ _ P)|lra| |].
      + intros u. apply (@continuous_plus R_UniformSpace R_AbsRing R_NormedModule).
        * apply (@continuous_scal_r R_UniformSpace R_AbsRing R_NormedModule 1 x'). apply Hc'.
        * apply (@continuous_scal_r R_UniformSpace R_AbsRing R_NormedModule (-1) x). apply Hc.
      + intros u Hu. replace (1 * x' u + -1 * x u) with (x' u - x u) by ring. now apply Hx. }
  eapply Rle_trans; [apply Cmod_triangle|]. eapply Rle_trans; [apply Rplus_le_compat; [exact X1|exact X2]|].
  apply (Rmult_le_compat_l DD) in Hb; [|exact HD]. lra.
Qed.

(** ** States *)
Record close3 (a t : Ideal32 lm) : Prop := {
  c3_K : i_K lm t = i_K lm a; c3_nw : i_nw lm t = i_nw lm a; c3_wfs : i_wfs lm t = i_wfs lm a; c3_tab : i_tab lm t = i_tab lm a;
  c3_wf : i_wf lm t = i_wf lm a;
  c3_live : live32 lm src dbg f c a; c3_live' : live32 lm src dbg f c t;
  c3_plain : phase01 (i_phase lm a); c3_plain' : phase01 (i_phase lm t);
  c3_ph : nearPhase32 eps (i_phase lm a) (i_phase lm t);
  c3_mem : memDiff D ws (i_mem lm t) (i_mem lm a) }.
(** the same but for the samples the table was made of, and the memory *)
Record shadow (b t : Ideal32 lm) : Prop := {
  sh_K : i_K lm t = i_K lm b; sh_nw : i_nw lm t = i_nw lm b; sh_tab : i_tab lm t = i_tab lm b; sh_wf : i_wf lm t = i_wf lm b;
  sh_ph : i_phase lm t = i_phase lm b; sh_st : i_step lm t = i_step lm b; sh_en : i_entry lm t = i_entry lm b }.

Lemma find_eq3 K nw wfs w (d : f32) r w2 mm : table32 lm src dbg K nw wfs w -> fin32 d = true -> 0 < v32 d -> entryFor K (v32 d) r ->
  wt_findMipMapIndices N dbg w d = Ok (w2, mm) ->
  mm = outS N (cf_num (wt_cf w)) (cfState N (wt_cf w)) r /\
  w2 = mkWT (wt_slots w) (wt_ph w) (cfWith N (wt_cf w) (cfStep (cf_num (wt_cf w)) (cfState N (wt_cf w)) r)).
Proof.
  intros HT Hf Hd Hr E0.
  destruct (table32_ok lm Hlog src dbg _ _ _ _ HT) as (HW & Ct & nf & Hre & Hnf).
  destruct (reach_ok lm Hlog src dbg K nf w Hre) as (HK & _ & HSc & En & Hm & HCf). specialize (HCf Hnf).
  assert (Er : req N (wt_cf w) d = r) by (apply (req32 lm Hlog src dbg K nf w d r Hre Hf Hr)).
  assert (E : wt_findMipMapIndices N dbg w d = Ok (mkWT (wt_slots w) (wt_ph w)
     (cfWith N (wt_cf w) (cfStep (cf_num (wt_cf w)) (cfState N (wt_cf w)) r)),
     outS N (cf_num (wt_cf w)) (cfState N (wt_cf w)) r)).
  { unfold wt_findMipMapIndices. rewrite (newIndices_eq N dbg (wt_cf w) d HCf), Er.
    - cbn [bind]. now rewrite cfOut_S.
    - intros _. now apply tlt0. }
  rewrite E in E0. split; congruence.
Qed.
Lemma nz_fin (d : f32) : B2R d <> 0 -> fin32 d = true.
Proof. intros H. destruct d; try reflexivity; exfalso; apply H; reflexivity. Qed.
Lemma find_both3 K nw wfs w (d d' : f32) w2 w2' mm mm' : table32 lm src dbg K nw wfs w -> sameOctave32 d d' ->
  wt_findMipMapIndices N dbg w (tabs N d) = Ok (w2, mm) -> wt_findMipMapIndices N dbg w (tabs N d') = Ok (w2', mm') ->
  mm' = mm /\ w2' = w2.
Proof.
  intros HT Ho E E'.
  assert (Hnz : B2R d <> 0 /\ B2R d' <> 0) by (destruct Ho as [Ho _]; split; intros Q; rewrite Q in Ho; lra).
  destruct Hnz as [Hd Hd'].
  assert (HK : (2 <= K)%Z) by (destruct (table32_ok lm Hlog src dbg _ _ _ _ HT) as ((HK & _) & _); lia).
  destruct (entryFor_some K (Rabs (B2R d)) HK) as (r & Hr).
  assert (Hr' := octave_entry K _ _ r HK Ho Hr).
  destruct (babs_val d (nz_fin d Hd)) as [Fa Va]. destruct (babs_val d' (nz_fin d' Hd')) as [Fa' Va'].
  assert (P1 := Rabs_pos_lt _ Hd). assert (P2 := Rabs_pos_lt _ Hd').
  destruct (find_eq3 _ _ _ _ (tabs N d) r w2 mm HT Fa) as [A1 A2]; [change (tabs N d) with (@Babs 24 128 d); rewrite Va; exact P1|change (tabs N d) with (@Babs 24 128 d); rewrite Va; exact Hr|exact E|].
  destruct (find_eq3 _ _ _ _ (tabs N d') r w2' mm' HT Fa') as [B1 B2]; [change (tabs N d') with (@Babs 24 128 d'); rewrite Va'; exact P2|change (tabs N d') with (@Babs 24 128 d'); rewrite Va'; exact Hr'|exact E'|].
  split; congruence.
Qed.

Definition path32 (st : Ideal32 lm) (m : Z) (g : f32) (mu : Z) (gu : f32) (d : R) : R -> R :=
  fun u => B2R g * curve lm src st m (B2R (i_phase lm st) + d * u) + B2R gu * curve lm src st mu (B2R (i_phase lm st) + d * u).

Lemma mixed_close3 a t m g mu gu d d' n : close3 a t -> convex32 g gu -> (0 <= m <= i_K lm a - 2)%Z ->
  ((0 <= mu <= i_K lm a - 2)%Z \/ B2R gu = 0) ->
  (forall u, 0 <= u <= 1 -> Rabs (B2R (i_phase lm t) + d' * u - IZR n - (B2R (i_phase lm a) + d * u)) <= eps) ->
  forall u, 0 <= u <= 1 -> Rabs (path32 t m g mu gu d' u - path32 a m g mu gu d u) <= 1.0001 * D.
Proof.
  intros Cl Hg Hm Hmu Hq u Hu. specialize (Hq u Hu). unfold path32.
  set (x := B2R (i_phase lm a) + d * u) in *. set (x' := B2R (i_phase lm t) + d' * u) in *.
  assert (Hcurve : forall k, (0 <= k <= i_K lm a - 2)%Z -> Rabs (curve lm src t k x' - curve lm src a k x) <= D).
  { intros k Hk. replace (curve lm src t k x') with (curve lm src a k x').
    2:{ unfold curve. rewrite (c3_wfs _ _ Cl), (c3_K _ _ Cl), (c3_wf _ _ Cl). reflexivity. }
    replace x' with (x' - IZR n + IZR n) by ring. rewrite (curve_per lm Hlog src dbg f c a k _ n (c3_live _ _ Cl) Hk).
    eapply Rle_trans; [apply (curve_lip lm Hlog src dbg f c a k x (x' - IZR n) (c3_live _ _ Cl) Hk)|].
    apply Rmult_le_compat_l; [apply bpow_ge_0|exact Hq]. }
  assert (Hs := gains_sum g gu Hg). destruct Hg as (F1 & F2 & G1 & G2 & _).
  change (v32 g) with (B2R g) in Hs. change (v32 gu) with (B2R gu) in Hs.
  assert (HD := D_pos). set (DD := D) in *.
  assert (A1 := Hcurve m Hm). unfold PApx.eps in Hs.
  destruct Hmu as [Hmu|E0].
  - assert (A2 := Hcurve mu Hmu).
    set (y := curve lm src a m x) in *. set (y' := curve lm src t m x') in *. set (z := curve lm src a mu x) in *. set (z' := curve lm src t mu x') in *.
    apply Rabs_le_between in A1. apply Rabs_le_between in A2. apply Rabs_le_between.
    replace (B2R g * y' + B2R gu * z' - (B2R g * y + B2R gu * z)) with (B2R g * (y' - y) + B2R gu * (z' - z)) by ring.
    assert (Q : (B2R g + B2R gu) * DD <= 1.0001 * DD) by (apply Rmult_le_compat_r; lra). split; nra.
  - rewrite E0. set (y := curve lm src a m x) in *. set (y' := curve lm src t m x') in *. clearbody y y'. rewrite !Rmult_0_l, !Rplus_0_r.
    apply Rabs_le_between in A1. apply Rabs_le_between.
    replace (B2R g * y' - B2R g * y) with (B2R g * (y' - y)) by ring.
    assert (Q : B2R g * DD <= 1 * DD) by (apply Rmult_le_compat_r; lra). split; nra.
Qed.
Lemma path32_cont st m g mu gu d u : continuous (path32 st m g mu gu d) u.
Proof. unfold path32, curve. apply path_cont. Qed.

Lemma sample_close3 dir a b t p p' a1 b1 y z : close3 a t -> shadow b t -> nearPhase32 eps p p' ->
  sameOctave32 (step32 lm dir (i_phase lm a) p) (step32 lm dir (i_phase lm b) p') ->
  sample32 lm src dbg f dir a p a1 y -> sample32 lm src dbg f dir b p' b1 z ->
  exists t1 z', sample32 lm src dbg f dir t p' t1 z' /\ close3 a1 t1 /\ shadow b1 t1 /\ Rabs (z' - y) <= D * rsum ws.
Proof.
  intros Cl Sh Hp Ho S1 S2. assert (L1 := sample_live32 lm src dbg f c _ _ _ _ _ (c3_live _ _ Cl) S1).
  destruct S1 as [s d k w1 m g mu gu mem Hsh Hs Hs0 Hs1 Hd Hd1 Hf Htr Hmem].
  destruct S2 as [s' d' k' w1' m' g' mu' gu' mem' Hsh' Hs' Hs0' Hs1' Hd' Hd1' Hf' Htr' Hmem'].
  rewrite <- (sh_ph _ _ Sh) in Ho, Hs', Hd'. rewrite <- (sh_tab _ _ Sh), (c3_tab _ _ Cl) in Hf'.
  assert (Ho2 := Ho). rewrite <- Hs, <- Hs' in Ho2.
  destruct (find_both3 _ _ _ _ _ _ _ _ _ _ (l3_tab _ _ _ _ _ _ (c3_live _ _ Cl)) Ho2 Hf Hf') as [Em Ew].
  assert (m' = m) by congruence. assert (g' = g) by congruence. assert (mu' = mu) by congruence. assert (gu' = gu) by congruence. subst m' g' mu' gu' w1'.
  destruct (sample_gains lm Hlog src dbg f c dir a p (c3_live _ _ Cl) ltac:(rewrite <- Hs; exact Hs0) w1 m g mu gu ltac:(rewrite <- Hs; exact Hf)) as (G1 & G2 & G3).
  assert (Hn : exists n : Z, forall u, 0 <= u <= 1 -> Rabs (B2R (i_phase lm t) + d' * u - IZR n - (B2R (i_phase lm a) + d * u)) <= eps).
  { apply (near_steps32 lm dir eps (i_phase lm a) (i_phase lm t) p p' d d' k k'); auto; try lra;
      [apply (c3_plain _ _ Cl)|apply Hsh|apply (c3_plain' _ _ Cl)|apply Hsh'|now rewrite <- Hs|now rewrite <- Hs'|apply (c3_ph _ _ Cl)]. }
  destruct Hn as [n Hn].
  set (tmem := allPoles F (path32 t m g mu gu d') (i_mem lm t)).
  assert (S3 : sample32 lm src dbg f dir t p' (mkI32 lm (i_K lm t) (i_nw lm t) (i_wfs lm t) w1 (i_wf lm t) p' s' m tmem) (audible tmem)).
  { eapply (sample32_ lm src dbg f dir t p' s' d' k' w1 m g mu gu); auto.
    - rewrite (c3_tab _ _ Cl). exact Hf'.
    - unfold traceable32 in *. rewrite (sh_K _ _ Sh), (sh_ph _ _ Sh), (sh_st _ _ Sh), (sh_en _ _ Sh). exact Htr'. }
  assert (L3 := sample_live32 lm src dbg f c _ _ _ _ _ (c3_live' _ _ Cl) S3).
  assert (Md : memDiff D ws tmem mem).
  { rewrite Hmem. apply (allPoles_near32 (path32 a m g mu gu d) (path32 t m g mu gu d')); [intros; apply path32_cont|intros; apply path32_cont| |apply (c3_mem _ _ Cl)].
    apply (mixed_close3 a t m g mu gu d d' n Cl G1 G2 G3 Hn). }
  eexists. exists (audible tmem). split; [exact S3|]. split; [|split].
  - destruct Cl. constructor; cbn [i_K i_nw i_wfs i_tab i_wf i_phase i_mem]; auto; [apply Hsh|apply Hsh'].
  - destruct Sh. constructor; cbn [i_K i_nw i_wfs i_tab i_wf i_phase i_step i_entry]; auto.
  - apply memDiff_sum; [|  |exact Md].
    + assert (Q := l3_mem _ _ _ _ _ _ L3). cbn [i_mem] in Q. rewrite Q, ws_len, r_len. reflexivity.
    + assert (Q := l3_mem _ _ _ _ _ _ L1). cbn [i_mem] in Q. rewrite Q, ws_len, r_len. reflexivity.
Qed.

Definition nearby3 (y z : R) : Prop := Rabs (z - y) <= D * rsum ws.
Lemma block_close3 dir a ps a' ys : block32 lm src dbg f dir a ps a' ys -> forall b t ps' b' zs, close3 a t -> shadow b t ->
  Forall2 (nearPhase32 eps) ps ps' -> Forall2 sameOctave32 (steps32 lm dir (i_phase lm a) ps) (steps32 lm dir (i_phase lm b) ps') ->
  block32 lm src dbg f dir b ps' b' zs ->
  exists t' zs', block32 lm src dbg f dir t ps' t' zs' /\ close3 a' t' /\ shadow b' t' /\ Forall2 nearby3 ys zs' /\
    i_phase lm a' = last ps (i_phase lm a) /\ i_phase lm b' = last ps' (i_phase lm b).
Proof.
  induction 1 as [a|a p a1 y ps a2 ys Hs Hb IH]; intros b t ps' b' zs Cl Sh Hp Ho Hb'.
  - inversion Hp; subst. inversion Hb'; subst. exists t, []. repeat (split; [first [assumption|constructor]|]). reflexivity.
  - inversion Hp as [|? p' ? ps2' Hp1 Hp2]; subst. inversion Hb' as [|? ? b1 z ? ? zs2 Hs' Hb2']; subst.
    cbn [steps32] in Ho. inversion Ho as [|? ? ? ? Ho1 Ho2]; subst.
    destruct (sample_close3 _ _ _ _ _ _ _ _ _ _ Cl Sh Hp1 Ho1 Hs Hs') as (t1 & z' & St & Cl1 & Sh1 & Y1).
    assert (E1 : i_phase lm a1 = p) by (now destruct Hs). assert (E2 : i_phase lm b1 = p') by (now destruct Hs').
    assert (Ho2' : Forall2 sameOctave32 (steps32 lm dir (i_phase lm a1) ps) (steps32 lm dir (i_phase lm b1) ps2')) by (rewrite E1, E2; exact Ho2).
    destruct (IH b1 t1 ps2' b' zs2 Cl1 Sh1 Hp2 Ho2' Hb2') as (t' & zs' & Bt & Cl2 & Sh2 & Y2 & P1 & P2).
    exists t', (z' :: zs'). split; [econstructor; eassumption|]. split; [exact Cl2|]. split; [exact Sh2|]. split; [constructor; assumption|].
    assert (LC : forall (a b : f32) l, last (a :: l) b = last l a).
    { clear. intros a b l. revert a b. induction l as [|c l IHl]; intros a b; [reflexivity|].
      change (last (a :: c :: l) b) with (last (c :: l) b). rewrite (IHl c b), (IHl c a). reflexivity. }
    rewrite !LC, P1, P2, E1, E2. split; reflexivity.
Qed.

Lemma fresh_close3 K nw wfs wfs' w wf p p' d d' a b : table32 lm src dbg K nw wfs w -> tameAll lm src c wfs nw K -> (0 <= wf < nw)%Z ->
  nearPhase32 eps p p' -> sameOctave32 d d' ->
  fresh32 lm dbg f K nw wfs w wf p d a -> fresh32 lm dbg f K nw wfs' w wf p' d' b ->
  exists t, fresh32 lm dbg f K nw wfs w wf p' d' t /\ close3 a t /\ shadow b t /\ i_phase lm a = p /\ i_phase lm b = p'.
Proof.
  intros HT Ht Hwf Hp Ho F1 F2.
  destruct F1 as [w1 m g mu gu Hsh Hfd Hd0 Hf]. destruct F2 as [w1' m' g' mu' gu' Hsh' Hfd' Hd0' Hf'].
  destruct (find_both3 _ _ _ _ _ _ _ _ _ _ HT Ho Hf Hf') as [Em Ew].
  assert (m' = m) by congruence. subst m' w1'.
  eexists. split; [econstructor; eassumption|].
  assert (Lm : length (repeat (RtoC 0) (numCoeffs f)) = length (f_r F)) by (rewrite repeat_length, r_len; reflexivity).
  assert (HT1 : table32 lm src dbg K nw wfs w1) by (eapply t32_ask; eassumption).
  split; [|split; [constructor; reflexivity|split; reflexivity]].
  constructor; cbn [i_K i_nw i_wfs i_tab i_wf i_phase i_mem]; auto;
    try (constructor; cbn [i_K i_nw i_wfs i_tab i_wf i_phase i_mem]; assumption); [apply Hsh|apply Hsh'|].
  apply memDiff_zero; [apply D_pos|apply ws_pos].
Qed.

Lemma table_K K nw wfs K' nw' wfs' w : table32 lm src dbg K nw wfs w -> table32 lm src dbg K' nw' wfs' w -> K = K' /\ nw = nw'.
Proof.
  intros H H'. split; [|exact (table_nw lm Hlog src dbg _ _ _ _ _ _ _ H H')].
  destruct (table32_ok lm Hlog src dbg _ _ _ _ H) as (_ & _ & n & R & _). destruct (table32_ok lm Hlog src dbg _ _ _ _ H') as (_ & _ & n' & R' & _).
  destruct (reach_ok lm Hlog src dbg K n w R) as (_ & _ & (A & _) & _). destruct (reach_ok lm Hlog src dbg K' n' w R') as (_ & _ & (A' & _) & _).
  assert (A2 : (K - 1 = K' - 1)%Z) by (refine (eq_trans (eq_sym A) A')). lia.
Qed.

Lemma rate_table st sr w' wfs' : live32 lm src dbg f c st -> okRate lm sr -> rebuildWaveforms N dbg (i_tab lm st) = Ok wfs' ->
  wt_updateSamplerate N src dbg (i_tab lm st) sr (defaultFade N) = Ok w' -> table32 lm src dbg (i_K lm st) (i_nw lm st) wfs' w'.
Proof.
  intros Lv Hs Hw Hu. destruct (okRate_ok lm Hlog (mkCfg dbg 1) (le_n 1) sr Hs) as (_ & n' & Hn' & Hpos).
  eapply t32_resample; [exact (l3_tab _ _ _ _ _ _ Lv)| |exact Hn'|lia|exact Hw|exact Hu].
  destruct Hs as (Hf & [H1 _] & H2). split; [exact Hf|]. split; [|exact H2].
  apply Rle_trans with 1%R; [|lra]. rewrite <- Rinv_1. apply Rinv_le; [lra|]. apply (IZR_le 1). lia.
Qed.

Definition trio (q q' : f32) (a b t : option (Ideal32 lm)) : Prop :=
  match a, b, t with
  | Some a, Some b, Some t => close3 a t /\ shadow b t /\ i_phase lm a = q /\ i_phase lm b = q'
  | None, None, None => True | _, _, _ => False end.

Lemma plays_close3 q q' ops ops' : nearScripts32 lm eps q q' ops ops' -> forall a b t a' b' ys zs, trio q q' a b t ->
  plays32 lm src dbg f c a ops a' ys -> plays32 lm src dbg f c b ops' b' zs ->
  exists t' zs', plays32 lm src dbg f c t ops' t' zs' /\ Forall2 nearby3 ys zs'.
Proof.
  induction 1 as [q q'|q q' op l l' Hop Hn IH|q q' w p p' d d' l l' Hp Ho Hn IH|q q' w p p' d d' l l' Hp Ho Hn IH
                 |q q' p p' d d' l l' Hp Ho Hn IH|q q' k l l' Hn IH|q q' sr l l' Hn IH|q q' dir ps ps' l l' Hp Ho Hn IH];
    intros a b t a' b' ys zs Cl P P'.
  - inversion P; subst. inversion P'; subst. exists t, []. split; constructor.
  - assert (Q : plays32 lm src dbg f c a l a' ys /\ plays32 lm src dbg f c b l' b' zs).
    { destruct Hop as (p & d & [-> | ->]); apply plays_inv3 in P; apply plays_inv3 in P'; auto. }
    destruct Q as [Q Q']. destruct (IH _ _ _ _ _ _ _ Cl Q Q') as (t' & zs' & A & B). exists t', zs'. split; [|exact B]. eapply p32_null; eassumption.
  - apply plays_inv3 in P. apply plays_inv3 in P'. destruct P as (K & nw & wfs & s1 & HT & Ht & Hf & P). destruct P' as (K' & nw' & wfs' & s1' & HT' & Ht' & Hf' & P').
    destruct (table_K _ _ _ _ _ _ _ HT HT') as [<- <-].
    assert (H0 : (0 <= 0 < nw)%Z) by (destruct (table32_ok lm Hlog src dbg _ _ _ _ HT) as ((_ & ? & _) & _); lia).
    destruct (fresh_close3 _ _ _ _ _ _ _ _ _ _ _ _ HT Ht H0 Hp Ho Hf Hf') as (t1 & Ft & C1 & C2 & C3 & C4).
    destruct (IH (Some s1) (Some s1') (Some t1) _ _ _ _ (Logic.conj C1 (Logic.conj C2 (Logic.conj C3 C4))) P P') as (t' & zs' & A & B).
    exists t', zs'. split; [|exact B]. eapply p32_load; [left; reflexivity|exact HT|exact Ht|exact Ft|exact A].
  - apply plays_inv3 in P. apply plays_inv3 in P'. destruct P as (K & nw & wfs & s1 & HT & Ht & Hf & P). destruct P' as (K' & nw' & wfs' & s1' & HT' & Ht' & Hf' & P').
    destruct (table_K _ _ _ _ _ _ _ HT HT') as [<- <-].
    assert (H0 : (0 <= 0 < nw)%Z) by (destruct (table32_ok lm Hlog src dbg _ _ _ _ HT) as ((_ & ? & _) & _); lia).
    destruct (fresh_close3 _ _ _ _ _ _ _ _ _ _ _ _ HT Ht H0 Hp Ho Hf Hf') as (t1 & Ft & C1 & C2 & C3 & C4).
    destruct (IH (Some s1) (Some s1') (Some t1) _ _ _ _ (Logic.conj C1 (Logic.conj C2 (Logic.conj C3 C4))) P P') as (t' & zs' & A & B).
    exists t', zs'. split; [|exact B]. eapply p32_load; [right; reflexivity|exact HT|exact Ht|exact Ft|exact A].
  - apply plays_inv3 in P. apply plays_inv3 in P'. destruct P as (s & s1 & -> & Hf & P). destruct P' as (s' & s1' & -> & Hf' & P').
    destruct t as [t|]; [|contradiction]. destruct Cl as (Cl & Sh & _ & _).
    rewrite <- (sh_K _ _ Sh), <- (sh_nw _ _ Sh), <- (sh_tab _ _ Sh), <- (sh_wf _ _ Sh), (c3_K _ _ Cl), (c3_nw _ _ Cl), (c3_tab _ _ Cl), (c3_wf _ _ Cl) in Hf'.
    destruct (c3_live _ _ Cl) as [HT Ht Hwf Hm].
    destruct (fresh_close3 _ _ _ _ _ _ _ _ _ _ _ _ HT Ht Hwf Hp Ho Hf Hf') as (t1 & Ft & C1 & C2 & C3 & C4).
    destruct (IH (Some s1) (Some s1') (Some t1) _ _ _ _ (Logic.conj C1 (Logic.conj C2 (Logic.conj C3 C4))) P P') as (t' & zs' & A & B).
    exists t', zs'. split; [|exact B]. eapply p32_reset; [|exact A].
    rewrite (c3_K _ _ Cl), (c3_nw _ _ Cl), (c3_tab _ _ Cl), (c3_wf _ _ Cl), (c3_wfs _ _ Cl). exact Ft.
  - apply plays_inv3 in P. apply plays_inv3 in P'. destruct P as (s & -> & Hk & P). destruct P' as (s' & -> & Hk' & P').
    destruct t as [t|]; [|contradiction]. destruct Cl as (Cl & Sh & Q1 & Q2).
    assert (Hkt : (0 <= k < i_nw lm t)%Z) by (rewrite (c3_nw _ _ Cl); exact Hk).
    assert (C1 : close3 (mkI32 lm (i_K lm s) (i_nw lm s) (i_wfs lm s) (i_tab lm s) k (i_phase lm s) (i_step lm s) (i_entry lm s) (i_mem lm s)) (mkI32 lm (i_K lm t) (i_nw lm t) (i_wfs lm t) (i_tab lm t) k (i_phase lm t) (i_step lm t) (i_entry lm t) (i_mem lm t))).
    2: assert (C2 : shadow (mkI32 lm (i_K lm s') (i_nw lm s') (i_wfs lm s') (i_tab lm s') k (i_phase lm s') (i_step lm s') (i_entry lm s') (i_mem lm s')) (mkI32 lm (i_K lm t) (i_nw lm t) (i_wfs lm t) (i_tab lm t) k (i_phase lm t) (i_step lm t) (i_entry lm t) (i_mem lm t))).
    3: destruct (IH (Some (mkI32 lm (i_K lm s) (i_nw lm s) (i_wfs lm s) (i_tab lm s) k (i_phase lm s) (i_step lm s) (i_entry lm s) (i_mem lm s))) (Some (mkI32 lm (i_K lm s') (i_nw lm s') (i_wfs lm s') (i_tab lm s') k (i_phase lm s') (i_step lm s') (i_entry lm s') (i_mem lm s'))) (Some (mkI32 lm (i_K lm t) (i_nw lm t) (i_wfs lm t) (i_tab lm t) k (i_phase lm t) (i_step lm t) (i_entry lm t) (i_mem lm t))) _ _ _ _ (Logic.conj C1 (Logic.conj C2 (Logic.conj Q1 Q2))) P P') as (t' & zs' & A & B).
    3: exists t', zs'; split; [|exact B]; eapply p32_select; [exact Hkt|exact A].
    + destruct Cl as [? ? ? ? ? [] [] ? ? ? ?]. constructor; cbn [i_K i_nw i_wfs i_tab i_wf i_phase i_mem]; auto;
        constructor; cbn [i_K i_nw i_wfs i_tab i_wf i_phase i_mem]; auto.
    + destruct Sh. constructor; cbn [i_K i_nw i_wfs i_tab i_wf i_phase i_step i_entry]; auto.
  - apply plays_inv3 in P. apply plays_inv3 in P'. destruct P as (s & w1 & wfs1 & -> & R1 & Hr & Hu & Ht & P). destruct P' as (s' & w1' & wfs1' & -> & _ & Hr' & Hu' & Ht' & P').
    destruct t as [t|]; [|contradiction]. destruct Cl as (Cl & Sh & Q1 & Q2).
    rewrite <- (sh_tab _ _ Sh), (c3_tab _ _ Cl) in Hr', Hu'.
    assert (wfs1' = wfs1) by congruence. assert (w1' = w1) by congruence. subst wfs1' w1'.
    assert (Hrt := rate_table s sr w1 wfs1 (c3_live _ _ Cl) R1 Hr Hu).
    assert (C1 : close3 (mkI32 lm (i_K lm s) (i_nw lm s) wfs1 w1 (i_wf lm s) (i_phase lm s) (i_step lm s) (i_entry lm s) (i_mem lm s)) (mkI32 lm (i_K lm t) (i_nw lm t) wfs1 w1 (i_wf lm t) (i_phase lm t) (i_step lm t) (i_entry lm t) (i_mem lm t))).
    2: assert (C2 : shadow (mkI32 lm (i_K lm s') (i_nw lm s') wfs1 w1 (i_wf lm s') (i_phase lm s') (i_step lm s') (i_entry lm s') (i_mem lm s')) (mkI32 lm (i_K lm t) (i_nw lm t) wfs1 w1 (i_wf lm t) (i_phase lm t) (i_step lm t) (i_entry lm t) (i_mem lm t))).
    3: destruct (IH (Some (mkI32 lm (i_K lm s) (i_nw lm s) wfs1 w1 (i_wf lm s) (i_phase lm s) (i_step lm s) (i_entry lm s) (i_mem lm s))) (Some (mkI32 lm (i_K lm s') (i_nw lm s') wfs1 w1 (i_wf lm s') (i_phase lm s') (i_step lm s') (i_entry lm s') (i_mem lm s'))) (Some (mkI32 lm (i_K lm t) (i_nw lm t) wfs1 w1 (i_wf lm t) (i_phase lm t) (i_step lm t) (i_entry lm t) (i_mem lm t))) _ _ _ _ (Logic.conj C1 (Logic.conj C2 (Logic.conj Q1 Q2))) P P') as (t' & zs' & A & B).
    3: exists t', zs'; split; [|exact B]; eapply p32_rate; [exact R1| | | |exact A]; rewrite ?(c3_tab _ _ Cl), ?(c3_nw _ _ Cl), ?(c3_K _ _ Cl); assumption.
    + destruct Cl as [E1 E2 E3 E4 E5 [] [] ? ? ? ?]. constructor; cbn [i_K i_nw i_wfs i_tab i_wf i_phase i_mem]; auto;
        constructor; cbn [i_K i_nw i_wfs i_tab i_wf i_phase i_mem]; rewrite ?E1, ?E2; auto. rewrite E5. assumption.
    + destruct Sh. constructor; cbn [i_K i_nw i_wfs i_tab i_wf i_phase i_step i_entry]; auto.
  - apply plays_inv3 in P. apply plays_inv3 in P'. destruct P as (s & s1 & y1 & y2 & -> & Hb & -> & P). destruct P' as (s' & s1' & y1' & y2' & -> & Hb' & -> & P').
    destruct t as [t|]; [|contradiction]. destruct Cl as (Cl & Sh & Q1 & Q2). rewrite <- Q1, <- Q2 in Ho.
    destruct (block_close3 _ _ _ _ _ Hb _ _ _ _ _ Cl Sh Hp Ho Hb') as (t1 & zs1 & Bt & Cl1 & Sh1 & Y1 & E1 & E2).
    rewrite Q1 in E1. rewrite Q2 in E2.
    destruct (IH (Some s1) (Some s1') (Some t1) _ _ _ _ (Logic.conj Cl1 (Logic.conj Sh1 (Logic.conj E1 E2))) P P') as (t' & zs' & A & B).
    exists t', (zs1 ++ zs'). split; [eapply p32_process; [exact Bt|exact A]|]. now apply Forall2_app.
Qed.
End Single.
