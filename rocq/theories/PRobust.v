(** * PRobust: proof support for C63 *)
From Coq Require Import ZArith List Bool Reals Lia Lra Arith.
From Flocq Require Import Core.
From Verif Require Import Num Maths CrossFader Wavetable Filters Osc Spec SpecC SpecT NumFacts Laws CFFacts
  WTFacts BuildFacts SimdFacts OscFacts OscStep OscRun OscHist CFHist PTables PHist RNum RLaws.
From Coquelicot Require Import Coquelicot.
From Verif Require Import SpecE SpecX SpecV SpecG SpecH SpecL SpecU ExactMath ExactStep ExactRun ExactHist ExactCover ExactSig ExactLaws
  ExactMove PExact ConvFacts PGain PHarm PHarm32 PFade.
Import ListNotations.
Local Open Scope R_scope.

(** ** Waveforms *)
Lemma wave_near ys ys' D t : zlen ys = zlen ys' -> (forall j, Rabs (cyc ys' j - cyc ys j) <= D) ->
  Rabs (wave ys' t - wave ys t) <= D.
Proof.
  intros E H. unfold wave. rewrite <- E. set (x := t * IZR (zlen ys)). set (k := Zfloor x).
  assert (F1 := Zfloor_lb x). assert (F2 := Zfloor_ub x). fold k in F1, F2.
  assert (H0 := H k). assert (H1 := H (k + 1)%Z).
  apply Rabs_le_between in H0. apply Rabs_le_between in H1. apply Rabs_le_between.
  set (s := x - IZR k). assert (Hs : 0 <= s <= 1) by (unfold s; lra).
  set (a := cyc ys k) in *. set (b := cyc ys (k + 1)) in *. set (a' := cyc ys' k) in *. set (b' := cyc ys' (k + 1)) in *.
  replace (a' + s * (b' - a') - (a + s * (b - a))) with ((1 - s) * (a' - a) + s * (b' - b)) by ring.
  split; nra.
Qed.

(** ** Octaves *)
Lemma pow_ratio a b : (0 <= a)%Z -> (0 <= b)%Z -> IZR (2 ^ a) / IZR (2 ^ b) = bpow radix2 (a - b).
Proof.
  intros Ha Hb. change 2%Z with (radix_val radix2). rewrite !IZR_Zpower by assumption.
  unfold Zminus. rewrite bpow_plus, bpow_opp. reflexivity.
Qed.
Lemma octave_entry K d d' r : (2 <= K)%Z -> sameOctave d d' -> entryFor K (Rabs d) r -> entryFor K (Rabs d') r.
Proof.
  intros HK (_ & i & [A1 A2] & [B1 B2]) (Hr & H1 & H2). split; [exact Hr|]. split.
  - destruct H1 as [H1|H1]; [now left|right]. rewrite pow_ratio in * by lia.
    apply Rlt_le_trans with (1 := B2). apply bpow_le.
    assert (i < r + 1 - K)%Z by (apply (lt_bpow radix2); apply Rle_lt_trans with (Rabs d); assumption). lia.
  - destruct H2 as [H2|H2]; [now left|right]. rewrite pow_ratio in * by lia.
    apply Rle_trans with (2 := B1). apply bpow_le.
    assert (r - K < i + 1)%Z by (apply (lt_bpow radix2); apply Rle_lt_trans with (Rabs d); assumption). lia.
Qed.

(** ** Steps *)
Lemma near_steps dir eps (q q' p p' : R) d d' : eps < /8 -> d = stepBetween RNum dir q p -> d' = stepBetween RNum dir q' p' ->
  sameOctave d d' -> -/2 <= d <= /2 -> -/2 <= d' <= /2 -> nearPhase eps q q' -> nearPhase eps p p' ->
  exists n : Z, forall u, 0 <= u <= 1 -> Rabs (q' + d' * u - IZR n - (q + d * u)) <= eps.
Proof.
  intros He Ed Ed' (Hs & _) Hd Hd' (n & Hn) (m & Hm).
  destruct (step_int dir q p) as (a & Ea). destruct (step_int dir q' p') as (b & Eb).
  change (stepBetween RNum dir q p : R) with (stepBetween RNum dir q p) in Ea. rewrite <- Ed in Ea. rewrite <- Ed' in Eb.
  assert (Hdd : Rabs (d' - d) <= /2).
  { apply Rabs_le. destruct (Rlt_le_dec 0 d).
    - assert (0 < d') by nra. lra.
    - assert (d' < 0) by nra. lra. }
  assert (E : d' - d = (p' - p - IZR m) - (q' - q - IZR n) + IZR (m - n + a - b)).
  { rewrite Ea, Eb. rewrite minus_IZR, plus_IZR, minus_IZR. ring. }
  apply Rabs_le_between in Hdd. apply Rabs_le_between in Hn. apply Rabs_le_between in Hm.
  assert (Z0 : (m - n + a - b)%Z = 0%Z).
  { assert (-1 < m - n + a - b)%Z by (apply lt_IZR; lra). assert (m - n + a - b < 1)%Z by (apply lt_IZR; lra). lia. }
  rewrite Z0, Rplus_0_r in E. exists n. intros u Hu.
  replace (q' + d' * u - IZR n - (q + d * u)) with ((q' - q - IZR n) * (1 - u) + (p' - p - IZR m) * u).
  - apply Rabs_le. split; nra.
  - replace d' with (d + (p' - p - IZR m - (q' - q - IZR n))) by lra. ring.
Qed.

(** ** One pole *)
Lemma onePole_diff r z x x' y y' : (forall u, continuous x u) -> (forall u, continuous x' u) ->
  (onePole r z x' y' - onePole r z x y = onePole r z (fun u => (1 * x' u + (-1) * x u)%R) (y' - y))%C.
Proof.
  intros Hc Hc'. unfold onePole. rewrite (response_lin z x' x 1 (-1) Hc' Hc).
  replace (RtoC (-1)) with (- RtoC 1)%C by (unfold RtoC, Copp; cbn; f_equal; ring). ring.
Qed.

Section Exact.
Variable src : Resampler RNum.
Variable dbg : bool.
Variable F : Filt RNum.
Hypothesis HF : exactFilter F.
Hypothesis Hst : stable F.
Variables eps delta S : R.
Hypothesis He : 0 <= eps < /8.
Hypothesis Hdl : 0 <= delta.
Hypothesis HS : 0 <= S.
Notation B := (S * eps + delta).
Notation ws := (List.map poleBound (combine (f_r F) (f_z F))).

Lemma B_pos : 0 <= B.
Proof. assert (0 <= S * eps) by (apply Rmult_le_pos; lra). lra. Qed.

Lemma allPoles_near x x' m m' : (forall u, continuous x u) -> (forall u, continuous x' u) ->
  (forall u, 0 <= u <= 1 -> Rabs (x' u - x u) <= B) ->
  memDiff B ws m' m -> memDiff B ws (allPoles F x' m') (allPoles F x m).
Proof.
  intros Hc Hc' Hx Hm j w y y' Ew Ey Ey'.
  destruct (allPoles_nth_inv _ _ _ _ _ Ey) as (r & p & y0 & E1 & E2 & ->).
  destruct (allPoles_nth_inv _ _ _ _ _ Ey') as (r' & p' & z0 & E1' & E2' & ->).
  rewrite E1 in E1'. assert (r' = r) by congruence. assert (p' = p) by congruence. subst r' p'.
  rewrite onePole_diff by assumption.
  assert (Ew' : w = poleBound (r, p)).
  { rewrite (map_nth_error poleBound j (combine (f_r F) (f_z F)) E1) in Ew. congruence. }
  rewrite Ew'. apply (onePole_bound B).
  - assert (A := E1). apply nth_error_In, in_combine_r in A. unfold stable in Hst. rewrite List.Forall_forall in Hst. now apply Hst.
  - intros u. apply (@continuous_plus R_UniformSpace R_AbsRing R_NormedModule).
    + apply (@continuous_scal_r R_UniformSpace R_AbsRing R_NormedModule 1 x'). apply Hc'.
    + apply (@continuous_scal_r R_UniformSpace R_AbsRing R_NormedModule (-1) x). apply Hc.
  - intros u Hu. replace (1 * x' u + -1 * x u) with (x' u - x u) by ring. now apply Hx.
  - apply Rle_trans with (1 := Hm j w y0 z0 Ew E2 E2'). right. rewrite Ew'. reflexivity.
Qed.

(** ** States *)
Record close (st st' : Ideal) : Prop := {
  cl_K : id_K st' = id_K st; cl_nw : id_nw st' = id_nw st; cl_wf : id_wf st' = id_wf st;
  cl_cf : wt_cf (id_tab st') = wt_cf (id_tab st);
  cl_live : live src dbg F st; cl_live' : live src dbg F st';
  cl_ph : nearPhase eps (id_phase st) (id_phase st');
  cl_waves : forall i k j, (0 <= i < id_nw st)%Z -> (0 <= k <= id_K st - 2)%Z ->
      let ys := mipmap RNum src (waveform RNum (id_wfs st) (2 ^ id_K st) i) k in
      let ys' := mipmap RNum src (waveform RNum (id_wfs st') (2 ^ id_K st') i) k in
      Rabs (cyc ys' j - cyc ys j) <= delta /\
      Rabs (cyc ys (j + 1) - cyc ys j) * IZR (zlen ys) <= S;
  cl_mem : memDiff B ws (id_mem st') (id_mem st) }.

Lemma entry_zlen st k : live src dbg F st -> (0 <= k <= id_K st - 2)%Z -> zlen (entry src st k) = (2 ^ (id_K st - k))%Z.
Proof.
  intros [] Hk. destruct (table_ok src dbg _ _ _ _ lv_well lv_tab) as (Ct & W & _).
  destruct (slot_of RNum src _ _ _ _ (id_wf st) k Ct ltac:(lia) Hk) as (s & Es & S0 & Ls & _). exact Ls.
Qed.

Lemma wave_close st st' k q q' n : close st st' -> (0 <= k <= id_K st - 2)%Z -> Rabs (q' - IZR n - q) <= eps ->
  Rabs (wave (entry src st' k) q' - wave (entry src st k) q) <= B.
Proof.
  intros Cl Hk Hq. destruct Cl as [CK Cn Cw Cc L L' Cp W M].
  assert (E1 := entry_zlen st k L Hk). assert (E2 := entry_zlen st' k L' ltac:(lia)). rewrite CK in E2.
  assert (Hp := Laws.pow2_pos (id_K st - k) ltac:(destruct (lv_well _ _ _ _ L); lia)).
  assert (Wk := fun j => W (id_wf st) k j (lv_wf _ _ _ _ L) Hk). cbv zeta in Wk.
  replace (wave (entry src st' k) q') with (wave (entry src st' k) (q' - IZR n)).
  2:{ rewrite <- (wave_periodic (entry src st' k) (q' - IZR n) n) by lia. f_equal. ring. }
  set (v := q' - IZR n) in *.
  replace (wave (entry src st' k) v - wave (entry src st k) q)
    with ((wave (entry src st k) v - wave (entry src st k) q) + (wave (entry src st' k) v - wave (entry src st k) v)) by ring.
  eapply Rle_trans; [apply Rabs_triang|]. apply Rplus_le_compat.
  - eapply Rle_trans; [apply (wave_lip (entry src st k) S q v); [lia|intros j; apply Wk]|].
    apply Rmult_le_compat_l; assumption.
  - apply wave_near; [congruence|]. intros j. unfold entry. rewrite Cw. apply Wk.
Qed.

Lemma mixed_close st st' q q' d d' n m g mu gu : close st st' -> (0 <= m <= id_K st - 2)%Z ->
  0 <= g -> 0 <= gu -> g + gu = 1 -> (gu <> 0 -> (0 <= mu <= id_K st - 2)%Z) ->
  (forall u, 0 <= u <= 1 -> Rabs (q' + d' * u - IZR n - (q + d * u)) <= eps) ->
  forall u, 0 <= u <= 1 -> Rabs (mixed src st' q' d' (m, g, mu, gu) u - mixed src st q d (m, g, mu, gu) u) <= B.
Proof.
  intros Cl Hm Hg Hgu Hs Hmu Hq u Hu. unfold mixed.
  assert (A1 := wave_close st st' m _ _ n Cl Hm (Hq u Hu)).
  destruct (Req_dec gu 0) as [E|E].
  - rewrite E. replace g with 1 by lra. match goal with |- Rabs ?e <= _ => match type of A1 with Rabs ?f <= _ => replace e with f by ring end end. exact A1.
  - assert (A2 := wave_close st st' mu _ _ n Cl (Hmu E) (Hq u Hu)).
    set (x := wave (entry src st m) _) in *. set (x' := wave (entry src st' m) _) in *.
    set (y := wave (entry src st mu) _) in *. set (y' := wave (entry src st' mu) _) in *.
    apply Rabs_le_between in A1. apply Rabs_le_between in A2. apply Rabs_le_between.
    replace (g * x' + gu * y' - (g * x + gu * y)) with (g * (x' - x) + gu * (y' - y)) by ring.
    assert (HB := B_pos). set (b := B) in *.
    replace b with ((g + gu) * b) by (rewrite Hs; ring). split; nra.
Qed.

(** the same request to equal cross-faders *)
Lemma find_eq wfs nw K w d w2 mm r : wellFormed RNum wfs nw K -> table src dbg wfs nw w -> 0 < d -> entryFor K d r ->
  wt_findMipMapIndices RNum dbg w d = Ok (w2, mm) ->
  mm = outS RNum (cf_num (wt_cf w)) (cfState RNum (wt_cf w)) r /\
  wt_cf w2 = cfWith RNum (wt_cf w) (cfStep (cf_num (wt_cf w)) (cfState RNum (wt_cf w)) r).
Proof.
  intros HW HT Hd Hr E. destruct (table_ok src dbg _ _ _ _ HW HT) as (_ & _ & CF).
  assert (HS' := table_scale src dbg wfs nw K w HW HT). destruct HW as (HK & HW).
  assert (Er : req RNum (wt_cf w) d = r).
  { apply (entryFor_fun K d); [lia| |assumption]. exact (req_entry RNum LR K (wt_cf w) d ltac:(lia) HS' I). }
  assert (E' : wt_findMipMapIndices RNum dbg w d = Ok (mkWT (wt_slots w) (wt_ph w)
     (cfWith RNum (wt_cf w) (cfStep (cf_num (wt_cf w)) (cfState RNum (wt_cf w)) r)),
     outS RNum (cf_num (wt_cf w)) (cfState RNum (wt_cf w)) r)).
  { unfold wt_findMipMapIndices. rewrite (newIndices_eq RNum dbg (wt_cf w) d CF), Er.
    - cbn [bind]. now rewrite cfOut_S.
    - intros _. unfold t0. cbn [tlt tofZ RNum]. now apply Rlt_bool_true. }
  rewrite E' in E. assert (E1 : w2 = mkWT (wt_slots w) (wt_ph w)
     (cfWith RNum (wt_cf w) (cfStep (cf_num (wt_cf w)) (cfState RNum (wt_cf w)) r))) by congruence.
  split; [congruence|]. rewrite E1. reflexivity.
Qed.
Lemma find_both wfs wfs' nw K w w' d d' w2 w2' mm mm' : wellFormed RNum wfs nw K -> table src dbg wfs nw w ->
  wellFormed RNum wfs' nw K -> table src dbg wfs' nw w' -> wt_cf w' = wt_cf w -> sameOctave d d' ->
  wt_findMipMapIndices RNum dbg w (Rabs d) = Ok (w2, mm) -> wt_findMipMapIndices RNum dbg w' (Rabs d') = Ok (w2', mm') ->
  mm' = mm /\ wt_cf w2' = wt_cf w2.
Proof.
  intros HW HT HW' HT' Ec Ho E E'.
  assert (Hnz : d <> 0 /\ d' <> 0) by (destruct Ho as [Ho _]; split; intros Q; rewrite Q in Ho; lra).
  destruct Hnz as [Hd Hd'].
  destruct (entryFor_some K (Rabs d) ltac:(destruct HW; lia)) as (r & Hr).
  assert (Hr' := octave_entry K d d' r ltac:(destruct HW; lia) Ho Hr).
  destruct (find_eq _ _ _ _ _ _ _ _ HW HT (Rabs_pos_lt d Hd) Hr E) as [A1 A2].
  destruct (find_eq _ _ _ _ _ _ _ _ HW' HT' (Rabs_pos_lt d' Hd') Hr' E') as [B1 B2].
  rewrite Ec in B1, B2. split; congruence.
Qed.

Lemma sample_close dir st st' p p' s s' y y' : close st st' -> nearPhase eps p p' ->
  sameOctave (stepBetween RNum dir (id_phase st) p) (stepBetween RNum dir (id_phase st') p') ->
  sample src dbg F dir st p s y -> sample src dbg F dir st' p' s' y' ->
  close s s' /\ Rabs (y' - y) <= B * gainBound F.
Proof.
  intros Cl Hp Ho S1 S2.
  assert (L1 := sample_live src dbg F HF _ _ _ _ _ (cl_live _ _ Cl) S1).
  assert (L2 := sample_live src dbg F HF _ _ _ _ _ (cl_live' _ _ Cl) S2).
  destruct S1 as [d w1 m g mu gu mem Hsh Hd Hd0 Hdr Hf Htr Hmem].
  destruct S2 as [d' w1' m' g' mu' gu' mem' Hsh' Hd' Hd0' Hdr' Hf' Htr' Hmem'].
  rewrite <- Hd, <- Hd' in Ho. assert (Cl' := Cl). destruct Cl' as [CK Cn Cw Cc L L' Cp W M].
  assert (W1 := lv_well _ _ _ _ L). assert (T1 := lv_tab _ _ _ _ L).
  assert (W2 := lv_well _ _ _ _ L'). assert (T2 := lv_tab _ _ _ _ L'). rewrite CK, Cn in W2. rewrite Cn in T2.
  destruct (find_both _ _ _ _ _ _ _ _ _ _ _ _ W1 T1 W2 T2 Cc Ho Hf Hf') as [Em Ec].
  assert (m' = m) by congruence. assert (g' = g) by congruence. assert (mu' = mu) by congruence. assert (gu' = gu) by congruence. subst m' g' mu' gu'.
  destruct (find_gains src dbg _ _ _ _ _ _ _ _ _ _ W1 T1 (Rabs_pos_lt d Hd0) Hf) as (G1 & G2 & G3 & G4 & G5 & _).
  destruct (near_steps dir eps _ _ _ _ d d' (proj2 He) Hd Hd' Ho Hdr Hdr' Cp Hp) as (n & Hn).
  assert (Md : memDiff B ws mem' mem).
  { rewrite Hmem, Hmem'. apply allPoles_near; [intros; apply mixed_cont|intros; apply mixed_cont| |exact M].
    apply (mixed_close _ _ _ _ _ _ n); assumption. }
  split.
  - constructor; cbn [id_K id_nw id_wfs id_tab id_wf id_phase id_mem]; auto.
  - assert (Lw : length ws = length (f_r F)) by (rewrite map_length, combine_length, (ef_z F HF); apply Nat.min_id).
    assert (Q := memDiff_sum B ws mem' mem). 
    assert (E1 := lv_mem _ _ _ _ L1). assert (E2 := lv_mem _ _ _ _ L2). cbn [id_mem] in E1, E2.
    apply Q; [congruence|congruence|exact Md].
Qed.

Definition nearby (y y' : R) : Prop := Rabs (y' - y) <= B * gainBound F.

Lemma block_close dir st ps s ys : block src dbg F dir st ps s ys -> forall st' ps' s' ys', close st st' ->
  Forall2 (nearPhase eps) ps ps' -> Forall2 sameOctave (stepsOf dir (id_phase st) ps) (stepsOf dir (id_phase st') ps') ->
  block src dbg F dir st' ps' s' ys' ->
  close s s' /\ Forall2 nearby ys ys' /\ id_phase s = last ps (id_phase st) /\ id_phase s' = last ps' (id_phase st').
Proof.
  induction 1 as [st|st p st1 y ps st2 ys Hs Hb IH]; intros st' ps' s' ys' Cl Hp Ho Hb'.
  - inversion Hp; subst. inversion Hb'; subst. repeat (split; [first [assumption|constructor]|]). reflexivity.
  - inversion Hp as [|? p' ? ps2' Hp1 Hp2]; subst. inversion Hb' as [|? ? st1' y' ? ? ys2' Hs' Hb2']; subst.
    cbn [stepsOf] in Ho. inversion Ho as [|? ? ? ? Ho1 Ho2]; subst.
    destruct (sample_close _ _ _ _ _ _ _ _ _ Cl Hp1 Ho1 Hs Hs') as [Cl1 Y1].
    assert (E1 : id_phase st1 = p) by (now destruct Hs). assert (E2 : id_phase st1' = p') by (now destruct Hs').
    assert (Ho2' : Forall2 sameOctave (stepsOf dir (id_phase st1) ps) (stepsOf dir (id_phase st1') ps2')) by (rewrite E1, E2; exact Ho2).
    destruct (IH st1' ps2' s' ys2' Cl1 Hp2 Ho2' Hb2') as (Cl2 & Y2 & P1 & P2).
    split; [exact Cl2|]. split; [constructor; assumption|].
    assert (LC : forall (a b : R) l, last (a :: l) b = last l a).
    { clear. intros a b l. revert a b. induction l as [|c l IHl]; intros a b; [reflexivity|].
      change (last (a :: c :: l) b) with (last (c :: l) b). rewrite (IHl c b), (IHl c a). reflexivity. }
    rewrite !LC, P1, P2, E1, E2. split; reflexivity.
Qed.

Lemma poleBounds_pos : List.Forall (fun w => 0 <= w) ws.
Proof.
  apply List.Forall_forall. intros w Hw. apply in_map_iff in Hw. destruct Hw as (e & <- & Hin).
  apply In_nth_error in Hin. destruct Hin as [j Hj]. apply poleBound_pos. exact (poles_neg F Hst j e Hj).
Qed.

(** ** Loads and resets *)
Lemma fresh_close K nw wfs wfs' w w' wf p p' d d' s s' :
  wellFormed RNum wfs nw K -> wellFormed RNum wfs' nw K -> table src dbg wfs nw w -> table src dbg wfs' nw w' ->
  wt_cf w' = wt_cf w -> (0 <= wf < nw)%Z -> nearPhase eps p p' -> sameOctave d d' ->
  (forall i k j, (0 <= i < nw)%Z -> (0 <= k <= K - 2)%Z ->
      let ys := mipmap RNum src (waveform RNum wfs (2 ^ K) i) k in
      let ys' := mipmap RNum src (waveform RNum wfs' (2 ^ K) i) k in
      Rabs (cyc ys' j - cyc ys j) <= delta /\
      Rabs (cyc ys (j + 1) - cyc ys j) * IZR (zlen ys) <= S) ->
  fresh dbg F K nw wfs w wf p d s -> fresh dbg F K nw wfs' w' wf p' d' s' ->
  close s s' /\ id_phase s = p /\ id_phase s' = p'.
Proof.
  intros HW HW' HT HT' Ec Hwf Hp Ho Hw F1 F2.
  assert (L1 := fresh_live src dbg F _ _ _ _ _ _ _ _ HW HT Hwf F1).
  assert (L2 := fresh_live src dbg F _ _ _ _ _ _ _ _ HW' HT' Hwf F2).
  destruct F1 as [w1 m g mu gu Hsh Hd0 Hf]. destruct F2 as [w1' m' g' mu' gu' Hsh' Hd0' Hf'].
  destruct (find_both _ _ _ _ _ _ _ _ _ _ _ _ HW HT HW' HT' Ec Ho Hf Hf') as [_ Ec1].
  split; [|split; reflexivity].
  constructor; cbn [id_K id_nw id_wfs id_tab id_wf id_phase id_mem]; auto.
  apply memDiff_zero; [apply B_pos|apply poleBounds_pos].
Qed.

Lemma build_cf wfs wfs' nw K sr fade w w' : wellFormed RNum wfs nw K -> wellFormed RNum wfs' nw K ->
  wt_build RNum src dbg wfs nw sr fade = Ok (Some w) -> wt_build RNum src dbg wfs' nw sr fade = Ok (Some w') -> wt_cf w' = wt_cf w.
Proof.
  intros (HK & Hnw & Hl & Hm) (_ & _ & Hl' & _) Hb Hb'.
  destruct (wt_build_some RNum src dbg LR wfs nw sr fade K w HK Hnw Hl Hm Hb) as (_ & k & Ek & Ec).
  destruct (wt_build_some RNum src dbg LR wfs' nw sr fade K w' HK Hnw Hl' Hm Hb') as (_ & k' & Ek' & Ec').
  rewrite Ek in Ek'. assert (k' = k) by congruence. subst k'. rewrite Ec in Ec'. congruence.
Qed.

Definition closeO (q q' : R) (a b : option Ideal) : Prop :=
  match a, b with Some s, Some s' => close s s' /\ id_phase s = q /\ id_phase s' = q' | None, None => True | _, _ => False end.

Lemma load_close w w' p p' d d' K nw wfs K' nw' wfs' s s' : nearTables src dbg delta S w w' -> nearPhase eps p p' -> sameOctave d d' ->
  wellFormed RNum wfs nw K -> table src dbg wfs nw w -> fresh dbg F K nw wfs w 0 p d s ->
  wellFormed RNum wfs' nw' K' -> table src dbg wfs' nw' w' -> fresh dbg F K' nw' wfs' w' 0 p' d' s' ->
  close s s' /\ id_phase s = p /\ id_phase s' = p'.
Proof.
  intros (xs & xs' & nw0 & K0 & sr & fade & HX & HX' & Hsr & Hfd & Hb & Hb' & Hn) Hp Ho HW HT F1 HW' HT' F2.
  assert (TX := t_build src dbg xs nw0 sr fade w Hsr Hfd Hb).
  assert (TX' := t_build src dbg xs' nw0 sr fade w' Hsr Hfd Hb').
  assert (Hi : (0 <= 0 < nw0)%Z) by (destruct HX as (_ & ? & _); lia).
  assert (Hk : (0 <= 0 <= K0 - 2)%Z) by (destruct HX; lia).
  destruct (table_unique src dbg _ _ _ _ _ _ w 0 0 HX TX HW HT Hi Hk) as (EK & En & _).
  destruct (table_unique src dbg _ _ _ _ _ _ w' 0 0 HX' TX' HW' HT' Hi Hk) as (EK' & En' & _).
  subst K K' nw nw'.
  eapply (fresh_close K0 nw0 wfs wfs' w w' 0 p p' d d'); try eassumption.
  - exact (build_cf xs xs' nw0 K0 sr fade w w' HX HX' Hb Hb').
  - intros i k j Hi' Hk'. cbv zeta.
    destruct (table_unique src dbg _ _ _ _ _ _ w i k HX TX HW HT Hi' Hk') as (_ & _ & <-).
    destruct (table_unique src dbg _ _ _ _ _ _ w' i k HX' TX' HW' HT' Hi' Hk') as (_ & _ & <-).
    now apply Hn.
Qed.

Lemma plays_close q q' ops ops' : nearScripts src dbg eps delta S q q' ops ops' -> forall st st' s s' ys ys', closeO q q' st st' ->
  plays src dbg F st ops s ys -> plays src dbg F st' ops' s' ys' -> Forall2 nearby ys ys'.
Proof.
  induction 1 as [q q'|q q' op l l' Hop Hn IH|q q' w w' p p' d d' l l' Hw Hp Ho Hn IH|q q' w w' p p' d d' l l' Hw Hp Ho Hn IH
                 |q q' p p' d d' l l' Hp Ho Hn IH|q q' k l l' Hn IH|q q' sr l l' Hn IH|q q' dir ps ps' l l' Hp Ho Hn IH];
    intros st st' s s' ys ys' Cl P P'.
  - inversion P; subst. inversion P'; subst. constructor.
  - destruct Hop as (p & d & [-> | ->]); apply plays_inv in P; apply plays_inv in P'; eapply IH; eassumption.
  - apply plays_inv in P. apply plays_inv in P'. destruct P as (K & nw & wfs & s1 & HW & HT & Hf & P). destruct P' as (K' & nw' & wfs' & s1' & HW' & HT' & Hf' & P').
    eapply IH; [|exact P|exact P']. cbn [closeO]. exact (load_close w w' p p' d d' K nw wfs K' nw' wfs' s1 s1' Hw Hp Ho HW HT Hf HW' HT' Hf').
  - apply plays_inv in P. apply plays_inv in P'. destruct P as (K & nw & wfs & s1 & HW & HT & Hf & P). destruct P' as (K' & nw' & wfs' & s1' & HW' & HT' & Hf' & P').
    eapply IH; [|exact P|exact P']. cbn [closeO]. exact (load_close w w' p p' d d' K nw wfs K' nw' wfs' s1 s1' Hw Hp Ho HW HT Hf HW' HT' Hf').
  - apply plays_inv in P. apply plays_inv in P'. destruct P as (t & s1 & -> & Hf & P). destruct P' as (t' & s1' & -> & Hf' & P').
    destruct Cl as ([CK Cn Cw Cc L L' Cp W M] & _ & _). rewrite CK, Cn, Cw in Hf'. rewrite CK in W.
    assert (W1 := lv_well _ _ _ _ L). assert (T1 := lv_tab _ _ _ _ L).
    assert (W2 := lv_well _ _ _ _ L'). assert (T2 := lv_tab _ _ _ _ L'). rewrite CK, Cn in W2. rewrite Cn in T2.
    eapply IH; [|exact P|exact P']. cbn [closeO]. eapply fresh_close; [exact W1|exact W2|exact T1|exact T2|exact Cc|apply L|exact Hp|exact Ho|exact W|exact Hf|exact Hf'].
  - apply plays_inv in P. apply plays_inv in P'. destruct P as (t & -> & Hk & P). destruct P' as (t' & -> & Hk' & P').
    destruct Cl as ([CK Cn Cw Cc L L' Cp W M] & Q1 & Q2).
    eapply IH; [|exact P|exact P']. cbn [closeO]. split; [|split; assumption].
    constructor; cbn [id_K id_nw id_wfs id_tab id_wf id_phase id_mem]; auto; now apply live_select.
  - apply plays_inv in P. apply plays_inv in P'. destruct P as (t & w1 & -> & R1 & R2 & Hu & P). destruct P' as (t' & w1' & -> & _ & _ & Hu' & P').
    destruct Cl as ([CK Cn Cw Cc L L' Cp W M] & Q1 & Q2).
    assert (LR1 := live_rate src dbg F _ _ _ L R1 R2 Hu). assert (LR2 := live_rate src dbg F _ _ _ L' R1 R2 Hu').
    eapply IH; [|exact P|exact P']. cbn [closeO]. split; [|split; assumption].
    constructor; cbn [id_K id_nw id_wfs id_tab id_wf id_phase id_mem]; auto.
    assert (W1 := lv_well _ _ _ _ L). assert (T1 := lv_tab _ _ _ _ L).
    assert (W2 := lv_well _ _ _ _ L'). assert (T2 := lv_tab _ _ _ _ L'). rewrite CK, Cn in W2. rewrite Cn in T2.
    destruct (table_ok src dbg _ _ _ _ W1 T1) as (C1 & _). destruct (table_ok src dbg _ _ _ _ W2 T2) as (C2 & _).
    assert (W1' := W1). destruct W1' as (HK & Hnw & Hl & Hm). assert (W2' := W2). destruct W2' as (_ & _ & Hl2 & _).
    rewrite (update_R src dbg (id_K t) (id_nw t) (id_wfs t)) in Hu by assumption.
    rewrite (update_R src dbg (id_K t) (id_nw t) (id_wfs t')) in Hu' by assumption.
    destruct (wt_build RNum src dbg (id_wfs t) _ _ _) as [[v|]|] eqn:Eb; try discriminate.
    destruct (wt_build RNum src dbg (id_wfs t') _ _ _) as [[v'|]|] eqn:Eb'; try discriminate.
    cbn [orNull] in Hu, Hu'. assert (v = w1) by congruence. assert (v' = w1') by congruence. subst v v'.
    eapply build_cf; [exact W1|exact W2|exact Eb|exact Eb'].
  - apply plays_inv in P. apply plays_inv in P'. destruct P as (t & s1 & y1 & y2 & -> & Hb & -> & P). destruct P' as (t' & s1' & y1' & y2' & -> & Hb' & -> & P').
    destruct Cl as (Cl & Q1 & Q2). rewrite <- Q1, <- Q2 in Ho.
    destruct (block_close _ _ _ _ _ Hb _ _ _ _ Cl Hp Ho Hb') as (Cl1 & Y1 & E1 & E2).
    apply Forall2_app; [exact Y1|]. eapply IH; [|exact P|exact P']. cbn [closeO]. rewrite E1, E2, Q1, Q2. auto.
Qed.
End Exact.
