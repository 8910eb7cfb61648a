(** * PTrackS: one sample of the binary32 oscillator against the ideal of SpecR *)
From Coq Require Import ZArith List Bool Reals Lia Lra Arith.
From Flocq Require Import Core IEEE754.BinarySingleNaN.
From Verif Require Import Num Maths CrossFader Wavetable Filters Osc Spec SpecC SpecT NumFacts Laws CFFacts
  WTFacts BuildFacts SimdFacts OscFacts OscStep OscRun OscHist CFHist PTables PRebuild RNum RLaws B32 B32Facts B32Laws
  SpecF SpecO SpecW PCross PHist PWork.
From Coquelicot Require Import Coquelicot.
From Verif Require Import SpecE SpecR SpecZ SpecZ32 ExactMath ExactStep ExactRun ExactSig ExactMove PExact PHold PApx PSlope PTerm PVal PFwd PCoef PPole PSum PTrack PStay.
Import ListNotations.
Local Open Scope R_scope.

Section Run.
Variable lm : Libm.
Hypothesis Hex : expAccurate lm.
Hypothesis Hlog : log2_exact lm.
Variable src : Resampler (B32 lm).
Variable cfg : Cfg.
Hypothesis HB : (1 <= batch cfg)%nat.
Variable f : FilterType.
Variable c : Z.
Hypothesis Hc : (-64 <= c <= 64)%Z.
Notation N := (B32 lm).
Notation L := (B32_Laws lm Hlog).
Notation F := (filt N f).
Notation FR := (filt RNum f).
Notation n := (numCoeffs f).
Notation dbg := (Osc.dbg cfg).
Notation S := (bpow radix2 c).
Notation u := (eps * S).
Notation tracks := (tracks lm Hlog src cfg f c).
Notation Zx x := (zAt RNum cfg FR x : C).

Lemma halfLe j t : (0 <= j)%Z -> IZR j <= t <= IZR j + 1 -> IZR (j / 2) <= t / 2 <= IZR (j / 2) + 1.
Proof. eapply half_le; eassumption. Qed.
Lemma halfLast len j : (2 <= len)%Z -> j = (2 * len - 1)%Z -> (j / 2 = len - 1)%Z.
Proof. eapply half_last; eassumption. Qed.
Lemma halfFloor t len : 0 <= t -> (Zfloor (t * IZR (2 * len)) / 2)%Z = Zfloor (t * IZR len).
Proof. eapply half_floor; eassumption. Qed.
Lemma halfCeil (len : Z) p : (0 < len)%Z -> 0 <= p < 1 ->
  (((Zceil (p * IZR (2 * len)) - 1) mod (2 * len)) / 2 = (Zceil (p * IZR len) - 1) mod len)%Z.
Proof. eapply half_ceil; eassumption. Qed.

Lemma sel_one K nw (o : Osc N) w dir (p : f32) : OscOk N L F K nw o w -> phase01 p ->
  let s := step32 lm dir (o_phase o) p in
  (dbg = true -> B2R s <> 0) -> Rabs (B2R s) < / 2 ->
  processOne N cfg F dir o p =
     if Rle_bool 0 (v32 s) then processSampleFwd N cfg F o w p s else processSampleBwd N cfg F o w p s.
Proof.
  intros HO Hp s Hs0 Hs. assert (Es : stepOf N dir p (o_phase o) = s) by (destruct dir; reflexivity).
  destruct (step_facts N F L K nw o w HO dir p Hp) as (Hf & Hfw & Hbi). rewrite Es in Hf, Hfw, Hbi.
  destruct (zero_spec N L) as [Z1 Z2].
  change (Laws.val N L s) with (v32 s) in *. change (B2R s) with (v32 s) in *. assert (A := Rle_abs (v32 s)).
  unfold processOne. rewrite (oo_wt _ _ _ _ _ _ _ HO).
  destruct dir; [change (stepFwd N p (o_phase o)) with s|change (stepBi N p (o_phase o)) with s].
  - specialize (Hfw eq_refl). rewrite assert_ok.
    + rewrite Rle_bool_true by lra. reflexivity.
    + intros D. specialize (Hs0 D). destruct (half_spec N L 1 ltac:(lia)) as [Hh1 Hh2].
      rewrite (lt_spec N L _ _ Z1 Hf), Z2, (le_spec N L _ _ Hf Hh1), Hh2.
      change (Laws.val N L s) with (v32 s). rewrite Rlt_bool_true, Rle_bool_true by lra. reflexivity.
  - rewrite (le_spec N L _ _ Z1 Hf), Z2. reflexivity.
Qed.

Lemma entry_slot32 (st : Ideal32 lm) (o : Osc N) k : tracks st o -> (0 <= k <= i_K lm st - 2)%Z ->
  let ys := entry32 lm src (i_wfs lm st) (i_K lm st) (i_wf lm st) k in
  @zlen (T N) ys = (2 ^ (i_K lm st - k))%Z /\ slotOf (N := N) ys (slot N o (i_tab lm st) k) /\ tame c ys.
Proof.
  intros Tr Hk ys.
  destruct (table32_ok lm Hlog src dbg _ _ _ _ (tk_tab _ _ _ _ _ _ _ _ Tr)) as (Wf & Ct & _).
  assert (Hwf := oo_wf _ _ _ _ _ _ _ (tk_ok _ _ _ _ _ _ _ _ Tr)).
  assert (Ewf := tk_wf _ _ _ _ _ _ _ _ Tr).
  destruct (slot_of N src _ _ _ _ (i_wf lm st) k Ct ltac:(lia) Hk) as (s & Es & Ss & Ls & _).
  split; [exact Ls|]. split.
  - unfold slot. rewrite Ewf, Es. exact Ss.
  - apply (tk_tame _ _ _ _ _ _ _ _ Tr); [lia|exact Hk].
Qed.

Lemma scale4 K t m D : (2 <= K)%Z -> (0 <= t <= K)%Z -> (0 <= m <= K)%Z -> (t - 2 <= m)%Z ->
  D < IZR (2 ^ t) / IZR (2 ^ K) -> 0 <= D -> D * IZR (2 ^ (K - m)) < IZR 4.
Proof.
  intros HK Ht Hm Htm HD H0. assert (PK := IZR_pow2_pos K ltac:(lia)). assert (Pk := IZR_pow2_pos (K - m) ltac:(lia)).
  apply Rlt_le_trans with (IZR (2 ^ t) / IZR (2 ^ K) * IZR (2 ^ (K - m))); [apply Rmult_lt_compat_r; lra|].
  apply Rmult_le_reg_r with (IZR (2 ^ K)); [exact PK|].
  replace (IZR (2 ^ t) / IZR (2 ^ K) * IZR (2 ^ (K - m)) * IZR (2 ^ K)) with (IZR (2 ^ t) * IZR (2 ^ (K - m))) by (field; lra).
  rewrite <- !mult_IZR. apply IZR_le. change 4%Z with (2 ^ 2)%Z. rewrite <- !Z.pow_add_r by lia. apply Z.pow_le_mono_r; lia.
Qed.

Lemma mixed_cnt (st : Ideal32 lm) (g gu q d : R) m mu u0 :
  continuous (fun u => g * curve lm src st m (q + d * u) + gu * curve lm src st mu (q + d * u)) u0.
Proof.
  apply (continuous_plus (V := R_NormedModule)); apply (continuous_scal_r (V := R_NormedModule)); apply wave_path_cont.
Qed.

Lemma sample_stays dir st p st' Y : sample32 lm src dbg f dir st p st' Y -> stay32 lm src dbg f dir st p st' Y.
Proof.
  intros [s d k w' m g mu gu mem H1 H2 H3 H4 H5 H6 H7 H8 H9].
  apply (stay32_ lm src dbg f dir st p s d k w' m g mu gu mem); try assumption.
  - left. exact H8.
  - intros E. exfalso. exact (H3 E).
  - intros _. destruct H8 as [[H8 _]|[H8 _]]; [apply Rgt_not_eq|apply Rlt_not_eq]; exact H8.
Qed.

(** samples that move or stand still *)
Lemma stay_near dir st p st' Y (o : Osc N) : tracks st o -> stay32 lm src dbg f dir st p st' Y ->
  exists o' y, processOne N cfg F dir o p = Ok (o', y) /\ tracks st' o' /\
    near y Y (outErr f * u) /\ Rabs Y <= outSize f * S.
Proof.
  intros Tr Sm. destruct Sm as [s d kk w' m g mu gu mem Hpl Hs Hsh Hd Hdh Hf Htr Hoff Hback Hmem].
  set (K := i_K lm st) in *. set (nw := i_nw lm st) in *. set (w := i_tab lm st) in *.
  assert (HO := tk_ok _ _ _ _ _ _ _ _ Tr). fold K nw w in HO.
  destruct (table32_ok lm Hlog src dbg _ _ _ _ (tk_tab _ _ _ _ _ _ _ _ Tr)) as (Wf & Ct & nf & Hr & Hnf).
  fold K nw w in Wf, Ct, Hr.
  destruct (reach_ok lm Hlog src dbg K nf w Hr) as (HK & _ & HSc & En & Hm & HCf). specialize (HCf Hnf).
  assert (W := oo_W _ _ _ _ _ _ _ HO).
  assert (Hq := tk_plain _ _ _ _ _ _ _ _ Tr). assert (Hq1 : phase01 (i_phase lm st)) by apply Hq.
  assert (Hp1 : phase01 p) by apply Hpl.
  assert (Eph := tk_phase _ _ _ _ _ _ _ _ Tr).
  assert (Eq : o_phred o = i_phase lm st) by (rewrite <- (oo_phase _ _ _ _ _ _ _ HO); exact Eph).
  assert (Es : step32 lm dir (o_phase o) p = s) by (rewrite Eph; symmetry; exact Hs).
  assert (Hsel := sel_one K nw o w dir p HO Hp1). cbv zeta in Hsel. rewrite Es in Hsel.
  destruct (step_facts N F L K nw o w HO dir p Hp1) as (Hfs & _).
  replace (stepOf N dir p (o_phase o)) with s in Hfs by (rewrite <- Es; destruct dir; reflexivity).
  change (fin32 s = true) in Hfs. change (B2R s) with (v32 s) in *.
  destruct (babs_val s Hfs) as [Ha1 Ha2]. set (a := @Babs 24 128 s) in *. change (tabs N s) with a in Hf.
  assert (Hs0 : dbg = true -> v32 s <> 0).
  { intros D E0. unfold wt_findMipMapIndices in Hf.
    apply bind_ok in Hf. destruct Hf as (c1 & E & _). unfold newIndices, findMipMapIndex, assert_ in E. rewrite D in E.
    assert (X : tlt N (t0 N) a = false).
    { destruct (zero_spec N L) as [Z1 Z2]. rewrite (lt_spec N L _ _ Z1 Ha1), Z2. apply Rlt_bool_false.
      change (v32 a <= 0). rewrite Ha2, E0, Rabs_R0. lra. }
    cbn [andb] in E. rewrite X in E. cbn in E. discriminate. }
  specialize (Hsel Hs0 Hsh).
  (* the cross-fader *)
  destruct (wtNext_ok N cfg K nw w a W HCf) as (E1 & W1 & C1 & _ & _ & M1 & M2 & M3).
  { intros D. apply tlt0; [exact Ha1|]. change (B2R a) with (v32 a). rewrite Ha2. apply Rabs_pos_lt. now apply Hs0. }
  rewrite E1 in Hf. rewrite mmiOf_eta in Hf.
  assert (Ew' : w' = wtNext N w a) by congruence.
  assert (Em : m = miOf N w a) by congruence. assert (Eg : g = gOf N w a) by congruence.
  assert (Emu : mu = muOf N w a) by congruence. assert (Egu : gu = guOf N w a) by congruence.
  clear Hf.
  destruct (entryFor_some K (v32 a) ltac:(lia)) as (r & Hent).
  assert (Hreq : req N (wt_cf w) a = r) by (apply (req32 lm Hlog src dbg K nf w a r Hr Ha1 Hent)).
  assert (Bi := proj1 (CFok_inv N (wt_cf w)) HCf). destruct Bi as [_ Bi]. rewrite En in Bi.
  assert (B' : zlen (cf_scale (wt_cf w)) = (K - 1)%Z) by apply HSc. rewrite B' in Bi.
  assert (Rr : (0 <= r < K - 1)%Z) by (unfold entryFor in Hent; lia).
  assert (Eo : mmiOf N w a = outS N nf (cfState N (wt_cf w)) r).
  { unfold mmiOf. rewrite cfOut_S, Hreq, En. reflexivity. }
  assert (Lo := low_near lm dbg nf (K - 1) _ r ltac:(lia) Rr Bi). rewrite <- Eo in Lo. fold (miOf N w a) in Lo.
  destruct (outS_ok lm nf (K - 1) _ r (conj Hnf Hm) Rr Bi) as (mi0 & g0 & mu0 & gu0 & Eo2 & Gc & _ & Gm & _).
  rewrite <- Eo, mmiOf_eta in Eo2.
  assert (Gc' : convex32 g gu) by (rewrite Eg, Egu; replace (gOf N w a) with g0 by congruence; replace (guOf N w a) with gu0 by congruence; exact Gc).
  assert (Gm' : v32 gu <> 0 -> mu = (m + 1)%Z).
  { intros Hne. destruct Gm as [Gm|(_ & Gm & _)]; [congruence|]. elim Hne. rewrite Egu. change (B2R gu0) with (v32 gu0) in Gm.
    replace (guOf N w a) with gu0 by congruence. exact Gm. }
  assert (Hlim : Rabs (v32 s) < IZR (2 ^ (r + 1)) / IZR (2 ^ K)).
  { destruct (Req_dec (v32 s) 0) as [E0|E0].
    { rewrite E0, Rabs_R0. apply Rdiv_lt_0_compat; apply IZR_pow2_pos; lia. }
    apply (oct_limit cfg HB K r s ltac:(lia)). split; [exact E0|]. split; [exact Hsh|]. change (B2R s) with (v32 s). rewrite <- Ha2. exact Hent. }
  clear Gm Gc Eo Eo2 HSc.
  rewrite Ew' in *. clear w' Ew'.
  assert (Emm := tk_mm _ _ _ _ _ _ _ _ Tr). assert (Epd := tk_pd _ _ _ _ _ _ _ _ Tr).
  assert (Hv : forall y : T N, Laws.val N L y = v32 y) by reflexivity.
  assert (Ej : v32 (i_step lm st) < 0 -> o_j o = Zceil (v32 (i_phase lm st) * IZR (2 ^ (K - i_entry lm st)))).
  { intros H. assert (Hj := oo_jb _ _ _ _ _ _ _ HO). rewrite Hv, Epd in Hj. specialize (Hj H). rewrite Hj.
    unfold pos. rewrite Hv, Eq, Emm. reflexivity. }
  assert (Hnt : ~ (trap N L o /\ (miOf N w a < o_mm o)%Z)).
  { intros [[T1 T2] T3]. rewrite Hv, Epd in T1. rewrite Emm, <- Em in T3.
    destruct Htr as [[[H1 _]|[H1 H2]]|[_ H1]]; [change (B2R (i_step lm st)) with (v32 (i_step lm st)) in H1; lra| |lia].
    destruct H2 as [H2|[[H2 H3]|[H2 _]]]; [lia| |lia].
    specialize (Ej H1). rewrite T2 in Ej.
    assert (C0 := Zceil_ub (v32 (i_phase lm st) * IZR (2 ^ (K - i_entry lm st)))). rewrite <- Ej in C0.
    assert (Hm0 := oo_mm _ _ _ _ _ _ _ HO). rewrite Emm in Hm0.
    assert (A := IZR_pow2_pos (K - i_entry lm st) ltac:(lia)).
    destruct Hq1 as [_ Hq1]. change (B2R (i_phase lm st)) with (v32 (i_phase lm st)) in *.
    assert (0 < v32 (i_phase lm st) * IZR (2 ^ (K - i_entry lm st))) by (apply Rmult_lt_0_compat; lra). lra. }
  assert (Hgm : goodMove N L o (miOf N w a) \/ Laws.val N L (o_pd o) = 0 /\ (o_mm o <= miOf N w a)%Z).
  { unfold goodMove. rewrite Hv, Epd, Emm, <- Em.
    destruct Htr as [Htr|[H1 H2]]; [left|right; auto].
    destruct Htr as [[H1 H2]|[H1 H2]]; [left; auto|]. right. split; [exact H1|].
    destruct H2 as [H2|[[H2 _]|[H2 H3]]]; [auto|auto|]. right; right. split; [lia|].
    rewrite (Ej H1). exact H3. }
  assert (Hplay : playable (Laws.val N L (o_phred o))).
  { rewrite Hv, Eq. destruct Hq as [[_ Q1] Q2]. apply playable_normal; [assumption|]. now apply plain_normal. }
  rewrite <- Em in M1, Lo.
  assert (Hlow := entry_slot32 st o m Tr ltac:(fold K; lia)). cbv zeta in Hlow. fold K w in Hlow.
  destruct Hlow as (Ll & Sl & Tl).
  assert (Hup : v32 gu <> 0 -> (mu = m + 1 /\ mu < K - 1)%Z /\
     @zlen (T N) (entry32 lm src (i_wfs lm st) K (i_wf lm st) mu) = (2 ^ (K - mu))%Z /\
     slotOf (N := N) (entry32 lm src (i_wfs lm st) K (i_wf lm st) mu) (slot N o w mu) /\
     tame c (entry32 lm src (i_wfs lm st) K (i_wf lm st) mu)).
  { intros Hg. assert (M4 : (mu < K - 1)%Z).
    { rewrite Emu. destruct M3 as [M3|M3]; [exact M3|]. elim Hg. rewrite Egu, M3. apply ofZ32. lia. }
    specialize (Gm' Hg). split; [auto|]. exact (entry_slot32 st o mu Tr ltac:(fold K; lia)). }
  assert (Hteq : teq N gu (t0 N) = Req_bool (v32 gu) 0).
  { destruct (zero_spec N L) as [Z1 Z2]. refine (eq_trans (eq_spec N L gu (t0 N) _ Z1) _); [apply Gc'|]. rewrite Z2. reflexivity. }
  assert (G1 : v32 gu = 0 -> v32 g = 1).
  { intros Hg0. destruct Gc' as (F1 & F2 & R1 & R2 & F3 & E). 
    change (B2R g) with (v32 g) in *. change (B2R gu) with (v32 gu) in *.
    destruct (add32 g gu F1 F2) as [_ V]; [apply small32_1; lra|].
    change (B2R (fadd g gu)) with (v32 (fadd g gu)) in E. rewrite <- E.
    assert (V' : v32 (fadd g gu) = rnd32 (v32 g + v32 gu)) by exact V. rewrite V', Hg0, Rplus_0_r.
    symmetry. apply rnd32_id. apply generic_format_B2R. }
  assert (Fin : forall (ph : f32) iv o' out, Stepped N F L K nw o w a p s iv o' out ->
     (forall x m0 e b, (x < n)%nat -> nth_error (poleErr f) x = Some (m0, e, b) ->
       (forall zl zh ρ r2, errOk zl zh ρ r2 m0 e b -> zl <= Cmod (Zx x) ->
       exists I, is_int (Zx x) (fun u => v32 g * curve lm src st m (v32 (i_phase lm st) + d * u)
                    + v32 gu * curve lm src st mu (v32 (i_phase lm st) + d * u)) 0 1 I /\
       cnear (iv x) (Zx x * Zx x * I)%C (m0 * (Cmod (Zx x) * Cmod (Zx x) * u)) /\ Cmod I <= 1.0001 * S)) ->
     tracks (mkI32 lm K nw (i_wfs lm st) (wtNext N w a) (i_wf lm st) p s m mem) o' /\
     near out (audible mem) (outErr f * u) /\ Rabs (audible mem) <= outSize f * S).
  { intros _ iv o' out SS Hiv.
    assert (Lm : length mem = n).
    { rewrite Hmem. rewrite <- (knR f). apply (length_allPoles cfg FR HB (shipped_exact f)). rewrite knR. apply (tk_len _ _ _ _ _ _ _ _ Tr). }
    assert (Lo' : length (o_y o') = n).
    { rewrite <- (kn lm f). apply (oo_y _ _ _ _ _ _ _ (sp_ok _ _ _ _ _ _ _ _ _ _ _ _ _ SS)). }
    assert (Mem : forall k y Y d, nth_error (o_y o') k = Some y -> nth_error mem k = Some Y ->
           nth_error (poleErr f) k = Some d -> memOk S y Y d).
    { rewrite Hmem. apply (mem_near lm Hex cfg HB f c Hc o _ iv (o_y o') (i_mem lm st)); auto.
      - rewrite <- (kn lm f). apply (oo_y _ _ _ _ _ _ _ HO).
      - apply (tk_len _ _ _ _ _ _ _ _ Tr).
      - apply (tk_y _ _ _ _ _ _ _ _ Tr).
      - intros x Hx. apply (sp_y _ _ _ _ _ _ _ _ _ _ _ _ _ SS). rewrite kn. exact Hx. }
    split.
    - constructor; cbn [i_K i_nw i_wfs i_tab i_wf i_phase i_step i_entry i_mem]; auto.
      + exact (sp_ok _ _ _ _ _ _ _ _ _ _ _ _ _ SS).
      + exact (sp_phase _ _ _ _ _ _ _ _ _ _ _ _ _ SS).
      + exact (sp_pd _ _ _ _ _ _ _ _ _ _ _ _ _ SS).
      + rewrite Em. exact (sp_mm _ _ _ _ _ _ _ _ _ _ _ _ _ SS).
      + rewrite (sp_wf _ _ _ _ _ _ _ _ _ _ _ _ _ SS). apply (tk_wf _ _ _ _ _ _ _ _ Tr).
      + exact (t32_ask lm src dbg K nw _ _ _ _ _ (tk_tab _ _ _ _ _ _ _ _ Tr) E1).
      + exact (tk_tame _ _ _ _ _ _ _ _ Tr).
    - rewrite (sp_out _ _ _ _ _ _ _ _ _ _ _ _ _ SS).
      apply (out_near lm S (S_range c Hc) f (o_y o') mem Lo' Lm Mem). }
  assert (Hqr := proj2 Hq1). assert (Hpr := proj2 Hp1).
  change (B2R (i_phase lm st)) with (v32 (i_phase lm st)) in *. change (B2R p) with (v32 p) in *.
  assert (HKm : (2 <= K - m <= 18)%Z) by lia.
  assert (Hlen : (4 <= 2 ^ (K - m))%Z) by (apply (Z.pow_le_mono_r 2 2); lia).
  assert (HlenR : 0 < IZR (2 ^ (K - m))) by (apply IZR_lt; lia).
  (* the true displacement against the library's step *)
  assert (Ek : IZR (2 ^ (r + 1)) / IZR (2 ^ K) = / IZR (2 ^ (K - (r + 1)))).
  { replace (2 ^ K)%Z with (2 ^ (r + 1) * 2 ^ (K - (r + 1)))%Z by (rewrite <- Z.pow_add_r by lia; f_equal; lia).
    assert (P1 := IZR_pow2_pos (r + 1) ltac:(lia)). assert (P2 := IZR_pow2_pos (K - (r + 1)) ltac:(lia)).
    rewrite mult_IZR. field. lra. }
  destruct (true_step lm dir (i_phase lm st) p (K - (r + 1)) Hq1 Hp1 ltac:(lia)) as [TF TB].
  { rewrite <- Hs. change (B2R s) with (v32 s). rewrite <- Ek. exact Hlim. }
  rewrite <- Hs in TF, TB. change (B2R s) with (v32 s) in *. rewrite <- Ek in TF, TB.
  change (B2R (i_phase lm st)) with (v32 (i_phase lm st)) in *. change (B2R p) with (v32 p) in *.
  rewrite Hsel. destruct (Rle_bool_spec 0 (v32 s)) as [Hpos|Hneg].
  - assert (Hpos' : 0 <= v32 s < / 2) by (rewrite Rabs_pos_eq in Hsh by assumption; lra).
    assert (Ea : a = s).
    { destruct (Req_dec (v32 s) 0) as [E0|E0]; [|apply babs_pos; [exact Hfs|lra]].
      assert (P0 := off_grid_pos (K - m) _ ltac:(lia) (Hoff E0)).
      assert (Ez : s = B754_zero false).
      { rewrite Hs. apply still_plus; auto. rewrite <- Hs. exact E0. }
      unfold a. rewrite Ez. reflexivity. }
    rewrite Ea in *. clear Ea.
    destruct (processSampleFwd_ok N cfg F L HB (shape32 lm f) K nw o w HO p s Hp1 Hfs Hpos ltac:(intros D; specialize (Hs0 D); rewrite Hv; lra) Hnt)
      as (o' & out & jmin & E & SS & Hjm & Hst & _).
    specialize (Hst Hplay Hgm).
    rewrite <- Em in Hjm, Hst, SS. unfold startAt, pos in Hst, SS. rewrite !Hv in Hst, SS. rewrite Eq in Hst.
    destruct (TF Hpos) as (k1 & Hk1 & HD1).
    set (jmax := Zfloor (v32 p * IZR (2 ^ (K - m)))) in *.
    assert (HL : (loopLen (2 ^ (K - m)) jmin jmax <= 4)%Z).
    { apply (fwd_len (2 ^ (K - m)) (v32 p) (v32 (i_phase lm st)) 4 ltac:(lia) Hpr Hqr jmin k1 Hk1 ltac:(lra)).
      - apply (scale4 K (r + 1)); try lia; lra.
      - exact Hjm.
      - intros H0. rewrite Req_bool_true in Hst by exact H0. exact Hst.
      - intros H0. rewrite Req_bool_false in Hst by exact H0. exact Hst. }
    destruct (Fin s _ _ _ SS) as (Tr' & Nout & Bout).
    2:{ exists o', out. split; [exact E|]. split; [exact Tr'|]. split; assumption. }
    intros x m0 e b Hx Ee zl zh ρ r2 R Hzl. assert (Rm := er_m _ _ _ _ _ _ _ R _ Hzl).
    destruct (stay_one lm Hex Hlog cfg HB f x Hx c Hc (K - m) _ _ HKm Ll Sl Tl dir (i_phase lm st) p jmin jmax d kk Hq Hpl) as (I1 & A1 & B1 & D1); auto.
    { rewrite <- Hs. exact Hpos'. }
    { rewrite <- Hs. exact Hoff. }
    rewrite <- Hs in B1. 
    unfold ivF. rewrite <- Em, <- Egu, <- Emu, <- Eg, Hteq, Eq.
    destruct (Req_bool_spec (v32 gu) 0) as [Hg|Hg].
    + exists I1. destruct (single_near lm Hex cfg HB f x Hx c Hc _ _ m0 B1 D1 Rm) as [Q1 Q2]. split; [|split; assumption].
      eapply is_int_ext; [lra| |exact A1]. intros u0 _. cbn beta. rewrite Hg, (G1 Hg). unfold curve. fold K. change (@B2R 24 128) with v32. ring.
    + destruct (Hup Hg) as ((U1 & U2) & U3 & U4 & U5).
      assert (Hh : (2 ^ (K - m) = 2 * 2 ^ (K - mu))%Z) by (rewrite U1; apply len_half; lia).
      assert (Hl2 : (0 < 2 ^ (K - mu))%Z) by (apply Z.pow_pos_nonneg; lia).
      assert (Hstu : if Req_bool (v32 (i_phase lm st)) 0 then (jmin / 2 = 2 ^ (K - mu) - 1)%Z
               else IZR (jmin / 2) <= v32 (i_phase lm st) * IZR (2 ^ (K - mu)) <= IZR (jmin / 2) + 1).
      { rewrite Hh in Hst, Hjm. destruct (Req_bool (v32 (i_phase lm st)) 0).
        - apply halfLast; [|exact Hst]. change 2%Z with (2 ^ 1)%Z at 1. apply Z.pow_le_mono_r; lia.
        - assert (Aa := halfLe jmin _ ltac:(lia) Hst). rewrite mult_IZR in Aa.
          replace (v32 (i_phase lm st) * (2 * IZR (2 ^ (K - mu))) / 2) with (v32 (i_phase lm st) * IZR (2 ^ (K - mu))) in Aa by field.
          exact Aa. }
      assert (Hju : (0 <= jmin / 2 < 2 ^ (K - mu))%Z) by (rewrite Hh in Hjm; split; [apply Z.div_pos; lia|apply Z.div_lt_upper_bound; lia]).
      assert (Ejx : (jmax / 2)%Z = Zfloor (v32 p * IZR (2 ^ (K - mu)))) by (unfold jmax; rewrite Hh; apply halfFloor; lra).
      assert (HLu : (loopLen (2 ^ (K - mu)) (jmin / 2) (jmax / 2) <= 4)%Z).
      { rewrite Ejx. apply (fwd_len (2 ^ (K - mu)) (v32 p) (v32 (i_phase lm st)) 4 Hl2 Hpr Hqr (jmin / 2) k1 Hk1 ltac:(lra)).
        - apply (scale4 K (r + 1)); try lia; lra.
        - exact Hju.
        - intros H0. rewrite Req_bool_true in Hstu by exact H0. exact Hstu.
        - intros H0. rewrite Req_bool_false in Hstu by exact H0. exact Hstu. }
      destruct (stay_one lm Hex Hlog cfg HB f x Hx c Hc (K - mu) _ _ ltac:(lia) U3 U4 U5 dir (i_phase lm st) p (jmin / 2)%Z (jmax / 2)%Z d kk Hq Hpl) as (I2 & A2 & B2 & D2); auto.
      { rewrite <- Hs. exact Hpos'. }
      { rewrite <- Hs. intros E0. replace (K - mu)%Z with (K - m - 1)%Z by lia. apply (off_grid_half cfg HB); [lia|exact (Hoff E0)]. }
      rewrite <- Hs in B2.
      exact (both_near lm Hex cfg HB f x Hx c Hc _ _ I1 I2 _ _ g gu m0 Gc' A1 A2 B1 B2 D1 D2 Rm).
  - assert (Hneg' : - / 2 < v32 s < 0) by (rewrite Rabs_left in Hsh by assumption; lra).
    destruct (processSampleBwd_ok N cfg F L HB (shape32 lm f) K nw o w HO p s Hp1 Hfs Hneg ltac:(intros _; rewrite Hv; lra) Hnt)
      as (o' & out & jmax & E & SS & Hjm & Hst).
    change (tabs N s) with a in *.
    assert (Hgm' : goodMove N L o (miOf N w a)).
    { destruct Hgm as [Hgm|[Hgm _]]; [exact Hgm|]. elim (Hback Hneg). rewrite Hv, Epd in Hgm. exact Hgm. }
    specialize (Hst Hplay Hgm'). rewrite <- Em in Hjm, Hst, SS.
    unfold startAt, pos in Hst, SS. rewrite !Hv in Hst, SS. rewrite Eq in Hst.
    destruct (TB Hneg) as (k1 & Hk1 & HD1).
    set (jm := Zceil (v32 p * IZR (2 ^ (K - m)))) in *.
    set (jmin := ((jm - 1) mod 2 ^ (K - m))%Z) in *.
    assert (HL : (loopLen (2 ^ (K - m)) jmin jmax <= 4)%Z).
    { apply (bwd_len (2 ^ (K - m)) (v32 p) (v32 (i_phase lm st)) 4 ltac:(lia) Hpr Hqr jmax k1 Hk1 ltac:(lra)); [|exact Hjm|exact Hst].
      apply (scale4 K (r + 1)); try lia; lra. }
    assert (Hc1 := Zceil_ub (v32 p * IZR (2 ^ (K - m)))). assert (Hc2 := Zceil_lb (v32 p * IZR (2 ^ (K - m)))).
    fold jm in Hc1, Hc2.
    assert (Hj0 : (jm =? 0)%Z = Req_bool (v32 p) 0 /\ (0 <= jmin < 2 ^ (K - m))%Z /\
       (if Req_bool (v32 p) 0 then jmin = (2 ^ (K - m) - 1)%Z
        else IZR jmin <= v32 p * IZR (2 ^ (K - m)) <= IZR jmin + 1)).
    { split; [|split; [apply Z.mod_pos_bound; lia|]].
      - destruct (Req_bool_spec (v32 p) 0) as [Hp0|Hp0].
        + unfold jm. rewrite Hp0, Rmult_0_l. change 0 with (IZR 0). rewrite Zceil_IZR. reflexivity.
        + apply Z.eqb_neq. intros H. rewrite H in Hc1.
          assert (0 < v32 p * IZR (2 ^ (K - m))) by (apply Rmult_lt_0_compat; lra). lra.
      - unfold jmin. destruct (Req_bool_spec (v32 p) 0) as [Hp0|Hp0].
        + assert (Ej0 : jm = 0%Z) by (unfold jm; rewrite Hp0, Rmult_0_l; exact (Zceil_IZR 0)).
          rewrite Ej0. symmetry. apply (Z.mod_unique_pos _ _ (-1)); lia.
        + assert (0 < v32 p * IZR (2 ^ (K - m))) by (apply Rmult_lt_0_compat; lra).
          assert (v32 p * IZR (2 ^ (K - m)) < IZR (2 ^ (K - m))) by nra.
          assert (0 < jm)%Z by (apply lt_IZR; lra).
          assert (jm <= 2 ^ (K - m))%Z by (unfold jm; apply Zceil_glb; lra).
          rewrite Z.mod_small by lia. rewrite minus_IZR. lra. }
    destruct Hj0 as (Hz & Hjn & Hen).
    destruct (Fin s _ _ _ SS) as (Tr' & Nout & Bout).
    2:{ exists o', out. split; [exact E|]. split; [exact Tr'|]. split; assumption. }
    intros x m0 e b Hx Ee zl zh ρ r2 R Hzl. assert (Rm := er_m _ _ _ _ _ _ _ R _ Hzl).
    destruct (bwd_one lm Hex Hlog cfg HB f x Hx c Hc (K - m) _ _ HKm Ll Sl Tl dir (i_phase lm st) p jm jmin jmax d kk Hq Hpl) as (I1 & A1 & B1 & D1); auto.
    { rewrite <- Hs. exact Hneg'. }
    rewrite <- Hs in B1.
    unfold ivB. change (tabs N s) with a. rewrite <- Em, <- Egu, <- Emu, <- Eg, Hteq, Eq.
    destruct (Req_bool_spec (v32 gu) 0) as [Hg|Hg].
    + exists I1. destruct (single_near lm Hex cfg HB f x Hx c Hc _ _ m0 B1 D1 Rm) as [Q1 Q2]. split; [|split; assumption].
      eapply is_int_ext; [lra| |exact A1]. intros u0 _. cbn beta. rewrite Hg, (G1 Hg). unfold curve. fold K. change (@B2R 24 128) with v32. ring.
    + destruct (Hup Hg) as ((U1 & U2) & U3 & U4 & U5).
      assert (Hh : (2 ^ (K - m) = 2 * 2 ^ (K - mu))%Z) by (rewrite U1; apply len_half; lia).
      assert (Hl2 : (0 < 2 ^ (K - mu))%Z) by (apply Z.pow_pos_nonneg; lia).
      assert (Hstu : IZR (jmax / 2) <= v32 (i_phase lm st) * IZR (2 ^ (K - mu)) <= IZR (jmax / 2) + 1).
      { rewrite Hh in Hst, Hjm.
        assert (Aa := halfLe jmax _ ltac:(lia) Hst). rewrite mult_IZR in Aa.
        replace (v32 (i_phase lm st) * (2 * IZR (2 ^ (K - mu))) / 2) with (v32 (i_phase lm st) * IZR (2 ^ (K - mu))) in Aa by field.
        exact Aa. }
      assert (Hju : (0 <= jmax / 2 < 2 ^ (K - mu))%Z) by (rewrite Hh in Hjm; split; [apply Z.div_pos; lia|apply Z.div_lt_upper_bound; lia]).
      assert (Hjnu : (0 <= jmin / 2 < 2 ^ (K - mu))%Z) by (rewrite Hh in Hjn; split; [apply Z.div_pos; lia|apply Z.div_lt_upper_bound; lia]).
      assert (Henu : if Req_bool (v32 p) 0 then (jmin / 2 = 2 ^ (K - mu) - 1)%Z
               else IZR (jmin / 2) <= v32 p * IZR (2 ^ (K - mu)) <= IZR (jmin / 2) + 1).
      { rewrite Hh in Hen, Hjn. destruct (Req_bool (v32 p) 0).
        - apply halfLast; [|exact Hen]. change 2%Z with (2 ^ 1)%Z at 1. apply Z.pow_le_mono_r; lia.
        - assert (Aa := halfLe jmin _ ltac:(lia) Hen). rewrite mult_IZR in Aa.
          replace (v32 p * (2 * IZR (2 ^ (K - mu))) / 2) with (v32 p * IZR (2 ^ (K - mu))) in Aa by field.
          exact Aa. }
      assert (HLu : (loopLen (2 ^ (K - mu)) (jmin / 2) (jmax / 2) <= 4)%Z).
      { unfold jmin, jm. rewrite Hh, halfCeil by assumption.
        apply (bwd_len (2 ^ (K - mu)) (v32 p) (v32 (i_phase lm st)) 4 Hl2 Hpr Hqr (jmax / 2) k1 Hk1 ltac:(lra)); [|exact Hju|exact Hstu].
        apply (scale4 K (r + 1)); try lia; lra. }
      destruct (bwd_one lm Hex Hlog cfg HB f x Hx c Hc (K - mu) _ _ ltac:(lia) U3 U4 U5 dir (i_phase lm st) p jm (jmin / 2)%Z (jmax / 2)%Z d kk Hq Hpl) as (I2 & A2 & B2 & D2); auto.
      { rewrite <- Hs. exact Hneg'. }
      rewrite <- Hs in B2.
      exact (both_near lm Hex cfg HB f x Hx c Hc _ _ I1 I2 _ _ g gu m0 Gc' A1 A2 B1 B2 D1 D2 Rm).
Qed.

Lemma sample_near dir st p st' Y (o : Osc N) : tracks st o -> sample32 lm src dbg f dir st p st' Y ->
  exists o' y, processOne N cfg F dir o p = Ok (o', y) /\ tracks st' o' /\
    near y Y (outErr f * u) /\ Rabs Y <= outSize f * S.
Proof. intros Tr Sm. apply (stay_near dir st p); [exact Tr|]. now apply sample_stays. Qed.
End Run.
