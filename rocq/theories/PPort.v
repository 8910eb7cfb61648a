(** * PPort: the ideal of SpecR is the same on every machine (lemmas behind C61) *)
From Coq Require Import ZArith List Bool Reals Lia Lra Arith.
From Flocq Require Import Core IEEE754.BinarySingleNaN.
From Verif Require Import Num Maths CrossFader Wavetable Filters Osc Spec SpecC SpecT NumFacts Laws CFFacts
  WTFacts BuildFacts SimdFacts OscFacts OscStep OscRun OscHist CFHist PTables PRebuild RNum RLaws B32 B32Facts B32Laws
  SpecF SpecO SpecW PCross PHist PWork.
From Coquelicot Require Import Coquelicot.
From Verif Require Import SpecE SpecR ExactMath ExactStep ExactRun ExactCover PTrack PTrackH PCover32 SpecQ.
Import ListNotations.
Local Open Scope R_scope.

Section Port.
Variables lm1 lm2 : Libm.
Hypothesis Hlog1 : log2_exact lm1.
Hypothesis Hlog2 : log2_exact lm2.
Variable src1 : Resampler (B32 lm1).
Variable src2 : Resampler (B32 lm2).
Hypothesis Hsrc : sameResampler lm1 lm2 src1 src2.
Variables dbg1 dbg2 : bool.
Variable f : FilterType.
Variable c : Z.
Notation N1 := (B32 lm1).
Notation N2 := (B32 lm2).
Notation L1 := (B32_Laws lm1 Hlog1).
Notation L2 := (B32_Laws lm2 Hlog2).

Lemma pos_strict (x : f32) : fin32 x = true -> 0 < B2R x -> is_finite_strict x = true.
Proof. destruct x as [s|s| |s m e E]; cbn; intros F P; try discriminate F; try reflexivity. exfalso. lra. Qed.

(** equal cross-faders *)
Definition sameCF (c1 : CF N1) (c2 : CF N2) : Prop :=
  cf_num c1 = cf_num c2 /\ (cf_scale c1 : list f32) = cf_scale c2 /\ cf_left c1 = cf_left c2 /\
  cf_prev c1 = cf_prev c2 /\ cf_next c1 = cf_next c2.

Lemma third_same (xs : list f32) r : thirdOfFive N1 src1 xs r = thirdOfFive N2 src2 xs r.
Proof.
  unfold thirdOfFive. cbv zeta. do 3 f_equal.
  exact (f_equal (fun l : list f32 => l ++ repeat (f32_ofZ 0) (Z.to_nat (5 * (zlen xs / r))))
    (Hsrc (xs ++ xs ++ xs ++ xs ++ xs) r (5 * (zlen xs / r))%Z)).
Qed.
Lemma entry_same wfs K i k : entry32 lm1 src1 wfs K i k = entry32 lm2 src2 wfs K i k.
Proof.
  unfold entry32, mipmap. change (waveform N2 wfs (2 ^ K) i) with (waveform N1 wfs (2 ^ K) i).
  destruct (k =? 0)%Z; [reflexivity|]. destruct (k <=? 8)%Z; [apply third_same|].
  rewrite third_same. f_equal. apply third_same.
Qed.
Lemma tame_same wfs nw K : tameAll lm1 src1 c wfs nw K -> tameAll lm2 src2 c wfs nw K.
Proof. intros H i k Hi Hk. rewrite <- entry_same. now apply H. Qed.

Lemma cf_same d c1 c2 c1' m : CFok N1 c1 -> CFok N2 c2 -> sameCF c1 c2 -> @Bltb 24 128 (f32_ofZ 0) d = true ->
  newIndices N1 dbg1 c1 d = Ok (c1', m) -> exists c2', newIndices N2 dbg2 c2 d = Ok (c2', m) /\ sameCF c1' c2'.
Proof.
  intros O1 O2 S Hd E. rewrite (newIndices_eq N1 dbg1 c1 d O1 (fun _ => Hd)) in E.
  assert (E1 : cfWith N1 c1 (cfStep (cf_num c1) (cfState N1 c1) (req N1 c1 d)) = c1') by congruence.
  assert (E2 : cfOut N1 c1 (req N1 c1 d) = m) by congruence. clear E.
  rewrite (newIndices_eq N2 dbg2 c2 d O2 (fun _ => Hd)).
  destruct c1 as [n1 s1 l1 p1 x1], c2 as [n2 s2 l2 p2 x2]. destruct S as (S1 & S2 & S3 & S4 & S5). cbn in S1, S2, S3, S4, S5.
  subst n2 s2 l2 p2 x2. change (req N2 _ d) with (req N1 (mkCF n1 s1 l1 p1 x1) d).
  set (r := req N1 (mkCF n1 s1 l1 p1 x1) d) in *.
  exists (cfWith N2 (@mkCF N2 n1 s1 l1 p1 x1) (cfStep n1 (l1, p1, x1) r)). split.
  - refine (f_equal (fun m => Ok (cfWith N2 (@mkCF N2 n1 s1 l1 p1 x1) (cfStep n1 (l1, p1, x1) r), m)) _). rewrite <- E2. unfold cfOut. cbn [cf_left cf_next cf_num cfState cf_prev].
    destruct ((l1 =? 0) && (r =? x1))%Z; [reflexivity|].
    unfold cfState. cbn [cf_left cf_next cf_prev]. destruct (cfStep n1 (l1, p1, x1) r) as [[l p] x]. reflexivity.
  - rewrite <- E1. unfold cfState. cbn [cf_left cf_next cf_prev cf_num].
    destruct (cfStep n1 (l1, p1, x1) r) as [[l p] x]. repeat split.
Qed.

Lemma make_same n K (sr : f32) c1 c2 : (2 <= K <= 24)%Z -> rate32 lm1 sr -> rate32 lm2 sr ->
  cf_make N1 dbg1 n (2 ^ K) sr = Ok c1 -> cf_make N2 dbg2 n (2 ^ K) sr = Ok c2 -> sameCF c1 c2.
Proof.
  intros HK R1 R2 E1 E2. assert (HK' : (1 <= K <= 24)%Z) by lia.
  destruct (cf_make_pow2 N1 dbg1 L1 n K sr HK') as (c1' & F1 & A1 & A2 & A3 & A4 & A5 & A6).
  destruct (cf_make_pow2 N2 dbg2 L2 n K sr HK') as (c2' & F2 & B1 & B2 & B3 & B4 & B5 & B6).
  assert (c1' = c1) by congruence. assert (c2' = c2) by congruence. subst c1' c2'.
  assert (S : (cf_scale c1 : list f32) = cf_scale c2).
  { unfold computeMipMapScale in A6, B6.
    rewrite (computeNumMipMapTables_pow2 N1 L1) in A6 by lia. rewrite (computeNumMipMapTables_pow2 N2 L2) in B6 by lia.
    cbn [bind] in A6, B6. destruct (K - 1 <? 0)%Z; [discriminate A6|].
    injection A6 as <-. injection B6 as <-. apply map_ext_in. intros i Hi. apply In_zrange in Hi.
    destruct (b_scale lm1 sr K i R1 HK ltac:(lia)) as [G1 V1]. destruct (b_scale lm2 sr K i R2 HK ltac:(lia)) as [G2 V2].
    assert (P : 0 < IZR (2 ^ (i + 1)) / IZR (2 ^ K)) by (apply Rdiv_lt_0_compat; apply (IZR_lt 0); apply Z.pow_pos_nonneg; lia).
    cbv zeta in G1, V1, G2, V2. apply B2R_inj.
    - apply pos_strict; [exact G1|exact (eq_ind_r (fun r => 0 < r) P V1)].
    - apply pos_strict; [exact G2|exact (eq_ind_r (fun r => 0 < r) P V2)].
    - exact (eq_trans V1 (eq_sym V2)). }
  assert (X : cf_next c1 = cf_next c2).
  { rewrite A5, B5. change (findLoop N1 (tfrac N1 1 10) (cf_scale c1) 0 = findLoop N1 (tfrac N1 1 10) (cf_scale c2) 0)%Z.
    f_equal. exact S. }
  repeat split; auto; congruence.
Qed.

(** equal ideals *)
Definition sameI (s1 : Ideal32 lm1) (s2 : Ideal32 lm2) : Prop :=
  i_K lm1 s1 = i_K lm2 s2 /\ i_nw lm1 s1 = i_nw lm2 s2 /\ i_wfs lm1 s1 = i_wfs lm2 s2 /\ i_wf lm1 s1 = i_wf lm2 s2 /\
  i_phase lm1 s1 = i_phase lm2 s2 /\ i_step lm1 s1 = i_step lm2 s2 /\ i_entry lm1 s1 = i_entry lm2 s2 /\
  i_mem lm1 s1 = i_mem lm2 s2 /\ sameCF (wt_cf (i_tab lm1 s1)) (wt_cf (i_tab lm2 s2)) /\
  table32 lm1 src1 dbg1 (i_K lm1 s1) (i_nw lm1 s1) (i_wfs lm1 s1) (i_tab lm1 s1) /\
  table32 lm2 src2 dbg2 (i_K lm2 s2) (i_nw lm2 s2) (i_wfs lm2 s2) (i_tab lm2 s2).

Lemma table_CFok lm (Hlog : log2_exact lm) src dbg K nw wfs w : table32 lm src dbg K nw wfs w -> CFok (B32 lm) (wt_cf w).
Proof.
  intros HT. destruct (table32_ok lm Hlog src dbg _ _ _ _ HT) as (_ & _ & nf & Hre & Hnf).
  destruct (reach_ok lm Hlog src dbg K nf w Hre) as (_ & _ & _ & _ & _ & HCf). exact (HCf Hnf).
Qed.

Lemma find_same K nw wfs w1 w2 d w1' m :
  table32 lm1 src1 dbg1 K nw wfs w1 -> table32 lm2 src2 dbg2 K nw wfs w2 -> sameCF (wt_cf w1) (wt_cf w2) ->
  @Bltb 24 128 (f32_ofZ 0) d = true -> wt_findMipMapIndices N1 dbg1 w1 d = Ok (w1', m) ->
  exists w2', wt_findMipMapIndices N2 dbg2 w2 d = Ok (w2', m) /\ sameCF (wt_cf w1') (wt_cf w2') /\
    table32 lm1 src1 dbg1 K nw wfs w1' /\ table32 lm2 src2 dbg2 K nw wfs w2'.
Proof.
  intros T1 T2 S Hd E. assert (E0 := E). unfold wt_findMipMapIndices in E.
  destruct (newIndices N1 dbg1 (wt_cf w1) d) as [[c1' m1]|] eqn:E1; [|discriminate E]. cbn [bind] in E. injection E as <- <-.
  destruct (cf_same d (wt_cf w1) (wt_cf w2) c1' m1 (table_CFok lm1 Hlog1 _ _ _ _ _ _ T1) (table_CFok lm2 Hlog2 _ _ _ _ _ _ T2) S Hd E1)
    as (c2' & E2 & S').
  assert (E2' : wt_findMipMapIndices N2 dbg2 w2 d = Ok (mkWT (wt_slots w2) (wt_ph w2) c2', m1)).
  { unfold wt_findMipMapIndices. rewrite E2. reflexivity. }
  eexists. split; [exact E2'|]. split; [exact S'|]. split; eapply t32_ask; eassumption.
Qed.

Lemma abs_positive (s : f32) : fin32 s = true -> B2R s <> 0 -> @Bltb 24 128 (f32_ofZ 0) (tabs N1 s) = true.
Proof.
  intros Fs Hs. apply (tlt0 lm1); [exact (eq_trans (is_finite_Babs 24 128 s) Fs)|].
  cbn [tabs B32]. rewrite B2R_Babs. now apply Rabs_pos_lt.
Qed.

Lemma fresh_same K nw wfs w1 w2 wf p d s1 :
  table32 lm1 src1 dbg1 K nw wfs w1 -> table32 lm2 src2 dbg2 K nw wfs w2 -> sameCF (wt_cf w1) (wt_cf w2) ->
  fresh32 lm1 dbg1 f K nw wfs w1 wf p d s1 ->
  exists s2, fresh32 lm2 dbg2 f K nw wfs w2 wf p d s2 /\ sameI s1 s2.
Proof.
  intros T1 T2 S [w' m g mu gu Hp Fd Hd E].
  destruct (find_same K nw wfs w1 w2 (tabs N1 d) w' (m, g, mu, gu) T1 T2 S (abs_positive d Fd Hd) E) as (w2' & E2 & S' & T1' & T2').
  eexists. split; [econstructor; [exact Hp|exact Fd|exact Hd|exact E2]|].
  unfold sameI. cbn [i_K i_nw i_wfs i_tab i_wf i_phase i_step i_entry i_mem]. auto 12.
Qed.

Lemma sample_same dir s1 s2 p s1' y : sameI s1 s2 -> sample32 lm1 src1 dbg1 f dir s1 p s1' y ->
  exists s2', sample32 lm2 src2 dbg2 f dir s2 p s2' y /\ sameI s1' s2'.
Proof.
  intros (A1 & A2 & A3 & A4 & A5 & A6 & A7 & A8 & A9 & A10 & A11) H.
  destruct H as [s d k w' m g mu gu mem Hp Es Hs Hh Hd Hdh E Ht Em].
  destruct s1 as [K1 nw1 wfs1 tab1 wf1 ph1 st1 en1 me1], s2 as [K2 nw2 wfs2 tab2 wf2 ph2 st2 en2 me2].
  cbn [i_K i_nw i_wfs i_tab i_wf i_phase i_step i_entry i_mem] in *.
  subst K2 nw2 wfs2 wf2 ph2 st2 en2 me2.
  assert (Fs : fin32 s = true).
  { destruct (fin32 s) eqn:Q; [reflexivity|]. exfalso. apply Hs. destruct s; try discriminate Q; reflexivity. }
  destruct (find_same _ _ _ tab1 tab2 (tabs N1 s) w' (m, g, mu, gu) A10 A11 A9 (abs_positive s Fs Hs) E) as (w2' & E2 & S' & T1' & T2').
  eexists. split.
  - eapply (sample32_ lm2 src2 dbg2 f dir _ p s d k w2' m g mu gu mem); cbn [i_K i_nw i_wfs i_tab i_wf i_phase i_step i_entry i_mem];
      [exact Hp|exact Es|exact Hs|exact Hh|exact Hd|exact Hdh|exact E2|exact Ht|].
    rewrite Em.
    unfold curve. cbn [i_K i_nw i_wfs i_tab i_wf i_phase i_step i_entry i_mem].
    rewrite !entry_same. reflexivity.
  - unfold sameI. cbn [i_K i_nw i_wfs i_tab i_wf i_phase i_step i_entry i_mem]. auto 12.
Qed.

Lemma block_same dir ps : forall s1 s2 s1' ys, sameI s1 s2 -> block32 lm1 src1 dbg1 f dir s1 ps s1' ys ->
  exists s2', block32 lm2 src2 dbg2 f dir s2 ps s2' ys /\ sameI s1' s2'.
Proof.
  induction ps as [|p ps IH]; intros s1 s2 s1' ys S H; inversion H as [|? ? t1 y ? ? zs Hs Hb]; subst.
  - exists s2. split; [constructor|exact S].
  - destruct (sample_same dir s1 s2 p t1 y S Hs) as (t2 & Hs2 & S2).
    destruct (IH t1 t2 s1' zs S2 Hb) as (s2' & Hb2 & S3). exists s2'. split; [econstructor; eassumption|exact S3].
Qed.

Definition sameO (s1 : option (Ideal32 lm1)) (s2 : option (Ideal32 lm2)) : Prop :=
  match s1, s2 with None, None => True | Some a, Some b => sameI a b | _, _ => False end.

Lemma renders_same calls ops2 : realised lm2 src2 dbg2 calls ops2 -> ratesOk lm2 calls -> forall s1 s2 s1' ys, sameO s1 s2 ->
  renders lm1 src1 dbg1 f c s1 calls s1' ys -> exists s2', renders lm2 src2 dbg2 f c s2 calls s2' ys /\ sameO s1' s2'.
Proof.
  induction 1 as [|swap wfs nw sr fade p d w2 calls ops Hb Hr IH|p d calls ops Hr IH|k calls ops Hr IH|dir ps calls ops Hr IH];
    intros Hq s1 s2 s1' ys S H; try (inversion Hq as [|? ? Hq1 Hq2]; subst; specialize (IH Hq2)).
  - inversion H; subst. exists s2. split; [constructor|exact S].
  - inversion H as [|? ? ? ? ? ? ? ? K n w1 st1 ? ? ? HW Hs Hn Hn1 Hb1 Ht Hf Hrest| | |]; subst.
    assert (HW' := HW). destruct HW' as (HK & Hnw & Hl & Hm).
    assert (Hs2 : rate32 lm2 sr) by (destruct Hs as (Q1 & Q2 & _); split; [exact Q1|split; [exact Q2|exact Hq1]]).
    assert (T1 := t32_build lm1 src1 dbg1 K nw wfs sr fade n w1 HW Hs Hn Hn1 Hb1).
    assert (T2 := t32_build lm2 src2 dbg2 K nw wfs sr fade n w2 HW Hs2 Hn Hn1 Hb).
    destruct (wt_build_some N1 src1 dbg1 L1 wfs nw sr fade K w1 HK Hnw Hl Hm Hb1) as (_ & k1 & Ek1 & Ec1).
    destruct (wt_build_some N2 src2 dbg2 L2 wfs nw sr fade K w2 HK Hnw Hl Hm Hb) as (_ & k2 & Ek2 & Ec2).
    assert (k1 = n) by congruence. assert (Q : Ok k2 = Ok n) by (rewrite <- Ek2; exact Hn). injection Q as ->. subst k1.
    assert (S1 := make_same n K sr _ _ ltac:(lia) Hs Hs2 Ec1 Ec2).
    destruct (fresh_same K nw wfs w1 w2 0 p d st1 T1 T2 S1 Hf) as (st2 & Hf2 & S2).
    destruct (IH (Some st1) (Some st2) s1' ys S2 Hrest) as (s2' & R & S3). exists s2'. split; [|exact S3].
    eapply rd_load; [exact HW|exact Hs2|exact Hn|exact Hn1|exact Hb|now apply tame_same|exact Hf2|exact R].
  - inversion H as [| |st ? ? st1 ? ? ? Hf Hrest| |]; subst. destruct s2 as [t2|]; [|contradiction S].
    destruct S as (A1 & A2 & A3 & A4 & A5 & A6 & A7 & A8 & A9 & A10 & A11).
    destruct st as [K1 nw1 wfs1 tab1 wf1 ph1 sp1 en1 me1], t2 as [K2 nw2 wfs2 tab2 wf2 ph2 sp2 en2 me2].
    cbn [i_K i_nw i_wfs i_tab i_wf i_phase i_step i_entry i_mem] in *. subst.
    destruct (fresh_same _ _ _ tab1 tab2 _ p d st1 A10 A11 A9 Hf) as (st2 & Hf2 & S2).
    destruct (IH (Some st1) (Some st2) s1' ys S2 Hrest) as (s2' & R & S3). exists s2'. split; [|exact S3].
    eapply rd_reset; [exact Hf2|exact R].
  - inversion H as [| | |st ? ? ? ? Hk Hrest|]; subst. destruct s2 as [t2|]; [|contradiction S].
    destruct S as (A1 & A2 & A3 & A4 & A5 & A6 & A7 & A8 & A9 & A10 & A11).
    edestruct IH as (s2' & R & S3); [|exact Hrest|].
    2:{ exists s2'. split; [|exact S3]. eapply rd_select; [|exact R]. rewrite <- A2. exact Hk. }
    cbn [sameO]. unfold sameI. cbn [i_K i_nw i_wfs i_tab i_wf i_phase i_step i_entry i_mem]. auto 12.
  - inversion H as [| | | |st ? ? st1 zs ? ? us Hb Hrest]; subst. destruct s2 as [t2|]; [|contradiction S].
    destruct (block_same dir ps st t2 st1 zs S Hb) as (st2 & Hb2 & S2).
    destruct (IH (Some st1) (Some st2) s1' us S2 Hrest) as (s2' & R & S3). exists s2'. split; [|exact S3].
    eapply rd_process; eassumption.
Qed.
End Port.

(** the calls' ideal is the operations' *)
Lemma renders_plays lm src dbg f c calls ops : realised lm src dbg calls ops -> forall st st' ys,
  renders lm src dbg f c st calls st' ys -> plays32 lm src dbg f c st ops st' ys.
Proof.
  induction 1 as [|swap wfs nw sr fade p d w2 calls ops Hb Hr IH|p d calls ops Hr IH|k calls ops Hr IH|dir ps calls ops Hr IH];
    intros st st' ys H; inversion H; subst.
  - constructor.
  - match goal with Q : wt_build _ _ _ _ _ _ _ = Ok (Some ?w) |- _ => assert (w = w2) by congruence; subst w end.
    eapply p32_load; [destruct swap; [right; reflexivity|left; reflexivity]|eapply t32_build; eassumption|eassumption|eassumption|].
    now apply IH.
  - eapply p32_reset; [eassumption|]. now apply IH.
  - eapply p32_select; [eassumption|]. now apply IH.
  - eapply p32_process; [eassumption|]. now apply IH.
Qed.
