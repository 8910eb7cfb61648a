(** * PCover32: histories covered by the accuracy theorem *)
From Coq Require Import ZArith List Bool Reals Lia Lra Arith.
From Flocq Require Import Core IEEE754.BinarySingleNaN.
From Verif Require Import Num Maths CrossFader Wavetable Filters Osc Spec SpecC SpecT NumFacts Laws CFFacts
  WTFacts BuildFacts SimdFacts OscFacts OscStep OscRun OscHist CFHist PTables PRebuild RNum RLaws B32 B32Facts B32Laws
  SpecF SpecO SpecW PCross PHist PWork.
From Coquelicot Require Import Coquelicot.
From Verif Require Import SpecE SpecR ExactMath ExactStep ExactRun ExactCover PTrack.
Import ListNotations.
Local Open Scope R_scope.

Section Cover.
Variable lm : Libm.
Hypothesis Hlog : log2_exact lm.
Variable src : Resampler (B32 lm).
Variable cfg : Cfg.
Hypothesis HB : (1 <= batch cfg)%nat.
Variable f : FilterType.
Variable c : Z.
Notation N := (B32 lm).
Notation L := (B32_Laws lm Hlog).
Notation dbg := (Osc.dbg cfg).

(** one request, in terms of the state machine *)
Lemma find32 K nw wfs w (d : f32) r : table32 lm src dbg K nw wfs w -> fin32 d = true -> 0 < v32 d -> entryFor K (v32 d) r ->
  exists w', wt_findMipMapIndices N dbg w d = Ok (w', outS N (cf_num (wt_cf w)) (cfState N (wt_cf w)) r) /\
    cfState N (wt_cf w') = cfStep (cf_num (wt_cf w)) (cfState N (wt_cf w)) r /\
    cf_num (wt_cf w') = cf_num (wt_cf w) /\ table32 lm src dbg K nw wfs w' /\ (1 <= cf_num (wt_cf w))%Z /\
    (2 <= K <= 18)%Z.
Proof.
  intros HT Hf Hd Hr.
  destruct (table32_ok lm Hlog src dbg _ _ _ _ HT) as (HW & Ct & nf & Hre & Hnf).
  destruct (reach_ok lm Hlog src dbg K nf w Hre) as (HK & _ & HSc & En & Hm & HCf). specialize (HCf Hnf).
  assert (Er : req N (wt_cf w) d = r) by (apply (req32 lm Hlog src dbg K nf w d r Hre Hf Hr)).
  assert (E : wt_findMipMapIndices N dbg w d = Ok (mkWT (wt_slots w) (wt_ph w)
     (cfWith N (wt_cf w) (cfStep (cf_num (wt_cf w)) (cfState N (wt_cf w)) r)),
     outS N (cf_num (wt_cf w)) (cfState N (wt_cf w)) r)).
  { unfold wt_findMipMapIndices. rewrite (newIndices_eq N dbg (wt_cf w) d HCf), Er.
    - cbn [bind]. now rewrite cfOut_S.
    - intros _. now apply tlt0. }
  eexists. split; [exact E|]. cbn [wt_cf]. rewrite cfWith_state. split; [reflexivity|]. split.
  { destruct (cfStep _ _ _) as [[l p] x]. reflexivity. }
  split; [eapply t32_ask; eassumption|]. split; [rewrite En; exact Hnf|lia].
Qed.

(** the exact displacement of a step of octave [r] *)
Lemma displaced dir (q p : f32) K r : (2 <= K <= 18)%Z -> phase01 q -> phase01 p -> stepIn K r (step32 lm dir q p) ->
  exists d k, B2R q + d = B2R p + IZR k /\ Rabs d < / 2.
Proof.
  intros HK Hq Hp Hs. assert (Hl := oct_limit cfg HB K r _ ltac:(lia) Hs).
  destruct Hs as (H0 & Hh & Hr & _).
  assert (Ek : IZR (2 ^ (r + 1)) / IZR (2 ^ K) = / IZR (2 ^ (K - (r + 1)))).
  { replace (2 ^ K)%Z with (2 ^ (r + 1) * 2 ^ (K - (r + 1)))%Z by (rewrite <- Z.pow_add_r by lia; f_equal; lia).
    assert (P1 := IZR_pow2_pos (r + 1) ltac:(lia)). assert (P2 := IZR_pow2_pos (K - (r + 1)) ltac:(lia)).
    rewrite mult_IZR. field. lra. }
  destruct (true_step lm dir q p (K - (r + 1)) Hq Hp ltac:(lia)) as [TF TB].
  { rewrite <- Ek. exact Hl. }
  assert (Hb : / IZR (2 ^ (K - (r + 1))) <= / 2).
  { apply Rinv_le; [lra|]. apply (IZR_le 2). apply (Z.pow_le_mono_r 2 1); lia. }
  destruct (Rle_or_lt 0 (B2R (step32 lm dir q p))) as [H|H].
  - destruct (TF H) as (k & _ & Hk). exists (B2R p - B2R q + IZR k), k. split; [ring|]. apply Rabs_def1; lra.
  - destruct (TB H) as (k & _ & Hk). exists (- (B2R q - B2R p + IZR k)), (- k)%Z.
    split; [rewrite opp_IZR; ring|]. apply Rabs_def1; lra.
Qed.

Lemma calm_forward32 n ps : forall (st : Ideal32 lm) g cur rs,
  table32 lm src dbg (i_K lm st) (i_nw lm st) (i_wfs lm st) (i_tab lm st) ->
  cf_num (wt_cf (i_tab lm st)) = n -> (0 <= g)%Z ->
  calmState g cur (cfState N (wt_cf (i_tab lm st))) -> calm n g cur rs ->
  i_entry lm st = low (cfState N (wt_cf (i_tab lm st))) -> 0 < B2R (i_step lm st) ->
  List.Forall plainPhase (i_phase lm st :: ps) ->
  Forall2 (fun d r => stepIn (i_K lm st) r d) (steps32 lm kForward (i_phase lm st) ps) rs ->
  exists st' ys, block32 lm src dbg f kForward st ps st' ys.
Proof.
  induction ps as [|p ps IH]; intros st g cur rs HT Hn Hg Hs Hc He Hd Hsh Hst.
  - exists st, []. constructor.
  - inversion_clear Hsh as [|? ? Hq Hps]. assert (Hps0 := Hps). inversion_clear Hps as [|? ? Hp _]. cbn [steps32] in *.
    inversion Hst as [|? r ? rs' Hs1 Hst' E1 E2]. subst rs.
    set (s := step32 lm kForward (i_phase lm st) p) in *.
    assert (Fs : fin32 s = true /\ 0 < B2R s).
    { destruct (proj1 Hq) as [Q1 Q2]. destruct (proj1 Hp) as [P1 P2].
      destruct (fwd_spec N L p (i_phase lm st) P1 Q1 P2 Q2) as [F1 F2]. split; [exact F1|].
      change (0 <= B2R s <= 1) in F2. destruct Hs1 as [Hne _]. destruct (proj1 F2) as [F3|F3]; [exact F3|]. elim Hne. now rewrite F3. }
    destruct Fs as [Fs Ps].
    assert (Ea : tabs N s = s) by (apply babs_pos; [exact Fs|exact Ps]).
    assert (Hr1 : entryFor (i_K lm st) (B2R s) r) by (destruct Hs1 as (_ & _ & HE); idtac; rewrite Rabs_pos_eq in HE; [exact HE|]; left; exact Ps).
    destruct (find32 _ _ _ _ s r HT Fs Ps Hr1) as (w' & Ef & Es & En & HT' & Hn1 & HK).
    rewrite Hn in *.
    destruct (displaced kForward _ _ _ r HK (proj1 Hq) (proj1 Hp) Hs1) as (d & k & Hdd & Hdh).
    assert (Hlow := outS_low N g cur r rs' n _ Hn1 Hg Hs Hc).
    destruct (outS N n (cfState N (wt_cf (i_tab lm st))) r) as [[[m gm] mu] gu] eqn:Eo.
    destruct (calm_step n g cur r (cfState N (wt_cf (i_tab lm st))) Hn1 Hg Hs) as [S1 S2].
    destruct (cfStep n (cfState N (wt_cf (i_tab lm st))) r) as [[l1 p1] x1] eqn:Ec.
    destruct (cfState N (wt_cf (i_tab lm st))) as [[l0 p0] x0] eqn:Ec0.
    destruct Hlow as [Hm Hmove]. cbn [low] in He.
    set (mem := allPoles (filt RNum f)
            (fun u => B2R gm * curve lm src st m (B2R (i_phase lm st) + d * u)
                    + B2R gu * curve lm src st mu (B2R (i_phase lm st) + d * u)) (i_mem lm st)).
    set (st1 := mkI32 lm (i_K lm st) (i_nw lm st) (i_wfs lm st) w' (i_wf lm st) p s m mem).
    assert (Hs2 : sample32 lm src dbg f kForward st p st1 (audible mem)).
    { unfold st1. apply (sample32_ lm src dbg f kForward st p s d k w' m gm mu gu mem); auto.
      - apply Hs1.
      - apply Hs1.
      - rewrite Ea. exact Ef.
      - left. split; [assumption|]. lia. }
    assert (Nx : exists g' cur', (0 <= g')%Z /\ calmState g' cur' (l1, p1, x1) /\ calm n g' cur' rs').
    { destruct Hc as [(-> & Hc)|(Hr & -> & Hc)].
      - exists (Z.max 0 (g - 1)), cur. split; [lia|auto].
      - exists n, r. split; [lia|auto]. }
    destruct Nx as (g' & cur' & Hg' & Hs' & Hc').
    destruct (IH st1 g' cur' rs') as (st' & ys & B);
      unfold st1; cbn [i_K i_nw i_wfs i_tab i_wf i_phase i_step i_entry i_mem]; auto.
    + rewrite Es. exact Hs'.
    + rewrite Es. exact Hm.
    + exists st', (audible mem :: ys). econstructor; eassumption.
Qed.

(** the state after the init request of a new table *)
Lemma built_fresh32 wfs nw K w sr fade n (p d : f32) r :
  wellFormed N wfs nw K -> rate32 lm sr -> tcast N (tmul N fade sr) = Ok n -> (1 <= n)%Z ->
  wt_build N src dbg wfs nw sr fade = Ok (Some w) -> plainPhase p -> finite d -> 0 < B2R d -> entryFor K (B2R d) r ->
  table32 lm src dbg K nw wfs w /\ exists w' m g0, fresh32 lm dbg f K nw wfs w 0 p d
      (mkI32 lm K nw wfs w' 0 p d m (repeat (RtoC 0) (numCoeffs f))) /\
    table32 lm src dbg K nw wfs w' /\ cf_num (wt_cf w') = n /\ (0 <= g0 <= n)%Z /\
    calmState g0 r (cfState N (wt_cf w')) /\ m = low (cfState N (wt_cf w')).
Proof.
  intros HW Hs Hn Hn1 Hb Hp Fd Hd Hr. assert (HT := t32_build lm src dbg K nw wfs sr fade n w HW Hs Hn Hn1 Hb). split; [exact HT|].
  assert (HW' := HW). destruct HW' as (HK & Hnw & Hl & Hm).
  destruct (wt_build_some N src dbg L wfs nw sr fade K w HK Hnw Hl Hm Hb) as (C1 & k' & Ek & Ec).
  assert (k' = n) by congruence. subst k'.
  destruct (cf_make_pow2 N dbg L n K sr ltac:(lia)) as (c0 & Ec' & N1 & N2 & N3 & N4 & _ & _).
  rewrite Ec in Ec'. injection Ec' as Ec'. rewrite <- Ec' in *.
  destruct (find32 K nw wfs w d r HT Fd Hd Hr) as (w' & Ef & Es & En & HT' & _ & _). rewrite N1 in *.
  unfold cfState in Ef, Es at 2. rewrite N3, N4 in Ef, Es. set (x := cf_next (wt_cf w)) in *.
  assert (Hx : (0 <= x)%Z).
  { destruct (table32_ok lm Hlog src dbg _ _ _ _ HT) as (_ & _ & nf & Hre & Hnf).
    destruct (reach_ok lm Hlog src dbg K nf w Hre) as (_ & _ & _ & _ & _ & HCf). apply (HCf Hnf). }
  destruct (outS N n (0%Z, x, x) r) as [[[m gm] mu] gu] eqn:Eo.
  assert (Ea : tabs N d = d) by (apply babs_pos; [exact Fd|exact Hd]).
  exists w', m, (if (r =? x)%Z then 0 else n)%Z. split.
  { econstructor; [exact Hp|exact Fd|lra|rewrite Ea; exact Ef]. }
  split; [exact HT'|]. split; [exact En|]. rewrite Es.
  unfold outS in Eo. cbn [Z.eqb andb] in Eo. unfold cfStep in *. cbn [Z.eqb] in *.
  destruct (Z.eqb_spec r x) as [->|Hne]; cbn [andb] in Eo.
  - injection Eo as <- _ _ _. split; [lia|]. cbn. repeat split; lia.
  - split; [lia|]. split.
    + destruct (Z.ltb_spec x r); cbn; repeat split; lia.
    + destruct (Z.ltb_spec x r); cbn [fadeT low] in Eo |- *.
      * destruct (Z.ltb_spec (r - 1) r); [|lia]. injection Eo as <- _ _ _. lia.
      * destruct (Z.ltb_spec (r + 1) r); [lia|]. injection Eo as <- _ _ _. lia.
Qed.

Lemma readme_plays32 wfs nw K w sr fade n (p d : f32) r ps rs :
  wellFormed N wfs nw K -> rate32 lm sr -> tcast N (tmul N fade sr) = Ok n -> (1 <= n)%Z ->
  wt_build N src dbg wfs nw sr fade = Ok (Some w) -> tameAll lm src c wfs nw K ->
  finite d -> 0 < B2R d -> entryFor K (B2R d) r ->
  List.Forall plainPhase (p :: ps) ->
  Forall2 (fun s r => stepIn K r s) (steps32 lm kForward p ps) (repeat r (Z.to_nat n) ++ rs) -> octaveRule n (r :: rs) ->
  exists st ys, plays32 lm src dbg f c None [OpInit N (Some w) p d; OpProcess N kForward ps] (Some st) ys.
Proof.
  intros HW Hs Hn Hn1 Hb Ht Fd Hd Hr Hp Hen Hru.
  destruct (built_fresh32 wfs nw K w sr fade n p d r HW Hs Hn Hn1 Hb ltac:(inversion Hp; assumption) Fd Hd Hr)
    as (HT & w' & m & g0 & Fr & HT' & En & Hg & Hcs & Hm).
  set (st0 := mkI32 lm K nw wfs w' 0 p d m (repeat (RtoC 0) (numCoeffs f))) in *.
  destruct (calm_forward32 n ps st0 g0 r (repeat r (Z.to_nat n) ++ rs)) as (st' & ys & B); auto.
  - lia.
  - apply calm_lead; [lia| |lia]. apply rule_calm; [lia|assumption].
  - exists st', (ys ++ []). eapply p32_load; [left; reflexivity|exact HT|exact Ht|exact Fr|].
    eapply p32_process; [exact B|]. constructor.
Qed.

(** what a calm block leaves behind *)
Lemma settle_forward32 n ps : forall (st : Ideal32 lm) g r,
  table32 lm src dbg (i_K lm st) (i_nw lm st) (i_wfs lm st) (i_tab lm st) ->
  cf_num (wt_cf (i_tab lm st)) = n -> (0 <= g <= Z.of_nat (length ps))%Z ->
  calmState g r (cfState N (wt_cf (i_tab lm st))) ->
  i_entry lm st = low (cfState N (wt_cf (i_tab lm st))) -> 0 < B2R (i_step lm st) ->
  List.Forall plainPhase (i_phase lm st :: ps) ->
  List.Forall (stepIn (i_K lm st) r) (steps32 lm kForward (i_phase lm st) ps) ->
  exists st' ys, block32 lm src dbg f kForward st ps st' ys /\
    i_K lm st' = i_K lm st /\ i_nw lm st' = i_nw lm st /\ i_wfs lm st' = i_wfs lm st /\
    table32 lm src dbg (i_K lm st) (i_nw lm st) (i_wfs lm st) (i_tab lm st') /\
    cfState N (wt_cf (i_tab lm st')) = (0, r, r)%Z /\ i_entry lm st' = r /\ B2R (i_step lm st') <> 0 /\
    i_phase lm st' = last ps (i_phase lm st).
Proof.
  induction ps as [|p ps IH]; intros st g r HT Hn Hg Hs He Hd Hsh Hst.
  - exists st, []. split; [constructor|]. cbn [length] in Hg. assert (g = 0%Z) by lia. subst g.
    repeat (split; [auto; fail|]). destruct (cfState N (wt_cf (i_tab lm st))) as [[l q] x].
    destruct Hs as (-> & -> & Hq & _). rewrite (Hq eq_refl) in *. cbn [low] in He.
    repeat split; auto; [lia|]. intros E. rewrite E in Hd. exact (Rlt_irrefl 0 Hd).
  - inversion_clear Hsh as [|? ? Hq Hps]. assert (Hps0 := Hps). inversion_clear Hps as [|? ? Hp _]. cbn [steps32] in *.
    inversion_clear Hst as [|? ? Hs1 Hst'].
    set (s := step32 lm kForward (i_phase lm st) p) in *.
    assert (Fs : fin32 s = true /\ 0 < B2R s).
    { destruct (proj1 Hq) as [Q1 Q2]. destruct (proj1 Hp) as [P1 P2].
      destruct (fwd_spec N L p (i_phase lm st) P1 Q1 P2 Q2) as [F1 F2]. split; [exact F1|].
      change (0 <= B2R s <= 1) in F2. destruct Hs1 as [Hne _]. destruct (proj1 F2) as [F3|F3]; [exact F3|]. elim Hne. now rewrite F3. }
    destruct Fs as [Fs Ps].
    assert (Ea : tabs N s = s) by (apply babs_pos; [exact Fs|exact Ps]).
    assert (Hr1 : entryFor (i_K lm st) (B2R s) r).
    { destruct Hs1 as (_ & _ & HE); rewrite Rabs_pos_eq in HE; [exact HE|]; left; exact Ps. }
    destruct (find32 _ _ _ _ s r HT Fs Ps Hr1) as (w' & Ef & Es & En & HT' & Hn1 & HK).
    rewrite Hn in *.
    destruct (displaced kForward _ _ _ r HK (proj1 Hq) (proj1 Hp) Hs1) as (d & k & Hdd & Hdh).
    assert (Hc : calm n g r [r]) by (cbn [calm]; auto).
    assert (Hlow := outS_low N g r r [] n _ Hn1 ltac:(lia) Hs Hc).
    destruct (outS N n (cfState N (wt_cf (i_tab lm st))) r) as [[[m gm] mu] gu] eqn:Eo.
    destruct (calm_step n g r r (cfState N (wt_cf (i_tab lm st))) Hn1 ltac:(lia) Hs) as [S1 _].
    specialize (S1 eq_refl).
    destruct (cfStep n (cfState N (wt_cf (i_tab lm st))) r) as [[l1 p1] x1] eqn:Ec.
    destruct (cfState N (wt_cf (i_tab lm st))) as [[l0 p0] x0] eqn:Ec0.
    destruct Hlow as [Hm Hmove]. cbn [low] in He.
    set (mem := allPoles (filt RNum f)
            (fun u => B2R gm * curve lm src st m (B2R (i_phase lm st) + d * u)
                    + B2R gu * curve lm src st mu (B2R (i_phase lm st) + d * u)) (i_mem lm st)).
    set (st1 := mkI32 lm (i_K lm st) (i_nw lm st) (i_wfs lm st) w' (i_wf lm st) p s m mem).
    assert (Hs2 : sample32 lm src dbg f kForward st p st1 (audible mem)).
    { unfold st1. apply (sample32_ lm src dbg f kForward st p s d k w' m gm mu gu mem); auto.
      - apply Hs1.
      - apply Hs1.
      - rewrite Ea. exact Ef.
      - left. split; [assumption|]. lia. }
    destruct (IH st1 (Z.max 0 (g - 1)) r) as (st' & ys & B & E1 & E2 & E3 & E4 & E5 & E6 & E7 & E8);
      unfold st1 in *; cbn [i_K i_nw i_wfs i_tab i_wf i_phase i_step i_entry i_mem] in *; auto.
    + cbn [length] in Hg. lia.
    + rewrite Es. exact S1.
    + rewrite Es. exact Hm.
    + exists st', (audible mem :: ys).
      split; [econstructor; eassumption|].
      repeat (split; [assumption|]). rewrite E8. symmetry. apply PHist.last_cons.
Qed.

(** a settled oscillator, any directions, one octave *)
Lemma steady_block32 dir ps : forall (st : Ideal32 lm) r,
  table32 lm src dbg (i_K lm st) (i_nw lm st) (i_wfs lm st) (i_tab lm st) ->
  cfState N (wt_cf (i_tab lm st)) = (0, r, r)%Z -> i_entry lm st = r -> B2R (i_step lm st) <> 0 ->
  List.Forall plainPhase (i_phase lm st :: ps) ->
  List.Forall (stepIn (i_K lm st) r) (steps32 lm dir (i_phase lm st) ps) ->
  exists st' ys, block32 lm src dbg f dir st ps st' ys.
Proof.
  induction ps as [|p ps IH]; intros st r HT Hs He Hd Hsh Hst.
  - exists st, []. constructor.
  - inversion_clear Hsh as [|? ? Hq Hps]. assert (Hps0 := Hps). inversion_clear Hps as [|? ? Hp _]. cbn [steps32] in *.
    inversion_clear Hst as [|? ? Hs1 Hst'].
    set (s := step32 lm dir (i_phase lm st) p) in *.
    assert (Fs : fin32 s = true).
    { destruct (proj1 Hq) as [Q1 Q2]. destruct (proj1 Hp) as [P1 P2]. unfold s. destruct dir.
      - apply (fwd_spec N L p (i_phase lm st) P1 Q1 P2 Q2).
      - apply (bi_spec N L p (i_phase lm st) P1 Q1 P2 Q2). }
    destruct (babs_val s Fs) as [Fa Va].
    assert (Pa : 0 < B2R (Babs s)) by (rewrite Va; apply Rabs_pos_lt; apply Hs1).
    assert (Hr1 : entryFor (i_K lm st) (B2R (Babs s)) r) by (rewrite Va; apply Hs1).
    destruct (find32 _ _ _ _ _ r HT Fa Pa Hr1) as (w' & Ef & Es & En & HT' & Hn1 & HK).
    destruct (displaced dir _ _ _ r HK (proj1 Hq) (proj1 Hp) Hs1) as (d & k & Hdd & Hdh).
    rewrite Hs in Ef, Es. unfold outS in Ef. unfold cfStep in Es. cbn [Z.eqb andb] in Ef, Es. rewrite Z.eqb_refl in Ef, Es.
    set (mem := allPoles (filt RNum f)
            (fun u => B2R (t1 N) * curve lm src st r (B2R (i_phase lm st) + d * u)
                    + B2R (t0 N) * curve lm src st (r + 1) (B2R (i_phase lm st) + d * u)) (i_mem lm st)).
    set (st1 := mkI32 lm (i_K lm st) (i_nw lm st) (i_wfs lm st) w' (i_wf lm st) p s r mem).
    assert (Hs2 : sample32 lm src dbg f dir st p st1 (audible mem)).
    { unfold st1. apply (sample32_ lm src dbg f dir st p s d k w' r (t1 N) (r + 1) (t0 N) mem); auto.
      - apply Hs1.
      - apply Hs1.
      - unfold traceable32. rewrite He. destruct (Rlt_le_dec 0 (B2R (i_step lm st))) as [G|G].
        + left; split; [assumption|lia].
        + right; split; [|now left]. destruct G as [G|G]; [exact G|contradiction]. }
    destruct (IH st1 r) as (st' & ys & B);
      unfold st1 in *; cbn [i_K i_nw i_wfs i_tab i_wf i_phase i_step i_entry i_mem]; auto.
    + apply Hs1.
    + exists st', (audible mem :: ys). econstructor; eassumption.
Qed.

Lemma turns_plays32 wfs nw K w sr fade n (p d : f32) r ps dir ps2 :
  wellFormed N wfs nw K -> rate32 lm sr -> tcast N (tmul N fade sr) = Ok n -> (1 <= n)%Z ->
  wt_build N src dbg wfs nw sr fade = Ok (Some w) -> tameAll lm src c wfs nw K ->
  finite d -> 0 < B2R d -> entryFor K (B2R d) r ->
  List.Forall plainPhase (p :: ps ++ ps2) -> (n <= Z.of_nat (length ps))%Z ->
  List.Forall (stepIn K r) (steps32 lm kForward p ps) ->
  List.Forall (stepIn K r) (steps32 lm dir (last ps p) ps2) ->
  exists st ys, plays32 lm src dbg f c None
    [OpInit N (Some w) p d; OpProcess N kForward ps; OpProcess N dir ps2] (Some st) ys.
Proof.
  intros HW Hs Hn Hn1 Hb Ht Fd Hd Hr Hp Hl Hst Hst2.
  assert (Hp0 : plainPhase p) by (inversion Hp; assumption).
  assert (Hpp : List.Forall plainPhase (p :: ps)).
  { constructor; [exact Hp0|]. apply List.Forall_inv_tail in Hp. apply List.Forall_app in Hp. apply Hp. }
  assert (Hp2 : List.Forall plainPhase (last ps p :: ps2)).
  { constructor.
    - rewrite List.Forall_forall in Hpp. apply Hpp. destruct ps as [|p1 ps]; [now left|]. right.
      destruct (@exists_last _ (p1 :: ps) ltac:(discriminate)) as (l & a & E). rewrite E, last_last. apply in_or_app. right. now left.
    - apply List.Forall_inv_tail in Hp. apply List.Forall_app in Hp. apply Hp. }
  destruct (built_fresh32 wfs nw K w sr fade n p d r HW Hs Hn Hn1 Hb Hp0 Fd Hd Hr)
    as (HT & w' & m & g0 & Fr & HT' & En & Hg & Hcs & Hm).
  set (st0 := mkI32 lm K nw wfs w' 0 p d m (repeat (RtoC 0) (numCoeffs f))) in *.
  destruct (settle_forward32 n ps st0 g0 r) as (st1 & ys & B & E1 & E2 & E3 & E4 & E5 & E6 & E7 & E8); auto; [lia|].
  unfold st0 in E1, E2, E3, E4, E8. cbn [i_K i_nw i_wfs i_tab i_wf i_phase i_step i_entry i_mem] in *.
  destruct (steady_block32 dir ps2 st1 r) as (st2 & zs & B2); auto; rewrite ?E1, ?E2, ?E3, ?E8; auto.
  exists st2, (ys ++ zs ++ []). eapply p32_load; [left; reflexivity|exact HT|exact Ht|exact Fr|].
  eapply p32_process; [exact B|]. eapply p32_process; [exact B2|]. constructor.
Qed.
End Cover.

(** number of samples asked for *)
Fixpoint blockLen {N : Num} (ops : list (Op N)) : nat :=
  match ops with
  | [] => 0
  | OpProcess _ ps :: rest => length ps + blockLen rest
  | _ :: rest => blockLen rest
  end.

Lemma block_len lm src dbg f dir st ps st' Ys : block32 lm src dbg f dir st ps st' Ys -> length Ys = @length f32 ps.
Proof. induction 1; cbn [length]; congruence. Qed.

Lemma plays_len lm src dbg f c st ops st' Ys : plays32 lm src dbg f c st ops st' Ys -> length Ys = blockLen ops.
Proof.
  induction 1 as [st|st op rest st' ys Hop Hp IH|st op w p d K nw wfs st1 rest st' ys Hop HT Ht Hf Hp IH
                 |st p d st1 rest st' ys Hf Hp IH|st k rest st' ys Hk Hp IH|st sr w' wfs' rest st' ys Hs Hw Hu Ht Hp IH
                 |st dir ps st1 ys rest st' zs Hb Hp IH]; cbn [blockLen]; auto.
  - destruct Hop as (p & d & [-> | ->]); exact IH.
  - destruct Hop as [-> | ->]; exact IH.
  - rewrite app_length, IH, (block_len _ _ _ _ _ _ _ _ _ Hb). reflexivity.
Qed.
