(** * ExactCover: which histories the exactness theorem covers *)
From Coq Require Import ZArith List Bool Reals Lia Lra Arith.
From Flocq Require Import Core.
From Verif Require Import Num Maths CrossFader Wavetable Filters Osc Spec SpecC SpecT NumFacts Laws CFFacts
  WTFacts BuildFacts SimdFacts OscFacts OscStep OscRun OscHist CFHist PTables PHist RNum RLaws.
From Coquelicot Require Import Coquelicot.
From Verif Require Import SpecE ExactMath ExactStep ExactRun ExactHist.
Import ListNotations.
Local Open Scope R_scope.

Lemma scaleR K sr sc : (2 <= K <= 24)%Z -> 0 < sr ->
  computeMipMapScale RNum (2 ^ K) sr = Ok sc -> ScaleOk RNum LR K sc.
Proof.
  intros HK Hr E.
  destruct (computeMipMapScale_pow2 RNum LR K sr ltac:(lia)) as (sc' & E' & Hl & Hs).
  assert (sc' = sc) by congruence. subst sc'. split; [assumption|].
  intros i x Hi Hx. rewrite Hs in Hx by assumption. injection Hx as <-. split; [exact I|].
  cbn [val LR tmul tdiv t2 tofZ RNum]. rewrite Z.pow_add_r, mult_IZR by lia.
  change (2 ^ 1)%Z with 2%Z. unfold t2. cbn [tofZ RNum]. assert (A := IZR_pow2_pos K ltac:(lia)).
  change (sr / IZR (2 ^ K) * 2 * IZR (2 ^ i) / sr = IZR (2 ^ i) * 2 / IZR (2 ^ K)). field. lra.
Qed.

Section Cover.
Variable src : Resampler RNum.
Variable dbg : bool.
Variable F : Filt RNum.

Lemma table_scale wfs nw K w : wellFormed RNum wfs nw K -> table src dbg wfs nw w ->
  ScaleOk RNum LR K (cf_scale (wt_cf w)).
Proof.
  intros HWf HT. assert (HWf' := HWf). destruct HWf' as (HK & Hnw & Hl & Hm).
  assert (G : forall sr fade w, 0 < sr -> wt_build RNum src dbg wfs nw sr fade = Ok (Some w) ->
     ScaleOk RNum LR K (cf_scale (wt_cf w))).
  { intros sr fade w0 Hs Hb.
    destruct (wt_build_some RNum src dbg LR wfs nw sr fade K w0 HK Hnw Hl Hm Hb) as (C1 & k' & Ek & Ec).
    destruct (cf_make_pow2 RNum dbg LR k' K sr ltac:(lia)) as (c & Ec' & _ & _ & _ & _ & _ & Es).
    rewrite Ec in Ec'. injection Ec' as <-. eapply scaleR; eassumption. }
  induction HT as [sr fade w Hs Hf H|w d w' m H IH Hd E|w sr fade w' H IH Hs Hf E].
  - eapply G; eassumption.
  - destruct (find_shape RNum dbg w d w' m E) as (_ & _ & _ & ->). exact IH.
  - assert (C := made_contents src dbg wfs nw K w HWf (table_made _ _ _ _ _ H)).
    rewrite (update_R src dbg K nw wfs) in E by assumption.
    destruct (wt_build RNum src dbg wfs nw sr fade) as [[w2|]|] eqn:Eb; try discriminate.
    injection E as <-. eapply G; eassumption.
Qed.

(** one request, in terms of the state machine *)
Lemma find_R wfs nw K w d r : wellFormed RNum wfs nw K -> table src dbg wfs nw w -> 0 < d -> entryFor K d r ->
  exists w', wt_findMipMapIndices RNum dbg w d =
      Ok (w', outS RNum (cf_num (wt_cf w)) (cfState RNum (wt_cf w)) r) /\
    cfState RNum (wt_cf w') = cfStep (cf_num (wt_cf w)) (cfState RNum (wt_cf w)) r /\
    cf_num (wt_cf w') = cf_num (wt_cf w) /\ table src dbg wfs nw w' /\ (1 <= cf_num (wt_cf w))%Z.
Proof.
  intros HW HT Hd Hr. destruct (table_ok src dbg _ _ _ _ HW HT) as (_ & _ & CF).
  assert (HS := table_scale wfs nw K w HW HT). destruct HW as (HK & HW).
  assert (Er : req RNum (wt_cf w) d = r).
  { apply (entryFor_fun K d); [lia| |assumption]. exact (req_entry RNum LR K (wt_cf w) d ltac:(lia) HS I). }
  assert (E : wt_findMipMapIndices RNum dbg w d = Ok (mkWT (wt_slots w) (wt_ph w)
     (cfWith RNum (wt_cf w) (cfStep (cf_num (wt_cf w)) (cfState RNum (wt_cf w)) r)),
     outS RNum (cf_num (wt_cf w)) (cfState RNum (wt_cf w)) r)).
  { unfold wt_findMipMapIndices. rewrite (newIndices_eq RNum dbg (wt_cf w) d CF), Er.
    - cbn [bind]. now rewrite cfOut_S.
    - intros _. unfold t0. cbn [tlt tofZ RNum]. now apply Rlt_bool_true. }
  eexists. split; [exact E|]. cbn [wt_cf]. rewrite cfWith_state. split; [reflexivity|]. split.
  { destruct (cfStep _ _ _) as [[l p] x]. reflexivity. }
  split; [eapply t_ask; eassumption|]. apply (proj1 (CFok_inv RNum (wt_cf w)) CF).
Qed.

(** low entry of the current state *)
Definition low (s : Z * Z * Z) : Z := let '(_, p, x) := s in Z.min p x.

Lemma calm_forward n ps : forall st g cur rs,
  wellFormed RNum (id_wfs st) (id_nw st) (id_K st) -> table src dbg (id_wfs st) (id_nw st) (id_tab st) ->
  cf_num (wt_cf (id_tab st)) = n -> (0 <= g)%Z ->
  calmState g cur (cfState RNum (wt_cf (id_tab st))) -> calm n g cur rs ->
  id_entry st = low (cfState RNum (wt_cf (id_tab st))) -> 0 < id_step st ->
  List.Forall sharp ps -> List.Forall (fun s => 0 < s <= /2) (stepsOf kForward (id_phase st) ps) ->
  Forall2 (entryFor (id_K st)) (stepsOf kForward (id_phase st) ps) rs ->
  exists st' ys, block src dbg F kForward st ps st' ys.
Proof.
  induction ps as [|p ps IH]; intros st g cur rs HW HT Hn Hg Hs Hc He Hd Hsh Hst Hen.
  - exists st, []. constructor.
  - inversion_clear Hsh as [|? ? Hp Hps]. cbn [stepsOf] in *.
    inversion_clear Hst as [|? ? Hd1 Hst']. inversion Hen as [|? r ? rs' He1 Hen' E1 E2]. subst rs.
    cbn beta in *. set (d := stepBetween RNum kForward (id_phase st) p) in *.
    assert (Hd1' : 0 < d) by (apply Hd1).
    destruct (find_R _ _ _ (id_tab st) d r HW HT Hd1' He1) as (w' & Ef & Es & En & HT' & Hn1).
    rewrite Hn in *.
    assert (Hlow := outS_low RNum g cur r rs' n _ Hn1 Hg Hs Hc).
    destruct (outS RNum n (cfState RNum (wt_cf (id_tab st))) r) as [[[m gm] mu] gu] eqn:Eo.
    destruct (calm_step n g cur r (cfState RNum (wt_cf (id_tab st))) Hn1 Hg Hs) as [S1 S2].
    destruct (cfStep n (cfState RNum (wt_cf (id_tab st))) r) as [[l1 p1] x1] eqn:Ec.
    destruct (cfState RNum (wt_cf (id_tab st))) as [[l0 p0] x0] eqn:Ec0.
    destruct Hlow as [Hm Hmove]. cbn [low] in He.
    assert (Hs1 : sample src dbg F kForward st p
      (mkIdeal (id_K st) (id_nw st) (id_wfs st) w' (id_wf st) p d m
         (allPoles F (mixed src st (id_phase st) d (m, gm, mu, gu)) (id_mem st)))
      (audible (allPoles F (mixed src st (id_phase st) d (m, gm, mu, gu)) (id_mem st)))).
    { assert (Hd0 : d <> 0) by (intros E; rewrite E in Hd1'; exact (Rlt_irrefl 0 Hd1')).
      assert (Hd2 : - / 2 <= d <= / 2) by (split; [apply Rle_trans with 0; [lra|now left]|apply Hd1]).
      apply (sample_ src dbg F kForward st p d w' m gm mu gu); auto.
      - rewrite Rabs_pos_eq; [exact Ef|now left].
      - left. split; [assumption|]. lia. }
    assert (N : exists g' cur', (0 <= g')%Z /\ calmState g' cur' (l1, p1, x1) /\ calm n g' cur' rs').
    { destruct Hc as [(-> & Hc)|(Hr & -> & Hc)].
      - exists (Z.max 0 (g - 1)), cur. split; [lia|auto].
      - exists n, r. split; [lia|auto]. }
    destruct N as (g' & cur' & Hg' & Hs' & Hc').
    edestruct (IH (mkIdeal (id_K st) (id_nw st) (id_wfs st) w' (id_wf st) p d m
         (allPoles F (mixed src st (id_phase st) d (m, gm, mu, gu)) (id_mem st))) g' cur' rs') as (st' & ys & B);
      cbn [id_K id_nw id_wfs id_tab id_wf id_phase id_step id_entry id_mem]; auto.
    + rewrite Es. exact Hs'.
    + rewrite Es. exact Hm.
    + exists st', (audible (allPoles F (mixed src st (id_phase st) d (m, gm, mu, gu)) (id_mem st)) :: ys).
      econstructor; eassumption.
Qed.

Lemma calm_lead n r rs k : (0 <= n)%Z -> calm n 0 r rs -> forall g, (0 <= g <= Z.of_nat k)%Z -> calm n g r (repeat r k ++ rs).
Proof.
  intros Hn Hc. induction k as [|k IH]; intros g Hg.
  - replace g with 0%Z by lia. exact Hc.
  - cbn [repeat app calm]. left. split; [reflexivity|]. apply IH. lia.
Qed.

(** the state after the init request of a new table *)
Lemma built_fresh wfs nw K w sr fade n p d r :
  wellFormed RNum wfs nw K -> 0 < sr -> 1 <= fade * sr < IZR int_max -> tcast RNum (fade * sr) = Ok n ->
  wt_build RNum src dbg wfs nw sr fade = Ok (Some w) -> sharp p -> 0 < d -> entryFor K d r ->
  table src dbg wfs nw w /\ exists w' m g0, fresh dbg F K nw wfs w 0 p d
      (mkIdeal K nw wfs w' 0 p d m (repeat (RtoC 0) (length (f_r F)))) /\
    table src dbg wfs nw w' /\ cf_num (wt_cf w') = n /\ (1 <= n)%Z /\ (0 <= g0 <= n)%Z /\
    calmState g0 r (cfState RNum (wt_cf w')) /\ m = low (cfState RNum (wt_cf w')).
Proof.
  intros HW Hs Hf Hn Hb Hp Hd Hr. assert (HT := t_build src dbg wfs nw sr fade w Hs Hf Hb). split; [exact HT|].
  assert (HW' := HW). destruct HW' as (HK & Hnw & Hl & Hm).
  destruct (wt_build_some RNum src dbg LR wfs nw sr fade K w HK Hnw Hl Hm Hb) as (C1 & k' & Ek & Ec).
  change (tmul RNum fade sr) with (fade * sr) in Ek. assert (k' = n) by congruence. subst k'.
  destruct (cf_make_pow2 RNum dbg LR n K sr ltac:(lia)) as (c & Ec' & N1 & N2 & N3 & N4 & _ & _).
  rewrite Ec in Ec'. injection Ec' as Ec'. rewrite <- Ec' in *.
  destruct (find_R wfs nw K w d r HW HT Hd Hr) as (w' & Ef & Es & En & HT' & Hn1). rewrite N1 in *.
  unfold cfState in Ef, Es at 2. rewrite N3, N4 in Ef, Es. set (x := cf_next (wt_cf w)) in *.
  assert (Hx : (0 <= x)%Z).
  { destruct (table_ok src dbg _ _ _ _ HW HT) as (_ & _ & CF). apply CF. }
  destruct (outS RNum n (0%Z, x, x) r) as [[[m gm] mu] gu] eqn:Eo.
  rewrite <- (Rabs_pos_eq d) in Ef by lra.
  exists w', m, (if (r =? x)%Z then 0 else n)%Z. split.
  { econstructor; [exact Hp|lra|exact Ef]. }
  split; [exact HT'|]. split; [exact En|]. split; [lia|]. rewrite Es.
  unfold outS in Eo. cbn [Z.eqb andb] in Eo. unfold cfStep in *. cbn [Z.eqb] in *.
  destruct (Z.eqb_spec r x) as [->|Hne]; cbn [andb] in Eo.
  - injection Eo as <- _ _ _. split; [lia|]. cbn. repeat split; lia.
  - split; [lia|]. split.
    + destruct (Z.ltb_spec x r); cbn; repeat split; lia.
    + destruct (Z.ltb_spec x r); cbn [fadeT low] in Eo |- *.
      * destruct (Z.ltb_spec (r - 1) r); [|lia]. injection Eo as <- _ _ _. lia.
      * destruct (Z.ltb_spec (r + 1) r); [lia|]. injection Eo as <- _ _ _. lia.
Qed.

Lemma readme_plays wfs nw K w sr fade n p d r ps rs :
  wellFormed RNum wfs nw K -> 0 < sr -> 1 <= fade * sr < IZR int_max -> tcast RNum (fade * sr) = Ok n ->
  wt_build RNum src dbg wfs nw sr fade = Ok (Some w) -> sharp p -> 0 < d -> entryFor K d r ->
  List.Forall sharp ps -> List.Forall (fun s => 0 < s <= /2) (stepsOf kForward p ps) ->
  Forall2 (entryFor K) (stepsOf kForward p ps) (repeat r (Z.to_nat n) ++ rs) -> octaveRule n (r :: rs) ->
  exists st ys, plays src dbg F None [OpInit RNum (Some w) p d; OpProcess RNum kForward ps] (Some st) ys.
Proof.
  intros HW Hs Hf Hn Hb Hp Hd Hr Hsh Hst Hen Hru.
  destruct (built_fresh wfs nw K w sr fade n p d r HW Hs Hf Hn Hb Hp Hd Hr)
    as (HT & w' & m & g0 & Fr & HT' & En & Hn1 & Hg & Hcs & Hm).
  set (st0 := mkIdeal K nw wfs w' 0 p d m (repeat (RtoC 0) (length (f_r F)))) in *.
  destruct (calm_forward n ps st0 g0 r (repeat r (Z.to_nat n) ++ rs)) as (st' & ys & B); auto.
  - lia.
  - apply calm_lead; [lia| |lia]. apply rule_calm; [lia|assumption].
  - exists st', (ys ++ []). eapply pl_load; [left; reflexivity|exact HW|exact HT|exact Fr|].
    eapply pl_process; [exact B|]. constructor.
Qed.

(** what a calm block leaves behind *)
Lemma settle_forward n ps : forall st g r,
  wellFormed RNum (id_wfs st) (id_nw st) (id_K st) -> table src dbg (id_wfs st) (id_nw st) (id_tab st) ->
  cf_num (wt_cf (id_tab st)) = n -> (0 <= g <= Z.of_nat (length ps))%Z ->
  calmState g r (cfState RNum (wt_cf (id_tab st))) ->
  id_entry st = low (cfState RNum (wt_cf (id_tab st))) -> 0 < id_step st ->
  List.Forall sharp ps -> List.Forall (fun s => 0 < s <= /2 /\ entryFor (id_K st) s r) (stepsOf kForward (id_phase st) ps) ->
  exists st' ys, block src dbg F kForward st ps st' ys /\
    id_K st' = id_K st /\ id_nw st' = id_nw st /\ id_wfs st' = id_wfs st /\
    table src dbg (id_wfs st) (id_nw st) (id_tab st') /\
    cfState RNum (wt_cf (id_tab st')) = (0, r, r)%Z /\ id_entry st' = r /\ id_step st' <> 0 /\
    id_phase st' = last ps (id_phase st).
Proof.
  induction ps as [|p ps IH]; intros st g r HW HT Hn Hg Hs He Hd Hsh Hst.
  - exists st, []. split; [constructor|]. cbn [length] in Hg. assert (g = 0%Z) by lia. subst g.
    repeat (split; [auto; fail|]). destruct (cfState RNum (wt_cf (id_tab st))) as [[l q] x].
    destruct Hs as (-> & -> & Hq & _). rewrite (Hq eq_refl) in *. cbn [low] in He.
    repeat split; auto; [lia|lra].
  - inversion_clear Hsh as [|? ? Hp Hps]. cbn [stepsOf] in *.
    inversion_clear Hst as [|? ? [Hd1 He1] Hst'].
    cbn beta in *. set (d := stepBetween RNum kForward (id_phase st) p) in *.
    assert (Hd1' : 0 < d) by (apply Hd1).
    destruct (find_R _ _ _ (id_tab st) d r HW HT Hd1' He1) as (w' & Ef & Es & En & HT' & Hn1).
    rewrite Hn in *.
    assert (Hc : calm n g r [r]) by (cbn [calm]; auto).
    assert (Hlow := outS_low RNum g r r [] n _ Hn1 ltac:(lia) Hs Hc).
    destruct (outS RNum n (cfState RNum (wt_cf (id_tab st))) r) as [[[m gm] mu] gu] eqn:Eo.
    destruct (calm_step n g r r (cfState RNum (wt_cf (id_tab st))) Hn1 ltac:(lia) Hs) as [S1 _].
    specialize (S1 eq_refl).
    destruct (cfStep n (cfState RNum (wt_cf (id_tab st))) r) as [[l1 p1] x1] eqn:Ec.
    destruct (cfState RNum (wt_cf (id_tab st))) as [[l0 p0] x0] eqn:Ec0.
    destruct Hlow as [Hm Hmove]. cbn [low] in He.
    set (st1 := mkIdeal (id_K st) (id_nw st) (id_wfs st) w' (id_wf st) p d m
         (allPoles F (mixed src st (id_phase st) d (m, gm, mu, gu)) (id_mem st))) in *.
    assert (Hs1 : sample src dbg F kForward st p st1
      (audible (allPoles F (mixed src st (id_phase st) d (m, gm, mu, gu)) (id_mem st)))).
    { assert (Hd0 : d <> 0) by (intros E; rewrite E in Hd1'; exact (Rlt_irrefl 0 Hd1')).
      assert (Hd2 : - / 2 <= d <= / 2) by (split; [apply Rle_trans with 0; [lra|now left]|apply Hd1]).
      apply (sample_ src dbg F kForward st p d w' m gm mu gu); auto.
      - rewrite Rabs_pos_eq; [exact Ef|now left].
      - left. split; [assumption|]. lia. }
    destruct (IH st1 (Z.max 0 (g - 1)) r) as (st' & ys & B & E1 & E2 & E3 & E4 & E5 & E6 & E7 & E8);
      cbn [st1 id_K id_nw id_wfs id_tab id_wf id_phase id_step id_entry id_mem]; auto.
    + cbn [length] in Hg. lia.
    + rewrite Es. exact S1.
    + rewrite Es. exact Hm.
    + exists st', (audible (allPoles F (mixed src st (id_phase st) d (m, gm, mu, gu)) (id_mem st)) :: ys).
      split; [econstructor; eassumption|].
      repeat (split; [assumption|]). rewrite E8. cbn [st1 id_phase].
      symmetry. apply PHist.last_cons.
Qed.

(** a settled oscillator, any directions, one octave *)
Lemma steady_block dir ps : forall st r,
  wellFormed RNum (id_wfs st) (id_nw st) (id_K st) -> table src dbg (id_wfs st) (id_nw st) (id_tab st) ->
  cfState RNum (wt_cf (id_tab st)) = (0, r, r)%Z -> id_entry st = r -> id_step st <> 0 ->
  List.Forall sharp ps ->
  List.Forall (fun s => 0 < Rabs s <= /2 /\ entryFor (id_K st) (Rabs s) r) (stepsOf dir (id_phase st) ps) ->
  exists st' ys, block src dbg F dir st ps st' ys.
Proof.
  induction ps as [|p ps IH]; intros st r HW HT Hs He Hd Hsh Hst.
  - exists st, []. constructor.
  - inversion_clear Hsh as [|? ? Hp Hps]. cbn [stepsOf] in *.
    inversion_clear Hst as [|? ? [Hd1 He1] Hst'].
    set (d := stepBetween RNum dir (id_phase st) p) in *.
    destruct (find_R _ _ _ (id_tab st) (Rabs d) r HW HT ltac:(lra) He1) as (w' & Ef & Es & En & HT' & Hn1).
    rewrite Hs in Ef, Es. unfold outS in Ef. unfold cfStep in Es. cbn [Z.eqb andb] in Ef, Es. rewrite Z.eqb_refl in Ef, Es.
    assert (Hd0 : d <> 0) by (intros E; rewrite E, Rabs_R0 in Hd1; lra).
    assert (Hd2 : - / 2 <= d <= / 2) by (apply Rabs_le_between; lra).
    assert (Hs1 := sample_ src dbg F dir st p d w' r (t1 RNum) (r + 1) (t0 RNum)
      (allPoles F (mixed src st (id_phase st) d (r, t1 RNum, (r + 1)%Z, t0 RNum)) (id_mem st)) Hp eq_refl Hd0 Hd2 Ef).
    specialize (Hs1 ltac:(unfold traceable; rewrite He; destruct (Rlt_le_dec 0 (id_step st)); [left; split; [assumption|lia]|right; split; [lra|now left]]) eq_refl).
    match type of Hs1 with sample _ _ _ _ _ _ ?st1 ?y => destruct (IH st1 r) as (st' & ys & B);
      cbn [id_K id_nw id_wfs id_tab id_wf id_phase id_step id_entry id_mem]; auto;
      exists st', (y :: ys); econstructor; eassumption end.
Qed.

Lemma turns_plays wfs nw K w sr fade n p d r ps dir ps2 :
  wellFormed RNum wfs nw K -> 0 < sr -> 1 <= fade * sr < IZR int_max -> tcast RNum (fade * sr) = Ok n ->
  wt_build RNum src dbg wfs nw sr fade = Ok (Some w) -> sharp p -> 0 < d -> entryFor K d r ->
  List.Forall sharp ps -> (n <= Z.of_nat (length ps))%Z ->
  List.Forall (fun s => 0 < s <= /2 /\ entryFor K s r) (stepsOf kForward p ps) ->
  List.Forall sharp ps2 ->
  List.Forall (fun s => 0 < Rabs s <= /2 /\ entryFor K (Rabs s) r) (stepsOf dir (last ps p) ps2) ->
  exists st ys, plays src dbg F None
    [OpInit RNum (Some w) p d; OpProcess RNum kForward ps; OpProcess RNum dir ps2] (Some st) ys.
Proof.
  intros HW Hs Hf Hn Hb Hp Hd Hr Hsh Hl Hst Hsh2 Hst2.
  destruct (built_fresh wfs nw K w sr fade n p d r HW Hs Hf Hn Hb Hp Hd Hr)
    as (HT & w' & m & g0 & Fr & HT' & En & Hn1 & Hg & Hcs & Hm).
  set (st0 := mkIdeal K nw wfs w' 0 p d m (repeat (RtoC 0) (length (f_r F)))) in *.
  destruct (settle_forward n ps st0 g0 r) as (st1 & ys & B & E1 & E2 & E3 & E4 & E5 & E6 & E7 & E8); auto; [lia|].
  cbn [st0 id_K id_nw id_wfs id_phase] in *.
  destruct (steady_block dir ps2 st1 r) as (st2 & zs & B2); auto; rewrite ?E1, ?E2, ?E3, ?E8; auto.
  exists st2, (ys ++ zs ++ []). eapply pl_load; [left; reflexivity|exact HW|exact HT|exact Fr|].
  eapply pl_process; [exact B|]. eapply pl_process; [exact B2|]. constructor.
Qed.
End Cover.
