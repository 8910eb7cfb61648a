(** * PHold: lemmas behind C64 -- standing still in exact arithmetic *)
From Coq Require Import ZArith List Bool Reals Lia Lra Arith.
From Flocq Require Import Core.
From Verif Require Import Num Maths CrossFader Wavetable Filters Osc Spec SpecC SpecT NumFacts Laws CFFacts
  WTFacts BuildFacts SimdFacts OscFacts OscStep OscRun OscHist CFHist PTables PHist RNum RLaws.
From Coquelicot Require Import Coquelicot.
From Verif Require Import SpecE SpecX SpecZ ExactMath ExactStep ExactRun ExactHist ExactSig ExactCover ExactLaws PExact.
Import ListNotations.
Local Open Scope R_scope.

(** ** the value of a sample that stands still *)
Section Value.
Variable cfg : Cfg.
Variable F : Filt RNum.
Hypothesis HB : (1 <= batch cfg)%nat.
Variable x : nat.
Notation z := (zAt RNum cfg F x : C).
Hypothesis Hez : ezAt RNum cfg F x = cexp z.
Hypothesis Hnz : z <> RtoC 0.
Variable ys : list R.
Variable s : Slot RNum.
Notation len := (zlen ys).
Hypothesis Hlen : (4 <= len)%Z.
Hypothesis S : slotOf (N := RNum) ys s.
Notation n := (IZR len).

Lemma hold_value p j : 0 <= p < 1 -> p <> 0 -> j = Zfloor (p * n) ->
  exists I, is_int z (fun u => wave ys (p + 0 * u)) 0 1 I /\
    fwdVal RNum cfg F s len p 0 p j j x = (z * z * I)%C.
Proof.
  intros Hp H0 Hj. assert (Hlen1 : (1 <= len)%Z) by lia. assert (Hn := n_pos ys Hlen1).
  assert (F1 := Zfloor_lb (p * n)). assert (F2 := Zfloor_ub (p * n)). rewrite <- Hj in F1, F2.
  assert (Hjr : (0 <= j < len)%Z).
  { split; [rewrite Hj; apply Zfloor_lub; apply Rmult_le_pos; lra|]. apply lt_IZR. assert (p * n < n) by nra. lra. }
  exists (response z (fun _ => wave ys p)). split.
  { eapply is_int_ext; [lra| |exact (response_is z (fun _ => wave ys p) ltac:(intros; apply continuous_const))].
    intros u _. cbn beta. f_equal. ring. }
  rewrite (response_const z _ Hnz).
  unfold fwdVal, tmad. cbn [tfuse Z.eqb tadd tmul tofZ teq RNum t0].
  rewrite Req_bool_false by exact H0. cbn [b2z]. rewrite Rplus_0_r.
  rewrite (i0_R cfg F x Hez), !(q_line ys Hlen1 s S), !(m_slope ys Hlen1 s S) by lia.
  unfold boundaries. rewrite Z.ltb_irrefl. cbn [b2z]. rewrite Z.mul_0_r, Z.add_0_r. unfold zrange. rewrite Z.sub_diag.
  cbn [Z.to_nat zseq fold_left].
  assert (E : line (cyc ys) n j p = wave ys p).
  { rewrite wave_poly. unfold poly. rewrite <- Hj. reflexivity. }
  rewrite E, (ec_0 cfg F x), Rmult_0_r.
  match goal with |- @eq _ ?a ?b => change (@eq C a b) end. field; exact Hnz. all: exact Hez.
Qed.
End Value.

Lemma entry_zero K : (2 <= K)%Z -> entryFor K 0 0.
Proof.
  intros HK. split; [lia|]. split; [|left; reflexivity]. right.
  assert (A := IZR_pow2_pos K ltac:(lia)). apply Rdiv_lt_0_compat; [|exact A]. apply (IZR_lt 0). cbn. lia.
Qed.
Lemma entry_tiny K : (2 <= K)%Z -> exists d, 0 < d /\ entryFor K d 0.
Proof.
  intros HK. assert (A := IZR_pow2_pos K ltac:(lia)). exists (/ IZR (2 ^ K)). split; [now apply Rinv_0_lt_compat|].
  split; [lia|]. split; [|left; reflexivity]. right.
  change (IZR (2 ^ (0 + 1))) with 2. unfold Rdiv. assert (0 < / IZR (2 ^ K)) by now apply Rinv_0_lt_compat. lra.
Qed.

(** ** the request of a sample that stands still *)
Section Still.
Variable src : Resampler RNum.
Variable cfg : Cfg.
Variable F : Filt RNum.
Hypothesis HB : (1 <= batch cfg)%nat.
Hypothesis HF : exactFilter F.
Notation dbg := (dbg cfg).
Notation n := (kNumCoeffs RNum F).
Notation tracks := (tracks src cfg F).
Let HFk : filtOk RNum F := HFk F HF.

(** the step that is asked for matters through its octave only *)
Lemma find_same wfs nw K w d d' r w' mm : wellFormed RNum wfs nw K -> table src dbg wfs nw w ->
  entryFor K d r -> entryFor K d' r -> 0 < d' ->
  wt_findMipMapIndices RNum dbg w d = Ok (w', mm) -> wt_findMipMapIndices RNum dbg w d' = Ok (w', mm).
Proof.
  intros HW HT Hr Hr' Hd' E. destruct (table_ok src dbg _ _ _ _ HW HT) as (_ & _ & CF).
  assert (HS := table_scale src dbg wfs nw K w HW HT). destruct HW as (HK & HW).
  assert (Er : forall e, entryFor K e r -> req RNum (wt_cf w) e = r).
  { intros e He. apply (entryFor_fun K e); [lia| |assumption]. exact (req_entry RNum LR K (wt_cf w) e ltac:(lia) HS I). }
  unfold wt_findMipMapIndices in *.
  assert (Ed' : newIndices RNum dbg (wt_cf w) d' = newIndices RNum dbg (wt_cf w) d).
  { rewrite (newIndices_eq RNum dbg (wt_cf w) d' CF).
    2:{ intros _. unfold t0. cbn [tlt tofZ RNum]. now apply Rlt_bool_true. }
    destruct dbg eqn:D.
    - destruct (Rlt_dec 0 d) as [H0|H0].
      + rewrite (newIndices_eq RNum true (wt_cf w) d CF); [now rewrite !Er|].
        intros _. unfold t0. cbn [tlt tofZ RNum]. now apply Rlt_bool_true.
      + exfalso. apply bind_ok in E. destruct E as (c & E & _). unfold newIndices in E.
        unfold findMipMapIndex in E. unfold assert_ in E.
        assert (X : tlt RNum (t0 RNum) d = false) by (cbn [tlt RNum t0 tofZ]; apply Rlt_bool_false; lra).
        cbn [andb] in E. rewrite X in E. cbn in E. discriminate.
    - rewrite (newIndices_eq RNum false (wt_cf w) d CF) by discriminate. now rewrite !Er. }
  now rewrite Ed'.
Qed.

Lemma find_table wfs nw K w d w' mm : wellFormed RNum wfs nw K -> table src dbg wfs nw w -> 0 <= d ->
  wt_findMipMapIndices RNum dbg w d = Ok (w', mm) -> table src dbg wfs nw w'.
Proof.
  intros HW HT [Hd|Hd] E; [exact (t_ask _ _ _ _ _ _ _ _ HT Hd E)|]. subst d.
  assert (HK : (2 <= K)%Z) by (destruct HW as (HK & _); lia).
  destruct (entry_tiny K HK) as (d' & Hd' & He).
  assert (E' := find_same wfs nw K w 0 d' 0 w' mm HW HT (entry_zero K HK) He Hd' E).
  exact (t_ask _ _ _ _ _ _ _ _ HT Hd' E').
Qed.

(** ** one sample that is forward or stands still *)
Lemma off_grid_pos k q : (0 <= k)%Z -> ~ onGrid k q -> q <> 0.
Proof. intros Hk H E. apply H. exists 0%Z. rewrite E. unfold Rdiv. ring. Qed.
Lemma off_grid_floor k q j : (0 <= k)%Z -> ~ onGrid k q -> IZR j <= q * IZR (2 ^ k) <= IZR j + 1 ->
  j = Zfloor (q * IZR (2 ^ k)).
Proof.
  intros Hk H [H1 H2]. symmetry. apply Zfloor_imp. split; [exact H1|]. rewrite plus_IZR.
  destruct H2 as [H2|H2]; [exact H2|]. exfalso. apply H. exists (j + 1)%Z. rewrite plus_IZR, <- H2.
  assert (A := IZR_pow2_pos k Hk). field. lra.
Qed.
Lemma off_grid_half k q : (1 <= k)%Z -> ~ onGrid k q -> ~ onGrid (k - 1) q.
Proof.
  intros Hk H [i Hi]. apply H. exists (2 * i)%Z. rewrite Hi, mult_IZR.
  replace (2 ^ k)%Z with (2 * 2 ^ (k - 1))%Z by (rewrite <- Z.pow_succ_r by lia; f_equal; lia).
  rewrite mult_IZR. assert (A := IZR_pow2_pos (k - 1) ltac:(lia)). field. lra.
Qed.

Lemma stay_exact dir st p d w' m g mu gu (o : Osc RNum) : tracks st o ->
  sharp p -> d = stepBetween RNum dir (id_phase st) p -> 0 <= d <= /2 ->
  wt_findMipMapIndices RNum dbg (id_tab st) (Rabs d) = Ok (w', (m, g, mu, gu)) ->
  (0 < id_step st /\ (id_entry st - 1 <= m)%Z) \/ (id_step st < 0 /\ traceable st m) \/ (id_step st = 0 /\ (id_entry st <= m)%Z) ->
  (d = 0 -> ~ onGrid (id_K st - m) p) ->
  let mem := allPoles F (mixed src st (id_phase st) d (m, g, mu, gu)) (id_mem st) in
  exists o', processOne RNum cfg F dir o p = Ok (o', audible mem) /\
    tracks (mkIdeal (id_K st) (id_nw st) (id_wfs st) w' (id_wf st) p d m mem) o'.
Proof.
  intros Tr Hsh Hd Hdr Hf Htr Hoff mem.
  set (K := id_K st) in *. set (nw := id_nw st) in *. set (w := id_tab st) in *.
  assert (HO := tr_ok _ _ _ _ _ Tr). fold K nw w in HO.
  destruct (table_ok src dbg _ _ _ _ (tr_well _ _ _ _ _ Tr) (tr_tab _ _ _ _ _ Tr)) as (Ct & W & CF).
  fold K nw w in Ct, W, CF.
  destruct (sharp_playable p Hsh) as [Hp _].
  destruct (sharp_playable _ (tr_sharp _ _ _ _ _ Tr)) as [Hq Hqp].
  assert (Eq : o_phred o = id_phase st) by (rewrite <- (oo_phase _ _ _ _ _ _ _ HO); apply (tr_phase _ _ _ _ _ Tr)).
  rewrite (Rabs_pos_eq d) in Hf by lra.
  assert (HT' := find_table _ _ _ _ _ _ _ (tr_well _ _ _ _ _ Tr) (tr_tab _ _ _ _ _ Tr) (proj1 Hdr) Hf).
  assert (Hdb : dbg = true -> 0 < d).
  { intros D. destruct (Rlt_dec 0 d) as [H|H]; [exact H|]. exfalso. unfold wt_findMipMapIndices in Hf.
    apply bind_ok in Hf. destruct Hf as (c & E & _). unfold newIndices, findMipMapIndex, assert_ in E. rewrite D in E.
    assert (X : tlt RNum (t0 RNum) d = false) by (cbn [tlt RNum t0 tofZ]; apply Rlt_bool_false; lra).
    cbn [andb] in E. rewrite X in E. cbn in E. discriminate. }
  assert (Esel : processOne RNum cfg F dir o p = processSampleFwd RNum cfg F o w p d).
  { unfold processOne. rewrite (oo_wt _ _ _ _ _ _ _ HO). rewrite (tr_phase _ _ _ _ _ Tr).
    destruct dir; cbn [stepBetween] in Hd; fold (stepFwd RNum p (id_phase st)) (stepBi RNum p (id_phase st)) in Hd.
    - rewrite <- Hd. rewrite assert_ok; [reflexivity|].
      intros D. specialize (Hdb D). unfold t0, tfrac. cbn [tlt tle tofZ tdiv RNum].
      rewrite Rlt_bool_true, Rle_bool_true by lra. reflexivity.
    - rewrite <- Hd. unfold t0. cbn [tle tofZ RNum]. rewrite Rle_bool_true by lra. reflexivity. }
  assert (Hstep := step_R dir (id_phase st) p (proj2 Hq) (proj2 Hp)). rewrite <- Hd in Hstep.
  destruct (wtNext_ok RNum cfg K nw w d W CF) as (E1 & W1 & C1 & _ & _ & M1 & M2 & M3).
  { intros D. unfold t0. cbn [tlt tofZ RNum]. apply Rlt_bool_true. now apply Hdb. }
  change (dbg) with (Osc.dbg cfg) in Hf. rewrite E1 in Hf. rewrite mmiOf_eta in Hf.
  assert (Ew' : w' = wtNext RNum w d) by congruence.
  assert (Em : m = miOf RNum w d) by congruence.
  assert (Eg : g = gOf RNum w d) by congruence.
  assert (Emu : mu = muOf RNum w d) by congruence.
  assert (Egu : gu = guOf RNum w d) by congruence.
  destruct (gains_R w d CF) as [G1 G2].
  clear Hf. subst w' m g mu gu.
  set (mi := miOf RNum w d) in *. set (mu := muOf RNum w d) in *.
  set (g := gOf RNum w d) in *. set (gu := guOf RNum w d) in *.
  assert (Epd := tr_pd _ _ _ _ _ Tr). assert (Emm := tr_mm _ _ _ _ _ Tr).
  assert (Hnt : ~ (trap RNum LR o /\ (mi < o_mm o)%Z)).
  { intros [[T1 T2] T3]. change (val RNum LR (o_pd o)) with (o_pd o : R) in T1. rewrite Epd in T1. rewrite Emm in T3.
    destruct Htr as [[H1 _]|[[H1 H2]|[H1 H2]]]; [lra| |lia].
    destruct H2 as [[H2 _]|[_ H2]]; [lra|].
    destruct H2 as [H2|[[H2 H3]|[H2 _]]]; [lia| |lia].
    assert (Hj := oo_jb _ _ _ _ _ _ _ HO). change (val RNum LR (o_pd o)) with (o_pd o : R) in Hj.
    rewrite Epd in Hj. specialize (Hj H1). rewrite T2 in Hj.
    assert (C0 := Zceil_ub (pos RNum LR K (o_mm o) (o_phred o))). rewrite <- Hj in C0.
    unfold pos in C0. change (val RNum LR (o_phred o)) with (o_phred o : R) in C0. rewrite Eq in C0.
    assert (Hm := oo_mm _ _ _ _ _ _ _ HO).
    assert (A := IZR_pow2_pos (K - o_mm o) ltac:(lia)).
    destruct Hq as [_ Hq]. change (val RNum LR (id_phase st)) with (id_phase st : R) in Hq.
    assert (0 < id_phase st * IZR (2 ^ (K - o_mm o))) by (apply Rmult_lt_0_compat; lra). lra. }
  assert (Hgm : goodMove RNum LR o mi \/ val RNum LR (o_pd o) = 0 /\ (o_mm o <= mi)%Z).
  { unfold goodMove. change (val RNum LR (o_pd o)) with (o_pd o : R). rewrite Epd, Emm.
    destruct Htr as [[H1 H2]|[[H1 H2]|[H1 H2]]]; [left; left; auto| |right; auto]. left. right. split; [assumption|].
    destruct H2 as [[H2 _]|[_ H2]]; [lra|].
    destruct H2 as [H2|[[H2 _]|[H2 H3]]]; [auto|auto|]. right; right. split; [lia|].
    assert (Hj := oo_jb _ _ _ _ _ _ _ HO). change (val RNum LR (o_pd o)) with (o_pd o : R) in Hj.
    rewrite Epd in Hj. rewrite (Hj H1). unfold pos. change (val RNum LR (o_phred o)) with (o_phred o : R).
    rewrite Eq, Emm. exact H3. }
  assert (Hlow := entry_slot src cfg F HB st o mi Tr ltac:(fold K; lia)). cbv zeta in Hlow. fold K w in Hlow.
  destruct Hlow as (Ll & L4 & Sl).
  assert (Hup : gu <> 0 -> (mu = mi + 1 /\ mu < K - 1)%Z /\
     (zlen (entry src st mu) = 2 ^ (K - mu) /\ 4 <= zlen (entry src st mu))%Z /\
     slotOf (N := RNum) (entry src st mu) (slot RNum o w mu)).
  { intros Hg. assert (M4 : (mu < K - 1)%Z) by (destruct M3 as [M3|M3]; [assumption|now elim Hg]).
    specialize (G2 Hg). fold mi mu in G2. split; [auto|].
    destruct (entry_slot src cfg F HB st o mu Tr ltac:(fold K; lia)) as (A & B & Cc). auto. }
  assert (Hq' := proj2 Hq). assert (Hp' := proj2 Hp).
  change (val RNum LR (id_phase st)) with (id_phase st : R) in Hq'. change (val RNum LR p) with (p : R) in Hp'.
  assert (Fin : forall iv o' out, Stepped RNum F LR K nw o w d p d iv o' out ->
     (forall x, (x < n)%nat -> exists I, is_int (zAt RNum cfg F x) (mixed src st (id_phase st) d (mi, g, mu, gu)) 0 1 I /\
        iv x = (zAt RNum cfg F x * zAt RNum cfg F x * I)%C) ->
     out = audible mem /\ tracks (mkIdeal K nw (id_wfs st) (wtNext RNum w d) (id_wf st) p d mi mem) o').
  { intros iv o' out S Hiv.
    assert (Ey : o_y o' = mem).
    { unfold mem. rewrite <- (tr_y _ _ _ _ _ Tr).
      apply (mem_exact cfg F HB HF o _ iv); auto.
      - apply (oo_y _ _ _ _ _ _ _ HO).
      - apply (oo_y _ _ _ _ _ _ _ (sp_ok _ _ _ _ _ _ _ _ _ _ _ _ _ S)).
      - apply (sp_y _ _ _ _ _ _ _ _ _ _ _ _ _ S). }
    split.
    - rewrite (sp_out _ _ _ _ _ _ _ _ _ _ _ _ _ S), Ey. apply audible_R.
    - constructor; cbn [id_K id_nw id_wfs id_tab id_wf id_phase id_step id_entry id_mem]; auto.
      + exact (sp_ok _ _ _ _ _ _ _ _ _ _ _ _ _ S).
      + exact (sp_phase _ _ _ _ _ _ _ _ _ _ _ _ _ S).
      + exact (sp_pd _ _ _ _ _ _ _ _ _ _ _ _ _ S).
      + exact (sp_mm _ _ _ _ _ _ _ _ _ _ _ _ _ S).
      + rewrite (sp_wf _ _ _ _ _ _ _ _ _ _ _ _ _ S). apply (tr_wf _ _ _ _ _ Tr).
      + apply (tr_well _ _ _ _ _ Tr). }
  rewrite Esel.
  destruct (processSampleFwd_ok RNum cfg F LR HB HFk K nw o w HO p d Hp I (proj1 Hdr)
     ltac:(intros D; specialize (Hdb D); cbn; lra) Hnt) as (o' & out & jmin & E & S & Hjm & Hst & _).
  specialize (Hst ltac:(rewrite Eq; exact Hqp) Hgm).
  fold mi in Hjm, Hst, S.
  change (val RNum LR (o_phred o)) with (o_phred o : R) in Hst. unfold startAt, pos in Hst, S.
  change (val RNum LR (o_phred o)) with (o_phred o : R) in Hst, S.
  change (val RNum LR p) with (p : R) in S. rewrite Eq in Hst.
  destruct (Fin _ _ _ S) as [-> Tr'].
  2:{ exists o'. split; [exact E|exact Tr']. }
  intros x Hx. destruct (zAt_nz cfg F HB HF x Hx) as (Znz & Zez & _).
  unfold ivF. fold mi mu g gu. unfold t0. cbn [teq tofZ RNum]. rewrite Eq.
  (* one entry *)
  assert (One : forall k j jx, (0 <= k < K - 1)%Z -> zlen (entry src st k) = (2 ^ (K - k))%Z -> (4 <= zlen (entry src st k))%Z ->
    slotOf (N := RNum) (entry src st k) (slot RNum o w k) -> (d = 0 -> ~ onGrid (K - k) p) -> (0 <= j < 2 ^ (K - k))%Z ->
    (if Req_bool (id_phase st) 0 then j = (2 ^ (K - k) - 1)%Z else IZR j <= id_phase st * IZR (2 ^ (K - k)) <= IZR j + 1) ->
    jx = Zfloor (p * IZR (2 ^ (K - k))) ->
    exists I, is_int (zAt RNum cfg F x) (fun u => wave (entry src st k) (id_phase st + d * u)) 0 1 I /\
      fwdVal RNum cfg F (slot RNum o w k) (2 ^ (K - k)) (id_phase st) d p j jx x = (zAt RNum cfg F x * zAt RNum cfg F x * I)%C).
  { intros k j jx Hk Hl H4 HS Ho Hj Hs Hjx. destruct (Req_dec d 0) as [D0|D0].
    - destruct Hstep as [c Hc]. rewrite D0, Rplus_0_r in Hc.
      assert (c = 0%Z).
      { assert (-1 < IZR c < 1) by lra. destruct H as [A B]. apply lt_IZR in A. apply lt_IZR in B. lia. }
      subst c. rewrite Rplus_0_r in Hc. specialize (Ho D0).
      assert (P0 := off_grid_pos (K - k) p ltac:(lia) Ho). rewrite Hc in Hs |- *.
      rewrite Req_bool_false in Hs by exact P0.
      assert (Ej := off_grid_floor (K - k) p j ltac:(lia) Ho Hs). rewrite <- Ej in Hjx. subst jx.
      rewrite D0. rewrite <- Hl. apply (hold_value cfg F HB x Zez Znz); auto. now rewrite Hl.
    - rewrite <- Hl in *.
      destruct (fwd_exact cfg F HB x Zez (entry src st k) (slot RNum o w k) H4 HS (id_phase st) p d j jx Hq' Hp' ltac:(lra) Hstep Hj Hs Hjx)
        as (I1 & A1 & B1). exists I1. auto. }
  destruct (One mi jmin (Zfloor (p * IZR (2 ^ (K - mi)))) M1 Ll L4 Sl Hoff Hjm Hst eq_refl) as (I1 & A1 & B1).
  rewrite B1.
  destruct (Req_bool_spec gu 0) as [Hg|Hg].
  + exists I1. split; [|reflexivity]. rewrite Hg, (G1 Hg). now apply single_int.
  + destruct (Hup Hg) as ((U1 & U2) & (U3 & U4) & U5).
    assert (Hh : (2 ^ (K - mi) = 2 * 2 ^ (K - mu))%Z) by (rewrite U1; apply len_half; lia).
    destruct (One mu (jmin / 2)%Z (Zfloor (p * IZR (2 ^ (K - mi))) / 2)%Z) as (I2 & A2 & B2); auto.
    { lia. }
    { intros D0. replace (K - mu)%Z with (K - mi - 1)%Z by lia. apply off_grid_half; [lia|]. now apply Hoff. }
    { rewrite Hh in Hjm. split; [apply Z.div_pos; lia|apply Z.div_lt_upper_bound; lia]. }
    { rewrite Hh in Hst, Hjm. destruct (Req_bool (id_phase st) 0).
      - apply (half_last cfg HB); [rewrite <- U3; lia|exact Hst].
      - assert (A := half_le cfg HB jmin _ ltac:(lia) Hst). rewrite mult_IZR in A.
        replace (id_phase st * (2 * IZR (2 ^ (K - mu))) / 2) with (id_phase st * IZR (2 ^ (K - mu))) in A by field.
        exact A. }
    { rewrite Hh. apply (half_floor cfg HB). lra. }
    rewrite B2.
    exists (RtoC g * I1 + RtoC gu * I2)%C. split; [now apply mixed_int|].
    unfold mixVal, caddx, tdotp. cbn [tfuse Z.eqb tadd tmul RNum].
    destruct (zAt RNum cfg F x) as [z1 z2], I1 as [a1 a2], I2 as [b1 b2]. cx; cbn [fst snd]; ring.
Qed.

Lemma sample0_exact dir st p st' y (o : Osc RNum) : tracks st o -> sample0 src dbg F dir st p st' y ->
  exists o', processOne RNum cfg F dir o p = Ok (o', y) /\ tracks st' o'.
Proof.
  intros Tr Sm. destruct Sm as [d w' m g mu gu mem Hsh Hd Hdr Hf Htr Hoff Hback Hmem].
  destruct (Rlt_le_dec d 0) as [Hneg|Hpos].
  - apply (sample_exact src cfg F HB HF dir st p _ _ o Tr). apply (sample_ src dbg F dir st p d w' m g mu gu); auto; [lra|].
    destruct Htr as [H|[H _]]; [exact H|]. now elim (Hback Hneg).
  - subst mem. apply (stay_exact dir st p d w' m g mu gu o); auto; [lra|].
    destruct Htr as [[H|H]|H]; [left; exact H|right; left; split; [apply H|right; exact H]|right; right; exact H].
Qed.

Lemma block0_exact dir st ps st' ys : block0 src dbg F dir st ps st' ys ->
  forall (o : Osc RNum) out, tracks st o -> length out = length ps ->
  exists o', processLoop RNum cfg F dir o ps out = Ok (o', ys) /\ tracks st' o'.
Proof.
  induction 1 as [st|st p st1 y ps st2 ys Hs Hb IH]; intros o out Tr Hl.
  - destruct out; [|discriminate]. exists o. auto.
  - destruct out as [|z out]; [discriminate|]. cbn [processLoop].
    destruct (sample0_exact dir st p st1 y o Tr Hs) as (o1 & E1 & T1).
    rewrite E1. cbn [bind]. destruct (IH o1 out T1 ltac:(now injection Hl)) as (o2 & E2 & T2).
    rewrite E2. cbn [bind]. exists o2. auto.
Qed.

Lemma run_app0 (ops rest : list (Op RNum)) o o1 ys : Osc.run RNum src cfg F o ops = Ok (o1, ys) ->
  Osc.run RNum src cfg F o (ops ++ rest) = (let! (o2, zs) := Osc.run RNum src cfg F o1 rest in Ok (o2, ys ++ zs)).
Proof.
  revert o ys. induction ops as [|op ops IH]; intros o ys H; cbn [Osc.run app] in *.
  - injection H as <- <-. destruct (Osc.run RNum src cfg F o rest) as [[o2 zs]|]; reflexivity.
  - apply bind_ok in H. destruct H as ([o2 y1] & E1 & H). apply bind_ok in H. destruct H as ([o3 y2] & E2 & H).
    injection H as <- <-. rewrite E1. cbn [bind]. rewrite (IH _ _ E2).
    destruct (Osc.run RNum src cfg F o3 rest) as [[o4 zs]|]; cbn [bind]; [|reflexivity]. now rewrite app_assoc.
Qed.

Lemma process0_exact dir st ps st' ys o : block0 src dbg F dir st ps st' ys -> tracks st o ->
  exists o', Osc.apply RNum src cfg F o (OpProcess RNum dir ps) = Ok (o', ys) /\ tracks st' o'.
Proof.
  intros Hb Tr. cbn [Osc.apply]. unfold process. rewrite (oo_wt _ _ _ _ _ _ _ (tr_ok _ _ _ _ _ Tr)).
  rewrite assert_ok by reflexivity. cbn [bind].
  rewrite assert_ok.
  2:{ intros _. unfold zlen. rewrite map_length. apply Z.eqb_refl. }
  cbn [bind]. destruct (block0_exact dir st ps st' ys Hb o (List.map (fun _ => t0 RNum) ps) Tr) as (o' & E & T).
  { apply map_length. }
  exists o'. split; [exact E|exact T].
Qed.

Theorem roams_exact st ops st' ys : roams src dbg F st ops st' ys ->
  forall o : Osc RNum, tracksO src cfg F st o ->
  exists o', Osc.run RNum src cfg F o ops = Ok (o', ys) /\ tracksO src cfg F st' o'.
Proof.
  induction 1 as [st|st ops st1 ys rest st2 zs Hp Hr IH|st dir ps st1 ys rest st2 zs Hb Hr IH]; intros o Tr.
  - exists o. auto.
  - destruct (plays_exact src cfg F HB HF _ _ _ _ Hp o Tr) as (o1 & E1 & T1).
    destruct (IH o1 T1) as (o2 & E2 & T2). exists o2. split; [|exact T2]. rewrite (run_app0 _ _ _ _ _ E1), E2. reflexivity.
  - cbn [tracksO] in Tr. cbn [Osc.run].
    destruct (process0_exact dir st ps st1 ys o Hb Tr) as (o1 & E1 & T1).
    rewrite E1. cbn [bind]. destruct (IH o1 T1) as (o2 & E2 & T2). rewrite E2. cbn [bind]. eauto.
Qed.
End Still.

(** ** which histories these are *)
Section Cover.
Variable src : Resampler RNum.
Variable F : Filt RNum.

Lemma find_0 wfs nw K w : wellFormed RNum wfs nw K -> table src false wfs nw w ->
  cfState RNum (wt_cf w) = (0, 0, 0)%Z ->
  exists w', wt_findMipMapIndices RNum false w 0 = Ok (w', (0%Z, t1 RNum, 1%Z, t0 RNum)) /\
    cfState RNum (wt_cf w') = (0, 0, 0)%Z /\ table src false wfs nw w'.
Proof.
  intros HW HT Hs. assert (HK : (2 <= K)%Z) by (destruct HW as (HK & _); lia).
  destruct (table_ok src false _ _ _ _ HW HT) as (_ & _ & CF).
  assert (HS := table_scale src false wfs nw K w HW HT).
  assert (Er : req RNum (wt_cf w) 0 = 0%Z).
  { apply (entryFor_fun K 0); [lia| |now apply entry_zero]. exact (req_entry RNum LR K (wt_cf w) 0 ltac:(lia) HS I). }
  assert (E : wt_findMipMapIndices RNum false w 0 = Ok (mkWT (wt_slots w) (wt_ph w)
     (cfWith RNum (wt_cf w) (cfStep (cf_num (wt_cf w)) (cfState RNum (wt_cf w)) 0)),
     outS RNum (cf_num (wt_cf w)) (cfState RNum (wt_cf w)) 0)).
  { unfold wt_findMipMapIndices. rewrite (newIndices_eq RNum false (wt_cf w) 0 CF), Er by discriminate.
    cbn [bind]. now rewrite cfOut_S. }
  assert (HT' := find_table src (mkCfg false 1) (le_n 1) wfs nw K w 0 _ _ HW HT (Rle_refl 0) E).
  rewrite Hs in E, HT'. cbn in E, HT'. eexists. split; [exact E|]. cbn [wt_cf]. split; [|exact HT'].
  reflexivity.
Qed.

Lemma still_block dir ps : forall st, (2 <= id_K st)%Z ->
  wellFormed RNum (id_wfs st) (id_nw st) (id_K st) -> table src false (id_wfs st) (id_nw st) (id_tab st) ->
  cfState RNum (wt_cf (id_tab st)) = (0, 0, 0)%Z -> id_entry st = 0%Z ->
  List.Forall sharp ps ->
  List.Forall (fun s => Rabs s <= /2 /\ entryFor (id_K st) (Rabs s) 0) (stepsOf dir (id_phase st) ps) ->
  noTurn (id_step st :: stepsOf dir (id_phase st) ps) -> standsOff dir (id_K st) (id_phase st) ps ->
  exists st' ys, block0 src false F dir st ps st' ys.
Proof.
  induction ps as [|p ps IH]; intros st HK HW HT Hs He Hsh Hst Hnt Hso.
  - exists st, []. constructor.
  - inversion_clear Hsh as [|? ? Hp Hps]. cbn [stepsOf] in *.
    inversion_clear Hst as [|? ? [Hd1 He1] Hst'].
    set (d := stepBetween RNum dir (id_phase st) p) in *.
    cbn [standsOff] in Hso. fold d in Hso. destruct Hso as [Hso1 Hso2].
    change (noTurn (id_step st :: d :: stepsOf dir p ps)) with
      ((id_step st = 0 -> 0 <= d) /\ noTurn (d :: stepsOf dir p ps)) in Hnt. destruct Hnt as [Hnt1 Hnt2].
    assert (Hf : exists w', wt_findMipMapIndices RNum false (id_tab st) (Rabs d) = Ok (w', (0%Z, t1 RNum, 1%Z, t0 RNum)) /\
      cfState RNum (wt_cf w') = (0, 0, 0)%Z /\ table src false (id_wfs st) (id_nw st) w').
    { destruct (Req_dec d 0) as [D|D].
      - rewrite D, Rabs_R0. now apply (find_0 _ _ (id_K st)).
      - destruct (find_R src false _ _ _ (id_tab st) (Rabs d) 0 HW HT ltac:(now apply Rabs_pos_lt) He1) as (w' & Ef & Es & En & HT' & Hn1).
        rewrite Hs in Ef, Es. unfold outS in Ef. unfold cfStep in Es. cbn [Z.eqb andb] in Ef, Es.
        exists w'. split; [exact Ef|]. split; [exact Es|exact HT']. }
    destruct Hf as (w' & Ef & Es & HT').
    assert (Hd2 : - / 2 <= d <= / 2) by (apply Rabs_le_between; lra).
    assert (Hs1 := sample0_ src false F dir st p d w' 0 (t1 RNum) 1 (t0 RNum)
      (allPoles F (mixed src st (id_phase st) d (0%Z, t1 RNum, 1%Z, t0 RNum)) (id_mem st)) Hp eq_refl Hd2 Ef).
    assert (Ht : traceable st 0 \/ id_step st = 0 /\ (id_entry st <= 0)%Z).
    { unfold traceable. rewrite He. destruct (Rtotal_order (id_step st) 0) as [H|[H|H]].
      - left; right. auto.
      - right. split; [assumption|lia].
      - left; left. split; [assumption|lia]. }
    specialize (Hs1 Ht).
    specialize (Hs1 ltac:(rewrite Z.sub_0_r; exact Hso1)).
    specialize (Hs1 ltac:(intros Hneg E0; specialize (Hnt1 E0); lra) eq_refl).
    match type of Hs1 with sample0 _ _ _ _ _ _ ?st1 ?y => destruct (IH st1) as (st' & ys & B);
      cbn [id_K id_nw id_wfs id_tab id_wf id_phase id_step id_entry id_mem]; auto;
      exists st', (y :: ys); econstructor; eassumption end.
Qed.

Lemma still_plays wfs nw K w sr fade n p d ps dir ps2 :
  wellFormed RNum wfs nw K -> 0 < sr -> 1 <= fade * sr < IZR int_max -> tcast RNum (fade * sr) = Ok n ->
  wt_build RNum src false wfs nw sr fade = Ok (Some w) -> sharp p -> 0 < d -> entryFor K d 0 ->
  List.Forall sharp ps -> (n <= Z.of_nat (length ps))%Z ->
  List.Forall (fun s => 0 < s <= /2 /\ entryFor K s 0) (stepsOf kForward p ps) ->
  List.Forall sharp ps2 ->
  List.Forall (fun s => Rabs s <= /2 /\ entryFor K (Rabs s) 0) (stepsOf dir (last ps p) ps2) ->
  noTurn (stepsOf dir (last ps p) ps2) -> standsOff dir K (last ps p) ps2 ->
  exists st ys, roams src false F None
    [OpInit RNum (Some w) p d; OpProcess RNum kForward ps; OpProcess RNum dir ps2] (Some st) ys.
Proof.
  intros HW Hs Hf Hn Hb Hp Hd Hr Hsh Hl Hst Hsh2 Hst2 Hnt Hso.
  destruct (built_fresh src false F wfs nw K w sr fade n p d 0 HW Hs Hf Hn Hb Hp Hd Hr)
    as (HT & w' & m & g0 & Fr & HT' & En & Hn1 & Hg & Hcs & Hm).
  set (st0 := mkIdeal K nw wfs w' 0 p d m (repeat (RtoC 0) (length (f_r F)))) in *.
  destruct (settle_forward src false F n ps st0 g0 0) as (st1 & ys & B & E1 & E2 & E3 & E4 & E5 & E6 & E7 & E8); auto; [lia|].
  cbn [st0 id_K id_nw id_wfs id_phase] in *.
  assert (HK : (2 <= K)%Z) by (destruct HW as (HK & _); lia).
  destruct (still_block dir ps2 st1) as (st2 & zs & B2); rewrite ?E1, ?E2, ?E3, ?E8; auto.
  { destruct (stepsOf dir (last ps p) ps2) eqn:El; [exact I|]. split; [|exact Hnt]. intros E0. now elim E7. }
  exists st2, ((ys ++ []) ++ (zs ++ [])).
  apply (ro_plays src false F None [OpInit RNum (Some w) p d; OpProcess RNum kForward ps] (Some st1)).
  - eapply pl_load; [left; reflexivity|exact HW|exact HT|exact Fr|]. eapply pl_process; [exact B|]. constructor.
  - eapply ro_block; [exact B2|]. constructor.
Qed.
End Cover.

(** ** standing still for a long time *)
Section Hold.
Variable src : Resampler RNum.
Variable F : Filt RNum.
Hypothesis HF : exactFilter F.

Definition heldPole (c : R) (N : nat) (e : (C * C) * C) : C :=
  (cexp (RtoC (INR N) * snd (fst e)) * snd e + RtoC c * stepResponse (fst (fst e)) (snd (fst e)) N)%C.
Definition heldMem (c : R) (ys : list C) (N : nat) : list C :=
  List.map (heldPole c N) (combine (combine (f_r F) (f_z F)) ys).

Lemma cexp_0 z : cexp (RtoC (INR 0) * z)%C = RtoC 1.
Proof.
  destruct z as [z1 z2]. unfold cexp. cbn [INR RtoC Cmult fst snd].
  replace (0 * z1 - 0 * z2) with 0 by ring. replace (0 * z2 + 0 * z1) with 0 by ring.
  rewrite exp_0, cos_0, sin_0. apply injective_projections; cbn; ring.
Qed.

Lemma held_0 c ys : length ys = length (f_r F) -> heldMem c ys 0 = ys.
Proof.
  intros Hl. unfold heldMem. assert (Hn := ef_nz F HF). assert (El := ef_z F HF). revert ys Hl El Hn.
  generalize (f_r F) (f_z F). intros rs. induction rs as [|r rs IH]; intros zs ys Hl El Hn; destruct ys as [|y ys]; try discriminate.
  - reflexivity.
  - destruct zs as [|z zs]; [discriminate|]. inversion_clear Hn. cbn [combine List.map]. f_equal.
    + unfold heldPole. cbn [fst snd]. rewrite stepResponse_0 by assumption. rewrite cexp_0.
      match goal with |- @eq _ ?a ?b => change (@eq C a b) end. ring.
    + apply IH; auto.
Qed.

Lemma held_S c x ys N : (forall u, 0 <= u <= 1 -> x u = c) -> allPoles F x (heldMem c ys N) = heldMem c ys (S N).
Proof.
  intros Hx. unfold allPoles, heldMem.
  assert (Hz : forall e, In e (combine (f_r F) (f_z F)) -> snd e <> RtoC 0).
  { intros [r z] Hin. apply in_combine_r in Hin. assert (T := ef_nz F HF). rewrite List.Forall_forall in T. now apply T. }
  revert ys Hz. generalize (combine (f_r F) (f_z F)) as es.
  induction es as [|[r z] es IH]; intros ys Hz; [reflexivity|]. destruct ys as [|y ys]; [reflexivity|].
  cbn [List.map combine fst snd]. f_equal.
  - unfold heldPole, onePole. cbn [fst snd]. rewrite (response_ext z x (fun _ => c)) by exact Hx.
    assert (Zn : z <> RtoC 0) by (apply (Hz (r, z)); now left).
    unfold stepResponse. rewrite cexp_S, response_const by assumption.
    generalize (cexp z) (cexp (RtoC (INR N) * z)%C). intros e1 e2.
    match goal with |- @eq _ ?a ?b => change (@eq C a b) end. field. exact Zn.
  - apply IH. intros e He. apply Hz. now right.
Qed.

Lemma held_lim c ys : stable F -> length ys = length (f_r F) ->
  is_lim_seq (fun N => audible (heldMem c ys N)) (dcGain F * c).
Proof.
  intros HS Hl. unfold audible, heldMem, dcGain. unfold stable in HS. assert (El := ef_z F HF). revert ys Hl El HS.
  generalize (f_r F) (f_z F). intros rs. induction rs as [|r rs IH]; intros zs ys Hl El HS; destruct ys as [|y ys]; try discriminate.
  - cbn. rewrite Rmult_0_l. apply is_lim_seq_const.
  - destruct zs as [|z zs]; [discriminate|]. inversion_clear HS as [|? ? Hz HS']. cbn [combine List.map fold_right fst snd].
    rewrite Rmult_plus_distr_r. apply is_lim_seq_plus'; [|apply IH; auto].
    unfold heldPole. cbn [fst snd].
    apply (is_lim_seq_ext (fun n => fst (cexp (RtoC (INR n) * z) * y)%C + fst (stepResponse r z n) * c)).
    { intros n. destruct (cexp (RtoC (INR n) * z)%C) as [a1 a2], y as [y1 y2], (stepResponse r z n) as [b1 b2]. cbn. ring. }
    match goal with |- is_lim_seq _ (Finite ?a) => replace (Finite a) with (Finite (0 + a)) by (f_equal; ring) end.
    apply is_lim_seq_plus'.
    + apply is_lim_seq_abs_0. apply (is_lim_seq_le_le (fun _ => 0) _ (fun n => Cmod y * exp (INR n * fst z))).
      * intros n. split; [apply Rabs_pos|]. eapply Rle_trans; [apply fst_le_Cmod|].
        rewrite Cmod_mult, cmod_cexp. right. rewrite Rmult_comm. f_equal. f_equal. destruct z as [z1 z2]. cbn. ring.
      * apply is_lim_seq_const.
      * replace (Finite 0) with (Rbar_mult (Cmod y) 0) by (cbn; f_equal; ring).
        apply is_lim_seq_scal_l. now apply cexp_n_lim.
    + apply (is_lim_seq_ext (fun n => c * fst (stepResponse r z n))); [intros; ring|].
      match goal with |- is_lim_seq _ (Finite (?a * c)) => replace (Finite (a * c)) with (Rbar_mult c a) by (cbn; f_equal; ring) end.
      apply is_lim_seq_scal_l. now apply stepResponse_lim.
Qed.

Lemma step_same dir q : stepBetween RNum dir q q = 0.
Proof.
  assert (E : tsub RNum q q = 0) by exact (Rminus_eq_0 q).
  destruct dir; cbn [stepBetween]; rewrite E; unfold t0, tfrac; cbn [tdiv tlt tadd tofZ RNum];
    rewrite !Rlt_bool_false by lra; reflexivity.
Qed.

Lemma hold_block dir N : forall st, (2 <= id_K st)%Z ->
  wellFormed RNum (id_wfs st) (id_nw st) (id_K st) -> table src false (id_wfs st) (id_nw st) (id_tab st) ->
  cfState RNum (wt_cf (id_tab st)) = (0, 0, 0)%Z -> id_entry st = 0%Z -> sharp (id_phase st) ->
  ~ onGrid (id_K st) (id_phase st) ->
  forall Y k c, id_mem st = heldMem c Y k -> c = wave (entry src st 0) (id_phase st) ->
  exists st' ys, block0 src false F dir st (repeat (id_phase st) N) st' ys /\ length ys = N /\
    forall i y, nth_error ys i = Some y -> y = audible (heldMem c Y (k + S i)).
Proof.
  induction N as [|N IH]; intros st HK HW HT Hs He Hsh Hog Y k c Hm Hc.
  - exists st, []. split; [constructor|]. split; [reflexivity|]. intros [|i] y; discriminate.
  - cbn [repeat]. assert (Ed := step_same dir (id_phase st)).
    destruct (find_0 src _ _ (id_K st) (id_tab st) HW HT Hs) as (w' & Ef & Es & HT').
    rewrite <- Rabs_R0 in Ef.
    assert (Hs1 := sample0_ src false F dir st (id_phase st) 0 w' 0 (t1 RNum) 1 (t0 RNum)
      (allPoles F (mixed src st (id_phase st) 0 (0%Z, t1 RNum, 1%Z, t0 RNum)) (id_mem st)) Hsh (eq_sym Ed) ltac:(lra) Ef).
    assert (Ht : traceable st 0 \/ id_step st = 0 /\ (id_entry st <= 0)%Z).
    { unfold traceable. rewrite He. destruct (Rtotal_order (id_step st) 0) as [H|[H|H]].
      - left; right. auto.
      - right. split; [assumption|lia].
      - left; left. split; [assumption|lia]. }
    specialize (Hs1 Ht ltac:(intros _; rewrite Z.sub_0_r; exact Hog) ltac:(intros; lra) eq_refl).
    assert (Em : allPoles F (mixed src st (id_phase st) 0 (0%Z, t1 RNum, 1%Z, t0 RNum)) (id_mem st) = heldMem c Y (S k)).
    { rewrite Hm. apply held_S. intros u _. unfold mixed. rewrite Hc. unfold t1, t0. cbn [tofZ RNum].
      replace (id_phase st + 0 * u) with (id_phase st) by ring. ring. }
    rewrite Em in Hs1.
    match type of Hs1 with sample0 _ _ _ _ _ _ ?st1 ?y => destruct (IH st1) with (Y := Y) (k := S k) (c := c) as (st' & ys & B & Hl & Hy);
      cbn [id_K id_nw id_wfs id_tab id_wf id_phase id_step id_entry id_mem]; auto;
      exists st', (y :: ys) end.
    split; [econstructor; eassumption|]. split; [cbn [length]; now f_equal|].
    intros [|i] y E; cbn [nth_error] in E.
    + injection E as <-. f_equal. f_equal. lia.
    + rewrite (Hy i y E). f_equal. f_equal. lia.
Qed.
End Hold.
