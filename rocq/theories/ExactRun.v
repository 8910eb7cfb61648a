(** * ExactRun: in exact arithmetic the oscillator is the ideal one *)
From Coq Require Import ZArith List Bool Reals Lia Lra Arith.
From Flocq Require Import Core.
From Verif Require Import Num Maths CrossFader Wavetable Filters Osc Spec SpecC SpecT NumFacts Laws CFFacts
  WTFacts BuildFacts SimdFacts OscFacts OscStep OscRun OscHist CFHist PTables RNum RLaws.
From Coquelicot Require Import Coquelicot.
From Verif Require Import SpecE ExactMath ExactStep.
Import ListNotations.
Local Open Scope R_scope.
Notation LR := R_Laws.

(** ** Tables *)
Section Tables.
Variable src : Resampler RNum.
Variable dbg : bool.

Lemma tcast_R fade sr : 1 <= fade * sr < IZR int_max ->
  exists k, tcast RNum (tmul RNum fade sr) = Ok k /\ (1 <= k)%Z.
Proof.
  intros H. unfold tcast. cbn [ttrunc tmul RNum]. exists (Ztrunc (fade * sr)).
  assert (A : (1 <= Ztrunc (fade * sr))%Z) by (rewrite Ztrunc_floor by lra; apply Zfloor_lub; lra).
  rewrite in_int_true; [auto|]. split; [unfold int_min; lia|].
  rewrite <- (Ztrunc_IZR int_max). apply Ztrunc_le. lra.
Qed.

Lemma table_made wfs nw w : table src dbg wfs nw w -> madeFrom RNum src dbg wfs nw w.
Proof.
  induction 1 as [sr fade w Hs Hf H|w d w' m H IH Hd E|w sr fade w' H IH Hs Hf E].
  - eapply m_build; eassumption.
  - eapply m_ask; eassumption.
  - eapply m_resample; eassumption.
Qed.

Lemma table_ok wfs nw K w : wellFormed RNum wfs nw K -> table src dbg wfs nw w ->
  Contents RNum src K nw wfs w /\ WTok K nw w /\ CFok RNum (wt_cf w).
Proof.
  intros HWf HT. assert (HWf' := HWf). destruct HWf' as (HK & Hnw & Hl & Hm).
  assert (C := made_contents src dbg wfs nw K w HWf (table_made _ _ _ HT)).
  assert (W := Contents_WTok _ _ _ _ _ _ Hnw Hm C).
  split; [assumption|]. split; [assumption|]. clear C W.
  induction HT as [sr fade w Hs Hf H|w d w' m H IH Hd E|w sr fade w' H IH Hs Hf E].
  - destruct (tcast_R fade sr Hf) as (k & Ek & Hk).
    now destruct (build_tableOk RNum LR src (mkCfg dbg 1) (le_n 1) wfs nw sr fade K w k HK Hnw Hl Hm Ek Hk H).
  - specialize (IH). unfold wt_findMipMapIndices in E.
    destruct (newIndices_ok RNum dbg (wt_cf w) d IH) as (c' & mi & g & mu & gu & En & Hc' & _).
    { intros _. cbn [tlt RNum t0 tofZ]. now apply Rlt_bool_true. }
    rewrite En in E. cbn [bind] in E. injection E as <- _. exact Hc'.
  - destruct (tcast_R fade sr Hf) as (k & Ek & Hk).
    assert (C := made_contents src dbg wfs nw K w HWf (table_made _ _ _ H)).
    rewrite (update_R src dbg K nw wfs) in E by assumption.
    destruct (wt_build RNum src dbg wfs nw sr fade) as [[w2|]|] eqn:Eb; try discriminate.
    injection E as <-.
    now destruct (build_tableOk RNum LR src (mkCfg dbg 1) (le_n 1) wfs nw sr fade K w2 k HK Hnw Hl Hm Ek Hk Eb).
Qed.

(** the gains of a valid answer *)
Lemma gains_R w d : CFok RNum (wt_cf w) ->
  (guOf RNum w d = 0 -> gOf RNum w d = 1) /\ (guOf RNum w d <> 0 -> muOf RNum w d = (miOf RNum w d + 1)%Z).
Proof.
  intros HC. assert (Hr := req_range RNum (wt_cf w) d HC).
  destruct (proj1 (CFok_inv RNum (wt_cf w)) HC) as [Hn Hi].
  assert (Hs := cfStep_inv (cf_num (wt_cf w)) _ (cfState RNum (wt_cf w)) (req RNum (wt_cf w) d) ltac:(lia) Hr Hi).
  unfold guOf, gOf, muOf, miOf, mmiOf. rewrite cfOut_S.
  set (r := req RNum (wt_cf w) d) in *. set (n := cf_num (wt_cf w)) in *.
  destruct (cfState RNum (wt_cf w)) as [[l p] y]. unfold outS.
  destruct ((l =? 0) && (r =? y))%Z.
  - cbn. unfold t0, t1. cbn [tofZ RNum]. split; [auto|]. intros H. now elim H.
  - destruct (cfStep n (l, p, y) r) as [[l1 p1] y1]. unfold fadeT, cfInv in *.
    assert (Hn0 : IZR n <> 0) by (apply not_0_IZR; lia).
    destruct Hs as (A & B & Cc & D & E).
    assert (Dv : IZR l1 / IZR n <> 0 -> (0 < l1)%Z).
    { intros H. destruct (Z.eq_dec l1 0) as [->|]; [|lia]. elim H. unfold Rdiv. ring. }
    destruct (Z.ltb_spec p1 y1) as [H|H]; cbn [fst snd]; unfold t1; cbn [tsub tdiv tofZ RNum].
    + split; [lra|]. intros _. destruct (Z.eq_dec l1 0) as [E0|E0]; [specialize (D E0); lia|].
      specialize (E ltac:(lia)). lia.
    + split; [lra|]. intros H0. specialize (Dv H0). specialize (E Dv). lia.
Qed.
End Tables.

(** ** Integrals *)
Lemma is_int_lin z x y a b I J g h : is_int z x a b I -> is_int z y a b J ->
  is_int z (fun u => g * x u + h * y u) a b (RtoC g * I + RtoC h * J)%C.
Proof.
  intros [A1 A2] [B1 B2]. destruct I as [I1 I2], J as [J1 J2].
  split; cbn [fst snd Cplus Cmult RtoC] in *.
  - replace (g * I1 - 0 * I2 + (h * J1 - 0 * J2)) with (g * I1 + h * J1) by ring.
    eapply (is_RInt_ext (V := R_NormedModule) (fun u => g * (er z u * x u) + h * (er z u * y u))).
    { intros u _. cbn. ring. }
    apply (is_RInt_plus (V := R_NormedModule)); apply (is_RInt_scal (V := R_NormedModule)); assumption.
  - replace (g * I2 + 0 * I1 + (h * J2 + 0 * J1)) with (g * I2 + h * J2) by ring.
    eapply (is_RInt_ext (V := R_NormedModule) (fun u => g * (ei z u * x u) + h * (ei z u * y u))).
    { intros u _. cbn. ring. }
    apply (is_RInt_plus (V := R_NormedModule)); apply (is_RInt_scal (V := R_NormedModule)); assumption.
Qed.

Lemma response_int z x I : is_int z x 0 1 I -> response z x = I.
Proof.
  intros [A B]. unfold response. destruct I as [I1 I2]. cbn [fst snd] in *.
  assert (E : forall u, cexp (RtoC (1 - u) * z)%C = (er z u, ei z u)).
  { intros u. unfold cexp, er, ei. destruct z as [z1 z2]. cbn [fst snd Cmult RtoC].
    replace ((1 - u) * z1 - 0 * z2) with (z1 * (1 - u)) by ring.
    replace ((1 - u) * z2 + 0 * z1) with (z2 * (1 - u)) by ring. reflexivity. }
  f_equal.
  - rewrite <- (is_RInt_unique _ _ _ _ A). apply RInt_ext. intros u _. now rewrite E.
  - rewrite <- (is_RInt_unique _ _ _ _ B). apply RInt_ext. intros u _. now rewrite E.
Qed.

Lemma yStep_R (z r y I ez : C) : z <> RtoC 0 -> ez = cexp z ->
  yStep RNum y r (z * z)%C ez (z * z * I)%C = (cexp z * y + 2 * r * I)%C.
Proof.
  intros Hz ->. unfold yStep.
  assert (E : forall w, w <> RtoC 0 -> cdiv RNum 44 (w * I)%C w = I).
  { intros [w1 w2] Hw. destruct I as [I1 I2]. unfold cdiv, tdotp, tdotm. cbn [tfuse Z.eqb tadd tsub tmul tdiv tquo RNum fst snd Cmult].
    assert (w1 * w1 + w2 * w2 <> 0).
    { intros H. apply Hw. assert (w1 = 0) by nra. assert (w2 = 0) by nra. subst. reflexivity. }
    apply C_eq; field; assumption. }
  rewrite E.
  - unfold cadd, cmul, tdotp, tdotm, cscale, t2. cbn [tfuse Z.eqb tadd tsub tmul tofZ RNum].
    destruct (cexp z) as [e1 e2], y as [y1 y2], r as [r1 r2], I as [I1 I2]. cx; cbn [fst snd]; ring.
  - now apply Cmult_neq_0.
Qed.

Lemma audible_R ys : @eq R (yOut RNum ys) (audible ys).
Proof.
  unfold yOut, audible. cbn [torder RNum]. rewrite addsUp_never.
  assert (G : forall (l : list C) (a : C), @eq R (fst (fold_left (cadd RNum) l a)) (fst a + fold_right Rplus 0 (List.map fst l))).
  { induction l as [|y l IH]; intros a; cbn [fold_left List.map fold_right].
    - exact (eq_sym (Rplus_0_r _)).
    - etransitivity; [apply IH|]. cbn [cadd fst tadd RNum]. unfold cadd. cbn [tadd RNum fst].
      apply Rplus_assoc. }
  etransitivity; [apply G|]. exact (Rplus_0_l _).
Qed.

(** ** The oscillator *)
Section Run.
Variable src : Resampler RNum.
Variable cfg : Cfg.
Variable F : Filt RNum.
Hypothesis HB : (1 <= batch cfg)%nat.
Hypothesis HF : exactFilter F.
Notation dbg := (dbg cfg).
Notation n := (kNumCoeffs RNum F).

Lemma HFk : filtOk RNum F.
Proof.
  destruct HF as [A B Cc D]. constructor; [assumption|rewrite B, map_length; assumption|].
  rewrite Cc, map_length. assumption.
Qed.

Record tracks (st : Ideal) (o : Osc RNum) : Prop := {
  tr_ok : OscOk RNum LR F (id_K st) (id_nw st) o (id_tab st);
  tr_phase : o_phase o = id_phase st;
  tr_pd : o_pd o = id_step st;
  tr_mm : o_mm o = id_entry st;
  tr_wf : o_wf o = id_wf st;
  tr_y : o_y o = id_mem st;
  tr_well : wellFormed RNum (id_wfs st) (id_nw st) (id_K st);
  tr_tab : table src dbg (id_wfs st) (id_nw st) (id_tab st);
  tr_sharp : sharp (id_phase st)
}.

Lemma zAt_nz x : (x < n)%nat -> (zAt RNum cfg F x : C) <> RtoC 0 /\
  ezAt RNum cfg F x = cexp (zAt RNum cfg F x) /\ nth x (f_zp2 F) (c0 RNum) = (zAt RNum cfg F x * zAt RNum cfg F x)%C /\
  nth x (f_ez F) (c0 RNum) = cexp (zAt RNum cfg F x) /\ nth_error (f_z F) x = Some (zAt RNum cfg F x).
Proof.
  intros Hx. rewrite (zAt_F RNum cfg F HB HFk x Hx), (ezAt_F RNum cfg F HB HFk x Hx).
  destruct HF as [A B Cc D].
  assert (Hl : (x < length (f_z F))%nat) by (rewrite A; exact Hx).
  split.
  - rewrite List.Forall_forall in D. apply D. now apply nth_In.
  - assert (E1 : nth x (f_ez F) (c0 RNum) = cexp (nth x (f_z F) (c0 RNum))).
    { rewrite Cc. rewrite (nth_indep _ (c0 RNum) (cexp (c0 RNum))) by (rewrite map_length; exact Hl). apply map_nth. }
    split; [exact E1|]. split; [|split; [exact E1|]].
    + rewrite B. rewrite (nth_indep _ (c0 RNum) ((fun z : C => (z * z)%C) (c0 RNum))) by (rewrite map_length; exact Hl).
      apply (map_nth (fun z : C => (z * z)%C)).
    + now apply nth_error_nth'.
Qed.

(** memory after one sample, from the integral of every order *)
Lemma allPoles_nth (x : R -> R) ys k r z y :
  nth_error (f_r F) k = Some r -> nth_error (f_z F) k = Some z -> nth_error ys k = Some y ->
  nth_error (allPoles F x ys) k = Some (onePole r z x y).
Proof.
  intros H1 H2 H3. unfold allPoles.
  assert (G : forall A B (l : list A) (m : list B) j a b, nth_error l j = Some a -> nth_error m j = Some b ->
            nth_error (combine l m) j = Some (a, b)).
  { clear. induction l as [|a0 l IH]; intros [|b0 m] [|j] a b; cbn; intros; try discriminate; [congruence|]. eauto. }
  erewrite map_nth_error; [|apply G; [apply G; eassumption|eassumption]]. reflexivity.
Qed.

Lemma length_allPoles (x : R -> R) ys : length ys = n -> length (allPoles F x ys) = n.
Proof.
  intros H. unfold allPoles. rewrite map_length, !combine_length, H, (ef_z F HF).
  change (length (f_r F)) with n. lia.
Qed.

Lemma mem_exact (o : Osc RNum) (sig : R -> R) (iv : nat -> Num.C RNum) (y' : list (Num.C RNum)) :
  length (o_y o) = n -> length y' = n ->
  (forall x, (x < n)%nat -> exists I, is_int (zAt RNum cfg F x) sig 0 1 I /\
     iv x = (zAt RNum cfg F x * zAt RNum cfg F x * I)%C) ->
  (forall x, (x < n)%nat -> nth_error y' x = Some (yVal RNum F o iv x)) ->
  y' = allPoles F sig (o_y o).
Proof.
  intros Hy Hy' Hi Hv. apply nth_ext with (d := c0 RNum) (d' := c0 RNum).
  { rewrite Hy'. symmetry. now apply length_allPoles. }
  intros x Hx. rewrite Hy' in Hx.
  rewrite (nth_error_nth _ _ _ (Hv x Hx)). symmetry. apply nth_error_nth.
  destruct (zAt_nz x Hx) as (Z1 & Z2 & Z3 & Z4 & Z5). destruct (Hi x Hx) as (I & HI & EI).
  refine (eq_trans (allPoles_nth sig (o_y o) x (nth x (f_r F) (c0 RNum)) (zAt RNum cfg F x) (nth x (o_y o) (c0 RNum)) _ _ _) _).
  4:{ f_equal. unfold yVal, onePole. rewrite EI, Z3, Z4, (response_int _ _ _ HI). symmetry.
    exact (f_equal Some (yStep_R (zAt RNum cfg F x) _ _ I _ Z1 eq_refl)). }
  - apply nth_error_nth'. exact Hx.
  - exact Z5.
  - apply nth_error_nth'. now rewrite Hy.
Qed.

Lemma step_R dir (q p : R) : 0 <= q < 1 -> 0 <= p < 1 ->
  exists k, q + stepBetween RNum dir q p = p + IZR k.
Proof.
  intros Hq Hp. unfold stepBetween, t0, t1. cbn [tsub tadd tlt tofZ RNum].
  destruct dir.
  - destruct (Rlt_bool _ _); [exists 1%Z|exists 0%Z]; ring.
  - destruct (Rlt_bool _ _); [exists 1%Z; ring|]. destruct (Rlt_bool _ _); [exists (-1)%Z; ring|exists 0%Z; ring].
Qed.

(** what the two tables contain *)
Lemma entry_slot (st : Ideal) (o : Osc RNum) k : tracks st o -> (0 <= k <= id_K st - 2)%Z ->
  let ys := entry src st k in
  zlen ys = (2 ^ (id_K st - k))%Z /\ (4 <= zlen ys)%Z /\ slotOf (N := RNum) ys (slot RNum o (id_tab st) k).
Proof.
  intros Tr Hk ys.
  destruct (table_ok src dbg _ _ _ _ (tr_well _ _ Tr) (tr_tab _ _ Tr)) as (Ct & W & _).
  assert (Hwf := oo_wf _ _ _ _ _ _ _ (tr_ok _ _ Tr)).
  assert (Ewf := tr_wf _ _ Tr).
  destruct (slot_of RNum src _ _ _ _ (id_wf st) k Ct ltac:(lia) Hk) as (s & Es & S & Ls & _).
  fold (entry src st k) in S, Ls. fold ys in S, Ls.
  assert (Ls' : zlen ys = (2 ^ (id_K st - k))%Z) by exact Ls.
  split; [exact Ls'|]. split.
  - rewrite Ls'. apply (Z.pow_le_mono_r 2 2); lia.
  - unfold slot. rewrite Ewf, Es. exact S.
Qed.

Lemma half_le j t : (0 <= j)%Z -> IZR j <= t <= IZR j + 1 -> IZR (j / 2) <= t / 2 <= IZR (j / 2) + 1.
Proof.
  intros Hj H. assert (A := Z.div_mod j 2 ltac:(lia)). assert (B := Z.mod_pos_bound j 2 ltac:(lia)).
  assert (E : IZR j = 2 * IZR (j / 2) + IZR (j mod 2)) by (rewrite A at 1; rewrite plus_IZR, mult_IZR; ring).
  assert (0 <= IZR (j mod 2) <= 1) by (split; [apply (IZR_le 0)|apply (IZR_le _ 1)]; lia). lra.
Qed.
Lemma half_last len j : (2 <= len)%Z -> j = (2 * len - 1)%Z -> (j / 2 = len - 1)%Z.
Proof. intros H ->. symmetry. apply Z.div_unique with 1%Z; lia. Qed.
Lemma half_floor t len : 0 <= t -> (Zfloor (t * IZR (2 * len)) / 2)%Z = Zfloor (t * IZR len).
Proof.
  intros Ht. symmetry. apply Zfloor_imp. set (j := Zfloor (t * IZR (2 * len))).
  assert (F1 := Zfloor_lb (t * IZR (2 * len))). assert (F2 := Zfloor_ub (t * IZR (2 * len))). fold j in F1, F2.
  assert (A := Z.div_mod j 2 ltac:(lia)). assert (B := Z.mod_pos_bound j 2 ltac:(lia)).
  rewrite mult_IZR in *. rewrite plus_IZR.
  assert (E : IZR j = 2 * IZR (j / 2) + IZR (j mod 2)) by (rewrite A at 1; rewrite plus_IZR, mult_IZR; ring).
  assert (0 <= IZR (j mod 2) <= 1) by (split; [apply (IZR_le 0)|apply (IZR_le _ 1)]; lia). lra.
Qed.

Lemma mixed_int (st : Ideal) z q d m g mu gu I J :
  is_int z (fun u => wave (entry src st m) (q + d * u)) 0 1 I ->
  is_int z (fun u => wave (entry src st mu) (q + d * u)) 0 1 J ->
  is_int z (mixed src st q d (m, g, mu, gu)) 0 1 (RtoC g * I + RtoC gu * J)%C.
Proof. intros A B. exact (is_int_lin _ _ _ _ _ _ _ g gu A B). Qed.
Lemma single_int (st : Ideal) z q d m mu I :
  is_int z (fun u => wave (entry src st m) (q + d * u)) 0 1 I ->
  is_int z (mixed src st q d (m, 1, mu, 0)) 0 1 I.
Proof.
  intros A. eapply is_int_ext; [lra| |exact A]. intros u _. cbn. ring.
Qed.

Lemma sharp_playable p : sharp p -> okPhase RNum LR p /\ playable (val RNum LR p).
Proof. intros [H1 H2]. split; [split; [exact I|exact H1]|exact H2]. Qed.

Lemma sample_exact dir st p st' y (o : Osc RNum) : tracks st o -> sample src dbg F dir st p st' y ->
  exists o', processOne RNum cfg F dir o p = Ok (o', y) /\ tracks st' o'.
Proof.
  intros Tr Sm. destruct Sm as [d w' m g mu gu mem Hsh Hd Hd0 Hdr Hf Htr Hmem].
  set (K := id_K st) in *. set (nw := id_nw st) in *. set (w := id_tab st) in *.
  assert (HO := tr_ok _ _ Tr). fold K nw w in HO.
  destruct (table_ok src dbg _ _ _ _ (tr_well _ _ Tr) (tr_tab _ _ Tr)) as (Ct & W & CF).
  fold K nw w in Ct, W, CF.
  destruct (sharp_playable p Hsh) as [Hp _].
  destruct (sharp_playable _ (tr_sharp _ _ Tr)) as [Hq Hqp].
  assert (Eq : o_phred o = id_phase st) by (rewrite <- (oo_phase _ _ _ _ _ _ _ HO); apply (tr_phase _ _ Tr)).
  assert (Esel : processOne RNum cfg F dir o p =
     if Rle_bool 0 d then processSampleFwd RNum cfg F o w p d else processSampleBwd RNum cfg F o w p d).
  { unfold processOne. rewrite (oo_wt _ _ _ _ _ _ _ HO). rewrite (tr_phase _ _ Tr).
    destruct dir; cbn [stepBetween] in Hd; fold (stepFwd RNum p (id_phase st)) (stepBi RNum p (id_phase st)) in Hd.
    - rewrite <- Hd.
      assert (0 <= d).
      { rewrite Hd. destruct (fwd_spec RNum LR p (id_phase st) I I (proj2 Hp) (proj2 Hq)) as [_ A]. exact (proj1 A). }
      rewrite assert_ok.
      + cbn [bind]. rewrite Rle_bool_true by assumption. reflexivity.
      + intros _. unfold t0, tfrac. cbn [tlt tle tofZ tdiv RNum].
        rewrite Rlt_bool_true, Rle_bool_true by lra. reflexivity.
    - rewrite <- Hd. reflexivity. }
  assert (Hstep := step_R dir (id_phase st) p (proj2 Hq) (proj2 Hp)). rewrite <- Hd in Hstep.
  destruct (wtNext_ok RNum cfg K nw w (Rabs d) W CF) as (E1 & W1 & C1 & _ & _ & M1 & M2 & M3).
  { intros _. unfold t0. cbn [tlt tofZ RNum]. apply Rlt_bool_true. now apply Rabs_pos_lt. }
  change (dbg) with (Osc.dbg cfg) in Hf. rewrite E1 in Hf. rewrite mmiOf_eta in Hf.
  assert (Ew' : w' = wtNext RNum w (Rabs d)) by congruence.
  assert (Em : m = miOf RNum w (Rabs d)) by congruence.
  assert (Eg : g = gOf RNum w (Rabs d)) by congruence.
  assert (Emu : mu = muOf RNum w (Rabs d)) by congruence.
  assert (Egu : gu = guOf RNum w (Rabs d)) by congruence.
  destruct (gains_R w (Rabs d) CF) as [G1 G2].
  clear Hf. subst w' m g mu gu.
  set (mi := miOf RNum w (Rabs d)) in *. set (mu := muOf RNum w (Rabs d)) in *.
  set (g := gOf RNum w (Rabs d)) in *. set (gu := guOf RNum w (Rabs d)) in *.
  assert (Epd := tr_pd _ _ Tr). assert (Emm := tr_mm _ _ Tr).
  (* no out-of-bounds read *)
  assert (Hnt : ~ (trap RNum LR o /\ (mi < o_mm o)%Z)).
  { intros [[T1 T2] T3]. change (val RNum LR (o_pd o)) with (o_pd o : R) in T1. rewrite Epd in T1. rewrite Emm in T3.
    destruct Htr as [[H1 _]|[H1 H2]]; [lra|]. fold mi in H2.
    destruct H2 as [H2|[[H2 H3]|[H2 _]]]; [lia| |lia].
    assert (Hj := oo_jb _ _ _ _ _ _ _ HO). change (val RNum LR (o_pd o)) with (o_pd o : R) in Hj.
    rewrite Epd in Hj. specialize (Hj H1). rewrite T2 in Hj.
    assert (C0 := Zceil_ub (pos RNum LR K (o_mm o) (o_phred o))). rewrite <- Hj in C0.
    unfold pos in C0. change (val RNum LR (o_phred o)) with (o_phred o : R) in C0. rewrite Eq in C0.
    assert (Hm := oo_mm _ _ _ _ _ _ _ HO).
    assert (A := IZR_pow2_pos (K - o_mm o) ltac:(lia)).
    destruct Hq as [_ Hq]. change (val RNum LR (id_phase st)) with (id_phase st : R) in Hq.
    assert (0 < id_phase st * IZR (2 ^ (K - o_mm o))) by (apply Rmult_lt_0_compat; lra). lra. }
  assert (Hgm : goodMove RNum LR o mi).
  { unfold goodMove. change (val RNum LR (o_pd o)) with (o_pd o : R). rewrite Epd, Emm.
    destruct Htr as [[H1 H2]|[H1 H2]]; [left; auto|]. right. split; [assumption|].
    destruct H2 as [H2|[[H2 _]|[H2 H3]]]; [auto|auto|]. right; right. split; [lia|].
    assert (Hj := oo_jb _ _ _ _ _ _ _ HO). change (val RNum LR (o_pd o)) with (o_pd o : R) in Hj.
    rewrite Epd in Hj. rewrite (Hj H1). unfold pos. change (val RNum LR (o_phred o)) with (o_phred o : R).
    rewrite Eq, Emm. exact H3. }
  assert (Hlow := entry_slot st o mi Tr ltac:(fold K; lia)). cbv zeta in Hlow. fold K w in Hlow.
  destruct Hlow as (Ll & L4 & Sl).
  assert (Hup : gu <> 0 -> (mu = mi + 1 /\ mu < K - 1)%Z /\
     (zlen (entry src st mu) = 2 ^ (K - mu) /\ 4 <= zlen (entry src st mu))%Z /\
     slotOf (N := RNum) (entry src st mu) (slot RNum o w mu)).
  { intros Hg. assert (M4 : (mu < K - 1)%Z) by (destruct M3 as [M3|M3]; [assumption|now elim Hg]).
    specialize (G2 Hg). fold mi mu in G2. split; [auto|].
    destruct (entry_slot st o mu Tr ltac:(fold K; lia)) as (A & B & Cc). auto. }
  assert (Hq' := proj2 Hq). assert (Hp' := proj2 Hp).
  change (val RNum LR (id_phase st)) with (id_phase st : R) in Hq'. change (val RNum LR p) with (p : R) in Hp'.
  assert (Fin : forall iv o' out, Stepped RNum F LR K nw o w (Rabs d) p d iv o' out ->
     (forall x, (x < n)%nat -> exists I, is_int (zAt RNum cfg F x) (mixed src st (id_phase st) d (mi, g, mu, gu)) 0 1 I /\
        iv x = (zAt RNum cfg F x * zAt RNum cfg F x * I)%C) ->
     out = audible mem /\ tracks (mkIdeal K nw (id_wfs st) (wtNext RNum w (Rabs d)) (id_wf st) p d mi mem) o').
  { intros iv o' out S Hiv.
    assert (Ey : o_y o' = mem).
    { rewrite Hmem, <- (tr_y _ _ Tr).
      apply (mem_exact o _ iv); auto.
      - apply (oo_y _ _ _ _ _ _ _ HO).
      - apply (oo_y _ _ _ _ _ _ _ (sp_ok _ _ _ _ _ _ _ _ _ _ _ _ _ S)).
      - apply (sp_y _ _ _ _ _ _ _ _ _ _ _ _ _ S). }
    split.
    - rewrite (sp_out _ _ _ _ _ _ _ _ _ _ _ _ _ S), Ey. apply audible_R.
    - constructor; cbn [id_K id_nw id_wfs id_tab id_wf id_phase id_step id_entry id_mem]; auto.
      + exact (sp_ok _ _ _ _ _ _ _ _ _ _ _ _ _ S).
      + exact (sp_phase _ _ _ _ _ _ _ _ _ _ _ _ _ S).
      + exact (sp_pd _ _ _ _ _ _ _ _ _ _ _ _ _ S).
      + exact (sp_mm _ _ _ _ _ _ _ _ _ _ _ _ _ S).
      + rewrite (sp_wf _ _ _ _ _ _ _ _ _ _ _ _ _ S). apply (tr_wf _ _ Tr).
      + apply (tr_well _ _ Tr).
      + exact (t_ask _ _ _ _ _ _ _ _ (tr_tab _ _ Tr) (Rabs_pos_lt d Hd0) E1). }
  rewrite Esel. destruct (Rle_bool_spec 0 d) as [Hpos|Hneg].
  - assert (Hab : Rabs d = d) by (apply Rabs_pos_eq; assumption). subst mi mu g gu. rewrite Hab in *.
    set (mi := miOf RNum w d) in *. set (mu := muOf RNum w d) in *.
    set (g := gOf RNum w d) in *. set (gu := guOf RNum w d) in *.
    destruct (processSampleFwd_ok RNum cfg F LR HB HFk K nw o w HO p d Hp I Hpos ltac:(intros _; cbn; lra) Hnt)
      as (o' & out & jmin & E & S & Hjm & Hst & _).
    specialize (Hst ltac:(rewrite Eq; exact Hqp) (or_introl Hgm)).
    fold mi in Hjm, Hst, S.
    change (val RNum LR (o_phred o)) with (o_phred o : R) in Hst. unfold startAt, pos in Hst, S.
    change (val RNum LR (o_phred o)) with (o_phred o : R) in Hst, S.
    change (val RNum LR p) with (p : R) in S. rewrite Eq in Hst.
    destruct (Fin _ _ _ S) as [-> Tr'].
    2:{ exists o'. split; [exact E|exact Tr']. }
    intros x Hx. destruct (zAt_nz x Hx) as (_ & Zez & _).
    unfold ivF. fold mi mu g gu. unfold t0. cbn [teq tofZ RNum]. rewrite Eq.
    destruct (fwd_exact cfg F HB x Zez (entry src st mi) (slot RNum o w mi) L4 Sl (id_phase st) p d jmin
                (Zfloor (p * IZR (2 ^ (K - mi)))) Hq' Hp' ltac:(lra) Hstep) as (I1 & A1 & B1).
    { rewrite Ll. exact Hjm. }
    { rewrite Ll. exact Hst. }
    { rewrite Ll. reflexivity. }
    rewrite Ll in B1. rewrite B1.
    destruct (Req_bool_spec gu 0) as [Hg|Hg].
    + exists I1. split; [|reflexivity].
      change (mi, g, mu, gu) with (mi, g, mu, gu) in *. rewrite Hg, (G1 Hg). now apply single_int.
    + destruct (Hup Hg) as ((U1 & U2) & (U3 & U4) & U5).
      assert (Hh : (2 ^ (K - mi) = 2 * 2 ^ (K - mu))%Z) by (rewrite U1; apply len_half; lia).
      destruct (fwd_exact cfg F HB x Zez (entry src st mu) (slot RNum o w mu) U4 U5 (id_phase st) p d (jmin / 2)%Z
                (Zfloor (p * IZR (2 ^ (K - mi))) / 2)%Z Hq' Hp' ltac:(lra) Hstep) as (I2 & A2 & B2).
      { rewrite U3. rewrite Hh in Hjm. split; [apply Z.div_pos; lia|apply Z.div_lt_upper_bound; lia]. }
      { rewrite U3. rewrite Hh in Hst, Hjm. destruct (Req_bool (id_phase st) 0).
        - apply half_last; [rewrite <- U3; lia|exact Hst].
        - assert (A := half_le jmin _ ltac:(lia) Hst). rewrite mult_IZR in A.
          replace (id_phase st * (2 * IZR (2 ^ (K - mu))) / 2) with (id_phase st * IZR (2 ^ (K - mu))) in A by field.
          exact A. }
      { rewrite U3, Hh. apply half_floor. lra. }
      rewrite U3 in B2. rewrite B2.
      exists (RtoC g * I1 + RtoC gu * I2)%C. split; [now apply mixed_int|].
      unfold mixVal, caddx, tdotp. cbn [tfuse Z.eqb tadd tmul RNum].
      destruct (zAt RNum cfg F x) as [z1 z2], I1 as [a1 a2], I2 as [b1 b2]. cx; cbn [fst snd]; ring.
  - assert (Hab : Rabs d = tabs RNum d) by reflexivity.
    destruct (processSampleBwd_ok RNum cfg F LR HB HFk K nw o w HO p d Hp I Hneg ltac:(intros _; cbn; lra) Hnt)
      as (o' & out & jmax & E & S & Hjm & Hst).
    change (tabs RNum d) with (Rabs d) in *. fold mi in Hjm, Hst, S.
    specialize (Hst ltac:(rewrite Eq; exact Hqp) Hgm).
    unfold startAt, pos in Hst, S.
    change (val RNum LR (o_phred o)) with (o_phred o : R) in Hst, S.
    change (val RNum LR p) with (p : R) in S. rewrite Eq in Hst.
    destruct (Fin _ _ _ S) as [-> Tr'].
    2:{ exists o'. split; [exact E|exact Tr']. }
    set (jm := Zceil (p * IZR (2 ^ (K - mi)))) in *.
    set (jmin := ((jm - 1) mod 2 ^ (K - mi))%Z) in *.
    assert (Hlen : (4 <= 2 ^ (K - mi))%Z) by (rewrite <- Ll; exact L4).
    assert (HlenR : 0 < IZR (2 ^ (K - mi))) by (apply IZR_lt; lia).
    assert (Hc1 := Zceil_ub (p * IZR (2 ^ (K - mi)))). assert (Hc2 := Zceil_lb (p * IZR (2 ^ (K - mi)))).
    fold jm in Hc1, Hc2.
    assert (Hj0 : (jm =? 0)%Z = Req_bool p 0 /\ (0 <= jmin < 2 ^ (K - mi))%Z /\
       (if Req_bool p 0 then jmin = (2 ^ (K - mi) - 1)%Z
        else IZR jmin <= p * IZR (2 ^ (K - mi)) <= IZR jmin + 1)).
    { split; [|split; [apply Z.mod_pos_bound; lia|]].
      - destruct (Req_bool_spec p 0) as [Hp0|Hp0].
        + unfold jm. rewrite Hp0, Rmult_0_l. change 0 with (IZR 0). rewrite Zceil_IZR. reflexivity.
        + apply Z.eqb_neq. intros H. rewrite H in Hc1.
          assert (0 < p * IZR (2 ^ (K - mi))) by (apply Rmult_lt_0_compat; lra). lra.
      - unfold jmin. destruct (Req_bool_spec p 0) as [Hp0|Hp0].
        + assert (Ej : jm = 0%Z) by (unfold jm; rewrite Hp0, Rmult_0_l; exact (Zceil_IZR 0)).
          rewrite Ej. symmetry. apply (Z.mod_unique_pos _ _ (-1)); lia.
        + assert (0 < p * IZR (2 ^ (K - mi))) by (apply Rmult_lt_0_compat; lra).
          assert (p * IZR (2 ^ (K - mi)) < IZR (2 ^ (K - mi))) by nra.
          assert (0 < jm)%Z by (apply lt_IZR; lra).
          assert (jm <= 2 ^ (K - mi))%Z by (unfold jm; apply Zceil_glb; lra).
          rewrite Z.mod_small by lia. rewrite minus_IZR. lra. }
    destruct Hj0 as (Hz & Hjn & Hen).
    intros x Hx. destruct (zAt_nz x Hx) as (_ & Zez & _).
    unfold ivB. change (tabs RNum d) with (Rabs d). fold mi mu g gu. unfold t0. cbn [teq tofZ RNum]. rewrite Eq.
    destruct (bwd_exact cfg F HB x Zez (entry src st mi) (slot RNum o w mi) L4 Sl (id_phase st) p d jm jmin jmax
                 Hq' Hp' ltac:(lra) Hstep) as (I1 & A1 & B1).
    { rewrite Ll. exact Hjm. }
    { rewrite Ll. exact Hst. }
    { rewrite Ll. exact Hjn. }
    { rewrite Ll. exact Hen. }
    { exact Hz. }
    rewrite Ll in B1. rewrite B1.
    destruct (Req_bool_spec gu 0) as [Hg|Hg].
    + exists I1. split; [|reflexivity].
      rewrite Hg, (G1 Hg). now apply single_int.
    + destruct (Hup Hg) as ((U1 & U2) & (U3 & U4) & U5).
      assert (Hh : (2 ^ (K - mi) = 2 * 2 ^ (K - mu))%Z) by (rewrite U1; apply len_half; lia).
      destruct (bwd_exact cfg F HB x Zez (entry src st mu) (slot RNum o w mu) U4 U5 (id_phase st) p d jm (jmin / 2)%Z
                (jmax / 2)%Z Hq' Hp' ltac:(lra) Hstep) as (I2 & A2 & B2).
      { rewrite U3. rewrite Hh in Hjm. split; [apply Z.div_pos; lia|apply Z.div_lt_upper_bound; lia]. }
      { rewrite U3. rewrite Hh in Hst, Hjm.
        assert (A := half_le jmax _ ltac:(lia) Hst). rewrite mult_IZR in A.
        replace (id_phase st * (2 * IZR (2 ^ (K - mu))) / 2) with (id_phase st * IZR (2 ^ (K - mu))) in A by field.
        exact A. }
      { rewrite U3. rewrite Hh in Hjn. split; [apply Z.div_pos; lia|apply Z.div_lt_upper_bound; lia]. }
      { rewrite U3. rewrite Hh in Hen, Hjn. destruct (Req_bool p 0).
        - apply half_last; [rewrite <- U3; lia|exact Hen].
        - assert (A := half_le jmin _ ltac:(lia) Hen). rewrite mult_IZR in A.
          replace (p * (2 * IZR (2 ^ (K - mu))) / 2) with (p * IZR (2 ^ (K - mu))) in A by field.
          exact A. }
      { exact Hz. }
      rewrite U3 in B2. rewrite B2.
      exists (RtoC g * I1 + RtoC gu * I2)%C. split; [now apply mixed_int|].
      unfold mixVal, caddx, tdotp. cbn [tfuse Z.eqb tadd tmul RNum].
      destruct (zAt RNum cfg F x) as [z1 z2], I1 as [a1 a2], I2 as [b1 b2]. cx; cbn [fst snd]; ring.
Qed.
End Run.
