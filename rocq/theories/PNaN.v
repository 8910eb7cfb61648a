(** * PNaN: lemmas behind C39 and C40 -- repeated phases and NaN *)
From Coq Require Import ZArith List Bool Reals Lia Lra Arith Permutation.
From Flocq Require Import Core IEEE754.BinarySingleNaN.
From Verif Require Import Num Maths CrossFader Wavetable Filters Osc Spec NumFacts Laws B32 B32Facts
  B32Laws B32Pow SpecF SpecO SpecC SpecN CFFacts WTFacts BuildFacts SimdFacts OscFacts OscStep OscRun OscHist CFHist PCross PBuild
  PHist PLoop.
Import ListNotations.
Local Open Scope Z_scope.

Lemma nan_add (x y : f32) : x = nan \/ y = nan -> fadd x y = nan.
Proof. intros [-> | ->]; [|destruct x as [[]|[]| |]]; destruct y || idtac; reflexivity. Qed.
Lemma nan_sub (x y : f32) : x = nan \/ y = nan -> fsub x y = nan.
Proof. intros [-> | ->]; [|destruct x as [[]|[]| |]]; destruct y || idtac; reflexivity. Qed.
Lemma nan_mul (x y : f32) : x = nan \/ y = nan -> fmul x y = nan.
Proof. intros [-> | ->]; [|destruct x as [[]|[]| |]]; destruct y || idtac; reflexivity. Qed.
Lemma nan_div (x y : f32) : x = nan \/ y = nan -> fdiv x y = nan.
Proof. intros [-> | ->]; [|destruct x as [[]|[]| |]]; destruct y || idtac; reflexivity. Qed.

Lemma nan_quo lm s (x y : f32) : x = nan \/ y = nan -> tquo (B32 lm) s x y = nan.
Proof.
  intros H. cbn [tquo B32]. unfold f32_quo. destruct (lm_recip lm s); [|now apply nan_div].
  destruct H as [-> | ->]; [destruct (Bdiv _ _ _) as [[]|[]| |]; reflexivity|]. apply nan_mul. right. apply nan_div. now right.
Qed.
Lemma nan_xfma b (x y z : f32) : x = nan \/ y = nan \/ z = nan -> f32_xfma b x y z = nan.
Proof.
  unfold f32_xfma. destruct b; intros H.
  - destruct H as [-> | [-> | ->]]; [|destruct x as [[]|[]| |]|destruct x as [[]|[]| |], y as [[]|[]| |]]; reflexivity.
  - apply nan_add. destruct H as [H|[H|H]]; [left|left|now right]; apply nan_mul; auto.
Qed.
Lemma nan_xfms b (x y z : f32) : x = nan \/ y = nan \/ z = nan -> f32_xfms b x y z = nan.
Proof.
  intros H. unfold f32_xfms. destruct b.
  - apply (nan_xfma true). destruct H as [H|[H|H]]; auto. right. right. now rewrite H.
  - apply nan_sub. destruct H as [H|[H|H]]; [left|left|now right]; apply nan_mul; auto.
Qed.

Lemma nan_fma (x y z : f32) : x = nan \/ y = nan \/ z = nan -> @Bfma 24 128 p32 e32 mode_NE x y z = nan.
Proof. exact (nan_xfma true x y z). Qed.
Lemma nan_opp (x : f32) : x = nan -> Bopp x = nan.
Proof. intros ->. reflexivity. Qed.

Section NaN.
Variable lm : Libm.
Notation N := (B32 lm).

(** sums with products, whatever the compiler fuses *)
Lemma nan_tdotp s (a b c d : f32) : a = nan \/ b = nan \/ c = nan \/ d = nan -> tdotp N s a b c d = nan.
Proof.
  intros H. unfold tdotp. cbn [tfuse tfma tadd tmul B32].
  assert (M : fmul a b = nan \/ fmul c d = nan).
  { destruct H as [H|[H|[H|H]]]; [left|left|right|right]; apply nan_mul; auto. }
  destruct (_ =? 0); [|destruct (_ =? 1)].
  - now apply nan_add.
  - apply nan_fma. destruct H as [H|[H|[H|H]]]; auto; right; right; apply nan_mul; auto.
  - apply nan_fma. destruct H as [H|[H|[H|H]]]; auto; right; right; apply nan_mul; auto.
Qed.
Lemma nan_tdotm s (a b c d : f32) : a = nan \/ b = nan \/ c = nan \/ d = nan -> tdotm N s a b c d = nan.
Proof.
  intros H. unfold tdotm. cbn [tfuse tfma tsub topp tmul B32].
  destruct (_ =? 0); [|destruct (_ =? 1)].
  - apply nan_sub. destruct H as [H|[H|[H|H]]]; [left|left|right|right]; apply nan_mul; auto.
  - apply nan_fma. destruct H as [H|[H|[H|H]]]; auto; right; right; apply nan_opp, nan_mul; auto.
  - apply nan_fma. destruct H as [H|[H|[H|H]]]; auto.
    + right; right; apply nan_mul; auto.
    + right; right; apply nan_mul; auto.
    + left. now apply nan_opp.
Qed.
Lemma nan_tmad s (x y z : f32) : x = nan \/ y = nan \/ z = nan -> tmad N s x y z = nan.
Proof.
  intros H. unfold tmad. cbn [tfuse tfma tadd tmul B32]. destruct (_ =? 0); [|now apply nan_fma].
  apply nan_add. destruct H as [H|[H|H]]; [left|left|now right]; apply nan_mul; auto.
Qed.
Lemma nan_tnmad s (x y z : f32) : x = nan \/ y = nan \/ z = nan -> tnmad N s x y z = nan.
Proof.
  intros H. unfold tnmad. cbn [tfuse tfma tsub topp tmul B32]. destruct (_ =? 0).
  - apply nan_sub. destruct H as [H|[H|H]]; [right|right|now left]; apply nan_mul; auto.
  - apply nan_fma. destruct H as [H|[H|H]]; auto. left. now apply nan_opp.
Qed.

Lemma cxmul_bc_nan (a : C N) : cxmul N a (cbc N nan) = (nan, nan).
Proof.
  unfold cxmul, cbc. cbn [fst snd txfma txfms tmul B32]. f_equal; [apply nan_xfms|apply nan_xfma]; auto.
  right. right. apply nan_mul. auto.
Qed.
Lemma cfma_nan (y z : C N) : cfma N (nan, nan) y z = (nan, nan).
Proof. unfold cfma. cbn [fst snd txfma txfms B32]. f_equal; [apply nan_xfms|apply nan_xfma]; auto. Qed.
Lemma cfnma_nan (y z : C N) : cfnma N (nan, nan) y z = (nan, nan).
Proof.
  unfold cfnma. cbn [fst snd txfma txfms topp B32].
  rewrite nan_xfms by auto. rewrite (nan_xfma (lm_fused lm) nan (snd y)) by auto. reflexivity.
Qed.

Lemma cmul_nan s (a b : C N) : nanC a \/ nanC b -> cmul N s a b = (nan, nan).
Proof.
  intros H. destruct a as [a1 a2], b as [b1 b2]. unfold cmul, nanC in *. cbn [fst snd] in *.
  f_equal; [apply nan_tdotm|apply nan_tdotp]; tauto.
Qed.
Lemma cadd_nan (a b : C N) : a = (nan, nan) \/ b = (nan, nan) -> cadd N a b = (nan, nan).
Proof. intros [-> | ->]; unfold cadd; f_equal; apply nan_add; cbn; auto. Qed.
Lemma csub_nan (a b : C N) : a = (nan, nan) \/ b = (nan, nan) -> csub N a b = (nan, nan).
Proof. intros [-> | ->]; unfold csub; f_equal; apply nan_sub; cbn; auto. Qed.
Lemma cscale_nan (a : C N) s : a = (nan, nan) \/ s = nan -> cscale N a s = (nan, nan).
Proof. intros [-> | ->]; unfold cscale; f_equal; apply nan_mul; cbn; auto. Qed.
Lemma cdiv_nan s (a b : C N) : nanC a -> cdiv N s a b = (nan, nan).
Proof.
  intros H. destruct a as [a1 a2], b as [b1 b2]. unfold cdiv, nanC in *. cbn [fst snd] in *.
  f_equal; apply nan_quo; left; [apply nan_tdotp|apply nan_tdotm]; tauto.
Qed.

Lemma yStep_nan y r p e i : nanC y -> yStep N y r p e i = (nan, nan).
Proof. intros H. unfold yStep. apply cadd_nan. left. apply cmul_nan. now right. Qed.
Lemma yStep_nan_i y r p e i : nanC i -> yStep N y r p e i = (nan, nan).
Proof.
  intros H. unfold yStep. apply cadd_nan. right. apply cmul_nan. right. rewrite cdiv_nan by assumption. now left.
Qed.

Lemma fold_cadd_nan l : forall a : C N, fst a = nan -> fst (fold_left (cadd N) l a) = nan.
Proof. induction l as [|c l IH]; intros a H; [assumption|]. cbn [fold_left]. apply IH. cbn. apply nan_add. auto. Qed.
Lemma yOut_nan (y : list (C N)) c : In c y -> fst c = nan -> yOut N y = nan.
Proof.
  intros Hi Hc. unfold yOut. destruct (addsUp _ _) eqn:A.
  { apply addsUp_perm in A. apply In_nth_error in Hi. destruct Hi as [k Hk].
    assert (Hk1 : (k < length y)%nat) by (apply nth_error_Some; congruence).
    assert (Hin : In k (leaves (torder N (length y)))).
    { apply (Permutation_in k A), in_seq. lia. }
    revert Hin. generalize (torder N (length y)). intros t.
    induction t as [i|a IHa b IHb]; cbn [leaves treeSum In]; intros Hin.
    - destruct Hin as [->|[]]. rewrite (nth_error_nth (map fst y) k (t0 N) (map_nth_error fst k y Hk)). exact Hc.
    - apply nan_add. apply in_app_or in Hin. destruct Hin as [Hin|Hin]; [left; now apply IHa|right; now apply IHb]. }
  clear A. generalize (c0 N). induction y as [|d y IH]; intros a; [contradiction|].
  cbn [fold_left]. destruct Hi as [->|Hi].
  - apply fold_cadd_nan. cbn. apply nan_add. auto.
  - now apply IH.
Qed.

(** ** C39: a repeated phase in a debug build *)
Section Repeat.
Variable cfg : Cfg.
Variable F : Filt N.

Lemma step_zero dir (p q : f32) : is_finite p = true -> is_finite q = true -> B2R p = B2R q ->
  exists s, step32 lm dir q p = B754_zero s.
Proof.
  intros Hp Hq E.
  assert (A : exists s, fsub p q = B754_zero s).
  { destruct (sub32 p q Hp Hq) as (B1 & B2 & _).
    { rewrite E. replace (B2R q - B2R q)%R with 0%R by ring. apply small32_1. lra. }
    rewrite E in B2. replace (B2R q - B2R q)%R with 0%R in B2 by ring.
    rewrite round_0 in B2 by apply valid_rnd_N.
    destruct (fsub p q) as [s| | |s m e b]; try discriminate; [eauto|].
    exfalso. unfold B2R in B2. destruct s.
    - assert (F2R (Float radix2 (cond_Zopp true (Zpos m)) e) < 0)%R by (apply F2R_lt_0; reflexivity). lra.
    - assert (0 < F2R (Float radix2 (cond_Zopp false (Zpos m)) e))%R by (apply F2R_gt_0; reflexivity). lra. }
  destruct A as (s & A).
  exists s. destruct dir; cbn [step32]; unfold stepFwd, stepBi; cbn [tsub B32]; rewrite A; cbn [tlt B32].
  - destruct s; reflexivity.
  - destruct s; reflexivity.
Qed.

Lemma repeat_asserts dir (o : Osc N) (p : f32) : dbg cfg = true -> o_wt o <> None ->
  is_finite p = true -> is_finite (o_phase o : f32) = true -> B2R p = B2R (o_phase o : f32) ->
  processOne N cfg F dir o p = Fault AssertFail.
Proof.
  intros D Hw Hp Hq E. unfold processOne. destruct (o_wt o) as [w|]; [|contradiction].
  destruct (step_zero dir p (o_phase o) Hp Hq E) as (s & Ez).
  destruct dir; cbn [step32] in Ez; rewrite Ez.
  - unfold assert_. rewrite D. destruct s; reflexivity.
  - replace (tle N (t0 N) (B754_zero s : f32)) with true by (destruct s; reflexivity).
    unfold processSampleFwd, idxFwd, assert_. rewrite D. destruct s; reflexivity.
Qed.

Lemma repeat_block dir (o : Osc N) (ps qs : list (T N)) (p : T N) out : dbg cfg = true -> o_wt o <> None ->
  is_finite (p : f32) = true -> length out = length (ps ++ p :: p :: qs) ->
  is_ok (process N cfg F dir o (ps ++ p :: p :: qs) out) = false /\
  (forall out1, length out1 = length (ps ++ [p]) -> is_ok (process N cfg F dir o (ps ++ [p]) out1) = true ->
     process N cfg F dir o (ps ++ p :: p :: qs) out = Fault AssertFail).
Proof.
  intros D Hw Hp Hl.
  assert (Split : forall out1 out2, length out1 = length (ps ++ [p]) -> length out2 = length (p :: qs) ->
    forall o1 ys, process N cfg F dir o (ps ++ [p]) out1 = Ok (o1, ys) ->
    process N cfg F dir o1 (p :: qs) out2 = Fault AssertFail).
  { intros out1 out2 H1 H2 o1 ys E.
    assert (E' := E). unfold process in E'. apply bind_ok in E'. destruct E' as ([] & _ & E'). apply bind_ok in E'. destruct E' as ([] & _ & E').
    destruct (loop_shape N cfg F dir _ _ _ _ _ E' H1) as (_ & A & _ & _ & C).
    destruct (o_wt o) as [w|] eqn:Ew; [|contradiction]. destruct (C w eq_refl) as (w' & Cw & _).
    rewrite last_last in A.
    unfold process. rewrite Cw. cbn [is_some]. rewrite assert_ok by reflexivity. cbn [bind].
    rewrite (zlen_eqb _ _ (p :: qs) out2) by lia. rewrite assert_ok by reflexivity. cbn [bind].
    destruct out2 as [|z out2]; [discriminate|]. cbn [processLoop].
    rewrite (repeat_asserts dir o1 p); auto; rewrite ?A; auto; congruence. }
  assert (Ea : ps ++ p :: p :: qs = (ps ++ [p]) ++ p :: qs) by now rewrite <- app_assoc.
  set (k := length (ps ++ [p])).
  assert (Ll : length out = (k + length (p :: qs))%nat) by (unfold k; rewrite Hl, Ea, app_length; reflexivity).
  assert (Eo : out = firstn k out ++ skipn k out) by now rewrite firstn_skipn.
  assert (L1 : length (firstn k out) = length (ps ++ [p])) by (rewrite firstn_length; fold k; change (length (ps ++ [p])) with k; lia).
  assert (L2 : length (skipn k out) = length (p :: qs)).
  { rewrite skipn_length. change (length (p :: qs)) with (length (p :: qs)). lia. }
  assert (Pa := process_app N cfg F dir o (ps ++ [p]) (p :: qs) _ _ L1 L2). rewrite <- Eo in Pa.
  split.
  - rewrite Ea, Pa. destruct (process N cfg F dir o (ps ++ [p]) (firstn k out)) as [[o1 ya]|f] eqn:E1; [|reflexivity].
    cbn [bind]. rewrite (Split _ _ L1 L2 o1 ya E1). reflexivity.
  - intros out1 H1 Hok.
    assert (Same : is_ok (process N cfg F dir o (ps ++ [p]) (firstn k out)) = true).
    { destruct (process N cfg F dir o (ps ++ [p]) out1) as [[o1 ya]|f] eqn:E1; [|discriminate].
      unfold process in *. apply bind_ok in E1. destruct E1 as ([] & A1 & E1). rewrite A1. cbn [bind].
      rewrite (zlen_eqb _ _ (ps ++ [p]) (firstn k out)) by lia. rewrite assert_ok by reflexivity. cbn [bind].
      apply bind_ok in E1. destruct E1 as ([] & _ & E1).
      assert (Irr : forall l o a b, length a = length l -> length b = length l -> 
         processLoop N cfg F dir o l a = processLoop N cfg F dir o l b).
      { induction l as [|x l IH]; intros o2 [|x1 a] [|x2 b] Ha Hb; try discriminate; [reflexivity|].
        cbn [processLoop]. destruct (processOne N cfg F dir o2 x) as [[o3 y]|]; [|reflexivity]. cbn [bind].
        rewrite (IH o3 a b); auto. }
      rewrite (Irr _ o _ out1 L1 H1), E1. reflexivity. }
    rewrite Ea, Pa. destruct (process N cfg F dir o (ps ++ [p]) (firstn k out)) as [[o1 ya]|f] eqn:E1; [|discriminate].
    cbn [bind]. rewrite (Split _ _ L1 L2 o1 ya E1). reflexivity.
Qed.
End Repeat.

(** ** C39, release build: phase 0 given again *)
Hypothesis Hlog : log2_exact lm.
Notation L := (B32_Laws lm Hlog).
Variable cfg : Cfg.
Variable F : Filt N.
Hypothesis HB : (1 <= batch cfg)%nat.
Hypothesis HF : filtOk N F.

Lemma sumU_nan fwd bar len s pd x v i : nanExp lm ->
  tquo N (quoSite fwd) (tsub N (bar (i mod len)) (tdiv N (tofZ N (i mod len + 1)) (tofZ N len))) pd = nan ->
  sumU N cfg F fwd bar len s pd x v i = (nan, nan).
Proof.
  intros [E1 E2] Ha. unfold sumU. rewrite Ha. destruct (laneOf N cfg F x).
  - unfold sum_lane_upd, sum_lane. set (zz := zAt N cfg F x).
    rewrite (cxmul_bc_nan zz). cbn [txexp B32]. rewrite E2.
    destruct fwd; [apply cfma_nan|apply cfnma_nan].
  - unfold sum_scalar_upd. set (zz := zAt N cfg F x).
    rewrite (cscale_nan zz nan) by now right. cbn [tcexp B32]. rewrite E1.
    match goal with |- context [cmul N 23 (nan, nan) ?t] =>
      assert (Em : cmul N 23 (nan, nan) t = (nan, nan)) by (apply cmul_nan; left; left; reflexivity); rewrite Em end.
    destruct fwd; [apply cadd_nan|apply csub_nan]; auto.
Qed.

Lemma zero_of (x : f32) : is_finite x = true -> B2R x = 0%R -> exists s, x = B754_zero s.
Proof.
  intros Hf H. destruct x as [s| | |s m e b]; try discriminate; [eauto|].
  exfalso. unfold B2R in H. destruct s.
  - assert (F2R (Float radix2 (cond_Zopp true (Zpos m)) e) < 0)%R by (apply F2R_lt_0; reflexivity). lra.
  - assert (0 < F2R (Float radix2 (cond_Zopp false (Zpos m)) e))%R by (apply F2R_gt_0; reflexivity). lra.
Qed.

Lemma one_of (x : f32) : is_finite x = true -> B2R x = 1%R -> x = f32_ofZ 1.
Proof.
  intros Hf H. destruct (ofZ32 1 ltac:(lia)) as [O1 O2].
  apply B2R_inj.
  - destruct x; try discriminate; auto. cbn in H. lra.
  - reflexivity.
  - now rewrite H, O2.
Qed.

(** every filter state NaN *)
Definition allNan (o : Osc N) : Prop := length (o_y o) = kNumCoeffs N F /\ forall c, In c (o_y o) -> c = (nan, nan).

Lemma zero_again K nw o w dir (p : f32) o' y : nanExp lm -> dbg cfg = false -> OscOk N L F K nw o w ->
  B2R (o_phred o : f32) = 0%R -> is_finite p = true -> B2R p = 0%R ->
  processOne N cfg F dir o p = Ok (o', y) -> allNan o'.
Proof.
  intros He D HO HP Hf Hz E.
  assert (Hph : okPhase N L p) by (split; [exact Hf|change (0 <= B2R p < 1)%R; lra]).
  assert (Hq := proj1 (oo_phred _ _ _ _ _ _ _ HO)). 
  assert (Ep := oo_phase _ _ _ _ _ _ _ HO).
  destruct (step_zero dir p (o_phred o) Hf Hq ltac:(now rewrite HP)) as (s & Es).
  assert (E' : processSampleFwd N cfg F o w p (B754_zero s : f32) = Ok (o', y)).
  { unfold processOne in E. rewrite (oo_wt _ _ _ _ _ _ _ HO) in E. rewrite Ep in E. destruct dir; cbn [step32] in Es; rewrite Es in E.
    - apply bind_ok in E. destruct E as (u & _ & E). exact E.
    - replace (tle N (t0 N) (B754_zero s : f32)) with true in E by (destruct s; reflexivity). exact E. }
  clear E Es. set (pd := B754_zero s : f32) in *.
  destruct (Bool.bool_dec (Rle_bool (val N L (o_pd o)) 0 && (o_j o =? 0) && (miOf N w pd <? o_mm o)) true) as [Et|Et].
  { apply andb_prop in Et. destruct Et as [Et E3]. apply andb_prop in Et. destruct Et as [E1 E2].
    rewrite (idxFwd_trap N cfg F L HB K nw o w HO p pd) in E'; auto; try discriminate.
    - reflexivity.
    - change (0 <= B2R pd)%R. cbn. lra.
    - rewrite D; discriminate.
    - split; [|now apply Z.eqb_eq]. destruct (Rle_bool_spec (val N L (o_pd o)) 0); [assumption|discriminate].
    - now apply Z.ltb_lt. }
  assert (Hnt : ~ (trap N L o /\ miOf N w pd < o_mm o)).
  { intros [[T1 T2] T3]. apply Et. rewrite Rle_bool_true by assumption. rewrite T2. cbn. now apply Z.ltb_lt. }
  destruct (processSampleFwd_ok N cfg F L HB HF K nw o w HO p pd Hph eq_refl) as (o2 & out & jmin & E2 & St & Hj & _ & Hl); auto.
  { change (0 <= B2R pd)%R. cbn. lra. }
  { rewrite D; discriminate. }
  cbv zeta in E2, St. rewrite E' in E2. inversion E2; subst o2 out. clear E2.
  specialize (Hl HP).
  set (mi := miOf N w pd) in *.
  assert (Hmi : 0 <= mi < K - 1).
  { assert (A := oo_mm _ _ _ _ _ _ _ (sp_ok _ _ _ _ _ _ _ _ _ _ _ _ _ St)).
    rewrite (sp_mm _ _ _ _ _ _ _ _ _ _ _ _ _ St) in A. exact A. }
  assert (HK := K_range N L F K nw o w HO).
  assert (Hlen := len_pos N K nw w mi (oo_W _ _ _ _ _ _ _ HO) Hmi).
  assert (Hjm : Zfloor (pos N L K mi p) = 0).
  { unfold pos. change (val N L p) with (B2R p). rewrite Hz, Rmult_0_l. apply (Zfloor_IZR 0). }
  rewrite Hjm in St.
  destruct (zero_of p Hf Hz) as (sp & Esp).
  assert (Yl := oo_y _ _ _ _ _ _ _ (sp_ok _ _ _ _ _ _ _ _ _ _ _ _ _ St)).
  split; [exact Yl|].
  intros c Hc. apply In_nth_error in Hc. destruct Hc as (x & Hx).
  assert (Hxn : (x < kNumCoeffs N F)%nat) by (rewrite <- Yl; apply nth_error_Some; rewrite Hx; discriminate).
  rewrite (sp_y _ _ _ _ _ _ _ _ _ _ _ _ _ St x Hxn) in Hx. inversion Hx; subst c. clear Hx.
  unfold yVal. apply yStep_nan_i.
  assert (Hfv : fwdVal N cfg F (slot N o w mi) (2 ^ (K - mi)) (o_phred o) pd p jmin 0 x = (nan, nan)).
  { unfold fwdVal. set (len := 2 ^ (K - mi)) in *. rewrite Hl.
    assert (Eb : boundaries len (len - 1) 0 = [len - 1]).
    { unfold boundaries. destruct (Z.ltb_spec 0 (len - 1)); [|lia]. unfold b2z, zrange.
      replace (Z.to_nat (0 + len * 1 - (len - 1))) with 1%nat by lia. reflexivity. }
    rewrite Eb. cbn [fold_left]. apply sumU_nan; [assumption|].
    rewrite Z.mod_small by lia. replace (len - 1 + 1) with len by lia.
    unfold barF. destruct (Z.ltb_spec 0 (len - 1)); [|lia]. cbn [b2z].
    destruct (grid_spec N L len (K - mi)) as [G1 G2]; [lia|lia|]. fold len in G1, G2.
    assert (Gn : B2R (tdiv N (tofZ N len) (tofZ N len) : f32) = 1%R).
    { change (val N L (tdiv N (tofZ N len) (tofZ N len)) = 1%R). rewrite G2.
      apply Rinv_r. apply IZR_neq. lia. }
    rewrite (one_of _ G1 Gn). rewrite Esp. unfold pd. cbn [quoSite tquo B32]. unfold f32_quo.
    destruct (lm_recip lm 70); destruct sp, s; vm_compute; reflexivity. }
  unfold ivF. fold mi. rewrite Hfv.
  destruct (teq N (guOf N w pd) (t0 N)); [now left|].
  left. unfold mixVal, caddx. cbn [fst snd]. rewrite !nan_tdotp by auto. reflexivity.
Qed.

(** ** C40 *)
Lemma allNan_some o : allNan o -> (1 <= kNumCoeffs N F)%nat -> someNan lm o.
Proof.
  intros [Hl H] Hn. destruct (o_y o) as [|c l] eqn:E; [cbn in Hl; lia|]. exists c. rewrite E. split; [now left|].
  rewrite (H c) by now left. now left.
Qed.

Lemma one_nan strict dir o p o' y : good N L F strict o -> stepPre N L cfg strict dir (o_phase o) p ->
  processOne N cfg F dir o p = Ok (o', y) -> someNan lm o -> someNan lm o' /\ y = nan.
Proof.
  intros [(K & nw & w & HO) _] (H1 & H2 & _) E (c & Hc & Hn).
  assert (A := processOne_ok N cfg F L HB HF K nw o w HO dir p H1 H2). cbv zeta in A.
  destruct (_ && _) in A; [congruence|]. destruct A as (o2 & out & iv & E2 & S).
  rewrite E in E2. inversion E2; subst o2 out. clear E2.
  apply In_nth_error in Hc. destruct Hc as (x & Hx).
  assert (Hxn : (x < kNumCoeffs N F)%nat).
  { rewrite <- (oo_y _ _ _ _ _ _ _ HO). apply nth_error_Some. rewrite Hx. discriminate. }
  assert (Sy := sp_y _ _ _ _ _ _ _ _ _ _ _ _ _ S x Hxn). unfold yVal in Sy.
  rewrite (nth_error_nth _ _ _ Hx) in Sy. rewrite yStep_nan in Sy by assumption.
  apply nth_error_In in Sy. split.
  - exists (nan, nan). split; [assumption|now left].
  - rewrite (sp_out _ _ _ _ _ _ _ _ _ _ _ _ _ S). now apply (yOut_nan _ (nan, nan)).
Qed.

Lemma loop_nan strict dir ps : forall o out o' ys, good N L F strict o -> blockPre N L cfg strict dir (o_phase o) ps ->
  length out = length ps -> processLoop N cfg F dir o ps out = Ok (o', ys) -> someNan lm o ->
  someNan lm o' /\ forall y, In y ys -> y = nan.
Proof.
  induction ps as [|p ps IH]; intros o out o' ys Hg Hp Hl E Hn.
  - destruct out; [|discriminate]. inversion E; subst. split; [assumption|contradiction].
  - destruct out as [|z out]; [discriminate|]. cbn [processLoop] in E. destruct Hp as [Hp1 Hp2].
    apply bind_ok in E. destruct E as ([o1 y] & E1 & E). apply bind_ok in E. destruct E as ([o2 zs] & E2 & E).
    inversion E; subst. destruct (processOne_track N L cfg F HB HF strict dir o p o1 y Hg Hp1 E1) as (G1 & P1 & _).
    destruct (one_nan strict dir o p o1 y Hg Hp1 E1 Hn) as [N1 ->].
    rewrite <- P1 in Hp2. cbn [length] in Hl.
    destruct (IH o1 out o' zs G1 Hp2 ltac:(lia) E2 N1) as (N2 & Hy).
    split; [assumption|]. intros y [<-|Hi]; [reflexivity|now apply Hy].
Qed.
End NaN.

Section Hist.
Variable lm : Libm.
Hypothesis Hlog : log2_exact lm.
Variable src : Resampler (B32 lm).
Variable cfg : Cfg.
Variable F : Filt (B32 lm).
Notation N := (B32 lm).
Notation L := (B32_Laws lm Hlog).
Hypothesis HB : (1 <= batch cfg)%nat.
Hypothesis HF : filterShape N F.
Hypothesis Hsrc : resamplerOk N src.

Lemma hist_nan ops : forall st o o' ys, tracked lm Hlog F false st o -> st <> None ->
  okHist lm src (dbg cfg) false st ops -> Forall (keepsMemory lm) ops -> someNan lm o ->
  run N src cfg F o ops = Ok (o', ys) -> someNan lm o' /\ forall y, In y ys -> y = nan.
Proof.
  induction ops as [|op ops IH]; intros st o o' ys Ht Hne Hh Hk Hn E.
  { inversion E; subst. split; [assumption|contradiction]. }
  cbn [run] in E. apply bind_ok in E. destruct E as ([o1 ya] & E1 & E). apply bind_ok in E. destruct E as ([o2 yb] & E2 & E).
  inversion E; subst. inversion Hk as [|? ? K1 K2]; subst.
  destruct st as [[q nw]|]; [|contradiction].
  assert (Step : forall st1, st1 <> None -> tracked lm Hlog F false st1 o1 -> okHist lm src (dbg cfg) false st1 ops ->
    someNan lm o1 /\ (forall y, In y ya -> y = nan) -> someNan lm o' /\ (forall y, In y (ya ++ yb) -> y = nan)).
  { intros st1 S1 S2 S3 [S4 S5]. destruct (IH st1 o1 o' yb S2 S1 S3 K2 S4 E2) as [R1 R2].
    split; [assumption|]. intros y Hy. apply in_app_or in Hy. destruct Hy; auto. }
  assert (HFf := HF' lm F HF).
  assert (T' := Ht). destruct T' as (G & P & W).
  destruct op as [wd p d|wd p d|p d|k|sr|dir ps].
  - destruct wd; [contradiction|]. cbn [okHist] in Hh. inversion E1; subst.
    apply (Step (Some (o_phase o1, nwOf N o1))); auto; try discriminate. split; [assumption|contradiction].
  - destruct wd; [contradiction|]. cbn [okHist] in Hh. inversion E1; subst.
    apply (Step (Some (o_phase o1, nwOf N o1))); auto; try discriminate. split; [assumption|contradiction].
  - contradiction.
  - cbn [okHist] in Hh. destruct Hh as (Hv & Hh).
    assert (Hp : opPre N L cfg false o (OpSetWaveform N k)).
    { cbn [opPre]. unfold nwOf in W. destruct G as [(K & nw' & w & HO) _]. rewrite (oo_wt _ _ _ _ _ _ _ HO) in *. rewrite W. exact Hv. }
    destruct (apply_fine N L src cfg F HB HFf Hsrc false o _ G Hp) as [([o3 y3] & E3 & G3)|[_ E3]]; [|congruence].
    rewrite E1 in E3. inversion E3; subst o3 y3. cbn [fst] in G3.
    cbn [apply] in E1. unfold setWaveform in E1. apply bind_ok in E1. destruct E1 as (o4 & E4 & Eq).
    apply bind_ok in E4. destruct E4 as ([] & _ & E4). inversion E4; subst o4. inversion Eq; subst.
    apply (Step (Some (o_phase o, nwOf N o))); auto; try discriminate.
    + split; [exact G3|]. split; reflexivity.
    + split; [exact Hn|contradiction].
  - cbn [okHist] in Hh. destruct Hh as (Hv & Hh).
    destruct (apply_fine N L src cfg F HB HFf Hsrc false o (OpUpdateSamplerate N sr) G (okRate_ok lm Hlog cfg HB sr Hv)) as [([o3 y3] & E3 & G3)|[_ E3]]; [|congruence].
    rewrite E1 in E3. inversion E3; subst o3 y3. cbn [fst] in G3.
    cbn [apply] in E1. apply bind_ok in E1. destruct E1 as (o4 & E4 & Eq). inversion Eq; subst o4 ya. clear Eq.
    destruct G as [(K & nw' & w & HO) _]. unfold osc_updateSamplerate in E4.
    apply bind_ok in E4. destruct E4 as ([] & _ & E4). rewrite (oo_wt _ _ _ _ _ _ _ HO) in E4.
    destruct (updateSamplerate_ok N L src cfg HB Hsrc K nw' w sr (defaultFade N) (oo_W _ _ _ _ _ _ _ HO) (okRate_ok lm Hlog cfg HB sr Hv)) as (w' & E' & W1 & C1).
    rewrite E' in E4. cbn [bind] in E4. inversion E4; subst o1.
    apply (Step (Some (q, nw))); auto; try discriminate.
    + split; [exact G3|]. cbn [set_wt o_phase]. split; [exact P|].
      rewrite <- W. rewrite (nwOf_ok N L F K nw' _ _ HO). unfold nwOf. cbn [set_wt o_wt]. exact (wo_slots _ _ _ _ W1).
    + split; [exact Hn|contradiction].
  - cbn [okHist] in Hh. destruct Hh as (Hv & Hh). apply (okBlock_ok lm Hlog) in Hv. rewrite <- P in Hv.
    cbn [apply] in E1. unfold process in E1.
    apply bind_ok in E1. destruct E1 as ([] & _ & E1). apply bind_ok in E1. destruct E1 as ([] & _ & E1).
    assert (Hl : length (map (fun _ : T N => t0 N) ps) = length ps) by now rewrite map_length.
    destruct (processLoop_track N L cfg F HB HFf false dir ps o _ o1 ya G Hv Hl E1) as (G2 & P2 & W2 & _).
    apply (Step (Some (last ps q, nw))); auto; try discriminate.
    + split; [exact G2|]. rewrite P2, P, W2. auto.
    + exact (loop_nan lm Hlog cfg F HB HFf false dir ps o _ o1 ya G Hv Hl E1 Hn).
Qed.

(** a state with a table loaded, reached by a history *)
Lemma hist_state strict ops o ys : okHist lm src (dbg cfg) strict None ops ->
  run N src cfg F (osc_new N F) ops = Ok (o, ys) -> o_wt o <> None ->
  tracked lm Hlog F strict (Some (o_phase o, nwOf N o)) o.
Proof.
  intros Hh Hr Hw.
  destruct (run_tracked lm Hlog src cfg F HB HF Hsrc strict ops None (osc_new N F) eq_refl Hh) as [(o2 & zs & E & st & T)|[_ E]]; [|congruence].
  rewrite Hr in E. inversion E; subst o2 zs. destruct st as [[q nw]|].
  - destruct T as (G & P & W). split; [assumption|]. auto.
  - cbn in T. subst o. contradiction.
Qed.
End Hist.
