(** * PWork: how often the boundary loop runs (lemmas behind C41) *)
From Coq Require Import ZArith List Bool Reals Lia Lra Arith.
From Flocq Require Import Core IEEE754.BinarySingleNaN.
From Verif Require Import Num Maths CrossFader Wavetable Filters Osc Work Spec NumFacts Laws B32 B32Facts
  B32Laws B32Pow SpecF SpecO CFFacts WTFacts BuildFacts SimdFacts OscFacts OscStep OscRun OscHist CFHist PCross PHist SpecW.
Import ListNotations.
Local Open Scope Z_scope.

(** iterations from boundary [a] to boundary [b] on a table of [len] segments *)
Definition loopLen (len a b : Z) : Z := if b <? a then b + len - a else b - a.

Lemma loopLen_range len a b : 0 <= a < len -> 0 <= b < len -> 0 <= loopLen len a b < len.
Proof. unfold loopLen. destruct (Z.ltb_spec b a); lia. Qed.

Section Arith.
Local Open Scope R_scope.
Variables (len : Z) (p q : R) (s : Z).
Hypothesis Hlen : (0 < len)%Z.
Hypothesis Hp : 0 <= p < 1.
Hypothesis Hq : 0 <= q < 1.

Lemma lenR : 0 < IZR len. Proof. now apply (IZR_lt 0). Qed.

Lemma fwd_len jmin (k : Z) : (k = 0 \/ k = 1)%Z -> 0 <= p - q + IZR k -> (p - q + IZR k) * IZR len < IZR s ->
  (0 <= jmin < len)%Z -> (q = 0 -> jmin = (len - 1)%Z) -> (q <> 0 -> IZR jmin <= q * IZR len <= IZR jmin + 1) ->
  (loopLen len jmin (Zfloor (p * IZR len)) <= s)%Z.
Proof.
  intros Hk HD Hs Hj H0 H1. assert (L := lenR).
  set (j := Zfloor (p * IZR len)).
  assert (F1 : IZR j <= p * IZR len) by apply Zfloor_lb.
  assert (Fr : (0 <= j < len)%Z).
  { split; [apply Zfloor_lub; apply Rmult_le_pos; lra|]. apply lt_IZR. apply Rle_lt_trans with (1 := F1).
    rewrite <- (Rmult_1_l (IZR len)) at 2. apply Rmult_lt_compat_r; lra. }
  assert (R := loopLen_range len jmin j Hj Fr).
  assert (big : 1 <= p - q + IZR k -> (loopLen len jmin j <= s)%Z).
  { intros Hb. assert (IZR len <= (p - q + IZR k) * IZR len).
    { rewrite <- (Rmult_1_l (IZR len)) at 1. apply Rmult_le_compat_r; lra. }
    assert (IZR len < IZR s) by lra. apply lt_IZR in H2. lia. }
  destruct (Rle_lt_dec 1 (p - q + IZR k)) as [Hb|Hb]; [now apply big|].
  apply Zlt_succ_le. apply lt_IZR. unfold Z.succ. rewrite plus_IZR.
  unfold loopLen. destruct (Req_dec q 0) as [Eq|Nq].
  - specialize (H0 Eq). rewrite H0. rewrite Eq in *.
    assert (k = 0)%Z by (destruct Hk as [|E]; [assumption|rewrite E in Hb; lra]). subst k.
    destruct (Z.ltb_spec j (len - 1)).
    + replace (j + len - (len - 1))%Z with (j + 1)%Z by lia. rewrite plus_IZR. lra.
    + assert (j = len - 1)%Z by lia. rewrite H2.
      replace (len - 1 - (len - 1))%Z with 0%Z by lia.
      assert (0 <= (p - 0 + 0) * IZR len) by (apply Rmult_le_pos; lra). lra.
  - specialize (H1 Nq). destruct Hk as [-> | ->].
    + assert (jmin <= j)%Z.
      { apply Zfloor_lub. apply Rle_trans with (q * IZR len); [lra|]. apply Rmult_le_compat_r; lra. }
      destruct (Z.ltb_spec j jmin); [lia|]. rewrite minus_IZR. lra.
    + destruct (Z.ltb_spec j jmin).
      * rewrite minus_IZR, plus_IZR. lra.
      * rewrite minus_IZR. assert (p * IZR len < q * IZR len) by (apply Rmult_lt_compat_r; lra).
        assert (0 <= (p - q + 1) * IZR len) by (apply Rmult_le_pos; lra). lra.
Qed.

Lemma bwd_len jmax (k : Z) : (k = 0 \/ k = 1)%Z -> 0 <= q - p + IZR k -> (q - p + IZR k) * IZR len < IZR s ->
  (0 <= jmax < len)%Z -> IZR jmax <= q * IZR len <= IZR jmax + 1 ->
  (loopLen len ((Zceil (p * IZR len) - 1) mod len) jmax <= s)%Z.
Proof.
  intros Hk HD Hs Hj H1. assert (L := lenR).
  set (c := Zceil (p * IZR len)).
  assert (F1 : p * IZR len <= IZR c) by apply Zceil_ub.
  assert (F2 : IZR c - 1 < p * IZR len).
  { assert (A := Zceil_lb (p * IZR len)). unfold c. lra. }
  set (jmin := ((c - 1) mod len)%Z).
  assert (Jr : (0 <= jmin < len)%Z) by (apply Z.mod_pos_bound; lia).
  assert (R := loopLen_range len jmin jmax Jr Hj).
  destruct (Rle_lt_dec 1 (q - p + IZR k)) as [Hb|Hb].
  { assert (IZR len <= (q - p + IZR k) * IZR len).
    { rewrite <- (Rmult_1_l (IZR len)) at 1. apply Rmult_le_compat_r; lra. }
    assert (IZR len < IZR s) by lra. apply lt_IZR in H0. lia. }
  apply Zlt_succ_le. apply lt_IZR. unfold Z.succ. rewrite plus_IZR.
  destruct (Req_dec p 0) as [Ep|Np].
  - assert (Ec : c = 0%Z) by (unfold c; rewrite Ep, Rmult_0_l; apply (Zceil_IZR 0)).
    assert (Em : jmin = (len - 1)%Z).
    { unfold jmin. rewrite Ec. symmetry. apply Z.mod_unique with (-1)%Z; lia. }
    assert (k = 0)%Z by (destruct Hk as [|E]; [assumption|rewrite E in Hb; lra]). subst k.
    rewrite Em. unfold loopLen. destruct (Z.ltb_spec jmax (len - 1)).
    + replace (jmax + len - (len - 1))%Z with (jmax + 1)%Z by lia. rewrite plus_IZR. rewrite Ep in Hs. lra.
    + assert (jmax = len - 1)%Z by lia. rewrite H0. replace (len - 1 - (len - 1))%Z with 0%Z by lia.
      assert (0 <= (q - p + 0) * IZR len) by (apply Rmult_le_pos; lra). lra.
  - assert (Hpl : 0 < p * IZR len) by (apply Rmult_lt_0_compat; lra).
    assert (Hc : (1 <= c <= len)%Z).
    { split.
      - assert (0 < c)%Z by (apply lt_IZR; lra). lia.
      - assert (IZR c < IZR len + 1).
        { assert (p * IZR len < 1 * IZR len) by (apply Rmult_lt_compat_r; lra). lra. }
        rewrite <- plus_IZR in H. apply lt_IZR in H. lia. }
    assert (Em : jmin = (c - 1)%Z) by (apply Z.mod_small; lia). rewrite Em. unfold loopLen.
    destruct Hk as [-> | ->].
    + assert (p * IZR len <= q * IZR len) by (apply Rmult_le_compat_r; lra).
      assert (c - 1 < jmax + 1)%Z by (apply lt_IZR; rewrite minus_IZR, plus_IZR; lra).
      destruct (Z.ltb_spec jmax (c - 1)); [lia|]. rewrite !minus_IZR. lra.
    + destruct (Z.ltb_spec jmax (c - 1)).
      * rewrite !minus_IZR, plus_IZR. lra.
      * rewrite !minus_IZR. assert (q * IZR len < p * IZR len) by (apply Rmult_lt_compat_r; lra).
        assert (0 <= (q - p + 1) * IZR len) by (apply Rmult_le_pos; lra). lra.
Qed.
End Arith.

(** indices on the entry above: half of those below *)
Section Half.
Local Open Scope R_scope.
Lemma half_of (j : Z) : exists b : Z, (b = 0 \/ b = 1)%Z /\ (j = 2 * (j / 2) + b)%Z.
Proof.
  exists (j mod 2)%Z. assert (A := Z.div_mod j 2 ltac:(lia)). assert (B := Z.mod_pos_bound j 2 ltac:(lia)). lia.
Qed.
Lemma half_start (j : Z) t : IZR j <= t * 2 <= IZR j + 1 -> IZR (j / 2) <= t <= IZR (j / 2) + 1.
Proof.
  intros H. destruct (half_of j) as (b & Hb & E). rewrite E in H. rewrite plus_IZR, mult_IZR in H.
  destruct Hb as [-> | ->]; lra.
Qed.
Lemma half_Zfloor t : (Zfloor (t * 2) / 2)%Z = Zfloor t.
Proof.
  symmetry. apply Zfloor_imp. destruct (half_of (Zfloor (t * 2))) as (b & Hb & E).
  assert (A := Zfloor_lb (t * 2)). assert (B := Zfloor_ub (t * 2)). rewrite E in A, B at 1.
  rewrite plus_IZR, mult_IZR in A, B. rewrite plus_IZR. destruct Hb as [-> | ->]; lra.
Qed.
(** the first boundary of a backward step *)
Lemma half_ceil (len : Z) p : (0 < len)%Z -> 0 <= p < 1 ->
  (((Zceil (p * IZR (2 * len)) - 1) mod (2 * len)) / 2 = (Zceil (p * IZR len) - 1) mod len)%Z.
Proof.
  intros Hl Hp. assert (L : 0 < IZR len) by (now apply (IZR_lt 0)).
  assert (E0 : p * IZR (2 * len) = p * IZR len * 2) by (rewrite mult_IZR; ring).
  rewrite E0. set (t := p * IZR len).
  assert (Ht : 0 <= t < IZR len).
  { unfold t. split; [apply Rmult_le_pos; lra|]. rewrite <- (Rmult_1_l (IZR len)) at 2. apply Rmult_lt_compat_r; lra. }
  destruct (Req_dec t 0) as [Et|Nt].
  - rewrite Et. replace (0 * 2) with 0 by ring. rewrite (Zceil_IZR 0).
    rewrite <- (Z.mod_unique (0 - 1) (2 * len) (-1) (2 * len - 1)) by lia.
    rewrite <- (Z.mod_unique (0 - 1) len (-1) (len - 1)) by lia.
    symmetry. apply Z.div_unique with 1%Z; lia.
  - assert (U : forall u, 0 < u -> (0 < Zceil u)%Z).
    { intros u Hu. apply lt_IZR. assert (A := Zceil_ub u). lra. }
    assert (V : forall u (m : Z), u <= IZR m -> (Zceil u <= m)%Z) by (intros; now apply Zceil_glb).
    assert (C1 := U t ltac:(lra)). assert (C2 := U (t * 2) ltac:(lra)).
    assert (C3 := V t len ltac:(lra)). assert (C4 := V (t * 2) (2 * len)%Z ltac:(rewrite mult_IZR; lra)).
    rewrite !Z.mod_small by lia.
    enough (E : Zceil t = ((Zceil (t * 2) - 1) / 2 + 1)%Z) by lia.
    destruct (half_of (Zceil (t * 2) - 1)) as (b & Hb & E).
    assert (A := Zceil_ub (t * 2)). assert (B := Zceil_lb (t * 2)).
    assert (E' : IZR (Zceil (t * 2)) = 2 * IZR ((Zceil (t * 2) - 1) / 2) + IZR b + 1).
    { rewrite <- mult_IZR, <- !plus_IZR. f_equal. lia. }
    apply Zceil_imp. rewrite minus_IZR, plus_IZR. destruct Hb as [-> | ->]; lra.
Qed.
End Half.

Section Cost.
Variable N : Num.
Variable L : Laws N.
Variable cfg : Cfg.
Variable F : Filt N.
Hypothesis HB : (1 <= batch cfg)%nat.
Hypothesis HF : filtOk N F.
Notation dbg := (dbg cfg).
Notation fin := (fin N L).
Notation val := (val N L).

Lemma countOf_ok K nw w mi a b : WTok K nw w -> 0 <= mi < K - 1 -> 0 <= a < 2 ^ (K - mi) -> 0 <= b < 2 ^ (K - mi) ->
  countOf N w mi a b = Ok (loopLen (2 ^ (K - mi)) a b).
Proof.
  intros HW Hm Ha Hb. unfold countOf. rewrite (wt_len_ok N K nw w mi HW Hm). cbn [bind].
  assert (HK := wo_K _ _ _ _ HW).
  assert (2 ^ (K - mi) <= 2 ^ 18) by (apply Z.pow_le_mono_r; lia).
  rewrite (bornSup_ok cfg) by (unfold int_max; lia). cbn [bind]. rewrite zlen_zrange.
  unfold loopLen, b2z. destruct (Z.ltb_spec b a); f_equal; lia.
Qed.

Variables (K nw : Z) (o : Osc N) (w : WT N).
Hypothesis HO : OscOk N L F K nw o w.

(** the two counts of a sample whose loop goes from [a] to [b] on the lower entry *)
Definition costs (d : T N) (a b : Z) : Z * Z :=
  (loopLen (2 ^ (K - miOf N w d)) a b,
   if negb (teq N (guOf N w d) (t0 N)) then loopLen (2 ^ (K - muOf N w d)) (a / 2) (b / 2) else 0).

Lemma fwd_costs phase pd o' y c :
  okPhase N L phase -> fin pd -> (0 <= val pd)%R -> (dbg = true -> (0 < val pd <= /2)%R) ->
  ~ (trap N L o /\ miOf N w pd < o_mm o) ->
  processSampleFwdW N cfg F o w phase pd = Ok (o', y, c) ->
  exists a, 0 <= a < 2 ^ (K - miOf N w pd) /\
    c = costs pd a (Zfloor (pos N L K (miOf N w pd) phase)) /\
    0 <= Zfloor (pos N L K (miOf N w pd) phase) < 2 ^ (K - miOf N w pd) /\
    (playable (val (o_phred o)) -> goodMove N L o (miOf N w pd) ->
       (val (o_phred o) = 0%R -> a = 2 ^ (K - miOf N w pd) - 1) /\
       (val (o_phred o) <> 0%R -> startAt N L K o a (miOf N w pd))).
Proof.
  intros Hph Hf Hpd Hdb Ht E. assert (HK := K_range N L F K nw o w HO).
  destruct (idxFwd_ok N L cfg F K nw o w HO phase pd Hph Hf Hpd Hdb Ht) as (x & Ex & X & _ & Xj & Xs & X0).
  unfold processSampleFwdW in E. rewrite Ex in E. cbn [bind] in E.
  destruct (zero_spec N L) as [Z1 Z2].
  destruct (wtNext_ok N cfg K nw w pd (oo_W _ _ _ _ _ _ _ HO) (oo_cf _ _ _ _ _ _ _ HO))
    as (_ & W1 & _ & _ & _ & M1 & M2 & M3).
  { intros D. rewrite (lt_spec N L _ _ Z1 Hf), Z2. apply Rlt_bool_true. apply Hdb, D. }
  rewrite (xo_wt _ _ _ _ _ _ X), (xo_mi _ _ _ _ _ _ X), (xo_mu _ _ _ _ _ _ X), (xo_wu _ _ _ _ _ _ X) in E.
  assert (Xa := xo_jmin _ _ _ _ _ _ X). assert (Xb := xo_jmax _ _ _ _ _ _ X).
  set (mi := miOf N w pd) in *. set (mu := muOf N w pd) in *. set (a := ix_jmin_red N x) in *.
  exists a. split; [exact Xa|]. rewrite Xj in Xb, E. set (b := Zfloor (pos N L K mi phase)) in *.
  split.
  - rewrite fwd_count, (countOf_ok K nw _ mi a b W1 M1 Xa Xb) in E.
    destruct (computeFwdI N cfg F (wtNext N w pd) (o_wf o) (o_phred o) _ mi _ _ _ _); cbn [bind] in E; [|discriminate].
    unfold costs. fold mi mu.
    destruct (negb (teq N (guOf N w pd) (t0 N))) eqn:Eg.
    + assert (Hmu : mu < K - 1).
      { destruct M3 as [M3|M3]; [assumption|]. unfold guOf in *. rewrite M3, (teq_zero_refl N L) in Eg. discriminate. }
      rewrite !Z.quot_div_nonneg in E by lia.
      assert (Ha2 : 0 <= a / 2 < 2 ^ (K - mu)) by (apply (half_idx cfg HB K mi mu); auto; lia).
      assert (Hb2 : 0 <= b / 2 < 2 ^ (K - mu)) by (apply (half_idx cfg HB K mi mu); auto; lia).
      rewrite fwd_count, (countOf_ok K nw _ mu (a / 2) (b / 2) W1 ltac:(lia) Ha2 Hb2) in E.
      destruct (computeFwdI N cfg F (wtNext N w pd) (o_wf o) (o_phred o) _ mu _ _ _ _); cbn [bind] in E; [|discriminate].
      inversion E. reflexivity.
    + cbn [bind] in E. inversion E. reflexivity.
  - split; [exact Xb|]. intros Hpl Hg. split; [exact X0|]. intros Hne. specialize (Xs Hpl (or_introl Hg)).
    rewrite Req_bool_false in Xs by assumption. exact Xs.
Qed.

Lemma bwd_costs phase pd o' y c :
  okPhase N L phase -> fin pd -> (val pd < 0)%R -> (dbg = true -> (-/2 <= val pd)%R) ->
  let d := tabs N pd in
  ~ (trap N L o /\ miOf N w d < o_mm o) ->
  processSampleBwdW N cfg F o w phase pd = Ok (o', y, c) ->
  exists b, 0 <= b < 2 ^ (K - miOf N w d) /\
    c = costs d ((Zceil (pos N L K (miOf N w d) phase) - 1) mod 2 ^ (K - miOf N w d)) b /\
    (playable (val (o_phred o)) -> goodMove N L o (miOf N w d) -> startAt N L K o b (miOf N w d)).
Proof.
  intros Hph Hf Hpd Hdb d Ht E. assert (HK := K_range N L F K nw o w HO).
  destruct (idxBwd_ok N L cfg F K nw o w HO phase pd Hph Hf ltac:(intros D; specialize (Hdb D); lra) Ht)
    as (x & Ex & X & _ & _ & Xj & Xs).
  unfold processSampleBwdW in E. rewrite Ex in E. cbn [bind] in E. fold d in X, Xj, Xs.
  destruct (zero_spec N L) as [Z1 Z2]. destruct (abs_spec N L pd Hf) as [Fa Va].
  destruct (wtNext_ok N cfg K nw w d (oo_W _ _ _ _ _ _ _ HO) (oo_cf _ _ _ _ _ _ _ HO))
    as (_ & W1 & _ & _ & _ & M1 & M2 & M3).
  { intros D. unfold d. rewrite (lt_spec N L _ _ Z1 Fa), Z2, Va. apply Rlt_bool_true, Rabs_pos_lt. lra. }
  rewrite (xo_wt _ _ _ _ _ _ X), (xo_mi _ _ _ _ _ _ X), (xo_mu _ _ _ _ _ _ X), (xo_wu _ _ _ _ _ _ X) in E.
  assert (Xa := xo_jmin _ _ _ _ _ _ X). assert (Xb := xo_jmax _ _ _ _ _ _ X).
  set (mi := miOf N w d) in *. set (mu := muOf N w d) in *. set (b := ix_jmax_p_red N x) in *.
  exists b. split; [exact Xb|]. rewrite Xj in Xa, E. set (a := (Zceil (pos N L K mi phase) - 1) mod 2 ^ (K - mi)) in *.
  split; [|exact Xs].
  rewrite bwd_count, (countOf_ok K nw _ mi a b W1 M1 Xa Xb) in E.
  destruct (computeBwdI N cfg F (wtNext N w d) (o_wf o) (o_phred o) _ mi _ _ _ _ _); cbn [bind] in E; [|discriminate].
  unfold costs. fold mi mu.
  destruct (negb (teq N (guOf N w d) (t0 N))) eqn:Eg.
  - assert (Hmu : mu < K - 1).
    { destruct M3 as [M3|M3]; [assumption|]. unfold guOf in *. rewrite M3, (teq_zero_refl N L) in Eg. discriminate. }
    rewrite !Z.quot_div_nonneg in E by lia.
    assert (Ha2 : 0 <= a / 2 < 2 ^ (K - mu)) by (apply (half_idx cfg HB K mi mu); auto; lia).
    assert (Hb2 : 0 <= b / 2 < 2 ^ (K - mu)) by (apply (half_idx cfg HB K mi mu); auto; lia).
    rewrite bwd_count, (countOf_ok K nw _ mu (a / 2) (b / 2) W1 ltac:(lia) Ha2 Hb2) in E.
    destruct (computeBwdI N cfg F (wtNext N w d) (o_wf o) (o_phred o) _ mu _ _ _ _ _); cbn [bind] in E; [|discriminate].
    inversion E. reflexivity.
  - cbn [bind] in E. inversion E. reflexivity.
Qed.

(** one sample of a block: which of the two functions, the counts and the new state *)
Definition magOf (pd : T N) : T N := if Rle_bool 0 (val pd) then pd else tabs N pd.

Lemma one_costs dir phase o' y c : okPhase N L phase ->
  let pd := stepOf N dir phase (o_phase o) in
  let d := magOf pd in
  let mi := miOf N w d in
  (dbg = true -> val pd <> 0%R /\ (val pd <= / 2)%R) ->
  processOneW N cfg F dir o phase = Ok (o', y, c) ->
  OscOk N L F K nw o' (wtNext N w d) /\ o_pd o' = pd /\ o_mm o' = mi /\ o_phase o' = phase /\
  0 <= mi < K - 1 /\ (muOf N w d = mi + 1 \/ muOf N w d = mi) /\ (muOf N w d < K - 1 \/ guOf N w d = t0 N) /\
  exists a b, 0 <= a < 2 ^ (K - mi) /\ 0 <= b < 2 ^ (K - mi) /\ c = costs d a b /\
    (playable (val (o_phred o)) -> goodMove N L o mi ->
     if Rle_bool 0 (val pd)
     then b = Zfloor (val phase * IZR (2 ^ (K - mi))) /\
          (val (o_phred o) = 0%R -> a = 2 ^ (K - mi) - 1) /\
          (val (o_phred o) <> 0%R -> (IZR a <= val (o_phred o) * IZR (2 ^ (K - mi)) <= IZR a + 1)%R)
     else a = (Zceil (val phase * IZR (2 ^ (K - mi))) - 1) mod 2 ^ (K - mi) /\
          (IZR b <= val (o_phred o) * IZR (2 ^ (K - mi)) <= IZR b + 1)%R).
Proof.
  intros Hph pd d mi Had E.
  assert (E0 : processOne N cfg F dir o phase = Ok (o', y)).
  { rewrite <- erase_one, E. reflexivity. }
  assert (A := processOne_ok N cfg F L HB HF K nw o w HO dir phase Hph Had). cbv zeta in A.
  fold pd in A. change (if Rle_bool 0 (val pd) then pd else tabs N pd) with d in A. fold mi in A.
  destruct (Rle_bool (val (o_pd o)) 0 && (o_j o =? 0) && (mi <? o_mm o)) eqn:Etr; [congruence|].
  destruct A as (o2 & out & iv & E1 & S). rewrite E0 in E1. assert (o2 = o') by congruence. subst o2. clear E1.
  split; [exact (sp_ok _ _ _ _ _ _ _ _ _ _ _ _ _ S)|]. split; [exact (sp_pd _ _ _ _ _ _ _ _ _ _ _ _ _ S)|].
  split; [exact (sp_mm _ _ _ _ _ _ _ _ _ _ _ _ _ S)|]. split; [exact (sp_phase _ _ _ _ _ _ _ _ _ _ _ _ _ S)|].
  assert (Hnt : ~ (trap N L o /\ mi < o_mm o)).
  { intros [[T1 T2] T3]. rewrite Rle_bool_true in Etr by assumption. rewrite T2, Z.eqb_refl in Etr.
    rewrite (proj2 (Z.ltb_lt _ _) T3) in Etr. discriminate. }
  destruct (step_facts N F L K nw o w HO dir phase Hph) as (Hf & Hfw & Hbi). fold pd in Hf, Hfw, Hbi.
  destruct (zero_spec N L) as [Z1 Z2]. destruct (abs_spec N L pd Hf) as [Fa Va].
  assert (Fd : fin d) by (unfold d, magOf; destruct (Rle_bool 0 (val pd)); assumption).
  destruct (wtNext_ok N cfg K nw w d (oo_W _ _ _ _ _ _ _ HO) (oo_cf _ _ _ _ _ _ _ HO))
    as (_ & W1 & _ & _ & _ & M1 & M2 & M3).
  { intros D. rewrite (lt_spec N L _ _ Z1 Fd), Z2. apply Rlt_bool_true. destruct (Had D).
    unfold d, magOf. destruct (Rle_bool_spec 0 (val pd)); [lra|]. rewrite Va. apply Rabs_pos_lt. lra. }
  split; [exact M1|]. split; [exact M2|]. split; [exact M3|].
  assert (Hsel : (if Rle_bool 0 (val pd) then processSampleFwdW N cfg F o w phase pd
     else processSampleBwdW N cfg F o w phase pd) = Ok (o', y, c)).
  { rewrite <- E. unfold processOneW. rewrite (oo_wt _ _ _ _ _ _ _ HO). destruct dir; cbn [stepOf] in pd; fold pd.
    - specialize (Hfw eq_refl). rewrite assert_ok.
      + cbn [bind]. rewrite Rle_bool_true by lra. reflexivity.
      + intros D. specialize (Had D). destruct (half_spec N L 1 ltac:(lia)) as [Hh1 Hh2].
        rewrite (lt_spec N L _ _ Z1 Hf), Z2, (le_spec N L _ _ Hf Hh1), Hh2.
        rewrite Rlt_bool_true, Rle_bool_true by lra. reflexivity.
    - rewrite (le_spec N L _ _ Z1 Hf), Z2. reflexivity. }
  clear E E0. unfold d, magOf in mi, Hnt, M1, M2, M3, S |- *. subst mi.
  destruct (Rle_bool_spec 0 (val pd)) as [H|H].
  - destruct (fwd_costs phase pd o' y c Hph Hf H ltac:(intros D; destruct (Had D); lra) Hnt Hsel)
      as (a & Ha & Ec & Hb & Hs).
    exists a, (Zfloor (pos N L K (miOf N w pd) phase)). split; [exact Ha|]. split; [exact Hb|]. split; [exact Ec|].
    intros Hpl Hg. split; [reflexivity|]. exact (Hs Hpl Hg).
  - destruct (bwd_costs phase pd o' y c Hph Hf H) as (b & Hb & Ec & Hs); auto.
    { intros D. clear - Hfw Hbi H. destruct dir; [specialize (Hfw eq_refl); lra|]. destruct (Hbi eq_refl); lra. }
    eexists _, b. split; [apply Z.mod_pos_bound, Laws.pow2_pos; lia|]. split; [exact Hb|]. split; [exact Ec|].
    intros Hpl Hg. split; [reflexivity|]. exact (Hs Hpl Hg).
Qed.
End Cost.

Lemma plain_normal (p : f32) : B2R p = 0%R \/ (/ IZR (2 ^ 100) <= B2R p)%R -> B2R p = 0%R \/ (/ IZR (2 ^ 126) <= B2R p)%R.
Proof.
  intros [H|H]; [now left|right]. apply Rle_trans with (2 := H).
  apply Rinv_le_contravar; [apply IZR_lt; reflexivity|apply IZR_le; discriminate].
Qed.

Section True.
Variable lm : Libm.
Notation N := (B32 lm).
Local Open Scope R_scope.

(** a rounded step below a power of two comes from a true step below it *)
Lemma true_step dir (q p : f32) (e : Z) : phase01 q -> phase01 p -> (1 <= e <= 20)%Z ->
  let pd := B2R (step32 lm dir q p) in
  Rabs pd < / IZR (2 ^ e) ->
  (0 <= pd -> exists k, (k = 0 \/ k = 1)%Z /\ 0 <= B2R p - B2R q + IZR k < / IZR (2 ^ e)) /\
  (pd < 0 -> exists k, (k = 0 \/ k = 1)%Z /\ 0 <= B2R q - B2R p + IZR k < / IZR (2 ^ e)).
Proof.
  intros [Fq Hq] [Fp Hp] He pd.
  assert (HB : / IZR (2 ^ e) = bpow radix2 (- e)).
  { rewrite bpow_opp, bpow_Z by lia. reflexivity. }
  set (B := / IZR (2 ^ e)) in *.
  assert (B0 : 0 < B) by (rewrite HB; apply bpow_gt_0).
  assert (B1 : B <= / 2).
  { rewrite HB. change (/ 2) with (bpow radix2 (-1)). apply bpow_le. lia. }
  assert (FB : fmt32 B) by (rewrite HB; apply fmt32_bpow; lia).
  assert (EB : forall m : Z, (Z.abs m <= 2 ^ 20 + 2)%Z -> fmt32 (IZR m * B)).
  { intros m Hm. rewrite HB. apply fmt32_Ze; lia. }
  assert (Ee : IZR (2 ^ e) * B = 1).
  { unfold B. field. apply Rgt_not_eq, IZR_pow2_pos. lia. }
  assert (Pe : (2 <= 2 ^ e <= 2 ^ 20)%Z).
  { split; [apply (Z.pow_le_mono_r 2 1); lia|apply Z.pow_le_mono_r; lia]. }
  assert (FB1 : fmt32 (B - 1)).
  { replace (B - 1) with (IZR (1 - 2 ^ e) * B) by (rewrite minus_IZR; lra). apply EB. lia. }
  assert (FB2 : fmt32 (1 - B)).
  { replace (1 - B) with (IZR (2 ^ e - 1) * B) by (rewrite minus_IZR; lra). apply EB. lia. }
  assert (FB3 : fmt32 (- B)).
  { replace (- B) with (IZR (-1) * B) by lra. apply EB. lia. }
  destruct (b_bi lm p q Fp Fq Hp Hq) as (_ & Rb & Zb & Vb). cbv zeta in Vb.
  set (r := rnd32 (v32 p - v32 q)) in *.
  change (B2R p) with (v32 p) in *. change (B2R q) with (v32 q) in *.
  assert (r0 : r = 0 -> v32 p = v32 q).
  { intros Er. apply Zb. rewrite Vb, Er. rewrite !Rlt_bool_false by lra. reflexivity. }
  assert (U : forall x, fmt32 x -> x <= v32 p - v32 q -> x <= r) by (intros; now apply rnd32_ge).
  assert (D : forall x, fmt32 x -> v32 p - v32 q <= x -> r <= x) by (intros; now apply rnd32_le).
  assert (F0 : fmt32 0) by (apply (fmt32_Z 0); lia).
  assert (D0 := D 0 F0). assert (U0 := U 0 F0). specialize (U B FB) as UB. specialize (U _ FB1) as UB1.
  specialize (D _ FB2) as DB2. specialize (D _ FB3) as DB3.
  intros Ha.
  assert (Habs : - B < pd < B) by (apply Rabs_def2 in Ha; lra).
  assert (zero : (forall k, k = 0 \/ True) -> True) by auto. clear zero.
  destruct dir.
  - (* forward *)
    unfold pd in *. cbn [step32] in *. revert Ha Habs. unfold stepFwd.
    destruct (subp32 p q Fp Fq) as [A1 A2]; [lra|lra|].
    change (tsub N p q) with (@Bminus 24 128 p32 e32 mode_NE p q).
    set (d := @Bminus 24 128 p32 e32 mode_NE p q) in *. cbv zeta. cbn [tlt B32].
    destruct (ofZ32 0 ltac:(lia)) as [Z1 Z2]. destruct (ofZ32 1 ltac:(lia)) as [O1 O2].
    rewrite (Bltb_correct _ _ d (t0 N)) by assumption.
    change (B2R d) with (v32 d). change (B2R (t0 N)) with (v32 (f32_ofZ 0)). rewrite Z2, A2. fold r.
    destruct (Rlt_bool_spec r 0) as [Hr|Hr]; intros Ha Habs.
    + change (tadd N d (t1 N)) with (@Bplus 24 128 p32 e32 mode_NE d (f32_ofZ 1)) in *.
      assert (Hb := phase_diff_bound p q Fp Fq Hp Hq). fold r in Hb.
      destruct (add32 d (f32_ofZ 1) A1 O1) as [C1 C2]; [rewrite O2; apply small32_1; rewrite A2; fold r; lra|].
      change (B2R (@Bplus 24 128 p32 e32 mode_NE d (f32_ofZ 1))) with (v32 (@Bplus 24 128 p32 e32 mode_NE d (f32_ofZ 1))) in *.
      rewrite C2, A2, O2 in *. fold r in Ha, Habs |- *.
      assert (0 <= rnd32 (r + 1)) by (apply rnd32_ge; [assumption|lra]).
      split; [intros _|intros; lra]. exists 1%Z. split; [now right|]. split; [lra|].
      destruct (Rlt_le_dec (v32 p - v32 q + 1) B); [assumption|exfalso].
      assert (B <= rnd32 (r + 1)) by (apply rnd32_ge; [assumption|lra]). lra.
    + change (B2R d) with (v32 d) in *. rewrite A2 in *. fold r in Ha, Habs |- *.
      split; [intros _|intros; lra]. exists 0%Z. split; [now left|].
      destruct (Rle_lt_dec 0 (v32 p - v32 q)).
      * split; [lra|]. destruct (Rlt_le_dec (v32 p - v32 q) B); [lra|]. lra.
      * assert (r = 0) by lra. specialize (r0 H). lra.
  - unfold pd in *. cbn [step32] in *. change (B2R (stepBi N p q)) with (v32 (stepBi N p q)) in *.
    rewrite Vb in *.
    destruct (Rlt_bool_spec r (-/2)) as [H1|H1]; [|destruct (Rlt_bool_spec (/2) r) as [H2|H2]].
    + split; [intros _|intros; exfalso].
      * exists 1%Z. split; [now right|]. split; [lra|]. destruct (Rlt_le_dec (v32 p - v32 q + 1) B); [assumption|]. lra.
      * assert (Hb := phase_diff_bound p q Fp Fq Hp Hq). fold r in Hb. lra.
    + split; [intros; exfalso|intros _].
      * assert (Hb := phase_diff_bound p q Fp Fq Hp Hq). fold r in Hb. lra.
      * exists 1%Z. split; [now right|]. split; [lra|]. destruct (Rlt_le_dec (v32 q - v32 p + 1) B); [assumption|]. lra.
    + split; intros Hs; exists 0%Z; (split; [now left|]).
      * destruct (Rle_lt_dec 0 (v32 p - v32 q)).
        { split; [lra|]. destruct (Rlt_le_dec (v32 p - v32 q) B); [lra|]. lra. }
        assert (r = 0) by lra. specialize (r0 H). lra.
      * destruct (Rle_lt_dec 0 (v32 p - v32 q)); [lra|]. split; [lra|].
        destruct (Rlt_le_dec (v32 q - v32 p) B); [lra|]. lra.
Qed.
End True.

Section Main.
Variable lm : Libm.
Hypothesis Hlog : log2_exact lm.
Variable src : Resampler (B32 lm).
Variable cfg : Cfg.
Variable F : Filt (B32 lm).
Notation N := (B32 lm).
Notation L := (B32_Laws lm Hlog).
Notation dbg := (dbg cfg).
Hypothesis HB : (1 <= batch cfg)%nat.
Hypothesis HF : filterShape N F.
Notation reach := (reachable N src dbg (rate32 lm)).

(** ** The bound on one sample *)
Lemma one_bound K nw o w dir (p : f32) o' y c cu t : OscOk N L F K nw o w -> plainPhase (o_phase o) -> phase01 p ->
  let pd := step32 lm dir (o_phase o) p in
  let d := magOf N L pd in
  let mi := miOf N w d in
  B2R pd <> 0%R -> (Rabs (B2R pd) < IZR (2 ^ t) / IZR (2 ^ K))%R -> mi <= t <= K - 1 -> (Rabs (B2R pd) < / 2)%R ->
  goodMove N L o mi ->
  processOneW N cfg F dir o p = Ok (o', y, (c, cu)) ->
  0 <= c <= 2 ^ (t - mi) /\ 0 <= cu /\
  (muOf N w d = mi + 1 -> mi < t -> cu <= 2 ^ (t - mi - 1)) /\ (B2R (guOf N w d : f32) = 0%R -> is_finite (guOf N w d : f32) = true -> cu = 0).
Proof.
  intros HO Hq Hp pd d mi Hne Hlt Ht Hhalf Hg E. assert (HK := K_range N L F K nw o w HO).
  assert (Epd : stepOf N dir p (o_phase o) = pd) by (destruct dir; reflexivity).
  assert (A := one_costs N L cfg F HB (HF' lm F HF) K nw o w HO dir p o' y (c, cu) Hp).
  cbv zeta in A. rewrite Epd in A. fold d mi in A.
  destruct A as (_ & _ & _ & _ & M1 & M2 & M3 & a & b & Ha & Hb & Ec & Hs); [|exact E|].
  { intros _. split; [exact Hne|]. change (val N L pd) with (B2R pd). assert (X := Rle_abs (B2R pd)). lra. }
  destruct (oo_phred _ _ _ _ _ _ _ HO) as [Q1 Q2]. assert (Eph := oo_phase _ _ _ _ _ _ _ HO).
  assert (Hpl : playable (val N L (o_phred o))).
  { rewrite <- Eph. destruct Hq as [[_ Hq1] Hq2]. apply playable_normal; [assumption|]. now apply plain_normal. }
  specialize (Hs Hpl Hg).
  assert (Pk := IZR_pow2_pos (K - t) ltac:(lia)). assert (PK := IZR_pow2_pos K ltac:(lia)). assert (Pt := IZR_pow2_pos t ltac:(lia)).
  assert (Ek : (IZR (2 ^ t) / IZR (2 ^ K) = / IZR (2 ^ (K - t)))%R).
  { replace (2 ^ K) with (2 ^ t * 2 ^ (K - t)) by (rewrite <- Z.pow_add_r by lia; f_equal; lia).
    rewrite mult_IZR. field. lra. }
  rewrite Ek in Hlt.
  destruct (true_step lm dir (o_phase o) p (K - t) ltac:(apply Hq) Hp ltac:(lia) Hlt) as [TF TB]. fold pd in TF, TB.
  unfold costs in Ec. fold mi in Ec. set (mu := muOf N w d) in *. assert (Ec1 := f_equal fst Ec). assert (Ec2 := f_equal snd Ec). cbn [fst snd] in Ec1, Ec2. clear Ec.
  set (len := 2 ^ (K - mi)) in *.
  assert (Hlen : 0 < len) by (apply Laws.pow2_pos; lia).
  assert (Hscale : forall m D, mi <= m <= t -> (0 <= D < / IZR (2 ^ (K - t)))%R -> (D * IZR (2 ^ (K - m)) < IZR (2 ^ (t - m)))%R).
  { intros m D Hm HD. assert (P1 := IZR_pow2_pos (K - m) ltac:(lia)).
    replace (2 ^ (K - m)) with (2 ^ (K - t) * 2 ^ (t - m)) in * by (rewrite <- Z.pow_add_r by lia; f_equal; lia).
    rewrite mult_IZR in *. assert (P2 := IZR_pow2_pos (t - m) ltac:(lia)).
    apply Rlt_le_trans with (/ IZR (2 ^ (K - t)) * (IZR (2 ^ (K - t)) * IZR (2 ^ (t - m))))%R.
    - apply Rmult_lt_compat_r; [exact P1|lra].
    - right. field. lra. }
  assert (Hmu : negb (teq N (guOf N w d) (t0 N)) = true -> mu < K - 1).
  { intros Eg. destruct M3 as [M3|M3]; [exact M3|]. rewrite M3, (teq_zero_refl N L) in Eg. discriminate. }
  assert (Hh : mu = mi + 1 -> len = 2 * 2 ^ (K - mu) /\ 0 < 2 ^ (K - mu)) .
  { intros ->. unfold len. split; [|apply Laws.pow2_pos; lia].
    replace (K - mi) with (1 + (K - (mi + 1))) by lia. rewrite Z.pow_add_r by lia. reflexivity. }
  assert (G1 : 0 <= c) by (rewrite Ec1; apply loopLen_range; assumption).
  assert (G2 : 0 <= cu).
  { rewrite Ec2. destruct (negb _) eqn:Eg; [|lia]. specialize (Hmu eq_refl).
    apply loopLen_range; apply (half_idx cfg HB K mi mu); auto; lia. }
  assert (G3 : B2R (guOf N w d : f32) = 0%R -> is_finite (guOf N w d : f32) = true -> cu = 0).
  { intros Z0 F0. rewrite Ec2. destruct (zero_spec N L) as [Z1 Z2].
    assert (Et : teq N (guOf N w d) (t0 N) = true).
    { refine (eq_trans (eq_spec N L (guOf N w d) (t0 N) F0 Z1) _). rewrite Z2. apply Req_bool_true. exact Z0. }
    rewrite Et. reflexivity. }
  change (val N L pd) with (B2R pd) in Hs.
  assert (Hqr : (0 <= B2R (o_phase o : f32) < 1)%R) by apply Hq.
  assert (Hpr : (0 <= B2R p < 1)%R) by apply Hp.
  rewrite <- Eph in Hs, Q2. change (val N L (o_phase o)) with (B2R (o_phase o : f32)) in Hs.
  change (val N L p) with (B2R p) in Hs.
  enough (G : c <= 2 ^ (t - mi) /\ (mu = mi + 1 -> mi < t -> cu <= 2 ^ (t - mi - 1))).
  { split; [lia|]. split; [exact G2|]. split; [apply G|exact G3]. }
  rewrite Ec1, Ec2. fold len.
  destruct (Rle_bool_spec 0 (B2R pd)) as [Hsg|Hsg].
  - destruct (TF Hsg) as (k & Hk & HD). destruct Hs as (Hb' & Ha0 & Ha1). split.
    + rewrite Hb'. apply (fwd_len len (B2R p) (B2R (o_phase o : f32)) (2 ^ (t - mi)) Hlen Hpr Hqr a k); auto; try lra.
      apply Hscale; [lia|exact HD].
    + intros Em Hmt. destruct (negb _) eqn:Eg; [|apply Z.pow_nonneg; lia]. specialize (Hmu eq_refl).
      destruct (Hh Em) as [El Hl2]. rewrite Hb', El.
      replace (B2R p * IZR (2 * 2 ^ (K - mu)))%R with (B2R p * IZR (2 ^ (K - mu)) * 2)%R by (rewrite mult_IZR; ring).
      rewrite half_Zfloor. replace (t - mi - 1) with (t - mu) by lia.
      apply (fwd_len (2 ^ (K - mu)) (B2R p) (B2R (o_phase o : f32)) (2 ^ (t - mu)) Hl2 Hpr Hqr (a / 2) k); auto; try lra.
      * apply Hscale; [lia|exact HD].
      * apply (half_idx cfg HB K mi mu); auto; lia.
      * intros H0. rewrite (Ha0 H0), El. symmetry. apply Z.div_unique with 1; lia.
      * intros H0. apply half_start. specialize (Ha1 H0). rewrite El, mult_IZR in Ha1. lra.
  - destruct (TB Hsg) as (k & Hk & HD). destruct Hs as (Ha' & Hb'). split.
    + rewrite Ha'. apply (bwd_len len (B2R p) (B2R (o_phase o : f32)) (2 ^ (t - mi)) Hlen Hpr Hqr b k); auto; try lra.
      apply Hscale; [lia|exact HD].
    + intros Em Hmt. destruct (negb _) eqn:Eg; [|apply Z.pow_nonneg; lia]. specialize (Hmu eq_refl).
      destruct (Hh Em) as [El Hl2]. rewrite Ha', El, half_ceil by assumption.
      replace (t - mi - 1) with (t - mu) by lia.
      apply (bwd_len (2 ^ (K - mu)) (B2R p) (B2R (o_phase o : f32)) (2 ^ (t - mu)) Hl2 Hpr Hqr (b / 2) k); auto; try lra.
      * apply Hscale; [lia|exact HD].
      * apply (half_idx cfg HB K mi mu); auto; lia.
      * apply half_start. rewrite El, mult_IZR in Hb'. lra.
Qed.

(** ** Blocks *)
Notation low s := (let '(_, p, x) := s in Z.min p x).

Lemma outS_low_any n num s r : 1 <= n -> 0 <= r < num -> cfInv n num s ->
  fst (fst (fst (outS N n s r))) = low (cfStep n s r).
Proof.
  intros Hn Hr Hs. assert (Hs' := cfStep_inv n num s r Hn Hr Hs). unfold outS. destruct s as [[l p] x].
  destruct ((l =? 0) && (r =? x)) eqn:E.
  - apply andb_prop in E. destruct E as [E1 E2]. apply Z.eqb_eq in E1, E2. subst l x.
    destruct Hs as (_ & _ & _ & H0 & _). rewrite (H0 eq_refl) in *.
    unfold cfStep. rewrite !Z.eqb_refl. cbn [negb andb fst]. lia.
  - destruct (cfStep n (l, p, x) r) as [[l1 p1] x1]. unfold fadeT. destruct (Z.ltb_spec p1 x1); cbn [fst]; lia.
Qed.

Variables (K n : Z).
Hypothesis Hn : 1 <= n.

(** an oscillator with a table of base length 2^K and a fade of n samples *)
Definition holds (o : Osc N) (w : WT N) : Prop :=
  (exists nw, OscOk N L F K nw o w) /\ reach K n w /\ plainPhase (o_phase o).

Lemma mag_val (pd : f32) : is_finite pd = true -> is_finite (magOf N L pd : f32) = true /\ B2R (magOf N L pd : f32) = Rabs (B2R pd).
Proof.
  intros Hf. unfold magOf. change (val N L pd) with (B2R pd).
  destruct (abs_spec N L pd Hf) as [A B]. destruct (Rle_bool_spec 0 (B2R pd)) as [H|H].
  - split; [assumption|]. now rewrite Rabs_pos_eq.
  - split; [exact A|exact B].
Qed.

Lemma one_track o w dir (p : f32) r o' y c : holds o w -> plainPhase p ->
  stepIn K r (step32 lm dir (o_phase o) p) ->
  processOneW N cfg F dir o p = Ok (o', y, c) ->
  let pd := step32 lm dir (o_phase o) p in
  let d := magOf N L pd in
  holds o' (wtNext N w d) /\ o_pd o' = pd /\ o_phase o' = p /\
  cfInv n (K - 1) (cfState N (wt_cf w)) /\ 0 <= r < K - 1 /\ n <= int_max /\
  cfState N (wt_cf (wtNext N w d)) = cfStep n (cfState N (wt_cf w)) r /\
  mmiOf N w d = outS N n (cfState N (wt_cf w)) r /\
  o_mm o' = low (cfStep n (cfState N (wt_cf w)) r).
Proof.
  intros ((nw & HO) & Hr & Hq) Hp (Hne & Hhalf & Hent) E pd d.
  destruct (reach_ok lm Hlog src dbg K n w Hr) as (HK & _ & HS & En & Hm & HC). specialize (HC Hn).
  assert (Hp1 : phase01 p) by apply Hp.
  assert (Epd : stepOf N dir p (o_phase o) = pd) by (destruct dir; reflexivity).
  destruct (step_facts N F L K nw o w HO dir p Hp1) as (Hf & _). rewrite Epd in Hf.
  destruct (mag_val pd Hf) as [Fd Vd]. fold d in Fd, Vd.
  assert (Hreq : req N (wt_cf w) d = r).
  { apply (req32 lm Hlog src dbg K n w d r Hr Fd). rewrite Vd. exact Hent. }
  assert (A := one_costs N L cfg F HB (HF' lm F HF) K nw o w HO dir p o' y c Hp1).
  cbv zeta in A. rewrite Epd in A. fold d in A.
  destruct A as (A1 & A2 & A3 & A4 & M1 & _); [|exact E|].
  { intros _. split; [exact Hne|]. change (val N L pd) with (B2R pd). assert (X := Rle_abs (B2R pd)). fold pd in Hhalf. lra. }
  assert (B := proj1 (CFok_inv N (wt_cf w)) HC). destruct B as [_ B]. rewrite En in B.
  assert (B' : zlen (cf_scale (wt_cf w)) = K - 1) by apply HS. rewrite B' in B.
  assert (Rr : 0 <= r < K - 1) by (unfold entryFor in Hent; lia).
  assert (Em : mmiOf N w d = outS N n (cfState N (wt_cf w)) r).
  { unfold mmiOf. rewrite cfOut_S, Hreq, En. reflexivity. }
  assert (Ef : wt_findMipMapIndices N dbg w d = Ok (wtNext N w d, mmiOf N w d)).
  { apply (wtNext_ok N cfg K nw w d (oo_W _ _ _ _ _ _ _ HO) HC).
    intros _. apply tlt0; [exact Fd|]. rewrite Vd. apply Rabs_pos_lt. exact Hne. }
  split; [|split; [exact A2|split; [exact A4|split; [exact B|split; [exact Rr|split; [exact Hm|]]]]]].
  - split; [exists nw; exact A1|]. split; [eapply r_ask; [exact Hr|exact Ef]|]. rewrite A4. exact Hp.
  - split; [|split].
    + unfold wtNext. cbn [wt_cf]. rewrite cfWith_state, En, Hreq. reflexivity.
    + exact Em.
    + rewrite A3. unfold miOf. rewrite Em. apply (outS_low_any n (K - 1)); assumption.
Qed.

Lemma loopW_app dir a : forall o b, processLoopW N cfg F dir o (a ++ b) =
  let! (o1, l1) := processLoopW N cfg F dir o a in
  let! (o2, l2) := processLoopW N cfg F dir o1 b in Ok (o2, l1 ++ l2).
Proof.
  induction a as [|p a IH]; intros o b; cbn [app processLoopW].
  - cbn [bind]. destruct (processLoopW N cfg F dir o b) as [[o2 l2]|]; reflexivity.
  - destruct (processOneW N cfg F dir o p) as [[[o1 y] c]|]; cbn [bind]; [|reflexivity].
    rewrite IH. destruct (processLoopW N cfg F dir o1 a) as [[o2 l2]|]; cbn [bind]; [|reflexivity].
    destruct (processLoopW N cfg F dir o2 b) as [[o3 l3]|]; reflexivity.
Qed.

Lemma loopW_length dir ps : forall o o' l, processLoopW N cfg F dir o ps = Ok (o', l) -> length l = length ps.
Proof.
  induction ps as [|p ps IH]; intros o o' l E; cbn [processLoopW] in E.
  - inversion E. reflexivity.
  - apply bind_ok in E. destruct E as ([[o1 y] c] & _ & E). apply bind_ok in E. destruct E as ([o2 m] & E2 & E).
    inversion E. subst. cbn [length]. f_equal. eapply IH. exact E2.
Qed.

Lemma steps_app dir a : forall (q : f32) b, steps32 lm dir q (a ++ b) = steps32 lm dir q a ++ steps32 lm dir (last a q) b.
Proof.
  induction a as [|p a IH]; intros q b; [reflexivity|]. cbn [app steps32]. rewrite IH, last_cons. reflexivity.
Qed.

(** playing in one octave *)
Lemma lead dir ps : forall o w r o' l, holds o w -> Forall plainPhase ps ->
  Forall (stepIn K r) (steps32 lm dir (o_phase o) ps) -> processLoopW N cfg F dir o ps = Ok (o', l) ->
  exists w', holds o' w' /\ o_phase o' = last ps (o_phase o) /\
    cfState N (wt_cf w') = cfRun n (cfState N (wt_cf w)) (repeat r (length ps)) /\
    (ps <> [] -> o_mm o' = low (cfState N (wt_cf w')) /\ B2R (o_pd o' : f32) <> 0%R /\
       (dir = kForward -> (0 < B2R (o_pd o' : f32))%R)).
Proof.
  induction ps as [|p ps IH]; intros o w r o' l Ho Hp Hs E; cbn [processLoopW] in E.
  - inversion E; subst. exists w. split; [exact Ho|]. split; [reflexivity|]. split; [reflexivity|]. congruence.
  - apply bind_ok in E. destruct E as ([[o1 y] c] & E1 & E). apply bind_ok in E. destruct E as ([o2 m] & E2 & E).
    assert (o2 = o') by (inversion E; reflexivity). subst o2. clear E.
    inversion_clear Hp as [|? ? Hp0 Hps]. cbn [steps32] in Hs. inversion_clear Hs as [|? ? Hs0 Hss].
    destruct (one_track o w dir p r o1 y c Ho Hp0 Hs0 E1) as (A1 & A2 & A3 & A4 & A5 & A6 & A7 & A8 & A9).
    rewrite <- A3 in Hss.
    destruct (IH o1 _ r o' m A1 Hps Hss E2) as (w' & B1 & B2 & B3 & B4).
    exists w'. split; [exact B1|]. split; [rewrite B2, A3; symmetry; apply last_cons|].
    split; [cbn [length repeat cfRun]; rewrite B3, A7; reflexivity|]. intros _.
    destruct ps as [|p' ps]; [|apply B4; discriminate].
    cbn [processLoopW] in E2. assert (o1 = o') by congruence. subst o1.
    cbn [length repeat cfRun] in B3. rewrite B3, A7, A9, A2. split; [reflexivity|].
    split; [apply Hs0|]. intros ->. 
    destruct Ho as ((nw & HO) & _ & Hq). destruct (step_facts N F L K nw o w HO kForward p ltac:(apply Hp0)) as (_ & Hfw & _).
    specialize (Hfw eq_refl). change (val N L (stepOf N kForward p (o_phase o))) with (B2R (step32 lm kForward (o_phase o) p)) in Hfw.
    destruct Hs0 as [Hne _]. lra.
Qed.

(** the upper limit of an octave *)
Lemma oct_limit r (d : f32) : 2 <= K -> stepIn K r d -> (Rabs (B2R d) < IZR (2 ^ (r + 1)) / IZR (2 ^ K))%R.
Proof.
  intros HK (_ & Hh & (R1 & R2 & _)). destruct R2 as [-> | R2]; [|exact R2].
  replace (K - 2 + 1) with (K - 1) by lia.
  replace (IZR (2 ^ (K - 1)) / IZR (2 ^ K))%R with (/ 2)%R; [exact Hh|].
  replace (2 ^ K) with (2 ^ (K - 1) * 2) by (change 2 with (2 ^ 1) at 2; rewrite <- Z.pow_add_r by lia; f_equal; lia).
  rewrite mult_IZR. assert (X := IZR_pow2_pos (K - 1) ltac:(lia)). field. lra.
Qed.

Lemma K_two o w : holds o w -> 2 <= K <= 18.
Proof. intros (_ & Hr & _). apply (reach_ok lm Hlog src dbg K n w Hr). Qed.

(** settled: at most two boundaries, one entry *)
Lemma settled_block dir ps : forall o w r o' l, holds o w -> cfState N (wt_cf w) = (0, r, r) ->
  o_mm o = r -> B2R (o_pd o : f32) <> 0%R ->
  Forall plainPhase ps -> Forall (stepIn K r) (steps32 lm dir (o_phase o) ps) ->
  processLoopW N cfg F dir o ps = Ok (o', l) ->
  Forall (fun x => 0 <= fst (snd x) <= 2 /\ snd (snd x) = 0) l.
Proof.
  induction ps as [|p ps IH]; intros o w r o' l Ho Hc Hm Hd Hp Hs E; cbn [processLoopW] in E.
  - inversion E. constructor.
  - apply bind_ok in E. destruct E as ([[o1 y] [c cu]] & E1 & E). apply bind_ok in E. destruct E as ([o2 m] & E2 & E).
    assert (El : l = (y, (c, cu)) :: m). { inversion E. reflexivity. } subst l. clear E.
    inversion_clear Hp as [|? ? Hp0 Hps]. cbn [steps32] in Hs. inversion_clear Hs as [|? ? Hs0 Hss].
    destruct (one_track o w dir p r o1 y (c, cu) Ho Hp0 Hs0 E1) as (A1 & A2 & A3 & A4 & A5 & A6 & A7 & A8 & A9).
    set (pd := step32 lm dir (o_phase o) p) in *. set (d := magOf N L pd) in *.
    rewrite Hc in A7, A8, A9.
    assert (Eo : outS N n (0, r, r) r = (r, t1 N, r + 1, t0 N)) by (unfold outS; rewrite (Z.eqb_refl r); reflexivity).
    assert (Es : cfStep n (0, r, r) r = (0, r, r)) by (unfold cfStep; rewrite (Z.eqb_refl r); reflexivity).
    rewrite Eo in A8. rewrite Es in A7, A9. rewrite Z.min_id in A9.
    rewrite <- A3 in Hss.
    constructor; [|eapply (IH o1 _ r o2 m A1 A7 A9); [rewrite A2; apply Hs0|exact Hps|exact Hss|exact E2]].
    assert (Kt := K_two o w Ho). assert (Hol := oct_limit r pd ltac:(lia) Hs0).
    destruct Ho as ((nw & HO) & _ & Hq).
    assert (Emi : miOf N w d = r) by (unfold miOf; rewrite A8; reflexivity).
    assert (Egu : guOf N w d = t0 N) by (unfold guOf; rewrite A8; reflexivity).
    destruct (one_bound K nw o w dir p o1 y c cu (r + 1) HO Hq ltac:(apply Hp0)) as (G1 & G2 & _ & G3); fold pd; fold d; try rewrite Emi; try apply Hs0; try assumption; try lia.
    + unfold goodMove. rewrite Hm. change (val N L (o_pd o)) with (B2R (o_pd o : f32)).
      destruct (Rlt_le_dec 0 (B2R (o_pd o : f32))) as [H|H]; [left; split; [exact H|lia]|right].
      split; [|now left]. destruct H as [H|H]; [exact H|contradiction].
    + fold pd in G1, G3. fold d in G1, G3. rewrite Emi in G1. rewrite Egu in G3. cbn [fst snd].
      destruct (ofZ32 0 ltac:(lia)) as [Z1 Z2].
      split; [replace (r + 1 - r) with 1 in G1 by lia; lia|]. apply G3; assumption.
Qed.

(** following the README's rule forward: at most four and two *)
Lemma rule_block ps : forall o w g cur rs o' l, holds o w -> 0 <= g -> calmState g cur (cfState N (wt_cf w)) ->
  calm n g cur rs -> o_mm o = low (cfState N (wt_cf w)) -> (0 < B2R (o_pd o : f32))%R ->
  Forall plainPhase ps -> Forall2 (fun d r => stepIn K r d) (steps32 lm kForward (o_phase o) ps) rs ->
  processLoopW N cfg F kForward o ps = Ok (o', l) ->
  Forall (fun x => 0 <= fst (snd x) <= 4 /\ 0 <= snd (snd x) <= 2) l.
Proof.
  induction ps as [|p ps IH]; intros o w g cur rs o' l Ho Hg Hcs Hca Hm Hd Hp Hs E; cbn [processLoopW] in E.
  - inversion E. constructor.
  - apply bind_ok in E. destruct E as ([[o1 y] [c cu]] & E1 & E). apply bind_ok in E. destruct E as ([o2 m] & E2 & E).
    assert (El : l = (y, (c, cu)) :: m). { inversion E. reflexivity. } subst l. clear E.
    inversion_clear Hp as [|? ? Hp0 Hps]. cbn [steps32] in Hs. inversion Hs as [|? r ? rs' Hs0 Hss E3 E4]. subst rs. clear Hs E3.
    destruct (one_track o w kForward p r o1 y (c, cu) Ho Hp0 Hs0 E1) as (A1 & A2 & A3 & A4 & A5 & A6 & A7 & A8 & A9).
    assert (Hpos : (0 < B2R (step32 lm kForward (o_phase o) p))%R).
    { destruct Ho as ((nw & HO) & _ & Hq). destruct (step_facts N F L K nw o w HO kForward p ltac:(apply Hp0)) as (_ & Hfw & _).
      specialize (Hfw eq_refl). change (val N L (stepOf N kForward p (o_phase o))) with (B2R (step32 lm kForward (o_phase o) p)) in Hfw.
      destruct Hs0 as [Hne _]. destruct Hfw as [Hfw|Hfw]; [exact Hfw|]. exfalso. apply Hne. symmetry. exact Hfw. }
    set (pd := step32 lm kForward (o_phase o) p) in *. set (d := magOf N L pd) in *.
    rewrite <- A3 in Hss.
    assert (Hlow := outS_low N g cur r rs' n (cfState N (wt_cf w)) Hn Hg Hcs Hca).
    destruct (calm_step n g cur r (cfState N (wt_cf w)) Hn Hg Hcs) as [S1 S2].
    assert (Hnext : exists g', 0 <= g' /\ calm n g' r rs' /\ calmState g' r (cfStep n (cfState N (wt_cf w)) r)).
    { destruct Hca as [(-> & Hc)|(Hr1 & -> & Hc)].
      - exists (Z.max 0 (g - 1)). split; [lia|]. split; [exact Hc|]. now apply S1.
      - exists n. split; [lia|]. split; [exact Hc|]. now apply S2. }
    destruct Hnext as (g' & Hg' & Hca' & Hcs').
    constructor.
    2:{ eapply (IH o1 _ g' r rs' o2 m A1 Hg'); [rewrite A7; exact Hcs'|exact Hca'|rewrite A7; exact A9|rewrite A2; exact Hpos|exact Hps|exact Hss|exact E2]. }
    assert (Kt := K_two o w Ho). assert (Hol := oct_limit r pd ltac:(lia) Hs0).
    destruct Ho as ((nw & HO) & _ & Hq).
    destruct (outS_ok lm n (K - 1) (cfState N (wt_cf w)) r ltac:(lia) A5 A4) as (mi & gn & mu & gu & Eo & Cv & Rm & Mu & _).
    assert (Emm := A8). rewrite Eo in A8. assert (Hfst := outS_low_any n (K - 1) (cfState N (wt_cf w)) r Hn A5 A4).
    rewrite Eo in Hfst, Hlow. cbn [fst] in Hfst.
    destruct (cfStep n (cfState N (wt_cf w)) r) as [[l1 p1] x1]. destruct (cfState N (wt_cf w)) as [[l0 p0] x0].
    destruct Hlow as [_ Hlow]. destruct Hcs' as (-> & -> & H0 & H1).
    assert (Hmr : r - 1 <= mi <= r).
    { rewrite Hfst. destruct (Z.eq_dec g' 0) as [E0|E0]; [rewrite (H0 E0)|specialize (H1 ltac:(lia))]; lia. }
    assert (Emi : miOf N w d = mi) by (unfold miOf; rewrite A8; reflexivity).
    assert (Emu : muOf N w d = mu) by (unfold muOf; rewrite A8; reflexivity).
    assert (Egu : guOf N w d = gu) by (unfold guOf; rewrite A8; reflexivity).
    destruct (one_bound K nw o w kForward p o1 y c cu (r + 1) HO Hq ltac:(apply Hp0)) as (G1 & G2 & G4 & G3); fold pd; fold d; try rewrite Emi; try apply Hs0; try assumption; try lia.
    + left. change (val N L (o_pd o)) with (B2R (o_pd o : f32)). split; [exact Hd|]. rewrite Hm. lia.
    + fold pd in G1, G3, G4. fold d in G1, G3, G4. rewrite Emi in G1, G4. rewrite Emu in G4. rewrite Egu in G3. cbn [fst snd].
      split.
      * assert (2 ^ (r + 1 - mi) <= 2 ^ 2) by (apply Z.pow_le_mono_r; lia). lia.
      * split; [exact G2|]. destruct Mu as [Mu|(Mu & Zu & _)].
        -- specialize (G4 Mu ltac:(lia)). assert (2 ^ (r + 1 - mi - 1) <= 2 ^ 1) by (apply Z.pow_le_mono_r; lia). lia.
        -- destruct Cv as (_ & Fu & _). rewrite (G3 Zu Fu). lia.
Qed.
End Main.
