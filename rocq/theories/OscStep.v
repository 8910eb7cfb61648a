(** * OscStep: one sample -- totality, invariant and values, any number system with the
    index laws *)
From Coq Require Import ZArith List Bool Reals Lia Lra Arith.
From Flocq Require Import Core.
From Verif Require Import Num Maths CrossFader Wavetable Filters Osc NumFacts Laws CFFacts WTFacts SimdFacts OscFacts.
Import ListNotations.
Local Open Scope Z_scope.

Section OscStep.
Variable N : Num.
Variable L : Laws N.
Variable cfg : Cfg.
Variable F : Filt N.
Notation dbg := (dbg cfg).
Notation B := (batch cfg).
Notation n := (kNumCoeffs N F).
Notation upper := (kUpper N cfg F).
Notation fin := (fin N L).
Notation val := (val N L).
Notation OscOk := (OscOk N L F).
Notation pos := (pos N L).
Notation trap := (trap N L).

(** moves after which the start index is exact *)
Definition goodMove (o : Osc N) (mi : Z) : Prop :=
  ((0 < val (o_pd o))%R /\ o_mm o - 1 <= mi) \/
  ((val (o_pd o) < 0)%R /\
     (mi = o_mm o \/ mi = o_mm o - 1 \/ (o_mm o <= mi /\ o_j o mod 2 ^ (mi - o_mm o) = 0))).

(** the table after the cross-fader moved by step size [d], and its answer *)
Definition wtNext (w : WT N) (d : T N) : WT N :=
  mkWT (wt_slots w) (wt_ph w)
       (cfWith N (wt_cf w) (cfStep (cf_num (wt_cf w)) (cfState N (wt_cf w)) (req N (wt_cf w) d))).
Definition mmiOf (w : WT N) (d : T N) : MMI N := cfOut N (wt_cf w) (req N (wt_cf w) d).
Definition miOf (w : WT N) (d : T N) : Z := fst (fst (fst (mmiOf w d))).
Definition muOf (w : WT N) (d : T N) : Z := snd (fst (mmiOf w d)).
Definition gOf (w : WT N) (d : T N) : T N := snd (fst (fst (mmiOf w d))).
Definition guOf (w : WT N) (d : T N) : T N := snd (mmiOf w d).

Lemma wtNext_ok K nw w d : WTok K nw w -> CFok N (wt_cf w) ->
  (dbg = true -> tlt N (t0 N) d = true) ->
  wt_findMipMapIndices N dbg w d = Ok (wtNext w d, mmiOf w d) /\
  WTok K nw (wtNext w d) /\ CFok N (wt_cf (wtNext w d)) /\
  cf_num (wt_cf (wtNext w d)) = cf_num (wt_cf w) /\
  cf_scale (wt_cf (wtNext w d)) = cf_scale (wt_cf w) /\
  0 <= miOf w d < K - 1 /\
  (muOf w d = miOf w d + 1 \/ muOf w d = miOf w d) /\
  (muOf w d < K - 1 \/ guOf w d = t0 N).
Proof.
  intros HW HC Hd. unfold wt_findMipMapIndices.
  assert (E := newIndices_eq N dbg (wt_cf w) d HC Hd).
  destruct (newIndices_ok N dbg (wt_cf w) d HC Hd) as (c' & mi & g & mu & gu & E' & H1 & H2 & H3 & H4 & H5 & H6).
  assert (S := wo_scale _ _ _ _ HW).
  rewrite E in E'. unfold miOf, muOf, guOf, mmiOf, wtNext.
  set (X := cfWith N _ _) in *. set (Y := cfOut N _ _) in *.
  assert (Ec : X = c') by congruence. assert (Em : Y = (mi, g, mu, gu)) by congruence.
  rewrite E. cbn [bind]. clearbody X Y. subst X Y. cbn [fst snd wt_cf wt_slots wt_ph].
  split; [reflexivity|]. split; [|split; [|split; [|split; [|split; [|split]]]]]; auto.
  - destruct HW. constructor; cbn [wt_slots wt_ph wt_cf]; auto. rewrite H3. assumption.
  - lia.
  - destruct H5; intuition.
  - destruct H6; [left; lia|now right].
Qed.

Lemma mmiOf_eta w d : mmiOf w d = (miOf w d, gOf w d, muOf w d, guOf w d).
Proof. unfold miOf, gOf, muOf, guOf. destruct (mmiOf w d) as [[[a b] c] e]. reflexivity. Qed.

Section Idx.
Variables (K nw : Z) (o : Osc N) (w : WT N).
Hypothesis HO : OscOk K nw o w.
Notation P := (o_phred o).

(** facts common to both directions *)
Record IdxOk (phase d : T N) (x : Idx N) : Prop := {
  xo_wt : ix_wt N x = wtNext w d;
  xo_mi : ix_mi N x = miOf w d;
  xo_w : ix_w N x = gOf w d;
  xo_mu : ix_mu N x = muOf w d;
  xo_wu : ix_wu N x = guOf w d;
  xo_phred : ix_phred N x = phase;
  xo_len : ix_len N x = 2 ^ (K - miOf w d);
  xo_jmin : 0 <= ix_jmin_red N x < 2 ^ (K - miOf w d);
  xo_jmax : 0 <= ix_jmax_p_red N x < 2 ^ (K - miOf w d)
}.

Definition startAt (jm mi : Z) : Prop :=
  (IZR jm <= pos K mi P <= IZR jm + 1)%R.

Lemma pos0 mi : 0 <= mi < K - 1 -> val P = 0%R <-> pos K mi P = 0%R.
Proof.
  intros Hmi. assert (A := IZR_pow2_pos (K - mi)). assert (HK := K_range N L F K nw o w HO).
  specialize (A ltac:(lia)). unfold OscFacts.pos. split; [intros ->; ring|].
  intros H. apply Rmult_integral in H. destruct H; [assumption|lra].
Qed.

(** an exact index at phase 0 is 0 *)
Lemma adjustJ_zero mi j : 0 <= mi < K - 1 -> ~ (trap o /\ mi < o_mm o) -> val P = 0%R ->
  adjustJ N (computePhaseVector N (2 ^ (K - mi))) mi (o_mm o) (o_j o) (o_pd o) P = Ok j -> j = 0.
Proof.
  intros Hmi Ht HP E. assert (HK := K_range N L F K nw o w HO).
  assert (Hm := oo_mm _ _ _ _ _ _ _ HO).
  assert (Hz := proj1 (pos0 (o_mm o) Hm) HP).
  assert (Hj : o_j o = 0).
  { destruct (Rle_or_lt 0 (val (o_pd o))) as [H|H].
    - rewrite (oo_jf _ _ _ _ _ _ _ HO H), Hz. apply (Zfloor_IZR 0).
    - rewrite (oo_jb _ _ _ _ _ _ _ HO H), Hz. apply (Zceil_IZR 0). }
  destruct (Rle_or_lt 0 (val (o_pd o))) as [H|H].
  - destruct (adjustJ_ok N L F K nw o w HO mi Hmi Ht) as (j1 & E1 & R1 & G1 & _).
    rewrite E in E1. inversion E1; subst j1. destruct (G1 H) as [_ G2].
    rewrite (proj1 (pos0 mi Hmi) HP) in G2. assert (j <= 0) by (now apply le_IZR). lia.
  - assert (Hge : o_mm o <= mi).
    { destruct (Z_lt_le_dec mi (o_mm o)); [|lia]. exfalso. apply Ht. split; [|assumption].
      split; [lra|assumption]. }
    revert E. unfold adjustJ. rewrite Hj.
    destruct (Z.ltb_spec (o_mm o) mi).
    + rewrite ishr_ok by lia. intros E; inversion E. now rewrite Z.div_0_l by (apply Z.pow_nonzero; lia).
    + destruct (Z.ltb_spec mi (o_mm o)); [lia|]. now intros E; inversion E.
Qed.

Lemma idxFwd_ok phase pd :
  okPhase N L phase -> fin pd -> (0 <= val pd)%R ->
  (dbg = true -> (0 < val pd <= /2)%R) ->
  ~ (trap o /\ miOf w pd < o_mm o) ->
  exists x, idxFwd N cfg o w phase pd = Ok x /\ IdxOk phase pd x /\
    ix_j N x = Zfloor (pos K (miOf w pd) phase) /\
    ix_jmax_p_red N x = Zfloor (pos K (miOf w pd) phase) /\
    (playable (val P) ->
     goodMove o (miOf w pd) \/ (val (o_pd o) = 0%R /\ o_mm o <= miOf w pd) ->
     if Req_bool (val P) 0 then ix_jmin_red N x = 2 ^ (K - miOf w pd) - 1
     else startAt (ix_jmin_red N x) (miOf w pd)) /\
    (val P = 0%R -> ix_jmin_red N x = 2 ^ (K - miOf w pd) - 1).
Proof.
  intros Hph Hf Hpd Hdb Ht. assert (HK := K_range N L F K nw o w HO).
  destruct (zero_spec N L) as [Z1 Z2].
  destruct (half_spec N L 1 ltac:(lia)) as [Hh1 Hh2].
  destruct (wtNext_ok K nw w pd (oo_W _ _ _ _ _ _ _ HO) (oo_cf _ _ _ _ _ _ _ HO))
    as (E1 & W1 & C1 & _ & _ & M1 & _ & _).
  { intros D. rewrite (lt_spec N L _ _ Z1 Hf), Z2. apply Rlt_bool_true. apply Hdb, D. }
  unfold idxFwd. rewrite assert_ok.
  2:{ intros D. specialize (Hdb D).
      rewrite (lt_spec N L _ _ Z1 Hf), Z2, (le_spec N L _ _ Hf Hh1), Hh2.
      rewrite Rlt_bool_true, Rle_bool_true by lra. reflexivity. }
  cbn [bind]. rewrite E1. cbn [bind]. rewrite mmiOf_eta. set (mi := miOf w pd) in *.
  unfold wt_phases. rewrite (wo_ph _ _ _ _ W1 mi M1). cbn [bind].
  rewrite (reduce_phase N L dbg phase Hph). cbn [bind].
  rewrite (wt_len_ok N K nw _ mi W1 M1). cbn [bind].
  destruct (adjustJ_ok N L F K nw o w HO mi M1 Ht) as (j & Ej & Rj & G1 & G2 & G3 & G4).
  assert (Jz := adjustJ_zero mi j M1 Ht).
  rewrite Ej. cbn [bind].
  assert (Hl := len_pos N K nw w mi (oo_W _ _ _ _ _ _ _ HO) M1).
  assert (Hb := pos_bounds N L F K nw o w HO mi M1).
  destruct Hph as [Hp1 Hp2].
  assert (Fl := floor_pos_range (val phase) (K - mi) Hp2 ltac:(lia)).
  rewrite (le_spec N L _ _ Z1 (oo_pd _ _ _ _ _ _ _ HO)), Z2.
  (* the two ways of computing the start index *)
  assert (Hpj : exists pj, (if Rle_bool 0 (val (o_pd o))
      then let! p := znth (computePhaseVector N (2 ^ (K - mi))) j in chk (j + msign N (tsub N P p))
      else Ok j) = Ok pj /\ 0 <= pj <= 2 ^ (K - mi) /\ (val P = 0%R -> pj = 0) /\
      (playable (val P) -> goodMove o mi \/ (val (o_pd o) = 0%R /\ o_mm o <= mi) ->
       (pj = 0 <-> val P = 0%R) /\ startAt (pj - 1) mi)).
  { destruct (Rle_bool_spec 0 (val (o_pd o))) as [H|H].
    - destruct (G1 H) as [Gj1 Gj2].
      rewrite znth_phaseVector by lia. cbn [bind].
      destruct (sgn_grid N L F K nw o w HO mi j M1 Rj) as (S1 & S2 & S3 & S4 & S5).
      set (sg := msign N _) in *. specialize (S2 Gj2).
      rewrite chk_ok by (unfold int_min, int_max; lia).
      exists (j + sg). split; [reflexivity|]. split; [lia|]. split.
      { intros HP. assert (j = 0) by (now apply Jz). assert (A0 := proj1 (pos0 mi M1) HP).
        rewrite A0, H0 in S3. specialize (S3 ltac:(lra)). lia. }
      intros Hpl Hg.
      assert (Hs : (IZR j <= pos K mi P <= IZR j + 1)%R).
      { destruct Hg as [[[Hp Hm]|[Hp _]]|[Hp Hm]].
        - now apply G2.
        - lra.
        - assert (A := G3 H Hm). lra. }
      destruct (Req_dec (pos K mi P) (IZR j)) as [Eq|Ne].
      + assert (sg = 0) by (specialize (S3 ltac:(lra)); lia).
        replace (j + sg) with j by lia. split.
        * split; [intros ->; apply (pos0 mi M1); assumption|].
          intros HP. apply (Jz HP Ej).
        * unfold startAt. rewrite minus_IZR. lra.
      + assert (sg = 1) by (apply S4; [assumption|lra]).
        split.
        * split; [intros; lia|]. intros HP. apply (pos0 mi M1) in HP.
          assert (IZR j <= 0)%R by lra. apply le_IZR in H1. assert (j = 0) by lia. subst j. lra.
        * unfold startAt. rewrite minus_IZR, plus_IZR, H0. lra.
    - exists j. split; [reflexivity|]. split; [lia|]. split; [intros HP; now apply Jz|].
      intros Hpl Hg.
      assert (Hs : (IZR j - 1 <= pos K mi P <= IZR j)%R).
      { destruct Hg as [[[Hp Hm]|[Hp Hm]]|[Hp Hm]]; [lra| |lra]. now apply G4. }
      split.
      + split; [|intros HP; now apply Jz]. intros ->. apply (pos0 mi M1). lra.
      + unfold startAt. rewrite minus_IZR. lra. }
  destruct Hpj as (pj & Epj & Rpj & Zpj & Spj). rewrite Epj. cbn [bind].
  rewrite (floor_pos_spec N L phase (K - mi) Hp1 ltac:(lra) ltac:(lia)). cbn [bind].
  rewrite chk_ok by (unfold int_min, int_max; lia). cbn [bind].
  rewrite reduceZ_spec by (unfold int_max; lia). cbn [bind].
  rewrite reduceZ_spec by (unfold int_max; lia). cbn [bind].
  eexists. split; [reflexivity|]. split.
  { constructor; cbn; auto.
    - apply Z.mod_pos_bound; lia.
    - apply Z.mod_pos_bound; lia. }
  cbn. split; [reflexivity|]. split; [apply Z.mod_small; exact Fl|].
  assert (Lst : val P = 0%R -> (pj - 1) mod 2 ^ (K - mi) = 2 ^ (K - mi) - 1).
  { intros HP. rewrite (Zpj HP). replace (0 - 1) with (-1) by lia.
    replace (-1) with (2 ^ (K - mi) - 1 + (-1) * 2 ^ (K - mi)) by lia.
    rewrite Z.mod_add by lia. apply Z.mod_small. lia. }
  split; [|exact Lst].
  intros Hpl Hg. destruct (Spj Hpl Hg) as [A1 A2].
  destruct (Req_bool_spec (val P) 0) as [HP|HP].
  - exact (Lst HP).
  - assert (pj <> 0) by (intros E; now apply HP, A1).
    rewrite Z.mod_small by lia. assumption.
Qed.

Lemma idxBwd_ok phase pd :
  okPhase N L phase -> fin pd -> (dbg = true -> (-/2 <= val pd < 0)%R) ->
  ~ (trap o /\ miOf w (tabs N pd) < o_mm o) ->
  exists x, idxBwd N cfg o w phase pd = Ok x /\ IdxOk phase (tabs N pd) x /\
    ix_j N x = Zceil (pos K (miOf w (tabs N pd)) phase) /\
    ix_jmin N x = Zceil (pos K (miOf w (tabs N pd)) phase) /\
    ix_jmin_red N x = (Zceil (pos K (miOf w (tabs N pd)) phase) - 1) mod 2 ^ (K - miOf w (tabs N pd)) /\
    (playable (val P) -> goodMove o (miOf w (tabs N pd)) ->
     startAt (ix_jmax_p_red N x) (miOf w (tabs N pd))).
Proof.
  intros Hph Hf Hdb Ht. assert (HK := K_range N L F K nw o w HO).
  destruct (zero_spec N L) as [Z1 Z2].
  destruct (half_spec N L (-1) ltac:(lia)) as [Hh1 Hh2].
  destruct (abs_spec N L pd Hf) as [Ha1 Ha2].
  destruct (wtNext_ok K nw w (tabs N pd) (oo_W _ _ _ _ _ _ _ HO) (oo_cf _ _ _ _ _ _ _ HO))
    as (E1 & W1 & C1 & _ & _ & M1 & _ & _).
  { intros D. rewrite (lt_spec N L _ _ Z1 Ha1), Z2, Ha2. apply Rlt_bool_true.
    specialize (Hdb D). apply Rabs_pos_lt. lra. }
  unfold idxBwd. rewrite assert_ok.
  2:{ intros D. specialize (Hdb D).
      rewrite (lt_spec N L _ _ Hf Z1), Z2, (le_spec N L _ _ Hh1 Hf), Hh2.
      rewrite Rlt_bool_true, Rle_bool_true by lra. reflexivity. }
  cbn [bind]. rewrite E1. cbn [bind]. rewrite mmiOf_eta. set (mi := miOf w (tabs N pd)) in *.
  unfold wt_phases. rewrite (wo_ph _ _ _ _ W1 mi M1). cbn [bind].
  rewrite (reduce_phase N L dbg phase Hph). cbn [bind].
  rewrite (wt_len_ok N K nw _ mi W1 M1). cbn [bind].
  destruct (adjustJ_ok N L F K nw o w HO mi M1 Ht) as (j & Ej & Rj & G1 & G2 & G3 & G4).
  rewrite Ej. cbn [bind].
  assert (Hl := len_pos N K nw w mi (oo_W _ _ _ _ _ _ _ HO) M1).
  assert (Hb := pos_bounds N L F K nw o w HO mi M1).
  destruct Hph as [Hp1 Hp2].
  assert (Cl := ceil_pos_range (val phase) (K - mi) Hp2 ltac:(lia)).
  rewrite (le_spec N L _ _ (oo_pd _ _ _ _ _ _ _ HO) Z1), Z2.
  assert (Hpj : exists pj, (if Rle_bool (val (o_pd o)) 0
      then let! p := znth (computePhaseVector N (2 ^ (K - mi))) j in chk (j + msign N (tsub N P p))
      else Ok j) = Ok pj /\ 0 <= pj <= 2 ^ (K - mi) /\
      (playable (val P) -> goodMove o mi -> pj < 2 ^ (K - mi) /\ startAt pj mi)).
  { destruct (Rle_bool_spec (val (o_pd o)) 0) as [H|H].
    - rewrite znth_phaseVector by lia. cbn [bind].
      destruct (sgn_grid N L F K nw o w HO mi j M1 Rj) as (S1 & S2 & S3 & S4 & S5).
      set (sg := msign N _) in *.
      assert (0 <= j + sg <= 2 ^ (K - mi)).
      { split.
        - destruct (Z.eq_dec j 0) as [->|]; [|lia]. specialize (S2 ltac:(lra)). lia.
        - destruct (Z.eq_dec j (2 ^ (K - mi))) as [E|]; [|lia].
          rewrite E in S3. specialize (S3 ltac:(lra)). lia. }
      rewrite chk_ok by (unfold int_min, int_max; lia).
      exists (j + sg). split; [reflexivity|]. split; [lia|].
      intros Hpl Hg.
      assert (Hs : (IZR j - 1 <= pos K mi P <= IZR j)%R).
      { destruct Hg as [[Hp Hm]|[Hp Hm]]; [lra|]. now apply G4. }
      assert (startAt (j + sg) mi).
      { unfold startAt. destruct (Req_dec (pos K mi P) (IZR j)) as [Eq|Ne].
        - assert (sg = 0) by (specialize (S2 ltac:(lra)); specialize (S3 ltac:(lra)); lia).
          rewrite plus_IZR, H1. lra.
        - assert (sg = -1) by (apply S5; [assumption|lra]). rewrite plus_IZR, H1. lra. }
      split; [|assumption]. apply lt_IZR. unfold startAt in H1. lra.
    - destruct (G1 (Rlt_le _ _ H)) as [Gj1 Gj2].
      exists j. split; [reflexivity|]. split; [lia|].
      intros Hpl Hg. split; [assumption|].
      destruct Hg as [[Hp Hm]|[Hp Hm]]; [|lra]. now apply G2. }
  destruct Hpj as (pj & Epj & Rpj & Spj). rewrite Epj. cbn [bind].
  rewrite (ceil_pos_spec N L phase (K - mi) Hp1 ltac:(lra) ltac:(lia)). cbn [bind].
  rewrite chk_ok by (unfold int_min, int_max; lia). cbn [bind].
  rewrite reduceZ_spec by (unfold int_max; lia). cbn [bind].
  rewrite reduceZ_spec by (unfold int_max; lia). cbn [bind].
  eexists. split; [reflexivity|]. split.
  { constructor; cbn; auto.
    - apply Z.mod_pos_bound; lia.
    - apply Z.mod_pos_bound; lia. }
  cbn. split; [reflexivity|]. split; [reflexivity|]. split; [reflexivity|].
  intros Hpl Hg. destruct (Spj Hpl Hg) as [A1 A2]. now rewrite Z.mod_small by lia.
Qed.

End Idx.
End OscStep.
