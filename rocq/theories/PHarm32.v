(** * PHarm32: proof support for C55 *)
From Coq Require Import ZArith List Bool Reals Lia Lra Arith.
From Flocq Require Import Core IEEE754.BinarySingleNaN.
From Verif Require Import Num Maths CrossFader Wavetable Filters Osc Spec SpecC SpecT NumFacts Laws CFFacts
  WTFacts BuildFacts SimdFacts OscFacts OscStep OscRun OscHist CFHist PTables PHist RNum RLaws B32 B32Facts B32Laws
  SpecF SpecO SpecW PCross PWork Prop_Seg.
From Coquelicot Require Import Coquelicot.
From Verif Require Import SpecE SpecX SpecV SpecG SpecH SpecR ExactMath ExactStep ExactRun ExactHist ExactCover ExactSig ExactLaws
  ExactMove PExact ConvFacts PGain PHarm PApx PTerm PVal PSum PTrack PTrackS PTrackH PCover32.
Import ListNotations.
Local Open Scope R_scope.

(** ** The waveform is as steep as its segments *)
Lemma wave_lip ys B x y : (0 < zlen ys)%Z ->
  (forall j, Rabs (cyc ys (j + 1) - cyc ys j) * IZR (zlen ys) <= B) ->
  Rabs (wave ys y - wave ys x) <= B * Rabs (y - x).
Proof.
  intros Hl Hs. set (L := IZR (zlen ys)) in *. assert (HL : 0 < L) by (apply IZR_lt; exact Hl).
  assert (HB : 0 <= B) by (eapply Rle_trans; [|apply (Hs 0%Z)]; apply Rmult_le_pos; [apply Rabs_pos|lra]).
  assert (Cell : forall j a b, IZR j <= a * L <= IZR j + 1 -> IZR j <= b * L <= IZR j + 1 ->
             Rabs (wave ys b - wave ys a) <= B * Rabs (b - a)).
  { intros j a b Ha Hb. rewrite (wave_on ys j a HL Ha), (wave_on ys j b HL Hb). fold L.
    match goal with |- Rabs ?e <= _ => replace e with ((cyc ys (j + 1) - cyc ys j) * L * (b - a)) by ring end.
    rewrite !Rabs_mult. apply Rmult_le_compat_r; [apply Rabs_pos|]. rewrite (Rabs_pos_eq L) by lra. apply Hs. }
  assert (Up : forall k x y, x <= y -> (Zfloor (y * L) <= Zfloor (x * L) + Z.of_nat k)%Z ->
             Rabs (wave ys y - wave ys x) <= B * Rabs (y - x)).
  { induction k as [|k IH]; intros a b Hab Hk.
    - assert (Fa := Zfloor_lb (a * L)). assert (Fa' := Zfloor_ub (a * L)).
      assert (Fb := Zfloor_lb (b * L)). assert (Fb' := Zfloor_ub (b * L)).
      assert (Hm : a * L <= b * L) by (apply Rmult_le_compat_r; lra).
      assert (E : Zfloor (b * L) = Zfloor (a * L)).
      { apply Z.le_antisymm; [lia|]. now apply Zfloor_le. }
      rewrite E in *. apply (Cell (Zfloor (a * L))); lra.
    - assert (Fa := Zfloor_lb (a * L)). assert (Fa' := Zfloor_ub (a * L)).
      assert (Fb := Zfloor_lb (b * L)). assert (Fb' := Zfloor_ub (b * L)).
      set (j := Zfloor (a * L)) in *.
      destruct (Rle_or_lt (b * L) (IZR j + 1)) as [Hb|Hb].
      + assert (Hm : a * L <= b * L) by (apply Rmult_le_compat_r; lra). apply (Cell j); lra.
      + set (m := (IZR j + 1) / L).
        assert (Em : m * L = IZR j + 1) by (unfold m; field; lra).
        assert (A1 : a <= m) by (apply Rmult_le_reg_r with L; lra).
        assert (A2 : m <= b) by (apply Rmult_le_reg_r with L; lra).
        assert (D1 := Cell j a m ltac:(lra) ltac:(lra)).
        assert (D2 := IH m b A2).
        rewrite Em in D2. replace (IZR j + 1) with (IZR (j + 1)) in D2 by (rewrite plus_IZR; reflexivity). rewrite Zfloor_IZR in D2.
        specialize (D2 ltac:(lia)).
        replace (wave ys b - wave ys a) with ((wave ys b - wave ys m) + (wave ys m - wave ys a)) by ring.
        eapply Rle_trans; [apply Rabs_triang|].
        rewrite (Rabs_pos_eq (b - a)) by lra. rewrite (Rabs_pos_eq (b - m)) in D2 by lra. rewrite (Rabs_pos_eq (m - a)) in D1 by lra.
        replace (B * (b - a)) with (B * (b - m) + B * (m - a)) by ring. lra. }
  destruct (Rle_or_lt x y) as [H|H].
  - apply (Up (Z.to_nat (Zfloor (y * L) - Zfloor (x * L))) x y H). lia.
  - rewrite (Rabs_minus_sym y x), (Rabs_minus_sym (wave ys y)).
    apply (Up (Z.to_nat (Zfloor (x * L) - Zfloor (y * L))) y x); [lra|lia].
Qed.

Lemma settled_out32 lm n r s : (settleIn n r s <= 0)%Z -> (1 <= n)%Z -> (0 <= fst (fst s) <= n)%Z ->
  outS (B32 lm) n s r = (r, f32_ofZ 1, (r + 1)%Z, f32_ofZ 0).
Proof.
  destruct s as [[l p] x]. cbn [fst]. intros H Hn Hl. unfold settleIn in H. unfold outS.
  destruct (Z.eqb_spec x r) as [E|Hx]; [subst r|].
  - replace l with 0%Z by lia. rewrite !Z.eqb_refl. reflexivity.
  - destruct (Z.eqb_spec l 0); [lia|]. destruct (Z.eqb_spec p r); lia.
Qed.

Lemma path_cont (ys zs : list R) (a b q d u : R) :
  continuous (fun u => a * wave ys (q + d * u) + b * wave zs (q + d * u)) u.
Proof.
  apply (@continuous_plus R_UniformSpace R_AbsRing R_NormedModule).
  - apply (@continuous_scal_r R_UniformSpace R_AbsRing R_NormedModule a (fun u => wave ys (q + d * u))). apply wave_path_cont.
  - apply (@continuous_scal_r R_UniformSpace R_AbsRing R_NormedModule b (fun u => wave zs (q + d * u))). apply wave_path_cont.
Qed.

Section Track.
Variable lm : Libm.
Hypothesis Hlog : log2_exact lm.
Variable src : Resampler (B32 lm).
Variable dbg : bool.
Variable f : FilterType.
Variable c : Z.
Notation N := (B32 lm).
Notation F := (filt RNum f).
Notation S0 := (bpow radix2 c).

(** what a reachable ideal state is known to satisfy *)
Record live32 (st : Ideal32 lm) : Prop := {
  l3_tab : table32 lm src dbg (i_K lm st) (i_nw lm st) (i_wfs lm st) (i_tab lm st);
  l3_tame : tameAll lm src c (i_wfs lm st) (i_nw lm st) (i_K lm st);
  l3_wf : (0 <= i_wf lm st < i_nw lm st)%Z;
  l3_mem : length (i_mem lm st) = length (f_r F) }.

Lemma entry_len32 st k : live32 st -> (0 <= k <= i_K lm st - 2)%Z ->
  (0 < zlen (List.map (@B2R 24 128) (entry32 lm src (i_wfs lm st) (i_K lm st) (i_wf lm st) k)))%Z /\
  tame c (entry32 lm src (i_wfs lm st) (i_K lm st) (i_wf lm st) k).
Proof.
  intros [HT Ht Hwf Hm] Hk. split; [|apply Ht; assumption].
  destruct (table32_ok lm Hlog src dbg _ _ _ _ HT) as (Wf & Ct & _).
  destruct (slot_of N src _ _ _ _ (i_wf lm st) k Ct Hwf Hk) as (s & Es & Ss & Ls & _).
  unfold zlen. rewrite map_length. change (0 < @zlen (T N) (entry32 lm src (i_wfs lm st) (i_K lm st) (i_wf lm st) k))%Z.
  unfold entry32. rewrite Ls. apply Z.pow_pos_nonneg; lia.
Qed.

Lemma curve_bound st k x : live32 st -> (0 <= k <= i_K lm st - 2)%Z -> Rabs (curve lm src st k x) <= S0.
Proof.
  intros L Hk. destruct (entry_len32 st k L Hk) as [Hl [Hy _]]. unfold curve. apply wave_bound; [exact Hl|].
  intros y Hin. apply in_map_iff in Hin. destruct Hin as (z & <- & Hz). now apply Hy.
Qed.
Lemma curve_lip st k x y : live32 st -> (0 <= k <= i_K lm st - 2)%Z ->
  Rabs (curve lm src st k y - curve lm src st k x) <= S0 * Rabs (y - x).
Proof.
  intros L Hk. destruct (entry_len32 st k L Hk) as [Hl [_ Hs]]. unfold curve. apply wave_lip; [exact Hl|].
  intros j. specialize (Hs j). unfold zlen in *. rewrite map_length. exact Hs.
Qed.
Lemma curve_per st k x j : live32 st -> (0 <= k <= i_K lm st - 2)%Z ->
  curve lm src st k (x + IZR j) = curve lm src st k x.
Proof. intros L Hk. apply wave_periodic. apply (entry_len32 st k L Hk). Qed.

Lemma sample_live32 dir st p st1 y : live32 st -> sample32 lm src dbg f dir st p st1 y -> live32 st1.
Proof.
  intros [HT Ht Hwf Hm] Hs. destruct Hs as [s d k w' m g mu gu mem _ _ _ _ _ _ Hf _ Hmem].
  constructor; cbn [i_K i_nw i_wfs i_tab i_wf i_mem]; auto.
  - eapply t32_ask; eassumption.
  - rewrite Hmem. now rewrite (length_allP F (shipped_exact f)).
Qed.

Lemma sample_gains dir st p : live32 st -> B2R (step32 lm dir (i_phase lm st) p) <> 0 -> forall w' m g mu gu,
  wt_findMipMapIndices N dbg (i_tab lm st) (tabs N (step32 lm dir (i_phase lm st) p)) = Ok (w', (m, g, mu, gu)) ->
  convex32 g gu /\ (0 <= m <= i_K lm st - 2)%Z /\ ((0 <= mu <= i_K lm st - 2)%Z \/ B2R gu = 0).
Proof.
  intros L Hnz w' m g mu gu Hf. destruct L as [HT Ht Hwf Hm].
  destruct (table32_ok lm Hlog src dbg _ _ _ _ HT) as (HW & Ct & nf & Hre & Hnf).
  destruct (reach_ok lm Hlog src dbg _ nf _ Hre) as (HK & _ & HSc & En & Hm' & HCf). specialize (HCf Hnf).
  set (sp := step32 lm dir (i_phase lm st) p) in *.
  assert (Fs : fin32 sp = true).
  { destruct (fin32 sp) eqn:E; [reflexivity|]. exfalso. apply Hnz. destruct sp; try discriminate; reflexivity. }
  destruct (babs_val sp Fs) as [Fa Va]. change (@Babs 24 128 sp) with (tabs N sp) in Fa, Va.
  destruct (entryFor_some (i_K lm st) (v32 (tabs N sp)) ltac:(lia)) as (r & Hr').
  destruct (find32 lm Hlog src (mkCfg dbg 1) (le_n 1) _ _ _ _ (tabs N sp) r HT Fa ltac:(rewrite Va; now apply Rabs_pos_lt) Hr')
    as (w2 & Ef & Es2 & En2 & HT2 & Hn1 & HK2).
  cbn [Osc.dbg] in Ef. rewrite Ef in Hf.
  set (n := cf_num (wt_cf (i_tab lm st))) in *. set (s := cfState N (wt_cf (i_tab lm st))) in *.
  assert (Eo : outS N n s r = (m, g, mu, gu)) by congruence.
  assert (Rr : (0 <= r <= i_K lm st - 2)%Z) by (apply Hr').
  destruct (proj1 (CFok_inv N (wt_cf (i_tab lm st))) HCf) as [Hn2 Hi].
  assert (Hnn : (1 <= n <= int_max)%Z) by lia.
  assert (Hinv : cfInv n (i_K lm st - 1) s).
  { assert (B' : zlen (cf_scale (wt_cf (i_tab lm st))) = (i_K lm st - 1)%Z) by apply HSc. rewrite B' in Hi. exact Hi. }
  destruct (outS_ok lm n (i_K lm st - 1) s r Hnn ltac:(lia) Hinv) as (m1 & g1 & mu1 & gu1 & Eo1 & Gc & Gm & Gu1 & Gu2).
  rewrite Eo in Eo1. assert (m = m1) by congruence. assert (g = g1) by congruence. assert (mu = mu1) by congruence. assert (gu = gu1) by congruence.
  subst m1 g1 mu1 gu1. split; [exact Gc|]. split; [lia|].
  destruct Gu2 as [Hmu|E0].
  - left. destruct Gu1 as [->|(-> & _)]; lia.
  - right. rewrite E0. exact (proj2 (ofZ32 0 ltac:(lia))).
Qed.

(** the mixed signal of one sample *)
Lemma sample_sig dir st p st1 y r : live32 st -> sample32 lm src dbg f dir st p st1 y ->
  stepIn (i_K lm st) r (step32 lm dir (i_phase lm st) p) ->
  let n := cf_num (wt_cf (i_tab lm st)) in
  let s := cfState N (wt_cf (i_tab lm st)) in
  (1 <= n)%Z /\ (0 <= fst (fst s) <= n)%Z /\ (0 <= r <= i_K lm st - 2)%Z /\
  cf_num (wt_cf (i_tab lm st1)) = n /\ cfState N (wt_cf (i_tab lm st1)) = cfStep n s r /\
  exists d k (g gu : R) m mu, B2R (i_phase lm st) + d = B2R p + IZR k /\ Rabs d < / 2 /\
    let x := fun u => g * curve lm src st m (B2R (i_phase lm st) + d * u)
                    + gu * curve lm src st mu (B2R (i_phase lm st) + d * u) in
    (forall u, continuous x u) /\ (forall u, Rabs (x u) <= 2 * S0) /\
    ((settleIn n r s <= 0)%Z -> forall u, x u = curve lm src st r (B2R (i_phase lm st) + d * u)) /\
    i_mem lm st1 = allPoles F x (i_mem lm st) /\ y = audible (i_mem lm st1) /\ i_phase lm st1 = p.
Proof.
  intros L Hs Hin n s.
  destruct Hs as [s0 d k w' m g mu gu mem Hp Es Hnz Hlt Hd Hd2 Hf Htr Hmem]. subst s0.
  assert (La := L). destruct La as [HT Ht Hwf Hm].
  destruct (table32_ok lm Hlog src dbg _ _ _ _ HT) as (HW & Ct & nf & Hre & Hnf).
  destruct (reach_ok lm Hlog src dbg _ nf _ Hre) as (HK & _ & HSc & En & Hm' & HCf). specialize (HCf Hnf).
  destruct Hin as (_ & _ & Hr).
  set (sp := step32 lm dir (i_phase lm st) p) in *.
  assert (Fs : fin32 sp = true).
  { destruct (fin32 sp) eqn:E; [reflexivity|]. exfalso. apply Hnz. destruct sp; try discriminate; reflexivity. }
  destruct (babs_val sp Fs) as [Fa Va]. change (@Babs 24 128 sp) with (tabs N sp) in Fa, Va.
  assert (Hr' : entryFor (i_K lm st) (v32 (tabs N sp)) r) by (rewrite Va; exact Hr).
  destruct (find32 lm Hlog src (mkCfg dbg 1) (le_n 1) _ _ _ _ (tabs N sp) r HT Fa ltac:(rewrite Va; now apply Rabs_pos_lt) Hr')
    as (w2 & Ef & Es2 & En2 & HT2 & Hn1 & HK2).
  cbn [Osc.dbg] in Ef. rewrite Ef in Hf. assert (w2 = w') by congruence. subst w2.
  assert (Eo : outS N n s r = (m, g, mu, gu)) by (unfold n, s; congruence).
  assert (Rr : (0 <= r <= i_K lm st - 2)%Z) by (apply Hr).
  destruct (proj1 (CFok_inv N (wt_cf (i_tab lm st))) HCf) as [Hn2 Hi].
  assert (Hl : (0 <= fst (fst s) <= n)%Z).
  { unfold s, n, cfState in *. cbn [fst]. unfold cfInv in Hi. lia. }
  assert (Hnn : (1 <= n <= int_max)%Z) by (unfold n; rewrite En; lia).
  assert (Hinv : cfInv n (i_K lm st - 1) s).
  { assert (B' : zlen (cf_scale (wt_cf (i_tab lm st))) = (i_K lm st - 1)%Z) by apply HSc. rewrite B' in Hi. exact Hi. }
  destruct (outS_ok lm n (i_K lm st - 1) s r Hnn ltac:(lia) Hinv) as (m1 & g1 & mu1 & gu1 & Eo1 & Gc & Gm & Gu1 & Gu2).
  rewrite Eo in Eo1. injection Eo1 as <- <- <- <-.
  cbn [i_K i_tab i_phase i_mem].
  repeat (split; [first [assumption|lia|reflexivity]|]).
  exists d, k, (B2R g), (B2R gu), m, mu. split; [exact Hd|]. split; [exact Hd2|].
  cbv zeta. split; [|split; [|split; [|split; [exact Hmem|split; reflexivity]]]].
  - intros u. unfold curve. apply path_cont.
  - intros u. set (X := B2R (i_phase lm st) + d * u).
    destruct Gc as (_ & _ & G1 & G2 & _ & _).
    assert (A1 := curve_bound st m X L ltac:(lia)). assert (P0 := bpow_gt_0 radix2 c).
    eapply Rle_trans; [apply Rabs_triang|]. rewrite !Rabs_mult, (Rabs_pos_eq (B2R g)), (Rabs_pos_eq (B2R gu)) by lra.
    assert (Q1 : B2R g * Rabs (curve lm src st m X) <= 1 * S0) by (apply Rmult_le_compat; [lra|apply Rabs_pos|lra|exact A1]).
    assert (Q2 : B2R gu * Rabs (curve lm src st mu X) <= 1 * S0).
    { destruct Gu2 as [Hmu|E0].
      - assert (A2 := curve_bound st mu X L ltac:(destruct Gu1 as [->|(-> & _)]; lia)).
        apply Rmult_le_compat; [lra|apply Rabs_pos|lra|exact A2].
      - rewrite E0. rewrite (proj2 (ofZ32 0 ltac:(lia))). rewrite Rmult_0_l. lra. }
    lra.
  - intros Hse u. rewrite (settled_out32 lm n r s Hse Hn1 Hl) in Eo.
    assert (Em : r = m) by congruence. assert (Eg : f32_ofZ 1 = g) by congruence. assert (Eu : f32_ofZ 0 = gu) by congruence.
    assert (V1 : B2R g = 1) by (rewrite <- Eg; exact (proj2 (ofZ32 1 ltac:(lia)))).
    assert (V0 : B2R gu = 0) by (rewrite <- Eu; exact (proj2 (ofZ32 0 ltac:(lia)))).
    rewrite V1, V0, Em. rewrite Rmult_0_l, Rmult_1_l, Rplus_0_r. reflexivity.
Qed.

(** phases that stay within [eta] of an even pace of [d] per sample *)
Section Pace.
Variable hs : list Harmonic.
Variables q0 d eta eps0 Cc : R.
Variables (n0 : nat) (r n : Z).
Hypothesis Heta : 0 <= eta.
Hypothesis He0 : 0 <= eps0.
Hypothesis HCc : 0 <= Cc.
Hypothesis Hd : Rabs d + 2 * eta < / 2.
Notation B := (2 * S0 + loudness hs).
Hypothesis HBC : forall j e, nth_error (combine (f_r F) (f_z F)) j = Some e -> B * poleBound e <= Cc.
Notation E := (eps0 + S0 * eta).

Lemma track32 dir st ps st' ys : block32 lm src dbg f dir st ps st' ys -> forall i,
  live32 st -> (forall x, Rabs (curve lm src st r x - harmonics hs x) <= eps0) ->
  (exists k, Rabs (B2R (i_phase lm st) - (q0 + d * INR i) - IZR k) <= eta) ->
  (forall j p, nth_error ps j = Some p -> exists k, Rabs (B2R p - (q0 + d * INR (i + S j)) - IZR k) <= eta) ->
  List.Forall (stepIn (i_K lm st) r) (steps32 lm dir (i_phase lm st) ps) ->
  cf_num (wt_cf (i_tab lm st)) = n ->
  (settleIn n r (cfState N (wt_cf (i_tab lm st))) <= Z.max 0 (Z.of_nat n0 - Z.of_nat i))%Z ->
  PHarm.close F n0 E Cc i (i_mem lm st) (toneMem F hs q0 d i) ->
  forall j y, nth_error ys j = Some y ->
    Rabs (y - audible (toneMem F hs q0 d (i + S j))) <= rsum (List.map (bd n0 E Cc (i + S j)) (combine (f_r F) (f_z F))).
Proof.
  assert (P0 := bpow_gt_0 radix2 c). assert (HF := shipped_exact f). assert (HS := shipped_stable f).
  assert (HE : 0 <= E) by (apply Rplus_le_le_0_compat; [exact He0|apply Rmult_le_pos; lra]).
  induction 1 as [st|st p st1 y ps st2 ys Hs Hb IH]; intros i L Hw Hph Hps Hin Hn Hse Hcl j y' Hj.
  - destruct j; discriminate.
  - assert (L1 := sample_live32 dir st p st1 y L Hs).
    cbn [steps32] in Hin. inversion_clear Hin as [|? ? Hin1 Hin2].
    destruct (sample_sig dir st p st1 y r L Hs Hin1) as (N1 & Nl & Rr & En & Es & dd & k & g & gu & m & mu & Ed & Hdd & Hx).
    cbv zeta in Hx. set (x := fun u : R => g * curve lm src st m (B2R (i_phase lm st) + dd * u) + gu * curve lm src st mu (B2R (i_phase lm st) + dd * u)) in *.
    destruct Hx as (Hxc & Hxb & Hxs & Em & Ey & Ep).
    rewrite Hn in *.
    destruct Hph as [k0 Hk0]. destruct (Hps 0%nat p eq_refl) as [k1 Hk1]. rewrite Nat.add_1_r in Hk1.
    set (e := B2R (i_phase lm st) - (q0 + d * INR i) - IZR k0) in *.
    set (e' := B2R p - (q0 + d * INR (S i)) - IZR k1) in *.
    assert (Edd : dd = d + e' - e).
    { assert (X : dd = d + e' - e + IZR (k1 + k - k0)).
      { unfold e, e'. rewrite S_INR, minus_IZR, plus_IZR. lra. }
      assert (Z0 : (k1 + k - k0)%Z = 0%Z).
      { apply Rabs_le_between in Hk0. apply Rabs_le_between in Hk1. apply Rabs_def2 in Hdd.
        assert (Hd' : Rabs d <= / 2 - 2 * eta) by lra. apply Rabs_le_between in Hd'.
        assert (A : IZR (-1) < IZR (k1 + k - k0)) by lra.
        assert (A' : IZR (k1 + k - k0) < IZR 1) by lra.
        apply lt_IZR in A. apply lt_IZR in A'. lia. }
      rewrite Z0 in X. lra. }
    assert (Hdist : forall u, 0 <= u <= 1 -> Rabs (x u - piece hs q0 d i u) <= if le_lt_dec n0 i then E else B).
    { intros u Hu. destruct (le_lt_dec n0 i) as [Hi|Hi].
      - rewrite (Hxs ltac:(lia) u). unfold piece.
        set (X := q0 + d * (INR i + u)).
        assert (EX : B2R (i_phase lm st) + dd * u = X + ((1 - u) * e + u * e') + IZR k0).
        { rewrite Edd. unfold X. replace (B2R (i_phase lm st)) with (e + (q0 + d * INR i) + IZR k0) by (unfold e; ring). ring. }
        rewrite EX, (curve_per st r _ k0 L Rr).
        replace (curve lm src st r (X + ((1 - u) * e + u * e')) - harmonics hs X) with
          ((curve lm src st r (X + ((1 - u) * e + u * e')) - curve lm src st r X) + (curve lm src st r X - harmonics hs X)) by ring.
        eapply Rle_trans; [apply Rabs_triang|]. rewrite Rplus_comm. apply Rplus_le_compat; [apply Hw|].
        eapply Rle_trans; [apply (curve_lip st r _ _ L Rr)|]. apply Rmult_le_compat_l; [lra|].
        replace (X + ((1 - u) * e + u * e') - X) with ((1 - u) * e + u * e') by ring.
        eapply Rle_trans; [apply Rabs_triang|]. rewrite !Rabs_mult, (Rabs_pos_eq (1 - u)), (Rabs_pos_eq u) by lra.
        assert (A1 : (1 - u) * Rabs e <= (1 - u) * eta) by (apply Rmult_le_compat_l; lra).
        assert (A2 : u * Rabs e' <= u * eta) by (apply Rmult_le_compat_l; lra). lra.
      - unfold Rminus. eapply Rle_trans; [apply Rabs_triang|]. rewrite Rabs_Ropp.
        apply Rplus_le_compat; [apply Hxb|apply harmonics_bound]. }
    assert (Hcl1 : PHarm.close F n0 E Cc (S i) (i_mem lm st1) (toneMem F hs q0 d (S i))).
    { rewrite Em. cbn [toneMem]. apply (close_step F HS hs q0 d n0 E B Cc i x); auto; [apply (l3_mem st L)|apply toneMem_length; exact HF]. }
    destruct j as [|j].
    + injection Hj as <-. rewrite Nat.add_1_r, Ey.
      apply sum_diff; [|rewrite toneMem_length by exact HF; rewrite combine_length, (ef_z F HF); lia|exact Hcl1].
      rewrite (l3_mem st1 L1). rewrite combine_length, (ef_z F HF). lia.
    + cbn [nth_error] in Hj. replace (i + S (S j))%nat with (S i + S j)%nat by lia.
      assert (Inv : i_K lm st1 = i_K lm st /\ i_wf lm st1 = i_wf lm st /\ i_wfs lm st1 = i_wfs lm st) by (destruct Hs; auto).
      destruct Inv as (I1 & I2 & I3).
      assert (St := settle_step n r _ N1 Nl). cbv zeta in St. destruct St as [St1 St2].
      apply (IH (S i)); auto.
      * intros x0. unfold curve. rewrite I1, I2, I3. apply Hw.
      * exists k1. rewrite Ep. exact Hk1.
      * intros j' p' Hp'. destruct (Hps (S j') p' Hp') as [k2 Hk2]. exists k2.
        replace (S i + S j')%nat with (i + S (S j'))%nat by lia. exact Hk2.
      * rewrite I1, Ep. exact Hin2.
      * rewrite Es. lia.
Qed.
End Pace.
End Track.
