(** * PRestart: lemmas behind Prop_Restart.v (property C62) *)
From Coq Require Import ZArith List Bool Reals Lia Lra Arith Psatz.
From Flocq Require Import Core IEEE754.BinarySingleNaN.
From Verif Require Import Num Maths CrossFader Wavetable Filters Osc Spec SpecC SpecT NumFacts Laws B32 B32Facts B32Laws
  B32Pow SpecF CFFacts WTFacts BuildFacts OscFacts OscStep OscRun OscHist CFHist PCross PTables RNum RLaws Demo.
From Coquelicot Require Import Coquelicot.
From Verif Require Import SpecE SpecX SpecY ExactMath ExactStep ExactRun ExactHist ExactCover ExactLaws ExactClick PExact PClick.
Import ListNotations.
Local Open Scope Z_scope.

(** the neighbour an idle cross-fader at [i0] starts a fade to [r] from *)
Definition neighbour (i0 r : Z) : Z := if i0 <? r then r - 1 else r + 1.

Lemma run_from n i0 r rs : r <> i0 ->
  cfRun n (0, i0, i0) (r :: rs) = cfRun n (0, neighbour i0 r, neighbour i0 r) (r :: rs).
Proof.
  intros Hne. cbn [cfRun]. f_equal. unfold cfStep, neighbour. rewrite Z.eqb_refl.
  destruct (Z.eqb_spec r i0); [contradiction|].
  destruct (Z.ltb_spec i0 r).
  - destruct (Z.eqb_spec r (r - 1)); [lia|]. destruct (Z.ltb_spec (r - 1) r); [reflexivity|lia].
  - destruct (Z.eqb_spec r (r + 1)); [lia|]. destruct (Z.ltb_spec (r + 1) r); [lia|reflexivity].
Qed.

Section B.
Variable lm : Libm.
Hypothesis Hlog : log2_exact lm.
Variable src : Resampler (B32 lm).
Variable dbg : bool.
Notation N := (B32 lm).

Lemma restart_ramp K n w i0 r (ds : list f32) (d : f32) : builtTable lm src dbg K n w -> 1 <= n <= 2 ^ 24 ->
  entryFor K (B2R (tfrac N 1 10 : f32)) i0 -> List.Forall (inOctave K r) (ds ++ [d]) ->
  exists w' outs mi (g : f32) mu (gu : f32),
    ask N dbg w (ds ++ [d]) = Ok (w', outs ++ [(mi, g, mu, gu)]) /\
    let k := Z.of_nat (length ds) in
    let gold := rnd32 (IZR (n - k) / IZR n) in
    let gnew := rnd32 (1 - gold) in
    if (r =? i0) || (n <=? k) then mi = r /\ B2R g = 1%R /\ B2R gu = 0%R
    else if i0 <? r then mi = r - 1 /\ mu = r /\ B2R g = gold /\ B2R gu = gnew
    else mi = r /\ mu = r + 1 /\ B2R g = gnew /\ B2R gu = gold.
Proof.
  intros HB Hn Hi Hds. assert (Hn' : 1 <= n <= int_max) by (unfold int_max; lia).
  destruct (PCross.built_state lm Hlog src dbg K n w i0 HB Hi) as (Es & En & _).
  assert (HR : reachable N src dbg (rate32 lm) K n w).
  { destruct HB as (wfs & nw & sr & fade & HK & Hnw & Hl & Hm & Hr & Hc & Hb). eapply r_build; eassumption. }
  set (k := length ds).
  destruct (ask32 lm Hlog src dbg K n w (ds ++ [d]) (repeat r (k + 1)) HR ltac:(lia)) as (w' & outs & E & El & _ & Eo & _).
  { clear -Hds. unfold k. replace (length ds + 1)%nat with (length (ds ++ [d])) by (rewrite app_length; reflexivity).
    revert Hds. generalize (ds ++ [d]). induction 1 as [|a l (A & B & C) _ IH]; cbn; constructor; auto. }
  rewrite Es in Eo.
  assert (Hne : outs <> []) by (intros ->; rewrite app_length in El; cbn in El; lia).
  destruct (exists_last Hne) as (outs0 & m & Em). subst outs.
  destruct m as [[[mi g] mu] gu]. exists w', outs0, mi, g, mu, gu. split; [exact E|].
  assert (Elast : nth_error (outs0 ++ [(mi, g, mu, gu)]) k = Some (mi, g, mu, gu)).
  { rewrite !app_length in El. cbn [length] in El. fold k in El. rewrite nth_error_app2 by lia. replace (_ - _)%nat with 0%nat by lia. reflexivity. }
  assert (Hr : nth_error (repeat r (k + 1)) k = Some r).
  { clear. induction k; [reflexivity|exact IHk]. }
  apply (eq_trans (eq_sym (Eo _ r Hr))) in Elast.
  assert (Hfn : firstn k (repeat r (k + 1)) = repeat r k).
  { clear. induction k as [|k IH]; [reflexivity|]. cbn. f_equal. exact IH. }
  rewrite Hfn in Elast. injection Elast as Elast. cbv zeta.
  destruct (ofZ32 1 ltac:(lia)) as [_ V1]. destruct (ofZ32 0 ltac:(lia)) as [_ V0].
  destruct (Z.eqb_spec r i0) as [->|Nr].
  { (* nothing to fade *)
    assert (Ei : cfRun n (0, i0, i0) (repeat i0 k) = (0, i0, i0)).
    { clear. induction k as [|k IH]; [reflexivity|]. cbn [repeat cfRun]. unfold cfStep at 1. rewrite !Z.eqb_refl. exact IH. }
    rewrite Ei in Elast. unfold outS in Elast. rewrite !Z.eqb_refl in Elast. cbn [andb orb] in *. 
    inversion Elast; subst. split; [reflexivity|]. split; [exact V1|exact V0]. }
  cbn [orb].
  assert (St : cfStep n (cfRun n (0, i0, i0) (repeat r k)) r = cfRun n (0, i0, i0) (r :: repeat r k)).
  { transitivity (cfRun n (0, i0, i0) (repeat r k ++ [r])); [rewrite cfRun_app; reflexivity|].
    f_equal. clear. induction k as [|k IH]; [reflexivity|]. cbn [repeat app]. f_equal. exact IH. }
  assert (Hnb : Z.abs (r - neighbour i0 r) = 1) by (unfold neighbour; destruct (i0 <? r); lia).
  rewrite run_from in St by assumption.
  assert (Hall : List.Forall (fun x => x = neighbour i0 r \/ x = r) (repeat r k)).
  { apply Forall_forall. intros x Hx. apply repeat_spec in Hx. now right. }
  destruct (Z.leb_spec n (Z.of_nat k)) as [Hk|Hk].
  - (* the fade is over *)
    destruct (settled_out lm n r (cfRun n (0, i0, i0) (repeat r k)) Hn') as (g' & mu' & gu' & Eo' & G1 & G2).
    { rewrite St. replace k with (Z.to_nat n + (k - Z.to_nat n))%nat by lia. rewrite repeat_app.
      change (r :: repeat r (Z.to_nat n) ++ repeat r (k - Z.to_nat n)) with ((r :: repeat r (Z.to_nat n)) ++ repeat r (k - Z.to_nat n)).
      rewrite cfRun_app, cfRun_ramp; [|lia|exact Hnb| |rewrite repeat_length; lia].
      2:{ apply Forall_forall. intros x Hx. apply repeat_spec in Hx. now right. }
      rewrite repeat_length, Z2Nat.id, Z.eqb_refl, Z.sub_diag by lia.
      generalize (k - Z.to_nat n)%nat. clear. induction n0 as [|j IH]; [reflexivity|]. cbn [repeat cfRun]. unfold cfStep at 1. rewrite !Z.eqb_refl. exact IH. }
    rewrite Eo' in Elast. inversion Elast; subst. auto.
  - rewrite cfRun_ramp, repeat_length in St; [|lia|exact Hnb|exact Hall|rewrite repeat_length; lia].
    destruct (Z.eqb_spec (Z.of_nat k) n); [lia|].
    assert (Hout : outS N n (cfRun n (0, i0, i0) (repeat r k)) r = fadeT N n (n - Z.of_nat k, neighbour i0 r, r)).
    { rewrite <- St. destruct k as [|j].
      - cbn [repeat cfRun]. unfold outS. cbn [Z.eqb andb]. destruct (Z.eqb_spec r i0); [contradiction|reflexivity].
      - cbn [repeat]. rewrite run_from by assumption. rewrite cfRun_ramp; [|lia|exact Hnb| |rewrite repeat_length; lia].
        2:{ apply Forall_forall. intros x Hx. apply repeat_spec in Hx. now right. }
        rewrite repeat_length. destruct (Z.eqb_spec (Z.of_nat j) n); [lia|]. unfold outS.
        destruct (Z.eqb_spec (n - Z.of_nat j) 0); [lia|]. reflexivity. }
    rewrite Hout in Elast.
    destruct (gain32_ok (n - Z.of_nat k) n ltac:(lia) Hn') as (_ & _ & _ & _ & G).
    destruct (cogain32_ok (n - Z.of_nat k) n ltac:(lia) Hn') as (_ & _ & _ & _ & G' & _).
    specialize (G ltac:(lia)). rewrite G in G'.
    assert (Ef : fadeT N n (n - Z.of_nat k, neighbour i0 r, r) =
      if neighbour i0 r <? r then (neighbour i0 r, gain32 (n - Z.of_nat k) n, r, cogain32 (n - Z.of_nat k) n)
      else (r, cogain32 (n - Z.of_nat k) n, neighbour i0 r, gain32 (n - Z.of_nat k) n)) by reflexivity.
    rewrite Ef in Elast. unfold neighbour in Elast. fold k. destruct (Z.ltb_spec i0 r).
    + destruct (Z.ltb_spec (r - 1) r); [|lia]. inversion Elast; subst. auto.
    + destruct (Z.ltb_spec (r + 1) r); [lia|]. inversion Elast; subst. auto.
Qed.
End B.

(** ** exact arithmetic: the state of a re-sampled table *)
Local Open Scope R_scope.
Lemma resampled_state (src : Resampler RNum) dbg wfs nw K w sr fade w' i0 : wellFormed RNum wfs nw K ->
  table src dbg wfs nw w -> 0 < sr -> 1 <= fade * sr < IZR int_max -> entryFor K (1/10) i0 ->
  wt_updateSamplerate RNum src dbg w sr fade = Ok w' ->
  table src dbg wfs nw w' /\ cfState RNum (wt_cf w') = (0, i0, i0)%Z.
Proof.
  intros HW HT Hs Hf Hi Hu. assert (HT' := t_resample src dbg wfs nw w sr fade w' HT Hs Hf Hu). split; [exact HT'|].
  destruct (table_ok src dbg _ _ _ _ HW HT) as (_ & W & _).
  assert (HK := HW). destruct HK as (HK & Hnw & _).
  unfold wt_updateSamplerate in Hu.
  destruct (rebuild_ok RNum dbg K nw w W) as (og & Eo & Ho & _). rewrite Eo in Hu. cbn [bind] in Hu.
  unfold wt_numWaveforms in Hu. rewrite (wo_slots _ _ _ _ W) in Hu.
  apply bind_ok in Hu. destruct Hu as ([w1|] & Eb & Hu); [|discriminate]. injection Hu as ->.
  destruct (wo_nw _ _ _ _ W) as [_ Hm].
  destruct (wt_build_some RNum src dbg LR og nw sr fade K w' HK Hnw Ho Hm Eb) as (C1 & k' & Ek & Ec).
  destruct (cf_make_pow2 RNum dbg LR k' K sr ltac:(lia)) as (c & Ec' & N1 & N2 & N3 & N4 & N5 & N6).
  assert (c = wt_cf w') by congruence. subst c.
  unfold cfState. rewrite N3, N4.
  assert (Hx : cf_next (wt_cf w') = i0).
  { rewrite N5. fold (req RNum (wt_cf w') (tfrac RNum 1 10)).
    apply (entryFor_fun K (1/10)); [lia| |exact Hi].
    apply (req_entry RNum LR K (wt_cf w') (tfrac RNum 1 10) ltac:(lia) (table_scale src dbg wfs nw K w' HW HT') I). }
  now rewrite Hx.
Qed.

(** ** numbers: a hat that begins in the middle of a sample, through the smallest filter *)
Lemma response_int z x (I : C) : is_int z x 0 1 I -> response z x = I.
Proof.
  intros [A B]. unfold response. rewrite (surjective_pairing I). f_equal; apply is_RInt_unique.
  - eapply (is_RInt_ext (V := R_NormedModule)); [|exact A]. cbn. intros u _. unfold er, cexp. cbn. f_equal. f_equal; f_equal; ring.
  - eapply (is_RInt_ext (V := R_NormedModule)); [|exact B]. cbn. intros u _. unfold ei, cexp. cbn. f_equal. f_equal; f_equal; ring.
Qed.

Definition halfRamp (u : R) : R := if Rle_dec u (/2) then 0 else 2 * u - 1.

Lemma halfRamp_response z : z <> RtoC 0 ->
  response z halfRamp = (RtoC 2 * (cexp (RtoC (/2) * z) - 1 - RtoC (/2) * z) / (z * z))%C.
Proof.
  intros Hz.
  destruct (affine_int z 0 0 0 (/2)) as (I1 & A1 & E1). destruct (affine_int z (-1) 2 (/2) 1) as (I2 & A2 & E2).
  assert (H : is_int z halfRamp 0 1 (I1 + I2)%C).
  { apply is_int_Chasles with (/2).
    - refine (is_int_ext z _ _ _ _ _ _ _ A1); [lra|]. intros u Hu. unfold halfRamp. destruct (Rle_dec u (/2)); lra.
    - refine (is_int_ext z _ _ _ _ _ _ _ A2); [lra|]. intros u Hu. unfold halfRamp. destruct (Rle_dec u (/2)); lra. }
  rewrite (response_int _ _ _ H).
  assert (Hzz : (z * z)%C <> RtoC 0).
  { intros E. assert (D : (z * z / z = RtoC 0 / z)%C) by now rewrite E. apply Hz. transitivity (z * z / z)%C; [field; exact Hz|].
    rewrite D. field. exact Hz. }
  transitivity ((z * z * (I1 + I2)) / (z * z))%C; [field; exact Hz|]. unfold Cdiv. f_equal.
  transitivity ((z * z * I1) + (z * z * I2))%C; [ring|]. rewrite E1, E2.
  unfold Eseg, ec, er, ei, cexp. destruct z as [a b]. cbn [fst snd].
  replace (a * (1 - / 2)) with (/2 * a) by field. replace (b * (1 - / 2)) with (/2 * b) by field.
  replace (a * (1 - 1)) with 0 by ring. replace (b * (1 - 1)) with 0 by ring. rewrite exp_0, cos_0, sin_0.
  cbn [Cmult RtoC fst snd]. replace (/ 2 * a - 0 * b) with (/ 2 * a) by ring. replace (/ 2 * b + 0 * a) with (/ 2 * b) by ring.
  cx; cbn [Cplus fst snd]; field.
Qed.

Lemma ramp1 : / 10 <= Re (2 * r1 * response z1 halfRamp)%C.
Proof.
  set (h := a1 / 2). assert (Hh : 0.9996 <= h <= 0.99966) by (unfold h, a1; lra).
  assert (N : z1 <> RtoC 0) by (intros N; apply (f_equal snd) in N; cbn in N; unfold a1 in N; lra).
  rewrite halfRamp_response by exact N.
  assert (Q : (RtoC 2 * r1 * (1 / (z1 * z1)) = RtoC (/ a1))%C).
  { assert (a1 <> 0) by (unfold a1; lra).
    transitivity (RtoC (/ a1) * (z1 * z1) * (1 / (z1 * z1)))%C; [|field; exact N].
    f_equal. unfold r1, z1. apply C_eq; cbn; field; assumption. }
  replace (Re _) with (Re (RtoC (/ a1) * (RtoC 2 * (cexp (RtoC (/2) * z1) - 1 - RtoC (/2) * z1)))%C).
  2:{ rewrite <- Q. f_equal. unfold Cdiv. ring. }
  unfold z1, cexp. cbn [fst snd Cmult Cplus Cminus Copp RtoC Re].
  replace (/ 2 * - a1 - 0 * a1) with (- h) by (unfold h; field).
  replace (/ 2 * a1 + 0 * - a1) with h by (unfold h; field).
  assert (S2 : 0.5 <= cos h).
  { destruct (pre_cos_bound h 0 ltac:(lra) ltac:(lra)) as [S _].
    unfold cos_approx, cos_term in S. cbn [Nat.mul Nat.add sum_f_R0 pow fact] in S.
    rewrite !INR_IZR_INZ in S. cbn in S. nra. }
  assert (Ea : / 3 <= exp (- h)).
  { rewrite exp_Ropp. apply Rinv_le_contravar; [apply exp_pos|]. apply Rle_trans with (2 := exp_le_3). left. apply exp_increasing. lra. }
  assert (Hp : / 6 <= exp (- h) * cos h) by nra.
  assert (Hi : / 2 <= / a1) by (apply Rinv_le_contravar; unfold a1; lra).
  assert (X : 0.16 <= exp (- h) * cos h - 1 + h) by lra. nra.
Qed.
