(** * CFHist: histories of findMipMapIndices calls, any number system *)
From Coq Require Import ZArith List Bool Reals Lia Lra.
From Flocq Require Import Core.
From Verif Require Import Num Maths CrossFader Wavetable Spec NumFacts Laws CFFacts WTFacts BuildFacts OscHist.
Import ListNotations.
Local Open Scope Z_scope.

Section CFHist.
Variable N : Num.

(** the tuple returned in state [s] (after the transition), and by a request from [s] *)
Definition fadeT (n : Z) (s : Z * Z * Z) : MMI N :=
  let '(l, p, x) := s in
  let f := tdiv N (tofZ N l) (tofZ N n) in
  if p <? x then (p, f, x, tsub N (t1 N) f) else (x, tsub N (t1 N) f, p, f).
Definition outS (n : Z) (s : Z * Z * Z) (r : Z) : MMI N :=
  let '(l, p, x) := s in
  if (l =? 0) && (r =? x) then (r, t1 N, r + 1, t0 N) else fadeT n (cfStep n s r).

Lemma cfOut_S c r : cfOut N c r = outS (cf_num c) (cfState N c) r.
Proof.
  unfold cfOut, outS, cfState. destruct (_ && _); [reflexivity|].
  destruct (cfStep _ _ _) as [[l p] x]. reflexivity.
Qed.

Lemma cfWith_state c s : cfState N (cfWith N c s) = s.
Proof. destruct s as [[l p] x]. reflexivity. Qed.

(** everything a history of calls does *)
Lemma ask_spec dbg ds : forall w, CFok N (wt_cf w) -> Forall (fun d => tlt N (t0 N) d = true) ds ->
  exists w' outs, ask N dbg w ds = Ok (w', outs) /\ length outs = length ds /\
    wt_slots w' = wt_slots w /\ wt_ph w' = wt_ph w /\ CFok N (wt_cf w') /\
    cf_num (wt_cf w') = cf_num (wt_cf w) /\ cf_scale (wt_cf w') = cf_scale (wt_cf w) /\
    let n := cf_num (wt_cf w) in
    let rs := map (req N (wt_cf w)) ds in
    let s := cfState N (wt_cf w) in
    cfState N (wt_cf w') = cfRun n s rs /\
    forall t r, nth_error rs t = Some r ->
      nth_error outs t = Some (outS n (cfRun n s (firstn t rs)) r).
Proof.
  induction ds as [|d ds IH]; intros w HC Hd.
  - exists w, []. cbn. repeat apply conj; auto. intros [|t] r; discriminate.
  - inversion_clear Hd as [|? ? Hd0 Hds].
    assert (E := newIndices_eq N dbg (wt_cf w) d HC (fun _ => Hd0)).
    set (c1 := cfWith N (wt_cf w) (cfStep (cf_num (wt_cf w)) (cfState N (wt_cf w)) (req N (wt_cf w) d))) in *.
    assert (HC1 : CFok N c1).
    { assert (A := proj1 (CFok_inv N (wt_cf w)) HC). destruct A as [A1 A2].
      apply CFok_inv. unfold c1. rewrite cfWith_state.
      destruct (cfStep (cf_num (wt_cf w)) (cfState N (wt_cf w)) (req N (wt_cf w) d)) as [[l p] x] eqn:Es.
      cbn [cfWith cf_num cf_scale]. split; [assumption|]. rewrite <- Es.
      apply cfStep_inv; [lia|now apply req_range|assumption]. }
    assert (En : cf_num c1 = cf_num (wt_cf w) /\ cf_scale c1 = cf_scale (wt_cf w)).
    { unfold c1. destruct (cfStep _ _ _) as [[l p] x]. split; reflexivity. }
    destruct En as [En1 En2].
    destruct (IH (mkWT (wt_slots w) (wt_ph w) c1) HC1 Hds) as
      (w2 & outs & E2 & Hlen & S1 & S2 & C2 & N2 & Sc2 & St & Ho).
    exists w2, (cfOut N (wt_cf w) (req N (wt_cf w) d) :: outs).
    cbn [ask]. unfold wt_findMipMapIndices. rewrite E. cbn [bind]. rewrite E2. cbn [bind].
    cbn [wt_cf wt_slots wt_ph] in *. rewrite En1, En2 in *.
    assert (Er : map (req N c1) ds = map (req N (wt_cf w)) ds).
    { apply map_ext. intros a. unfold req. now rewrite En2. }
    rewrite Er in *. unfold c1 in St, Ho. rewrite cfWith_state in St, Ho. fold c1 in St, Ho.
    split; [reflexivity|]. split; [cbn; lia|]. repeat apply conj; auto.
    intros [|t] r Hr; cbn [map nth_error firstn] in *.
    + inversion Hr; subst r. now rewrite cfOut_S.
    + apply Ho. assumption.
Qed.

(** one more call *)
Lemma find_ok dbg w d : CFok N (wt_cf w) -> tlt N (t0 N) d = true ->
  exists w', wt_findMipMapIndices N dbg w d =
    Ok (w', outS (cf_num (wt_cf w)) (cfState N (wt_cf w)) (req N (wt_cf w) d)).
Proof.
  intros HC Hd. unfold wt_findMipMapIndices.
  rewrite (newIndices_eq N dbg (wt_cf w) d HC (fun _ => Hd)). cbn [bind]. rewrite cfOut_S. eauto.
Qed.

(** ** Requests are octaves *)
Variable L : Laws N.
Notation fin := (fin N L).
Notation val := (val N L).

Definition ScaleOk (K : Z) (sc : list (T N)) : Prop :=
  zlen sc = K - 1 /\ forall i x, 0 <= i < K - 1 -> znth sc i = Ok x ->
    fin x /\ val x = (IZR (2 ^ (i + 1)) / IZR (2 ^ K))%R.

Lemma entryFor_fun K d i j : 2 <= K -> entryFor K d i -> entryFor K d j -> i = j.
Proof.
  intros HK. assert (HKp := IZR_pow2_pos K ltac:(lia)).
  enough (forall i j, entryFor K d i -> entryFor K d j -> i < j -> False) as Hlt.
  { intros Hi Hj. destruct (Z.lt_trichotomy i j) as [H|[H|H]]; auto; exfalso; eauto. }
  clear i j. intros i j (A1 & A2 & A3) (B1 & B2 & B3) Hij.
  destruct A2 as [A2|A2]; [lia|]. destruct B3 as [B3|B3]; [lia|].
  assert (IZR (2 ^ (i + 1)) <= IZR (2 ^ j))%R by (apply IZR_le, Z.pow_le_mono_r; lia).
  assert (IZR (2 ^ (i + 1)) / IZR (2 ^ K) <= IZR (2 ^ j) / IZR (2 ^ K))%R.
  { unfold Rdiv. apply Rmult_le_compat_r; [left; now apply Rinv_0_lt_compat|assumption]. }
  lra.
Qed.

Lemma req_entry K c d : 2 <= K -> ScaleOk K (cf_scale c) -> fin d ->
  entryFor K (val d) (req N c d).
Proof.
  intros HK [Hl Hs] Hd. unfold req.
  assert (Hne : cf_scale c <> []) by (intros E; rewrite E, zlen_nil in Hl; lia).
  set (r := findLoop N d (cf_scale c) 0).
  destruct (proj1 (findLoop_spec N d (cf_scale c) 0 r Hne) eq_refl) as (R1 & R2 & R3).
  rewrite Hl in *. unfold entryFor. split; [lia|]. split.
  - destruct (Z.eq_dec r (K - 2)) as [E|NE]; [now left|right].
    destruct (znth_ok _ (cf_scale c) r) as [x Hx]; [lia|].
    destruct (Hs r x ltac:(lia) Hx) as [F V]. specialize (R3 ltac:(lia) x).
    rewrite Z.sub_0_r in R3. specialize (R3 Hx). rewrite (lt_spec N L) in R3 by assumption.
    rewrite <- V. destruct (Rlt_bool_spec (val d) (val x)); [assumption|discriminate].
  - destruct (Z.eq_dec r 0) as [E|NE]; [now left|right].
    destruct (znth_ok _ (cf_scale c) (r - 1)) as [x Hx]; [lia|].
    destruct (Hs (r - 1) x ltac:(lia) Hx) as [F V]. specialize (R2 (r - 1) x ltac:(lia) Hx).
    rewrite (lt_spec N L) in R2 by assumption. replace (r - 1 + 1) with r in V by lia.
    rewrite <- V. destruct (Rlt_bool_spec (val d) (val x)); [discriminate|assumption].
Qed.

(** ** Reachable tables *)
Variable src : Resampler N.
Variable dbg : bool.
Variable rate : T N -> Prop.
Hypothesis rate_scale : forall K sr sc, 2 <= K <= 24 -> rate sr ->
  computeMipMapScale N (2 ^ K) sr = Ok sc -> ScaleOk K sc.

Lemma tcast_int x k : tcast N x = Ok k -> k <= int_max.
Proof.
  intros Hk. unfold tcast in Hk. destruct (ttrunc N _) as [v|]; [|discriminate].
  destruct (in_int v) eqn:Ei; [|discriminate]. inversion Hk; subst.
  unfold in_int in Ei. apply andb_prop in Ei. destruct Ei as [_ Ei]. now apply Z.leb_le in Ei.
Qed.

Lemma build_reach K nw wfs sr fade n w :
  2 <= K <= 24 -> 1 <= nw -> zlen wfs = nw * 2 ^ K -> nw * 2 ^ K <= int_max -> rate sr ->
  tcast N (tmul N fade sr) = Ok n -> wt_build N src dbg wfs nw sr fade = Ok (Some w) ->
  WTok K nw w /\ ScaleOk K (cf_scale (wt_cf w)) /\ cf_num (wt_cf w) = n /\ n <= int_max /\
  (1 <= n -> CFok N (wt_cf w)) /\ cf_left (wt_cf w) = 0 /\ cf_prev (wt_cf w) = cf_next (wt_cf w).
Proof.
  intros HK Hnw Hl Hm Hr Hk Hb.
  destruct (wt_build_some N src dbg L wfs nw sr fade K w HK Hnw Hl Hm Hb) as (C1 & k' & Ek & Ec).
  assert (k' = n) by congruence. subst k'.
  destruct (cf_make_pow2 N dbg L n K sr ltac:(lia)) as (c & E1 & E2 & E3 & E4 & E5 & E6 & E7).
  assert (c = wt_cf w) by congruence. subst c.
  split; [eapply Contents_WTok; eassumption|]. split; [eapply rate_scale; eassumption|].
  split; [assumption|]. split; [eapply tcast_int; eassumption|]. split; [|auto].
  intros Hn. apply (cf_make_ok N dbg n (2 ^ K) sr (wt_cf w)); auto.
  - split; [assumption|]. eapply tcast_int; eassumption.
  - rewrite E3. assert (A := ct_K _ _ _ _ _ _ C1). lia.
Qed.

Lemma find_shape w d w' m : wt_findMipMapIndices N dbg w d = Ok (w', m) ->
  wt_slots w' = wt_slots w /\ wt_ph w' = wt_ph w /\
  cf_num (wt_cf w') = cf_num (wt_cf w) /\ cf_scale (wt_cf w') = cf_scale (wt_cf w).
Proof.
  unfold wt_findMipMapIndices. intros H. apply bind_ok in H. destruct H as ([c mm] & E & H).
  inversion H; subst; cbn [wt_slots wt_ph wt_cf]. split; [reflexivity|]. split; [reflexivity|].
  unfold newIndices in E. apply bind_ok in E. destruct E as (r & _ & E).
  destruct (negb (cf_left (wt_cf w) =? 0)).
  - apply bind_ok in E. destruct E as ([] & _ & E). apply bind_ok in E. destruct E as (l & _ & E).
    inversion E; subst. destruct (_ && _), (l =? 0); split; reflexivity.
  - destruct (r =? cf_next (wt_cf w)).
    + apply bind_ok in E. destruct E as ([] & _ & E). inversion E; subst. auto.
    + inversion E; subst. auto.
Qed.

Lemma reachable_ok K n w : reachable N src dbg rate K n w ->
  2 <= K <= 18 /\ (exists nw, WTok K nw w) /\ ScaleOk K (cf_scale (wt_cf w)) /\
  cf_num (wt_cf w) = n /\ n <= int_max /\ (1 <= n -> CFok N (wt_cf w)).
Proof.
  induction 1 as [wfs nw sr fade n w HK Hnw Hl Hm Hr Hc Hb
                 |n w d w' m _ (HK & (nw & HW) & HS & Hn & Hi & HC) Hf
                 |n w sr fade n' w' _ (HK & (nw & HW) & HS & Hn & Hi & HC) Hr Hc Hu].
  - destruct (build_reach K nw wfs sr fade n w HK Hnw Hl Hm Hr Hc Hb) as (A & B & C & D & E & _).
    split; [exact (wo_K _ _ _ _ A)|]. split; [eauto|]. auto.
  - destruct (find_shape w d w' m Hf) as (E1 & E2 & E3 & E4). rewrite E3, E4.
    split; [assumption|]. split.
    { exists nw. destruct HW. constructor; auto; rewrite ?E1, ?E2, ?E4; auto. }
    split; [exact HS|]. split; [assumption|]. split; [assumption|].
    assert (Hd : dbg = true -> tlt N (t0 N) d = true).
    { intros ->. unfold wt_findMipMapIndices, newIndices, findMipMapIndex, assert_ in Hf.
      destruct (tlt N (t0 N) d); [reflexivity|discriminate]. }
    intros Hn1; specialize (HC Hn1);
      destruct (newIndices_ok N dbg (wt_cf w) d HC Hd) as (c' & mi & g & mu & gu & En & Hc' & _);
      unfold wt_findMipMapIndices in Hf; rewrite En in Hf; cbn [bind] in Hf; inversion Hf; subst;
      cbn [wt_cf] in *; apply Hc'.
  - unfold wt_updateSamplerate in Hu.
    destruct (rebuild_ok N dbg K nw w HW) as (og & Eo & Ho & _). rewrite Eo in Hu. cbn [bind] in Hu.
    unfold wt_numWaveforms in Hu. rewrite (wo_slots _ _ _ _ HW) in Hu.
    apply bind_ok in Hu. destruct Hu as ([w1|] & Eb & Hu); [|discriminate]. inversion Hu; subst w1.
    destruct (wo_nw _ _ _ _ HW) as [Hnw Hm].
    destruct (build_reach K nw og sr fade n' w' ltac:(lia) Hnw Ho Hm Hr Hc Eb) as (A & B & C & D & E & _).
    split; [assumption|]. split; [eauto|]. auto.
Qed.
End CFHist.

(** ** The state machine on octave histories *)
Lemma cfRun_app n s a b : cfRun n s (a ++ b) = cfRun n (cfRun n s a) b.
Proof. revert s. induction a as [|r a IH]; intros s; [reflexivity|]. cbn. apply IH. Qed.

Lemma cfRun_ramp n p r rs : 1 <= n -> Z.abs (r - p) = 1 ->
  Forall (fun x => x = p \/ x = r) rs -> Z.of_nat (length rs) <= n ->
  cfRun n (0, p, p) (r :: rs) =
    (n - Z.of_nat (length rs), (if Z.of_nat (length rs) =? n then r else p), r).
Proof.
  intros Hn Hr Hf Hl. cbn [cfRun].
  replace (cfStep n (0, p, p) r) with (n, p, r).
  2:{ unfold cfStep. rewrite Z.eqb_refl. destruct (Z.eqb_spec r p); [lia|].
      destruct (Z.ltb_spec p r); repeat f_equal; lia. }
  assert (G : forall l0, 0 < l0 - Z.of_nat (length rs) \/ l0 = Z.of_nat (length rs) /\ 0 < l0 ->
    cfRun n (l0, p, r) rs =
      (l0 - Z.of_nat (length rs), (if Z.of_nat (length rs) =? l0 then r else p), r)).
  { clear Hl. induction rs as [|x rs IH]; intros l0 Hl0.
    - cbn [cfRun length]. change (Z.of_nat 0) with 0. rewrite Z.sub_0_r. destruct (Z.eqb_spec 0 l0); [cbn in Hl0; lia|reflexivity].
    - inversion_clear Hf as [|? ? Hx Hf']. cbn [cfRun].
      assert (Es : cfStep n (l0, p, r) x = (l0 - 1, (if l0 - 1 =? 0 then r else p), r)).
      { unfold cfStep. destruct (Z.eqb_spec l0 0); [cbn [length] in Hl0; lia|].
        destruct Hx as [->| ->]; [destruct (Z.eqb_spec p r); [lia|]|]; rewrite Z.eqb_refl;
          cbn [negb andb]; try reflexivity. }
      rewrite Es. cbn [length] in *.
      destruct rs as [|y rs].
      + cbn [cfRun length]. change (Z.of_nat 1) with 1. destruct (Z.eqb_spec (l0 - 1) 0), (Z.eqb_spec 1 l0); try lia; f_equal; f_equal; lia.
      + destruct (Z.eqb_spec (l0 - 1) 0); [cbn [length] in Hl0; lia|].
        rewrite IH by (auto; lia).
        destruct (Z.eqb_spec (Z.of_nat (length (y :: rs))) (l0 - 1)),
                 (Z.eqb_spec (Z.of_nat (S (length (y :: rs)))) l0); try lia; f_equal; f_equal; lia. }
  destruct (Z.eq_dec n (Z.of_nat (length rs))) as [E|NE]; apply G; lia.
Qed.

(** the README rule, as the fade sees it: [g] calls during which no change may come *)
Fixpoint calm (n : Z) (g : Z) (cur : Z) (rs : list Z) : Prop :=
  match rs with
  | [] => True
  | r :: t => (r = cur /\ calm n (Z.max 0 (g - 1)) cur t) \/
              (Z.abs (r - cur) = 1 /\ g = 0 /\ calm n n r t)
  end.

Lemma rule_calm n cur rs : 0 <= n -> octaveRule n (cur :: rs) -> calm n 0 cur rs.
Proof.
  intros Hn H.
  enough (G : forall g cur, octaveRule n (cur :: rs) -> 0 <= g ->
     (forall i a b, Z.of_nat i < g -> nth_error (cur :: rs) i = Some a ->
        nth_error (cur :: rs) (S i) = Some b -> a = b) -> calm n g cur rs).
  { apply G; auto; [lia|]. intros; lia. }
  clear H cur. induction rs as [|r rs IH]; intros g cur [H1 H2] Hg H3; [exact I|].
  assert (Htail : octaveRule n (r :: rs)).
  { split.
    - intros i a b A B. apply (H1 (S i) a b); assumption.
    - intros i j a b c e Hij A B Hab C E Hce.
      assert (Q := H2 (S i) (S j) a b c e ltac:(lia) A B Hab C E Hce). lia. }
  cbn [calm]. destruct (Z.eq_dec r cur) as [->|NE].
  - left. split; [reflexivity|]. apply IH; auto; [lia|].
    intros i a b Hi A B. apply (H3 (S i) a b); [lia|assumption|assumption].
  - right. specialize (H1 0%nat cur r eq_refl eq_refl). split; [lia|].
    destruct (Z.eq_dec g 0) as [->|Hg0].
    2:{ exfalso. apply NE. symmetry. apply (H3 0%nat); [lia|reflexivity|reflexivity]. }
    split; [reflexivity|]. apply IH; auto.
    intros i a b Hi A B. destruct (Z.eq_dec a b) as [|Hab]; [assumption|exfalso].
    assert (Q := H2 0%nat (S i) cur r a b ltac:(lia) eq_refl eq_refl ltac:(congruence) A B Hab). lia.
Qed.

(** state of the fade along a calm history *)
Definition calmState (g cur : Z) (s : Z * Z * Z) : Prop :=
  let '(l, p, x) := s in l = g /\ x = cur /\ (g = 0 -> p = cur) /\ (0 < g -> Z.abs (p - cur) = 1).

Lemma calm_step n g cur r s : 1 <= n -> 0 <= g -> calmState g cur s ->
  (r = cur -> calmState (Z.max 0 (g - 1)) cur (cfStep n s r)) /\
  (Z.abs (r - cur) = 1 -> g = 0 -> calmState n r (cfStep n s r)).
Proof.
  destruct s as [[l p] x]. intros Hn Hg (-> & -> & H0 & H1). split.
  - intros ->. unfold cfStep. rewrite Z.eqb_refl. cbn [negb andb].
    destruct (Z.eqb_spec g 0) as [->|Hne].
    + cbn. repeat split; auto; lia.
    + destruct (Z.eqb_spec (g - 1) 0); cbn; repeat split; lia.
  - intros Hr ->. specialize (H0 eq_refl). subst p. unfold cfStep. rewrite Z.eqb_refl.
    destruct (Z.eqb_spec r cur); [lia|]. destruct (Z.ltb_spec cur r); cbn; repeat split; lia.
Qed.

Lemma skipn_nth {A} (l : list A) t x : nth_error l t = Some x -> skipn t l = x :: skipn (S t) l.
Proof.
  revert t. induction l as [|a l IH]; intros [|t] H; cbn in *; try discriminate.
  - now inversion H.
  - now apply IH.
Qed.
Lemma firstn_nth {A} (l : list A) t x : nth_error l t = Some x -> firstn (S t) l = firstn t l ++ [x].
Proof.
  revert t. induction l as [|a l IH]; intros [|t] H; cbn in *; try discriminate.
  - now inversion H.
  - f_equal. now apply IH.
Qed.

Lemma calm_at_0 n g cur rs s t : 1 <= n -> 0 <= g -> calm n g cur rs -> calmState g cur s ->
  exists g0 c0, 0 <= g0 /\ calm n g0 c0 (skipn t rs) /\ calmState g0 c0 (cfRun n s (firstn t rs)).
Proof.
  intros Hn. revert g cur rs s. induction t as [|t IH]; intros g cur rs s Hg Hc Hs.
  - exists g, cur. auto.
  - destruct rs as [|r rs]; [exists g, cur; auto|]. cbn [skipn firstn cfRun].
    destruct (calm_step n g cur r s Hn Hg Hs) as [S1 S2].
    destruct Hc as [(-> & Hc)|(Hr & -> & Hc)].
    + apply (IH (Z.max 0 (g - 1)) cur _ _ ltac:(lia) Hc). auto.
    + apply (IH n r _ _ ltac:(lia) Hc). auto.
Qed.

Lemma calm_at n g cur rs s t r : 1 <= n -> 0 <= g -> calm n g cur rs -> calmState g cur s ->
  nth_error rs t = Some r ->
  exists g0, 0 <= g0 /\ calm n g0 r (skipn (S t) rs) /\ calmState g0 r (cfRun n s (firstn (S t) rs)).
Proof.
  intros Hn Hg Hc Hs Hr.
  destruct (calm_at_0 n g cur rs s t Hn Hg Hc Hs) as (g0 & c0 & G0 & C0 & K0).
  rewrite (skipn_nth _ _ _ Hr) in C0. rewrite (firstn_nth _ _ _ Hr), cfRun_app. cbn [cfRun].
  destruct (calm_step n g0 c0 r _ Hn G0 K0) as [S1 S2].
  destruct C0 as [(-> & C0)|(Hd & -> & C0)].
  - exists (Z.max 0 (g0 - 1)). split; [lia|auto].
  - exists n. split; [lia|auto].
Qed.

Lemma outS_low N g cur r tl n s : 1 <= n -> 0 <= g -> calmState g cur s -> calm n g cur (r :: tl) ->
  let '(a, _, _, _) := outS N n s r in
  let '(_, p1, x1) := cfStep n s r in
  let '(_, p, x) := s in
  a = Z.min p1 x1 /\ Z.abs (Z.min p1 x1 - Z.min p x) <= 1.
Proof.
  intros Hn Hg Hs Hc. destruct s as [[l p] x]. destruct Hs as (-> & -> & H0 & H1). unfold outS.
  destruct Hc as [(-> & _)|(Hr & -> & _)].
  - destruct (Z.eqb_spec g 0) as [->|Hne]; cbn [andb].
    + rewrite Z.eqb_refl. rewrite (H0 eq_refl) in *. unfold cfStep. rewrite Z.eqb_refl. cbn. rewrite !Z.eqb_refl. lia.
    + unfold cfStep. destruct (Z.eqb_spec g 0); [lia|]. rewrite Z.eqb_refl. cbn [negb andb].
      destruct (Z.eqb_spec (g - 1) 0); cbn [fadeT].
      * rewrite Z.ltb_irrefl. lia.
      * destruct (Z.ltb_spec p cur); lia.
  - rewrite (H0 eq_refl) in *. rewrite Z.eqb_refl. destruct (Z.eqb_spec r cur); [lia|]. cbn [andb].
    unfold cfStep. rewrite Z.eqb_refl. destruct (Z.eqb_spec r cur); [lia|].
    destruct (Z.ltb_spec cur r); cbn [fadeT]; destruct (Z.ltb_spec (if cur <? r then r-1 else r+1) r);
      repeat match goal with |- context [?a <? ?b] => destruct (Z.ltb_spec a b) end; lia.
Qed.
