(** * Prop_Harm: property C49 -- the harmonics of the waveform come out, each through the
    filter on its own (exact arithmetic) *)
From Coq Require Import ZArith List Bool Reals Lia Lra Arith.
From Flocq Require Import Core.
From Verif Require Import Num Maths CrossFader Wavetable Filters Osc Spec SpecC SpecT NumFacts Laws CFFacts
  CFHist PTables PHist RNum RLaws Demo.
From Coquelicot Require Import Coquelicot.
From Verif Require Import SpecE SpecX SpecV SpecG SpecH ExactMath ExactSig ExactLaws PExact ConvFacts PGain PHarm.
From Verif Require Import ExactRun ExactHist ExactCover Prop_Exact Prop_Gain Prop_Move.
Import ListNotations.
Local Open Scope R_scope.

Lemma list_bound (l : list R) : exists B, forall y, In y l -> Rabs y <= B.
Proof.
  induction l as [|x l [B IH]]; [exists 0; intros y []|]. exists (Rmax (Rabs x) B). intros y [<-|H].
  - apply Rmax_l.
  - eapply Rle_trans; [now apply IH|apply Rmax_r].
Qed.
Lemma nat_bound (f : nat -> list R) m : exists B, forall k y, (k <= m)%nat -> In y (f k) -> Rabs y <= B.
Proof.
  induction m as [|m [B IH]].
  - destruct (list_bound (f 0%nat)) as [B H]. exists B. intros k y Hk. replace k with 0%nat by lia. apply H.
  - destruct (list_bound (f (S m))) as [B' H]. exists (Rmax B B'). intros k y Hk Hy.
    destruct (Nat.eq_dec k (S m)) as [->|Hne].
    + eapply Rle_trans; [now apply H|apply Rmax_r].
    + eapply Rle_trans; [apply (IH k); [lia|exact Hy]|apply Rmax_l].
Qed.
Lemma loudness_pos hs : 0 <= loudness hs.
Proof. eapply Rle_trans; [apply Rabs_pos|apply (harmonics_bound hs 0)]. Qed.
Lemma gain_sum F : gainBound F = rsum (List.map poleBound (combine (f_r F) (f_z F))).
Proof. reflexivity. Qed.

(** ** C49.  After any history of calls the specification covers, phases that move on at a
    constant step [d] (any direction): if entry [r], the one for that step, is within [eps]
    of a sum of harmonics, the samples become, after a while, the same harmonics at [d]
    times their numbers, each multiplied by the filter's transfer function at its own
    frequency, to within [eps] times the bound on the filter's gain and any [delta]. *)
Theorem C49_harmonics : forall src cfg F ops st ys0 dir d r hs eps delta,
  (1 <= batch cfg)%nat -> exactFilter F -> stable F ->
  plays src (dbg cfg) F None ops (Some st) ys0 -> d <> 0 -> entryFor (id_K st) (Rabs d) r ->
  (forall x, Rabs (wave (entry src st r) x - harmonics hs x) <= eps) -> 0 < delta ->
  exists N, forall ps st' ys,
    plays src (dbg cfg) F (Some st) [OpProcess RNum dir ps] st' ys -> steady dir (id_phase st) d ps ->
    outputs RNum (Osc.run RNum src cfg F (osc_new RNum F) (ops ++ [OpProcess RNum dir ps])) = Ok (ys0 ++ ys) /\
    forall n y, (N <= n)%nat -> nth_error ys n = Some y ->
      Rabs (y - heard F hs d (id_phase st) (S n)) <= eps * gainBound F + delta.
Proof.
  intros src cfg F ops st ys0 dir d r hs eps delta HB HF HS H0 Hd Hr Hw Hdel.
  assert (L := plays_live src (dbg cfg) F HF _ _ _ _ H0 I). cbn in L.
  assert (He : 0 <= eps) by (eapply Rle_trans; [apply Rabs_pos|apply (Hw 0)]).
  destruct (table_ok src (dbg cfg) _ _ _ _ (lv_well _ _ _ _ L) (lv_tab _ _ _ _ L)) as (_ & _ & CF).
  set (n := cf_num (wt_cf (id_tab st))) in *.
  destruct (proj1 (CFok_inv RNum (wt_cf (id_tab st))) CF) as [Hn Hi]. fold n in Hn, Hi.
  assert (Hl : (0 <= fst (fst (cfState RNum (wt_cf (id_tab st)))) <= n)%Z).
  { unfold cfState in *. cbn [fst]. unfold cfInv in Hi. lia. }
  set (n0 := Z.to_nat (2 * n + 1)).
  assert (Hse := settle_bound n r _ ltac:(lia) Hl).
  destruct (nat_bound (fun k => entry src st (Z.of_nat k)) (Z.to_nat (id_K st - 2))) as [B1 HB1].
  set (B := B1 + loudness hs).
  destruct (list_bound (List.map (fun e => B * poleBound e) (combine (f_r F) (f_z F)) ++ List.map Cmod (id_mem st))) as [Cc HCc].
  set (C0 := Rmax 0 Cc).
  assert (HC0 : 0 <= C0) by apply Rmax_l.
  assert (Hpl : forall e, In e (combine (f_r F) (f_z F)) -> fst (snd e) < 0).
  { intros e Hin. apply In_nth_error in Hin. destruct Hin as [j Hj]. exact (poles_neg F HS j e Hj). }
  assert (L1 := bd_lim (combine (f_r F) (f_z F)) n0 eps C0 Hpl).
  assert (L2 := tails_lim F hs d (id_phase st) HS).
  apply is_lim_seq_spec in L1. apply is_lim_seq_spec in L2.
  assert (Hh : 0 < delta / 2) by lra.
  destruct (L1 (mkposreal _ Hh)) as [N1 HN1]. destruct (L2 (mkposreal _ Hh)) as [N2 HN2]. cbn in HN1, HN2.
  exists (max N1 N2). intros ps st' ys Hp Hsd. split.
  { eapply plays_outputs; [assumption|assumption|]. eapply plays_app; eassumption. }
  assert (exists st1, block src (dbg cfg) F dir st ps st1 ys) as [st1 Hb].
  { inversion Hp; subst.
    - match goal with H : exists p d, _ |- _ => destruct H as (? & ? & [E|E]); discriminate end.
    - match goal with H : _ \/ _ |- _ => destruct H; discriminate end.
    - match goal with H : plays _ _ _ _ [] _ _ |- _ => inversion H; subst end.
      + exists st1. rewrite app_nil_r. assumption. }
  intros k y Hk Hy.
  assert (A := block_track src (dbg cfg) F HF HS hs (id_phase st) d n0 eps B C0 r n dir st ps st1 ys Hb 0%nat L He HC0).
  assert (R1 : Rabs (y - audible (toneMem F hs (id_phase st) d (0 + S k))) <=
     rsum (List.map (bd n0 eps C0 (0 + S k)) (combine (f_r F) (f_z F)))).
  { apply A; try assumption.
    - intros j e Hj. apply Rle_trans with Cc; [|apply Rmax_r].
      apply Rle_trans with (Rabs (B * poleBound e)); [apply Rle_abs|]. apply HCc. apply in_or_app. left.
      apply in_map_iff. exists e. split; [reflexivity|]. now apply nth_error_In in Hj.
    - intros k' y' Hk' Hy'. unfold B. replace (B1 + loudness hs - loudness hs) with B1 by ring.
      apply (HB1 (Z.to_nat k')); [lia|]. cbn beta. rewrite Z2Nat.id by lia. exact Hy'.
    - exists 0%Z. cbn [INR]. ring.
    - reflexivity.
    - unfold n0. lia.
    - intros j e y' t' Ej Ey Et. cbn [toneMem] in Et. apply nth_error_In, repeat_spec in Et. subst t'.
      unfold bd. cbn [Nat.sub INR]. rewrite Rmult_0_l, exp_0, Rmult_1_l.
      replace (y' - RtoC 0)%C with y' by (apply injective_projections; cbn; ring).
      assert (P := poleBound_pos e (poles_neg F HS j e Ej)).
      assert (Q : 0 <= eps * poleBound e) by (apply Rmult_le_pos; assumption).
      assert (W : Cmod y' <= Cc).
      { apply Rle_trans with (Rabs (Cmod y')); [apply Rle_abs|]. apply HCc. apply in_or_app. right. apply in_map.
        now apply nth_error_In in Ey. }
      assert (V : Cc <= C0) by apply Rmax_r. lra. }
  clear A. rewrite Nat.add_0_l in R1. rewrite toneMem_heard in R1 by assumption.
  specialize (HN1 (S k) ltac:(lia)). specialize (HN2 (S k) ltac:(lia)).
  rewrite <- gain_sum in HN1. rewrite Rminus_0_r in HN1, HN2.
  set (S1 := rsum _) in *. set (T1 := tails _ _ _ _ _) in *. set (H1 := heard _ _ _ _ _) in *.
  apply Rabs_def2 in HN1. apply Rabs_def2 in HN2. apply Rabs_le_between in R1. apply Rabs_le_between. lra.
Qed.
Print Assumptions C49_harmonics.

(** ** The anti-aliasing filters: played through type 2 or 5, the harmonics at or above 0.61 of the
    sample rate add at most 0.00205 of their amplitude; what remains are the harmonics below
    (those from half the sample rate up to 0.61 are the only ones that fold back audibly). *)
Lemma turn_mod th : Cmod (turn th) = 1.
Proof.
  unfold turn, Cmod. cbn [fst snd]. replace (cos th ^ 2 + sin th ^ 2) with (Rsqr (sin th) + Rsqr (cos th)) by (unfold Rsqr; ring).
  rewrite sin2_cos2. apply sqrt_1.
Qed.
Lemma heard_split F c G d q n hs : 0 <= G -> (forall nu, c <= Rabs nu -> gainAt F nu <= G) ->
  Rabs (heard F hs d q n - heard F (below c d hs) d q n) <= G * loudness (above c d hs).
Proof.
  intros HG Hg. induction hs as [|h hs IH].
  - unfold heard, loudness, below, above. cbn. rewrite Rminus_0_r, Rabs_R0. lra.
  - unfold below, above in *. cbn [filter]. destruct (Rlt_dec (Rabs (number h * d)) c) as [Hlt|Hge].
    + rewrite !heard_cons. match goal with |- Rabs (?a + ?b - (?a + ?e)) <= _ => replace (a + b - (a + e)) with (b - e) by ring end.
      exact IH.
    + rewrite heard_cons. unfold loudness in *. cbn [List.map rsum fold_right].
      set (A := amplitude h * _). set (Hh := heard F hs d q n) in *. set (Hb := heard F (filter _ hs) d q n) in *.
      apply Rle_trans with (Rabs A + Rabs (Hh - Hb)).
      { eapply Rle_trans; [|apply Rabs_triang]. right. f_equal. ring. }
      rewrite Rmult_plus_distr_l. apply Rplus_le_compat; [|exact IH].
      unfold A. rewrite Rabs_mult, Rmult_comm. apply Rmult_le_compat_r; [apply Rabs_pos|].
      eapply Rle_trans; [apply fst_le_Cmod|]. rewrite Cmod_mult, turn_mod, Rmult_1_r. apply Hg. lra.
Qed.
Theorem C49_aliasing : forall src cfg f N ops st ys0 dir d r hs eps delta, chOrder f = Some N ->
  (1 <= batch cfg)%nat ->
  plays src (dbg cfg) (filt RNum f) None ops (Some st) ys0 -> d <> 0 -> entryFor (id_K st) (Rabs d) r ->
  (forall x, Rabs (wave (entry src st r) x - harmonics hs x) <= eps) -> 0 < delta ->
  exists M, forall ps st' ys,
    plays src (dbg cfg) (filt RNum f) (Some st) [OpProcess RNum dir ps] st' ys -> steady dir (id_phase st) d ps ->
    outputs RNum (Osc.run RNum src cfg (filt RNum f) (osc_new RNum (filt RNum f)) (ops ++ [OpProcess RNum dir ps])) = Ok (ys0 ++ ys) /\
    forall n y, (M <= n)%nat -> nth_error ys n = Some y ->
      Rabs (y - heard (filt RNum f) (below (61 / 100) d hs) d (id_phase st) (S n)) <=
        eps * gainBound (filt RNum f) + 205 / 100000 * loudness (above (61 / 100) d hs) + delta.
Proof.
  intros src cfg f N ops st ys0 dir d r hs eps delta Hf HB H0 Hd Hr Hw Hdel.
  destruct (C49_harmonics src cfg (filt RNum f) ops st ys0 dir d r hs eps delta HB (shipped_exact f) (shipped_stable f) H0 Hd Hr Hw Hdel) as [M HM].
  exists M. intros ps st' ys Hp Hs. destruct (HM ps st' ys Hp Hs) as [Ho Hy]. split; [exact Ho|].
  intros n y Hn Ey. specialize (Hy n y Hn Ey).
  assert (S := heard_split (filt RNum f) (61 / 100) (205 / 100000) d (id_phase st) (S n) hs ltac:(lra)
     (fun nu H => proj2 (C46_stopband f N nu Hf H))).
  set (a := heard _ hs _ _ _) in *. set (b := heard _ (below _ _ _) _ _ _) in *.
  apply Rabs_le_between in Hy. apply Rabs_le_between in S. apply Rabs_le_between. lra.
Qed.
Print Assumptions C49_aliasing.

(** ** How far the lines between the samples of a sum of harmonics are from it *)
Lemma sin_lip a b : Rabs (sin a - sin b) <= Rabs (a - b).
Proof.
  destruct (MVT_gen sin b a cos) as (c & _ & E).
  - intros x _. auto_derive; [exact I|ring].
  - intros x _. apply continuity_sin.
  - rewrite E, Rabs_mult. rewrite <- (Rmult_1_l (Rabs (a - b))) at 2. apply Rmult_le_compat_r; [apply Rabs_pos|].
    apply Rabs_le. assert (B := COS_bound c). lra.
Qed.
Lemma cos_taylor x t : Rabs (cos (x + t) - cos x + t * sin x) <= t * t / 2.
Proof.
  assert (G : forall s, s = 1 \/ s = -1 -> 0 <= t * t / 2 - s * (cos (x + t) - cos x + t * sin x)).
  { intros s Hs. set (f := fun u => u * u / 2 - s * (cos (x + u) - cos x + u * sin x)).
    destruct (MVT_gen f 0 t (fun u => u - s * (- sin (x + u) + sin x))) as (c & Hc & E).
    - intros u _. unfold f. auto_derive; [exact I|field].
    - intros u _. assert (D : ex_derive f u) by (unfold f; auto_derive; exact I).
      apply continuity_pt_filterlim. exact (ex_derive_continuous f u D).
    - unfold f in E at 2. rewrite Rplus_0_r in E.
      assert (Q : f t = (c - s * (- sin (x + c) + sin x)) * t) by lra. fold (f t). rewrite Q.
      assert (Lp := sin_lip (x + c) x). replace (x + c - x) with c in Lp by ring. apply Rabs_le_between in Lp.
      destruct (Rle_dec 0 t) as [Ht|Ht].
      + rewrite Rmin_left, Rmax_right in Hc by lra. rewrite Rabs_pos_eq in Lp by lra.
        apply Rmult_le_pos; [|lra]. destruct Hs as [-> | ->]; lra.
      + rewrite Rmin_right, Rmax_left in Hc by lra. rewrite Rabs_left1 in Lp by lra.
        replace ((c - s * (- sin (x + c) + sin x)) * t) with ((- (c - s * (- sin (x + c) + sin x))) * (- t)) by ring.
        apply Rmult_le_pos; [|lra]. destruct Hs as [-> | ->]; lra. }
  assert (G1 := G 1 (or_introl eq_refl)). assert (G2 := G (-1) (or_intror eq_refl)). apply Rabs_le. lra.
Qed.
Lemma chord th h f : 0 <= f <= 1 ->
  Rabs (cos th + f * (cos (th + h) - cos th) - cos (th + f * h)) <= h * h / 8.
Proof.
  intros Hf. set (x := th + f * h).
  assert (A := cos_taylor x (- f * h)). assert (B := cos_taylor x ((1 - f) * h)).
  replace (x + - f * h) with th in A by (unfold x; ring). replace (x + (1 - f) * h) with (th + h) in B by (unfold x; ring).
  apply Rabs_le_between in A. apply Rabs_le_between in B.
  set (p := cos th) in *. set (q := cos (th + h)) in *. set (m := cos x) in *. set (s := sin x) in *.
  set (a := p - m + - f * h * s) in *. set (b := q - m + (1 - f) * h * s) in *.
  replace (p + f * (q - p) - m) with ((1 - f) * a + f * b) by (unfold a, b; ring).
  assert (K : (1 - f) * (- f * h * (- f * h) / 2) + f * ((1 - f) * h * ((1 - f) * h) / 2) <= h * h / 8).
  { replace ((1 - f) * (- f * h * (- f * h) / 2) + f * ((1 - f) * h * ((1 - f) * h) / 2)) with (h * h / 8 - (1 - 2 * f) * (1 - 2 * f) * (h * h) / 8) by field.
    assert (0 <= (1 - 2 * f) * (1 - 2 * f) * (h * h)) by (apply Rmult_le_pos; apply Rle_0_sqr). lra. }
  apply Rabs_le. split.
  - assert ((1 - f) * (- (- f * h * (- f * h) / 2)) <= (1 - f) * a) by (apply Rmult_le_compat_l; lra).
    assert (f * (- ((1 - f) * h * ((1 - f) * h) / 2)) <= f * b) by (apply Rmult_le_compat_l; lra). lra.
  - assert ((1 - f) * a <= (1 - f) * (- f * h * (- f * h) / 2)) by (apply Rmult_le_compat_l; lra).
    assert (f * b <= f * ((1 - f) * h * ((1 - f) * h) / 2)) by (apply Rmult_le_compat_l; lra). lra.
Qed.
Lemma cos_period_Z x k : cos (x + 2 * IZR k * PI) = cos x.
Proof.
  assert (P : forall y n, cos (y + 2 * INR n * PI) = cos y) by (intros; apply cos_period).
  destruct (Z_le_dec 0 k) as [H|H].
  - rewrite <- (Z2Nat.id k) by exact H. rewrite <- INR_IZR_INZ. apply P.
  - rewrite <- (P (x + 2 * IZR k * PI) (Z.to_nat (- k))). f_equal. rewrite INR_IZR_INZ, Z2Nat.id by lia. rewrite opp_IZR. ring.
Qed.
Lemma harm_periodic hs x k : harmonics hs (x + IZR k) = harmonics hs x.
Proof.
  unfold harmonics. induction hs as [|h hs IH]; cbn [List.map rsum fold_right]; [reflexivity|]. f_equal; [|exact IH]. f_equal.
  replace (2 * PI * number h * (x + IZR k) + offset h) with (2 * PI * number h * x + offset h + 2 * IZR (fst (fst h) * k) * PI)
    by (unfold number; rewrite mult_IZR; ring).
  apply cos_period_Z.
Qed.
Lemma harmonics_cons h hs x : harmonics (h :: hs) x = amplitude h * cos (2 * PI * number h * x + offset h) + harmonics hs x.
Proof. reflexivity. Qed.
Lemma bend_cons h hs L : bend (h :: hs) L = Rabs (amplitude h) * ((2 * PI * number h / IZR L) ^ 2 / 8) + bend hs L.
Proof. reflexivity. Qed.
Theorem C49_samples : forall ys hs, (0 < zlen ys)%Z ->
  (forall i, (0 <= i < zlen ys)%Z -> elem ys i = harmonics hs (IZR i / IZR (zlen ys))) ->
  forall x, Rabs (wave ys x - harmonics hs x) <= bend hs (zlen ys).
Proof.
  intros ys hs Hl He x. set (L := zlen ys) in *. assert (HL : 0 < IZR L) by (apply IZR_lt; exact Hl).
  assert (Hc : forall j, cyc ys j = harmonics hs (IZR j / IZR L)).
  { intros j. unfold cyc. fold L. rewrite He by (apply Z.mod_pos_bound; lia).
    rewrite <- (harm_periodic hs _ (j / L)). f_equal. rewrite (Z.div_mod j L) at 3 by lia. rewrite plus_IZR, mult_IZR. field. lra. }
  unfold wave. fold L. cbv zeta. set (k := Zfloor (x * IZR L)). rewrite !Hc.
  set (f := x * IZR L - IZR k).
  assert (Hf : 0 <= f <= 1).
  { unfold f, k. assert (A := Zfloor_lb (x * IZR L)). assert (B := Zfloor_ub (x * IZR L)). lra. }
  assert (Ex : x = IZR k / IZR L + f / IZR L) by (unfold f; field; lra).
  rewrite plus_IZR. clear He Hc. clearbody f. clearbody k L. rewrite Ex. clear Ex.
  induction hs as [|h hs IH].
  - unfold harmonics, bend. cbn [List.map rsum fold_right]. replace (0 + f * (0 - 0) - 0) with 0 by ring. rewrite Rabs_R0. lra.
  - rewrite !harmonics_cons, bend_cons. set (S0 := harmonics hs (IZR k / IZR L)) in *.
    set (S1 := harmonics hs ((IZR k + 1) / IZR L)) in *. set (S2 := harmonics hs (IZR k / IZR L + f / IZR L)) in *.
    set (th := 2 * PI * number h * (IZR k / IZR L) + offset h). set (dl := 2 * PI * number h / IZR L).
    assert (C := chord th dl f Hf).
    replace (2 * PI * number h * ((IZR k + 1) / IZR L) + offset h) with (th + dl) by (unfold th, dl; field; lra).
    replace (2 * PI * number h * (IZR k / IZR L + f / IZR L) + offset h) with (th + f * dl) by (unfold th, dl; field; lra).
    set (a := amplitude h).
    apply Rle_trans with (Rabs a * Rabs (cos th + f * (cos (th + dl) - cos th) - cos (th + f * dl)) + Rabs (S0 + f * (S1 - S0) - S2)).
    + rewrite <- Rabs_mult. eapply Rle_trans; [|apply Rabs_triang]. right. f_equal. ring.
    + apply Rplus_le_compat; [|exact IH]. apply Rmult_le_compat_l; [apply Rabs_pos|].
      replace (dl ^ 2 / 8) with (dl * dl / 8) by field. exact C.
Qed.
Print Assumptions C49_samples.

(** A table loaded with samples of a sum of harmonics, played at less than two of its samples
    per output sample (where the waveform itself is the entry in use). *)
Theorem C49_sampled_harmonics : forall src cfg F ops st ys0 dir d hs delta,
  (1 <= batch cfg)%nat -> exactFilter F -> stable F ->
  plays src (dbg cfg) F None ops (Some st) ys0 -> d <> 0 -> Rabs d < 2 / IZR (2 ^ id_K st) ->
  (forall i, (0 <= i < 2 ^ id_K st)%Z ->
     elem (waveform RNum (id_wfs st) (2 ^ id_K st) (id_wf st)) i = harmonics hs (IZR i / IZR (2 ^ id_K st))) ->
  0 < delta ->
  exists N, forall ps st' ys,
    plays src (dbg cfg) F (Some st) [OpProcess RNum dir ps] st' ys -> steady dir (id_phase st) d ps ->
    outputs RNum (Osc.run RNum src cfg F (osc_new RNum F) (ops ++ [OpProcess RNum dir ps])) = Ok (ys0 ++ ys) /\
    forall n y, (N <= n)%nat -> nth_error ys n = Some y ->
      Rabs (y - heard F hs d (id_phase st) (S n)) <= bend hs (2 ^ id_K st) * gainBound F + delta.
Proof.
  intros src cfg F ops st ys0 dir d hs delta HB HF HS H0 Hd Hd2 He Hdel.
  assert (L := plays_live src (dbg cfg) F HF _ _ _ _ H0 I). cbn in L.
  assert (LK : (2 <= id_K st)%Z) by (destruct (lv_well _ _ _ _ L); lia).
  assert (El : zlen (entry src st 0) = (2 ^ id_K st)%Z).
  { destruct (table_ok src (dbg cfg) _ _ _ _ (lv_well _ _ _ _ L) (lv_tab _ _ _ _ L)) as (Ct & _ & _).
    destruct (slot_of RNum src _ _ _ _ (id_wf st) 0 Ct (lv_wf _ _ _ _ L) ltac:(lia)) as (s & _ & _ & Ls & _).
    rewrite Z.sub_0_r in Ls. exact Ls. }
  apply (C49_harmonics src cfg F ops st ys0 dir d 0 hs); try assumption.
  - split; [lia|]. split; [right; exact Hd2|left; reflexivity].
  - intros x. rewrite <- El. apply C49_samples.
    + rewrite El. apply Z.pow_pos_nonneg; lia.
    + rewrite El. exact He.
Qed.
Print Assumptions C49_sampled_harmonics.

(** ** The hypotheses are met, for histories as long as one likes: eight samples of a cosine,
    played at one sample per sample from phase 0 *)
Definition cosine : list Harmonic := [(1%Z, 1, 0)].
Definition waveC : list R := List.map (fun i => harmonics cosine (IZR (Z.of_nat i) / IZR 8)) (seq 0 8).
Definition eighths (m : nat) : list R := List.map (fun i => IZR (Z.of_nat (S i) mod 8) / 8) (seq 0 m).
Lemma eighths_steady m : steady kForward (0 / 8) (1 / 8) (eighths m).
Proof.
  unfold steady, eighths. assert (G : forall i, List.Forall (fun s => s = 1 / 8)
     (stepsOf kForward (IZR (Z.of_nat i mod 8) / 8) (List.map (fun i => IZR (Z.of_nat (S i) mod 8) / 8) (seq i m)))).
  { induction m as [|m IH]; intros i; cbn [seq List.map stepsOf]; [constructor|]. apply List.Forall_cons; [|apply IH].
    unfold stepBetween, t0, t1. cbn [tsub tadd tlt tofZ RNum].
    assert (B := Z.mod_pos_bound (Z.of_nat i) 8 ltac:(lia)).
    assert (D := Z.div_mod (Z.of_nat i) 8 ltac:(lia)). set (a := (Z.of_nat i mod 8)%Z) in *.
    assert (a = 7 \/ a < 7)%Z as [E|E] by lia.
    - assert (E2 : (Z.of_nat (S i) mod 8 = 0)%Z).
      { symmetry. apply (Z.mod_unique _ _ (Z.of_nat i / 8 + 1)); lia. }
      rewrite E2, E. rewrite Rlt_bool_true by lra. lra.
    - assert (E2 : (Z.of_nat (S i) mod 8 = a + 1)%Z).
      { symmetry. apply (Z.mod_unique _ _ (Z.of_nat i / 8)); lia. }
      rewrite E2, plus_IZR. rewrite Rlt_bool_false by lra. lra. }
  exact (G 0%nat).
Qed.
Example C49_case : forall dbg, exists w st0,
  wt_build RNum (demo_src RNum) dbg waveC 1 1 1 = Ok (Some w) /\
  plays (demo_src RNum) dbg (filt RNum kType2) None [OpInit RNum (Some w) (0 / 8) (1 / 8)] (Some st0) [] /\
  id_phase st0 = 0 / 8 /\ Rabs (1 / 8) < 2 / IZR (2 ^ id_K st0) /\
  (forall i, (0 <= i < 2 ^ id_K st0)%Z ->
     elem (waveform RNum (id_wfs st0) (2 ^ id_K st0) (id_wf st0)) i = harmonics cosine (IZR i / IZR (2 ^ id_K st0))) /\
  forall m, exists ps st' ys, steady kForward (id_phase st0) (1 / 8) ps /\ length ys = m /\
    plays (demo_src RNum) dbg (filt RNum kType2) (Some st0) [OpProcess RNum kForward ps] st' ys.
Proof.
  intros dbg. destruct (built8 dbg waveC eq_refl) as (HW & w & Ew).
  destruct (built_fresh (demo_src RNum) dbg (filt RNum kType2) waveC 1 3 w 1 1 1 (0 / 8) (1 / 8) 0 HW)
    as (HT & w' & m & g0 & Fr & HT' & En & Hn1 & Hg & Hcs & Hm); auto; try lra; try exact fade1; try exact demo_cast.
  { apply (Prop_Move.dyadic8 0). lia. }
  { split; [lia|]. split; [right; cbn; lra|left; reflexivity]. }
  eexists w, _. split; [exact Ew|]. split.
  { eapply pl_load; [left; reflexivity|exact HW|exact HT|exact Fr|constructor]. }
  cbn [id_phase id_K id_wfs id_wf]. split; [reflexivity|]. split.
  { rewrite Rabs_pos_eq by lra. cbn. lra. }
  split.
  { intros i Hi. change (2 ^ 3)%Z with 8%Z in *. unfold elem.
    change (waveform RNum waveC 8 0) with waveC. unfold waveC.
    rewrite (nth_indep _ 0 ((fun i => harmonics cosine (IZR (Z.of_nat i) / IZR 8)) 0%nat)) by (rewrite map_length, seq_length; lia).
    rewrite (map_nth (fun i => harmonics cosine (IZR (Z.of_nat i) / IZR 8)) (seq 0 8) 0%nat). rewrite seq_nth by lia.
    f_equal. f_equal. f_equal. lia. }
  intros k.
  assert (Ss : List.Forall (fun s => s = 1 / 8) (stepsOf kForward (0 / 8) (eighths k))) by apply eighths_steady.
  assert (E0 : entryFor 3 (1 / 8) 0) by (split; [lia|]; split; [right; cbn; lra|left; reflexivity]).
  set (st0 := mkIdeal 3 1 waveC w' 0 (0 / 8) (1 / 8) m (repeat (RtoC 0) (length (f_r (filt RNum kType2))))).
  destruct (calm_forward (demo_src RNum) dbg (filt RNum kType2) 1 (eighths k) st0 g0 0 (repeat 0%Z k)) as (st' & ys & B); auto.
  - lia.
  - clear. revert g0. induction k as [|k IH]; intros g; cbn [repeat calm]; [exact I|]. left. split; [reflexivity|apply IH].
  - cbn. lra.
  - apply List.Forall_forall. intros p Hp. unfold eighths in Hp. apply in_map_iff in Hp. destruct Hp as (i & <- & _).
    apply Prop_Move.dyadic8. apply Z.mod_pos_bound. lia.
  - eapply List.Forall_impl; [|exact Ss]. intros s ->. lra.
  - assert (Lk : length (stepsOf kForward (0 / 8) (eighths k)) = k).
    { assert (G : forall ps q, length (stepsOf kForward q ps) = length ps) by (induction ps; intros; cbn; [reflexivity|now f_equal]).
      rewrite G. unfold eighths. now rewrite map_length, seq_length. }
    revert Ss Lk. cbn [id_phase id_K st0]. generalize (stepsOf kForward (0 / 8) (eighths k)). clear - E0.
    intros l Ss Lk. revert k Lk. induction Ss as [|s l Es Ss IH]; intros k <-; cbn; constructor.
    + rewrite Es. exact E0.
    + now apply IH.
  - exists (eighths k), (Some st'), (ys ++ []). split; [exact Ss|]. split.
    + rewrite app_nil_r, (block_length _ _ _ _ _ _ _ _ B). unfold eighths. now rewrite map_length, seq_length.
    + eapply pl_process; [exact B|constructor].
Qed.
