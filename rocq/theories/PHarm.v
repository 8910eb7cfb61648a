(** * PHarm: proof support for C49 *)
From Coq Require Import ZArith List Bool Reals Lia Lra Arith.
From Flocq Require Import Core.
From Verif Require Import Num Maths CrossFader Wavetable Filters Osc Spec SpecC SpecT NumFacts Laws CFFacts
  WTFacts BuildFacts SimdFacts OscFacts OscStep OscRun OscHist CFHist PTables PHist RNum RLaws.
From Coquelicot Require Import Coquelicot.
From Verif Require Import SpecE SpecX SpecV SpecG SpecH ExactMath ExactStep ExactRun ExactHist ExactCover ExactSig ExactLaws
  PExact ConvFacts PGain.
Import ListNotations.
Local Open Scope R_scope.

(** ** The cross-fader settles under a constant request *)
Definition settleIn (n r : Z) (s : Z * Z * Z) : Z :=
  let '(l, p, x) := s in
  if (x =? r)%Z then l else if (l =? 0)%Z then (n + 1)%Z else if (p =? r)%Z then (l + n + 1)%Z else l.
Lemma settle_step n r s : (1 <= n)%Z -> (0 <= fst (fst s) <= n)%Z ->
  let s' := cfStep n s r in (0 <= fst (fst s') <= n)%Z /\ (settleIn n r s' <= Z.max 0 (settleIn n r s - 1))%Z.
Proof.
  destruct s as [[l p] x]. cbn [fst]. intros Hn Hl. unfold settleIn, cfStep.
  destruct (Z.eqb_spec l 0) as [->|Hl0].
  - destruct (Z.eqb_spec r x) as [->|Hx].
    + cbn [fst]. rewrite Z.eqb_refl. lia.
    + rewrite Z.eqb_refl. destruct (Z.eqb_spec x r); [congruence|]. cbn [fst]. lia.
  - destruct (Z.eqb_spec r x) as [->|Hx]; cbn [negb andb].
    + rewrite Z.eqb_refl. cbn [fst]. lia.
    + destruct (Z.eqb_spec x r); [congruence|]. destruct (Z.eqb_spec r p) as [->|Hp]; cbn [negb fst].
      * rewrite Z.eqb_refl. destruct (Z.eqb_spec x p); [congruence|].
        destruct (Z.eqb_spec (l - 1) 0); [lia|]. rewrite Z.eqb_refl. lia.
      * rewrite Z.eqb_refl. destruct (Z.eqb_spec p r); [congruence|]. lia.
Qed.
Lemma settled_out n r s : (settleIn n r s <= 0)%Z -> (1 <= n)%Z -> (0 <= fst (fst s) <= n)%Z ->
  outS RNum n s r = (r, 1, (r + 1)%Z, 0).
Proof.
  destruct s as [[l p] x]. cbn [fst]. intros H Hn Hl. unfold settleIn in H. unfold outS.
  destruct (Z.eqb_spec x r) as [E|Hx]; [subst r|].
  - replace l with 0%Z by lia. rewrite !Z.eqb_refl. reflexivity.
  - destruct (Z.eqb_spec l 0); [lia|]. destruct (p =? r)%Z; lia.
Qed.
Lemma settle_bound n r s : (1 <= n)%Z -> (0 <= fst (fst s) <= n)%Z -> (settleIn n r s <= 2 * n + 1)%Z.
Proof.
  destruct s as [[l p] x]. cbn [fst]. intros Hn Hl. unfold settleIn.
  destruct (x =? r)%Z; [lia|]. destruct (l =? 0)%Z; [lia|]. destruct (p =? r)%Z; lia.
Qed.

(** ** Phases *)
Lemma step_int dir (q p : R) : exists k : Z, p = q + (stepBetween RNum dir q p : R) + IZR k.
Proof.
  unfold stepBetween, t0, t1, tfrac. cbn [tsub tadd tlt tofZ tdiv RNum]. destruct dir.
  - destruct (Rlt_bool (p - q) 0); [exists (-1)%Z|exists 0%Z]; cbn [tofZ RNum]; (change (T RNum) with R); lra.
  - destruct (Rlt_bool (p - q) (-1 / 2)); [exists (-1)%Z; lra|].
    destruct (Rlt_bool (1 / 2) (p - q)); [exists 1%Z|exists 0%Z]; lra.
Qed.
Lemma wave_periodic ys x k : (0 < zlen ys)%Z -> wave ys (x + IZR k) = wave ys x.
Proof.
  intros Hl. unfold wave. cbv zeta.
  assert (E : (x + IZR k) * IZR (zlen ys) = x * IZR (zlen ys) + IZR (k * zlen ys)) by (rewrite mult_IZR; ring).
  rewrite E.
  assert (Ef : Zfloor (x * IZR (zlen ys) + IZR (k * zlen ys)) = (Zfloor (x * IZR (zlen ys)) + k * zlen ys)%Z).
  { apply Zfloor_imp. rewrite !plus_IZR. assert (A := Zfloor_lb (x * IZR (zlen ys))). assert (B := Zfloor_ub (x * IZR (zlen ys))). lra. }
  rewrite Ef. set (f := Zfloor _).
  assert (Ec : forall j, cyc ys (j + k * zlen ys) = cyc ys j) by (intros j; unfold cyc; now rewrite Z_mod_plus_full).
  replace (f + k * zlen ys + 1)%Z with (f + 1 + k * zlen ys)%Z by ring. rewrite !Ec, plus_IZR. ring.
Qed.

(** ** One pole, quantitatively *)
Lemma onePole_step r z x y B : fst z < 0 -> (forall u, continuous x u) -> (forall u, 0 <= u <= 1 -> Rabs (x u) <= B) ->
  Cmod (onePole r z x y) <= exp (fst z) * Cmod y + (1 - exp (fst z)) * (B * poleBound (r, z)).
Proof.
  intros Hz Hc Hx. unfold onePole. eapply Rle_trans; [apply Cmod_triangle|].
  rewrite !Cmod_mult, cmod_cexp. assert (Hr := response_bound z x B Hz Hc Hx).
  assert (H2 : Cmod 2 = 2) by (rewrite Cmod_R; apply Rabs_pos_eq; lra). rewrite H2.
  unfold poleBound in *. cbn [fst snd] in *. rewrite Rabs_left in * by assumption.
  set (a := - fst z) in *. assert (Ha : 0 < a) by (unfold a; lra).
  replace (fst z) with (- a) by (unfold a; ring).
  unfold decay in Hr. set (e := exp (- a)) in *. assert (Hc0 := Cmod_ge_0 r).
  apply Rplus_le_compat_l. apply Rle_trans with (2 * Cmod r * ((1 - e) / a * B)).
  - apply Rmult_le_compat_l; [nra|assumption].
  - right. field. lra.
Qed.
Lemma onePole_diff (r z : C) (x x' : R -> R) (y y' : C) B : fst z < 0 -> (forall u, continuous x u) -> (forall u, continuous x' u) ->
  (forall u, 0 <= u <= 1 -> Rabs (x u - x' u) <= B) ->
  Cmod (onePole r z x y - onePole r z x' y')%C <= exp (fst z) * Cmod (y - y')%C + (1 - exp (fst z)) * (B * poleBound (r, z)).
Proof.
  intros Hz Hc Hc' Hx.
  assert (Hcd : forall u, continuous (fun u => 1 * x u + -1 * x' u) u).
  { intros u. apply (continuous_plus (V := R_NormedModule)); apply (continuous_mult (K := R_AbsRing)); try apply continuous_const; auto. }
  replace (onePole r z x y - onePole r z x' y')%C with (onePole r z (fun u => 1 * x u + -1 * x' u) (y - y')%C).
  - apply onePole_step; [assumption|assumption|]. intros u Hu. replace (1 * x u + -1 * x' u) with (x u - x' u) by ring. auto.
  - unfold onePole. rewrite response_lin by assumption. rewrite !RtoC_opp || idtac.
    replace (RtoC (-1)) with (- RtoC 1)%C by (now rewrite <- RtoC_opp). ring.
Qed.
Lemma allPoles_nth F x ys j r z y : nth_error (combine (f_r F) (f_z F)) j = Some (r, z) -> nth_error ys j = Some y ->
  nth_error (allPoles F x ys) j = Some (onePole r z x y).
Proof.
  unfold allPoles. generalize (combine (f_r F) (f_z F)) as l. intros l. revert j ys.
  induction l as [|e l IH]; intros [|j] [|y0 ys] H1 H2; try discriminate; cbn in H1, H2 |- *.
  - injection H1 as ->. injection H2 as ->. reflexivity.
  - now apply IH.
Qed.
Lemma sum_diff (l : list (C * C)) (bd : C * C -> R) : forall ys zs : list C, length ys = length l -> length zs = length l ->
  (forall j e y z, nth_error l j = Some e -> nth_error ys j = Some y -> nth_error zs j = Some z -> Cmod (y - z)%C <= bd e) ->
  Rabs (audible ys - audible zs) <= rsum (List.map bd l).
Proof.
  induction l as [|e l IH]; intros [|y ys] [|z zs] L1 L2 H; try discriminate; cbn [audible List.map fold_right rsum] in *.
  - unfold Rminus. rewrite Rplus_opp_r, Rabs_R0. lra.
  - unfold audible. cbn [List.map fold_right].
    replace (fst y + _ - (fst z + _)) with (fst (y - z)%C + (audible ys - audible zs)) by (unfold audible; cbn; ring).
    eapply Rle_trans; [apply Rabs_triang|]. apply Rplus_le_compat.
    + eapply Rle_trans; [apply fst_le_Cmod|]. apply (H 0%nat e y z); reflexivity.
    + apply IH; [now injection L1|now injection L2|]. intros j e' y' z' A B D. apply (H (S j) e' y' z'); assumption.
Qed.

(** ** A steadily moving waveform against its harmonics *)
Lemma harmonics_cont hs : forall x, continuous (harmonics hs) x.
Proof.
  intros x. induction hs as [|h hs IH].
  - apply (continuous_ext (fun _ => 0)); [intros; reflexivity|apply continuous_const].
  - apply (continuous_ext (fun x => plus (amplitude h * cos (2 * PI * number h * x + offset h)) (harmonics hs x))).
    + intros; reflexivity.
    + apply (continuous_plus (V := R_NormedModule)); [|exact IH].
      apply @ex_derive_continuous. auto_derive. exact I.
Qed.
Lemma harmonics_bound hs x : Rabs (harmonics hs x) <= loudness hs.
Proof.
  unfold harmonics, loudness. induction hs as [|h hs IH]; cbn [List.map rsum fold_right].
  - rewrite Rabs_R0. lra.
  - eapply Rle_trans; [apply Rabs_triang|]. apply Rplus_le_compat; [|exact IH].
    rewrite Rabs_mult. rewrite <- (Rmult_1_r (Rabs (amplitude h))) at 2. apply Rmult_le_compat_l; [apply Rabs_pos|].
    apply Rabs_le. assert (A := COS_bound (2 * PI * number h * x + offset h)). lra.
Qed.

Lemma exp_next i n0 x : (n0 <= i)%nat -> exp (INR (S i - n0) * x) = exp x * exp (INR (i - n0) * x).
Proof.
  intros H. replace (S i - n0)%nat with (S (i - n0)) by lia. rewrite S_INR.
  replace ((INR (i - n0) + 1) * x) with (x + INR (i - n0) * x) by ring. apply exp_plus.
Qed.
Lemma decay_settled eps pb X Cc e D : D <= eps * pb + X * Cc -> 0 < e ->
  e * D + (1 - e) * (eps * pb) <= eps * pb + e * X * Cc.
Proof.
  intros H He. apply Rle_trans with (e * (eps * pb + X * Cc) + (1 - e) * (eps * pb)).
  - apply Rplus_le_compat_r, Rmult_le_compat_l; lra.
  - right. ring.
Qed.
Lemma decay_before eps pb B Cc z D : D <= eps * pb + exp (0 * z) * Cc -> 0 <= eps -> 0 <= Cc -> 0 <= pb -> B * pb <= Cc ->
  0 < exp z -> exp z < 1 -> exp z * D + (1 - exp z) * (B * pb) <= eps * pb + exp (0 * z) * Cc.
Proof.
  rewrite Rmult_0_l, exp_0, Rmult_1_l. intros H He HC Hp HB E0 E1. set (e := exp z) in *. clearbody e.
  apply Rle_trans with (e * (eps * pb + Cc) + (1 - e) * Cc).
  - apply Rplus_le_compat; apply Rmult_le_compat_l; lra.
  - assert (A : 0 <= eps * pb) by (apply Rmult_le_pos; assumption). nra.
Qed.

Section Track.
Variable src : Resampler RNum.
Variable dbg : bool.
Variable F : Filt RNum.
Hypothesis HF : exactFilter F.
Hypothesis HS : stable F.
Variable hs : list Harmonic.
Variables q0 d : R.
Definition piece (i : nat) (u : R) : R := harmonics hs (q0 + d * (INR i + u)).
Fixpoint toneMem (i : nat) : list C :=
  match i with
  | O => repeat (RtoC 0) (length (f_r F))
  | S i => allPoles F (piece i) (toneMem i)
  end.
Lemma piece_cont i : forall u, continuous (piece i) u.
Proof.
  intros u. unfold piece.
  apply (continuous_comp (fun u => q0 + d * (INR i + u)) (harmonics hs)); [|apply harmonics_cont].
  apply @ex_derive_continuous. auto_derive. exact I.
Qed.
Lemma toneMem_length i : length (toneMem i) = length (f_r F).
Proof. induction i as [|i IH]; cbn [toneMem]; [apply repeat_length|]. now apply length_allP. Qed.

Variables (n0 : nat) (eps B Cc : R) (r n : Z).
Definition bd (i : nat) (e : C * C) : R := eps * poleBound e + exp (INR (i - n0) * fst (snd e)) * Cc.
Definition close (i : nat) (mem tm : list C) : Prop :=
  forall j e y t, nth_error (combine (f_r F) (f_z F)) j = Some e -> nth_error mem j = Some y -> nth_error tm j = Some t ->
    Cmod (y - t)%C <= bd i e.
Lemma poles_neg j e : nth_error (combine (f_r F) (f_z F)) j = Some e -> fst (snd e) < 0.
Proof.
  intros H. apply nth_error_In in H. destruct e as [a z]. apply in_combine_r in H. unfold stable in HS.
  rewrite List.Forall_forall in HS. now apply HS.
Qed.
Lemma poleBound_pos e : fst (snd e) < 0 -> 0 <= poleBound e.
Proof.
  intros H. unfold poleBound. apply Rmult_le_pos; [apply Rmult_le_pos; [lra|apply Cmod_ge_0]|].
  left. apply Rinv_0_lt_compat, Rabs_pos_lt, Rlt_not_eq, H.
Qed.
Lemma close_step i x mem tm : length mem = length (f_r F) -> length tm = length (f_r F) ->
  0 <= eps -> 0 <= Cc -> (forall j e, nth_error (combine (f_r F) (f_z F)) j = Some e -> B * poleBound e <= Cc) ->
  (forall u, continuous x u) ->
  (forall u, 0 <= u <= 1 -> Rabs (x u - piece i u) <= if le_lt_dec n0 i then eps else B) ->
  close i mem tm -> close (S i) (allPoles F x mem) (allPoles F (piece i) tm).
Proof.
  intros Lm Lt He HC HB Hx Hd Hc j [a [zr zi]] y t Ej Ey Et. set (z := (zr, zi)) in *.
  assert (Hz := poles_neg _ _ Ej). change (zr < 0) in Hz.
  assert (Lj : (j < length (f_r F))%nat).
  { assert (A : nth_error (combine (f_r F) (f_z F)) j <> None) by congruence.
    apply nth_error_Some in A. rewrite combine_length in A. lia. }
  destruct (nth_error mem j) as [y0|] eqn:Ey0; [|exfalso; apply nth_error_None in Ey0; rewrite <- Lm in Lj; exact (Nat.lt_irrefl _ (Nat.lt_le_trans _ _ _ Lj Ey0))].
  destruct (nth_error tm j) as [t0|] eqn:Et0; [|exfalso; apply nth_error_None in Et0; rewrite <- Lt in Lj; exact (Nat.lt_irrefl _ (Nat.lt_le_trans _ _ _ Lj Et0))].
  rewrite (allPoles_nth F x mem j a z y0 Ej Ey0) in Ey. rewrite (allPoles_nth F (piece i) tm j a z t0 Ej Et0) in Et.
  injection Ey as <-. injection Et as <-.
  specialize (Hc j (a, z) y0 t0 Ej Ey0 Et0). specialize (HB j (a, z) Ej).
  assert (Hp := poleBound_pos (a, z) Hz).
  assert (E0 : 0 < exp zr) by apply exp_pos.
  assert (E1 : exp zr < 1) by (rewrite <- exp_0; apply exp_increasing; lra).
  destruct (le_lt_dec n0 i) as [Hi|Hi].
  - eapply Rle_trans; [apply (onePole_diff a z x (piece i) y0 t0 eps Hz Hx (piece_cont i) Hd)|].
    unfold bd in *. cbn [snd fst z] in *. subst z. cbn [snd fst] in *. rewrite (exp_next i n0 zr Hi).
    apply decay_settled; [exact Hc|exact E0].
  - eapply Rle_trans; [apply (onePole_diff a z x (piece i) y0 t0 B Hz Hx (piece_cont i) Hd)|].
    unfold bd in *. cbn [snd fst z] in *. subst z. cbn [snd fst] in *. replace (S i - n0)%nat with 0%nat by lia. replace (i - n0)%nat with 0%nat in Hc by lia.
    cbn [INR] in *. apply (decay_before _ _ B _ zr); assumption.
Qed.

Lemma block_track dir st ps st' ys : block src dbg F dir st ps st' ys -> forall i,
  live src dbg F st -> 0 <= eps -> 0 <= Cc ->
  (forall j e, nth_error (combine (f_r F) (f_z F)) j = Some e -> B * poleBound e <= Cc) ->
  (forall k y, (0 <= k <= id_K st - 2)%Z -> In y (entry src st k) -> Rabs y <= B - loudness hs) ->
  (forall x, Rabs (wave (entry src st r) x - harmonics hs x) <= eps) ->
  d <> 0 -> entryFor (id_K st) (Rabs d) r ->
  (exists k, id_phase st = q0 + d * INR i + IZR k) -> steady dir (id_phase st) d ps ->
  cf_num (wt_cf (id_tab st)) = n -> (0 <= fst (fst (cfState RNum (wt_cf (id_tab st)))) <= n)%Z ->
  (settleIn n r (cfState RNum (wt_cf (id_tab st))) <= Z.max 0 (Z.of_nat n0 - Z.of_nat i))%Z ->
  close i (id_mem st) (toneMem i) ->
  forall j y, nth_error ys j = Some y ->
    Rabs (y - audible (toneMem (i + S j))) <= rsum (List.map (bd (i + S j)) (combine (f_r F) (f_z F))).
Proof.
  induction 1 as [st|st p st1 y ps st2 ys Hs Hb IH]; intros i L He HC HB Hent Hw Hd0 Hr Hph Hsd Hn Hl Hse Hcl j y' Hj.
  - destruct j; discriminate.
  - assert (L1 := sample_live src dbg F HF dir st p st1 y L Hs).
    destruct Hs as [d' w' m g mu gu mem Hsh Ed Hd' Hdr Hf Htr Hmem].
    unfold steady in Hsd. cbn [stepsOf] in Hsd. inversion_clear Hsd as [|? ? E1 Hsd']. rewrite E1 in Ed. subst d'.
    assert (La := L). destruct La as [LW LT Lwf Lm Lp].
    destruct (find_R src dbg _ _ _ (id_tab st) (Rabs d) r LW LT (Rabs_pos_lt d Hd0) Hr) as (w2 & Ef & Es & En & HT & Hn1).
    rewrite Ef in Hf. assert (Ew : w2 = w') by congruence. subst w2.
    assert (Eo : outS RNum (cf_num (wt_cf (id_tab st))) (cfState RNum (wt_cf (id_tab st))) r = (m, g, mu, gu)) by congruence.
    rewrite Hn in Eo, Es, En, Hn1.
    destruct (find_gains src dbg _ _ _ (id_tab st) (Rabs d) w' m g mu gu LW LT (Rabs_pos_lt d Hd0)) as (M1 & G1 & G2 & G3 & M2 & _).
    { rewrite Ef. f_equal. f_equal. rewrite Hn. exact Eo. }
    destruct Hph as [k Hk].
    assert (Zr : (0 < zlen (entry src st r))%Z) by (apply (entry_len src dbg F st r L); apply Hr).
    set (x := mixed src st (id_phase st) d (m, g, mu, gu)) in *.
    assert (Hx : forall u, continuous x u) by (intros u; apply mixed_cont).
    assert (Hlou : forall u, Rabs (piece i u) <= loudness hs) by (intros u; apply harmonics_bound).
    assert (Hdist : forall u, 0 <= u <= 1 -> Rabs (x u - piece i u) <= if le_lt_dec n0 i then eps else B).
    { intros u Hu. destruct (le_lt_dec n0 i) as [Hi|Hi].
      - assert (H0 : (settleIn n r (cfState RNum (wt_cf (id_tab st))) <= 0)%Z) by lia.
        assert (Eo' := settled_out n r _ H0 Hn1 Hl). rewrite Eo in Eo'. assert (m = r) by congruence.
        assert (Eg : g = 1) by congruence. assert (Egu : gu = 0) by congruence. subst m.
        unfold x, mixed. rewrite Hk, Eg, Egu. unfold piece.
        replace (q0 + d * INR i + IZR k + d * u) with (q0 + d * (INR i + u) + IZR k) by ring.
        rewrite wave_periodic by assumption. set (X := q0 + d * (INR i + u)).
        rewrite Rmult_1_l, Rmult_0_l, Rplus_0_r. apply Hw.
      - assert (A : Rabs (x u) <= B - loudness hs).
        { unfold x, mixed. set (X := id_phase st + d * u).
          assert (A : forall k0, (0 <= k0 <= id_K st - 2)%Z -> Rabs (wave (entry src st k0) X) <= B - loudness hs).
          { intros k0 Hk0. apply wave_bound; [now apply (entry_len src dbg F st k0 L)|]. intros y0 Hy0. now apply (Hent k0). }
          assert (A1 := A m M1). destruct (Req_dec gu 0) as [E|E].
          - rewrite E. replace g with 1 by lra. rewrite Rmult_1_l, Rmult_0_l, Rplus_0_r. exact A1.
          - assert (A2 := A mu (M2 E)). apply Rabs_le_between in A1. apply Rabs_le_between in A2. apply Rabs_le_between.
            set (a1 := wave _ _) in *. set (a2 := wave (entry src st mu) _) in *. set (BB := B - loudness hs) in *.
            replace BB with ((g + gu) * BB) by (rewrite G3; ring). split; nra. }
        specialize (Hlou u). unfold Rminus. eapply Rle_trans; [apply Rabs_triang|]. rewrite Rabs_Ropp. lra. }
    assert (Hcl1 : close (S i) mem (toneMem (S i))).
    { rewrite Hmem. cbn [toneMem]. apply close_step; auto. apply toneMem_length. }
    destruct j as [|j].
    + injection Hj as <-. rewrite Nat.add_1_r.
      apply sum_diff; [|rewrite toneMem_length; rewrite combine_length, (ef_z F HF); lia|exact Hcl1].
      rewrite Hmem. rewrite (length_allP F HF) by exact Lm. rewrite combine_length, (ef_z F HF). lia.
    + cbn [nth_error] in Hj. replace (i + S (S j))%nat with (S i + S j)%nat by lia.
      apply (IH (S i)); auto; cbn [id_K id_nw id_wfs id_tab id_wf id_phase id_step id_entry id_mem] in *; auto.
      * destruct (step_int dir (id_phase st) p) as [k' Ek']. rewrite E1 in Ek'. exists (k + k')%Z.
        rewrite Ek', Hk, S_INR, plus_IZR. ring.
      * rewrite Es. apply settle_step; assumption.
      * rewrite Es. destruct (settle_step n r _ Hn1 Hl) as [_ A]. cbv zeta in A. lia.
Qed.
End Track.

(** ** The memory of the pure harmonics is a sum of tones *)
Lemma tone_int F nu phi (n : nat) : stable F ->
  is_RInt (fun t => fst (impulse F (INR n - t)) * cos (2 * PI * nu * t + phi)) 0 (INR n)
   (fst (transfer F (axis nu) * turn (2 * PI * nu * INR n + phi))%C -
    fst (fold_right Cplus (RtoC 0) (List.map (fun e : C * C => ((fst e / (axis nu - snd e)) * cexp (RtoC (INR n) * snd e))%C) (fullPoles F)) * turn (phi))%C).
Proof.
  intros HS. assert (A := sum_tone (2 * PI * nu) phi (INR n) _ (fullPoles_stable F HS)).
  eapply is_RInt_ext; [|exact A]. intros t Ht. cbv beta.
  change (fold_right Cplus (RtoC 0) (List.map (fun e : C * C => (fst e * cexp (RtoC (INR n - t) * snd e))%C) (fullPoles F)))
    with (impulse F (INR n - t)).
  rewrite impulse_half. unfold turn. cbn -[cexp cos sin PI]. ring.
Qed.
Definition tail (F : Filt RNum) (nu phi : R) (n : nat) : R :=
  fst (fold_right Cplus (RtoC 0) (List.map (fun e : C * C => ((fst e / (axis nu - snd e)) * cexp (RtoC (INR n) * snd e))%C) (fullPoles F)) * turn (phi))%C.
Definition tails (F : Filt RNum) (hs : list Harmonic) (d q : R) (n : nat) : R :=
  rsum (List.map (fun h => amplitude h * tail F (number h * d) (2 * PI * number h * q + offset h) n) hs).
Lemma heard_cons F h hs d q n : heard F (h :: hs) d q n = amplitude h *
     fst (transfer F (axis (number h * d)) * turn (2 * PI * number h * (q + d * INR n) + offset h))%C + heard F hs d q n.
Proof. reflexivity. Qed.
Lemma tails_cons F h hs d q n : tails F (h :: hs) d q n =
  amplitude h * tail F (number h * d) (2 * PI * number h * q + offset h) n + tails F hs d q n.
Proof. reflexivity. Qed.
Lemma harm_int F hs d q (n : nat) : stable F ->
  is_RInt (fun t => fst (impulse F (INR n - t)) * harmonics hs (q + d * t)) 0 (INR n) (heard F hs d q n - tails F hs d q n).
Proof.
  intros HS. induction hs as [|h hs IH].
  - unfold heard, tails, harmonics. cbn [List.map rsum fold_right].
    evar_last; [apply (is_RInt_ext (fun _ => 0)); [intros; symmetry; apply Rmult_0_r|apply @is_RInt_const]|].
    unfold scal; cbn. unfold mult; cbn. ring.
  - assert (A := tone_int F (number h * d) (2 * PI * number h * q + offset h) n HS).
    apply (is_RInt_scal (V := R_NormedModule) _ _ _ (amplitude h)) in A.
    assert (Bp := is_RInt_plus (V := R_NormedModule) _ _ _ _ _ _ A IH).
    evar_last; [eapply is_RInt_ext; [|exact Bp]|].
    + intros t _. unfold plus, scal; cbn -[impulse PI cos harmonics amplitude number offset]. unfold mult; cbn -[impulse PI cos harmonics amplitude number offset].
      unfold harmonics at 2. cbn [List.map rsum fold_right]. fold (harmonics hs (q + d * t)).
      replace (2 * PI * number h * (q + d * t) + offset h) with (2 * PI * (number h * d) * t + (2 * PI * number h * q + offset h)) by ring.
      change (fold_right Rplus 0 (List.map (fun h0 => amplitude h0 * cos (2 * PI * number h0 * (q + d * t) + offset h0)) hs)) with (harmonics hs (q + d * t)).
      ring.
    + rewrite heard_cons, tails_cons.
      replace (2 * PI * number h * (q + d * INR n) + offset h) with (2 * PI * (number h * d) * INR n + (2 * PI * number h * q + offset h)) by ring.
      fold (tail F (number h * d) (2 * PI * number h * q + offset h) n).
      change (amplitude h * (fst (transfer F (axis (number h * d)) * turn (2 * PI * (number h * d) * INR n + (2 * PI * number h * q + offset h)))%C
           - tail F (number h * d) (2 * PI * number h * q + offset h) n) + (heard F hs d q n - tails F hs d q n) =
         amplitude h * fst (transfer F (axis (number h * d)) * turn (2 * PI * (number h * d) * INR n + (2 * PI * number h * q + offset h)))%C
           + heard F hs d q n - (amplitude h * tail F (number h * d) (2 * PI * number h * q + offset h) n + tails F hs d q n)).
      ring.
Qed.
Lemma signal_pieces hs q d n t : 0 <= t < INR n -> signal (List.map (piece hs q d) (seq 0 n)) t = harmonics hs (q + d * t).
Proof.
  intros H. unfold signal.
  assert (A : (0 <= Zfloor t)%Z) by (apply Zfloor_lub; lra).
  set (k := Z.to_nat (Zfloor t)).
  assert (Ek : INR k = IZR (Zfloor t)) by (unfold k; rewrite INR_IZR_INZ, Z2Nat.id; auto).
  assert (Bk : (k < n)%nat).
  { apply INR_lt. rewrite Ek. apply Rle_lt_trans with t; [apply Zfloor_lb|lra]. }
  rewrite (nth_indep _ _ (piece hs q d 0)) by (now rewrite map_length, seq_length).
  rewrite (map_nth (piece hs q d) (seq 0 n) 0%nat k).
  rewrite seq_nth by exact Bk. unfold piece. rewrite Nat.add_0_l, Ek. apply (f_equal (harmonics hs)). ring.
Qed.
Lemma toneMem_fold F hs q d n : toneMem F hs q d n =
  fold_left (fun mem x => allPoles F x mem) (List.map (piece hs q d) (seq 0 n)) (repeat (RtoC 0) (length (f_r F))).
Proof.
  induction n as [|n IH]; [reflexivity|]. rewrite seq_S, map_app, fold_left_app. cbn [toneMem]. rewrite IH. reflexivity.
Qed.
Lemma toneMem_heard F hs q d n : exactFilter F -> stable F ->
  audible (toneMem F hs q d n) = heard F hs d q n - tails F hs d q n.
Proof.
  intros HF HS. rewrite toneMem_fold, audible_conv.
  - rewrite map_length, seq_length. unfold filtered. apply is_RInt_unique.
    eapply is_RInt_ext; [|exact (harm_int F hs d q n HS)].
    intros t Ht. rewrite Rmin_left, Rmax_right in Ht by apply pos_INR. rewrite signal_pieces by lra. reflexivity.
  - apply List.Forall_forall. intros x Hx. apply in_map_iff in Hx. destruct Hx as (i & <- & _). apply piece_cont.
  - apply HF.
Qed.
Lemma tails_lim F hs d q : stable F -> is_lim_seq (tails F hs d q) 0.
Proof.
  intros HS. unfold tails. induction hs as [|h hs IH]; cbn [List.map rsum fold_right].
  - apply is_lim_seq_const.
  - replace (Finite 0) with (Finite (amplitude h * 0 + 0)) by (f_equal; ring).
    apply (is_lim_seq_plus _ _ (amplitude h * 0) 0); [|exact IH|unfold is_Rbar_plus; cbn; reflexivity].
    apply (is_lim_seq_mult _ _ (amplitude h) 0); [apply is_lim_seq_const| |unfold is_Rbar_mult; cbn; reflexivity].
    unfold tail. apply (tail_lim (fullPoles F) (fun e => (fst e / (axis (number h * d) - snd e))%C)), fullPoles_stable, HS.
Qed.
Lemma bd_lim (l : list (C * C)) n0 eps Cc : (forall e, In e l -> fst (snd e) < 0) ->
  is_lim_seq (fun n => rsum (List.map (bd n0 eps Cc n) l) - eps * rsum (List.map poleBound l)) 0.
Proof.
  intros H. induction l as [|e l IH]; cbn [List.map rsum fold_right].
  - apply (is_lim_seq_ext (fun _ => 0)); [intros; ring|apply is_lim_seq_const].
  - apply (is_lim_seq_ext (fun n => exp (INR (n - n0) * fst (snd e)) * Cc +
       (rsum (List.map (bd n0 eps Cc n) l) - eps * rsum (List.map poleBound l)))).
    + intros n. unfold bd at 2. unfold rsum. ring.
    + replace (Finite 0) with (Finite (0 * Cc + 0)) by (f_equal; ring).
      apply (is_lim_seq_plus _ _ (0 * Cc) 0); [|apply IH; intros; apply H; now right|unfold is_Rbar_plus; cbn; reflexivity].
      apply (is_lim_seq_mult _ _ 0 Cc); [|apply is_lim_seq_const|unfold is_Rbar_mult; cbn; reflexivity].
      apply (is_lim_seq_incr_n (fun n => exp (INR (n - n0) * fst (snd e))) n0).
      apply (is_lim_seq_ext (fun n => exp (INR n * fst (snd e)))).
      * intros n. replace (n + n0 - n0)%nat with n by lia. reflexivity.
      * apply cexp_n_lim. apply H. now left.
Qed.
