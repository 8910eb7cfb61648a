(** * PGain: proof support for the frequency responses (C45, C46) *)
From Coq Require Import ZArith List Bool Reals Lia Lra.
From Flocq Require Import Core.
From Verif Require Import Num CrossFader Wavetable Filters Osc Spec SpecC SpecT RNum.
From Coquelicot Require Import Coquelicot.
From Verif Require Import SpecE SpecX SpecV SpecG PolyZ ExactMath ExactLaws PExact ConvFacts.
Import ListNotations.
Local Open Scope R_scope.

(** ** Steady tones *)
Lemma signal_tone nu phi n t : 0 <= t < INR n -> signal (tone nu phi n) t = cos (2 * PI * nu * t + phi).
Proof.
  intros H. unfold signal.
  assert (A : (0 <= Zfloor t)%Z) by (apply Zfloor_lub; lra).
  set (k := Z.to_nat (Zfloor t)).
  assert (Ek : INR k = IZR (Zfloor t)) by (unfold k; rewrite INR_IZR_INZ, Z2Nat.id; auto).
  assert (B : (k < n)%nat).
  { apply INR_lt. rewrite Ek. apply Rle_lt_trans with t; [apply Zfloor_lb|lra]. }
  unfold tone.
  rewrite (nth_indep _ _ (fun u => cos (2 * PI * nu * (INR 0 + u) + phi))) by (now rewrite map_length, seq_length).
  rewrite (map_nth (fun k u => cos (2 * PI * nu * (INR k + u) + phi)) (seq 0 n) 0%nat k).
  rewrite seq_nth by exact B. rewrite Nat.add_0_l, Ek. apply (f_equal cos). ring.
Qed.

Lemma conj_inv (z : C) : z <> RtoC 0 -> (/ conj z)%C = conj (/ z)%C.
Proof.
  intros H. unfold conj, Cinv. cbn [fst snd]. f_equal; [f_equal; ring|].
  replace (fst z ^ 2 + (- snd z) ^ 2) with (fst z ^ 2 + snd z ^ 2) by ring. unfold Rdiv. ring.
Qed.

Lemma div_back (r k : C) : k <> RtoC 0 -> r = (r / k * k)%C.
Proof. intros H. field. exact H. Qed.

(** one pole: the integral of r exp(z(n-t)) exp(i(w t + phi)) *)
Definition tonePole (w phi n : R) (e : C * C) (t : R) : C :=
  (fst e * cexp (RtoC (n - t) * snd e) * turn (w * t + phi))%C.
Lemma tonePole_int w phi n (e : C * C) : fst (snd e) < 0 ->
  is_RInt (fun t => fst (tonePole w phi n e t)) 0 n
    (fst ((fst e / ((0, w) - snd e)) * turn (w * n + phi))%C -
     fst ((fst e / ((0, w) - snd e)) * cexp (RtoC n * snd e) * turn (phi))%C).
Proof.
  intros Hz. destruct e as [[a b] [c d]]. cbn [fst snd] in *.
  set (q := (((a, b) : C) / ((0, w) - (c, d)))%C).
  assert (N0 : ((0, w) - (c, d))%C <> RtoC 0).
  { intros E. apply (f_equal fst) in E. cbn in E. lra. }
  assert (Eq : ((a, b) : C) = (q * ((0, w) - (c, d)))%C) by (exact (div_back _ _ N0)).
  clearbody q. destruct q as [u v].
  set (Phi := fun t => fst (((u, v) : C) * cexp (RtoC (n - t) * (c, d)) * turn (w * t + phi))%C).
  replace (fst ((u, v) * turn (w * n + phi))%C - fst ((u, v) * cexp (RtoC n * (c, d)) * turn (phi))%C)
    with (minus (Phi n) (Phi 0)).
  2:{ unfold Phi, minus, plus, opp; cbn -[cexp turn]. unfold Rminus. f_equal.
      - replace (n + - n) with 0 by ring. unfold cexp; cbn.
        replace (0 * c - 0 * d) with 0 by ring. replace (0 * d + 0 * c) with 0 by ring.
        rewrite cos_0, sin_0, exp_0. ring.
      - replace (n + - 0) with n by ring. replace (w * 0 + phi) with phi by ring. reflexivity. }
  apply (is_RInt_ext (fun t => fst (tonePole w phi n ((a, b), (c, d)) t))); [reflexivity|].
  unfold tonePole. cbn [fst snd]. rewrite Eq.
  apply (is_RInt_derive Phi (fun t => fst (((u, v) * ((0, w) - (c, d))) * cexp (RtoC (n - t) * (c, d)) * turn (w * t + phi))%C)).
  - intros t _. unfold Phi, cexp, turn; cbn. auto_derive; [repeat split|]. unfold Rminus. ring.
  - intros t _. apply (continuous_ext (fun t => fst (((u, v) * ((0, w) - (c, d))) * cexp (RtoC (n - t) * (c, d)) * turn (w * t + phi))%C)); [reflexivity|].
    unfold cexp, turn; cbn. apply @ex_derive_continuous. auto_derive. repeat split.
Qed.

(** all poles *)
Lemma sum_tone w phi n (l : list (C * C)) : List.Forall (fun e : C * C => fst (snd e) < 0) l ->
  is_RInt (fun t => fst (fold_right Cplus (RtoC 0) (List.map (fun e => (fst e * cexp (RtoC (n - t) * snd e))%C) l)
      * turn (w * t + phi))%C) 0 n
   (fst (fold_right Cplus (RtoC 0) (List.map (fun e : C * C => (fst e / ((0, w) - snd e))%C) l) * turn (w * n + phi))%C -
    fst (fold_right Cplus (RtoC 0) (List.map (fun e : C * C => ((fst e / ((0, w) - snd e)) * cexp (RtoC n * snd e))%C) l) * turn (phi))%C).
Proof.
  induction 1 as [|e l He Hl IH]; cbn [List.map fold_right].
  - evar_last; [apply (is_RInt_ext (fun _ => 0)); [intros; cbn; ring|apply @is_RInt_const]|].
    unfold scal; cbn. unfold mult; cbn. ring.
  - assert (A := tonePole_int w phi n e He).
    assert (B := is_RInt_plus _ _ _ _ _ _ A IH). cbv beta in B.
    evar_last; [eapply is_RInt_ext; [|exact B]|].
    + intros t _. unfold plus; cbn [AbelianGroup.plus]; cbn -[cexp turn fold_right]. unfold tonePole.
      cbn -[cexp turn fold_right]. ring.
    + unfold plus; cbn -[cexp turn fold_right Cdiv Cminus]. ring.
Qed.

Lemma fullPoles_stable F : stable F -> List.Forall (fun e : C * C => fst (snd e) < 0) (fullPoles F).
Proof.
  intros H. assert (A : List.Forall (fun e : C * C => fst (snd e) < 0) (combine (f_r F) (f_z F))).
  { apply List.Forall_forall. intros [r z] Hin. apply in_combine_r in Hin. unfold stable in H.
    rewrite List.Forall_forall in H. exact (H z Hin). }
  unfold fullPoles. apply List.Forall_app. split; [exact A|]. apply List.Forall_map.
  eapply List.Forall_impl; [|exact A]. intros e He. exact He.
Qed.

Lemma filtered_tone F nu phi (n : nat) : stable F ->
  filtered F (tone nu phi n) n =
   (fst (transfer F (axis nu) * turn (2 * PI * nu * INR n + phi))%C -
    fst (fold_right Cplus (RtoC 0) (List.map (fun e : C * C => ((fst e / (axis nu - snd e)) * cexp (RtoC (INR n) * snd e))%C) (fullPoles F)) * turn (phi))%C).
Proof.
  intros HS. unfold filtered. apply is_RInt_unique.
  assert (A := sum_tone (2 * PI * nu) phi (INR n) _ (fullPoles_stable F HS)).
  evar_last; [eapply is_RInt_ext; [|exact A]|reflexivity].
  intros t Ht. rewrite Rmin_left, Rmax_right in Ht by apply pos_INR.
  rewrite signal_tone by lra. cbv beta.
  change (fold_right Cplus (RtoC 0) (List.map (fun e : C * C => (fst e * cexp (RtoC (INR n - t) * snd e))%C) (fullPoles F)))
    with (impulse F (INR n - t)).
  rewrite impulse_half. unfold turn. cbn -[cexp cos sin PI]. ring.
Qed.

Lemma tail_lim (l : list (C * C)) (q : C * C -> C) (y : C) : List.Forall (fun e : C * C => fst (snd e) < 0) l ->
  is_lim_seq (fun n => fst (fold_right Cplus (RtoC 0) (List.map (fun e : C * C => (q e * cexp (RtoC (INR n) * snd e))%C) l) * y)%C) 0.
Proof.
  intros H.
  assert (A : forall e, In e l -> is_lim_seq (fun n => Cmod (q e * cexp (RtoC (INR n) * snd e))%C) 0).
  { intros e He. rewrite List.Forall_forall in H. specialize (H e He).
    apply (is_lim_seq_ext (fun n => Cmod (q e) * exp (INR n * fst (snd e)))).
    - intros n. rewrite Cmod_mult. f_equal. unfold cexp, Cmod. cbn [fst snd RtoC Cmult].
      replace (INR n * fst (snd e) - 0 * snd (snd e)) with (INR n * fst (snd e)) by ring.
      set (x := exp _). set (th := INR n * snd (snd e) + 0 * fst (snd e)).
      replace ((x * cos th) ^ 2 + (x * sin th) ^ 2) with (x ^ 2 * (Rsqr (sin th) + Rsqr (cos th))) by (unfold Rsqr; ring).
      rewrite sin2_cos2, Rmult_1_r, sqrt_pow2; [reflexivity|]. unfold x. left. apply exp_pos.
    - replace (Finite 0) with (Finite (Cmod (q e) * 0)) by (f_equal; ring).
      apply (is_lim_seq_mult _ _ (Cmod (q e)) 0); [apply is_lim_seq_const|apply cexp_n_lim; exact H|].
      unfold is_Rbar_mult; cbn; reflexivity. }
  assert (B : is_lim_seq (fun n => Cmod (fold_right Cplus (RtoC 0) (List.map (fun e : C * C => (q e * cexp (RtoC (INR n) * snd e))%C) l))) 0).
  { clear H. induction l as [|e l IH]; cbn [List.map fold_right].
    - apply (is_lim_seq_ext (fun _ => 0)); [intros; symmetry; apply Cmod_0|apply is_lim_seq_const].
    - apply (is_lim_seq_le_le (fun _ => 0) _ (fun n => Cmod (q e * cexp (RtoC (INR n) * snd e))%C +
        Cmod (fold_right Cplus (RtoC 0) (List.map (fun e : C * C => (q e * cexp (RtoC (INR n) * snd e))%C) l)))).
      + intros n. split; [apply Cmod_ge_0|apply Cmod_triangle].
      + apply is_lim_seq_const.
      + replace (Finite 0) with (Finite (0 + 0)) by (f_equal; ring). apply (is_lim_seq_plus _ _ 0 0); [apply A; now left|apply IH; intros; apply A; now right|].
        unfold is_Rbar_plus; cbn. reflexivity. }
  apply is_lim_seq_abs_0.
  apply (is_lim_seq_le_le (fun _ => 0) _ (fun n => Cmod (fold_right Cplus (RtoC 0) (List.map (fun e : C * C => (q e * cexp (RtoC (INR n) * snd e))%C) l)) * Cmod y)).
  - intros n. split; [apply Rabs_pos|]. rewrite <- Cmod_mult. apply fst_le_Cmod.
  - apply is_lim_seq_const.
  - replace (Finite 0) with (Finite (0 * Cmod y)) by (f_equal; ring). apply (is_lim_seq_mult _ _ 0 (Cmod y)); [exact B|apply is_lim_seq_const|].
    unfold is_Rbar_mult; cbn. reflexivity.
Qed.

Lemma tone_limit F nu phi : stable F ->
  is_lim_seq (fun n => filtered F (tone nu phi n) n - fst (transfer F (axis nu) * turn (2 * PI * nu * INR n + phi))%C) 0.
Proof.
  intros HS. set (g := fun n : nat => fst (fold_right Cplus (RtoC 0) (List.map (fun e : C * C => ((fst e / (axis nu - snd e)) * cexp (RtoC (INR n) * snd e))%C) (fullPoles F)) * turn (phi))%C).
  apply (is_lim_seq_ext (fun n => - g n)).
  - intros n. rewrite filtered_tone by exact HS. unfold g. ring.
  - replace (Finite 0) with (Rbar_opp 0) by (cbn; f_equal; ring).
    apply -> is_lim_seq_opp.
    apply (tail_lim (fullPoles F) (fun e => (fst e / (axis nu - snd e))%C)), fullPoles_stable, HS.
Qed.

(** ** The transfer function as a quotient of polynomials *)
Definition scaled (U : Z) (l : Z * Z) : Z := (fst l * (U / snd l))%Z.
Lemma tdlit_scaled U l : (0 < snd l)%Z -> (U mod snd l = 0)%Z -> (0 < U)%Z ->
  (tdlit RNum l : R) = IZR (scaled U l) / IZR U.
Proof.
  intros H1 H2 H3. unfold scaled. change (tdlit RNum l) with (IZR (fst l) / IZR (snd l)).
  apply Z_div_exact_full_2 in H2; [|lia]. rewrite mult_IZR.
  assert (E : IZR U = IZR (snd l) * IZR (U / snd l)) by (rewrite <- mult_IZR, <- H2; reflexivity).
  assert (IZR (snd l) <> 0) by (apply IZR_neq; lia).
  assert (IZR U <> 0) by (apply IZR_neq; lia).
  assert (IZR (U / snd l) <> 0) by (intros E0; rewrite E0, Rmult_0_r in E; contradiction).
  rewrite E. field. split; assumption.
Qed.

(** numerator and denominator of r/(s-z) + conj r/(s - conj z), times U^2 *)
Definition pairN (U : Z) (e : CLit * CLit) : list Z :=
  let a := scaled U (fst (fst e)) in let b := scaled U (snd (fst e)) in
  let c := scaled U (fst (snd e)) in let d := scaled U (snd (snd e)) in
  [(-2 * (a * c + b * d))%Z; (2 * a * U)%Z].
Definition pairD (U : Z) (e : CLit * CLit) : list Z :=
  let c := scaled U (fst (snd e)) in let d := scaled U (snd (snd e)) in
  [(c * c + d * d)%Z; (-2 * c * U)%Z; (U * U)%Z].
(** a constant d/1000 plus all pairs *)
Fixpoint ratio (U d : Z) (l : list (CLit * CLit)) : list Z * list Z :=
  match l with
  | [] => ([d], [1000%Z])
  | e :: t => let (n, q) := ratio U d t in
      (zadd (zmul (pairN U e) q) (zmul n (pairD U e)), zmul (pairD U e) q)
  end.

Definition litOk (U : Z) (e : CLit * CLit) : bool :=
  List.forallb (fun l : Z * Z => (0 <? snd l)%Z && (U mod snd l =? 0)%Z)
    [fst (fst e); snd (fst e); fst (snd e); snd (snd e)] && (fst (fst (snd e)) <? 0)%Z.

Definition pairOf (e : CLit * CLit) : C * C := (clit RNum (fst e), clit RNum (snd e)).
Definition both (s : C) (e : C * C) : C :=
  (fst e / (s - snd e) + conj (fst e) / (s - conj (snd e)))%C.

Lemma pair_alg (r1 r2 z1 z2 u s : C) : u <> RtoC 0 -> (s - z1)%C <> RtoC 0 -> (s - z2)%C <> RtoC 0 ->
  (r1 / (s - z1) + r2 / (s - z2))%C = (u * (r1 * (s - z2) + r2 * (s - z1)) / (u * ((s - z1) * (s - z2))))%C.
Proof. intros H1 H2 H3. field. repeat split; assumption. Qed.
Lemma pair_ratio U e s : (0 < U)%Z -> litOk U e = true -> fst s = 0 ->
  ceval (pairD U e) s <> RtoC 0 /\
  both s (pairOf e) = (ceval (pairN U e) s / ceval (pairD U e) s)%C.
Proof.
  intros HU H Hs. apply andb_prop in H. destruct H as [H Hn].
  cbn [List.forallb] in H. rewrite !andb_true_iff in H.
  destruct H as ([A1 A2] & [B1 B2] & [C1 C2] & [D1 D2] & _).
  apply Z.ltb_lt in A1, B1, C1, D1, Hn. apply Z.eqb_eq in A2, B2, C2, D2.
  unfold both, pairOf, clit, conj. cbn [fst snd].
  assert (Hc : (tdlit RNum (fst (snd e)) : R) < 0).
  { change (tdlit RNum (fst (snd e))) with (IZR (fst (fst (snd e))) / IZR (snd (fst (snd e)))).
    unfold Rdiv. rewrite <- (Rmult_0_l (/ IZR (snd (fst (snd e))))).
    apply Rmult_lt_compat_r; [apply Rinv_0_lt_compat; apply IZR_lt; lia|apply IZR_lt; lia]. }
  rewrite (tdlit_scaled U (fst (fst e))), (tdlit_scaled U (snd (fst e))),
    (tdlit_scaled U (fst (snd e))), (tdlit_scaled U (snd (snd e))) in * by assumption.
  unfold pairN, pairD. cbv zeta.
  set (a := scaled U (fst (fst e))) in *. set (b := scaled U (snd (fst e))) in *.
  set (c := scaled U (fst (snd e))) in *. set (d := scaled U (snd (snd e))) in *.
  clearbody a b c d. clear A1 A2 B1 B2 C1 C2 D1 D2 Hn.
  assert (U0 : 0 < IZR U) by (apply IZR_lt; lia).
  assert (N1 : (s - ((IZR c / IZR U)%R, (IZR d / IZR U)%R))%C <> RtoC 0).
  { intros E. apply (f_equal fst) in E. cbn in E. rewrite Hs in E. unfold Rdiv in *. lra. }
  assert (N2 : (s - ((IZR c / IZR U)%R, (- (IZR d / IZR U))%R))%C <> RtoC 0).
  { intros E. apply (f_equal fst) in E. cbn in E. rewrite Hs in E. unfold Rdiv in *. lra. }
  assert (ED : ceval [(c * c + d * d)%Z; (-2 * c * U)%Z; (U * U)%Z] s =
    (RtoC (IZR U * IZR U) * ((s - ((IZR c / IZR U)%R, (IZR d / IZR U)%R)) * (s - ((IZR c / IZR U)%R, (- (IZR d / IZR U))%R))))%C).
  { cbn [ceval]. rewrite ?plus_IZR, ?mult_IZR. destruct s as [s1 s2].
    unfold RtoC, Cminus, Cplus, Cmult, Copp. cbn [fst snd]. apply C_eq; field; lra. }
  assert (EN : ceval [(-2 * (a * c + b * d))%Z; (2 * a * U)%Z] s =
    (RtoC (IZR U * IZR U) * (((IZR a / IZR U)%R, (IZR b / IZR U)%R) * (s - ((IZR c / IZR U)%R, (- (IZR d / IZR U))%R)) +
        ((IZR a / IZR U)%R, (- (IZR b / IZR U))%R) * (s - ((IZR c / IZR U)%R, (IZR d / IZR U)%R))))%C).
  { cbn [ceval]. rewrite ?mult_IZR, ?plus_IZR, ?mult_IZR. destruct s as [s1 s2].
    unfold RtoC, Cminus, Cplus, Cmult, Copp. cbn [fst snd]. apply C_eq; field; lra. }
  assert (NU : RtoC (IZR U * IZR U) <> RtoC 0).
  { intros E. apply (f_equal fst) in E. cbn in E. nra. }
  split.
  - rewrite ED. apply Cmult_neq_0; [exact NU|]. now apply Cmult_neq_0.
  - rewrite ED, EN. exact (pair_alg _ _ _ _ _ s NU N1 N2).
Qed.

Lemma csum_both s (l : list (C * C)) :
  fold_right Cplus (RtoC 0) (List.map (fun e : C * C => (fst e / (s - snd e))%C)
    (l ++ List.map (fun e : C * C => (conj (fst e), conj (snd e))) l)) =
  fold_right Cplus (RtoC 0) (List.map (both s) l).
Proof.
  rewrite map_app, csum_app, List.map_map. cbn [fst snd].
  induction l as [|e l IH]; cbn [List.map fold_right]; [ring|]. rewrite <- IH. unfold both. ring.
Qed.

Lemma ratio_ok U d l s : (0 < U)%Z -> List.forallb (litOk U) l = true -> fst s = 0 ->
  ceval (snd (ratio U d l)) s <> RtoC 0 /\
  (fold_right Cplus (RtoC 0) (List.map (fun e => both s (pairOf e)) l) + RtoC (IZR d / 1000))%C =
  (ceval (fst (ratio U d l)) s / ceval (snd (ratio U d l)) s)%C.
Proof.
  intros HU H Hs. induction l as [|e l IH]; cbn [ratio List.map fold_right].
  - cbn [fst snd ceval]. split.
    + intros E. apply (f_equal fst) in E. cbn in E. lra.
    + unfold RtoC, Cdiv, Cinv, Cplus, Cmult. cbn [fst snd]. apply C_eq; field; try lra; nra.
  - cbn [List.forallb] in H. apply andb_prop in H. destruct H as [H1 H2].
    destruct (pair_ratio U e s HU H1 Hs) as [Q1 E1]. destruct (IH H2) as [Q2 E2].
    destruct (ratio U d l) as [n q]. cbn [fst snd] in *. rewrite ceval_mul. split; [now apply Cmult_neq_0|].
    rewrite ceval_add, !ceval_mul.
    replace (both s (pairOf e) + fold_right Cplus 0 (List.map (fun e => both s (pairOf e)) l) + RtoC (IZR d / 1000))%C
      with (both s (pairOf e) + (fold_right Cplus 0 (List.map (fun e => both s (pairOf e)) l) + RtoC (IZR d / 1000)))%C by ring.
    rewrite E1, E2. field. split; assumption.
Qed.

Definition lits (f : FilterType) : list (CLit * CLit) := combine (rLit f) (zLit f).
Definition unitOf (f : FilterType) : Z :=
  match f with kType4 => e22 | kType5 => e11 | _ => e8 end.
Lemma lits_ok f : List.forallb (litOk (unitOf f)) (lits f) = true.
Proof. destruct f; vm_compute; reflexivity. Qed.
Lemma half_lits f : combine (f_r (filt RNum f)) (f_z (filt RNum f)) = List.map pairOf (lits f).
Proof. destruct f; reflexivity. Qed.

(** squared modulus of the transfer function plus d/1000, as a quotient of polynomials in w^2 *)
Definition powA (f : FilterType) (d : Z) : list Z := absq (fst (ratio (unitOf f) d (lits f))).
Definition powB (f : FilterType) (d : Z) : list Z := absq (snd (ratio (unitOf f) d (lits f))).

Lemma power_ratio f d w :
  0 < peval (powB f d) (w * w) /\
  Cmod (transfer (filt RNum f) (0, w) + RtoC (IZR d / 1000))%C ^ 2 =
    peval (powA f d) (w * w) / peval (powB f d) (w * w).
Proof.
  destruct (ratio_ok (unitOf f) d (lits f) (0, w)) as [N0 E].
  { destruct f; reflexivity. }
  { apply lits_ok. }
  { reflexivity. }
  unfold transfer, fullPoles. rewrite half_lits, csum_both, List.map_map. rewrite E.
  unfold powA, powB. rewrite <- !absq_ok.
  assert (P := proj1 (Cmod_gt_0 _) N0). split; [nra|].
  rewrite Cmod_div by exact N0. field. lra.
Qed.

(** ** pi *)
Lemma pi_bounds : 31415926530 / 10000000000 <= PI <= 31415926539 / 10000000000.
Proof.
  destruct (PI_2_3_7_ineq 5) as [H1 H2].
  cbn [Nat.mul Nat.add sum_f_R0] in H1, H2.
  unfold tg_alt, PI_2_3_7_tg, Ratan_seq in H1, H2. cbn [Nat.mul Nat.add pow] in H1, H2.
  repeat rewrite INR_IZR_INZ in H1. repeat rewrite INR_IZR_INZ in H2. cbn [Z.of_nat Pos.of_succ_nat Pos.succ] in H1, H2.
  split; lra.
Qed.

(** ** Stretching the frequency axis a little *)
Section Stretch.
Variables A B : list Z.
Variable L : Z.
Hypothesis HB : forall x, 0 <= x -> 0 < peval B x.
Definition slope : list Z := 0%Z :: zadd (zmul (der A) B) (zscale (-1) (zmul A (der B))).
Hypothesis Hup : forall x, 0 <= x -> 0 <= peval (zadd (zscale L (zmul B B)) slope) x.
Hypothesis Hdn : forall x, 0 <= x -> 0 <= peval (zadd (zscale L (zmul B B)) (zscale (-1) slope)) x.

Lemma slope_le x : 0 <= x -> Rabs (peval slope x) <= IZR L * (peval B x * peval B x).
Proof.
  intros Hx. generalize (Hup x Hx), (Hdn x Hx). rewrite !peval_add, !peval_scale, peval_mul.
  intros H1 H2. apply Rabs_le_between. lra.
Qed.
Lemma stretch x m : 0 <= x -> / 2 <= m ->
  Rabs (peval A (m * x) / peval B (m * x) - peval A x / peval B x) <= 2 * IZR L * Rabs (m - 1).
Proof.
  intros Hx Hm.
  set (f := fun t => peval A (t * x) / peval B (t * x)).
  set (df := fun t => x * (peval (der A) (t * x) * peval B (t * x) - peval A (t * x) * peval (der B) (t * x)) / (peval B (t * x) * peval B (t * x))).
  assert (D : forall t, 0 <= t -> is_derive f t (df t)).
  { intros t Ht. assert (P := HB (t * x) ltac:(nra)). unfold f, df.
    assert (DA : is_derive (fun t => peval A (t * x)) t (x * peval (der A) (t * x))).
    { apply (is_derive_comp (peval A) (fun t => t * x)); [apply peval_der|]. auto_derive; [exact I|ring]. }
    assert (DB : is_derive (fun t => peval B (t * x)) t (x * peval (der B) (t * x))).
    { apply (is_derive_comp (peval B) (fun t => t * x)); [apply peval_der|]. auto_derive; [exact I|ring]. }
    evar_last; [apply (is_derive_div (fun t => peval A (t * x)) (fun t => peval B (t * x)) t _ _ DA DB); lra|].
    unfold minus, plus, opp, mult, scal; cbn. field. lra. }
  assert (Hmin : / 2 <= Rmin 1 m) by (apply Rmin_glb; lra).
  destruct (MVT_gen f 1 m df) as (c & Hc & E).
  { intros t Ht. apply D. lra. }
  { intros t Ht. apply continuity_pt_filterlim. apply (@ex_derive_continuous _ _ f). eexists. apply D. lra. }
  change (peval A (m * x) / peval B (m * x)) with (f m).
  replace (peval A x / peval B x) with (f 1) by (unfold f; now rewrite Rmult_1_l).
  rewrite E, Rabs_mult. apply Rmult_le_compat_r; [apply Rabs_pos|].
  assert (C2 : / 2 <= c) by lra.
  assert (P := HB (c * x) ltac:(nra)). assert (S := slope_le (c * x) ltac:(nra)).
  assert (Ed : c * (peval B (c * x) * peval B (c * x)) * df c = peval slope (c * x)).
  { unfold df, slope. cbn [peval]. rewrite peval_add, peval_scale, !peval_mul. field. lra. }
  assert (Q : 0 < peval B (c * x) * peval B (c * x)) by nra.
  apply Rmult_le_reg_l with (c * (peval B (c * x) * peval B (c * x))); [nra|].
  rewrite <- (Rabs_pos_eq (c * (peval B (c * x) * peval B (c * x)))) at 1 by nra.
  rewrite <- Rabs_mult, Ed. 
  assert (L0 : 0 <= IZR L * (peval B (c * x) * peval B (c * x))) by (generalize (Rabs_pos (peval slope (c * x))); lra).
  nra.
Qed.
End Stretch.

(** ** Comparison with a given response *)
Definition pa : Z := 103993.
Definition pb : Z := 16551.
(** p(u (pa/pb)^2), times a power of pb *)
Definition sub (p : list Z) : list Z := asc (pa * pa) (hom (pb * pb) p).
Lemma sub_ok p u : IZR (pb * pb) * peval (sub p) u = IZR (pb * pb) ^ length p * peval p (u * (IZR pa / IZR pb) ^ 2).
Proof.
  unfold sub. rewrite peval_asc, peval_hom by (vm_compute; discriminate). f_equal. f_equal.
  rewrite !mult_IZR. field. apply IZR_neq. vm_compute. discriminate.
Qed.
Definition padTo (p q : list Z) : list Z := zadd p (zscale 0 q).
Lemma peval_pad p q x : peval (padTo p q) x = peval p x.
Proof. unfold padTo. rewrite peval_add, peval_scale. ring. Qed.
Lemma length_zadd p : forall q, length (zadd p q) = Nat.max (length p) (length q).
Proof. induction p as [|a p IH]; intros [|b q]; cbn [zadd length Nat.max]; auto. Qed.
Lemma length_pad p q : length (padTo p q) = Nat.max (length p) (length q).
Proof. unfold padTo, zscale. now rewrite length_zadd, map_length. Qed.

Definition fuel : nat := 24.
Definition closeUp (A B Gn Gd : list Z) (E : Z) : list Z :=
  zadd (zmul (zadd Gd (zscale (- E) Gn)) (sub (padTo B A))) (zmul (zscale E Gd) (sub (padTo A B))).
Definition closeDn (A B Gn Gd : list Z) (E : Z) : list Z :=
  zadd (zmul (zadd Gd (zscale E Gn)) (sub (padTo B A))) (zmul (zscale (- E) Gd) (sub (padTo A B))).
Lemma closeUp_ok A B Gn Gd E u : peval (closeUp A B Gn Gd E) u =
  peval (sub (padTo B A)) u * peval Gd u +
  IZR E * (peval (sub (padTo A B)) u * peval Gd u + -1 * (peval (sub (padTo B A)) u * peval Gn u)).
Proof. unfold closeUp. rewrite peval_add, !peval_mul, peval_add, !peval_scale, opp_IZR. ring. Qed.
Lemma closeDn_ok A B Gn Gd E u : peval (closeDn A B Gn Gd E) u =
  peval (sub (padTo B A)) u * peval Gd u +
  -1 * (IZR E * (peval (sub (padTo A B)) u * peval Gd u + -1 * (peval (sub (padTo B A)) u * peval Gn u))).
Proof. unfold closeDn. rewrite peval_add, !peval_mul, peval_add, !peval_scale, opp_IZR. ring. Qed.
Definition slopeUp (A B : list Z) (L : Z) : list Z := zadd (zscale L (zmul B B)) (slope A B).
Definition slopeDn (A B : list Z) (L : Z) : list Z := zadd (zscale L (zmul B B)) (zscale (-1) (slope A B)).

Lemma quot_alg (SA SB G1 G2 P Q b2 K E : R) :
  0 <= SB * G2 + E * (SA * G2 + -1 * (SB * G1)) ->
  0 <= SB * G2 + -1 * (E * (SA * G2 + -1 * (SB * G1))) ->
  0 < Q -> 0 < G2 -> b2 * SA = K * P -> b2 * SB = K * Q -> 0 < b2 -> 0 < K -> 0 < E ->
  Rabs (P / Q - G1 / G2) <= / E.
Proof.
  intros H1 H2 HB HG EA EB P0 HK HE.
  assert (ES : SA = K / b2 * P) by (apply Rmult_eq_reg_l with b2; [rewrite EA; field; lra|lra]).
  assert (ET : SB = K / b2 * Q) by (apply Rmult_eq_reg_l with b2; [rewrite EB; field; lra|lra]).
  assert (KB : 0 < K / b2) by (apply Rdiv_lt_0_compat; assumption).
  rewrite ES, ET in H1, H2. set (k := K / b2) in *. clearbody k.
  assert (QG : 0 < Q * G2) by nra.
  assert (W1 : 0 <= k * (Q * G2 + E * (P * G2 - Q * G1))) by lra.
  assert (W2 : 0 <= k * (Q * G2 - E * (P * G2 - Q * G1))) by lra.
  assert (V1 : 0 <= Q * G2 + E * (P * G2 - Q * G1)).
  { apply Rmult_le_reg_l with k; [exact KB|]. now rewrite Rmult_0_r. }
  assert (V2 : 0 <= Q * G2 - E * (P * G2 - Q * G1)).
  { apply Rmult_le_reg_l with k; [exact KB|]. now rewrite Rmult_0_r. }
  replace (P / Q - G1 / G2) with ((P * G2 - Q * G1) / (Q * G2)) by (field; split; nra).
  apply Rabs_le_between. split; apply Rmult_le_reg_r with (E * (Q * G2)); try nra.
  - replace ((P * G2 - Q * G1) / (Q * G2) * (E * (Q * G2))) with (E * (P * G2 - Q * G1)) by (field; lra).
    replace (- / E * (E * (Q * G2))) with (- (Q * G2)) by (field; lra). lra.
  - replace ((P * G2 - Q * G1) / (Q * G2) * (E * (Q * G2))) with (E * (P * G2 - Q * G1)) by (field; lra).
    replace (/ E * (E * (Q * G2))) with (Q * G2) by (field; lra). lra.
Qed.

Lemma close_ok A B Gn Gd E u : 0 <= peval (closeUp A B Gn Gd E) u -> 0 <= peval (closeDn A B Gn Gd E) u ->
  (0 < E)%Z -> 0 <= u ->
  0 < peval B (u * (IZR pa / IZR pb) ^ 2) -> 0 < peval Gd u ->
  Rabs (peval A (u * (IZR pa / IZR pb) ^ 2) / peval B (u * (IZR pa / IZR pb) ^ 2) - peval Gn u / peval Gd u) <= / IZR E.
Proof.
  intros H1 H2 HE Hu HB HG. rewrite closeUp_ok in H1. rewrite closeDn_ok in H2.
  assert (EA := sub_ok (padTo A B) u). assert (EB := sub_ok (padTo B A) u).
  rewrite peval_pad, length_pad in EA, EB. rewrite Nat.max_comm in EB.
  assert (P0 : 0 < IZR (pb * pb)) by (apply IZR_lt; reflexivity).
  assert (HK : 0 < IZR (pb * pb) ^ Nat.max (length A) (length B)) by (apply pow_lt; exact P0).
  exact (quot_alg _ _ _ _ _ _ _ _ (IZR E) H1 H2 HB HG EA EB P0 HK (IZR_lt 0 E HE)).
Qed.

Lemma pi_ratio : Rabs ((2 * PI / (IZR pa / IZR pb)) ^ 2 - 1) <= 7 / 10000000000.
Proof.
  destruct pi_bounds as [H1 H2]. unfold pa, pb.
  set (r := 2 * PI / (103993 / 16551)).
  assert (L1 : 1 - 3 / 10000000000 <= r) by (unfold r; lra).
  assert (L2 : r <= 1 + 3 / 10000000000) by (unfold r; lra).
  apply Rabs_le_between. split; nra.
Qed.

Theorem power_close f d Gn Gd :
  (forall x, 0 <= x -> 0 < peval Gd x) ->
  (forall x, 0 <= x -> 0 <= peval (closeUp (powA f d) (powB f d) Gn Gd 20000000) x) ->
  (forall x, 0 <= x -> 0 <= peval (closeDn (powA f d) (powB f d) Gn Gd 20000000) x) ->
  (forall x, 0 <= x -> 0 <= peval (slopeUp Gn Gd 20) x) ->
  (forall x, 0 <= x -> 0 <= peval (slopeDn Gn Gd 20) x) ->
  forall nu,
  Rabs (Cmod (transfer (filt RNum f) (axis nu) + RtoC (IZR d / 1000))%C ^ 2 - peval Gn (nu * nu) / peval Gd (nu * nu)) <= / 10000000.
Proof.
  intros HG C1 C2 S1 S2 nu. unfold axis. destruct (power_ratio f d (2 * PI * nu)) as [_ E]. rewrite E. clear E.
  assert (HB : forall x, 0 <= x -> 0 < peval (powB f d) x).
  { intros x Hx. destruct (power_ratio f d (sqrt x)) as [P _]. rewrite sqrt_sqrt in P by exact Hx. exact P. }
  set (p' := IZR pa / IZR pb).
  assert (P0 : 0 < p') by (unfold p'; apply Rdiv_lt_0_compat; apply IZR_lt; reflexivity).
  set (m := (2 * PI / p') ^ 2).
  assert (Hm : Rabs (m - 1) <= 7 / 10000000000) by exact pi_ratio.
  assert (Hm2 : / 2 <= m) by (apply Rabs_le_between in Hm; lra).
  set (u := nu * nu) in *. assert (Hu : 0 <= u) by (unfold u; nra).
  assert (Hmu : 0 <= m * u) by (apply Rmult_le_pos; lra).
  replace (2 * PI * nu * (2 * PI * nu)) with ((m * u) * p' ^ 2) by (unfold m, u; field; lra).
  assert (Hx : 0 <= (m * u) * p' ^ 2) by (apply Rmult_le_pos; [exact Hmu|apply pow2_ge_0]).
  assert (A1 := stretch Gn Gd 20 HG S1 S2 u m Hu Hm2).
  assert (A2 := close_ok _ _ _ _ _ (m * u) (C1 _ Hmu) (C2 _ Hmu) ltac:(lia) Hmu (HB _ Hx) (HG _ Hmu)). fold p' in A2.
  set (g1 := peval (powA f d) (m * u * p' ^ 2) / peval (powB f d) (m * u * p' ^ 2)) in *.
  set (g2 := peval Gn (m * u) / peval Gd (m * u)) in *.
  replace (g1 - peval Gn u / peval Gd u) with ((g1 - g2) + (g2 - peval Gn u / peval Gd u)) by ring.
  eapply Rle_trans; [apply Rabs_triang|]. 
  assert (2 * IZR 20 * Rabs (m - 1) <= 2 * 20 * (7 / 10000000000)) by (apply Rmult_le_compat_l; [lra|exact Hm]).
  lra.
Qed.
