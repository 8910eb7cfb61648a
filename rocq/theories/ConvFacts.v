(** * ConvFacts: the filter memory is a convolution integral (lemmas behind C32) *)
From Coq Require Import ZArith List Bool Reals Lia Lra Arith.
From Flocq Require Import Core.
From Verif Require Import Num CrossFader Wavetable Osc Spec SpecC SpecT RNum.
From Coquelicot Require Import Coquelicot.
From Verif Require Import SpecE SpecX SpecV ExactMath ExactSig ExactLaws PExact.
Import ListNotations.
Local Open Scope R_scope.

Notation cont x := (forall u : R, continuous (x : R -> R) u).

Lemma Zfloor_nat (n : nat) t : INR n <= t < INR n + 1 -> Zfloor t = Z.of_nat n.
Proof. intros H. apply Zfloor_imp. rewrite plus_IZR, <- INR_IZR_INZ. lra. Qed.

Lemma signal_last xs x t : INR (length xs) <= t < INR (length xs) + 1 ->
  signal (xs ++ [x]) t = x (t - INR (length xs)).
Proof.
  intros H. unfold signal. rewrite (Zfloor_nat _ _ H), Nat2Z.id, app_nth2, Nat.sub_diag by lia. cbn [nth].
  now rewrite <- INR_IZR_INZ.
Qed.
Lemma signal_front xs ys t : 0 <= t < INR (length xs) -> signal (xs ++ ys) t = signal xs t.
Proof.
  intros [H0 H]. unfold signal.
  assert (Hf : (Z.to_nat (Zfloor t) < length xs)%nat).
  { assert (A : IZR (Zfloor t) <= t) by apply Zfloor_lb. rewrite INR_IZR_INZ in H.
    assert (Zfloor t < Z.of_nat (length xs))%Z by (apply lt_IZR; lra).
    assert (0 <= Zfloor t)%Z by (apply Zfloor_lub; exact H0). lia. }
  now rewrite app_nth1.
Qed.

Lemma shift_int (f : R -> R) a I : is_RInt f 0 1 I -> is_RInt (fun t => f (t - a)) a (a + 1) I.
Proof.
  intros H.
  assert (H' : is_RInt f (1 * a + - a) (1 * (a + 1) + - a) I)
    by (replace (1 * a + - a) with 0 by ring; replace (1 * (a + 1) + - a) with 1 by ring; exact H).
  apply (is_RInt_comp_lin (V := R_NormedModule) f 1 (-a) a (a + 1) I) in H'.
  revert H'. apply is_RInt_ext. intros x _. rewrite (scal_one (V := R_NormedModule)). f_equal. ring.
Qed.

(** a continuous kernel times the signal is integrable *)
Lemma last_int k xs x : cont k -> cont x ->
  is_RInt (fun t => k t * signal (xs ++ [x]) t) (INR (length xs)) (INR (length xs) + 1)
    (RInt (fun u => k (u + INR (length xs)) * x u) 0 1).
Proof.
  intros Hk Hx. set (n := INR (length xs)).
  apply (is_RInt_ext (fun t => (fun u => k (u + n) * x u) (t - n))).
  - intros t Ht. rewrite Rmin_left, Rmax_right in Ht by lra. cbv beta.
    rewrite signal_last by (fold n; lra). fold n. f_equal. f_equal. ring.
  - apply (shift_int (fun u => k (u + n) * x u)). apply (RInt_correct (V := R_CompleteNormedModule)).
    apply (ex_RInt_continuous (V := R_CompleteNormedModule)). intros u _.
    apply (continuous_mult (K := R_AbsRing)); [|apply Hx].
    apply (continuous_comp (fun u => u + n) k); [|apply Hk].
    apply (ex_derive_continuous (V := R_NormedModule)). auto_derive. exact I.
Qed.
Lemma front_int k xs ys I : is_RInt (fun t => k t * signal xs t) 0 (INR (length xs)) I ->
  is_RInt (fun t => k t * signal (xs ++ ys) t) 0 (INR (length xs)) I.
Proof.
  apply is_RInt_ext. intros t Ht. rewrite Rmin_left, Rmax_right in Ht by apply pos_INR.
  rewrite signal_front by lra. reflexivity.
Qed.
Lemma length_snoc {A} (l : list A) x : INR (length (l ++ [x])) = INR (length l) + 1.
Proof. rewrite app_length, plus_INR. reflexivity. Qed.

Lemma sig_int k xs : cont k -> List.Forall (fun x : R -> R => cont x) xs ->
  ex_RInt (fun t => k t * signal xs t) 0 (INR (length xs)).
Proof.
  intros Hk. induction xs as [|x xs IH] using rev_ind; intros Hc.
  - cbn. apply ex_RInt_point.
  - apply Forall_app in Hc. destruct Hc as [Hc Hx]. inversion_clear Hx as [|? ? Hx' _].
    destruct (IH Hc) as [I HI]. rewrite length_snoc.
    eapply ex_RInt_Chasles; [eexists; apply front_int, HI|]. eexists. now apply last_int.
Qed.
Lemma sig_snoc k xs x : cont k -> List.Forall (fun x : R -> R => cont x) xs -> cont x ->
  RInt (fun t => k t * signal (xs ++ [x]) t) 0 (INR (length (xs ++ [x]))) =
  RInt (fun t => k t * signal xs t) 0 (INR (length xs)) + RInt (fun u => k (u + INR (length xs)) * x u) 0 1.
Proof.
  intros Hk Hc Hx. rewrite length_snoc. apply is_RInt_unique.
  apply (is_RInt_Chasles (V := R_NormedModule) _ 0 (INR (length xs))).
  - apply front_int. apply (RInt_correct (V := R_CompleteNormedModule)). now apply sig_int.
  - now apply last_int.
Qed.

(** ** One pole *)
Definition kern (z : C) (t : R) : C := cexp (RtoC t * z)%C.
Lemma kern_cont z (c : R) : cont (fun t => fst (kern z (c - t))) /\ cont (fun t => snd (kern z (c - t))).
Proof.
  unfold kern, cexp. cbn. split; intros u; apply (ex_derive_continuous (V := R_NormedModule)); auto_derive; exact I.
Qed.
Lemma kern_add z s t : kern z (s + t) = (kern z s * kern z t)%C.
Proof.
  unfold kern, cexp. cbn. apply injective_projections; cbn.
  - replace ((s + t) * fst z - 0 * snd z) with ((s * fst z - 0 * snd z) + (t * fst z - 0 * snd z)) by ring.
    replace ((s + t) * snd z + 0 * fst z) with ((s * snd z + 0 * fst z) + (t * snd z + 0 * fst z)) by ring.
    rewrite exp_plus, cos_plus. ring.
  - replace ((s + t) * fst z - 0 * snd z) with ((s * fst z - 0 * snd z) + (t * fst z - 0 * snd z)) by ring.
    replace ((s + t) * snd z + 0 * fst z) with ((s * snd z + 0 * fst z) + (t * snd z + 0 * fst z)) by ring.
    rewrite exp_plus, sin_plus. ring.
Qed.
Lemma kern_1 z : kern z 1 = cexp z.
Proof. unfold kern. f_equal. destruct z. apply injective_projections; cbn; ring. Qed.

Definition conv1 (z : C) (xs : list (R -> R)) : C :=
  (RInt (fun t => fst (kern z (INR (length xs) - t)) * signal xs t) 0 (INR (length xs)),
   RInt (fun t => snd (kern z (INR (length xs) - t)) * signal xs t) 0 (INR (length xs))).

Lemma conv1_nil z : conv1 z [] = RtoC 0.
Proof. unfold conv1. cbn [length INR]. rewrite !RInt_point. reflexivity. Qed.

Lemma conv1_snoc z xs x : List.Forall (fun x : R -> R => cont x) xs -> cont x ->
  conv1 z (xs ++ [x]) = (cexp z * conv1 z xs + response z x)%C.
Proof.
  intros Hc Hx. unfold conv1 at 1. set (n := INR (length xs)).
  assert (En : INR (length (xs ++ [x])) = n + 1) by apply length_snoc.
  assert (E : (RInt (fun t => fst (kern z (n + 1 - t)) * signal (xs ++ [x]) t) 0 (INR (length (xs ++ [x]))),
               RInt (fun t => snd (kern z (n + 1 - t)) * signal (xs ++ [x]) t) 0 (INR (length (xs ++ [x])))) =
     (cexp z * conv1 z xs + response z x)%C); [|rewrite <- E; rewrite En; reflexivity].
  destruct (kern_cont z (n + 1)) as [KC1 KC2].
  assert (S1 := sig_snoc (fun t => fst (kern z (n + 1 - t))) xs x KC1 Hc Hx).
  assert (S2 := sig_snoc (fun t => snd (kern z (n + 1 - t))) xs x KC2 Hc Hx).
  cbv beta in S1, S2. rewrite S1, S2. clear S1 S2.
  fold n.
  assert (ER : (RInt (fun u => fst (kern z (n + 1 - (u + n))) * x u) 0 1,
                RInt (fun u => snd (kern z (n + 1 - (u + n))) * x u) 0 1) = response z x).
  { unfold response. f_equal; apply RInt_ext; intros u _; unfold kern; f_equal; f_equal; f_equal; f_equal; f_equal; ring. }
  set (g1 := fun t => fst (kern z (n - t)) * signal xs t). set (g2 := fun t => snd (kern z (n - t)) * signal xs t).
  assert (G1 : ex_RInt g1 0 n) by exact (sig_int _ xs (proj1 (kern_cont z n)) Hc).
  assert (G2 : ex_RInt g2 0 n) by exact (sig_int _ xs (proj2 (kern_cont z n)) Hc).
  assert (K : forall t, kern z (n + 1 - t) = (cexp z * kern z (n - t))%C).
  { intros t. rewrite <- kern_1, <- kern_add. f_equal. ring. }
  assert (E1 : RInt (fun t => fst (kern z (n + 1 - t)) * signal xs t) 0 n = fst (cexp z) * RInt g1 0 n - snd (cexp z) * RInt g2 0 n).
  { apply is_RInt_unique.
    apply (is_RInt_ext (fun t => minus (scal (fst (cexp z)) (g1 t)) (scal (snd (cexp z)) (g2 t)))).
    - intros t _. rewrite K. unfold g1, g2, minus, plus, opp, scal. cbn. unfold mult. cbn. ring.
    - apply (is_RInt_minus (V := R_NormedModule)); apply (is_RInt_scal (V := R_NormedModule));
        apply (RInt_correct (V := R_CompleteNormedModule)); assumption. }
  assert (E2 : RInt (fun t => snd (kern z (n + 1 - t)) * signal xs t) 0 n = fst (cexp z) * RInt g2 0 n + snd (cexp z) * RInt g1 0 n).
  { apply is_RInt_unique.
    apply (is_RInt_ext (fun t => plus (scal (fst (cexp z)) (g2 t)) (scal (snd (cexp z)) (g1 t)))).
    - intros t _. rewrite K. unfold g1, g2, plus, scal. cbn. unfold mult. cbn. ring.
    - apply (is_RInt_plus (V := R_NormedModule)); apply (is_RInt_scal (V := R_NormedModule));
        apply (RInt_correct (V := R_CompleteNormedModule)); assumption. }
  rewrite <- ER. unfold conv1. fold n. fold g1 g2. unfold n in E1, E2. fold n in E1, E2. rewrite E1, E2.
  apply injective_projections; cbn [fst snd Cplus Cmult]; reflexivity.
Qed.

(** all poles, after the pieces [xs] from a cleared memory *)
Lemma memory_conv F xs : List.Forall (fun x : R -> R => cont x) xs -> length (f_z F) = length (f_r F) ->
  fold_left (fun mem x => allPoles F x mem) xs (repeat (RtoC 0) (length (f_r F))) =
  List.map (fun e : C * C => (2 * fst e * conv1 (snd e) xs)%C) (combine (f_r F) (f_z F)).
Proof.
  intros Hc Hl. revert Hc.
  assert (Lc : length (combine (f_r F) (f_z F)) = length (f_r F)) by (rewrite combine_length; lia).
  induction xs as [|x xs IH] using rev_ind; intros Hc.
  - cbn [fold_left]. rewrite <- Lc. generalize (combine (f_r F) (f_z F)). intros l.
    induction l as [|e l IHl]; cbn; [reflexivity|]. f_equal; [|exact IHl]. rewrite conv1_nil. ring.
  - apply Forall_app in Hc. destruct Hc as [Hc Hx]. inversion_clear Hx as [|? ? Hx' _].
    rewrite fold_left_app. cbn [fold_left]. rewrite (IH Hc). unfold allPoles.
    generalize (combine (f_r F) (f_z F)). intros l. induction l as [|e l IHl]; cbn [List.map combine]; [reflexivity|].
    f_equal; [|exact IHl]. cbn [fst snd]. unfold onePole. rewrite (conv1_snoc _ _ _ Hc Hx'). ring.
Qed.

(** ** The whole filter *)
Lemma cexp_conj z : cexp (conj z) = conj (cexp z).
Proof. unfold cexp, conj. cbn. rewrite cos_neg, sin_neg. f_equal. ring. Qed.

Lemma csum_app l m : fold_right Cplus (RtoC 0) (l ++ m) = (fold_right Cplus (RtoC 0) l + fold_right Cplus (RtoC 0) m)%C.
Proof. induction l as [|x l IH]; cbn [app fold_right]; [ring|]. rewrite IH. ring. Qed.

Lemma impulse_half F t : impulse F t =
  RtoC (fold_right Rplus 0 (List.map (fun e : C * C => fst (2 * fst e * kern (snd e) t)%C) (combine (f_r F) (f_z F)))).
Proof.
  unfold impulse, fullPoles. rewrite map_app, csum_app, List.map_map.
  generalize (combine (f_r F) (f_z F)). intros l. induction l as [|[r z] l IH].
  - cbn. apply injective_projections; cbn; ring.
  - cbn [List.map fold_right fst snd].
    set (A := fold_right Cplus (RtoC 0) (List.map _ l)) in *. set (B := fold_right Cplus (RtoC 0) (List.map _ l)) in *.
    set (S := fold_right Rplus 0 _) in *.
    rewrite RtoC_plus, <- IH.
    replace (RtoC t * conj z)%C with (conj (RtoC t * z))%C by (unfold conj; apply injective_projections; cbn; ring).
    rewrite cexp_conj. fold (kern z t). generalize (kern z t), A, B. intros k a b.
    destruct r, k. apply injective_projections; cbn; ring.
Qed.

Definition conv2 (z : C) (sig : R -> R) (n : R) : C :=
  (RInt (fun t => fst (kern z (n - t)) * sig t) 0 n, RInt (fun t => snd (kern z (n - t)) * sig t) 0 n).
Lemma sum_int (l : list (C * C)) (sig : R -> R) n : (forall e, In e l -> ex_RInt (fun t => fst (kern (snd e) (n - t)) * sig t) 0 n /\
     ex_RInt (fun t => snd (kern (snd e) (n - t)) * sig t) 0 n) ->
  is_RInt (fun t => fold_right Rplus 0 (List.map (fun e : C * C => fst (2 * fst e * kern (snd e) (n - t))%C) l) * sig t) 0 n
    (fold_right Rplus 0 (List.map (fun e : C * C => fst (2 * fst e * conv2 (snd e) sig n)%C) l)).
Proof.
  induction l as [|[r z] l IH]; intros H.
  - cbn. apply (is_RInt_ext (fun _ => 0)); [intros; symmetry; apply Rmult_0_l|].
    assert (Z := is_RInt_const (V := R_NormedModule) 0 n 0).
    change (is_RInt (fun _ : R => 0) 0 n ((n - 0) * 0)) in Z. rewrite Rmult_0_r in Z. exact Z.
  - cbn [List.map fold_right fst snd].
    destruct (H (r, z) (or_introl eq_refl)) as [H1 H2]. cbn [snd] in H1, H2.
    apply (RInt_correct (V := R_CompleteNormedModule)) in H1. apply (RInt_correct (V := R_CompleteNormedModule)) in H2.
    set (I1 := RInt _ 0 n) in H1. set (I2 := RInt _ 0 n) in H2.
    assert (IH' := IH ltac:(intros; apply H; now right)). clear IH.
    unfold conv2 at 1. fold I1 I2. set (S := fold_right Rplus 0 _) in IH'.
    apply (is_RInt_ext (fun t => plus (minus (scal (2 * fst r) (fst (kern z (n - t)) * sig t))
                                          (scal (2 * snd r) (snd (kern z (n - t)) * sig t)))
       (fold_right Rplus 0 (List.map (fun e : C * C => fst (2 * fst e * kern (snd e) (n - t))%C) l) * sig t))).
    + intros t _. unfold plus, minus, opp, scal. cbn. unfold mult. cbn. ring.
    + assert (Ev : (2 * fst r * I1 - 2 * snd r * I2) + S = fst (2 * r * (I1, I2))%C + S) by (cbn; ring).
      refine (eq_ind _ (fun v : R => is_RInt _ 0 n v) _ _ Ev).
      apply (is_RInt_plus (V := R_NormedModule)); [|exact IH'].
      apply (is_RInt_minus (V := R_NormedModule)); apply (is_RInt_scal (V := R_NormedModule)); assumption.
Qed.

Lemma audible_conv F xs : List.Forall (fun x : R -> R => cont x) xs -> length (f_z F) = length (f_r F) ->
  audible (fold_left (fun mem x => allPoles F x mem) xs (repeat (RtoC 0) (length (f_r F)))) = filtered F xs (length xs).
Proof.
  intros Hc Hl. rewrite memory_conv by assumption. unfold audible, filtered. rewrite List.map_map.
  symmetry. apply is_RInt_unique.
  eapply is_RInt_ext; [|apply (sum_int (combine (f_r F) (f_z F)) (signal xs) (INR (length xs)))].
  - intros t _. rewrite impulse_half. reflexivity.
  - intros e _. split; [exact (sig_int _ xs (proj1 (kern_cont _ _)) Hc)|exact (sig_int _ xs (proj2 (kern_cont _ _)) Hc)].
Qed.

Lemma filtered_front F xs ys : List.Forall (fun x : R -> R => cont x) xs -> length (f_z F) = length (f_r F) ->
  filtered F (xs ++ ys) (length xs) = filtered F xs (length xs).
Proof.
  intros Hc Hl. unfold filtered. apply RInt_ext. intros t Ht. rewrite Rmin_left, Rmax_right in Ht by apply pos_INR.
  rewrite signal_front by lra. reflexivity.
Qed.
