(** * Prop_Gain: properties C45 and C46 -- frequency responses of the shipped filters *)
From Coq Require Import ZArith List Bool Reals Lia Lra.
From Flocq Require Import Core.
From Verif Require Import Num CrossFader Wavetable Filters Osc Spec SpecC SpecT RNum.
From Coquelicot Require Import Coquelicot.
From Verif Require Import SpecE SpecX SpecV SpecG PolyZ ExactMath ExactLaws PExact ConvFacts PGain.
Import ListNotations.
Local Open Scope R_scope.

(** ** What the transfer function means: a pure tone of any frequency and phase that enters
    the filter comes out, once the transient has died away, as the same tone multiplied by
    the modulus of the transfer function and shifted by its argument. *)
Theorem C45_tone : forall F nu phi, stable F ->
  is_lim_seq (fun n => filtered F (tone nu phi n) n -
     fst (transfer F (axis nu) * turn (2 * PI * nu * INR n + phi))%C) 0.
Proof. intros F nu phi H. exact (tone_limit F nu phi H). Qed.
Print Assumptions C45_tone.

(** ** C45.  Types 1, 3 and 4 are Butterworth filters of order 2, 4 and 6 with cut-off at
    0.45 of the sample rate: at every frequency the power gain is the textbook one to
    within 1e-7. *)
Definition mono (c : Z) (n : nat) : list Z := repeat 0%Z n ++ [c].
Lemma peval_mono c n u : peval (mono c n) u = IZR c * u ^ n.
Proof.
  unfold mono. induction n as [|n IH]; cbn [repeat app peval pow]; [ring|]. rewrite IH. ring.
Qed.
Definition bwN (n : nat) : list Z := [(81 ^ Z.of_nat n)%Z].
Definition bwD (n : nat) : list Z := zadd [(81 ^ Z.of_nat n)%Z] (mono (400 ^ Z.of_nat n) n).
Lemma bw_poly n nu : 0 < peval (bwD n) (nu * nu) /\
  butterworth n (45 / 100) nu = peval (bwN n) (nu * nu) / peval (bwD n) (nu * nu).
Proof.
  unfold bwN, bwD. rewrite peval_add, peval_mono. cbn [peval]. rewrite Rmult_0_r, Rplus_0_r, <- !pow_IZR.
  rewrite <- Rpow_mult_distr. unfold butterworth. rewrite pow_mult.
  replace ((nu / (45 / 100)) ^ 2) with (400 * (nu * nu) / 81) by field.
  set (y := 400 * (nu * nu)). assert (Hy : 0 <= y) by (unfold y; nra).
  assert (P : 0 < 81 ^ n) by (apply pow_lt; lra). assert (Q : 0 <= y ^ n) by (apply pow_le; exact Hy).
  split; [lra|]. unfold Rdiv at 1. rewrite Rpow_mult_distr, pow_inv. field. split; lra.
Qed.
Lemma bw_pos n x : 0 <= x -> 0 < peval (bwD n) x.
Proof. intros Hx. destruct (bw_poly n (sqrt x)) as [P _]. rewrite sqrt_sqrt in P by exact Hx. exact P. Qed.
(** the inequalities between polynomials, settled by computation over the integers *)
Inductive certs (f : FilterType) (d : Z) (A B Gn Gd : list Z) (k : Z) : Prop := Certs
  (c_A : powA f d = A) (c_B : powB f d = B) (c_k : (0 <=? k)%Z = true)
  (c_up : nonnegT fuel k (closeUp A B Gn Gd 20000000) = true)
  (c_dn : nonnegT fuel k (closeDn A B Gn Gd 20000000) = true)
  (c_su : nonneg fuel (slopeUp Gn Gd 20) = true)
  (c_sd : nonneg fuel (slopeDn Gn Gd 20) = true).
Lemma Nonneg p : nonneg fuel p = true -> forall x, 0 <= x -> 0 <= peval p x.
Proof. intros H x Hx. exact (nonneg_ok _ _ x H Hx). Qed.
Lemma NonnegT k p : (0 <=? k)%Z = true -> nonnegT fuel k p = true -> forall x, 0 <= x -> 0 <= peval p x.
Proof. intros Hk H x Hx. apply Z.leb_le in Hk. exact (nonnegT_ok _ k _ x Hk H Hx). Qed.
Lemma certified f d A B Gn Gd k : certs f d A B Gn Gd k -> (forall x, 0 <= x -> 0 < peval Gd x) -> forall nu,
  Rabs (Cmod (transfer (filt RNum f) (axis nu) + RtoC (IZR d / 1000))%C ^ 2 - peval Gn (nu * nu) / peval Gd (nu * nu)) <= / 10000000.
Proof.
  intros [<- <- Hk H1 H2 H3 H4] HG.
  exact (power_close f d Gn Gd HG (NonnegT _ _ Hk H1) (NonnegT _ _ Hk H2) (Nonneg _ H3) (Nonneg _ H4)).
Qed.
(** the polynomials of the shipped filters, written out *)
Definition A1 := Eval vm_compute in powA kType1 0. Definition B1 := Eval vm_compute in powB kType1 0.
Definition A2 := Eval vm_compute in powA kType2 1. Definition B2 := Eval vm_compute in powB kType2 1.
Definition A3 := Eval vm_compute in powA kType3 0. Definition B3 := Eval vm_compute in powB kType3 0.
Definition A4 := Eval vm_compute in powA kType4 0. Definition B4 := Eval vm_compute in powB kType4 0.
Definition A5 := Eval vm_compute in powA kType5 1. Definition B5 := Eval vm_compute in powB kType5 1.
Ltac certify A B := constructor;
  [vm_cast_no_check (eq_refl A)|vm_cast_no_check (eq_refl B)|vm_cast_no_check (eq_refl true)..].
Lemma cert1 : certs kType1 0 A1 B1 (bwN 2) (bwD 2) 0. Proof. certify A1 B1. Qed.
Lemma cert3 : certs kType3 0 A3 B3 (bwN 4) (bwD 4) 0. Proof. certify A3 B3. Qed.
Lemma cert4 : certs kType4 0 A4 B4 (bwN 6) (bwD 6) 1000. Proof. certify A4 B4. Qed.

Definition bwOrder (f : FilterType) : option nat :=
  match f with kType1 => Some 2%nat | kType3 => Some 4%nat | kType4 => Some 6%nat | _ => None end.
Theorem C45_butterworth : forall f n nu, bwOrder f = Some n ->
  Rabs (gainAt (filt RNum f) nu ^ 2 - butterworth n (45 / 100) nu) <= / 10000000.
Proof.
  intros f n nu H. unfold gainAt.
  replace (transfer (filt RNum f) (axis nu)) with (transfer (filt RNum f) (axis nu) + RtoC (IZR 0 / 1000))%C.
  2:{ replace (IZR 0 / 1000) with 0 by lra. ring. }
  destruct (bw_poly n nu) as [P ->].
  destruct f; try discriminate H; injection H as <-.
  - exact (certified _ _ _ _ _ _ _ cert1 (bw_pos 2) nu).
  - exact (certified _ _ _ _ _ _ _ cert3 (bw_pos 4) nu).
  - exact (certified _ _ _ _ _ _ _ cert4 (bw_pos 6) nu).
Qed.
Print Assumptions C45_butterworth.

(** ** C46.  Types 2 and 5 are Chebyshev type 2 filters of order 10 and 8, 60 dB, stop band
    from 0.61 of the sample rate -- once 0.001 is added to their transfer function. *)
Fixpoint chebS (n : nat) : list Z * list Z :=
  match n with
  | O => ([1%Z], [61%Z])
  | S m => let (a, b) := chebS m in (b, zadd (zscale 122 b) (0%Z :: zscale (-10000) a))
  end.
Lemma chebT_step n x : chebT (S (S n)) x = 2 * x * chebT (S n) x - chebT n x.
Proof. reflexivity. Qed.
Lemma chebS_ok nu n : nu <> 0 ->
  peval (fst (chebS n)) (nu * nu) = (100 * nu) ^ n * chebT n (61 / 100 / nu) /\
  peval (snd (chebS n)) (nu * nu) = (100 * nu) ^ S n * chebT (S n) (61 / 100 / nu).
Proof.
  intros H. induction n as [|n [I1 I2]].
  - cbn. split; [ring|field; exact H].
  - cbn [chebS]. destruct (chebS n) as [a b]. cbn [fst snd] in *. split; [exact I2|].
    rewrite peval_add, peval_scale. cbn [peval]. rewrite peval_scale, I1, I2, chebT_step.
    cbn [pow]. field. exact H.
Qed.
Definition chN (n : nat) : list Z := zmul (fst (chebS n)) (fst (chebS n)).
Definition chD (n : nat) : list Z := zadd (chN n) (mono (999999 * 10000 ^ Z.of_nat n) n).
Lemma ch_poly n nu : nu <> 0 -> 0 < peval (chD n) (nu * nu) /\
  chebyshev2 n 1000000 (61 / 100) nu = peval (chN n) (nu * nu) / peval (chD n) (nu * nu).
Proof.
  intros H. unfold chD. rewrite peval_add, peval_mono. unfold chN. rewrite peval_mul.
  destruct (chebS_ok nu n H) as [-> _]. rewrite mult_IZR, <- pow_IZR.
  unfold chebyshev2. set (t := chebT n (61 / 100 / nu)).
  replace (999999 * 10000 ^ n * (nu * nu) ^ n) with (999999 * ((100 * nu) ^ n * (100 * nu) ^ n)).
  2:{ rewrite Rmult_assoc, <- !Rpow_mult_distr. f_equal. f_equal. ring. }
  set (k := (100 * nu) ^ n). assert (k <> 0) by (apply pow_nonzero; lra).
  assert (0 < k * k) by nra. assert (0 <= t * t) by nra.
  split; [assert (0 <= k * t * (k * t)) by nra; lra|]. field.
  repeat split; nra.
Qed.
Definition zhead (p : list Z) : Z := match p with [] => 0%Z | c :: _ => c end.
Lemma peval_0 p : peval p 0 = IZR (zhead p).
Proof. destruct p; cbn [peval zhead]; ring. Qed.
Lemma ch_zero n : (0 < zhead (chN n))%Z -> (0 < n)%nat ->
  0 < peval (chD n) 0 /\ peval (chN n) 0 / peval (chD n) 0 = 1.
Proof.
  intros H Hn. unfold chD. rewrite peval_add, peval_mono.
  rewrite pow_i by exact Hn. rewrite Rmult_0_r, Rplus_0_r, peval_0.
  apply IZR_lt in H. split; [exact H|field; lra].
Qed.
Lemma ch_pos n x : (0 < zhead (chN n))%Z -> (0 < n)%nat -> 0 <= x -> 0 < peval (chD n) x.
Proof.
  intros H Hn Hx. destruct (Req_dec x 0) as [->|N0]; [now apply ch_zero|].
  destruct (ch_poly n (sqrt x)) as [P _].
  - intros E. apply N0. rewrite <- (sqrt_sqrt x Hx), E. ring.
  - rewrite sqrt_sqrt in P by exact Hx. exact P.
Qed.
Lemma ch_pos10 x : 0 <= x -> 0 < peval (chD 10) x.
Proof. apply ch_pos; [reflexivity|lia]. Qed.
Lemma ch_pos8 x : 0 <= x -> 0 < peval (chD 8) x.
Proof. apply ch_pos; [reflexivity|lia]. Qed.
Lemma cert2 : certs kType2 1 A2 B2 (chN 10) (chD 10) 900. Proof. certify A2 B2. Qed.
Lemma cert5 : certs kType5 1 A5 B5 (chN 8) (chD 8) 850. Proof. certify A5 B5. Qed.
Definition chOrder (f : FilterType) : option nat :=
  match f with kType2 => Some 10%nat | kType5 => Some 8%nat | _ => None end.
Theorem C46_chebyshev : forall f n nu, chOrder f = Some n -> nu <> 0 ->
  Rabs (Cmod (transfer (filt RNum f) (axis nu) + RtoC (1 / 1000))%C ^ 2 -
        chebyshev2 n 1000000 (61 / 100) nu) <= / 10000000.
Proof.
  intros f n nu H Hn. destruct (ch_poly n nu Hn) as [P ->].
  destruct f; try discriminate H; injection H as <-.
  - exact (certified _ _ _ _ _ _ _ cert2 ch_pos10 nu).
  - exact (certified _ _ _ _ _ _ _ cert5 ch_pos8 nu).
Qed.
Print Assumptions C46_chebyshev.

(** ... so the documented filters would stop 60 dB; the shipped ones lack the constant term
    and stop at least 53 dB *)
Lemma chebT_cos th n : chebT n (cos th) = cos (INR n * th) /\ chebT (S n) (cos th) = cos (INR (S n) * th).
Proof.
  induction n as [|n [I1 I2]].
  - cbn. rewrite Rmult_0_l, cos_0, Rmult_1_l. auto.
  - split; [exact I2|]. rewrite chebT_step, I1, I2.
    replace (INR (S (S n)) * th) with (INR (S n) * th + th) by (rewrite (S_INR (S n)); ring).
    replace (INR n * th) with (INR (S n) * th - th) by (rewrite S_INR; ring).
    rewrite cos_plus, cos_minus. ring.
Qed.
Lemma chebT_le1 n x : -1 <= x <= 1 -> chebT n x ^ 2 <= 1.
Proof.
  intros H. rewrite <- (cos_acos x H). destruct (chebT_cos (acos x) n) as [-> _].
  generalize (COS_bound (INR n * acos x)). intros B. nra.
Qed.
Lemma stop_power n nu : 61 / 100 <= Rabs nu -> 0 <= chebyshev2 n 1000000 (61 / 100) nu <= / 1000000.
Proof.
  intros H. unfold chebyshev2. set (t := chebT n (61 / 100 / nu) ^ 2).
  assert (N0 : nu <> 0) by (intros ->; rewrite Rabs_R0 in H; lra).
  assert (T : 0 <= t <= 1).
  { split; [apply pow2_ge_0|]. apply chebT_le1. apply Rabs_le_between.
    unfold Rdiv at 1. rewrite Rabs_mult, Rabs_inv, (Rabs_pos_eq (61 / 100)) by lra.
    apply Rmult_le_reg_r with (Rabs nu); [lra|]. rewrite Rmult_assoc, Rinv_l by lra. lra. }
  assert (P : 0 < t + (1000000 - 1)) by lra. split.
  - apply Rmult_le_pos; [lra|]. left. now apply Rinv_0_lt_compat.
  - apply Rmult_le_reg_r with (t + (1000000 - 1)); [exact P|]. unfold Rdiv. rewrite Rmult_assoc, Rinv_l by lra. lra.
Qed.
Lemma square_le a b : 0 <= b -> a ^ 2 <= b ^ 2 -> a <= b.
Proof. intros Hb H. destruct (Rle_dec a b); [assumption|]. nra. Qed.
Theorem C46_stopband : forall f n nu, chOrder f = Some n -> 61 / 100 <= Rabs nu ->
  Cmod (transfer (filt RNum f) (axis nu) + RtoC (1 / 1000))%C <= 105 / 100000 /\
  gainAt (filt RNum f) nu <= 205 / 100000.
Proof.
  intros f n nu H Hn. assert (N0 : nu <> 0) by (intros ->; rewrite Rabs_R0 in Hn; lra).
  assert (C := C46_chebyshev f n nu H N0). destruct (stop_power n nu Hn) as [S1 S2].
  apply Rabs_le_between in C.
  assert (A : Cmod (transfer (filt RNum f) (axis nu) + RtoC (1 / 1000))%C <= 105 / 100000) by (apply square_le; lra).
  split; [exact A|]. unfold gainAt.
  replace (transfer (filt RNum f) (axis nu)) with ((transfer (filt RNum f) (axis nu) + RtoC (1 / 1000)) + RtoC (- (1 / 1000)))%C.
  2:{ rewrite RtoC_opp. ring. }
  eapply Rle_trans; [apply Cmod_triangle|]. rewrite Cmod_R, Rabs_Ropp, Rabs_pos_eq by lra. lra.
Qed.
Print Assumptions C46_stopband.

(** Pass band: up to 0.4 (type 2) and 0.33 (type 5) of the sample rate the gain is 1 to
    within one percent. *)
Definition passEdge (f : FilterType) : Z * Z :=
  match f with kType2 => (4, 25)%Z | _ => (1089, 10000)%Z end.
(** 1000 N - 987 D, on [0, edge] *)
Definition passPoly (f : FilterType) (n : nat) : list Z :=
  let (p, q) := passEdge f in
  asc p (hom q (zadd (zscale 1000 (chN n)) (zscale (-987) (chD n)))).
Lemma pass2 : nonneg01 fuel (passPoly kType2 10) = true. Proof. vm_cast_no_check (eq_refl true). Qed.
Lemma pass5 : nonneg01 fuel (passPoly kType5 8) = true. Proof. vm_cast_no_check (eq_refl true). Qed.
Lemma pass_power f n nu : nonneg01 fuel (passPoly f n) = true -> nu <> 0 ->
  nu * nu <= IZR (fst (passEdge f)) / IZR (snd (passEdge f)) -> 987 / 1000 <= chebyshev2 n 1000000 (61 / 100) nu.
Proof.
  intros H N0 Hn. destruct (ch_poly n nu N0) as [P ->].
  unfold passPoly in H. assert (PE : (0 < fst (passEdge f))%Z /\ (0 < snd (passEdge f))%Z) by (destruct f; cbn; lia).
  destruct (passEdge f) as [p q]. cbn [fst snd] in *. destruct PE as [Pp Pq].
  assert (Rp : 0 < IZR p) by (apply IZR_lt; lia). assert (Rq : 0 < IZR q) by (apply IZR_lt; lia).
  set (W := zadd (zscale 1000 (chN n)) (zscale (-987) (chD n))) in *.
  assert (A := nonneg01_ok fuel _ (nu * nu * (IZR q / IZR p)) H).
  rewrite peval_asc in A.
  assert (B := peval_hom q W (IZR p * (nu * nu * (IZR q / IZR p))) ltac:(lia)).
  replace (IZR p * (nu * nu * (IZR q / IZR p)) / IZR q) with (nu * nu) in B by (field; lra).
  assert (I : 0 <= nu * nu * (IZR q / IZR p) <= 1).
  { assert (0 < IZR q / IZR p) by (apply Rdiv_lt_0_compat; lra). split; [nra|].
    apply Rle_trans with (IZR p / IZR q * (IZR q / IZR p)); [apply Rmult_le_compat_r; lra|].
    right. field. lra. }
  specialize (A I). 
  assert (V : 0 <= peval W (nu * nu)).
  { apply Rmult_le_reg_l with (IZR q ^ length W); [apply pow_lt; exact Rq|]. rewrite <- B, Rmult_0_r.
    apply Rmult_le_pos; lra. }
  unfold W in V. rewrite peval_add, !peval_scale in V.
  apply Rmult_le_reg_r with (peval (chD n) (nu * nu)); [exact P|]. unfold Rdiv at 2. rewrite Rmult_assoc, Rinv_l by lra. lra.
Qed.
Lemma pass_upper n nu : chebyshev2 n 1000000 (61 / 100) nu <= 1.
Proof.
  unfold chebyshev2. set (t := chebT n (61 / 100 / nu) ^ 2). assert (0 <= t) by apply pow2_ge_0.
  apply Rmult_le_reg_r with (t + (1000000 - 1)); [lra|]. unfold Rdiv. rewrite Rmult_assoc, Rinv_l by lra. lra.
Qed.
Lemma DC f n : chOrder f = Some n ->
  Rabs (Cmod (transfer (filt RNum f) (axis 0) + RtoC (1 / 1000))%C ^ 2 - 1) <= / 10000000.
Proof.
  intros H. destruct f; try discriminate H; injection H as <-.
  - destruct (ch_zero 10 ltac:(reflexivity) ltac:(lia)) as [_ E]. assert (C := certified _ _ _ _ _ _ _ cert2 ch_pos10 0). replace (0 * 0) with 0 in C by ring. rewrite E in C. exact C.
  - destruct (ch_zero 8 ltac:(reflexivity) ltac:(lia)) as [_ E]. assert (C := certified _ _ _ _ _ _ _ cert5 ch_pos8 0). replace (0 * 0) with 0 in C by ring. rewrite E in C. exact C.
Qed.
Theorem C46_passband : forall f n nu, chOrder f = Some n ->
  Rabs nu <= match f with kType2 => 40 / 100 | _ => 33 / 100 end ->
  99 / 100 <= gainAt (filt RNum f) nu <= 101 / 100.
Proof.
  intros f n nu H Hn.
  assert (G : 993 / 1000 <= Cmod (transfer (filt RNum f) (axis nu) + RtoC (1 / 1000))%C <= 1 + 1 / 1000).
  { destruct (Req_dec nu 0) as [->|N0].
    - assert (C := DC f n H). apply Rabs_le_between in C.
      assert (0 <= Cmod (transfer (filt RNum f) (axis 0) + RtoC (1 / 1000))%C) by apply Cmod_ge_0.
      split; apply square_le; lra.
    - assert (C := C46_chebyshev f n nu H N0). assert (U := pass_upper n nu). apply Rabs_le_between in C.
      assert (L : 987 / 1000 <= chebyshev2 n 1000000 (61 / 100) nu).
      { assert (S : nu * nu = Rabs nu * Rabs nu) by (unfold Rabs; destruct (Rcase_abs nu); ring).
        assert (0 <= Rabs nu) by apply Rabs_pos.
        destruct f; try discriminate H; injection H as <-.
        - apply (pass_power kType2 10 nu pass2 N0). cbn [passEdge fst snd]. rewrite S. nra.
        - apply (pass_power kType5 8 nu pass5 N0). cbn [passEdge fst snd]. rewrite S. nra. }
      assert (0 <= Cmod (transfer (filt RNum f) (axis nu) + RtoC (1 / 1000))%C) by apply Cmod_ge_0.
      split; apply square_le; lra. }
  unfold gainAt.
  assert (E : transfer (filt RNum f) (axis nu) = ((transfer (filt RNum f) (axis nu) + RtoC (1 / 1000)) + RtoC (- (1 / 1000)))%C).
  { rewrite RtoC_opp. ring. }
  assert (T1 : Cmod (transfer (filt RNum f) (axis nu)) <= Cmod (transfer (filt RNum f) (axis nu) + RtoC (1 / 1000))%C + 1 / 1000).
  { rewrite E at 1. eapply Rle_trans; [apply Cmod_triangle|]. rewrite Cmod_R, Rabs_Ropp, Rabs_pos_eq by lra. lra. }
  assert (T2 := Cmod_triangle (transfer (filt RNum f) (axis nu)) (RtoC (1 / 1000))).
  rewrite Cmod_R, Rabs_pos_eq in T2 by lra. lra.
Qed.
Print Assumptions C46_passband.

(** ... and 60 dB are really missed: frequencies in the stop band with a gain above 0.0019 *)
Fixpoint zeval (p : list Z) (x : Z) : Z := match p with [] => 0%Z | c :: t => (c + x * zeval t x)%Z end.
Lemma zeval_ok p x : peval p (IZR x) = IZR (zeval p x).
Proof. induction p as [|c p IH]; cbn [peval zeval]; [reflexivity|]. now rewrite plus_IZR, mult_IZR, IH. Qed.
Lemma gain_at f (w : Z) (q : Z) :
  (0 < q)%Z ->
  (3610000 * zeval (hom (q * q) (padTo (powB f 0) (powA f 0))) (w * w) <=
   1000000000000 * zeval (hom (q * q) (padTo (powA f 0) (powB f 0))) (w * w))%Z ->
  19 / 10000 <= Cmod (transfer (filt RNum f) (0, IZR w / IZR q)).
Proof.
  intros Hq H. apply square_le; [apply Cmod_ge_0|].
  replace (transfer (filt RNum f) (0, IZR w / IZR q)) with (transfer (filt RNum f) (0, (IZR w / IZR q)%R) + RtoC (IZR 0 / 1000))%C.
  2:{ replace (IZR 0 / 1000) with 0 by lra. ring. }
  destruct (power_ratio f 0 (IZR w / IZR q)) as [P ->].
  assert (Rq : 0 < IZR q) by (apply IZR_lt; lia).
  assert (EA := peval_hom (q * q) (padTo (powA f 0) (powB f 0)) (IZR (w * w)) ltac:(lia)).
  assert (EB := peval_hom (q * q) (padTo (powB f 0) (powA f 0)) (IZR (w * w)) ltac:(lia)).
  rewrite length_pad, peval_pad in EA, EB. rewrite Nat.max_comm in EB. rewrite zeval_ok in EA, EB.
  apply IZR_le in H. rewrite !(mult_IZR 3610000), !(mult_IZR 1000000000000) in H.
  replace (IZR (w * w) / IZR (q * q)) with (IZR w / IZR q * (IZR w / IZR q)) in EA, EB.
  2:{ rewrite !mult_IZR. field. lra. }
  assert (Q0 : 0 < IZR (q * q)) by (rewrite mult_IZR; nra).
  set (K := IZR (q * q) ^ Nat.max (length (powA f 0)) (length (powB f 0))) in *.
  assert (K0 : 0 < K) by (apply pow_lt; exact Q0).
  set (A := peval (powA f 0) (IZR w / IZR q * (IZR w / IZR q))) in *.
  set (B := peval (powB f 0) (IZR w / IZR q * (IZR w / IZR q))) in *.
  set (ZA := IZR (zeval (hom (q * q) (padTo (powA f 0) (powB f 0))) (w * w))) in *.
  set (ZB := IZR (zeval (hom (q * q) (padTo (powB f 0) (powA f 0))) (w * w))) in *.
  set (q2 := IZR (q * q)) in *. clearbody K A B ZA ZB q2.
  assert (V : K * (3610000 * B) <= K * (1000000000000 * A)).
  { replace (K * (3610000 * B)) with (q2 * (3610000 * ZB)) by (rewrite <- Rmult_assoc, (Rmult_comm q2), Rmult_assoc, EB; ring).
    replace (K * (1000000000000 * A)) with (q2 * (1000000000000 * ZA)) by (rewrite <- Rmult_assoc, (Rmult_comm q2), Rmult_assoc, EA; ring).
    apply Rmult_le_compat_l; lra. }
  apply Rmult_le_reg_l in V; [|exact K0].
  apply Rmult_le_reg_r with B; [exact P|]. unfold Rdiv at 2. rewrite Rmult_assoc, Rinv_l by lra. lra.
Qed.
Definition loud (f : FilterType) : Z := match f with kType2 => 6567 | _ => 5375 end.
Theorem C46_not_60dB : forall f n, chOrder f = Some n ->
  exists nu, 61 / 100 <= nu /\ 19 / 10000 <= gainAt (filt RNum f) nu.
Proof.
  intros f n H. exists (IZR (loud f) / 1000 / (2 * PI)). destruct pi_bounds as [P1 P2]. split.
  - apply Rmult_le_reg_r with (2 * PI); [lra|]. unfold Rdiv at 2. rewrite Rmult_assoc, Rinv_l by lra.
    destruct f; try discriminate H; cbn [loud]; lra.
  - unfold gainAt, axis. replace (2 * PI * (IZR (loud f) / 1000 / (2 * PI))) with (IZR (loud f) / IZR 1000) by (field; lra).
    apply gain_at; [lia|]. apply Z.leb_le. destruct f; try discriminate H; clear; vm_compute; reflexivity.
Qed.
Print Assumptions C46_not_60dB.

(** concrete cases: the shipped filters are stable, so [C45_tone] applies to them; the three
    Butterworth types are 3 dB down at 0.45 of the sample rate *)
Example C45_case : forall f, stable (filt RNum f).
Proof. intros f. apply shipped_stable. Qed.
Example C45_minus_3dB : forall f n, bwOrder f = Some n ->
  Rabs (gainAt (filt RNum f) (45 / 100) ^ 2 - / 2) <= / 10000000.
Proof.
  intros f n H. assert (C := C45_butterworth f n (45 / 100) H).
  unfold butterworth in C. replace (45 / 100 / (45 / 100)) with 1 in C by field. rewrite pow1 in C.
  replace (1 / (1 + 1)) with (/ 2) in C by field. exact C.
Qed.
Example C45_types : bwOrder kType1 = Some 2%nat /\ bwOrder kType3 = Some 4%nat /\ bwOrder kType4 = Some 6%nat /\
  chOrder kType2 = Some 10%nat /\ chOrder kType5 = Some 8%nat.
Proof. repeat split. Qed.
