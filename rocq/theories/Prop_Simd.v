(** * Prop_Simd: properties C31 and C33 -- SIMD geometry, and the shipped filters *)
From Coq Require Import ZArith QArith Qreals List Bool Reals Lia Lra Arith.
From Flocq Require Import Core IEEE754.BinarySingleNaN.
From Verif Require Import Num Maths CrossFader Wavetable Filters Osc NumFacts SimdFacts PSimd PMaths
  B32 B32Facts RNum Demo.
From Coquelicot Require Import Coquelicot.
From Verif Require Import SpecE SpecX ExactLaws PExact.
Import ListNotations.
Local Open Scope R_scope.

(** ** C31: in exact arithmetic whole runs (faults, states and samples) do not depend on the
    batch width: any history of calls on a new oscillator, any filter whose lists have the
    same length, in particular all shipped ones. *)
Lemma i0_same_R mp b mn d pd ez z :
  i0_lane RNum (tmul RNum mp pd) b (tmul RNum mn pd) d ez z = i0_scalar RNum mp b mn d pd ez z.
Proof. destruct ez as [e1 e2], z as [z1 z2]. unfold i0_lane, i0_scalar. cbn. apply injective_projections; cbn; ring. Qed.
Lemma sum_same_R fwd a pd ph md qd z s :
  sum_lane_upd RNum fwd a pd ph md qd z s = sum_scalar_upd RNum fwd a pd ph md qd z s.
Proof.
  destruct z as [z1 z2], s as [s1 s2]. unfold sum_lane_upd, sum_scalar_upd, sum_lane. cbn.
  change (T RNum) with R in *.
  assert (E1 : (z1 * a - z2 * 0)%R = (z1 * a)%R) by ring. assert (E2 : (z1 * 0 + z2 * a)%R = (z2 * a)%R) by ring.
  destruct fwd; apply injective_projections; cbn; rewrite E1, E2; ring.
Qed.

Definition sameLengths (F : Filt RNum) : Prop :=
  length (f_z F) = length (f_r F) /\ length (f_zp2 F) = length (f_r F) /\ length (f_ez F) = length (f_r F).

Theorem C31_width_independent : forall src F (d : bool) (B1 B2 : nat) ops,
  (1 <= B1)%nat -> (1 <= B2)%nat -> sameLengths F ->
  Osc.run RNum src (mkCfg d B1) F (osc_new RNum F) ops = Osc.run RNum src (mkCfg d B2) F (osc_new RNum F) ops.
Proof.
  intros src F d B1 B2 ops H1 H2 (L1 & L2 & L3). apply run_same; auto.
  - constructor; assumption.
  - exact i0_same_R.
  - exact sum_same_R.
  - unfold small. cbn. rewrite repeat_length. lia.
Qed.
Print Assumptions C31_width_independent.

(** Every batch load and store of one order loop is inside its array, whatever the number
    system, the width and the order: the loops never report an out-of-bounds access and keep
    the array's size. *)
Theorem C31_in_bounds : forall N cfg (F : Filt N) (arr : list (Num.C N)),
  (1 <= batch cfg)%nat ->
  length (f_z F) = length (f_r F) -> length (f_zp2 F) = length (f_r F) -> length (f_ez F) = length (f_r F) ->
  length arr = kUpper N cfg F ->
  (forall fwd a pd ph md qd, exists arr', sum_orders N cfg F fwd a pd ph md qd arr = Ok arr' /\ length arr' = length arr) /\
  (forall w wf mi ip inx d p q, computeI0 N cfg F w wf arr mi ip inx d p q = Fault OutOfBounds ->
     (* the table accesses, not the array ones *)
     (let! ms := wt_m N w wf mi in let! qs := wt_q N w wf mi in
      let! _ := znth ms ip in let! _ := znth qs ip in let! _ := znth ms inx in let! _ := znth qs inx in Ok tt) = Fault OutOfBounds).
Proof.
  intros N cfg F arr HB Lz Lp Le La.
  assert (HF : filtOk N F) by (constructor; assumption). split.
  - intros fwd a pd ph md qd. destruct (sum_orders_upd N cfg F HB HF fwd a pd ph md qd arr La) as (arr' & E & U & _).
    exists arr'. auto.
  - intros w wf mi ip inx d p q. unfold computeI0.
    destruct (wt_m N w wf mi) as [ms|]; cbn [bind]; [|intros H; injection H as ->; reflexivity].
    destruct (wt_q N w wf mi) as [qs|]; cbn [bind]; [|intros H; injection H as ->; reflexivity].
    destruct (znth ms ip); cbn [bind]; [|intros H; injection H as ->; reflexivity]. destruct (znth qs ip); cbn [bind]; [|intros H; injection H as ->; reflexivity].
    destruct (znth ms inx); cbn [bind]; [|intros H; injection H as ->; reflexivity]. destruct (znth qs inx); cbn [bind]; [|intros H; injection H as ->; reflexivity]. cbv zeta.
    match goal with |- context [i0_batch N cfg F ?a ?b ?c ?e] => match goal with |- context [i0_one N cfg F ?mp b ?mn e ?pd] =>
      destruct (i0_orders_upd N cfg F HB HF a c mp b mn e pd arr La) as (arr' & E & _) end end.
    match type of E with ?l = _ => intros H; change (l = Fault OutOfBounds) in H; rewrite E in H; discriminate H end.
Qed.
Print Assumptions C31_in_bounds.

(** computeUpperNumCoeffs divides in float: that is the integer quotient, so the arrays have
    room for every coefficient and a whole number of batches *)
Theorem C31_upper_num_coeffs : forall lm (n B : nat), (n < 4096)%nat -> (1 <= B <= 4096)%nat ->
  mfloor (B32 lm) (tdiv (B32 lm) (tofZ (B32 lm) (Z.of_nat n)) (tofZ (B32 lm) (Z.of_nat B))) = Ok (Z.of_nat (n / B)) /\
  (n <= kUpperNumCoeffs B n)%nat /\ (kUpperNumCoeffs B n mod B = 0)%nat /\ (kUpperNumCoeffs B n <= n + B)%nat.
Proof.
  intros lm n B Hn HB. assert (HD := Nat.div_mod n B ltac:(lia)). assert (HM := Nat.mod_upper_bound n B ltac:(lia)).
  split.
  - destruct (ofZ32 (Z.of_nat n)) as [F1 V1]; [lia|]. destruct (ofZ32 (Z.of_nat B)) as [F2 V2]; [lia|].
    set (q := Z.of_nat (n / B)). set (b := IZR (Z.of_nat B)) in *. set (x := IZR (Z.of_nat n)) in *.
    assert (Hb : 1 <= b) by (apply (IZR_le 1); lia).
    assert (Hq : (0 <= q < 4096)%Z).
    { unfold q. assert (n / B <= n)%nat; [|lia]. apply Nat.div_le_upper_bound; nia. }
    assert (Hx : IZR q * b <= x /\ x <= IZR (q + 1) * b - 1).
    { unfold b, x. rewrite <- !mult_IZR, <- (minus_IZR _ 1). split; apply IZR_le; unfold q; nia. }
    assert (H1 : IZR q <= x / b).
    { apply Rle_div_r; [lra|]. apply Hx. }
    assert (H2 : x / b <= IZR (4096 * (q + 1) - 1) / 4096).
    { apply Rle_div_l; [lra|]. rewrite minus_IZR, mult_IZR.
      assert (b <= 4096) by (apply (IZR_le _ 4096); lia).
      replace ((4096 * IZR (q + 1) - 1) / 4096 * b) with (IZR (q + 1) * b - b / 4096) by field.
      assert (b / 4096 <= 1) by (apply Rle_div_l; lra). lra. }
    assert (Hs : small32 (x / b)).
    { apply (small32_of_le _ 13); [lia|]. assert (0 <= IZR q) by (apply (IZR_le 0); lia).
      rewrite Rabs_pos_eq by lra. rewrite bpow_Z by lia.
      eapply Rle_trans; [exact H2|]. apply Rle_div_l; [lra|]. rewrite <- mult_IZR. apply IZR_le.
      change (2 ^ 13)%Z with 8192%Z. lia. }
    destruct (div32 (f32_ofZ (Z.of_nat n)) (f32_ofZ (Z.of_nat B)) F1) as [FD VD].
    { rewrite V2. lra. }
    { rewrite V1, V2. exact Hs. }
    rewrite V1, V2 in VD.
    assert (G1 : IZR q <= rnd32 (x / b)) by (apply rnd32_ge; [apply fmt32_Z; lia|exact H1]).
    assert (G2 : rnd32 (x / b) <= IZR (4096 * (q + 1) - 1) / 4096).
    { apply rnd32_le; [|exact H2]. replace (IZR (4096 * (q + 1) - 1) / 4096) with (IZR (4096 * (q + 1) - 1) * bpow radix2 (-12)).
      - apply fmt32_Ze; lia.
      - unfold Rdiv. f_equal. }
    assert (G3 : IZR (4096 * (q + 1) - 1) / 4096 < IZR q + 1).
    { rewrite minus_IZR, mult_IZR, plus_IZR. lra. }
    assert (E : Zfloor (v32 (tdiv (B32 lm) (tofZ (B32 lm) (Z.of_nat n)) (tofZ (B32 lm) (Z.of_nat B)))) = q).
    { apply Zfloor_imp. rewrite plus_IZR. change (tdiv (B32 lm) (tofZ (B32 lm) (Z.of_nat n)) (tofZ (B32 lm) (Z.of_nat B)))
        with (@Bdiv 24 128 p32 e32 mode_NE (f32_ofZ (Z.of_nat n)) (f32_ofZ (Z.of_nat B))). rewrite VD. lra. }
    rewrite <- E. apply floor_ok.
    + exact FD.
    + change (tdiv (B32 lm) (tofZ (B32 lm) (Z.of_nat n)) (tofZ (B32 lm) (Z.of_nat B)))
        with (@Bdiv 24 128 p32 e32 mode_NE (f32_ofZ (Z.of_nat n)) (f32_ofZ (Z.of_nat B))). rewrite VD.
      assert (0 <= IZR q) by (apply (IZR_le 0); lia). assert (IZR q <= 4095) by (apply (IZR_le _ 4095); lia).
      change (IZR (2 ^ 31)) with 2147483648. lra.
  - unfold kUpperNumCoeffs. destruct (Nat.eqb_spec (n / B) 0) as [E|E].
    + rewrite E in HD. rewrite Nat.mod_same by lia. lia.
    + destruct (Nat.eqb_spec (n mod B) 0) as [E'|E'].
      * rewrite Nat.mod_mul by lia. nia.
      * rewrite Nat.mod_mul by lia. nia.
Qed.
Print Assumptions C31_upper_num_coeffs.

(** ** C33: the shipped filters *)
Theorem C33_stable : forall f,
  let F := filt RNum f in
  length (f_z F) = length (f_r F) /\ (0 < length (f_r F))%nat /\
  List.Forall (fun z : C => fst z < 0) (f_z F) /\
  List.Forall (fun w : C => w <> RtoC 0) (f_zp2 F) /\
  List.Forall (fun e : C => Cmod e < 1) (f_ez F).
Proof.
  intros f F. assert (HS := shipped_stable f). fold F in HS. unfold stable in HS.
  split; [destruct f; reflexivity|]. split; [destruct f; cbn; lia|]. split; [exact HS|].
  change (f_zp2 F) with (List.map (fun z : C => (z * z)%C) (f_z F)).
  change (f_ez F) with (List.map cexp (f_z F)).
  clearbody F. clear f. revert HS. generalize (f_z F). clear F. intros l HS.
  induction HS as [|z l Hz HS [IH1 IH2]]; cbn [List.map]; [split; constructor|].
  split; apply List.Forall_cons; try assumption.
  - intros E. assert (E' : z = RtoC 0).
    { destruct (Ceq_dec z (RtoC 0)) as [|Hn]; [assumption|]. elim (Cmult_neq_0 z z Hn Hn). exact E. }
    rewrite E' in Hz. cbn in Hz. lra.
  - rewrite cmod_cexp. rewrite <- exp_0. now apply exp_increasing.
Qed.
Print Assumptions C33_stable.

(** the square of a pole, whichever products the compiler fuses *)
Definition sqOf (a0 a1 b0 b1 : bool) (z : f32 * f32) : f32 * f32 :=
  let m := @Bmult 24 128 p32 e32 mode_NE in let fm := @Bfma 24 128 p32 e32 mode_NE in
  let (x, y) := z in
  (if a0 then @Bminus 24 128 p32 e32 mode_NE (m x x) (m y y)
   else if a1 then fm x x (Bopp (m y y)) else fm (Bopp y) y (m x x),
   if b0 then @Bplus 24 128 p32 e32 mode_NE (m x y) (m y x)
   else if b1 then fm x y (m y x) else fm y x (m x y)).
Lemma sqOf_ok lm (z : f32 * f32) : (cmul (B32 lm) 50 z z : f32 * f32) =
  sqOf (lm_contract lm 50 =? 0)%Z (lm_contract lm 50 =? 1)%Z (lm_contract lm 51 =? 0)%Z (lm_contract lm 51 =? 1)%Z z.
Proof. destruct z. reflexivity. Qed.
(** the binary32 coefficients the library really holds: finite, poles still strictly left of
    the axis, squares not zero *)
Theorem C33_stable_binary32 : forall lm f,
  let F := filt (B32 lm) f in
  List.forallb (fun z => fin32 (fst z) && fin32 (snd z) && tlt (B32 lm) (fst z) (t0 (B32 lm))) (f_z F) = true /\
  List.forallb (fun z => fin32 (fst z) && fin32 (snd z)) (f_r F) = true /\
  List.forallb (fun w => fin32 (fst w) && fin32 (snd w) &&
     negb (teq (B32 lm) (fst w) (t0 (B32 lm)) && teq (B32 lm) (snd w) (t0 (B32 lm)))) (f_zp2 F) = true.
Proof.
  intros lm f F. split; [destruct f; vm_compute; reflexivity|]. split; [destruct f; vm_compute; reflexivity|].
  assert (E : f_zp2 F = List.map (sqOf (lm_contract lm 50 =? 0)%Z (lm_contract lm 50 =? 1)%Z
                                   (lm_contract lm 51 =? 0)%Z (lm_contract lm 51 =? 1)%Z) (f_z F)).
  { change (f_zp2 F) with (List.map (fun z => cmul (B32 lm) 50 z z) (f_z F)).
    apply List.map_ext. intros z. apply sqOf_ok. }
  rewrite E. clear E.
  generalize (lm_contract lm 50 =? 0)%Z, (lm_contract lm 50 =? 1)%Z, (lm_contract lm 51 =? 0)%Z, (lm_contract lm 51 =? 1)%Z.
  intros [] [] [] []; destruct f; vm_compute; reflexivity.
Qed.
Print Assumptions C33_stable_binary32.

(** exact rational value of the gains *)
Definition qLit (l : Z * Z) : Q := (inject_Z (fst l) / inject_Z (snd l))%Q.
Definition gainQ (f : FilterType) : Q :=
  fold_right Qplus 0%Q (List.map (fun e : CLit * CLit =>
    let a := qLit (fst (fst e)) in let b := qLit (snd (fst e)) in
    let c := qLit (fst (snd e)) in let d := qLit (snd (snd e)) in
    (- (2 * (a * c + b * d) / (c * c + d * d)))%Q) (combine (rLit f) (zLit f))).

Lemma qLit_R l : (0 < snd l)%Z -> (tdlit RNum l : R) = Q2R (qLit l).
Proof.
  intros H. unfold qLit. rewrite Q2R_div; [|intros E; unfold Qeq, inject_Z in E; cbn in E; lia].
  unfold inject_Z, Q2R. cbn. field. apply IZR_neq. lia.
Qed.
Lemma gain_term (a b c d : Q) : ~ (c * c + d * d == 0)%Q ->
  fst (- (2 * ((Q2R a, Q2R b) : C) / ((Q2R c, Q2R d) : C)))%C = Q2R (- (2 * (a * c + b * d) / (c * c + d * d)))%Q.
Proof.
  intros H. rewrite Q2R_opp, Q2R_div, !Q2R_mult, !Q2R_plus, !Q2R_mult by assumption.
  assert (N0 : Q2R c * Q2R c + Q2R d * Q2R d <> 0).
  { rewrite <- !Q2R_mult, <- Q2R_plus. intros E. apply H. apply eqR_Qeq. rewrite E. unfold Q2R. cbn. lra. }
  replace (Q2R 2) with 2 by (unfold Q2R; cbn; lra). cbn. field. intros E. apply N0. rewrite <- E. ring.
Qed.
Lemma gainQ_R f : dcGain (filt RNum f) = Q2R (gainQ f).
Proof.
  assert (E0 : Q2R 0 = 0) by (unfold Q2R; cbn; lra).
  unfold dcGain, gainQ. change (f_r (filt RNum f)) with (rCoeffs RNum f). change (f_z (filt RNum f)) with (zCoeffs RNum f).
  unfold rCoeffs, zCoeffs.
  assert (G : forall l m, List.Forall (fun c : CLit => (0 < snd (fst c))%Z /\ (0 < snd (snd c))%Z) l ->
    List.Forall (fun c : CLit => (0 < snd (fst c))%Z /\ (0 < snd (snd c))%Z /\
       ~ (qLit (fst c) * qLit (fst c) + qLit (snd c) * qLit (snd c) == 0)%Q) m ->
    fold_right Rplus 0 (List.map (fun e : C * C => fst (- (2 * fst e / snd e))%C) (combine (List.map (clit RNum) l) (List.map (clit RNum) m))) =
    Q2R (fold_right Qplus 0%Q (List.map (fun e : CLit * CLit =>
    let a := qLit (fst (fst e)) in let b := qLit (snd (fst e)) in
    let c := qLit (fst (snd e)) in let d := qLit (snd (snd e)) in
    (- (2 * (a * c + b * d) / (c * c + d * d)))%Q) (combine l m)))).
  { induction l as [|x l IH]; intros [|y m] Hl Hm; cbn [List.map combine fold_right]; try (symmetry; exact E0).
    inversion_clear Hl as [|? ? [A1 A2] Hl']. inversion_clear Hm as [|? ? (B1 & B2 & B3) Hm'].
    rewrite Q2R_plus. apply (f_equal2 Rplus); [|exact (IH m Hl' Hm')]. cbn [fst snd]. cbv zeta.
    rewrite <- gain_term by exact B3. unfold clit. rewrite !qLit_R by assumption. reflexivity. }
  apply G.
  - destruct f; cbn [rLit]; repeat (apply List.Forall_cons; [split; reflexivity|]); constructor.
  - destruct f; cbn [zLit]; repeat (apply List.Forall_cons; [split; [reflexivity|]; split; [reflexivity|]; vm_compute; discriminate|]); constructor.
Qed.

(** gain at frequency 0: 1 to within 1e-8 for types 1, 3 and 4; to within 2e-3 for the two
    Chebyshev filters *)
Theorem C33_dc_gain : forall f,
  Rabs (dcGain (filt RNum f) - 1) <= match f with kType2 | kType5 => 2 / 1000 | _ => / 100000000 end.
Proof.
  intros f. rewrite gainQ_R.
  assert (B : forall (x e : Q), (1 - e <= x)%Q -> (x <= 1 + e)%Q -> Rabs (Q2R x - 1) <= Q2R e).
  { intros x e H1 H2. apply Qle_Rle in H1, H2. rewrite Q2R_minus in H1. rewrite Q2R_plus in H2.
    replace (Q2R 1) with 1 in * by (unfold Q2R; cbn; lra). apply Rabs_le_between. lra. }
  destruct f.
  - replace (/ 100000000) with (Q2R (1 # 100000000)) by (unfold Q2R; cbn; lra). apply B; vm_compute; discriminate.
  - replace (2 / 1000) with (Q2R (2 # 1000)) by (unfold Q2R; cbn; lra). apply B; vm_compute; discriminate.
  - replace (/ 100000000) with (Q2R (1 # 100000000)) by (unfold Q2R; cbn; lra). apply B; vm_compute; discriminate.
  - replace (/ 100000000) with (Q2R (1 # 100000000)) by (unfold Q2R; cbn; lra). apply B; vm_compute; discriminate.
  - replace (2 / 1000) with (Q2R (2 # 1000)) by (unfold Q2R; cbn; lra). apply B; vm_compute; discriminate.
Qed.
Print Assumptions C33_dc_gain.

(** ** The hypotheses are met *)
Example ex_lengths : forall f, sameLengths (filt RNum f).
Proof. intros f. unfold sameLengths. destruct f; cbn; auto. Qed.
(** SSE, AVX2 and AVX-512 builds of the order-10 filter (5 pole pairs): 8, 8 and 16 lanes,
    for which the remainder is one scalar iteration, one partial batch and one partial batch *)
Example ex_widths :
  ((kUpper RNum (mkCfg true 4) (filt RNum kType2) = 8)%nat /\
   (kUpper RNum (mkCfg true 8) (filt RNum kType2) = 8)%nat /\
   (kUpper RNum (mkCfg true 16) (filt RNum kType2) = 16)%nat) /\
  usePartialBatch 4 5 = false /\ usePartialBatch 8 5 = true /\ usePartialBatch 16 5 = true.
Proof. repeat split; reflexivity. Qed.
