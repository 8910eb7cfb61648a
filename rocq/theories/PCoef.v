(** * PCoef: the coefficients of the shipped filters in binary32 against their decimals *)
From Coq Require Import ZArith List Bool Reals Lia Lra.
From Flocq Require Import Core IEEE754.BinarySingleNaN.
From Verif Require Import Num Maths Wavetable Filters Osc Spec B32 NumFacts Laws B32Facts B32Laws SimdFacts RNum.
From Coquelicot Require Import Coquelicot.
From Verif Require Import SpecC SpecT SpecE PExact ExactMath PApx PTerm.
Import ListNotations.
Local Open Scope R_scope.

(** ** Literals *)
Section Lit.
Variable lm : Libm.
Notation N := (B32 lm).

Definition litNear (l : Z * Z) : bool :=
  if (0 <? snd l)%Z then
  match (tdlit N l : f32) with
  | B754_finite s m e _ =>
      let v := if s then Z.neg m else Z.pos m in
      if (e <=? 0)%Z then
        (Z.abs (v * snd l - fst l * 2 ^ (- e)) * (2 ^ 24 * 10) <=? 11 * Z.abs (fst l) * 2 ^ (- e))%Z
      else false
  | B754_zero _ => (fst l =? 0)%Z
  | _ => false
  end else false.

Lemma litNear_ok l : litNear l = true ->
  near (tdlit N l) (IZR (fst l) / IZR (snd l)) (1.1 * eps * Rabs (IZR (fst l) / IZR (snd l))).
Proof.
  destruct l as [nu de]. unfold litNear. cbn [fst snd]. destruct (Z.ltb_spec 0 de) as [Hd|_]; [|discriminate].
  assert (HdR : 0 < IZR de) by (now apply IZR_lt).
  destruct (tdlit N (nu, de) : f32) as [s|s| |s m e H]; try discriminate.
  - intros E. apply Z.eqb_eq in E. subst nu. split; [reflexivity|]. cbn [B2R].
    unfold Rdiv. rewrite Rmult_0_l, Rminus_0_r, Rabs_R0, Rmult_0_r. lra.
  - destruct (Z.leb_spec e 0) as [He|_]; [|discriminate]. intros E. apply Z.leb_le in E. split; [reflexivity|].
    set (v := if s then Z.neg m else Z.pos m) in *.
    assert (Ev : v32 (B754_finite s m e H) = IZR v * bpow radix2 e).
    { unfold v; destruct s; reflexivity. }
    rewrite Ev. assert (P := IZR_pow2_pos (- e) ltac:(lia)).
    assert (Eb : bpow radix2 e = / IZR (2 ^ (- e))).
    { replace e with (- (- e))%Z at 1 by lia. rewrite bpow_opp. f_equal. apply bpow_Z. lia. }
    rewrite Eb. apply IZR_le in E. rewrite !mult_IZR in E. rewrite !abs_IZR in E.
    rewrite minus_IZR, !mult_IZR in E. set (w := IZR (2 ^ (- e))) in *. set (a := IZR v) in *. set (b := IZR nu) in *. set (c := IZR de) in *.
    replace (a * / w - b / c) with ((a * c - b * w) * / (w * c)) by (field; split; lra).
    assert (Q : 0 < w * c) by (now apply Rmult_lt_0_compat).
    rewrite Rabs_mult, (Rabs_pos_eq (/ (w * c))) by (left; now apply Rinv_0_lt_compat).
    apply Rmult_le_reg_r with (w * c); [exact Q|]. rewrite Rmult_assoc, Rinv_l, Rmult_1_r by lra.
    replace (1.1 * eps * Rabs (b / c) * (w * c)) with (1.1 * eps * Rabs b * w).
    2:{ unfold Rdiv. rewrite Rabs_mult, (Rabs_pos_eq (/ c)) by (left; now apply Rinv_0_lt_compat). field. lra. }
    change (IZR (2 ^ 24)) with 16777216 in E. unfold eps. lra.
Qed.

Lemma clit_near c : litNear (fst c) = true -> litNear (snd c) = true ->
  cnear (clit N c) (clit RNum c) (1.1 * eps * Cmod (clit RNum c)).
Proof.
  intros H1 H2. destruct (litNear_ok _ H1) as [A1 A2]. destruct (litNear_ok _ H2) as [B1 B2].
  split; [split; assumption|].
  set (X := IZR (fst (fst c)) / IZR (snd (fst c))) in *. set (Y := IZR (fst (snd c)) / IZR (snd (snd c))) in *.
  change (clit RNum c) with ((X, Y) : C). 
  assert (G := cmod_comp (v32 (tdlit N (fst c)) - X) (v32 (tdlit N (snd c)) - Y) X Y (1.1 * eps) 0 ltac:(unfold eps; lra) ltac:(lra)
     ltac:(lra) ltac:(lra)).
  rewrite Rmult_0_r, Rplus_0_r in G. exact G.
Qed.
End Lit.

(** ** An upper bound of exp *)
Lemma pow_le_exp a (k : nat) : 0 <= a -> (1 + a) ^ k <= exp (INR k * a).
Proof.
  intros Ha. induction k as [|k IH]; [cbn; rewrite Rmult_0_l, exp_0; lra|].
  rewrite S_INR, Rmult_plus_distr_r, Rmult_1_l, exp_plus. cbn [pow]. rewrite Rmult_comm.
  apply Rmult_le_compat; [apply pow_le; lra|lra|exact IH|]. apply exp_ineq1_le.
Qed.
Lemma exp_below (x y p q : R) (k : nat) : x < 0 -> 0 < y -> 0 < q -> 0 < INR k ->
  q * (INR k * y) ^ k <= p * (INR k * y - x) ^ k -> exp (x / y) <= p / q.
Proof.
  intros Hn Hd Hp Hk E.
  assert (A := pow_le_exp (- x / y / INR k) k).
  replace (INR k * (- x / y / INR k)) with (- (x / y)) in A by (field; lra).
  assert (Hxy : 0 <= - x / y / INR k).
  { unfold Rdiv. apply Rmult_le_pos; [apply Rmult_le_pos; [lra|left; now apply Rinv_0_lt_compat]|left; now apply Rinv_0_lt_compat]. }
  specialize (A Hxy). rewrite exp_Ropp in A.
  assert (P := exp_pos (x / y)). set (ex := exp (x / y)) in *.
  assert (Ky : 0 < INR k * y) by (now apply Rmult_lt_0_compat).
  replace (1 + - x / y / INR k) with ((INR k * y - x) * / (INR k * y)) in A by (field; lra).
  rewrite Rpow_mult_distr, pow_inv in A.
  assert (Y : 0 < (INR k * y) ^ k) by (apply pow_lt; lra).
  assert (U : 0 < (INR k * y - x) ^ k) by (apply pow_lt; lra).
  set (Y64 := (INR k * y) ^ k) in *. set (U64 := (INR k * y - x) ^ k) in *. clearbody Y64 U64.
  apply Rmult_le_reg_r with q; [exact Hp|]. replace (p / q * q) with p by (field; lra).
  apply Rmult_le_reg_r with U64; [exact U|].
  apply Rle_trans with (q * Y64); [|exact E].
  assert (A3 : U64 * ex <= Y64).
  { apply (Rmult_le_compat_r (Y64 * ex)) in A; [|apply Rmult_le_pos; lra].
    replace (U64 * / Y64 * (Y64 * ex)) with (U64 * ex) in A by (field; lra).
    replace (/ ex * (Y64 * ex)) with Y64 in A by (field; lra). exact A. }
  nra.
Qed.
Definition expBelow (k : nat) (n d pn pd : Z) : bool :=
  let kz := Z.of_nat k in
  if (0 <? kz)%Z then if (n <? 0)%Z then if (0 <? d)%Z then if (0 <? pd)%Z then
    (pd * (kz * d) ^ kz <=? pn * (kz * d - n) ^ kz)%Z else false else false else false else false.
Lemma expBelow_ok k n d pn pd : expBelow k n d pn pd = true -> exp (IZR n / IZR d) <= IZR pn / IZR pd.
Proof.
  unfold expBelow. destruct (Z.ltb_spec 0 (Z.of_nat k)) as [Hk|_]; [|discriminate].
  destruct (Z.ltb_spec n 0) as [Hn|_]; [|discriminate]. destruct (Z.ltb_spec 0 d) as [Hd|_]; [|discriminate].
  destruct (Z.ltb_spec 0 pd) as [Hp|_]; [|discriminate]. intros E. apply Z.leb_le in E.
  apply IZR_le in E. rewrite (mult_IZR pd), (mult_IZR pn) in E.
  rewrite <- !pow_IZR in E. rewrite minus_IZR, !mult_IZR, <- INR_IZR_INZ in E.
  apply IZR_lt in Hn, Hd, Hp, Hk. rewrite <- INR_IZR_INZ in Hk. now apply (exp_below _ _ _ _ k).
Qed.

(** ** Moduli of literals *)
Lemma cmod_ge (a b m : R) : 0 <= m -> m * m <= a * a + b * b -> m <= Cmod (a, b).
Proof.
  intros Hm H. unfold Cmod; cbn [fst snd]. rewrite <- (sqrt_square m) by assumption.
  apply sqrt_le_1_alt. nra.
Qed.
Lemma cmod_le (a b m : R) : 0 <= m -> a * a + b * b <= m * m -> Cmod (a, b) <= m.
Proof.
  intros Hm H. unfold Cmod; cbn [fst snd]. rewrite <- (sqrt_square m) by assumption.
  apply sqrt_le_1_alt. nra.
Qed.
Definition modIn (lo hi : Z) (c : CLit) : bool :=
  let '((a, b), (p, q)) := c in
  if (0 <? b)%Z then if (0 <? q)%Z then if (0 <=? lo)%Z then if (0 <=? hi)%Z then
  let m := (1000000 * ((a * q) * (a * q) + (p * b) * (p * b)))%Z in
  if (lo * lo * ((b * q) * (b * q)) <=? m)%Z then (m <=? hi * hi * ((b * q) * (b * q)))%Z else false
  else false else false else false else false.
Lemma modIn_ok lo hi c : modIn lo hi c = true -> IZR lo / 1000 <= Cmod (clit RNum c) <= IZR hi / 1000.
Proof.
  destruct c as [[a b] [p q]]. unfold modIn.
  destruct (Z.ltb_spec 0 b) as [Hb|_]; [|discriminate]. destruct (Z.ltb_spec 0 q) as [Hq|_]; [|discriminate].
  destruct (Z.leb_spec 0 lo) as [Hl|_]; [|discriminate]. destruct (Z.leb_spec 0 hi) as [Hh|_]; [|discriminate].
  cbv zeta. set (m := (1000000 * _)%Z). set (D := ((b * q) * (b * q))%Z).
  destruct (Z.leb_spec (lo * lo * D) m) as [E1|_]; [|discriminate]. intros E2. apply Z.leb_le in E2.
  change (clit RNum ((a, b), (p, q))) with ((IZR a / IZR b, IZR p / IZR q) : C).
  apply IZR_lt in Hb, Hq. apply IZR_le in Hl, Hh, E1, E2. unfold m, D in *. rewrite ?mult_IZR, ?plus_IZR, ?mult_IZR in E1, E2.
  set (A := IZR a) in *. set (B := IZR b) in *. set (P := IZR p) in *. set (Q := IZR q) in *. set (l := IZR lo) in *. set (h := IZR hi) in *.
  assert (BQ : 0 < (B * Q) * (B * Q)) by (apply Rmult_lt_0_compat; apply Rmult_lt_0_compat; assumption).
  assert (Es : (A / B * (A / B) + P / Q * (P / Q)) * ((B * Q) * (B * Q)) = (A * Q) * (A * Q) + (P * B) * (P * B)) by (field; lra).
  split; [apply cmod_ge|apply cmod_le]; try lra; apply Rmult_le_reg_r with ((B * Q) * (B * Q)); try exact BQ; rewrite Es; lra.
Qed.

(** ** The poles of the shipped filters: bounds of |z| and 2|r| (thousandths) and of |exp z|
    (ten-thousandths) *)
Definition poleData (f : FilterType) : list (Z * Z * Z * Z) :=
  match f with
  | kType1 => [(2827, 2828, 1397, 4000)]
  | kType2 => [(2962, 2963, 7419, 986); (3137, 3138, 3802, 5132); (3501, 3502, 1553, 15932);
               (4031, 4032, 460, 35994); (4509, 4510, 145, 57674)]
  | kType3 => [(2827, 2828, 3420, 2828); (2827, 2828, 773, 6828)]
  | kType4 => [(2827, 2828, 1397, 8616); (2827, 2828, 4831, 2310); (2827, 2828, 690, 14924)]
  | kType5 => [(2601, 2602, 6856, 1200); (2780, 2781, 2952, 5760); (3110, 3111, 1036, 15790); (3431, 3432, 396, 27470)]
  end%Z.

Section Poles.
Variable lm : Libm.
Hypothesis Hex : expAccurate lm.
Notation N := (B32 lm).

Record poleOk (zN rN eN : f32 * f32) (Z Q : C) (zl zh ρ r2 : R) : Prop := {
  po_zl : zl <= Cmod Z; po_zh : Cmod Z <= zh; po_z : 2.6 <= zl /\ zh <= 4.52; po_neg : fst Z < 0; po_rho : Cmod (cexp Z) <= ρ;
  po_rho1 : 0 <= ρ <= 0.745;
  po_r : 0.4 <= Cmod Q; po_r2 : 2 * Cmod Q <= r2; po_r3 : r2 <= 58;
  po_nz : cnear zN Z (1.1 * eps * Cmod Z); po_nr : cnear rN Q (1.1 * eps * Cmod Q);
  po_ne : cnear eN (cexp Z) (6.1 * eps + 0.92 * eps * Cmod Z) }.

Definition checkPole (e : (CLit * CLit) * (Z * Z * Z * Z)) : bool :=
  let '((rc, zc), (zl, zh, rho, r2)) := e in
  if litNear lm (fst rc) then if litNear lm (snd rc) then if litNear lm (fst zc) then if litNear lm (snd zc) then
  if modIn zl zh zc then if modIn 400 (r2 / 2) rc then if expBelow 64 (fst (fst zc)) (snd (fst zc)) rho 10000 then
  if (2600 <=? zl)%Z then if (zh <=? 4520)%Z then if (0 <=? rho)%Z then if (rho <=? 7450)%Z then if (r2 <=? 58000)%Z then (fst (fst zc) <? 0)%Z
  else false else false else false else false else false else false else false else false else false else false else false else false.

Lemma cexp_mod (Z : C) : Cmod (cexp Z) = exp (fst Z).
Proof.
  unfold cexp, Cmod; cbn [fst snd]. assert (P := exp_pos (fst Z)).
  replace ((exp (fst Z) * cos (snd Z)) ^ 2 + (exp (fst Z) * sin (snd Z)) ^ 2) with (exp (fst Z) * exp (fst Z)).
  - apply sqrt_square. lra.
  - assert (Q := sin2_cos2 (snd Z)). unfold Rsqr in Q. cbn [pow]. rewrite !Rmult_1_r.
    replace (exp (fst Z) * exp (fst Z)) with (exp (fst Z) * exp (fst Z) * (sin (snd Z) * sin (snd Z) + cos (snd Z) * cos (snd Z))) by (rewrite Q; ring). ring.
Qed.

Lemma checkPole_ok rc zc zl zh rho r2 : checkPole ((rc, zc), (zl, zh, rho, r2)) = true ->
  poleOk (clit N zc) (clit N rc) (tcexp N (clit N zc)) (clit RNum zc) (clit RNum rc)
    (IZR zl / 1000) (IZR zh / 1000) (IZR rho / 10000) (IZR r2 / 1000).
Proof.
  unfold checkPole.
  destruct (litNear lm (fst rc)) eqn:E1; [|discriminate]. destruct (litNear lm (snd rc)) eqn:E2; [|discriminate].
  destruct (litNear lm (fst zc)) eqn:E3; [|discriminate]. destruct (litNear lm (snd zc)) eqn:E4; [|discriminate].
  destruct (modIn zl zh zc) eqn:E5; [|discriminate]. destruct (modIn 400 (r2 / 2) rc) eqn:E6; [|discriminate].
  destruct (expBelow 64 _ _ _ _) eqn:E7; [|discriminate].
  destruct (Z.leb_spec 2600 zl) as [E8|_]; [|discriminate]. destruct (Z.leb_spec zh 4520) as [E9|_]; [|discriminate].
  destruct (Z.leb_spec 0 rho) as [E10|_]; [|discriminate]. destruct (Z.leb_spec rho 7450) as [E11|_]; [|discriminate].
  destruct (Z.leb_spec r2 58000) as [E12|_]; [|discriminate].
  intros E13. apply Z.ltb_lt in E13.
  apply modIn_ok in E5, E6. apply expBelow_ok in E7.
  assert (H2 : (2 * (r2 / 2) <= r2)%Z) by (apply Z.mul_div_le; lia). apply IZR_le in H2. rewrite mult_IZR in H2.
  apply IZR_le in E8, E9, E10, E11, E12.
  assert (Nz := clit_near lm zc E3 E4). assert (Nr := clit_near lm rc E1 E2).
  assert (Fz : fst (clit RNum zc : C) = IZR (fst (fst zc)) / IZR (snd (fst zc))) by reflexivity.
  assert (Dz : 0 < IZR (snd (fst zc))).
  { unfold litNear in E3. destruct (Z.ltb_spec 0 (snd (fst zc))) as [H|_]; [now apply IZR_lt|discriminate]. }
  assert (Neg : fst (clit RNum zc : C) < 0).
  { rewrite Fz. apply IZR_lt in E13. unfold Rdiv. apply Ropp_lt_cancel. rewrite Ropp_0, Ropp_mult_distr_l.
    apply Rmult_lt_0_compat; [lra|now apply Rinv_0_lt_compat]. }
  assert (Rho : Cmod (cexp (clit RNum zc)) <= IZR rho / 10000) by (rewrite cexp_mod; exact E7).
  constructor; try assumption; try lra.
  (* exp z *)
  set (Z := (clit RNum zc : C)) in *. set (z := (clit N zc : f32 * f32)) in *.
  destruct Nz as [Fin Hz]. set (ζ := Cmod Z) in *.
  assert (Z0 : 0 <= ζ <= 4.52) by (split; [apply Cmod_ge_0|lra]).
  assert (D1 : Rabs (v32 (fst z) - fst Z) <= 1.1 * eps * ζ) by (eapply Rle_trans; [apply (cmod_fst (cv z - Z)%C)|exact Hz]).
  assert (D2 : Rabs (v32 (snd z) - snd Z) <= 1.1 * eps * ζ) by (eapply Rle_trans; [apply (cmod_snd (cv z - Z)%C)|exact Hz]).
  assert (M1 := cmod_fst Z). assert (M2 := cmod_snd Z). fold ζ in M1, M2.
  assert (D3 : Rabs (v32 (fst z) - fst Z) <= 1.1 * eps * Rabs (fst Z)).
  { exact (proj2 (litNear_ok lm (fst zc) E3)). }
  apply Rabs_le_inv in D1, D2, M1, M2. rewrite (Rabs_left (fst Z)) in D3 by assumption. apply Rabs_le_inv in D3.
  assert (ZN : -16 <= v32 (fst z) <= 0) by (unfold eps in *; lra).
  destruct (Hex (tcexp N) (or_introl eq_refl) z Fin ZN) as [G1 G2].
  { apply Rabs_le. unfold eps in *. lra. }
  split; [exact G1|].
  assert (ρ1 : exp (v32 (fst z)) <= 1.00001 * (IZR rho / 10000)).
  { replace (v32 (fst z)) with (fst Z + (v32 (fst z) - fst Z)) by ring. rewrite exp_plus, Rmult_comm.
    rewrite cexp_mod in Rho. apply Rmult_le_compat; try (left; apply exp_pos); [|exact Rho].
    set (t := v32 (fst z) - fst Z) in *. assert (X := exp_ineq1_le (- t)). rewrite exp_Ropp in X.
    assert (Y := exp_pos t). assert (T : t <= 0.000001) by (unfold eps in *; lra).
    assert (0.999999 <= / exp t) by lra.
    apply (Rmult_le_compat_r (exp t)) in H; [|lra]. rewrite Rinv_l in H by lra. lra. }
  assert (L := cexp_lip (cv z) Z (1.00001 * (IZR rho / 10000)) ρ1). cbn [fst cv] in L.
  rewrite cexp_mod in Rho. specialize (L ltac:(lra)).
  replace (cv (tcexp N z) - cexp Z)%C with ((cv (tcexp N z) - cexp (cv z)) + (cexp (cv z) - cexp Z))%C by ring.
  eapply Rle_trans; [apply Cmod_triangle|].
  apply Rle_trans with (8 * eps * (1.00001 * (IZR rho / 10000)) + 1.00001 * (IZR rho / 10000) * (1.1 * eps * ζ)).
  - apply Rplus_le_compat.
    + eapply Rle_trans; [exact G2|]. apply Rmult_le_compat_l; [unfold eps; lra|exact ρ1].
    + eapply Rle_trans; [exact L|]. apply Rmult_le_compat_l; [lra|exact Hz].
  - assert (A : IZR rho / 10000 * ζ <= 0.745 * ζ) by (apply Rmult_le_compat_r; lra).
    assert (A2 : IZR rho / 10000 <= 0.745) by lra. set (a := IZR rho / 10000) in *. replace (1.00001 * a * (1.1 * eps * ζ)) with (1.00001 * 1.1 * eps * (a * ζ)) by ring.
    unfold eps. lra.
Qed.

Definition poleLits (f : FilterType) := combine (combine (rLit f) (zLit f)) (poleData f).
Lemma poles_checked f : List.forallb checkPole (poleLits f) = true.
Proof. destruct f; vm_compute; reflexivity. Qed.

Lemma poles_len f : length (rLit f) = numCoeffs f /\ length (zLit f) = numCoeffs f /\ length (poleData f) = numCoeffs f.
Proof. destruct f; repeat split; reflexivity. Qed.
Lemma nth_map_some (A B : Type) (g : A -> B) l x a d : nth_error l x = Some a -> nth x (List.map g l) d = g a.
Proof. intros H. apply nth_error_nth. now apply map_nth_error. Qed.
Lemma nth_combine (A B : Type) (l : list A) (m : list B) : forall x a b, nth_error l x = Some a -> nth_error m x = Some b ->
  nth_error (combine l m) x = Some (a, b).
Proof.
  revert m. induction l as [|a0 l IH]; intros [|b0 m] [|x] a b; cbn; intros; try discriminate; [congruence|]. eauto.
Qed.
Lemma pole_at f x : (x < numCoeffs f)%nat -> exists zl zh rho r2,
  nth_error (poleData f) x = Some (zl, zh, rho, r2) /\
  poleOk (nth x (f_z (filt N f)) (c0 N)) (nth x (f_r (filt N f)) (c0 N)) (nth x (f_ez (filt N f)) (c0 N))
    (nth x (f_z (filt RNum f)) (c0 RNum)) (nth x (f_r (filt RNum f)) (c0 RNum)) 
    (IZR zl / 1000) (IZR zh / 1000) (IZR rho / 10000) (IZR r2 / 1000).
Proof.
  intros Hx. assert (H := poles_checked f). rewrite List.forallb_forall in H.
  destruct (poles_len f) as (L1 & L2 & L3).
  destruct (nth_error (rLit f) x) as [rc|] eqn:E1; [|apply nth_error_None in E1; lia].
  destruct (nth_error (zLit f) x) as [zc|] eqn:E2; [|apply nth_error_None in E2; lia].
  destruct (nth_error (poleData f) x) as [[[[zl zh] rho] r2]|] eqn:E3; [|apply nth_error_None in E3; lia].
  exists zl, zh, rho, r2. split; [reflexivity|].
  assert (E4 : In ((rc, zc), (zl, zh, rho, r2)) (poleLits f)).
  { apply (nth_error_In _ x). apply nth_combine; [apply nth_combine; assumption|exact E3]. }
  apply H, checkPole_ok in E4. unfold filt. cbn [f_z f_r f_ez]. unfold zExp, zCoeffs, rCoeffs. rewrite List.map_map.
  rewrite !(nth_map_some _ _ _ _ _ _ _ E2), !(nth_map_some _ _ _ _ _ _ _ E1). exact E4.
Qed.
End Poles.
