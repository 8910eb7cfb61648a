(** * PolyZ: polynomials with integer coefficients, and a checked test of non-negativity

    Proof support (models nothing): used to establish the frequency responses of the shipped
    filters for all frequencies at once. *)
From Coq Require Import ZArith List Bool Reals Lia Lra.
From Coquelicot Require Import Coquelicot.
Import ListNotations.
Local Open Scope R_scope.

(** coefficients from the constant upwards *)
Fixpoint peval (p : list Z) (x : R) : R :=
  match p with [] => 0 | c :: t => IZR c + x * peval t x end.
Fixpoint ceval (p : list Z) (s : C) : C :=
  match p with [] => RtoC 0 | c :: t => (RtoC (IZR c) + s * ceval t s)%C end.

Fixpoint zadd (p q : list Z) : list Z :=
  match p, q with
  | [], _ => q | _, [] => p
  | a :: p', b :: q' => (a + b)%Z :: zadd p' q'
  end.
Definition zscale (k : Z) (p : list Z) : list Z := List.map (Z.mul k) p.
Fixpoint zmul (p q : list Z) : list Z :=
  match p with [] => [] | a :: p' => zadd (zscale a q) (0%Z :: zmul p' q) end.
(** p(a x) *)
Fixpoint asc (a : Z) (p : list Z) : list Z :=
  match p with [] => [] | c :: t => c :: zscale a (asc a t) end.
(** b^(length p - 1) p(x / b) *)
Fixpoint hom (b : Z) (p : list Z) : list Z :=
  match p with [] => [] | c :: t => (c * b ^ Z.of_nat (length t))%Z :: hom b t end.
(** p(x + 1) *)
Fixpoint shift1 (p : list Z) : list Z :=
  match p with [] => [] | c :: t => let q := shift1 t in zadd [c] (zadd q (0%Z :: q)) end.
(** derivative *)
Fixpoint der (p : list Z) : list Z :=
  match p with [] => [] | c :: t => zadd t (0%Z :: der t) end.
(** parts of p(i w): p(i w) = E(w^2) + i w O(w^2) *)
Fixpoint eo (p : list Z) : list Z * list Z :=
  match p with [] => ([], []) | c :: t => let (e, o) := eo t in (c :: zscale (-1) o, e) end.
(** |p(i w)|^2 as a polynomial in w^2 *)
Definition absq (p : list Z) : list Z :=
  let (e, o) := eo p in zadd (zmul e e) (0%Z :: zmul o o).

Lemma peval_add p : forall q x, peval (zadd p q) x = peval p x + peval q x.
Proof.
  induction p as [|a p IH]; intros [|b q] x; cbn [zadd peval]; try lra.
  rewrite plus_IZR, IH. ring.
Qed.
Lemma peval_scale k p x : peval (zscale k p) x = IZR k * peval p x.
Proof.
  induction p as [|a p IH]; cbn [zscale List.map peval]; [lra|].
  unfold zscale in IH. rewrite mult_IZR, IH. ring.
Qed.
Lemma peval_mul p q x : peval (zmul p q) x = peval p x * peval q x.
Proof.
  induction p as [|a p IH]; cbn [zmul]; [cbn; lra|].
  rewrite peval_add, peval_scale. cbn [peval]. rewrite IH. ring.
Qed.
Lemma peval_asc a p x : peval (asc a p) x = peval p (IZR a * x).
Proof.
  induction p as [|c p IH]; cbn [asc peval]; [reflexivity|]. rewrite peval_scale, IH. ring.
Qed.
Lemma peval_hom b p x : (b <> 0)%Z ->
  IZR b * peval (hom b p) x = IZR b ^ length p * peval p (x / IZR b).
Proof.
  intros Hb. assert (IZR b <> 0) by (apply IZR_neq; exact Hb).
  induction p as [|c p IH]; cbn [hom peval length pow]; [ring|].
  rewrite mult_IZR, <- pow_IZR. 
  replace (IZR b * (IZR c * IZR b ^ length p + x * peval (hom b p) x))
    with (IZR b * IZR c * IZR b ^ length p + x * (IZR b * peval (hom b p) x)) by ring.
  rewrite IH. field. assumption.
Qed.
Lemma peval_shift1 p x : peval (shift1 p) x = peval p (x + 1).
Proof.
  induction p as [|c p IH]; cbn [shift1 peval]; [reflexivity|]. cbv zeta.
  rewrite !peval_add. cbn [peval]. rewrite IH. ring.
Qed.
Lemma peval_app p q x : peval (p ++ q) x = peval p x + x ^ length p * peval q x.
Proof.
  induction p as [|c p IH]; cbn [app peval length pow]; [ring|]. rewrite IH. ring.
Qed.
Lemma peval_rev p x : x <> 0 -> x * peval (rev p) x = x ^ length p * peval p (/ x).
Proof.
  intros Hx. induction p as [|c p IH]; cbn [rev peval length pow]; [ring|].
  rewrite peval_app. cbn [peval]. rewrite rev_length.
  replace (x * (peval (rev p) x + x ^ length p * (IZR c + x * 0)))
    with (x * peval (rev p) x + x * x ^ length p * IZR c) by ring.
  rewrite IH. field. exact Hx.
Qed.
Lemma peval_der p x : is_derive (peval p) x (peval (der p) x).
Proof.
  induction p as [|c p IH]; cbn [der].
  - apply (is_derive_ext (fun _ => 0)); [reflexivity|]. cbn [peval]. apply @is_derive_const.
  - rewrite peval_add. cbn [peval]. evar_last.
    + apply (is_derive_ext (fun t => plus (IZR c) (mult t (peval p t)))); [intros; reflexivity|].
      apply @is_derive_plus; [apply @is_derive_const|].
      apply (is_derive_mult (fun t => t) (peval p)); [apply @is_derive_id|exact IH|intros; apply Rmult_comm].
    + cbn. unfold plus, mult, zero, one; cbn. ring.
Qed.

Lemma ceval_add p : forall q s, ceval (zadd p q) s = (ceval p s + ceval q s)%C.
Proof.
  induction p as [|a p IH]; intros [|b q] s; cbn [zadd ceval]; try ring.
  rewrite plus_IZR, IH, RtoC_plus. ring.
Qed.
Lemma ceval_scale k p s : ceval (zscale k p) s = (RtoC (IZR k) * ceval p s)%C.
Proof.
  induction p as [|a p IH]; cbn [zscale List.map ceval]; [ring|].
  unfold zscale in IH. rewrite mult_IZR, IH, RtoC_mult. ring.
Qed.
Lemma ceval_mul p q s : ceval (zmul p q) s = (ceval p s * ceval q s)%C.
Proof.
  induction p as [|a p IH]; cbn [zmul]; [cbn [ceval]; ring|].
  rewrite ceval_add, ceval_scale. cbn [ceval]. rewrite IH. ring.
Qed.
Lemma ceval_eo p w : ceval p (0, w) = (peval (fst (eo p)) (w * w), w * peval (snd (eo p)) (w * w)).
Proof.
  induction p as [|c p IH]; cbn [eo ceval].
  - cbn. unfold RtoC. f_equal. ring.
  - rewrite IH. destruct (eo p) as [e o]. cbn [fst snd peval]. rewrite peval_scale.
    unfold RtoC, Cplus, Cmult. cbn [fst snd]. f_equal; ring.
Qed.
Lemma Cmod2 z : Cmod z * Cmod z = fst z * fst z + snd z * snd z.
Proof.
  unfold Cmod. rewrite sqrt_sqrt; [ring|]. generalize (pow2_ge_0 (fst z)), (pow2_ge_0 (snd z)). lra.
Qed.
Lemma absq_ok p w : Cmod (ceval p (0, w)) * Cmod (ceval p (0, w)) = peval (absq p) (w * w).
Proof.
  rewrite Cmod2, ceval_eo. unfold absq. destruct (eo p) as [e o]. cbn [fst snd].
  rewrite peval_add. cbn [peval]. rewrite !peval_mul. ring.
Qed.

(** ** Non-negativity *)
Fixpoint negsum (p : list Z) : Z :=
  match p with [] => 0%Z | c :: t => (Z.min 0 c + negsum t)%Z end.
Lemma negsum_neg p : (negsum p <= 0)%Z.
Proof. induction p as [|c p IH]; cbn [negsum]; lia. Qed.
Lemma negsum_le p x : 0 <= x <= 1 -> IZR (negsum p) <= peval p x.
Proof.
  intros Hx. induction p as [|c p IH]; cbn [negsum peval]; [lra|].
  rewrite plus_IZR. assert (A : IZR (Z.min 0 c) <= IZR c) by (apply IZR_le; lia).
  assert (B := IZR_le _ _ (negsum_neg p)).
  assert (x * IZR (negsum p) <= x * peval p x) by (apply Rmult_le_compat_l; lra). 
  assert (IZR (negsum p) <= x * IZR (negsum p)) by nra. lra.
Qed.
Definition low (p : list Z) : Z := match p with [] => 0%Z | c :: t => (c + negsum t)%Z end.
Lemma low_le p x : 0 <= x <= 1 -> IZR (low p) <= peval p x.
Proof.
  intros Hx. destruct p as [|c p]; cbn [low peval]; [lra|]. rewrite plus_IZR.
  assert (A := negsum_le p x Hx). assert (B := IZR_le _ _ (negsum_neg p)).
  assert (IZR (negsum p) <= x * peval p x).
  { apply Rle_trans with (x * IZR (negsum p)); [nra|]. apply Rmult_le_compat_l; lra. }
  lra.
Qed.
Fixpoint nonneg01 (fuel : nat) (p : list Z) : bool :=
  if (0 <=? low p)%Z then true else
  match fuel with
  | O => false
  | S f => let h := hom 2 p in if nonneg01 f h then nonneg01 f (shift1 h) else false
  end.
Lemma nonneg01_ok fuel : forall p x, nonneg01 fuel p = true -> 0 <= x <= 1 -> 0 <= peval p x.
Proof.
  assert (L : forall p x, (0 <=? low p)%Z = true -> 0 <= x <= 1 -> 0 <= peval p x).
  { intros p x H Hx. apply Z.leb_le in H. apply IZR_le in H. assert (A := low_le p x Hx). lra. }
  induction fuel as [|f IH]; intros p x H Hx; cbn [nonneg01] in H;
    destruct (0 <=? low p)%Z eqn:H0; try (apply L; assumption); try discriminate.
  cbv zeta in H. destruct (nonneg01 f (hom 2 p)) eqn:H1; [|discriminate]. rename H into H2.
  assert (E := peval_hom 2 p (2 * x) ltac:(lia)).
  replace (2 * x / 2) with x in E by field.
  assert (P : 0 < 2 ^ length p) by (apply pow_lt; lra).
  assert (Q : 0 <= peval (hom 2 p) (2 * x)).
  { destruct (Rle_dec (2 * x) 1) as [C|C].
    - apply (IH _ _ H1). lra.
    - replace (2 * x) with ((2 * x - 1) + 1) by ring. rewrite <- peval_shift1. apply (IH _ _ H2). lra. }
  apply Rmult_le_reg_l with (2 ^ length p); [exact P|]. rewrite Rmult_0_r. rewrite <- E. lra.
Qed.
(** without leading zeros *)
Fixpoint lead (p : list Z) : list Z := match p with 0%Z :: t => lead t | _ => p end.
Lemma lead_ok p x : 0 <= x -> 0 <= peval (lead p) x -> 0 <= peval p x.
Proof.
  intros Hx. induction p as [|c p IH]; cbn [lead]; [auto|]. destruct c; auto.
  intros H. cbn [peval]. assert (0 <= x * peval p x) by (apply Rmult_le_pos; auto). lra.
Qed.
(** ... on the whole half line *)
Definition nonneg (fuel : nat) (p : list Z) : bool := if nonneg01 fuel p then nonneg01 fuel (lead (rev p)) else false.
Lemma nonneg_ok fuel p x : nonneg fuel p = true -> 0 <= x -> 0 <= peval p x.
Proof.
  intros H2 Hx. unfold nonneg in H2. destruct (nonneg01 fuel p) eqn:H1; [|discriminate].
  destruct (Rle_dec x 1) as [C|C]; [apply (nonneg01_ok fuel); [exact H1|lra]|].
  assert (I : 0 < / x) by (apply Rinv_0_lt_compat; lra).
  assert (J : / x <= 1) by (rewrite <- Rinv_1; apply Rinv_le_contravar; lra).
  assert (A := lead_ok (rev p) (/ x) ltac:(lra) (nonneg01_ok fuel _ (/ x) H2 ltac:(lra))).
  assert (E := peval_rev p (/ x) ltac:(lra)). rewrite Rinv_inv in E.
  assert (P : 0 < (/ x) ^ length p) by (apply pow_lt; exact I).
  apply Rmult_le_reg_l with ((/ x) ^ length p); [exact P|]. rewrite Rmult_0_r, <- E. nra.
Qed.

(** fewer digits: rounding the coefficients down only lowers the values at x >= 0 *)
Definition trunc (k : Z) (p : list Z) : list Z := List.map (fun c => Z.shiftr c k) p.
Lemma trunc_ok k p x : (0 <= k)%Z -> 0 <= x -> 0 <= peval (trunc k p) x -> 0 <= peval p x.
Proof.
  intros Hk Hx H. cut (IZR (2 ^ k) * peval (trunc k p) x <= peval p x).
  { assert (0 < IZR (2 ^ k)) by (apply IZR_lt; apply Z.pow_pos_nonneg; lia). nra. }
  clear H. induction p as [|c p IH]; cbn [trunc List.map peval]; [lra|].
  assert (A : IZR (2 ^ k) * IZR (Z.shiftr c k) <= IZR c).
  { rewrite <- mult_IZR. apply IZR_le. rewrite Z.shiftr_div_pow2 by exact Hk. apply Z.mul_div_le.
    apply Z.pow_pos_nonneg; lia. }
  unfold trunc in IH. nra.
Qed.
Definition nonnegT (fuel : nat) (k : Z) (p : list Z) : bool := nonneg fuel (trunc k p).
Lemma nonnegT_ok fuel k p x : (0 <= k)%Z -> nonnegT fuel k p = true -> 0 <= x -> 0 <= peval p x.
Proof. intros Hk H Hx. apply (trunc_ok k); auto. now apply (nonneg_ok fuel). Qed.
