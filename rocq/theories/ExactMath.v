(** * ExactMath: integrals of exp(z(1-u)) against piecewise linear signals *)
From Coq Require Import ZArith List Bool Reals Lia Lra.
From Flocq Require Import Core.
From Coquelicot Require Import Coquelicot.
Import ListNotations.
Local Open Scope R_scope.

(** ** Complex numbers as pairs *)
Lemma C_eq (a b c d : R) : a = c -> b = d -> ((a, b) : C) = (c, d).
Proof. intros -> ->. reflexivity. Qed.

Ltac cx := unfold Cplus, Cminus, Cmult, Copp, RtoC; cbn [fst snd]; apply C_eq.

Section Seg.
Variable z : C.
Notation zr := (fst z).
Notation zi := (snd z).
Definition er (u : R) : R := exp (zr * (1 - u)) * cos (zi * (1 - u)).
Definition ei (u : R) : R := exp (zr * (1 - u)) * sin (zi * (1 - u)).
Definition ec (u : R) : C := (er u, ei u).

Lemma er_derive u : is_derive er u (- zr * er u + zi * ei u).
Proof. unfold er, ei. auto_derive; [exact I|]. unfold Rminus. ring. Qed.
Lemma ei_derive u : is_derive ei u (- zr * ei u - zi * er u).
Proof. unfold er, ei. auto_derive; [exact I|]. unfold Rminus. ring. Qed.
Lemma er_cont u : continuous er u.
Proof. apply (ex_derive_continuous (V := R_NormedModule) er). eexists. apply er_derive. Qed.
Lemma ei_cont u : continuous ei u.
Proof. apply (ex_derive_continuous (V := R_NormedModule) ei). eexists. apply ei_derive. Qed.

(** both components of the integral of exp(z(1-u)) x(u) over [a,b] *)
Definition is_int (x : R -> R) (a b : R) (I : C) : Prop :=
  is_RInt (fun u => er u * x u) a b (fst I) /\ is_RInt (fun u => ei u * x u) a b (snd I).

Lemma is_int_Chasles x a b c I J : is_int x a b I -> is_int x b c J -> is_int x a c (I + J)%C.
Proof.
  intros [A1 A2] [B1 B2]. split; cbn [Cplus fst snd];
    eapply (is_RInt_Chasles (V := R_NormedModule)); eassumption.
Qed.

Lemma is_int_ext x y a b I : a <= b -> (forall u, a <= u <= b -> x u = y u) -> is_int x a b I -> is_int y a b I.
Proof.
  intros Hab H [A B]. split; (eapply (is_RInt_ext (V := R_NormedModule)); [|eassumption]); cbn; intros u Hu;
    rewrite Rmin_left, Rmax_right in Hu by lra; rewrite H by lra; reflexivity.
Qed.

(** the antiderivative on a segment where x(u) = al + be u *)
Definition Eseg (al be u : R) : C := (ec u * (z * RtoC (al + be * u) + RtoC be))%C.

Lemma affine_int al be a b :
  exists I, is_int (fun u => al + be * u) a b I /\
    (z * z * I = Eseg al be a - Eseg al be b)%C.
Proof.
  set (x := fun u => al + be * u).
  assert (cx1 : forall u, continuous x u).
  { intros u. apply (ex_derive_continuous (V := R_NormedModule) x). unfold x. auto_derive. trivial. }
  assert (C1 : forall u, continuous (fun u => er u * x u) u).
  { intros u. apply (continuous_mult er x); [apply er_cont|apply cx1]. }
  assert (C2 : forall u, continuous (fun u => ei u * x u) u).
  { intros u. apply (continuous_mult ei x); [apply ei_cont|apply cx1]. }
  assert (X1 : ex_RInt (fun u => er u * x u) a b) by (apply (@ex_RInt_continuous R_CompleteNormedModule); intros; apply C1).
  assert (X2 : ex_RInt (fun u => ei u * x u) a b) by (apply (@ex_RInt_continuous R_CompleteNormedModule); intros; apply C2).
  destruct X1 as [A HA]. destruct X2 as [B HB]. exists (A, B). split; [split; assumption|].
  (* real and imaginary parts of z^2 times the integrand *)
  set (w1 := zr * zr - zi * zi). set (w2 := 2 * zr * zi).
  assert (R1 : is_RInt (fun u => w1 * (er u * x u) - w2 * (ei u * x u)) a b (w1 * A - w2 * B)).
  { apply (is_RInt_minus (V := R_NormedModule)); apply (is_RInt_scal (V := R_NormedModule)); assumption. }
  assert (R2 : is_RInt (fun u => w1 * (ei u * x u) + w2 * (er u * x u)) a b (w1 * B + w2 * A)).
  { apply (is_RInt_plus (V := R_NormedModule)); apply (is_RInt_scal (V := R_NormedModule)); assumption. }
  set (G1 := fun u => - (er u * (zr * x u + be) - ei u * (zi * x u))).
  set (G2 := fun u => - (er u * (zi * x u) + ei u * (zr * x u + be))).
  assert (xd : forall u, is_derive x u be) by (intros u; unfold x; auto_derive; [trivial|ring]).
  assert (S1 : is_RInt (fun u => w1 * (er u * x u) - w2 * (ei u * x u)) a b (G1 b - G1 a)).
  { apply (is_RInt_derive (V := R_CompleteNormedModule)).
    - intros u _. unfold G1.
      evar_last.
      + apply (is_derive_opp (V := R_NormedModule)). apply (is_derive_minus (V := R_NormedModule)).
        * apply (is_derive_mult er (fun u => zr * x u + be)); [apply er_derive| |intros; apply Rmult_comm].
          apply (is_derive_plus (V := R_NormedModule)); [|apply (is_derive_const (V := R_NormedModule))].
          apply (is_derive_scal x u zr). apply xd.
        * apply (is_derive_mult ei (fun u => zi * x u)); [apply ei_derive| |intros; apply Rmult_comm].
          apply (is_derive_scal x u zi). apply xd.
      + unfold w1, w2, x. cbv [opp minus plus mult zero scal]; cbn. unfold mult; cbn. ring.
    - intros u _. apply (continuous_minus (V := R_NormedModule)); apply (continuous_scal_r (V := R_NormedModule)); [apply C1|apply C2]. }
  assert (S2 : is_RInt (fun u => w1 * (ei u * x u) + w2 * (er u * x u)) a b (G2 b - G2 a)).
  { apply (is_RInt_derive (V := R_CompleteNormedModule)).
    - intros u _. unfold G2.
      evar_last.
      + apply (is_derive_opp (V := R_NormedModule)). apply (is_derive_plus (V := R_NormedModule)).
        * apply (is_derive_mult er (fun u => zi * x u)); [apply er_derive| |intros; apply Rmult_comm].
          apply (is_derive_scal x u zi). apply xd.
        * apply (is_derive_mult ei (fun u => zr * x u + be)); [apply ei_derive| |intros; apply Rmult_comm].
          apply (is_derive_plus (V := R_NormedModule)); [|apply (is_derive_const (V := R_NormedModule))].
          apply (is_derive_scal x u zr). apply xd.
      + unfold w1, w2, x. cbv [opp minus plus mult zero scal]; cbn. unfold mult; cbn. ring.
    - intros u _. apply (continuous_plus (V := R_NormedModule)); apply (continuous_scal_r (V := R_NormedModule)); [apply C2|apply C1]. }
  assert (Q1 : w1 * A - w2 * B = G1 b - G1 a).
  { rewrite <- (is_RInt_unique _ _ _ _ R1). now apply is_RInt_unique. }
  assert (Q2 : w1 * B + w2 * A = G2 b - G2 a).
  { rewrite <- (is_RInt_unique _ _ _ _ R2). now apply is_RInt_unique. }
  unfold Eseg, ec. rewrite (surjective_pairing z) at 1 2 3 4. cx.
  - transitivity (w1 * A - w2 * B); [unfold w1, w2; ring|]. rewrite Q1. unfold G1, x. cbn [fst snd]. ring.
  - transitivity (w1 * B + w2 * A); [unfold w1, w2; ring|]. rewrite Q2. unfold G2, x. cbn [fst snd]. ring.
Qed.

Lemma affine_is_int al be a b I : is_int (fun u => al + be * u) a b I ->
  (z * z * I = Eseg al be a - Eseg al be b)%C.
Proof.
  intros [A B]. destruct (affine_int al be a b) as ([I1 I2] & [A' B'] & E). rewrite <- E.
  destruct I as [J1 J2]. cbn [fst snd] in *.
  rewrite <- (is_RInt_unique _ _ _ _ A), <- (is_RInt_unique _ _ _ _ B).
  rewrite (is_RInt_unique _ _ _ _ A'), (is_RInt_unique _ _ _ _ B'). reflexivity.
Qed.

(** ** A path over the segments of a piecewise linear waveform *)
Section Path.
Variable c : Z -> R.
Variable n : R.
Hypothesis Hn : 0 < n.
(** line through (k/n, c k) and ((k+1)/n, c (k+1)) *)
Definition line (k : Z) (t : R) : R := c k + (t * n - IZR k) * (c (k + 1)%Z - c k).
Definition poly (t : R) : R := line (Zfloor (t * n)) t.
Definition slope (k : Z) : R := n * (c (k + 1)%Z - c k).

Lemma poly_line k t : IZR k <= t * n <= IZR k + 1 -> poly t = line k t.
Proof.
  intros [H1 H2]. unfold poly. destruct (Rle_lt_or_eq_dec _ _ H2) as [H|H].
  - now rewrite (Zfloor_imp k) by (rewrite plus_IZR; lra).
  - rewrite H. rewrite <- plus_IZR, Zfloor_IZR. unfold line. rewrite H, plus_IZR. ring.
Qed.

Variables p d : R.
(** value and derivative of the antiderivative on segment k *)
Definition Ek (k : Z) (u : R) : C :=
  (ec u * (z * RtoC (line k (p + d * u)) + RtoC (slope k * d)))%C.

Lemma Ek_seg k u : Ek k u = Eseg (line k p) (slope k * d) u.
Proof.
  unfold Ek, Eseg. do 3 f_equal. f_equal. unfold line, slope. ring.
Qed.

Lemma seg_int k a b : a <= b -> (forall u, a <= u <= b -> IZR k <= (p + d * u) * n <= IZR k + 1) ->
  exists I, is_int (fun u => poly (p + d * u)) a b I /\ (z * z * I = Ek k a - Ek k b)%C.
Proof.
  intros Hab H. destruct (affine_int (line k p) (slope k * d) a b) as (I & A & B).
  exists I. rewrite !Ek_seg. split; [|assumption].
  eapply is_int_ext; [exact Hab| |exact A]. intros u Hu. cbn. rewrite (poly_line k) by now apply H.
  unfold line, slope. ring.
Qed.

(** jump of the antiderivative at the boundary between segments k and k+1, crossed at [u] *)
Lemma Ek_jump k u : (p + d * u) * n = IZR k + 1 ->
  (Ek (k + 1) u - Ek k u = ec u * RtoC (d * (slope (k + 1) - slope k)))%C.
Proof.
  intros H. unfold Ek. 
  assert (E : line (k + 1) (p + d * u) = line k (p + d * u)).
  { unfold line. rewrite H, plus_IZR. ring. }
  rewrite E. destruct z as [z1 z2], (ec u) as [e1 e2]. cx; cbn [fst snd]; ring.
Qed.

Definition uAt (k : Z) : R := ((IZR k + 1) / n - p) / d.
Definition jump (k : Z) : C := (ec (uAt k) * RtoC (d * (slope (k + 1) - slope k)))%C.

Lemma uAt_pos k : d <> 0 -> (p + d * uAt k) * n = IZR k + 1.
Proof. intros Hd. unfold uAt. field. lra. Qed.

Fixpoint sumC (f : Z -> C) (a : Z) (m : nat) : C :=
  match m with O => RtoC 0 | S m' => (f a + sumC f (a + 1) m')%C end.

Lemma fwd_path (Hd : 0 < d) m : forall a v, v <= 1 ->
  IZR a <= (p + d * v) * n <= IZR a + 1 ->
  IZR (a + Z.of_nat m) <= (p + d) * n <= IZR (a + Z.of_nat m) + 1 ->
  exists I, is_int (fun u => poly (p + d * u)) v 1 I /\
    (z * z * I = Ek a v - Ek (a + Z.of_nat m) 1 + sumC jump a m)%C.
Proof.
  induction m as [|m IH]; intros a v Hv Ha Hb.
  - change (Z.of_nat 0) with 0%Z in *. rewrite Z.add_0_r in *.
    destruct (seg_int a v 1 Hv) as (I & A & B).
    { intros u Hu. split.
      - apply Rle_trans with ((p + d * v) * n); [lra|]. apply Rmult_le_compat_r; [lra|].
        assert (d * v <= d * u) by (apply Rmult_le_compat_l; lra). lra.
      - apply Rle_trans with ((p + d) * n); [|lra]. apply Rmult_le_compat_r; [lra|].
        assert (d * u <= d * 1) by (apply Rmult_le_compat_l; lra). lra. }
    exists I. split; [assumption|]. cbn [sumC]. rewrite B. destruct (Ek a v), (Ek a 1). cx; cbn; ring.
  - assert (E : (a + Z.of_nat (S m) = a + 1 + Z.of_nat m)%Z) by lia. rewrite E in *.
    assert (Hu := uAt_pos a ltac:(lra)). set (u1 := uAt a) in *.
    assert (V1 : v <= u1).
    { apply Rmult_le_reg_l with (d * n); [now apply Rmult_lt_0_compat|]. lra. }
    assert (V2 : u1 <= 1).
    { apply Rmult_le_reg_l with (d * n); [now apply Rmult_lt_0_compat|].
      rewrite !plus_IZR in Hb. assert (0 <= IZR (Z.of_nat m)) by (apply IZR_le; lia). lra. }
    destruct (seg_int a v u1 V1) as (I & A & B).
    { intros u Hu'. split.
      - apply Rle_trans with ((p + d * v) * n); [lra|]. apply Rmult_le_compat_r; [lra|].
        assert (d * v <= d * u) by (apply Rmult_le_compat_l; lra). lra.
      - rewrite <- Hu. apply Rmult_le_compat_r; [lra|].
        assert (d * u <= d * u1) by (apply Rmult_le_compat_l; lra). lra. }
    destruct (IH (a + 1)%Z u1 V2) as (J & A' & B'); [rewrite plus_IZR; lra|assumption|].
    exists (I + J)%C. split; [eapply is_int_Chasles; eassumption|].
    replace (z * z * (I + J))%C with (z * z * I + z * z * J)%C by ring. rewrite B, B'.
    cbn [sumC]. unfold jump at 2. fold u1. rewrite <- (Ek_jump a u1 Hu). ring.
Qed.

Lemma bwd_path_to (Hd : d < 0) m : forall b v w, v <= w ->
  IZR (b + Z.of_nat m) <= (p + d * v) * n <= IZR (b + Z.of_nat m) + 1 ->
  IZR b <= (p + d * w) * n <= IZR b + 1 ->
  exists I, is_int (fun u => poly (p + d * u)) v w I /\
    (z * z * I = Ek (b + Z.of_nat m) v - Ek b w - sumC jump b m)%C.
Proof.
  induction m as [|m IH]; intros b v w Hv Ha Hb.
  - change (Z.of_nat 0) with 0%Z in *. rewrite Z.add_0_r in *.
    destruct (seg_int b v w Hv) as (I & A & B).
    { intros u Hu. split.
      - apply Rle_trans with ((p + d * w) * n); [lra|]. apply Rmult_le_compat_r; [lra|].
        assert (d * w <= d * u) by (apply Rmult_le_compat_neg_l; lra). lra.
      - apply Rle_trans with ((p + d * v) * n); [|lra]. apply Rmult_le_compat_r; [lra|].
        assert (d * u <= d * v) by (apply Rmult_le_compat_neg_l; lra). lra. }
    exists I. split; [assumption|]. cbn [sumC]. rewrite B. destruct (Ek b v), (Ek b w). cx; cbn; ring.
  - (* the last boundary crossed is the one between b+1 and b: split there *)
    assert (E : (b + Z.of_nat (S m) = b + 1 + Z.of_nat m)%Z) by lia. rewrite E in *.
    assert (Hu := uAt_pos b ltac:(lra)). set (u1 := uAt b) in *.
    assert (Hdn : 0 < - d * n) by (apply Rmult_lt_0_compat; lra).
    assert (V1 : v <= u1).
    { apply Rmult_le_reg_l with (- d * n); [assumption|].
      rewrite !plus_IZR in Ha. assert (0 <= IZR (Z.of_nat m)) by (apply IZR_le; lia). lra. }
    assert (V2 : u1 <= w).
    { apply Rmult_le_reg_l with (- d * n); [assumption|]. lra. }
    destruct (seg_int b u1 w V2) as (I & A & B).
    { intros u Hu'. split.
      - apply Rle_trans with ((p + d * w) * n); [lra|]. apply Rmult_le_compat_r; [lra|].
        assert (d * w <= d * u) by (apply Rmult_le_compat_neg_l; lra). lra.
      - rewrite <- Hu. apply Rmult_le_compat_r; [lra|].
        assert (d * u <= d * u1) by (apply Rmult_le_compat_neg_l; lra). lra. }
    destruct (IH (b + 1)%Z v u1 V1) as (J & A' & B'); [assumption|rewrite plus_IZR; lra|].
    exists (J + I)%C. split; [eapply is_int_Chasles; eassumption|].
    replace (z * z * (J + I))%C with (z * z * I + z * z * J)%C by ring. rewrite B, B'.
    cbn [sumC]. unfold jump at 2. fold u1. rewrite <- (Ek_jump b u1 Hu). ring.
Qed.

Lemma bwd_path (Hd : d < 0) m b :
  IZR (b + Z.of_nat m) <= p * n <= IZR (b + Z.of_nat m) + 1 ->
  IZR b <= (p + d) * n <= IZR b + 1 ->
  exists I, is_int (fun u => poly (p + d * u)) 0 1 I /\
    (z * z * I = Ek (b + Z.of_nat m) 0 - Ek b 1 - sumC jump b m)%C.
Proof.
  intros H1 H2. apply bwd_path_to; [assumption|lra| |]; rewrite ?Rmult_0_r, ?Rmult_1_r, ?Rplus_0_r; assumption.
Qed.
End Path.
End Seg.
