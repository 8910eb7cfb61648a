(** * PInv: inverting samples commutes with the arithmetic of binary32 and binary64 (for C60) *)
From Coq Require Import ZArith List Bool Reals Lia Lra.
From Flocq Require Import Core IEEE754.BinarySingleNaN.
From Verif Require Import Num B32 Wavetable Osc SpecS Rel.
Import ListNotations.
Local Open Scope R_scope.

Section Inv.
Variables prec emax : Z.
Variable Hp : Prec_gt_0 prec.
Variable He : Prec_lt_emax prec emax.
Notation F := (binary_float prec emax).
Notation rnd := (round radix2 (SpecFloat.fexp prec emax) ZnearestE).

(** the constructors, one by one *)
Inductive inv : F -> F -> Prop :=
| i_zero s s' : inv (B754_zero s) (B754_zero s')
| i_inf s : inv (B754_infinity s) (B754_infinity (negb s))
| i_nan : inv B754_nan B754_nan
| i_fin s m e H H' : inv (B754_finite s m e H) (B754_finite (negb s) m e H').

Lemma B2R_negb s m e H H' : @B2R prec emax (B754_finite (negb s) m e H') = - @B2R prec emax (B754_finite s m e H).
Proof. cbn [B2R]. rewrite <- F2R_Zopp. f_equal. now destruct s. Qed.

Lemma inv_val x y : inv x y -> B2R y = - B2R x.
Proof. intros [s s'|s| |s m e H H']; [cbn; lra|cbn; lra|cbn; lra|]. apply B2R_negb. Qed.
Lemma inv_finite x y : inv x y -> is_finite x = is_finite y.
Proof. now intros [s s'|s| |s m e H H']. Qed.

Lemma val_sign (x : F) : is_finite x = true -> (Bsign x = true -> B2R x <= 0) /\ (Bsign x = false -> 0 <= B2R x).
Proof.
  destruct x as [s|s| |s m e H]; intros K; try discriminate K; cbn [B2R Bsign]; [split; intros; lra|].
  destruct s; split; intros Q; try discriminate Q.
  - apply F2R_le_0. cbn. lia.
  - apply F2R_ge_0. cbn. lia.
Qed.

Lemma of_val x y : is_finite x = true -> is_finite y = true -> B2R y = - B2R x -> inv x y.
Proof.
  intros Fx Fy E.
  destruct x as [s|s| |s m e H]; try discriminate Fx; destruct y as [s'|s'| |s' m' e' H']; try discriminate Fy.
  - constructor.
  - exfalso. assert (Q : B2R (B754_finite s' m' e' H') = 0) by (rewrite E; cbn [B2R]; lra).
    cbn [B2R] in Q. apply eq_0_F2R in Q. destruct s'; discriminate Q.
  - exfalso. assert (Q : B2R (B754_finite s m e H) = 0) by (cbn [B2R] in *; lra).
    cbn [B2R] in Q. apply eq_0_F2R in Q. destruct s; discriminate Q.
  - rewrite <- (B2R_negb s m e H H) in E. apply (B2R_inj prec emax) in E; [|reflexivity..].
    injection E as -> -> ->. constructor.
Qed.

(** [z] is the rounding of [r] *)
Definition comp (z : F) (r : R) : Prop :=
  if Rlt_bool (Rabs (rnd r)) (bpow radix2 emax) then B2R z = rnd r /\ is_finite z = true
  else z = B754_infinity (Rlt_bool r 0).

Lemma over r : ~ Rabs (rnd r) < bpow radix2 emax -> r <> 0.
Proof. intros O ->. apply O. rewrite round_0 by apply valid_rnd_N. rewrite Rabs_R0. apply bpow_gt_0. Qed.

Lemma comp_inv z z' r : comp z r -> comp z' (- r) -> inv z z'.
Proof.
  unfold comp. rewrite round_NE_opp, Rabs_Ropp. case Rlt_bool_spec; intros B.
  - intros [V K] [V' K']. apply of_val; [exact K|exact K'|]. now rewrite V, V'.
  - intros -> ->. assert (R0 : r <> 0) by (apply over; lra).
    replace (Rlt_bool (- r) 0) with (negb (Rlt_bool r 0)); [constructor|].
    case Rlt_bool_spec; case Rlt_bool_spec; intros; try reflexivity; lra.
Qed.

Lemma comp_same z r r' : comp z r -> r = r' -> comp z r'. Proof. now intros H <-. Qed.

Lemma inf_of (z : F) s : B2SF z = binary_overflow prec emax mode_NE s -> z = B754_infinity s.
Proof. destruct z as [|t| |]; cbn; try discriminate. now intros [= ->]. Qed.

Lemma comp_plus (x y : F) : is_finite x = true -> is_finite y = true ->
  comp (@Bplus prec emax Hp He mode_NE x y) (B2R x + B2R y).
Proof.
  intros Fx Fy. generalize (Bplus_correct prec emax Hp He mode_NE x y Fx Fy). unfold comp. cbn [round_mode].
  case Rlt_bool_spec; intros B; [intros (V & K & _); now split|].
  intros [V S]. apply inf_of in V. rewrite V. f_equal.
  pose proof (over _ (Rle_not_lt _ _ B)) as R0. destruct (val_sign x Fx) as [X1 X2], (val_sign y Fy) as [Y1 Y2].
  rewrite S in *. destruct (Bsign y); case Rlt_bool_spec; intros; try reflexivity; exfalso.
  - specialize (X1 eq_refl). specialize (Y1 eq_refl). lra.
  - specialize (X2 eq_refl). specialize (Y2 eq_refl). lra.
Qed.
Lemma comp_minus (x y : F) : is_finite x = true -> is_finite y = true ->
  comp (@Bminus prec emax Hp He mode_NE x y) (B2R x - B2R y).
Proof.
  intros Fx Fy. generalize (Bminus_correct prec emax Hp He mode_NE x y Fx Fy). unfold comp. cbn [round_mode].
  case Rlt_bool_spec; intros B; [intros (V & K & _); now split|].
  intros [V S]. apply inf_of in V. rewrite V. f_equal.
  pose proof (over _ (Rle_not_lt _ _ B)) as R0. destruct (val_sign x Fx) as [X1 X2], (val_sign y Fy) as [Y1 Y2].
  rewrite S in *. destruct (Bsign y); case Rlt_bool_spec; intros; try reflexivity; exfalso.
  - specialize (X2 eq_refl). specialize (Y1 eq_refl). lra.
  - specialize (X1 eq_refl). specialize (Y2 eq_refl). lra.
Qed.

Lemma sign_xor (x y : F) r : is_finite x = true -> is_finite y = true -> r <> 0 ->
  (Bsign x = Bsign y -> 0 <= r) -> (Bsign x = negb (Bsign y) -> r <= 0) ->
  xorb (Bsign x) (Bsign y) = Rlt_bool r 0.
Proof.
  intros Fx Fy R0 P Q. destruct (Bsign x), (Bsign y); case Rlt_bool_spec; intros; try reflexivity; exfalso;
    cbn in *; try (specialize (P eq_refl)); try (specialize (Q eq_refl)); lra.
Qed.

Lemma comp_mult (x y : F) : is_finite x = true -> is_finite y = true ->
  comp (@Bmult prec emax Hp He mode_NE x y) (B2R x * B2R y).
Proof.
  intros Fx Fy. generalize (Bmult_correct prec emax Hp He mode_NE x y). unfold comp. cbn [round_mode].
  case Rlt_bool_spec; intros B; [intros (V & K & _); split; [exact V|]; now rewrite K, Fx, Fy|].
  intros V. apply inf_of in V. rewrite V. f_equal.
  pose proof (over _ (Rle_not_lt _ _ B)) as R0. destruct (val_sign x Fx) as [X1 X2], (val_sign y Fy) as [Y1 Y2].
  apply sign_xor; auto; intros E; rewrite E in *; destruct (Bsign y); cbn in *;
    try (specialize (X1 eq_refl)); try (specialize (X2 eq_refl)); try (specialize (Y1 eq_refl)); try (specialize (Y2 eq_refl)); nra.
Qed.
Lemma comp_div (x y : F) : is_finite x = true -> is_finite y = true -> B2R y <> 0 ->
  comp (@Bdiv prec emax Hp He mode_NE x y) (B2R x / B2R y).
Proof.
  intros Fx Fy Y0. generalize (Bdiv_correct prec emax Hp He mode_NE x y Y0). unfold comp. cbn [round_mode].
  case Rlt_bool_spec; intros B; [intros (V & K & _); split; [exact V|]; now rewrite K, Fx|].
  intros V. apply inf_of in V. rewrite V. f_equal.
  pose proof (over _ (Rle_not_lt _ _ B)) as R0. destruct (val_sign x Fx) as [X1 X2], (val_sign y Fy) as [Y1 Y2].
  assert (I : B2R y * / B2R y = 1) by (now apply Rinv_r). unfold Rdiv in *. set (i := / B2R y) in *. clearbody i.
  apply sign_xor; auto; intros E; rewrite E in *; destruct (Bsign y); cbn in *;
    try (specialize (X1 eq_refl)); try (specialize (X2 eq_refl)); try (specialize (Y1 eq_refl)); try (specialize (Y2 eq_refl)).
  - assert (i <= 0) by nra. nra.
  - assert (0 <= i) by nra. nra.
  - assert (i <= 0) by nra. nra.
  - assert (0 <= i) by nra. nra.
Qed.
Lemma comp_fma (x y z : F) : is_finite x = true -> is_finite y = true -> is_finite z = true ->
  comp (@Bfma prec emax Hp He mode_NE x y z) (B2R x * B2R y + B2R z).
Proof.
  intros Fx Fy Fz. generalize (Bfma_correct prec emax Hp He mode_NE x y z Fx Fy Fz). unfold comp. cbn [round_mode].
  case Rlt_bool_spec; intros B; [intros (V & K & _); now split|]. intros V. now apply inf_of in V.
Qed.
Lemma comp_norm mx ex sz : comp (binary_normalize prec emax Hp He mode_NE mx ex sz) (F2R (Float radix2 mx ex)).
Proof.
  generalize (binary_normalize_correct prec emax Hp He mode_NE mx ex sz). unfold comp. cbn [round_mode].
  case Rlt_bool_spec; intros B; [intros (V & K & _); now split|]. intros V. now apply inf_of in V.
Qed.

(** the operations *)
Lemma inv_opp x y : inv x y -> inv (Bopp x) (Bopp y).
Proof. intros [s s'|s| |s m e H H']; cbn [Bopp]; constructor. Qed.

Lemma fin_dec (x : F) : is_finite x = true \/ (exists s, x = B754_infinity s) \/ x = B754_nan.
Proof. destruct x; eauto. Qed.

Lemma inv_plus a a' b b' : inv a a' -> inv b b' ->
  inv (@Bplus prec emax Hp He mode_NE a b) (@Bplus prec emax Hp He mode_NE a' b').
Proof.
  intros A B. destruct (is_finite a && is_finite b)%bool eqn:K.
  - apply andb_true_iff in K as [Ka Kb].
    apply comp_inv with (B2R a + B2R b); [now apply comp_plus|].
    eapply comp_same; [apply comp_plus; rewrite <- ?(inv_finite _ _ A), <- ?(inv_finite _ _ B); assumption|].
    rewrite (inv_val _ _ A), (inv_val _ _ B). lra.
  - destruct A as [s s'|s| |s m e H H'], B as [t t'|t| |t m2 e2 H2 H2']; try discriminate K; cbn; try constructor.
    destruct s, t; cbn; constructor.
Qed.
Lemma inv_minus a a' b b' : inv a a' -> inv b b' ->
  inv (@Bminus prec emax Hp He mode_NE a b) (@Bminus prec emax Hp He mode_NE a' b').
Proof.
  intros A B. destruct (is_finite a && is_finite b)%bool eqn:K.
  - apply andb_true_iff in K as [Ka Kb].
    apply comp_inv with (B2R a - B2R b); [now apply comp_minus|].
    eapply comp_same; [apply comp_minus; rewrite <- ?(inv_finite _ _ A), <- ?(inv_finite _ _ B); assumption|].
    rewrite (inv_val _ _ A), (inv_val _ _ B). lra.
  - destruct A as [s s'|s| |s m e H H'], B as [t t'|t| |t m2 e2 H2 H2']; try discriminate K; cbn; try constructor.
    destruct s, t; cbn; constructor.
Qed.
Lemma inv_mult_r a a' c : inv a a' ->
  inv (@Bmult prec emax Hp He mode_NE a c) (@Bmult prec emax Hp He mode_NE a' c).
Proof.
  intros A. destruct (is_finite a && is_finite c)%bool eqn:K.
  - apply andb_true_iff in K as [Ka Kb].
    apply comp_inv with (B2R a * B2R c); [now apply comp_mult|].
    eapply comp_same; [apply comp_mult; rewrite <- ?(inv_finite _ _ A); assumption|].
    rewrite (inv_val _ _ A). lra.
  - destruct A as [s s'|s| |s m e H H'], c as [t|t| |t m2 e2 H2]; try discriminate K; cbn; try constructor;
      destruct s, t; cbn; constructor.
Qed.
Lemma inv_mult_l a a' c : inv a a' ->
  inv (@Bmult prec emax Hp He mode_NE c a) (@Bmult prec emax Hp He mode_NE c a').
Proof.
  intros A. destruct (is_finite a && is_finite c)%bool eqn:K.
  - apply andb_true_iff in K as [Ka Kb].
    apply comp_inv with (B2R c * B2R a); [now apply comp_mult|].
    eapply comp_same; [apply comp_mult; rewrite <- ?(inv_finite _ _ A); assumption|].
    rewrite (inv_val _ _ A). lra.
  - destruct A as [s s'|s| |s m e H H'], c as [t|t| |t m2 e2 H2]; try discriminate K; cbn; try constructor;
      destruct s, t; cbn; constructor.
Qed.
Lemma inv_div a a' c : inv a a' ->
  inv (@Bdiv prec emax Hp He mode_NE a c) (@Bdiv prec emax Hp He mode_NE a' c).
Proof.
  intros A. destruct (is_finite_strict c && is_finite a)%bool eqn:K.
  - apply andb_true_iff in K as [Kc Ka].
    assert (Fc : is_finite c = true) by (now destruct c).
    assert (C0 : B2R c <> 0).
    { destruct c as [t|t| |t m e H]; try discriminate Kc. cbn [B2R]. intros Q. apply eq_0_F2R in Q. destruct t; discriminate Q. }
    apply comp_inv with (B2R a / B2R c); [now apply comp_div|].
    eapply comp_same; [apply comp_div; rewrite <- ?(inv_finite _ _ A); assumption|].
    rewrite (inv_val _ _ A). unfold Rdiv. lra.
  - destruct A as [s s'|s| |s m e H H'], c as [t|t| |t m2 e2 H2]; try discriminate K; cbn; try constructor;
      destruct s, t; cbn; constructor.
Qed.
Lemma inv_fma_r a a' c b b' : inv a a' -> inv b b' ->
  inv (@Bfma prec emax Hp He mode_NE a c b) (@Bfma prec emax Hp He mode_NE a' c b').
Proof.
  intros A B. destruct (is_finite a && (is_finite c && is_finite b))%bool eqn:K.
  - apply andb_true_iff in K as [Ka K]. apply andb_true_iff in K as [Kc Kb].
    apply comp_inv with (B2R a * B2R c + B2R b); [now apply comp_fma|].
    eapply comp_same; [apply comp_fma; rewrite <- ?(inv_finite _ _ A), <- ?(inv_finite _ _ B); assumption|].
    rewrite (inv_val _ _ A), (inv_val _ _ B). lra.
  - destruct A as [s s'|s| |s m e H H'], c as [t|t| |t m2 e2 H2], B as [u u'|u| |u m3 e3 H3 H3'];
      try discriminate K; cbn; try constructor; destruct s, t; try destruct u; cbn; constructor.
Qed.
Lemma inv_fma_l a a' c b b' : inv a a' -> inv b b' ->
  inv (@Bfma prec emax Hp He mode_NE c a b) (@Bfma prec emax Hp He mode_NE c a' b').
Proof.
  intros A B. destruct (is_finite a && (is_finite c && is_finite b))%bool eqn:K.
  - apply andb_true_iff in K as [Ka K]. apply andb_true_iff in K as [Kc Kb].
    apply comp_inv with (B2R c * B2R a + B2R b); [now apply comp_fma|].
    eapply comp_same; [apply comp_fma; rewrite <- ?(inv_finite _ _ A), <- ?(inv_finite _ _ B); assumption|].
    rewrite (inv_val _ _ A), (inv_val _ _ B). lra.
  - destruct A as [s s'|s| |s m e H H'], c as [t|t| |t m2 e2 H2], B as [u u'|u| |u m3 e3 H3 H3'];
      try discriminate K; cbn; try constructor; destruct s, t; try destruct u; cbn; constructor.
Qed.
Lemma inv_norm e s t z z' : z' = (- z)%Z ->
  inv (binary_normalize prec emax Hp He mode_NE z e s) (binary_normalize prec emax Hp He mode_NE z' e t).
Proof.
  intros ->. apply comp_inv with (F2R (Float radix2 z e)); [apply comp_norm|].
  rewrite <- F2R_Zopp. apply comp_norm.
Qed.

Lemma inv_Beqb x y : inv x y <-> @Beqb prec emax (Bopp x) y = true \/ x = B754_nan /\ y = B754_nan.
Proof.
  split.
  - intros [s s'|s| |s m e H H']; [left; reflexivity| |now right|]; left.
    + cbn. now destruct s.
    + unfold Beqb, SpecFloat.SFeqb. cbn. destruct s; cbn; now rewrite Z.compare_refl, Pos.compare_cont_refl.
  - intros [E|[-> ->]]; [|constructor].
    destruct x as [s|s| |s m e H].
    + destruct y as [t|t| |t m2 e2 H2]; [constructor|destruct t; discriminate E|discriminate E|destruct t; discriminate E].
    + destruct y as [t|t| |t m2 e2 H2]; try (destruct s; discriminate E); try discriminate E.
      destruct s, t; try discriminate E; constructor.
    + discriminate E.
    + destruct y as [t|t| |t m2 e2 H2]; try (destruct s; try destruct t; discriminate E); try discriminate E.
      assert (R : B2R (Bopp (B754_finite s m e H)) = B2R (B754_finite t m2 e2 H2)).
      { unfold Beqb in E. generalize (Bcompare_correct prec emax (Bopp (B754_finite s m e H)) (B754_finite t m2 e2 H2) eq_refl eq_refl).
        unfold Bcompare. unfold SpecFloat.SFeqb in E. destruct (SpecFloat.SFcompare _ _) as [[]|]; try discriminate E.
        intros [= Q]. symmetry in Q. now apply Rcompare_Eq_inv in Q. }
      apply of_val; [reflexivity..|]. rewrite <- R. apply B2R_Bopp.
Qed.
End Inv.

(** the relation on doubles *)
Notation inv32 := (inv 24 128).
Notation inv64 := (inv 53 1024).

Lemma inv_t2d a a' : inv32 a a' -> inv64 (f32_to_f64 a) (f32_to_f64 a').
Proof.
  intros [s s'|s| |s m e H H']; cbn [f32_to_f64]; try constructor.
  apply (inv_norm 53 1024 p64 e64); now destruct s.
Qed.
Lemma inv_d2t a a' : inv64 a a' -> inv32 (f64_to_f32 a) (f64_to_f32 a').
Proof.
  intros [s s'|s| |s m e H H']; cbn [f64_to_f32]; try constructor.
  apply (inv_norm 24 128 p32 e32); now destruct s.
Qed.

Lemma inv_preserved lm : Preserved (B32 lm) inv32 inv64.
Proof.
  constructor; cbn.
  - constructor.
  - intros; now apply inv_plus.
  - intros; now apply inv_minus.
  - intros; now apply inv_mult_r.
  - intros; now apply inv_mult_l.
  - intros; now apply inv_div.
  - intros. unfold f32_quo. destruct (lm_recip lm s); [now apply inv_mult_r|now apply inv_div].
  - intros; now apply inv_opp.
  - intros; now apply inv_fma_r.
  - intros; now apply inv_fma_l.
  - intros. unfold f32_xfma. destruct (lm_fused lm); [now apply inv_fma_l|]. apply inv_plus; [now apply inv_mult_l|assumption].
  - intros. unfold f32_xfms. destruct (lm_fused lm); [apply inv_fma_l; [assumption|now apply inv_opp]|].
    apply inv_minus; [now apply inv_mult_l|assumption].
  - intros; now apply inv_t2d.
  - intros; now apply inv_d2t.
  - intros; now apply inv_minus.
  - intros; now apply inv_opp.
  - intros; now apply inv_mult_r.
  - intros; now apply inv_mult_l.
  - intros; now apply inv_div.
  - intros; now apply inv_fma_r.
  - intros; now apply inv_fma_l.
Qed.
