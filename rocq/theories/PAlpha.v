(** * PAlpha: the rounded position of a boundary inside a step *)
From Coq Require Import ZArith List Bool Reals Lia Lra.
From Flocq Require Import Core Sterbenz IEEE754.BinarySingleNaN.
From Verif Require Import Num Maths Wavetable Osc Spec B32 NumFacts Laws B32Facts B32Laws SpecF SpecO SpecW OscFacts PWork.
From Coquelicot Require Import Coquelicot.
From Verif Require Import PApx.
Import ListNotations.
Local Open Scope R_scope.

Lemma eps_bpow : eps = bpow radix2 (-24).
Proof. unfold eps. change (-24)%Z with (- (24))%Z. rewrite (bpow_opp radix2 24). reflexivity. Qed.
Lemma eps_half : 0.5 * eps = bpow radix2 (-25).
Proof.
  rewrite eps_bpow. change (-25)%Z with (-1 + -24)%Z. rewrite bpow_plus. change (bpow radix2 (-1)) with (/ 2). lra.
Qed.

(** rounding a number below a power of two *)
Lemma rnd_below x e : (-124 <= e)%Z -> Rabs x < bpow radix2 e -> Rabs (rnd32 x - x) <= bpow radix2 (e - 25).
Proof.
  intros He Hx. destruct (Req_dec x 0) as [->|Nx].
  { rewrite round_0 by auto with typeclass_instances. rewrite Rminus_0_r, Rabs_R0. apply bpow_ge_0. }
  apply Rle_trans with (/ 2 * ulp radix2 (FLT_exp (-149) 24) x).
  { apply error_le_half_ulp; auto with typeclass_instances. }
  rewrite ulp_neq_0 by assumption. unfold cexp, FLT_exp.
  assert (M : (mag radix2 x <= e)%Z) by (now apply mag_le_bpow).
  change (/ 2) with (bpow radix2 (-1)). rewrite <- bpow_plus. apply bpow_le. lia.
Qed.

Lemma rnd_ord x y : x <= y -> rnd32 x <= rnd32 y.
Proof. intros. apply round_le; auto with typeclass_instances. Qed.
Lemma rnd_opp x : rnd32 (- x) = - rnd32 x.
Proof. apply round_NE_opp. Qed.

(** a rounded number in [1/2, 1) is a multiple of 2^-24 *)
Lemma grid_below r : fmt32 r -> / 2 <= Rabs r < 1 -> Rabs r <= 1 - eps.
Proof.
  intros F [H1 H2].
  assert (E : pred radix2 (FLT_exp (-149) 24) (bpow radix2 0) = 1 - bpow radix2 (-24)) by (rewrite pred_bpow; reflexivity).
  rewrite eps_bpow, <- E. apply pred_ge_gt; auto with typeclass_instances.
  - now apply generic_format_abs.
  - apply fmt32_bpow; lia.
Qed.

Section Core.
Variables (x n d pd : R).
Hypothesis Hx : 0 <= x <= 2.
Hypothesis Hn : 0 <= n <= d.
Hypothesis Hd : 0 < d <= 0.5.
Hypothesis Hxn : Rabs (x - n) <= eps.
Hypothesis Hpd : 0 < pd.
Hypothesis Hdd : Rabs (pd - d) <= 0.5 * eps.
Hypothesis Hr : rnd32 x <= 2.6 * pd.

Lemma quot_range : 0 <= rnd32 x / pd <= 2.6 /\ 0 <= rnd32 x.
Proof.
  assert (X0 : 0 <= rnd32 x) by (apply rnd32_ge; [apply (fmt32_Z 0); lia|lra]).
  set (y := rnd32 x) in *. set (v := y / pd).
  assert (Vy : v * pd = y) by (unfold v; field; lra).
  assert (V0 : 0 <= v) by (unfold v, Rdiv; apply Rmult_le_pos; [lra|left; now apply Rinv_0_lt_compat]).
  split; [split; [exact V0|nra]|exact X0].
Qed.

(** any result [al] within two roundings of the quotient is good enough *)
Lemma alpha_core al : 0 <= al -> Rabs (al - rnd32 x / pd) <= 2.02 * eps * (rnd32 x / pd) + 2 * tau ->
  al <= 3 /\ Rabs ((al - n / d) * d) <= 4 * eps.
Proof.
  intros A0 Ea. destruct quot_range as [[V0 V1] X0].
  set (y := rnd32 x) in *. set (v := y / pd) in *.
  assert (Vy : v * pd = y) by (unfold v; field; lra).
  assert (Ex := rnd_err x). fold y in Ex. rewrite (Rabs_pos_eq x) in Ex by lra.
  apply Rabs_le_inv in Ea, Ex. assert (Hxn' := Rabs_le_inv _ _ Hxn). assert (Hdd' := Rabs_le_inv _ _ Hdd).
  assert (T := tau_small). assert (T0 := tau_pos).
  assert (A26 : al <= 2.61) by (unfold eps in *; lra).
  split; [lra|].
  assert (E : (al - n / d) * d = al * (d - pd) + (al - v) * pd + (y - n)) by (unfold v; field; lra).
  rewrite E.
  assert (Q1 : (2.02 * eps * v + 2 * tau) * pd = 2.02 * eps * y + 2 * tau * pd) by (rewrite <- Vy; ring).
  assert (P2 : - ((2.02 * eps * v + 2 * tau) * pd) <= (al - v) * pd <= (2.02 * eps * v + 2 * tau) * pd) by (split; nra).
  assert (pd <= 0.6) by (unfold eps in *; lra).
  assert (tau * pd <= tau) by nra.
  assert (Hx5 : x <= 0.6) by (unfold eps in *; lra).
  assert (eps * x <= 0.6 * eps) by (unfold eps in *; lra).
  assert (eps * y <= 0.61 * eps) by (unfold eps in *; lra).
  assert (Pm : forall c, al <= c -> - (c * (0.5 * eps)) <= al * (d - pd) <= c * (0.5 * eps)).
  { intros c Hc. apply Rabs_le_inv. rewrite Rabs_mult, (Rabs_pos_eq al), (Rabs_minus_sym d) by exact A0.
    apply Rmult_le_compat; [exact A0|apply Rabs_pos|exact Hc|exact Hdd]. }
  destruct (Rle_dec pd 0.01) as [Sm|La].
  - assert (P1 : - (2.61 * (0.5 * eps)) <= al * (d - pd) <= 2.61 * (0.5 * eps)) by (apply Pm; lra).
    assert (y <= 0.026) by (rewrite <- Vy; apply Rle_trans with (2.6 * 0.01); [apply Rmult_le_compat; lra|lra]). assert (eps * y <= 0.026 * eps) by (unfold eps in *; lra).
    apply Rabs_le. unfold eps in *. lra.
  - apply Rnot_le_lt in La.
    assert (V2 : v <= 1.001).
    { apply Rmult_le_reg_r with pd; [lra|]. rewrite Vy. unfold eps in *. lra. }
    assert (A1 : al <= 1.01) by (unfold eps in *; lra).
    assert (P1 : - (1.01 * (0.5 * eps)) <= al * (d - pd) <= 1.01 * (0.5 * eps)) by (apply Pm; lra).
    apply Rabs_le. unfold eps in *. lra.
Qed.
End Core.

Section Float.
Variable lm : Libm.
Notation N := (B32 lm).

(** the position, as the code computes it, when step and numerator point the same way (sg = 1 or -1) *)
Lemma alpha_near s (sg : R) (bar t pd : f32) (n d : R) : (sg = 1 \/ sg = -1) ->
  fin32 bar = true -> fin32 t = true -> fin32 pd = true ->
  0 <= sg * (v32 bar - v32 t) <= 2 -> 0 <= sg * n <= sg * d -> 0 < sg * d <= 0.5 ->
  Rabs (v32 bar - v32 t - n) <= eps -> / IZR (2 ^ 126) <= sg * v32 pd -> Rabs (v32 pd - d) <= 0.5 * eps ->
  sg * rnd32 (v32 bar - v32 t) <= 2.6 * (sg * v32 pd) ->
  fin32 (tquo N s (tsub N bar t) pd) = true /\ 0 <= v32 (tquo N s (tsub N bar t) pd) <= 3 /\
  0 <= n / d /\ Rabs ((v32 (tquo N s (tsub N bar t) pd) - n / d) * d) <= 4 * eps.
Proof.
  intros Hs Fb Ft Fp Hx Hn Hd Hxn Hp Hdd Hr.
  assert (P126 : 0 < / IZR (2 ^ 126)) by (apply Rinv_0_lt_compat, IZR_lt; reflexivity).
  assert (G : Rabs (v32 bar - v32 t) <= 2) by (apply Rabs_le; destruct Hs as [-> | ->]; lra).
  destruct (sub32 bar t Fb Ft) as (A1 & A2 & _).
  { apply small32_of_le with 1%Z; [lia|exact G]. }
  change (tsub N bar t) with (@Bminus 24 128 p32 e32 mode_NE bar t).
  set (y := @Bminus 24 128 p32 e32 mode_NE bar t) in *.
  assert (Q : forall a b, b <> 0 -> - a / - b = a / b) by (intros; field; auto).
  assert (Dv : forall a b, 0 <= a -> 0 < b -> 0 <= a / b).
  { intros a b Ha Hb. unfold Rdiv. apply Rmult_le_pos; [lra|left; now apply Rinv_0_lt_compat]. }
  assert (Core : 0 <= v32 y / v32 pd <= 2.6 /\ 0 <= n / d /\
    forall al, 0 <= al -> Rabs (al - v32 y / v32 pd) <= 2.02 * eps * (v32 y / v32 pd) + 2 * tau ->
      al <= 3 /\ Rabs ((al - n / d) * d) <= 4 * eps).
  { rewrite A2. destruct Hs as [-> | ->]; rewrite ?Rmult_1_l in *.
    - destruct (quot_range (v32 bar - v32 t) (v32 pd) Hx ltac:(lra) Hr) as [R1 _].
      split; [exact R1|]. split; [apply Dv; lra|].
      intros al. apply (alpha_core (v32 bar - v32 t) n d (v32 pd)); auto; lra.
    - assert (Hm : forall a, -1 * a = - a) by (intros; ring). rewrite !Hm in *.
      destruct (quot_range (- (v32 bar - v32 t)) (- v32 pd) ltac:(lra) ltac:(lra)) as [R1 _]; [rewrite rnd_opp; lra|].
      rewrite rnd_opp, Q in R1 by lra. split; [exact R1|]. split; [rewrite <- Q by lra; apply Dv; lra|].
      intros al A0 Ea.
      destruct (alpha_core (- (v32 bar - v32 t)) (- n) (- d) (- v32 pd)) with (al := al) as [H1 H2]; rewrite ?rnd_opp, ?Q; auto; try lra.
      + rewrite <- Rabs_Ropp. replace (- (- (v32 bar - v32 t) - - n)) with (v32 bar - v32 t - n) by ring. exact Hxn.
      + rewrite <- Rabs_Ropp. replace (- (- v32 pd - - d)) with (v32 pd - d) by ring. exact Hdd.
      + split; [exact H1|]. rewrite Q in H2 by lra. rewrite <- Rabs_Ropp.
        replace (- ((al - n / d) * d)) with ((al - n / d) * - d) by ring. exact H2. }
  destruct Core as (C1 & C2 & C3).
  destruct (quo_err lm s y pd A1 Fp) as (B1 & B3 & B2).
  { apply Rabs_le_inv in Hdd. destruct Hs as [-> | ->]; [rewrite Rabs_pos_eq by lra|rewrite Rabs_left by lra]; unfold eps in *; lra. }
  { rewrite Rabs_pos_eq by lra. apply Rle_trans with 3; [lra|]. unfold Big. apply IZR_le. vm_compute. discriminate. }
  specialize (B2 (proj1 C1)). rewrite (Rabs_pos_eq (v32 y / v32 pd)) in B3 by lra.
  destruct (C3 _ B2 B3) as [C4 C5]. auto.
Qed.

(** ** The rounded step *)
Lemma step_value dir (q p : f32) : phase01 q -> phase01 p ->
  let pd := v32 (step32 lm dir q p) in
  let r := rnd32 (v32 p - v32 q) in
  fin32 (step32 lm dir q p) = true /\
  (Rabs pd < / 2 ->
   (pd = r /\ - / 2 <= r <= / 2) \/ (r < - / 2 /\ pd = r + 1) \/ (/ 2 < r /\ pd = r - 1)).
Proof.
  intros [Fq Hq] [Fp Hp] pd r.
  destruct dir.
  - destruct (b_fwd lm p q Fp Fq Hp Hq) as [A _]. split; [exact A|].
    unfold pd. cbn [step32]. unfold stepFwd.
    destruct (subp32 p q Fp Fq) as [A1 A2]; [lra|lra|].
    change (tsub N p q) with (@Bminus 24 128 p32 e32 mode_NE p q).
    set (d := @Bminus 24 128 p32 e32 mode_NE p q) in *. cbv zeta. cbn [tlt B32].
    destruct (ofZ32 0 ltac:(lia)) as [Z1 Z2]. destruct (ofZ32 1 ltac:(lia)) as [O1 O2].
    rewrite (Bltb_correct _ _ d (t0 N)) by assumption.
    change (B2R d) with (v32 d). change (B2R (t0 N)) with (v32 (f32_ofZ 0)). rewrite Z2, A2. fold r.
    assert (Hb := phase_diff_bound p q Fp Fq Hp Hq). fold r in Hb.
    destruct (Rlt_bool_spec r 0) as [Hr|Hr]; intros Ha.
    + change (tadd N d (t1 N)) with (@Bplus 24 128 p32 e32 mode_NE d (f32_ofZ 1)) in *.
      destruct (add32 d (f32_ofZ 1) A1 O1) as [C1 C2]; [rewrite O2; apply small32_1; rewrite A2; fold r; lra|].
      rewrite C2, A2, O2 in *. fold r in Ha |- *. apply Rabs_def2 in Ha.
      assert (Hr2 : r < - / 2).
      { destruct (Rlt_le_dec r (- / 2)); [assumption|exfalso].
        assert (/ 2 <= rnd32 (r + 1)); [|lra]. apply rnd32_ge; [change (/2) with (bpow radix2 (-1)); apply fmt32_bpow; lia|lra]. }
      right. left. split; [exact Hr2|]. apply rnd32_id. replace (r + 1) with (1 - (- r)) by ring.
      apply sterbenz; auto with typeclass_instances.
      * apply (fmt32_Z 1); lia.
      * apply generic_format_opp, generic_format_round; auto with typeclass_instances.
      * lra.
    + rewrite A2 in *. fold r in Ha |- *. apply Rabs_def2 in Ha. left. split; [reflexivity|lra].
  - destruct (b_bi lm p q Fp Fq Hp Hq) as (A & B & _ & V). cbv zeta in V. fold r in V.
    split; [exact A|]. intros _. unfold pd. cbn [step32]. rewrite V.
    destruct (Rlt_bool_spec r (-/2)) as [H1|H1]; [right; left; auto|].
    destruct (Rlt_bool_spec (/2) r) as [H2|H2]; [right; right; auto|]. left. split; [reflexivity|lra].
Qed.

(** step and true displacement *)
Lemma step_near dir (q p : f32) : phase01 q -> phase01 p ->
  let pd := v32 (step32 lm dir q p) in
  pd <> 0 -> Rabs pd < / 2 ->
  exists k, let d := v32 p - v32 q + IZR k in
    d <> 0 /\ Rabs d < / 2 /\ Rabs (pd - d) <= 0.5 * eps /\
    (0 < pd -> 0 < d /\ (k = 0%Z \/ k = 1%Z)) /\ (pd < 0 -> d < 0 /\ (k = 0%Z \/ k = (-1)%Z)) /\
    (k = 0%Z -> pd = rnd32 d) /\ (k <> 0%Z -> eps <= Rabs pd).
Proof.
  intros Hq Hp pd Hne Hh. assert (Hh' := Rabs_def2 _ _ Hh).
  destruct (true_step lm dir q p 1 Hq Hp ltac:(lia)) as [TF TB].
  { change (B2R (step32 lm dir q p)) with pd. replace (/ IZR (2 ^ 1)) with (/ 2) by (f_equal). exact Hh. }
  replace (/ IZR (2 ^ 1)) with (/ 2) in TF, TB by (f_equal).
  change (B2R (step32 lm dir q p)) with pd in TF, TB.
  change (B2R p) with (v32 p) in *. change (B2R q) with (v32 q) in *.
  destruct (step_value dir q p Hq Hp) as [_ V]. fold pd in V. specialize (V Hh).
  set (r := rnd32 (v32 p - v32 q)) in *.
  destruct Hq as [Fq Hq]. destruct Hp as [Fp Hp]. change (B2R p) with (v32 p) in *. change (B2R q) with (v32 q) in *.
  assert (F0 : fmt32 0) by (apply (fmt32_Z 0); lia).
  assert (Z0 : r = 0 -> v32 p = v32 q) by (apply rnd32_0; apply fmt32_B2R).
  assert (Z1 : v32 p = v32 q -> r = 0).
  { intros E. unfold r. rewrite E, Rminus_diag_eq by reflexivity. apply round_0. auto with typeclass_instances. }
  assert (S1 : 0 < r -> 0 < v32 p - v32 q).
  { intros H. destruct (Rlt_le_dec 0 (v32 p - v32 q)); [assumption|]. assert (r <= 0) by (apply rnd32_le; auto). lra. }
  assert (S2 : r < 0 -> v32 p - v32 q < 0).
  { intros H. destruct (Rlt_le_dec (v32 p - v32 q) 0); [assumption|]. assert (0 <= r) by (apply rnd32_ge; auto). lra. }
  assert (Hb := phase_diff_bound p q Fp Fq Hp Hq). fold r in Hb.
  assert (Fr : fmt32 r) by (apply generic_format_round; auto with typeclass_instances).
  assert (Hpq : Rabs (v32 p - v32 q) < 1) by (apply Rabs_def1; lra).
  assert (W := rnd_below (v32 p - v32 q) 0 ltac:(lia) Hpq). fold r in W. change (0 - 25)%Z with (-25)%Z in W. rewrite <- eps_half in W.
  destruct V as [(V & Hr)|[(Hr & V)|(Hr & V)]].
  - (* no wrap *)
    exists 0%Z. cbv zeta. rewrite Rplus_0_r.
    assert (D : v32 p - v32 q <> 0).
    { intros E. assert (v32 p = v32 q) by lra. specialize (Z1 H). lra. }
    assert (DB : Rabs (v32 p - v32 q) < / 2).
    { apply Rabs_def1; destruct (Rle_lt_dec 0 pd) as [H|H];
      try (destruct (TF H) as (k & [-> | ->] & T); [lra|]; exfalso; assert (H0 : 0 < r) by lra; specialize (S1 H0); lra);
      try (destruct (TB H) as (k & [-> | ->] & T); [lra|]; exfalso; assert (H0 : r < 0) by lra; specialize (S2 H0); lra). }
    split; [exact D|]. split; [exact DB|]. split; [rewrite V; exact W|].
    split; [intros H; split; [apply S1; lra|now left]|]. split; [intros H; split; [apply S2; lra|now left]|].
    split; [intros _; exact V|]. intros H. now elim H.
  - exists 1%Z. cbv zeta.
    assert (Hpd : 0 < pd) by lra.
    destruct (TF ltac:(lra)) as (k & Hk & T).
    assert (k = 1%Z). { destruct Hk as [-> | ->]; [|reflexivity]. specialize (S2 ltac:(lra)). lra. } subst k.
    assert (G := grid_below r Fr ltac:(rewrite Rabs_left by lra; lra)). rewrite Rabs_left in G by lra.
    apply Rabs_le_inv in W.
    assert (Hpe : eps <= pd) by lra.
    split; [lra|]. split; [apply Rabs_def1; lra|]. split; [apply Rabs_le; rewrite V; lra|].
    split; [intros _; split; [lra|now right]|]. split; [lra|]. split; [discriminate|]. intros _. rewrite Rabs_pos_eq; lra.
  - exists (-1)%Z. cbv zeta.
    assert (Hpd : pd < 0) by lra.
    destruct (TB ltac:(lra)) as (k & Hk & T).
    assert (k = 1%Z). { destruct Hk as [-> | ->]; [|reflexivity]. specialize (S1 ltac:(lra)). lra. } subst k.
    assert (G := grid_below r Fr ltac:(rewrite Rabs_pos_eq by lra; lra)). rewrite Rabs_pos_eq in G by lra.
    apply Rabs_le_inv in W.
    assert (Hpe : eps <= - pd) by lra.
    split; [unfold eps in *; lra|]. split; [apply Rabs_def1; lra|]. split; [apply Rabs_le; rewrite V; lra|].
    split; [lra|]. split; [intros _; split; [unfold eps in *; lra|now right]|]. split; [discriminate|]. intros _. rewrite Rabs_left; lra.
Qed.

(** ** Plain phases lie on a grid of width 2^-123, so their steps are not subnormal *)
Lemma plain_grid (p : f32) : plainPhase p -> exists m : Z, v32 p = IZR m * bpow radix2 (-123).
Proof.
  intros [_ [H|H]]; change (B2R p) with (v32 p) in H.
  - exists 0%Z. rewrite H. ring.
  - assert (F := fmt32_B2R p).
    set (c := cexp radix2 (FLT_exp (-149) 24) (v32 p)) in *.
    assert (H100 : bpow radix2 (-100) <= Rabs (v32 p)).
    { change (-100)%Z with (- (100))%Z. rewrite bpow_opp, bpow_Z by lia. assert (A := Rle_abs (v32 p)). lra. }
    assert (Hc : (-123 <= c)%Z).
    { unfold c, cexp, FLT_exp. assert (-99 <= mag radix2 (v32 p))%Z by (apply mag_ge_bpow; exact H100). lia. }
    exists (Ztrunc (scaled_mantissa radix2 (FLT_exp (-149) 24) (v32 p)) * 2 ^ (c + 123))%Z.
    rewrite mult_IZR, <- bpow_Z by lia. rewrite Rmult_assoc, <- bpow_plus.
    replace (c + 123 + -123)%Z with c by lia. exact F.
Qed.

Lemma plain_step dir (q p : f32) : plainPhase q -> plainPhase p ->
  v32 (step32 lm dir q p) <> 0 -> Rabs (v32 (step32 lm dir q p)) < / 2 ->
  / IZR (2 ^ 126) <= Rabs (v32 (step32 lm dir q p)).
Proof.
  intros Hq Hp Hne Hh. set (pd := v32 (step32 lm dir q p)) in *.
  destruct (step_near dir q p (proj1 Hq) (proj1 Hp) Hne Hh) as (k & D0 & _ & _ & _ & _ & D4 & D5). fold pd in D4, D5.
  assert (B126 : / IZR (2 ^ 126) = bpow radix2 (-126)) by (symmetry; apply bpow_126).
  destruct (Z.eq_dec k 0) as [K0|K0].
  - rewrite (D4 K0). apply b_far. rewrite K0, Rplus_0_r in *.
    destruct (plain_grid q Hq) as [a Ha]. destruct (plain_grid p Hp) as [b Hb].
    rewrite Ha, Hb in D0 |- *. rewrite <- Rmult_minus_distr_r, <- minus_IZR in D0 |- *.
    rewrite Rabs_mult, (Rabs_pos_eq (bpow radix2 (-123))) by apply bpow_ge_0.
    assert (N : (b - a <> 0)%Z) by (intros E; apply D0; rewrite E; ring).
    assert (A1 : 1 <= Rabs (IZR (b - a))) by (rewrite <- abs_IZR; apply IZR_le; lia).
    assert (P := bpow_gt_0 radix2 (-123)). rewrite B126.
    apply Rle_trans with (bpow radix2 (-123)); [apply bpow_le; lia|].
    rewrite <- (Rmult_1_l (bpow radix2 (-123))) at 1. apply Rmult_le_compat_r; lra.
  - apply Rle_trans with eps; [|exact (D5 K0)]. rewrite eps_bpow, B126. apply bpow_le. lia.
Qed.
End Float.
