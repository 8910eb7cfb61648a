(** * PApx: rounding-error calculus for binary32 reals and complex numbers *)
From Coq Require Import ZArith List Bool Reals Lia Lra.
From Flocq Require Import Core Relative IEEE754.BinarySingleNaN.
From Verif Require Import Num B32 B32Facts.
From Coquelicot Require Import Coquelicot.
Local Open Scope R_scope.

Definition eps : R := / 16777216.
Definition tau : R := bpow radix2 (-149).
Definition Big : R := IZR (2 ^ 100).

Lemma tau_pos : 0 < tau. Proof. apply bpow_gt_0. Qed.
Lemma eps_val : eps = / 16777216. Proof. reflexivity. Qed.
Lemma tau_small : tau <= / 1000000000000000000000000000000000000000.
Proof.
  unfold tau. apply Rle_trans with (bpow radix2 (-140)); [apply bpow_le; lia|].
  change (bpow radix2 (-140)) with (/ IZR (2 ^ 140)). apply Rinv_le; [lra|].
  apply IZR_le. vm_compute. discriminate.
Qed.

Lemma rnd_err x : Rabs (rnd32 x - x) <= eps * Rabs x + tau.
Proof.
  assert (T0 := tau_pos). destruct (Rlt_or_le (Rabs x) (bpow radix2 (-149 + 24 - 1))) as [H|H].
  - assert (E : Rabs (rnd32 x - x) <= / 2 * ulp radix2 (FLT_exp (-149) 24) x).
    { apply error_le_half_ulp; auto with typeclass_instances. }
    assert (H' : Rabs x < bpow radix2 (-149 + 24)) by (eapply Rlt_le_trans; [exact H|apply bpow_le; lia]).
    rewrite (ulp_FLT_small radix2 (-149) 24 x H') in E.
    fold tau in E. assert (0 <= Rabs x) by apply Rabs_pos. unfold eps. lra.
  - assert (E := relative_error_N_FLT radix2 (-149) 24 p32' (fun x => negb (Z.even x)) x H).
    change (/ 2 * bpow radix2 (-(24) + 1)) with (/ 2 * / IZR (2 ^ 23)) in E.
    replace (/ 2 * / IZR (2 ^ 23)) with eps in E; [lra|].
    unfold eps. change (2 ^ 23)%Z with 8388608%Z. field.
Qed.

Lemma big_small x : Rabs x <= Big -> small32 x.
Proof.
  intros H. unfold small32. apply Rle_trans with (1 := H). unfold Big.
  rewrite <- (IZR_Zpower radix2) by lia. apply IZR_le. vm_compute. discriminate.
Qed.

Definition near (x : f32) (X e : R) : Prop := fin32 x = true /\ Rabs (v32 x - X) <= e.

Lemma near_le x X e e' : near x X e -> e <= e' -> near x X e'.
Proof. intros [A B] H. split; [exact A|lra]. Qed.
Lemma near_exact x : fin32 x = true -> near x (v32 x) 0.
Proof. intros H. split; [exact H|]. rewrite Rminus_diag_eq, Rabs_R0 by reflexivity. lra. Qed.
Lemma near_e0 x X e : near x X e -> 0 <= e.
Proof. intros [_ H]. eapply Rle_trans; [apply Rabs_pos|exact H]. Qed.

Lemma near_abs x X B e : near x X e -> Rabs X <= B -> Rabs (v32 x) <= B + e.
Proof.
  intros [_ H] HB. apply Rabs_le_inv in H. apply Rabs_le_inv in HB. apply Rabs_le. lra.
Qed.

Lemma rnd_near (v V e B : R) : Rabs (v - V) <= e -> Rabs V <= B ->
  Rabs (rnd32 v - V) <= e + eps * (B + e) + tau.
Proof.
  intros H HB. assert (E := rnd_err v).
  assert (Hv : Rabs v <= B + e) by (apply Rabs_le_inv in H; apply Rabs_le_inv in HB; apply Rabs_le; lra).
  assert (eps * Rabs v <= eps * (B + e)) by (apply Rmult_le_compat_l; [unfold eps; lra|exact Hv]).
  replace (rnd32 v - V) with ((rnd32 v - v) + (v - V)) by ring.
  eapply Rle_trans; [apply Rabs_triang|]. lra.
Qed.

Lemma near_add x y X Y ex ey B : near x X ex -> near y Y ey -> Rabs (X + Y) <= B -> B + ex + ey <= Big ->
  near (@Bplus 24 128 p32 e32 mode_NE x y) (X + Y) (ex + ey + eps * (B + ex + ey) + tau).
Proof.
  intros [Fx Hx] [Fy Hy] HB Hs.
  assert (H : Rabs (v32 x + v32 y - (X + Y)) <= ex + ey).
  { replace (v32 x + v32 y - (X + Y)) with ((v32 x - X) + (v32 y - Y)) by ring.
    eapply Rle_trans; [apply Rabs_triang|]. lra. }
  destruct (add32 x y Fx Fy) as [F V].
  { apply big_small. apply Rabs_le_inv in H. apply Rabs_le_inv in HB. apply Rabs_le. lra. }
  split; [exact F|]. rewrite V. eapply Rle_trans; [apply (rnd_near _ _ _ B H HB)|]. lra.
Qed.
Lemma near_sub x y X Y ex ey B : near x X ex -> near y Y ey -> Rabs (X - Y) <= B -> B + ex + ey <= Big ->
  near (@Bminus 24 128 p32 e32 mode_NE x y) (X - Y) (ex + ey + eps * (B + ex + ey) + tau).
Proof.
  intros [Fx Hx] [Fy Hy] HB Hs.
  assert (H : Rabs (v32 x - v32 y - (X - Y)) <= ex + ey).
  { replace (v32 x - v32 y - (X - Y)) with ((v32 x - X) + - (v32 y - Y)) by ring.
    eapply Rle_trans; [apply Rabs_triang|]. rewrite Rabs_Ropp. lra. }
  destruct (sub32 x y Fx Fy) as (F & V & _).
  { apply big_small. apply Rabs_le_inv in H. apply Rabs_le_inv in HB. apply Rabs_le. lra. }
  split; [exact F|]. rewrite V. eapply Rle_trans; [apply (rnd_near _ _ _ B H HB)|]. lra.
Qed.

Lemma prod_err (x y X Y ex ey Bx By : R) : Rabs (x - X) <= ex -> Rabs (y - Y) <= ey ->
  Rabs X <= Bx -> Rabs Y <= By ->
  Rabs (x * y - X * Y) <= Bx * ey + By * ex + ex * ey.
Proof.
  intros Hx Hy HX HY.
  replace (x * y - X * Y) with (X * (y - Y) + (x - X) * Y + (x - X) * (y - Y)) by ring.
  assert (A := Rabs_pos (x - X)). assert (B := Rabs_pos (y - Y)).
  assert (C := Rabs_pos X). assert (D := Rabs_pos Y).
  eapply Rle_trans; [apply Rabs_triang|]. eapply Rle_trans; [apply Rplus_le_compat_r, Rabs_triang|].
  rewrite !Rabs_mult.
  assert (Rabs X * Rabs (y - Y) <= Bx * ey) by (apply Rmult_le_compat; lra).
  assert (Rabs (x - X) * Rabs Y <= ex * By) by (apply Rmult_le_compat; lra).
  assert (Rabs (x - X) * Rabs (y - Y) <= ex * ey) by (apply Rmult_le_compat; lra). lra.
Qed.

Lemma near_mul x y X Y ex ey Bx By : near x X ex -> near y Y ey -> Rabs X <= Bx -> Rabs Y <= By ->
  (Bx + ex) * (By + ey) <= Big ->
  near (@Bmult 24 128 p32 e32 mode_NE x y) (X * Y) (Bx * ey + By * ex + ex * ey + eps * ((Bx + ex) * (By + ey)) + tau).
Proof.
  intros Nx Ny HX HY Hs. assert (Ax := near_abs _ _ _ _ Nx HX). assert (Ay := near_abs _ _ _ _ Ny HY).
  destruct Nx as [Fx Hx], Ny as [Fy Hy].
  assert (P := prod_err _ _ _ _ _ _ _ _ Hx Hy HX HY).
  assert (Q : Rabs (v32 x * v32 y) <= (Bx + ex) * (By + ey)).
  { rewrite Rabs_mult. apply Rmult_le_compat; try apply Rabs_pos; assumption. }
  destruct (mul32 x y Fx Fy) as [F V]. { apply big_small. lra. }
  split; [exact F|]. rewrite V. assert (E := rnd_err (v32 x * v32 y)).
  assert (eps * Rabs (v32 x * v32 y) <= eps * ((Bx + ex) * (By + ey))) by (apply Rmult_le_compat_l; [unfold eps; lra|exact Q]).
  replace (rnd32 (v32 x * v32 y) - X * Y) with ((rnd32 (v32 x * v32 y) - v32 x * v32 y) + (v32 x * v32 y - X * Y)) by ring.
  eapply Rle_trans; [apply Rabs_triang|]. lra.
Qed.

(** ** Complex *)
Definition cv (x : f32 * f32) : C := (v32 (fst x), v32 (snd x)).
Definition cfin (x : f32 * f32) : Prop := fin32 (fst x) = true /\ fin32 (snd x) = true.
Definition cnear (x : f32 * f32) (X : C) (e : R) : Prop := cfin x /\ Cmod (cv x - X)%C <= e.

Lemma cnear_le x X e e' : cnear x X e -> e <= e' -> cnear x X e'.
Proof. intros [A B] H. split; [exact A|lra]. Qed.
Lemma cnear_exact x : cfin x -> cnear x (cv x) 0.
Proof.
  intros H. split; [exact H|]. replace (cv x - cv x)%C with (RtoC 0) by ring. rewrite Cmod_0. lra.
Qed.
Lemma cnear_e0 x X e : cnear x X e -> 0 <= e.
Proof. intros [_ H]. eapply Rle_trans; [apply Cmod_ge_0|exact H]. Qed.
Lemma cnear_mod x X B e : cnear x X e -> Cmod X <= B -> Cmod (cv x) <= B + e.
Proof.
  intros [_ H] HB. replace (cv x) with (X + (cv x - X))%C by ring.
  eapply Rle_trans; [apply Cmod_triangle|]. lra.
Qed.

Lemma cmod_fst (z : C) : Rabs (fst z) <= Cmod z.
Proof. eapply Rle_trans; [|apply Rmax_Cmod]. apply Rmax_l. Qed.
Lemma cmod_snd (z : C) : Rabs (snd z) <= Cmod z.
Proof. eapply Rle_trans; [|apply Rmax_Cmod]. apply Rmax_r. Qed.
Lemma sqrt2_bound : sqrt 2 <= 1.4143.
Proof.
  replace 1.4143 with (sqrt (1.4143 * 1.4143)) by (apply sqrt_square; lra). apply sqrt_le_1; lra.
Qed.
Lemma cmod_max (a b m : R) : Rabs a <= m -> Rabs b <= m -> Cmod (a, b) <= 1.4143 * m.
Proof.
  intros Ha Hb. eapply Rle_trans; [apply Cmod_2Rmax|]. cbn [fst snd].
  assert (M : Rmax (Rabs a) (Rabs b) <= m) by (now apply Rmax_lub).
  assert (0 <= Rmax (Rabs a) (Rabs b)) by (eapply Rle_trans; [apply Rabs_pos|apply Rmax_l]).
  assert (S := sqrt2_bound). assert (0 <= sqrt 2) by apply sqrt_pos.
  apply Rmult_le_compat; assumption.
Qed.
(** a pair of errors, each at most k times a component plus t *)
Lemma cmod_comp (a b A B k t : R) : 0 <= k -> 0 <= t -> Rabs a <= k * Rabs A + t -> Rabs b <= k * Rabs B + t ->
  Cmod (a, b) <= k * Cmod (A, B) + 2 * t.
Proof.
  intros Hk Ht Ha Hb.
  assert (G : Cmod (a, b) <= Cmod (RtoC k * (Rabs A, Rabs B) + (t, t))%C).
  { unfold Cmod. apply sqrt_le_1_alt. unfold Cmult, Cplus, RtoC; cbn [fst snd].
    assert (P := Rabs_pos a). assert (Q := Rabs_pos b).
    replace (k * Rabs A - 0 * Rabs B + t) with (k * Rabs A + t) by ring.
    replace (k * Rabs B + 0 * Rabs A + t) with (k * Rabs B + t) by ring.
    rewrite (pow2_abs a), (pow2_abs b) || rewrite <- (pow2_abs a), <- (pow2_abs b).
    apply Rplus_le_compat; apply pow_incr; split; assumption. }
  eapply Rle_trans; [exact G|]. eapply Rle_trans; [apply Cmod_triangle|].
  rewrite Cmod_mult, Cmod_R, (Rabs_pos_eq k) by assumption.
  assert (E : Cmod (Rabs A, Rabs B) = Cmod (A, B)).
  { unfold Cmod; cbn [fst snd]. now rewrite !pow2_abs. }
  rewrite E. assert (M := cmod_max t t t). rewrite (Rabs_pos_eq t) in M by assumption.
  specialize (M (Rle_refl _) (Rle_refl _)). lra.
Qed.

Lemma crnd (a b : R) : Cmod (rnd32 a - a, rnd32 b - b) <= eps * Cmod (a, b) + 2 * tau.
Proof.
  apply cmod_comp; [unfold eps; lra|left; apply tau_pos| |]; apply rnd_err.
Qed.

(** rounding both components of a complex value known up to [e] *)
Lemma cround (a b : R) (V : C) e B : Cmod ((a, b) - V)%C <= e -> Cmod V <= B ->
  Cmod ((rnd32 a, rnd32 b) - V)%C <= e + eps * (B + e) + 2 * tau.
Proof.
  intros H HB. assert (R := crnd a b).
  assert (Hm : Cmod (a, b) <= B + e).
  { replace ((a, b) : C) with (V + ((a, b) - V))%C by ring. eapply Rle_trans; [apply Cmod_triangle|]. lra. }
  assert (eps * Cmod (a, b) <= eps * (B + e)) by (apply Rmult_le_compat_l; [unfold eps; lra|exact Hm]).
  replace ((rnd32 a, rnd32 b) - V)%C with (((rnd32 a - a)%R, (rnd32 b - b)%R) + ((a, b) - V))%C.
  - eapply Rle_trans; [apply Cmod_triangle|]. lra.
  - destruct V as [V1 V2]. unfold Cminus, Cplus, Copp; cbn [fst snd]. f_equal; ring.
Qed.

(** a product that is part of a sum: rounded, or not when the compiler contracts *)
Definition rp (b : bool) (u : R) : R := if b then u else rnd32 u.
Lemma rp_err b u : Rabs (rp b u - u) <= eps * Rabs u + tau.
Proof.
  destruct b; cbn [rp]; [|apply rnd_err].
  rewrite Rminus_eq_0, Rabs_R0. assert (T := tau_pos). assert (P := Rabs_pos u). unfold eps. lra.
Qed.
Lemma rp_opp b u : rp b (- u) = - rp b u.
Proof. destruct b; cbn [rp]; [reflexivity|apply round_NE_opp]. Qed.
Lemma rp_abs b u : Rabs (rp b u) <= Rabs u + (eps * Rabs u + tau).
Proof.
  assert (E := rp_err b u). replace (rp b u) with (u + (rp b u - u)) by ring.
  eapply Rle_trans; [apply Rabs_triang|]. lra.
Qed.
Lemma mul_comp b c (u v G : R) : Rabs u + Rabs v <= G ->
  Rabs (rnd32 (rp b u + rp c v) - (u + v)) <= (2 * eps + eps * eps) * G + 4 * tau.
Proof.
  intros H. assert (A := rp_err b u). assert (B := rp_err c v). assert (T0 := tau_pos).
  assert (D : Rabs (rp b u + rp c v - (u + v)) <= eps * G + 2 * tau).
  { replace (rp b u + rp c v - (u + v)) with ((rp b u - u) + (rp c v - v)) by ring.
    eapply Rle_trans; [apply Rabs_triang|].
    assert (eps * (Rabs u + Rabs v) <= eps * G) by (apply Rmult_le_compat_l; [unfold eps; lra|exact H]). lra. }
  eapply Rle_trans; [apply (rnd_near _ _ _ G D)|].
  - eapply Rle_trans; [apply Rabs_triang|]. exact H.
  - unfold eps in *. lra.
Qed.
Lemma mul_comp' b c (u v G : R) : Rabs u + Rabs v <= G ->
  Rabs (rnd32 (rp b u - rp c v) - (u - v)) <= (2 * eps + eps * eps) * G + 4 * tau.
Proof.
  intros H. replace (rp b u - rp c v) with (rp b u + rp c (- v)).
  - replace (u - v) with (u + - v) by ring. apply mul_comp. rewrite Rabs_Ropp. exact H.
  - rewrite rp_opp. ring.
Qed.
Lemma mul_size b c (u v G : R) : Rabs u + Rabs v <= G -> 2 * G <= Big -> small32 (rp b u + rp c v).
Proof.
  intros H HG. assert (A' := rp_abs b u). assert (B' := rp_abs c v). assert (T0 := tau_small).
  apply big_small. assert (P := Rabs_pos u). assert (Q := Rabs_pos v).
  eapply Rle_trans; [apply Rabs_triang|].
  destruct (Rle_or_lt G 1) as [H1|H1].
  - unfold eps, Big in *. assert (4 <= IZR (2 ^ 100)) by (apply IZR_le; vm_compute; discriminate). lra.
  - unfold eps in *. lra.
Qed.
Lemma opp32 (x : f32) : fin32 x = true -> fin32 (Bopp x) = true /\ v32 (Bopp x) = - v32 x.
Proof. intros H. split; [rewrite is_finite_Bopp; exact H|apply B2R_Bopp]. Qed.

Section Ops.
Variable lm : Libm.
Notation N := (B32 lm).

Lemma cnear_add x y X Y ex ey B : cnear x X ex -> cnear y Y ey -> Cmod (X + Y)%C <= B -> B + ex + ey <= Big ->
  cnear (cadd N x y) (X + Y)%C (ex + ey + eps * (B + ex + ey) + 2 * tau).
Proof.
  intros [[Fx1 Fx2] Hx] [[Fy1 Fy2] Hy] HB Hs. destruct x as [x1 x2], y as [y1 y2]. cbn [fst snd] in *.
  assert (H : Cmod (((v32 x1 + v32 y1)%R, (v32 x2 + v32 y2)%R) - (X + Y))%C <= ex + ey).
  { replace (((v32 x1 + v32 y1)%R, (v32 x2 + v32 y2)%R) - (X + Y))%C with ((cv (x1, x2) - X) + (cv (y1, y2) - Y))%C.
    - eapply Rle_trans; [apply Cmod_triangle|]. lra.
    - destruct X, Y. unfold cv, Cminus, Cplus, Copp; cbn [fst snd]. f_equal; ring. }
  assert (Hm : Cmod ((v32 x1 + v32 y1)%R, (v32 x2 + v32 y2)%R) <= Big).
  { replace (((v32 x1 + v32 y1)%R, (v32 x2 + v32 y2)%R) : C) with ((X + Y) + (((v32 x1 + v32 y1)%R, (v32 x2 + v32 y2)%R) - (X + Y)))%C by ring.
    eapply Rle_trans; [apply Cmod_triangle|]. lra. }
  assert (M1 := cmod_fst ((v32 x1 + v32 y1)%R, (v32 x2 + v32 y2)%R)). assert (M2 := cmod_snd ((v32 x1 + v32 y1)%R, (v32 x2 + v32 y2)%R)).
  cbn [fst snd] in M1, M2.
  destruct (add32 x1 y1 Fx1 Fy1) as [F1 V1]. { apply big_small. lra. }
  destruct (add32 x2 y2 Fx2 Fy2) as [F2 V2]. { apply big_small. lra. }
  split; [split; assumption|]. unfold cv, cadd. cbn [fst snd tadd B32]. rewrite V1, V2.
  eapply Rle_trans; [apply (cround _ _ _ _ B H HB)|]. lra.
Qed.
Lemma cnear_sub x y X Y ex ey B : cnear x X ex -> cnear y Y ey -> Cmod (X - Y)%C <= B -> B + ex + ey <= Big ->
  cnear (csub N x y) (X - Y)%C (ex + ey + eps * (B + ex + ey) + 2 * tau).
Proof.
  intros [[Fx1 Fx2] Hx] [[Fy1 Fy2] Hy] HB Hs. destruct x as [x1 x2], y as [y1 y2]. cbn [fst snd] in *.
  assert (H : Cmod (((v32 x1 - v32 y1)%R, (v32 x2 - v32 y2)%R) - (X - Y))%C <= ex + ey).
  { replace (((v32 x1 - v32 y1)%R, (v32 x2 - v32 y2)%R) - (X - Y))%C with ((cv (x1, x2) - X) + - (cv (y1, y2) - Y))%C.
    - eapply Rle_trans; [apply Cmod_triangle|]. rewrite Cmod_opp. lra.
    - destruct X, Y. unfold cv, Cminus, Cplus, Copp; cbn [fst snd]. f_equal; ring. }
  assert (Hm : Cmod ((v32 x1 - v32 y1)%R, (v32 x2 - v32 y2)%R) <= Big).
  { replace (((v32 x1 - v32 y1)%R, (v32 x2 - v32 y2)%R) : C) with ((X - Y) + (((v32 x1 - v32 y1)%R, (v32 x2 - v32 y2)%R) - (X - Y)))%C by ring.
    eapply Rle_trans; [apply Cmod_triangle|]. lra. }
  assert (M1 := cmod_fst ((v32 x1 - v32 y1)%R, (v32 x2 - v32 y2)%R)). assert (M2 := cmod_snd ((v32 x1 - v32 y1)%R, (v32 x2 - v32 y2)%R)).
  cbn [fst snd] in M1, M2.
  destruct (sub32 x1 y1 Fx1 Fy1) as (F1 & V1 & _). { apply big_small. lra. }
  destruct (sub32 x2 y2 Fx2 Fy2) as (F2 & V2 & _). { apply big_small. lra. }
  split; [split; assumption|]. unfold cv, csub. cbn [fst snd tsub B32]. rewrite V1, V2.
  eapply Rle_trans; [apply (cround _ _ _ _ B H HB)|]. lra.
Qed.

(** complex times float *)
Lemma cnear_scale x s X S ex es Bx Bs : cnear x X ex -> near s S es -> Cmod X <= Bx -> Rabs S <= Bs ->
  (Bx + ex) * (Bs + es) <= Big ->
  cnear (cscale N x s) (X * RtoC S)%C (Bx * es + Bs * ex + ex * es + eps * ((Bx + ex) * (Bs + es)) + 2 * tau).
Proof.
  intros Nx Ns HX HS Hb. assert (Ax := cnear_mod _ _ _ _ Nx HX). assert (As := near_abs _ _ _ _ Ns HS).
  destruct Nx as [[Fx1 Fx2] Hx], Ns as [Fs Hs]. destruct x as [x1 x2]. cbn [fst snd] in *.
  set (p := (v32 x1 * v32 s, v32 x2 * v32 s) : C).
  assert (Ep : p = (cv (x1, x2) * RtoC (v32 s))%C).
  { unfold p, cv, Cmult, RtoC; cbn [fst snd]. f_equal; ring. }
  assert (Hp : Cmod p <= (Bx + ex) * (Bs + es)).
  { rewrite Ep, Cmod_mult, Cmod_R. apply Rmult_le_compat; auto; [apply Cmod_ge_0|apply Rabs_pos]. }
  assert (H : Cmod (p - X * RtoC S)%C <= Bx * es + Bs * ex + ex * es).
  { rewrite Ep. replace (cv (x1, x2) * RtoC (v32 s) - X * RtoC S)%C with
      (X * RtoC (v32 s - S) + ((cv (x1, x2) - X) * RtoC S + (cv (x1, x2) - X) * RtoC (v32 s - S)))%C.
    2:{ rewrite RtoC_minus. ring. }
    eapply Rle_trans; [apply Cmod_triangle|]. eapply Rle_trans; [apply Rplus_le_compat_l, Cmod_triangle|].
    rewrite !Cmod_mult, !Cmod_R. set (A := Cmod (cv (x1, x2) - X)%C) in *.
    assert (A0 : 0 <= A) by apply Cmod_ge_0. assert (B0 := Rabs_pos (v32 s - S)).
    assert (C0 := Cmod_ge_0 X). assert (D0 := Rabs_pos S).
    assert (Cmod X * Rabs (v32 s - S) <= Bx * es) by (apply Rmult_le_compat; lra).
    assert (A * Rabs S <= ex * Bs) by (apply Rmult_le_compat; lra).
    assert (A * Rabs (v32 s - S) <= ex * es) by (apply Rmult_le_compat; lra). lra. }
  assert (M1 := cmod_fst p). assert (M2 := cmod_snd p). unfold p in M1, M2. cbn [fst snd] in M1, M2. fold p in M1, M2.
  destruct (mul32 x1 s Fx1 Fs) as [F1 V1]. { apply big_small. lra. }
  destruct (mul32 x2 s Fx2 Fs) as [F2 V2]. { apply big_small. lra. }
  split; [split; assumption|]. unfold cv, cscale. cbn [fst snd tmul B32]. rewrite V1, V2.
  assert (R := crnd (v32 x1 * v32 s) (v32 x2 * v32 s)). fold p in R.
  assert (eps * Cmod p <= eps * ((Bx + ex) * (Bs + es))) by (apply Rmult_le_compat_l; [unfold eps; lra|exact Hp]).
  replace ((rnd32 (v32 x1 * v32 s)%R, rnd32 (v32 x2 * v32 s)%R) - X * RtoC S)%C with
    (((rnd32 (v32 x1 * v32 s) - v32 x1 * v32 s)%R, (rnd32 (v32 x2 * v32 s) - v32 x2 * v32 s)%R) + (p - X * RtoC S))%C.
  - eapply Rle_trans; [apply Cmod_triangle|]. lra.
  - destruct (X * RtoC S)%C as [u1 u2]. unfold p, Cminus, Cplus, Copp; cbn [fst snd]. f_equal; ring.
Qed.

(** complex product *)
Lemma comp_bound (a b c d : R) : Rabs (a * c) + Rabs (b * d) <= Cmod (a, b) * Cmod (c, d).
Proof.
  rewrite !Rabs_mult. set (a' := Rabs a). set (b' := Rabs b). set (c' := Rabs c). set (d' := Rabs d).
  assert (E : Cmod (a, b) * Cmod (c, d) = sqrt ((a' ^ 2 + b' ^ 2) * (c' ^ 2 + d' ^ 2))).
  { unfold Cmod, a', b', c', d'; cbn [fst snd]. rewrite !pow2_abs. symmetry. apply sqrt_mult.
    - assert (A := pow2_ge_0 a). assert (B := pow2_ge_0 b). lra.
    - assert (A := pow2_ge_0 c). assert (B := pow2_ge_0 d). lra. }
  rewrite E. assert (0 <= a' * c' + b' * d').
  { unfold a', b', c', d'. assert (A := Rabs_pos a). assert (B := Rabs_pos b). assert (Cc := Rabs_pos c). assert (D := Rabs_pos d).
    apply Rplus_le_le_0_compat; now apply Rmult_le_pos. }
  rewrite <- (sqrt_pow2 (a' * c' + b' * d')) by assumption. apply sqrt_le_1_alt.
  assert (Q := pow2_ge_0 (a' * d' - b' * c')). nra.
Qed.

(** sums with products, whatever the compiler does with them *)
Lemma tdotp_val s a b c d G : fin32 a = true -> fin32 b = true -> fin32 c = true -> fin32 d = true ->
  Rabs (v32 a * v32 b) + Rabs (v32 c * v32 d) <= G -> 2 * G <= Big ->
  exists k l, fin32 (tdotp N s a b c d) = true /\
    v32 (tdotp N s a b c d) = rnd32 (rp k (v32 a * v32 b) + rp l (v32 c * v32 d)).
Proof.
  intros Fa Fb Fc Fd HG Hb. assert (P := Rabs_pos (v32 a * v32 b)). assert (Q := Rabs_pos (v32 c * v32 d)).
  destruct (mul32 a b Fa Fb) as [F1 V1]. { apply big_small. lra. }
  destruct (mul32 c d Fc Fd) as [F2 V2]. { apply big_small. lra. }
  unfold tdotp. cbn [tfuse tfma tadd tmul B32]. destruct (_ =? 0)%Z; [|destruct (_ =? 1)%Z].
  - exists false, false. cbn [rp]. rewrite <- V1, <- V2. apply add32; auto.
    rewrite V1, V2. exact (mul_size false false _ _ G HG Hb).
  - exists true, false. cbn [rp]. rewrite <- V2. apply fma32; auto.
    rewrite V2. exact (mul_size true false _ _ G HG Hb).
  - exists false, true. cbn [rp]. rewrite <- V1, (Rplus_comm (v32 _)). apply fma32; auto.
    rewrite V1, Rplus_comm. exact (mul_size false true _ _ G HG Hb).
Qed.
Lemma tdotm_val s a b c d G : fin32 a = true -> fin32 b = true -> fin32 c = true -> fin32 d = true ->
  Rabs (v32 a * v32 b) + Rabs (v32 c * v32 d) <= G -> 2 * G <= Big ->
  exists k l, fin32 (tdotm N s a b c d) = true /\
    v32 (tdotm N s a b c d) = rnd32 (rp k (v32 a * v32 b) - rp l (v32 c * v32 d)).
Proof.
  intros Fa Fb Fc Fd HG Hb. assert (P := Rabs_pos (v32 a * v32 b)). assert (Q := Rabs_pos (v32 c * v32 d)).
  destruct (mul32 a b Fa Fb) as [F1 V1]. { apply big_small. lra. }
  destruct (mul32 c d Fc Fd) as [F2 V2]. { apply big_small. lra. }
  assert (HG' : Rabs (v32 a * v32 b) + Rabs (- (v32 c * v32 d)) <= G) by (rewrite Rabs_Ropp; exact HG).
  assert (SZ : forall k l, small32 (rp k (v32 a * v32 b) - rp l (v32 c * v32 d))).
  { intros k l. unfold Rminus. rewrite <- rp_opp. apply mul_size with G; assumption. }
  unfold tdotm. cbn [tfuse tfma tsub tmul topp B32]. destruct (_ =? 0)%Z; [|destruct (_ =? 1)%Z].
  - exists false, false. assert (S := SZ false false). cbn [rp] in *. rewrite <- V1, <- V2 in *.
    destruct (sub32 _ _ F1 F2 S) as (A & B & _). auto.
  - exists true, false. assert (S := SZ true false). cbn [rp] in *. rewrite <- V2 in *.
    destruct (opp32 _ F2) as [F3 V3]. unfold Rminus in *. rewrite <- V3 in *. apply fma32; auto.
  - exists false, true. assert (S := SZ false true). cbn [rp] in *. rewrite <- V1 in *.
    destruct (opp32 _ Fc) as [F3 V3].
    replace (v32 (@Bmult 24 128 p32 e32 mode_NE a b) - v32 c * v32 d) with
      (v32 (Bopp c) * v32 d + v32 (@Bmult 24 128 p32 e32 mode_NE a b)) in * by (rewrite V3; ring).
    apply fma32; auto.
Qed.
Lemma tmad_val s x y z G : fin32 x = true -> fin32 y = true -> fin32 z = true ->
  Rabs (v32 x * v32 y) + Rabs (v32 z) <= G -> 2 * G <= Big ->
  exists k, fin32 (tmad N s x y z) = true /\ v32 (tmad N s x y z) = rnd32 (rp k (v32 x * v32 y) + v32 z).
Proof.
  intros Fx Fy Fz HG Hb. assert (P := Rabs_pos (v32 x * v32 y)). assert (Q := Rabs_pos (v32 z)).
  destruct (mul32 x y Fx Fy) as [F1 V1]. { apply big_small. lra. }
  unfold tmad. cbn [tfuse tfma tadd tmul B32]. destruct (_ =? 0)%Z.
  - exists false. cbn [rp]. rewrite <- V1. apply add32; auto. rewrite V1. exact (mul_size false true _ _ G HG Hb).
  - exists true. cbn [rp]. apply fma32; auto. exact (mul_size true true _ _ G HG Hb).
Qed.
Lemma tnmad_val s x y z G : fin32 x = true -> fin32 y = true -> fin32 z = true ->
  Rabs (v32 x * v32 y) + Rabs (v32 z) <= G -> 2 * G <= Big ->
  exists k, fin32 (tnmad N s x y z) = true /\ v32 (tnmad N s x y z) = rnd32 (v32 z - rp k (v32 x * v32 y)).
Proof.
  intros Fx Fy Fz HG Hb. assert (P := Rabs_pos (v32 x * v32 y)). assert (Q := Rabs_pos (v32 z)).
  destruct (mul32 x y Fx Fy) as [F1 V1]. { apply big_small. lra. }
  assert (SZ : forall k, small32 (v32 z - rp k (v32 x * v32 y))).
  { intros k. unfold Rminus. rewrite <- rp_opp. 
    apply (mul_size true k (v32 z) (- (v32 x * v32 y)) G); [|exact Hb]. rewrite Rabs_Ropp. lra. }
  unfold tnmad. cbn [tfuse tfma tsub topp tmul B32]. destruct (_ =? 0)%Z.
  - exists false. assert (S := SZ false). cbn [rp] in *. rewrite <- V1 in *.
    destruct (sub32 _ _ Fz F1 S) as (A & B & _). auto.
  - exists true. assert (S := SZ true). cbn [rp] in *. destruct (opp32 _ Fx) as [F3 V3].
    replace (v32 z - v32 x * v32 y) with (v32 (Bopp x) * v32 y + v32 z) in * by (rewrite V3; ring).
    apply fma32; auto.
Qed.

Lemma cmul_round s x y G : cfin x -> cfin y -> Cmod (cv x) * Cmod (cv y) <= G -> 2 * G <= Big ->
  cfin (cmul N s x y) /\ Cmod (cv (cmul N s x y) - cv x * cv y)%C <= 3 * eps * G + 6 * tau.
Proof.
  intros [Fx1 Fx2] [Fy1 Fy2] HG Hb. destruct x as [a b], y as [c d]. unfold cv in *. cbn [fst snd] in *.
  assert (T0 := tau_pos).
  assert (G0 : 0 <= G) by (eapply Rle_trans; [|exact HG]; apply Rmult_le_pos; apply Cmod_ge_0).
  assert (H1 := comp_bound (v32 a) (v32 b) (v32 c) (v32 d)).
  assert (H2 := comp_bound (v32 a) (v32 b) (v32 d) (v32 c)).
  assert (E : Cmod (v32 d, v32 c) = Cmod (v32 c, v32 d)) by (unfold Cmod; cbn [fst snd]; f_equal; ring).
  rewrite E in H2.
  destruct (tdotm_val s a c b d G Fx1 Fy1 Fx2 Fy2 ltac:(lra) Hb) as (k1 & l1 & F5 & V5).
  destruct (tdotp_val (s + 1) a d b c G Fx1 Fy2 Fx2 Fy1 ltac:(lra) Hb) as (k2 & l2 & F6 & V6).
  unfold cmul. cbn [fst snd].
  split; [split; assumption|]. rewrite V5, V6.
  unfold Cminus, Cplus, Copp, Cmult. cbn [fst snd].
  eapply Rle_trans.
  - apply (cmod_max _ _ ((2 * eps + eps * eps) * G + 4 * tau)).
    + apply (mul_comp' k1 l1 (v32 a * v32 c) (v32 b * v32 d) G). lra.
    + apply (mul_comp k2 l2 (v32 a * v32 d) (v32 b * v32 c) G). lra.
  - unfold eps. lra.
Qed.

Lemma cprod_err (x y X Y : C) ex ey Bx By : Cmod (x - X)%C <= ex -> Cmod (y - Y)%C <= ey ->
  Cmod X <= Bx -> Cmod Y <= By ->
  Cmod (x * y - X * Y)%C <= Bx * ey + By * ex + ex * ey.
Proof.
  intros Hx Hy HX HY.
  replace (x * y - X * Y)%C with (X * (y - Y) + ((x - X) * Y + (x - X) * (y - Y)))%C by ring.
  eapply Rle_trans; [apply Cmod_triangle|]. eapply Rle_trans; [apply Rplus_le_compat_l, Cmod_triangle|].
  rewrite !Cmod_mult.
  assert (A0 := Cmod_ge_0 (x - X)%C). assert (B0 := Cmod_ge_0 (y - Y)%C).
  assert (C0 := Cmod_ge_0 X). assert (D0 := Cmod_ge_0 Y).
  assert (Cmod X * Cmod (y - Y)%C <= Bx * ey) by (apply Rmult_le_compat; lra).
  assert (Cmod (x - X)%C * Cmod Y <= ex * By) by (apply Rmult_le_compat; lra).
  assert (Cmod (x - X)%C * Cmod (y - Y)%C <= ex * ey) by (apply Rmult_le_compat; lra). lra.
Qed.

Lemma cnear_mul s x y X Y ex ey Bx By : cnear x X ex -> cnear y Y ey -> Cmod X <= Bx -> Cmod Y <= By ->
  2 * ((Bx + ex) * (By + ey)) <= Big ->
  cnear (cmul N s x y) (X * Y)%C
    (Bx * ey + By * ex + ex * ey + 3 * eps * ((Bx + ex) * (By + ey)) + 6 * tau).
Proof.
  intros Nx Ny HX HY Hb. assert (Ax := cnear_mod _ _ _ _ Nx HX). assert (Ay := cnear_mod _ _ _ _ Ny HY).
  destruct Nx as [Fx Hx], Ny as [Fy Hy].
  destruct (cmul_round s x y ((Bx + ex) * (By + ey)) Fx Fy) as [F R]; [|exact Hb|].
  { apply Rmult_le_compat; auto; apply Cmod_ge_0. }
  split; [exact F|]. assert (P := cprod_err _ _ _ _ _ _ _ _ Hx Hy HX HY).
  replace (cv (cmul N s x y) - X * Y)%C with ((cv (cmul N s x y) - cv x * cv y) + (cv x * cv y - X * Y))%C by ring.
  eapply Rle_trans; [apply Cmod_triangle|]. lra.
Qed.

Lemma cnear_bc s S e : near s S e -> cnear (cbc N s) (RtoC S) e.
Proof.
  intros [F H]. destruct (ofZ32 0 ltac:(lia)) as [F0 V0]. unfold cbc, t0. cbn [tofZ B32].
  split; [split; assumption|]. unfold cv. cbn [fst snd]. rewrite V0.
  replace ((v32 s, 0) - RtoC S)%C with (RtoC (v32 s - S)).
  - rewrite Cmod_R. exact H.
  - unfold RtoC, Cminus, Cplus, Copp; cbn [fst snd]. f_equal; ring.
Qed.
(** a quotient, by division or with the reciprocal *)
Lemma quo_err s (y k : f32) : fin32 y = true -> fin32 k = true -> / IZR (2 ^ 126) <= Rabs (v32 k) <= 2000 ->
  Rabs (v32 y / v32 k) <= Big ->
  fin32 (tquo N s y k) = true /\
  Rabs (v32 (tquo N s y k) - v32 y / v32 k) <= 2.02 * eps * Rabs (v32 y / v32 k) + 2 * tau /\
  (0 <= v32 y / v32 k -> 0 <= v32 (tquo N s y k)).
Proof.
  intros Fy Fk Hk Hv. set (v := v32 y / v32 k) in *.
  assert (T := tau_small). assert (T0 := tau_pos). assert (Av := Rabs_pos v).
  assert (P126 : 0 < / IZR (2 ^ 126)) by (apply Rinv_0_lt_compat, IZR_lt; reflexivity).
  assert (Nk : v32 k <> 0) by (intros E; rewrite E, Rabs_R0 in Hk; lra).
  cbn [tquo B32]. unfold f32_quo. destruct (lm_recip lm s).
  - destruct (ofZ32 1 ltac:(lia)) as [O1 O2].
    set (iv := / v32 k).
    assert (Hi : / 2000 <= Rabs iv <= IZR (2 ^ 126)).
    { unfold iv. rewrite Rabs_inv. split.
      - apply Rinv_le_contravar; lra.
      - rewrite <- (Rinv_inv (IZR (2 ^ 126))). apply Rinv_le_contravar; lra. }
    destruct (div32 (f32_ofZ 1) k O1 Nk) as (D1 & D2).
    { rewrite O2. apply small32_of_le with 126%Z; [lia|]. unfold Rdiv. rewrite Rmult_1_l. fold iv.
      rewrite bpow_Z by lia. lra. }
    rewrite O2 in D2. unfold Rdiv in D2. rewrite Rmult_1_l in D2. fold iv in D2.
    set (r := @Bdiv 24 128 p32 e32 mode_NE (f32_ofZ 1) k) in *.
    assert (Er := rnd_err iv). rewrite <- D2 in Er.
    assert (Er2 : Rabs (v32 r - iv) <= 1.001 * eps * Rabs iv) by (unfold eps in *; lra).
    assert (Hw : Rabs (v32 y * v32 r - v) <= 1.001 * eps * Rabs v).
    { replace (v32 y * v32 r - v) with (v32 y * (v32 r - iv)) by (unfold v, iv; field; exact Nk).
      rewrite Rabs_mult. replace (Rabs v) with (Rabs (v32 y) * Rabs iv) by (rewrite <- Rabs_mult; reflexivity).
      assert (0 <= Rabs (v32 y)) by apply Rabs_pos.
      apply Rle_trans with (Rabs (v32 y) * (1.001 * eps * Rabs iv)); [apply Rmult_le_compat_l; assumption|].
      right. ring. }
    assert (Aw : Rabs (v32 y * v32 r) <= (1 + 1.001 * eps) * Rabs v).
    { replace (v32 y * v32 r) with (v + (v32 y * v32 r - v)) by ring. eapply Rle_trans; [apply Rabs_triang|]. lra. }
    destruct (mul32 y r Fy D1) as (M1 & M2).
    { apply small32_of_le with 101%Z; [lia|]. rewrite bpow_Z by lia. unfold Big in *.
      change (2 ^ 101)%Z with (2 * 2 ^ 100)%Z. rewrite mult_IZR. unfold eps in *. lra. }
    rewrite M2. split; [exact M1|]. assert (Em := rnd_err (v32 y * v32 r)). split.
    + replace (rnd32 (v32 y * v32 r) - v) with ((rnd32 (v32 y * v32 r) - v32 y * v32 r) + (v32 y * v32 r - v)) by ring.
      eapply Rle_trans; [apply Rabs_triang|]. unfold eps in *. lra.
    + intros H0. apply rnd32_ge; [apply (fmt32_Z 0); lia|].
      rewrite (Rabs_pos_eq v) in Hw by exact H0. apply Rabs_le_inv in Hw. unfold eps in *. lra.
  - destruct (div32 y k Fy Nk) as (B1 & B2); [now apply big_small|].
    rewrite B2. split; [exact B1|]. fold v. assert (Em := rnd_err v). split; [unfold eps in *; lra|].
    intros H0. apply rnd32_ge; [apply (fmt32_Z 0); lia|exact H0].
Qed.

(** complex quotient by a number of size 1/16 to 32 *)
Lemma cdiv_round s x y H : cfin x -> cfin y -> / 16 <= Cmod (cv y) <= 32 ->
  Cmod (cv x) <= H * Cmod (cv y) -> H <= Big / 4096 ->
  cfin (cdiv N s x y) /\ Cmod (cv (cdiv N s x y) - cv x / cv y)%C <= 7.1 * eps * H + 4000 * tau.
Proof.
  intros [Fx1 Fx2] [Fy1 Fy2] Hy HG Hb. destruct x as [a b], y as [c d]. unfold cv in *. cbn [fst snd] in *.
  assert (T0 := tau_pos). assert (T1 := tau_small).
  assert (Big0 : 1000000000000 <= Big) by (unfold Big; apply IZR_le; vm_compute; discriminate).
  set (D := v32 c * v32 c + v32 d * v32 d).
  assert (ED : Cmod (v32 c, v32 d) * Cmod (v32 c, v32 d) = D).
  { unfold Cmod, D. cbn [fst snd]. rewrite sqrt_sqrt; [ring|].
    apply Rplus_le_le_0_compat; apply pow2_ge_0. }
  set (my := Cmod (v32 c, v32 d)) in *.
  assert (HD : / 256 <= D <= 1024) by (rewrite <- ED; split; nra).
  assert (H0 : 0 <= H).
  { assert (0 <= Cmod (v32 a, v32 b)) by apply Cmod_ge_0. apply Rmult_le_reg_r with my; lra. }
  (* den *)
  assert (Pc : 0 <= v32 c * v32 c) by apply Rle_0_sqr. assert (Pd : 0 <= v32 d * v32 d) by apply Rle_0_sqr.
  assert (GD : Rabs (v32 c * v32 c) + Rabs (v32 d * v32 d) <= D) by (rewrite !Rabs_pos_eq by assumption; unfold D; lra).
  destruct (tdotp_val s c c d d D Fy1 Fy1 Fy2 Fy2 GD ltac:(lra)) as (k0 & l0 & Fden & Vden).
  assert (Eden := mul_comp k0 l0 (v32 c * v32 c) (v32 d * v32 d) D GD). rewrite <- Vden in Eden. fold D in Eden.
  set (den := tdotp N s c c d d : f32) in *.
  assert (Eden' : Rabs (v32 den - D) <= 2.01 * eps * D) by (unfold eps in *; lra).
  assert (Hden : D / 1.0001 <= v32 den <= 1.0001 * D).
  { apply Rabs_le_inv in Eden'. unfold eps in Eden'. lra. }
  (* num *)
  assert (HG2 : Cmod (v32 a, v32 b) * my <= H * D).
  { rewrite <- ED. rewrite <- Rmult_assoc. apply Rmult_le_compat_r; lra. }
  assert (HHD : H * D <= Big / 4).
  { apply Rle_trans with (H * 1024); [apply Rmult_le_compat_l; lra|lra]. }
  set (G := H * D) in *.
  assert (H1 := comp_bound (v32 a) (v32 b) (v32 c) (v32 d)). fold my in H1.
  assert (H2 := comp_bound (v32 b) (v32 a) (v32 c) (v32 d)). fold my in H2.
  assert (Esw : Cmod (v32 b, v32 a) = Cmod (v32 a, v32 b)) by (unfold Cmod; cbn [fst snd]; f_equal; ring).
  rewrite Esw in H2.
  assert (P1 := Rabs_pos (v32 a * v32 c)). assert (P2 := Rabs_pos (v32 b * v32 d)).
  assert (P3 := Rabs_pos (v32 b * v32 c)). assert (P4 := Rabs_pos (v32 a * v32 d)).
  destruct (tdotp_val (s + 1) a c b d G Fx1 Fy1 Fx2 Fy2 ltac:(lra) ltac:(lra)) as (k1 & l1 & F5 & V5).
  destruct (tdotm_val (s + 2) b c a d G Fx2 Fy1 Fx1 Fy2 ltac:(lra) ltac:(lra)) as (k2 & l2 & F6 & V6).
  assert (E5 := mul_comp k1 l1 (v32 a * v32 c) (v32 b * v32 d) G ltac:(lra)). rewrite <- V5 in E5.
  assert (E6 := mul_comp' k2 l2 (v32 b * v32 c) (v32 a * v32 d) G ltac:(lra)). rewrite <- V6 in E6.
  unfold cdiv. cbn [fst snd]. fold den.
  set (n1 := tdotp N (s + 1) a c b d : f32) in *. set (n2 := tdotm N (s + 2) b c a d : f32) in *.
  assert (Dn0 : v32 den <> 0) by lra.
  set (W := ((v32 a, v32 b) / (v32 c, v32 d))%C).
  assert (EW : W = (((v32 a * v32 c + v32 b * v32 d) / D)%R, ((v32 b * v32 c - v32 a * v32 d) / D)%R)).
  { unfold W, Cdiv, Cinv, Cmult. cbn [fst snd]. unfold D in *. f_equal; field; lra. }
  assert (Hmy : my <> 0) by lra.
  assert (HW : Cmod W <= H).
  { unfold W. rewrite Cmod_div.
    - fold my. apply Rmult_le_reg_r with my; [lra|]. unfold Rdiv. rewrite Rmult_assoc, Rinv_l by exact Hmy. lra.
    - intros E. apply Hmy. unfold my. rewrite E. apply Cmod_0. }
  set (k := v32 den) in *.
  assert (Q : Cmod (((v32 n1 / k)%R, (v32 n2 / k)%R) - W)%C <= 5.05 * eps * H + 3000 * tau).
  { set (e1 := v32 n1 - (v32 a * v32 c + v32 b * v32 d)) in *.
    set (e2 := v32 n2 - (v32 b * v32 c - v32 a * v32 d)) in *.
    replace (((v32 n1 / k)%R, (v32 n2 / k)%R) - W)%C with (RtoC (/ k) * ((e1, e2) + W * RtoC (D - k)))%C.
    2:{ rewrite EW. unfold e1, e2, RtoC, Cminus, Cplus, Copp, Cmult. cbn [fst snd]. f_equal; field; lra. }
    rewrite Cmod_mult, Cmod_R, (Rabs_pos_eq (/ k)) by (left; apply Rinv_0_lt_compat; lra).
    assert (M1 := cmod_max e1 e2 _ E5 E6).
    assert (M2 : Cmod (W * RtoC (D - k))%C <= H * (2.01 * eps * D)).
    { rewrite Cmod_mult, Cmod_R, Rabs_minus_sym. apply Rmult_le_compat; auto; [apply Cmod_ge_0|apply Rabs_pos]. }
    assert (M3 : Cmod ((e1, e2) + W * RtoC (D - k))%C <= 5.04 * eps * G + 6 * tau).
    { eapply Rle_trans; [apply Cmod_triangle|]. unfold G in *. unfold eps in *. lra. }
    apply Rle_trans with (/ k * (5.04 * eps * G + 6 * tau)).
    - apply Rmult_le_compat_l; [left; apply Rinv_0_lt_compat; lra|exact M3].
    - apply Rmult_le_reg_l with k; [lra|]. rewrite <- Rmult_assoc, Rinv_r, Rmult_1_l by exact Dn0.
      unfold G. assert (H * (D / 1.0001) <= H * k) by (apply Rmult_le_compat_l; lra).
      assert (0 <= H * D) by (apply Rmult_le_pos; lra).
      assert (tau * (1 / 300) <= tau * k) by (apply Rmult_le_compat_l; lra).
      replace (k * (5.05 * eps * H + 3000 * tau)) with (5.05 * eps * (H * k) + 3000 * (tau * k)) by ring.
      unfold eps in *. lra. }
  assert (HQ : Cmod ((v32 n1 / k)%R, (v32 n2 / k)%R) <= Big).
  { replace (((v32 n1 / k)%R, (v32 n2 / k)%R) : C) with (W + (((v32 n1 / k)%R, (v32 n2 / k)%R) - W))%C by ring.
    eapply Rle_trans; [apply Cmod_triangle|]. unfold eps in *. lra. }
  assert (S1 := cmod_fst ((v32 n1 / k)%R, (v32 n2 / k)%R)). assert (S2 := cmod_snd ((v32 n1 / k)%R, (v32 n2 / k)%R)).
  cbn [fst snd] in S1, S2.
  assert (Hk : / IZR (2 ^ 126) <= Rabs (v32 den) <= 2000).
  { rewrite Rabs_pos_eq by (fold k; lra). fold k. split; [|lra].
    apply Rle_trans with (/ 512); [apply Rinv_le_contravar; [lra|apply IZR_le; vm_compute; discriminate]|lra]. }
  destruct (quo_err (s + 3) n1 den F5 Fden Hk) as (F7 & V7 & _). { fold k. lra. }
  destruct (quo_err (s + 3) n2 den F6 Fden Hk) as (F8 & V8 & _). { fold k. lra. }
  split; [split; assumption|]. fold k in V7, V8. fold W.
  assert (R := cmod_comp _ _ _ _ (2.02 * eps) (2 * tau) ltac:(unfold eps; lra) ltac:(lra) V7 V8).
  assert (HQ2 : Cmod ((v32 n1 / k)%R, (v32 n2 / k)%R) <= 1.001 * H + 3000 * tau).
  { replace (((v32 n1 / k)%R, (v32 n2 / k)%R) : C) with (W + (((v32 n1 / k)%R, (v32 n2 / k)%R) - W))%C by ring.
    eapply Rle_trans; [apply Cmod_triangle|]. unfold eps in *. lra. }
  replace ((v32 (tquo N (s + 3) n1 den), v32 (tquo N (s + 3) n2 den)) - W)%C with
    (((v32 (tquo N (s + 3) n1 den) - v32 n1 / k)%R, (v32 (tquo N (s + 3) n2 den) - v32 n2 / k)%R) + (((v32 n1 / k)%R, (v32 n2 / k)%R) - W))%C
    by (destruct W as [W1 W2]; unfold Cminus, Cplus, Copp; cbn [fst snd]; f_equal; ring).
  eapply Rle_trans; [apply Cmod_triangle|]. unfold eps in *. lra.
Qed.
(** ** sums of complex numbers with products by floats, contracted or not *)
Notation Emul Bx Bs ex es := (Bx * es + Bs * ex + ex * es + eps * ((Bx + ex) * (Bs + es)) + 2 * tau).
Definition nearP (u v : f32) (A e : R) : Prop :=
  fin32 u = true /\ fin32 v = true /\ forall k, Rabs (rp k (v32 u * v32 v) - A) <= e.
Lemma nearP_mul u v A e B : nearP u v A e -> Rabs A <= B -> B + e <= Big -> near (tmul N u v) A e.
Proof.
  intros (Fu & Fv & H) HA Hb. destruct (mul32 u v Fu Fv) as [F V].
  - apply big_small. assert (K := H true). cbn [rp] in K. apply Rabs_le_inv in K. apply Rabs_le_inv in HA. apply Rabs_le. lra.
  - cbn [tmul B32]. split; [exact F|]. rewrite V. exact (H false).
Qed.
Lemma near_mulP x y X Y ex ey Bx By : near x X ex -> near y Y ey -> Rabs X <= Bx -> Rabs Y <= By ->
  nearP x y (X * Y) (Bx * ey + By * ex + ex * ey + eps * ((Bx + ex) * (By + ey)) + tau).
Proof.
  intros Nx Ny HX HY. assert (Ax := near_abs _ _ _ _ Nx HX). assert (Ay := near_abs _ _ _ _ Ny HY).
  destruct Nx as [Fx Hx], Ny as [Fy Hy]. split; [exact Fx|]. split; [exact Fy|]. intros k.
  assert (P := prod_err _ _ _ _ _ _ _ _ Hx Hy HX HY).
  assert (Q : Rabs (v32 x * v32 y) <= (Bx + ex) * (By + ey)).
  { rewrite Rabs_mult. apply Rmult_le_compat; try apply Rabs_pos; assumption. }
  assert (E := rp_err k (v32 x * v32 y)).
  assert (eps * Rabs (v32 x * v32 y) <= eps * ((Bx + ex) * (By + ey))) by (apply Rmult_le_compat_l; [unfold eps; lra|exact Q]).
  replace (rp k (v32 x * v32 y) - X * Y) with ((rp k (v32 x * v32 y) - v32 x * v32 y) + (v32 x * v32 y - X * Y)) by ring.
  eapply Rle_trans; [apply Rabs_triang|]. lra.
Qed.
(** x * y + z *)
Lemma near_mad s x y z A Z ea ez B Bz : nearP x y A ea -> near z Z ez -> Rabs (A + Z) <= B -> Rabs Z <= Bz ->
  2 * (B + 2 * Bz + ea + ez) <= Big ->
  near (tmad N s x y z) (A + Z) (ea + ez + eps * (B + ea + ez) + tau).
Proof.
  intros (Fx & Fy & Hp) Nz HB HZ Hb. assert (Az := near_abs _ _ _ _ Nz HZ). destruct Nz as [Fz Hz].
  assert (K := Hp true). cbn [rp] in K.
  destruct (tmad_val s x y z (B + Bz + ea + (Bz + ez)) Fx Fy Fz) as (k & F & V).
  - apply Rabs_le_inv in K. apply Rabs_le_inv in HB. apply Rabs_le_inv in HZ.
    assert (Rabs (v32 x * v32 y) <= B + Bz + ea) by (apply Rabs_le; lra). lra.
  - lra.
  - split; [exact F|]. rewrite V.
    assert (H : Rabs (rp k (v32 x * v32 y) + v32 z - (A + Z)) <= ea + ez).
    { replace (rp k (v32 x * v32 y) + v32 z - (A + Z)) with ((rp k (v32 x * v32 y) - A) + (v32 z - Z)) by ring.
      eapply Rle_trans; [apply Rabs_triang|]. apply Rplus_le_compat; [apply Hp|exact Hz]. }
    eapply Rle_trans; [apply (rnd_near _ _ _ B H HB)|]. lra.
Qed.
(** x * s with components rounded or not *)
Lemma cprod_rp k l x s X S ex es Bx Bs : cnear x X ex -> near s S es -> Cmod X <= Bx -> Rabs S <= Bs ->
  Cmod ((rp k (v32 (fst x) * v32 s), rp l (v32 (snd x) * v32 s)) - X * RtoC S)%C <= Emul Bx Bs ex es.
Proof.
  intros Nx Ns HX HS. assert (Ax := cnear_mod _ _ _ _ Nx HX). assert (As := near_abs _ _ _ _ Ns HS).
  destruct Nx as [Fx Hx], Ns as [Fs Hs].
  assert (P := cprod_err (cv x) (RtoC (v32 s)) X (RtoC S) ex es Bx Bs Hx ltac:(rewrite <- RtoC_minus, Cmod_R; exact Hs) HX ltac:(rewrite Cmod_R; exact HS)).
  assert (HG : Cmod (cv x * RtoC (v32 s))%C <= (Bx + ex) * (Bs + es)).
  { rewrite Cmod_mult, Cmod_R. apply Rmult_le_compat; auto; [apply Cmod_ge_0|apply Rabs_pos]. }
  assert (EQ : (((v32 (fst x) * v32 s)%R, (v32 (snd x) * v32 s)%R) : C) = (cv x * RtoC (v32 s))%C).
  { unfold cv, Cmult, RtoC. cbn [fst snd]. f_equal; ring. }
  assert (M := cmod_comp _ _ (v32 (fst x) * v32 s) (v32 (snd x) * v32 s) eps tau ltac:(unfold eps; lra) ltac:(left; apply tau_pos)
     (rp_err k (v32 (fst x) * v32 s)) (rp_err l (v32 (snd x) * v32 s))).
  rewrite EQ in M.
  assert (eps * Cmod (cv x * RtoC (v32 s))%C <= eps * ((Bx + ex) * (Bs + es))) by (apply Rmult_le_compat_l; [unfold eps; lra|exact HG]).
  replace ((rp k (v32 (fst x) * v32 s)%R, rp l (v32 (snd x) * v32 s)%R) - X * RtoC S)%C with
    (((rp k (v32 (fst x) * v32 s) - v32 (fst x) * v32 s)%R, (rp l (v32 (snd x) * v32 s) - v32 (snd x) * v32 s)%R) + (cv x * RtoC (v32 s) - X * RtoC S))%C.
  - eapply Rle_trans; [apply Cmod_triangle|]. lra.
  - rewrite <- EQ. destruct (X * RtoC S)%C as [u1 u2]. unfold Cminus, Cplus, Copp; cbn [fst snd]. f_equal; ring.
Qed.
Lemma prod_sizes x s X S ex es Bx Bs : cnear x X ex -> near s S es -> Cmod X <= Bx -> Rabs S <= Bs ->
  Rabs (v32 (fst x) * v32 s) <= (Bx + ex) * (Bs + es) /\ Rabs (v32 (snd x) * v32 s) <= (Bx + ex) * (Bs + es).
Proof.
  intros Nx Ns HX HS. assert (Ax := cnear_mod _ _ _ _ Nx HX). assert (As := near_abs _ _ _ _ Ns HS).
  assert (A := cmod_fst (cv x)). assert (B := cmod_snd (cv x)). unfold cv in A at 1, B at 1. cbn [fst snd] in A, B.
  split; rewrite Rabs_mult; apply Rmult_le_compat; try apply Rabs_pos; lra.
Qed.
Lemma comp_sizes x X ex Bx : cnear x X ex -> Cmod X <= Bx -> Rabs (v32 (fst x)) <= Bx + ex /\ Rabs (v32 (snd x)) <= Bx + ex.
Proof.
  intros Nx HX. assert (Ax := cnear_mod _ _ _ _ Nx HX).
  assert (A := cmod_fst (cv x)). assert (B := cmod_snd (cv x)). unfold cv in A at 1, B at 1. cbn [fst snd] in A, B. lra.
Qed.

(** x * a + y * b *)
Lemma caddx_near s x a y b X A Y B ex ea ey eb Bx Ba By Bb Bw :
  cnear x X ex -> near a A ea -> cnear y Y ey -> near b B eb ->
  Cmod X <= Bx -> Rabs A <= Ba -> Cmod Y <= By -> Rabs B <= Bb -> Cmod (X * RtoC A + Y * RtoC B)%C <= Bw ->
  2 * ((Bx + ex) * (Ba + ea) + (By + ey) * (Bb + eb)) <= Big ->
  cnear (caddx N s x a y b) (X * RtoC A + Y * RtoC B)%C
    (Emul Bx Ba ex ea + Emul By Bb ey eb + eps * (Bw + (Emul Bx Ba ex ea + Emul By Bb ey eb)) + 2 * tau).
Proof.
  intros Nx Na Ny Nb HX HA HY HB HW Hb.
  destruct (prod_sizes x a X A _ _ _ _ Nx Na HX HA) as [P1 P2]. destruct (prod_sizes y b Y B _ _ _ _ Ny Nb HY HB) as [Q1 Q2].
  destruct (tdotp_val s (fst x) a (fst y) b _ (proj1 (proj1 Nx)) (proj1 Na) (proj1 (proj1 Ny)) (proj1 Nb) ltac:(apply Rplus_le_compat; [exact P1|exact Q1]) Hb) as (k1 & l1 & F1 & V1).
  destruct (tdotp_val (s + 1) (snd x) a (snd y) b _ (proj2 (proj1 Nx)) (proj1 Na) (proj2 (proj1 Ny)) (proj1 Nb) ltac:(apply Rplus_le_compat; [exact P2|exact Q2]) Hb) as (k2 & l2 & F2 & V2).
  split; [split; [exact F1|exact F2]|].
  rewrite (f_equal2 pair V1 V2 : cv (caddx N s x a y b) = _). apply cround; [|exact HW].
  assert (E1 := cprod_rp k1 k2 x a X A _ _ _ _ Nx Na HX HA). assert (E2 := cprod_rp l1 l2 y b Y B _ _ _ _ Ny Nb HY HB).
  set (p := (rp k1 (v32 (fst x) * v32 a), rp k2 (v32 (snd x) * v32 a)) : C) in *.
  set (q := (rp l1 (v32 (fst y) * v32 b), rp l2 (v32 (snd y) * v32 b)) : C) in *.
  replace ((((rp k1 (v32 (fst x) * v32 a) + rp l1 (v32 (fst y) * v32 b))%R, (rp k2 (v32 (snd x) * v32 a) + rp l2 (v32 (snd y) * v32 b))%R) : C) -
     (X * RtoC A + Y * RtoC B))%C with ((p - X * RtoC A) + (q - Y * RtoC B))%C.
  - eapply Rle_trans; [apply Cmod_triangle|]. apply Rplus_le_compat; assumption.
  - destruct (X * RtoC A)%C as [u1 u2], (Y * RtoC B)%C as [w1 w2]. unfold p, q, Cminus, Cplus, Copp; cbn [fst snd]. f_equal; ring.
Qed.
(** z - x * b *)
Lemma csubx_near s z x b Z X B ez ex eb Bz Bx Bb Bw :
  cnear z Z ez -> cnear x X ex -> near b B eb -> Cmod Z <= Bz -> Cmod X <= Bx -> Rabs B <= Bb ->
  Cmod (Z - X * RtoC B)%C <= Bw -> 2 * ((Bx + ex) * (Bb + eb) + (Bz + ez)) <= Big ->
  cnear (csubx N s z x b) (Z - X * RtoC B)%C (ez + Emul Bx Bb ex eb + eps * (Bw + (ez + Emul Bx Bb ex eb)) + 2 * tau).
Proof.
  intros Nz Nx Nb HZ HX HB HW Hb.
  destruct (prod_sizes x b X B _ _ _ _ Nx Nb HX HB) as [P1 P2]. destruct (comp_sizes z Z _ _ Nz HZ) as [Q1 Q2].
  destruct (tnmad_val s (fst x) b (fst z) _ (proj1 (proj1 Nx)) (proj1 Nb) (proj1 (proj1 Nz)) ltac:(apply Rplus_le_compat; [exact P1|exact Q1]) Hb) as (k1 & F1 & V1).
  destruct (tnmad_val (s + 1) (snd x) b (snd z) _ (proj2 (proj1 Nx)) (proj1 Nb) (proj2 (proj1 Nz)) ltac:(apply Rplus_le_compat; [exact P2|exact Q2]) Hb) as (k2 & F2 & V2).
  split; [split; [exact F1|exact F2]|].
  rewrite (f_equal2 pair V1 V2 : cv (csubx N s z x b) = _). apply cround; [|exact HW].
  assert (E1 := cprod_rp k1 k2 x b X B _ _ _ _ Nx Nb HX HB). destruct Nz as [_ E2]. unfold cv in E2.
  set (p := (rp k1 (v32 (fst x) * v32 b), rp k2 (v32 (snd x) * v32 b)) : C) in *.
  replace ((((v32 (fst z) - rp k1 (v32 (fst x) * v32 b))%R, (v32 (snd z) - rp k2 (v32 (snd x) * v32 b))%R) : C) - (Z - X * RtoC B))%C
    with (((v32 (fst z), v32 (snd z)) - Z) + - (p - X * RtoC B))%C.
  - eapply Rle_trans; [apply Cmod_triangle|]. rewrite Cmod_opp. apply Rplus_le_compat; assumption.
  - destruct (X * RtoC B)%C as [u1 u2], Z as [w1 w2]. unfold p, Cminus, Cplus, Copp; cbn [fst snd]. f_equal; ring.
Qed.
(** the same with a float in the sum *)
Lemma caddf_core k x b X B ex eb Bx Bb Bw (w A ea : R) :
  cnear x X ex -> near b B eb -> Cmod X <= Bx -> Rabs B <= Bb -> Rabs (w - A) <= ea ->
  Cmod (X * RtoC B + RtoC A)%C <= Bw ->
  Cmod ((rnd32 (rp k (v32 (fst x) * v32 b) + w)%R, rnd32 (v32 (snd x) * v32 b)%R) - (X * RtoC B + RtoC A))%C <=
    Emul Bx Bb ex eb + ea + eps * (Bw + (Emul Bx Bb ex eb + ea)) + 2 * tau.
Proof.
  intros Nx Nb HX HB Hw HW. apply cround; [|exact HW].
  assert (E1 := cprod_rp k true x b X B _ _ _ _ Nx Nb HX HB). cbn [rp] in E1.
  set (p := (rp k (v32 (fst x) * v32 b), v32 (snd x) * v32 b) : C) in *.
  replace ((((rp k (v32 (fst x) * v32 b) + w)%R, (v32 (snd x) * v32 b)%R) : C) - (X * RtoC B + RtoC A))%C
    with ((p - X * RtoC B) + RtoC (w - A))%C.
  - eapply Rle_trans; [apply Cmod_triangle|]. rewrite Cmod_R. apply Rplus_le_compat; assumption.
  - destruct (X * RtoC B)%C as [u1 u2]. unfold p, RtoC, Cminus, Cplus, Copp; cbn [fst snd]. f_equal; ring.
Qed.
Lemma caddfx_near s a x b A X B ea ex eb Ba Bx Bb Bw :
  near a A ea -> cnear x X ex -> near b B eb -> Rabs A <= Ba -> Cmod X <= Bx -> Rabs B <= Bb ->
  Cmod (X * RtoC B + RtoC A)%C <= Bw -> 2 * ((Bx + ex) * (Bb + eb) + (Ba + ea)) <= Big ->
  cnear (caddfx N s a x b) (X * RtoC B + RtoC A)%C
    (Emul Bx Bb ex eb + ea + eps * (Bw + (Emul Bx Bb ex eb + ea)) + 2 * tau).
Proof.
  intros Na Nx Nb HA HX HB HW Hb.
  destruct (prod_sizes x b X B _ _ _ _ Nx Nb HX HB) as [P1 P2]. assert (Q1 := near_abs _ _ _ _ Na HA).
  assert (Z0 := Rabs_pos (v32 a)).
  destruct (tmad_val s (fst x) b a _ (proj1 (proj1 Nx)) (proj1 Nb) (proj1 Na) ltac:(apply Rplus_le_compat; [exact P1|exact Q1]) Hb) as (k1 & F1 & V1).
  destruct (mul32 (snd x) b (proj2 (proj1 Nx)) (proj1 Nb)) as [F2 V2]. { apply big_small. assert (W := Rabs_pos (v32 (snd x) * v32 b)). lra. }
  split; [split; [exact F1|exact F2]|]. rewrite (f_equal2 pair V1 V2 : cv (caddfx N s a x b) = _).
  apply caddf_core; auto. exact (proj2 Na).
Qed.
Lemma caddpx_near s u v x b A X B ea ex eb Ba Bx Bb Bw :
  nearP u v A ea -> cnear x X ex -> near b B eb -> Rabs A <= Ba -> Cmod X <= Bx -> Rabs B <= Bb ->
  Cmod (X * RtoC B + RtoC A)%C <= Bw -> 2 * ((Bx + ex) * (Bb + eb) + (Ba + ea)) <= Big ->
  cnear (caddpx N s u v x b) (X * RtoC B + RtoC A)%C
    (Emul Bx Bb ex eb + ea + eps * (Bw + (Emul Bx Bb ex eb + ea)) + 2 * tau).
Proof.
  intros (Fu & Fv & HP) Nx Nb HA HX HB HW Hb.
  destruct (prod_sizes x b X B _ _ _ _ Nx Nb HX HB) as [P1 P2].
  assert (Q1 : Rabs (v32 u * v32 v) <= Ba + ea).
  { assert (H := HP true). cbn [rp] in H. apply Rabs_le_inv in H. apply Rabs_le_inv in HA. apply Rabs_le. lra. }
  assert (Z0 := Rabs_pos (v32 u * v32 v)).
  destruct (tdotp_val s (fst x) b u v _ (proj1 (proj1 Nx)) (proj1 Nb) Fu Fv ltac:(apply Rplus_le_compat; [exact P1|exact Q1]) Hb) as (k1 & l1 & F1 & V1).
  destruct (mul32 (snd x) b (proj2 (proj1 Nx)) (proj1 Nb)) as [F2 V2]. { apply big_small. assert (W := Rabs_pos (v32 (snd x) * v32 b)). lra. }
  split; [split; [exact F1|exact F2]|]. rewrite (f_equal2 pair V1 V2 : cv (caddpx N s u v x b) = _).
  apply caddf_core; auto.
Qed.
Lemma csubp_near s z u v Z A ez ea Bz Ba Bw : cnear z Z ez -> nearP u v A ea -> Cmod Z <= Bz -> Rabs A <= Ba ->
  Cmod (Z - RtoC A)%C <= Bw -> 2 * ((Bz + ez) + (Ba + ea)) <= Big ->
  cnear (csubp N s z u v) (Z - RtoC A)%C (ea + ez + eps * (Bw + (ea + ez)) + 2 * tau).
Proof.
  intros Nz (Fu & Fv & HP) HZ HA HW Hb. destruct (comp_sizes z Z _ _ Nz HZ) as [P1 P2].
  assert (Q1 : Rabs (v32 u * v32 v) <= Ba + ea).
  { assert (H := HP true). cbn [rp] in H. apply Rabs_le_inv in H. apply Rabs_le_inv in HA. apply Rabs_le. lra. }
  destruct Nz as [[Fz1 Fz2] Hz].
  destruct (tnmad_val s u v (fst z) (Bz + ez + (Ba + ea)) Fu Fv Fz1 ltac:(lra) Hb) as (k & F & V).
  split; [split; [exact F|exact Fz2]|]. rewrite (f_equal2 pair V (eq_refl (v32 (snd z))) : cv (csubp N s z u v) = _).
  rewrite <- (rnd32_id (v32 (snd z))) by apply fmt32_B2R. apply cround; [|exact HW].
  assert (HPk := HP k). set (w := rp k (v32 u * v32 v)) in *.
  replace (((v32 (fst z) - w)%R, v32 (snd z)) - (Z - RtoC A))%C with (- RtoC (w - A) + (cv z - Z))%C.
  - eapply Rle_trans; [apply Cmod_triangle|]. rewrite Cmod_opp, Cmod_R. apply Rplus_le_compat; assumption.
  - destruct Z. unfold cv, Cminus, Cplus, Copp, RtoC; cbn [fst snd]. f_equal; ring.
Qed.
End Ops.
