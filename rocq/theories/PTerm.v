(** * PTerm: rounding error of computeI0 and of one segment boundary *)
From Coq Require Import ZArith List Bool Reals Lia Lra.
From Flocq Require Import Core IEEE754.BinarySingleNaN.
From Verif Require Import Num Filters Osc B32 NumFacts B32Facts.
From Coquelicot Require Import Coquelicot.
From Verif Require Import SpecE ExactMath PApx PFma.
Import ListNotations.
Local Open Scope R_scope.

(** ** the exponential *)
Lemma exp_lip a b m : exp a <= m -> exp b <= m -> Rabs (exp a - exp b) <= m * Rabs (a - b).
Proof.
  intros Ha Hb.
  assert (G : forall x y, y <= x -> exp x <= m -> Rabs (exp x - exp y) <= m * Rabs (x - y)).
  { intros x y H Hx. rewrite !Rabs_pos_eq; [|lra|].
    - assert (E := exp_ineq1_le (y - x)). assert (P := exp_pos x).
      assert (exp x * (1 + (y - x)) <= exp y).
      { replace (exp y) with (exp x * exp (y - x)) by (rewrite <- exp_plus; f_equal; ring).
        apply Rmult_le_compat_l; lra. }
      assert (exp x * (x - y) <= m * (x - y)) by (apply Rmult_le_compat_r; lra). lra.
    - destruct H as [H|H]; [apply exp_increasing in H; lra|subst; lra]. }
  destruct (Rle_or_lt b a) as [H|H].
  - now apply G.
  - rewrite Rabs_minus_sym, (Rabs_minus_sym a). apply G; [lra|exact Hb].
Qed.
Lemma cos_lb x : 1 - x * x / 2 <= cos x.
Proof.
  replace x with (2 * (x / 2)) at 3 by field. rewrite cos_2a_sin.
  assert (H : Rabs (sin (x / 2)) <= Rabs (x / 2)).
  { destruct (Rle_or_lt 0 (x / 2)) as [P|P].
    - rewrite (Rabs_pos_eq (x / 2)) by exact P. apply Rabs_le. split; [|].
      + assert (sin (- (x / 2)) <= - - (x / 2)).
        { destruct P as [P|P]; [|rewrite <- P, Ropp_0, sin_0; lra].
          rewrite sin_neg. assert (sin (x / 2) >= - (x / 2)); [|lra].
          destruct (Rle_or_lt (x / 2) 1) as [Q|Q].
          - assert (0 <= sin (x / 2)); [|lra]. apply sin_ge_0; [lra|]. assert (P3 := PI2_3_2). lra.
          - assert (B := SIN_bound (x / 2)). lra. }
        rewrite sin_neg in H. lra.
      + destruct P as [P|P]; [left; now apply sin_lt_x|rewrite <- P, sin_0; lra].
    - rewrite (Rabs_left (x / 2)) by exact P. rewrite <- Rabs_Ropp, <- sin_neg. set (y := - (x / 2)).
      assert (Hy : 0 < y) by (unfold y; lra). apply Rabs_le. split.
      + destruct (Rle_or_lt y 1) as [Q|Q].
        * assert (0 <= sin y); [|lra]. apply sin_ge_0; [lra|]. assert (P3 := PI2_3_2). lra.
        * assert (B := SIN_bound y). lra.
      + left. now apply sin_lt_x. }
  assert (Q : sin (x / 2) * sin (x / 2) <= (x / 2) * (x / 2)).
  { rewrite <- (Rabs_pos_eq (sin (x / 2) * sin (x / 2))) by apply Rle_0_sqr.
    rewrite <- (Rabs_pos_eq ((x / 2) * (x / 2))) by apply Rle_0_sqr. rewrite !Rabs_mult.
    apply Rmult_le_compat; auto; apply Rabs_pos. }
  unfold Rsqr in *. nra.
Qed.
Lemma cexp_lip (w w' : C) m : exp (fst w) <= m -> exp (fst w') <= m ->
  Cmod (cexp w - cexp w')%C <= m * Cmod (w - w')%C.
Proof.
  intros Ha Hb. destruct w as [a b], w' as [a' b']. cbn [fst] in *.
  assert (m0 : 0 < m) by (assert (E := exp_pos a); lra).
  assert (L := exp_lip a a' m Ha Hb). set (r := exp a) in *. set (r' := exp a') in *.
  assert (P : 0 < r) by apply exp_pos. assert (P' : 0 < r') by apply exp_pos.
  unfold cexp, Cminus, Cplus, Copp, Cmod. cbn [fst snd]. fold r r'.
  replace m with (sqrt (m * m)) by (apply sqrt_square; lra).
  rewrite <- sqrt_mult_alt by (apply Rle_0_sqr). apply sqrt_le_1_alt.
  assert (S1 := sin2_cos2 b). assert (S2 := sin2_cos2 b'). unfold Rsqr in *.
  assert (C0 := cos_lb (b - b')). rewrite cos_minus in C0.
  assert (Q : (r - r') * (r - r') <= m * m * ((a - a') * (a - a'))).
  { rewrite <- (Rabs_pos_eq ((r - r') * (r - r'))) by apply Rle_0_sqr. rewrite Rabs_mult.
    replace (m * m * ((a - a') * (a - a'))) with ((m * Rabs (a - a')) * (m * Rabs (a - a'))).
    - apply Rmult_le_compat; auto; apply Rabs_pos.
    - rewrite <- (Rabs_pos_eq ((a - a') * (a - a'))) by apply Rle_0_sqr. rewrite Rabs_mult. ring. }
  set (cc := cos b * cos b' + sin b * sin b') in *.
  assert (RR : r * r' <= m * m) by (apply Rmult_le_compat; lra).
  assert (RR0 : 0 <= r * r') by (apply Rmult_le_pos; lra).
  replace ((r * cos b + - (r' * cos b')) ^ 2 + (r * sin b + - (r' * sin b')) ^ 2)
    with ((r - r') * (r - r') + 2 * (r * r') * (1 - cc) + r * r * (sin b * sin b + cos b * cos b - 1) + r' * r' * (sin b' * sin b' + cos b' * cos b' - 1)) by (unfold cc; ring).
  rewrite S1, S2.
  assert (D : 2 * (r * r') * (1 - cc) <= m * m * ((b - b') * (b - b'))).
  { apply Rle_trans with ((r * r') * ((b - b') * (b - b'))).
    - replace (2 * (r * r') * (1 - cc)) with ((r * r') * (2 * (1 - cc))) by ring. apply Rmult_le_compat_l; lra.
    - apply Rmult_le_compat_r; [apply Rle_0_sqr|exact RR]. }
  lra.
Qed.
Lemma cmod_cexp' z : Cmod (cexp z) = exp (fst z).
Proof.
  unfold Cmod, cexp. cbn [fst snd].
  replace ((exp (fst z) * cos (snd z)) ^ 2 + (exp (fst z) * sin (snd z)) ^ 2) with (exp (fst z) * exp (fst z)).
  - apply sqrt_square. left. apply exp_pos.
  - assert (S := sin2_cos2 (snd z)). unfold Rsqr in S. nra.
Qed.

(** the accuracy asked of the complex exponentials *)
Definition expAccurate (lm : Libm) : Prop :=
  forall f, f = lm_cexp lm \/ f = lm_xexp lm ->
  forall w, cfin w -> -16 <= v32 (fst w) <= 0 -> Rabs (v32 (snd w)) <= 16 ->
    cfin (f w) /\ Cmod (cv (f w) - cexp (cv w))%C <= 8 * eps * exp (v32 (fst w)).

Section Term.
Variable lm : Libm.
Hypothesis Hex : expAccurate lm.
Notation N := (B32 lm).
Variables (z ez : f32 * f32) (Z E : C) (ζ S : R).
Hypothesis HS : / 1000000000000000000000 <= S <= 1000000000000000000000.
Hypothesis Hζ : Cmod Z <= ζ.
Hypothesis Hζ5 : 0.1 <= ζ <= 4.6.
Hypothesis Nz : cnear z Z (1.2 * eps * ζ).
Hypothesis Zneg : v32 (fst z) <= 0.
Hypothesis ZnegR : fst Z <= 0.
Hypothesis NE : cnear ez E (6.1 * eps + 0.92 * eps * ζ).
Hypothesis HE : Cmod E <= 0.75.
Notation u := (eps * S).

Let ζ0 : 0 <= ζ. Proof. eapply Rle_trans; [apply Cmod_ge_0|exact Hζ]. Qed.
Let M1 : 0.1 * S <= ζ * S <= 4.6 * S. Proof. split; nra. Qed.
Let M2 : 0.1 * (ζ * S) <= ζ * ζ * S <= 4.6 * (ζ * S). Proof. split; nra. Qed.
Let M3 : 0 <= ζ * ζ * ζ * S <= 4.6 * (ζ * ζ * S). Proof. split; nra. Qed.
Let Ts : tau <= S / 100000000000000000. Proof. assert (H := tau_small). lra. Qed.
Let Tp : 0 < tau. Proof. apply tau_pos. Qed.
Let Bb : 100000000000000000000000000000 <= Big. Proof. unfold Big. apply IZR_le. vm_compute. discriminate. Qed.

Ltac go := unfold eps in *; lra.
Ltac cm := first [apply Cmod_ge_0|apply Rabs_pos].

(** the lane and the scalar version of each step *)
Definition times (lane : bool) (x : f32 * f32) (s : f32) : f32 * f32 :=
  if lane then cxmul N x (cbc N s) else cscale N x s.
Definition fmaS (lane : bool) (x : f32 * f32) (s a : f32) : f32 * f32 :=
  if lane then cfma N x (cbc N s) (cbc N a) else caddfx N 20 a x s.
Definition fmaP (lane : bool) (x : f32 * f32) (s m p : f32) : f32 * f32 :=
  if lane then cfma N x (cbc N s) (cbc N (tmul N m p)) else caddpx N 10 m p x s.
Definition fmaC (lane : bool) (x : f32 * f32) (s : f32) (y : f32 * f32) (t : f32) : f32 * f32 :=
  if lane then cfma N x (cbc N s) (cxmul N y (cbc N t)) else caddx N 21 x s y t.
Definition fnmaS (lane : bool) (x : f32 * f32) (s : f32) (v : f32 * f32) : f32 * f32 :=
  if lane then cfnma N x (cbc N s) v else csubx N 14 v x s.
Definition fmsC (lane : bool) (x y : f32 * f32) (m p : f32) : f32 * f32 :=
  if lane then cfms N x y (cbc N (tmul N m p)) else csubp N 13 (cmul N 11 x y) m p.

Notation Emul Bx Bs ex es := (Bx * es + Bs * ex + ex * es + eps * ((Bx + ex) * (Bs + es)) + 2 * tau).
Notation Eprod Bx By ex ey := (Bx * ey + By * ex + ex * ey).

Lemma times_near lane x s X Sx ex es Bx Bs : cnear x X ex -> near s Sx es -> Cmod X <= Bx -> Rabs Sx <= Bs ->
  16 * ((Bx + ex) * (Bs + es)) + 16 <= Big ->
  cnear (times lane x s) (X * RtoC Sx)%C (Emul Bx Bs ex es).
Proof.
  intros Nx Ns HX HSx Hb. destruct lane; cbn [times].
  - now apply cnear_xmulbc.
  - apply cnear_scale; auto.
    assert (G0 : 0 <= (Bx + ex) * (Bs + es)); [|lra].
    assert (A := cnear_e0 _ _ _ Nx). assert (B := near_e0 _ _ _ Ns).
    assert (C0 := Cmod_ge_0 X). assert (D := Rabs_pos Sx). apply Rmult_le_pos; lra.
Qed.
Section Combo.
Variables (lane : bool) (x : f32 * f32) (s : f32) (X : C) (Sx ex es Bx Bs : R).
Hypothesis Nx : cnear x X ex.
Hypothesis Ns : near s Sx es.
Hypothesis HX : Cmod X <= Bx.
Hypothesis HS0 : Rabs Sx <= Bs.
Let e0 : 0 <= (Bx + ex) * (Bs + es).
Proof.
  assert (A := cnear_e0 _ _ _ Nx). assert (B := near_e0 _ _ _ Ns).
  assert (C0 := Cmod_ge_0 X). assert (D := Rabs_pos Sx). apply Rmult_le_pos; lra.
Qed.
Lemma fmaS_near a A ea Ba Bw : near a A ea -> Rabs A <= Ba -> Cmod (X * RtoC Sx + RtoC A)%C <= Bw ->
  8 * ((Bx + ex) * (Bs + es) + (Ba + ea) + 1) <= Big -> Bw + Emul Bx Bs ex es + ea <= Big ->
  cnear (fmaS lane x s a) (X * RtoC Sx + RtoC A)%C (Emul Bx Bs ex es + ea + eps * (Bw + Emul Bx Bs ex es + ea) + 2 * tau).
Proof.
  intros Na HA HB Hb Hb2. assert (E0 := near_e0 _ _ _ Na). assert (A0 := Rabs_pos A). destruct lane; cbn [fmaS].
  - apply (cnear_fmabc lm) with Ba; auto; [now apply cnear_bc|rewrite Cmod_R; exact HA].
  - eapply cnear_le; [apply (caddfx_near lm 20 a x s A X Sx ea ex es Ba Bx Bs Bw Na Nx Ns HA HX HS0 HB); lra|]. lra.
Qed.
Lemma fmaP_near m p A ea Ba Bw : nearP m p A ea -> Rabs A <= Ba -> Cmod (X * RtoC Sx + RtoC A)%C <= Bw ->
  8 * ((Bx + ex) * (Bs + es) + (Ba + ea) + 1) <= Big -> Bw + Emul Bx Bs ex es + ea <= Big ->
  cnear (fmaP lane x s m p) (X * RtoC Sx + RtoC A)%C (Emul Bx Bs ex es + ea + eps * (Bw + Emul Bx Bs ex es + ea) + 2 * tau).
Proof.
  intros Np HA HB Hb Hb2. assert (A0 := Rabs_pos A).
  assert (E0 : 0 <= ea) by (eapply Rle_trans; [apply Rabs_pos|exact (proj2 (proj2 Np) true)]). destruct lane; cbn [fmaP].
  - apply (cnear_fmabc lm) with Ba; auto; [|rewrite Cmod_R; exact HA].
    apply cnear_bc. apply (nearP_mul lm) with Ba; auto. lra.
  - eapply cnear_le; [apply (caddpx_near lm 10 m p x s A X Sx ea ex es Ba Bx Bs Bw Np Nx Ns HA HX HS0 HB); lra|]. lra.
Qed.
Lemma fmaC_near y t Y St ey et By Bt Bw : cnear y Y ey -> near t St et -> Cmod Y <= By -> Rabs St <= Bt ->
  Cmod (X * RtoC Sx + Y * RtoC St)%C <= Bw ->
  8 * ((Bx + ex) * (Bs + es) + (By * Bt + Emul By Bt ey et) + 1) <= Big ->
  16 * ((By + ey) * (Bt + et)) + 16 <= Big -> Bw + Emul Bx Bs ex es + Emul By Bt ey et <= Big ->
  cnear (fmaC lane x s y t) (X * RtoC Sx + Y * RtoC St)%C
    (Emul Bx Bs ex es + Emul By Bt ey et + eps * (Bw + Emul Bx Bs ex es + Emul By Bt ey et) + 2 * tau).
Proof.
  intros Ny Nt HY HT HB Hb Hb3 Hb2.
  assert (W := times_near lane y t Y St ey et By Bt Ny Nt HY HT Hb3).
  assert (E0 := cnear_e0 _ _ _ W). assert (HV : Cmod (Y * RtoC St)%C <= By * Bt).
  { rewrite Cmod_mult, Cmod_R. apply Rmult_le_compat; auto; cm. }
  assert (B0 : 0 <= By * Bt) by (eapply Rle_trans; [apply Cmod_ge_0|exact HV]).
  destruct lane; cbn [fmaC times] in *.
  - now apply (cnear_fmabc lm) with (By * Bt).
  - assert (G0 : 0 <= (By + ey) * (Bt + et)).
    { assert (A := cnear_e0 _ _ _ Ny). assert (B := near_e0 _ _ _ Nt).
      assert (C0 := Cmod_ge_0 Y). assert (D := Rabs_pos St). apply Rmult_le_pos; lra. }
    eapply cnear_le; [apply (caddx_near lm 21 x s y t X Sx Y St ex es ey et Bx Bs By Bt Bw Nx Ns Ny Nt HX HS0 HY HT HB); lra|]. lra.
Qed.
Lemma fnmaS_near v V ev Bv Bw : cnear v V ev -> Cmod V <= Bv -> Cmod (V - X * RtoC Sx)%C <= Bw ->
  8 * ((Bx + ex) * (Bs + es) + (Bv + ev) + 1) <= Big -> Bw + Emul Bx Bs ex es + ev <= Big ->
  cnear (fnmaS lane x s v) (V - X * RtoC Sx)%C (Emul Bx Bs ex es + ev + eps * (Bw + Emul Bx Bs ex es + ev) + 2 * tau).
Proof.
  intros Nv HV HB Hb Hb2. assert (E0 := cnear_e0 _ _ _ Nv). assert (A0 := Cmod_ge_0 V). destruct lane; cbn [fnmaS].
  - now apply (cnear_fnmabc lm) with Bv.
  - eapply cnear_le; [apply (csubx_near lm 14 v x s V X Sx ev ex es Bv Bx Bs Bw Nv Nx Ns HV HX HS0 HB); lra|]. lra.
Qed.
End Combo.
(** both versions of a product minus a float; the larger of the two bounds term by term *)
Lemma fmsC_near lane x y m p X Y C1 ex ey ec Bx By Bc Bw : cnear x X ex -> cnear y Y ey -> nearP m p C1 ec ->
  Cmod X <= Bx -> Cmod Y <= By -> Rabs C1 <= Bc -> Cmod (X * Y - RtoC C1)%C <= Bw ->
  8 * ((Bx + ex) * (By + ey) + (Bc + ec) + 1) <= Big ->
  Bw + ec + (Eprod Bx By ex ey + 3 * eps * ((Bx + ex) * (By + ey)) + 6 * tau) <= Big / 8 ->
  cnear (fmsC lane x y m p) (X * Y - RtoC C1)%C
    (if lane then Eprod Bx By ex ey + ec +
       eps * (2.5 * ((Bx + ex) * (By + ey)) + 1.00001 * (Bc + ec + (Bw + (Eprod Bx By ex ey + ec)))) + 10 * tau
     else ec + (Eprod Bx By ex ey + 3 * eps * ((Bx + ex) * (By + ey)) + 6 * tau) +
       eps * (Bw + ec + (Eprod Bx By ex ey + 3 * eps * ((Bx + ex) * (By + ey)) + 6 * tau)) + 2 * tau).
Proof.
  intros Nx Ny Nc HX HY HC HB Hb Hb2.
  assert (E0 : 0 <= ec) by (eapply Rle_trans; [apply Rabs_pos|exact (proj2 (proj2 Nc) true)]).
  assert (A0 := Rabs_pos C1).
  assert (G0 : 0 <= (Bx + ex) * (By + ey)).
  { assert (A := cnear_e0 _ _ _ Nx). assert (B := cnear_e0 _ _ _ Ny).
    assert (C0 := Cmod_ge_0 X). assert (D := Cmod_ge_0 Y). apply Rmult_le_pos; lra. }
  destruct lane; cbn [fmsC].
  - apply (cnear_fms lm) with (Bz := Bc); auto; [|rewrite Cmod_R; exact HC].
    apply cnear_bc. apply (nearP_mul lm) with Bc; auto. lra.
  - assert (W := cnear_mul lm 11 x y X Y _ _ _ _ Nx Ny HX HY ltac:(lra)).
    assert (HXY : Cmod (X * Y)%C <= Bw + Bc).
    { replace (X * Y)%C with ((X * Y - RtoC C1) + RtoC C1)%C by ring. eapply Rle_trans; [apply Cmod_triangle|]. rewrite Cmod_R. lra. }
    eapply cnear_le; [apply (csubp_near lm 13 _ m p _ C1 _ ec (Bw + Bc) Bc Bw W Nc HXY HC HB)|]; lra.
Qed.

Lemma mul_mod (X Y : C) a b : Cmod X <= a -> Cmod Y <= b -> Cmod (X * Y)%C <= a * b.
Proof. intros. rewrite Cmod_mult. apply Rmult_le_compat; auto; cm. Qed.
Lemma mulr_mod (X : C) (y : R) a b : Cmod X <= a -> Rabs y <= b -> Cmod (X * RtoC y)%C <= a * b.
Proof. intros. apply mul_mod; auto. now rewrite Cmod_R. Qed.
Lemma add_mod (X Y : C) a b : Cmod X <= a -> Cmod Y <= b -> Cmod (X + Y)%C <= a + b.
Proof. intros. eapply Rle_trans; [apply Cmod_triangle|]. lra. Qed.
Lemma sub_mod (X Y : C) a b : Cmod X <= a -> Cmod Y <= b -> Cmod (X - Y)%C <= a + b.
Proof. intros. unfold Cminus. apply add_mod; auto. now rewrite Cmod_opp. Qed.

(** ** computeI0 *)
Definition i0f (lane : bool) (mp b mn d pd : f32) : f32 * f32 :=
  if lane then i0_lane N (tmul N mp pd) b (tmul N mn pd) d ez z else i0_scalar N mp b mn d pd ez z.
Lemma i0f_eq lane mp b mn d pd :
  i0f lane mp b mn d pd = fnmaS lane z d (fmsC lane ez (fmaP lane z b mp pd) mn pd).
Proof. destruct lane; reflexivity. Qed.

Lemma i0_near lane mp b mn d pd (A B C0 D : R) :
  nearP mp pd A (1.27 * u) -> near b B (3.55 * u) -> nearP mn pd C0 (1.27 * u) -> near d D (3.55 * u) ->
  Rabs A <= 0.5 * S -> Rabs B <= S -> Rabs C0 <= 0.5 * S -> Rabs D <= S ->
  cnear (i0f lane mp b mn d pd) (E * (Z * RtoC B + RtoC A) - RtoC C0 - Z * RtoC D)%C (9 * u + 22.4 * (ζ * u) + 0.93 * (ζ * ζ * u)) /\
  Cmod (E * (Z * RtoC B + RtoC A) - RtoC C0 - Z * RtoC D)%C <= 1.75 * (ζ * S) + 0.875 * S.
Proof.
  intros Na Nb Nc Nd HA HB HC HD. rewrite i0f_eq.
  assert (b1 := mulr_mod Z B ζ S Hζ HB). assert (b2 := mulr_mod Z D ζ S Hζ HD).
  assert (b3 : Cmod (Z * RtoC B + RtoC A)%C <= ζ * S + 0.5 * S) by (apply add_mod; [exact b1|rewrite Cmod_R; exact HA]).
  assert (W3 := fmaP_near lane z b Z B _ _ ζ S Nz Nb Hζ HB mp pd A _ _ _ Na HA b3 ltac:(go) ltac:(go)).
  assert (W3' : cnear (fmaP lane z b mp pd) (Z * RtoC B + RtoC A)%C (1.78 * u + 6.77 * (ζ * u))) by (eapply cnear_le; [exact W3|go]).
  clear W3.
  assert (b4 := mul_mod E _ _ _ HE b3).
  assert (b5 : Cmod (E * (Z * RtoC B + RtoC A) - RtoC C0)%C <= 0.75 * (ζ * S + 0.5 * S) + 0.5 * S) by (apply sub_mod; [exact b4|rewrite Cmod_R; exact HC]).
  assert (W5 := fmsC_near lane ez _ mn pd E _ C0 _ _ _ _ _ _ _ NE W3' Nc HE b3 HC b5 ltac:(go) ltac:(go)).
  assert (W5' : cnear (fmsC lane ez (fmaP lane z b mp pd) mn pd) (E * (Z * RtoC B + RtoC A) - RtoC C0)%C (7.98 * u + 14.68 * (ζ * u) + 0.926 * (ζ * ζ * u))).
  { eapply cnear_le; [exact W5|]. destruct lane; go. }
  clear W5.
  assert (b6 := sub_mod _ _ _ _ b5 b2).
  assert (W6 := fnmaS_near lane z d Z D _ _ ζ S Nz Nd Hζ HD _ _ _ _ _ W5' b5 b6 ltac:(go) ltac:(go)).
  split; [eapply cnear_le; [exact W6|go]|go].
Qed.

(** ** one boundary *)
Definition sumf (lane fwd : bool) (a pd ph md qd : f32) (v : f32 * f32) : f32 * f32 :=
  if lane then sum_lane_upd N fwd a pd ph md qd z v else sum_scalar_upd N fwd a pd ph md qd z v.
Definition expf (lane : bool) : f32 * f32 -> f32 * f32 := if lane then lm_xexp lm else lm_cexp lm.
Definition t2f (lane : bool) (pd ph md qd : f32) : f32 * f32 :=
  fmaC lane z qd (fmaS lane z ph pd) md.
Lemma sumf_eq lane fwd a pd ph md qd v : sumf lane fwd a pd ph md qd v =
  let t3 := expf lane (times lane z a) in
  let t2 := t2f lane pd ph md qd in
  if fwd then (if lane then cfma N t3 t2 v else cadd N v (cmul N 23 t3 t2))
  else (if lane then cfnma N t3 t2 v else csub N v (cmul N 23 t3 t2)).
Proof. destruct lane, fwd; reflexivity. Qed.

Lemma exp_near lane a (al : R) : near a al 0 -> 0 <= al <= 3 ->
  exists w, cnear (expf lane (times lane z a)) w (8 * eps) /\ Cmod w <= 1 /\
    forall be, 0 <= be -> Cmod (w - cexp (RtoC be * Z))%C <= 7 * eps * ζ + ζ * Rabs (al - be).
Proof.
  intros Na Hal.
  assert (HaR : Rabs al <= 3) by (rewrite Rabs_pos_eq; lra).
  assert (W := times_near lane z a Z al _ _ ζ 3 Nz Na Hζ HaR ltac:(go)).
  assert (W' : cnear (times lane z a) (Z * RtoC al)%C (6.9 * eps * ζ + 2 * tau)) by (eapply cnear_le; [exact W|go]).
  clear W. assert (T1 := tau_small).
  assert (bz := mulr_mod Z al ζ 3 Hζ HaR).
  assert (bw := cnear_mod _ _ _ _ W' bz).
  set (w := times lane z a) in *.
  (* the real part is not positive *)
  assert (Hre : v32 (fst w) <= 0).
  { destruct Na as [Fa Va]. assert (Ea : v32 a = al) by (apply Rabs_le_inv in Va; lra).
    destruct W' as [Fw _].
    assert (Az := cnear_mod _ _ _ _ Nz Hζ).
    assert (HG : Cmod (cv z) * Rabs (v32 a) <= 20).
    { rewrite Ea. apply Rle_trans with ((ζ + 1.2 * eps * ζ) * 3); [apply Rmult_le_compat; auto; cm|go]. }
    assert (R0 : v32 (fst w) = rnd32 (v32 (fst z) * v32 a)).
    { unfold w. destruct lane; cbn [times].
      - destruct (cxmul_bc_val lm z a 20 (proj1 Nz) Fa HG ltac:(lra)) as [_ V]. exact (f_equal fst V).
      - destruct Nz as [[Fz1 Fz2] _]. apply (mul32 (fst z) a Fz1 Fa). apply big_small.
        assert (Q := cmod_fst (cv z)). cbn [cv fst] in Q. rewrite Rabs_mult.
        apply Rle_trans with 20; [|lra]. eapply Rle_trans; [|exact HG]. apply Rmult_le_compat_r; [apply Rabs_pos|exact Q]. }
    rewrite R0, Ea. apply rnd32_le; [apply generic_format_0|]. nra. }
  assert (b1 := cmod_fst (cv w)). assert (b2 := cmod_snd (cv w)). unfold cv in b1 at 1, b2 at 1. cbn [fst snd] in b1, b2.
  assert (bw16 : Cmod (cv w) <= 16) by go.
  assert (Hw : -16 <= v32 (fst w) <= 0) by (apply Rabs_le_inv in b1; lra).
  destruct (Hex (expf lane) ltac:(destruct lane; [right|left]; reflexivity) w (proj1 W') Hw ltac:(lra)) as [Fe Ee].
  assert (X1 : exp (v32 (fst w)) <= 1) by (rewrite <- exp_0; destruct (proj2 Hw) as [H|H]; [left; now apply exp_increasing|rewrite H; lra]).
  exists (cexp (cv w)). split; [split; [exact Fe|]|split].
  - go.
  - rewrite cmod_cexp'. exact X1.
  - intros be Hbe.
    assert (X2 : exp (fst (RtoC be * Z)%C) <= 1).
    { replace (fst (RtoC be * Z)%C) with (be * fst Z) by (destruct Z; unfold RtoC, Cmult; cbn [fst snd]; ring).
      rewrite <- exp_0. assert (H : be * fst Z <= 0) by nra. destruct H as [H|H]; [left; now apply exp_increasing|rewrite H; lra]. }
    assert (L := cexp_lip (cv w) (RtoC be * Z)%C 1 X1 X2).
    destruct W' as [_ Ew].
    assert (D : Cmod (cv w - RtoC be * Z)%C <= (6.9 * eps * ζ + 2 * tau) + ζ * Rabs (al - be)).
    { replace (cv w - RtoC be * Z)%C with ((cv w - Z * RtoC al) + Z * RtoC (al - be))%C by (rewrite RtoC_minus; ring).
      apply add_mod; [exact Ew|]. apply mulr_mod; [exact Hζ|lra]. }
    go.
Qed.

Lemma term_near lane a pd ph md qd (d X dM be : R) :
  fin32 a = true -> 0 <= v32 a <= 3 -> 0 <= be -> Rabs ((v32 a - be) * d) <= 4 * eps ->
  near pd d (0.5 * eps) -> Rabs d <= 0.5 -> near ph X 0 -> 0 <= X <= 1 ->
  near md dM (3.03 * u) -> Rabs dM <= 2 * S -> near qd (- (dM * X)) (5.6 * u) ->
  exists w, cnear (expf lane (times lane z a)) w (8 * eps) /\ Cmod w <= 1 /\
    cnear (t2f lane pd ph md qd) (RtoC (d * dM)) (5.54 * u + 21.6 * (ζ * u)) /\ Cmod (RtoC (d * dM)) <= S /\
    Cmod (w * RtoC (d * dM) - cexp (RtoC be * Z) * RtoC (d * dM))%C <= 15.1 * (ζ * u) /\
    Cmod (cexp (RtoC be * Z) * RtoC (d * dM))%C <= S.
Proof.
  intros Fa Ha Hbe Hab Npd Hd Nph HX Nmd HdM Nqd.
  destruct (exp_near lane a (v32 a) (near_exact a Fa) Ha) as (w & Nw & Bw & Dw). specialize (Dw be Hbe).
  assert (HXR : Rabs X <= 1) by (rewrite Rabs_pos_eq; lra).
  assert (HdMX : Rabs (- (dM * X)) <= 2 * S).
  { rewrite Rabs_Ropp, Rabs_mult. assert (0 <= Rabs dM) by apply Rabs_pos. assert (0 <= Rabs X) by apply Rabs_pos.
    replace (2 * S) with (2 * S * 1) by ring. apply Rmult_le_compat; assumption. }
  assert (HdD : Rabs (d * dM) <= S).
  { rewrite Rabs_mult. apply Rle_trans with (0.5 * (2 * S)); [|lra]. apply Rmult_le_compat; auto; apply Rabs_pos. }
  (* tmp2 *)
  assert (b1 := mulr_mod Z X ζ 1 Hζ HXR).
  assert (b2 : Cmod (Z * RtoC X + RtoC d)%C <= ζ * 1 + 0.5) by (apply add_mod; [exact b1|rewrite Cmod_R; exact Hd]).
  assert (T1 := tau_small).
  assert (W2 : cnear (fmaS lane z ph pd) (Z * RtoC X + RtoC d)%C (1.001 * eps + 3.22 * eps * ζ)).
  { eapply cnear_le; [exact (fmaS_near lane z ph Z X _ _ ζ 1 Nz Nph Hζ HXR pd d _ _ _ Npd Hd b2 ltac:(go) ltac:(go))|go]. }
  assert (Et : (Z * RtoC (- (dM * X)) + (Z * RtoC X + RtoC d) * RtoC dM)%C = RtoC (d * dM)).
  { rewrite RtoC_opp, !RtoC_mult. ring. }
  assert (b3 : Cmod (Z * RtoC (- (dM * X)) + (Z * RtoC X + RtoC d) * RtoC dM)%C <= S) by (rewrite Et, Cmod_R; exact HdD).
  assert (W5 := fmaC_near lane z qd Z _ _ _ ζ (2 * S) Nz Nqd Hζ HdMX _ md _ dM _ _ _ _ S W2 Nmd b2 HdM b3 ltac:(go) ltac:(go) ltac:(go)). rewrite Et in W5.
  fold (t2f lane pd ph md qd) in W5.
  assert (W5' : cnear (t2f lane pd ph md qd) (RtoC (d * dM)) (5.54 * u + 21.6 * (ζ * u))) by (eapply cnear_le; [exact W5|go]). clear W5.
  exists w. split; [exact Nw|]. split; [exact Bw|]. split; [exact W5'|]. split; [rewrite Cmod_R; exact HdD|]. split.
  - replace (w * RtoC (d * dM) - cexp (RtoC be * Z) * RtoC (d * dM))%C with ((w - cexp (RtoC be * Z)) * RtoC (d * dM))%C by ring.
    rewrite Cmod_mult, Cmod_R.
    apply Rle_trans with ((7 * eps * ζ + ζ * Rabs (v32 a - be)) * Rabs (d * dM)).
    { apply Rmult_le_compat_r; [apply Rabs_pos|exact Dw]. }
    assert (P1 : 7 * eps * ζ * Rabs (d * dM) <= 7 * eps * ζ * S) by (apply Rmult_le_compat_l; [unfold eps; nra|exact HdD]).
    assert (P2 : Rabs (v32 a - be) * Rabs (d * dM) <= 8 * u).
    { replace (Rabs (v32 a - be) * Rabs (d * dM)) with (Rabs ((v32 a - be) * d) * Rabs dM) by (rewrite !Rabs_mult; ring).
      replace (8 * u) with (4 * eps * (2 * S)) by ring. apply Rmult_le_compat; auto; apply Rabs_pos. }
    assert (P3 : ζ * (Rabs (v32 a - be) * Rabs (d * dM)) <= ζ * (8 * u)) by (apply Rmult_le_compat_l; lra).
    go.
  - rewrite Cmod_mult, Cmod_R, cmod_cexp'.
    assert (X2 : exp (fst (RtoC be * Z)%C) <= 1).
    { replace (fst (RtoC be * Z)%C) with (be * fst Z) by (destruct Z; unfold RtoC, Cmult; cbn [fst snd]; ring).
      rewrite <- exp_0. assert (H : be * fst Z <= 0) by nra. destruct H as [H|H]; [left; now apply exp_increasing|rewrite H; lra]. }
    apply Rle_trans with (1 * S); [|lra]. apply Rmult_le_compat; auto; [left; apply exp_pos|apply Rabs_pos].
Qed.

Lemma sum_near lane fwd a pd ph md qd v w r (T V : C) e m :
  cnear (expf lane (times lane z a)) w (8 * eps) -> Cmod w <= 1 ->
  cnear (t2f lane pd ph md qd) r (5.54 * u + 21.6 * (ζ * u)) -> Cmod r <= S ->
  Cmod (w * r - T)%C <= 15.1 * (ζ * u) -> Cmod T <= S ->
  cnear v V e -> Cmod V <= m -> 0 <= e <= 10000 * u -> 0 <= m <= 1.75 * (ζ * S) + 5 * S ->
  cnear (sumf lane fwd a pd ph md qd v) (if fwd then V + T else V - T)%C (e + 27.2 * u + 40.4 * (ζ * u)) /\
  Cmod (if fwd then V + T else V - T)%C <= m + S.
Proof.
  intros N3 B3 N2 B2 Dt Bt Nv Bv He Hm. rewrite sumf_eq. cbv zeta.
  set (t3 := expf lane (times lane z a)) in *. set (t2 := t2f lane pd ph md qd) in *.
  assert (bp := mul_mod _ _ _ _ B3 B2).
  split; [|destruct fwd; [exact (add_mod _ _ _ _ Bv Bt)|exact (sub_mod _ _ _ _ Bv Bt)]].
  assert (Mv : forall x Y Q ea eb, cnear x Y ea -> Cmod (Y - Q)%C <= 15.1 * (ζ * u) -> ea + 15.1 * (ζ * u) <= eb -> cnear x Q eb).
  { intros x Y Q ea eb [F H] HQ HE'. split; [exact F|]. replace (cv x - Q)%C with ((cv x - Y) + (Y - Q))%C by ring.
    eapply Rle_trans; [apply Cmod_triangle|]. lra. }
  destruct fwd; destruct lane.
  - assert (b : Cmod (w * r + V)%C <= 1 * S + m) by (now apply add_mod).
    eapply Mv; [exact (cnear_fma lm t3 t2 v w r V _ _ _ _ _ _ _ N3 N2 Nv B3 B2 Bv ltac:(go) b)| |go].
    replace (w * r + V - (V + T))%C with (w * r - T)%C by ring. exact Dt.
  - assert (W6 := cnear_mul lm 23 t3 t2 w r _ _ _ _ N3 N2 B3 B2 ltac:(go)).
    assert (b : Cmod (V + w * r)%C <= m + 1 * S) by (now apply add_mod).
    eapply Mv; [exact (cnear_add lm v _ V _ _ _ _ Nv W6 b ltac:(go))| |go].
    replace (V + w * r - (V + T))%C with (w * r - T)%C by ring. exact Dt.
  - assert (b : Cmod (V - w * r)%C <= m + 1 * S) by (now apply sub_mod).
    eapply Mv; [exact (cnear_fnma lm t3 t2 v w r V _ _ _ _ _ _ _ N3 N2 Nv B3 B2 Bv ltac:(go) b)| |go].
    replace (V - w * r - (V - T))%C with (- (w * r - T))%C by ring. rewrite Cmod_opp. exact Dt.
  - assert (W6 := cnear_mul lm 23 t3 t2 w r _ _ _ _ N3 N2 B3 B2 ltac:(go)).
    assert (b : Cmod (V - w * r)%C <= m + 1 * S) by (now apply sub_mod).
    eapply Mv; [exact (cnear_sub lm v _ V _ _ _ _ Nv W6 b ltac:(go))| |go].
    replace (V - w * r - (V - T))%C with (- (w * r - T))%C by ring. rewrite Cmod_opp. exact Dt.
Qed.
End Term.
