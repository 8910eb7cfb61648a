(** * ExactSig: the ideal signals are continuous and bounded; the response is linear *)
From Coq Require Import ZArith List Bool Reals Lia Lra Arith.
From Flocq Require Import Core.
From Verif Require Import Num CrossFader Wavetable Osc Spec SpecC SpecT RNum.
From Coquelicot Require Import Coquelicot.
From Verif Require Import SpecE ExactMath ExactStep ExactRun.
Import ListNotations.
Local Open Scope R_scope.

(** ** The waveform *)
Lemma wave_cont ys t : continuous (wave ys) t.
Proof.
  set (n := IZR (zlen ys)). set (c := cyc ys).
  change (wave ys) with (fun s => poly c n s).
  destruct (Req_dec n 0) as [H0|H0].
  { apply (continuous_ext (fun _ => poly c n 0)).
    - intros s. unfold poly, line. rewrite H0, !Rmult_0_r. reflexivity.
    - apply continuous_const. }
  assert (Hn : 0 < n).
  { assert (0 <= n) by (apply (IZR_le 0); unfold zlen; lia). lra. }
  set (k := Zfloor (t * n)).
  assert (F1 := Zfloor_lb (t * n)). assert (F2 := Zfloor_ub (t * n)). fold k in F1, F2.
  set (f := fun s => let x := s * n - IZR k in
       c k + (x - Rabs x) / 2 * (c k - c (k - 1)%Z) + (x + Rabs x) / 2 * (c (k + 1)%Z - c k)).
  apply (continuous_ext_loc (fun s => poly c n s) f).
  - assert (He : 0 < (IZR k + 1 - t * n) / n).
    { apply Rdiv_lt_0_compat; lra. }
    assert (He2 : 0 < / n) by now apply Rinv_0_lt_compat.
    assert (Hm : 0 < Rmin ((IZR k + 1 - t * n) / n) (/ n)) by now apply Rmin_pos.
    exists (mkposreal _ Hm). intros s Hs. unfold ball in Hs. cbn in Hs. unfold AbsRing_ball, abs, minus, plus, opp in Hs.
    cbn in Hs. apply Rabs_def2 in Hs. destruct Hs as [S1 S2].
    assert (M1 := Rmin_l ((IZR k + 1 - t * n) / n) (/ n)). assert (M2 := Rmin_r ((IZR k + 1 - t * n) / n) (/ n)).
    assert (U : s * n < IZR k + 1).
    { assert (s - t < (IZR k + 1 - t * n) / n) by lra.
      apply Rmult_lt_compat_r with (r := n) in H; [|assumption].
      replace ((IZR k + 1 - t * n) / n * n) with (IZR k + 1 - t * n) in H by (field; lra). lra. }
    assert (D : IZR k - 1 < s * n).
    { assert (- / n < s - t) by lra. apply Rmult_lt_compat_r with (r := n) in H; [|assumption].
      replace (- / n * n) with (-1) in H by (field; lra). lra. }
    enough (E : f s = poly c n s) by (exact E || exact (eq_sym E)).
    unfold f. cbv zeta. destruct (Rle_lt_dec (IZR k) (s * n)) as [H|H].
    + rewrite (poly_line c n k s) by lra. rewrite Rabs_pos_eq by lra. unfold line. field.
    + rewrite (poly_line c n (k - 1) s) by (rewrite minus_IZR; lra). rewrite Rabs_left by lra. unfold line.
      rewrite minus_IZR. replace (k - 1 + 1)%Z with k by lia. field.
  - unfold f. assert (L : forall s, continuous (fun s => s * n - IZR k) s).
    { intros s. apply (ex_derive_continuous (V := R_NormedModule)). auto_derive. exact I. }
    assert (A : forall s, continuous (fun s => Rabs (s * n - IZR k)) s).
    { intros s. apply (continuous_comp (fun s => s * n - IZR k) Rabs); [apply L|]. apply continuous_Rabs. }
    apply (continuous_plus (V := R_NormedModule)); [apply (continuous_plus (V := R_NormedModule))|].
    + apply continuous_const.
    + apply (continuous_mult (K := R_AbsRing)); [|apply continuous_const].
      apply (continuous_mult (K := R_AbsRing)); [|apply continuous_const].
      apply (continuous_minus (V := R_NormedModule)); [apply L|apply A].
    + apply (continuous_mult (K := R_AbsRing)); [|apply continuous_const].
      apply (continuous_mult (K := R_AbsRing)); [|apply continuous_const].
      apply (continuous_plus (V := R_NormedModule)); [apply L|apply A].
Qed.

Lemma cyc_In ys k : (0 < zlen ys)%Z -> In (cyc ys k) ys.
Proof.
  intros H. unfold cyc, elem. assert (B := Z.mod_pos_bound k (zlen ys) H).
  apply nth_In. unfold zlen in *. lia.
Qed.

Lemma wave_bound ys B t : (0 < zlen ys)%Z -> (forall y, In y ys -> Rabs y <= B) -> Rabs (wave ys t) <= B.
Proof.
  intros H HB. unfold wave. cbv zeta. set (x := t * IZR (zlen ys)). set (k := Zfloor x).
  assert (F1 := Zfloor_lb x). assert (F2 := Zfloor_ub x). fold k in F1, F2.
  assert (A := HB _ (cyc_In ys k H)). assert (D := HB _ (cyc_In ys (k + 1) H)).
  apply Rabs_le_between in A. apply Rabs_le_between in D. apply Rabs_le_between.
  set (f := x - IZR k) in *. assert (0 <= f < 1) by (unfold f; lra).
  split; nra.
Qed.

Lemma wave_lin a b xs ys zs t : zlen xs = zlen zs -> zlen ys = zlen zs ->
  (forall k, cyc zs k = a * cyc xs k + b * cyc ys k) -> wave zs t = a * wave xs t + b * wave ys t.
Proof. intros E1 E2 H. unfold wave. rewrite E1, E2. cbv zeta. rewrite !H. ring. Qed.

(** ** Responses *)
Lemma cont_int z x : (forall u, continuous x u) -> exists I, is_int z x 0 1 I.
Proof.
  intros Hc.
  assert (A : ex_RInt (V := R_NormedModule) (fun u => er z u * x u) 0 1).
  { apply (ex_RInt_continuous (V := R_CompleteNormedModule)). intros u _.
    apply (continuous_mult (K := R_AbsRing)); [apply er_cont|apply Hc]. }
  assert (B : ex_RInt (V := R_NormedModule) (fun u => ei z u * x u) 0 1).
  { apply (ex_RInt_continuous (V := R_CompleteNormedModule)). intros u _.
    apply (continuous_mult (K := R_AbsRing)); [apply ei_cont|apply Hc]. }
  destruct A as [a A]. destruct B as [b B]. exists (a, b). split; assumption.
Qed.

Lemma response_is z x : (forall u, continuous x u) -> is_int z x 0 1 (response z x).
Proof. intros Hc. destruct (cont_int z x Hc) as [I HI]. now rewrite (response_int z x I HI). Qed.

Lemma response_ext z x y : (forall u, 0 <= u <= 1 -> x u = y u) -> response z x = response z y.
Proof.
  intros H. unfold response. f_equal; apply RInt_ext; intros u Hu;
    rewrite Rmin_left, Rmax_right in Hu by lra; rewrite H by lra; reflexivity.
Qed.

Lemma response_lin z x y a b : (forall u, continuous x u) -> (forall u, continuous y u) ->
  response z (fun u => a * x u + b * y u) = (RtoC a * response z x + RtoC b * response z y)%C.
Proof. intros Hx Hy. apply response_int. apply is_int_lin; now apply response_is. Qed.

Lemma response_const z c : z <> RtoC 0 -> response z (fun _ => c) = (RtoC c * (cexp z - 1) / z)%C.
Proof.
  intros Hz. assert (HI := response_is z (fun _ => c) ltac:(intros; apply continuous_const)).
  assert (HI2 : is_int z (fun u => c + 0 * u) 0 1 (response z (fun _ => c))).
  { eapply is_int_ext; [lra| |exact HI]. intros; cbn; ring. }
  apply affine_is_int in HI2. unfold Eseg in HI2.
  replace (c + 0 * 0) with c in HI2 by ring. replace (c + 0 * 1) with c in HI2 by ring.
  assert (E0 : ec z 0 = cexp z).
  { unfold ec, er, ei, cexp. now rewrite Rminus_0_r, !Rmult_1_r. }
  assert (E1 : ec z 1 = RtoC 1).
  { unfold ec, er, ei. replace (1 - 1) with 0 by ring. now rewrite !Rmult_0_r, exp_0, cos_0, sin_0, Rmult_1_r, Rmult_0_r. }
  rewrite E0, E1 in HI2.
  set (I := response z (fun _ => c)) in *.
  assert (E : (I = (z * z * I) / (z * z))%C).
  { field. exact Hz. }
  rewrite E, HI2. field. exact Hz.
Qed.

Definition decay (a : R) : R := (1 - exp (- a)) / a.
Lemma decay_int a B : 0 < a -> is_RInt (fun u => exp (- a * (1 - u)) * B) 0 1 (decay a * B).
Proof.
  intros Ha.
  assert (D : is_RInt (V := R_NormedModule) (fun u => exp (- a * (1 - u)) * B) 0 1
     (minus (exp (- a * (1 - 1)) / a * B) (exp (- a * (1 - 0)) / a * B))).
  { apply (is_RInt_derive (V := R_CompleteNormedModule) (fun u => exp (- a * (1 - u)) / a * B)).
    - intros u _. auto_derive; [lra|]. unfold Rminus. field. lra.
    - intros u _. apply (ex_derive_continuous (V := R_NormedModule)). auto_derive. exact I. }
  replace (decay a * B) with (minus (exp (- a * (1 - 1)) / a * B) (exp (- a * (1 - 0)) / a * B)); [exact D|].
  unfold minus, plus, opp, decay; cbn. replace (- a * (1 - 1)) with 0 by ring. replace (- a * (1 - 0)) with (- a) by ring.
  rewrite exp_0. field. lra.
Qed.

Lemma response_bound z x B : fst z < 0 -> (forall u, continuous x u) ->
  (forall u, 0 <= u <= 1 -> Rabs (x u) <= B) -> Cmod (response z x) <= decay (- fst z) * B.
Proof.
  intros Hz Hc HB. destruct (response_is z x Hc) as [I1 I2].
  set (I := response z x) in *.
  set (a := - fst z). assert (Ha : 0 < a) by (unfold a; lra).
  set (M := Cmod I). assert (HM : 0 <= M) by apply Cmod_ge_0.
  assert (HMs : M * M = fst I * fst I + snd I * snd I).
  { unfold M, Cmod. rewrite sqrt_sqrt; [ring|]. nra. }
  assert (D := decay_int a (B * M) Ha).
  assert (L : is_RInt (V := R_NormedModule) (fun u => fst I * (er z u * x u) + snd I * (ei z u * x u)) 0 1 (M * M)).
  { rewrite HMs. apply (is_RInt_plus (V := R_NormedModule));
      [apply (is_RInt_scal (V := R_NormedModule) _ _ _ (fst I)); exact I1
      |apply (is_RInt_scal (V := R_NormedModule) _ _ _ (snd I)); exact I2]. }
  assert (Le : M * M <= decay a * (B * M)).
  { apply (is_RInt_le _ _ 0 1 _ _ ltac:(lra) L D). intros u Hu.
    assert (Hx := HB u ltac:(lra)). set (e := exp (- a * (1 - u))). assert (He : 0 < e) by apply exp_pos.
    set (v := fst I * er z u + snd I * ei z u).
    replace (fst I * (er z u * x u) + snd I * (ei z u * x u)) with (v * x u) by (unfold v; ring).
    assert (Hv : Rabs v <= M * e).
    { apply Rabs_le_between. assert (v * v <= (M * e) * (M * e)).
      { unfold v. replace (M * e * (M * e)) with ((M * M) * (e * e)) by ring. rewrite HMs.
        assert (Ee : er z u * er z u + ei z u * ei z u = e * e).
        { unfold er, ei. replace (exp (fst z * (1 - u))) with e by (unfold e, a; f_equal; ring).
          assert (T := sin2_cos2 (snd z * (1 - u))). unfold Rsqr in T. nra. }
        rewrite <- Ee. generalize (er z u) (ei z u) (fst I) (snd I). intros p q r t.
        assert (S := Rle_0_sqr (r * q - t * p)). unfold Rsqr in S. nra. }
      assert (0 <= M * e) by nra. split; nra. }
    apply Rle_trans with (Rabs (v * x u)); [apply Rle_abs|]. rewrite Rabs_mult.
    assert (0 <= Rabs v) by apply Rabs_pos. assert (0 <= Rabs (x u)) by apply Rabs_pos.
    replace (e * (B * M)) with ((M * e) * B) by ring. apply Rmult_le_compat; lra. }
  destruct (Rle_lt_or_eq_dec 0 M HM) as [Hp|Hp].
  - apply Rmult_le_reg_r with M; [assumption|]. replace (decay a * B * M) with (decay a * (B * M)) by ring. exact Le.
  - rewrite <- Hp. assert (Hb := HB 0 ltac:(lra)). assert (0 <= Rabs (x 0)) by apply Rabs_pos.
    assert (0 <= decay a).
    { unfold decay. apply Rmult_le_pos; [|left; now apply Rinv_0_lt_compat].
      assert (exp (- a) < exp 0) by (apply exp_increasing; lra). rewrite exp_0 in H0. lra. }
    apply Rmult_le_pos; lra.
Qed.

(** the signal of one sample is continuous *)
Lemma wave_path_cont ys q d u : continuous (fun u => wave ys (q + d * u)) u.
Proof.
  apply (continuous_comp (fun u => q + d * u) (wave ys)); [|apply wave_cont].
  apply (ex_derive_continuous (V := R_NormedModule)). auto_derive. exact I.
Qed.
Lemma mixed_cont src st q d mm u : continuous (mixed src st q d mm) u.
Proof.
  destruct mm as [[[m g] mu] gu]. unfold mixed.
  apply (continuous_plus (V := R_NormedModule)); apply (continuous_mult (K := R_AbsRing));
    try apply continuous_const; apply wave_path_cont.
Qed.
