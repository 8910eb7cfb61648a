(** * PSum: error and size of the filter memory, pole by pole, and the sum of the poles *)
From Coq Require Import ZArith List Bool Reals Lia Lra Permutation.
From Flocq Require Import Core IEEE754.BinarySingleNaN.
From Verif Require Import Num Maths Wavetable Filters Osc Spec B32 NumFacts Laws B32Facts B32Laws WTFacts SimdFacts
  OscFacts OscRun RNum SpecF.
From Coquelicot Require Import Coquelicot.
From Verif Require Import SpecC SpecT SpecE ExactMath PApx PSlope PTerm PVal PCoef PPole.
Import ListNotations.
Local Open Scope R_scope.

(** per pole: error of the scaled integral (units of ζ²u), error of the memory (units of u),
    size of the memory (units of S) *)
Definition poleErr (f : FilterType) : list (R * R * R) :=
  match f with
  | kType1 => [(82.87, 524, 4.652)]
  | kType2 => [(78.59, 548, 3.822); (73.67, 908, 8.282); (65.21, 1810, 18.865); (55.94, 3221, 37.735); (49.64, 4626, 58.530)]
  | kType3 => [(82.87, 504, 4.300); (82.87, 826, 7.402)]
  | kType4 => [(82.87, 1128, 10.018); (82.87, 548, 4.471); (82.87, 1787, 16.033)]
  | kType5 => [(91.20, 558, 3.819); (84.48, 960, 8.175); (74.39, 1829, 17.618); (66.68, 2730, 28.607)]
  end.
Definition outErr (f : FilterType) : R :=
  match f with kType1 => 530 | kType2 => 11800 | kType3 => 1360 | kType4 => 3560 | kType5 => 6320 end.
(** size of the output of the ideal filter, in units of S *)
Definition outSize (f : FilterType) : R :=
  match f with kType1 => 4.7 | kType2 => 127.3 | kType3 => 11.8 | kType4 => 30.6 | kType5 => 58.3 end.

Record errOk (zl zh ρ r2 m e b : R) : Prop := {
  er_m : forall ζ, zl <= ζ -> 1.0001 * (117.8 + 184 * ζ + 0.93 * (ζ * ζ)) + 2.1 * (ζ * ζ) <= m * (ζ * ζ);
  er_m0 : 0 <= m <= 500; er_e0 : 0 <= e <= 10000; er_b0 : 0 <= b <= 100;
  er_b : ρ * b + 1.0001 * r2 <= b;
  er_e : (ρ + 0.0001) * e + b * (7.12 + 0.92 * zh + 3.01 * ρ) + r2 * (1.0003 * m + 17.9) <= e }.

Lemma er_m_of zl m ζ : 2 <= zl -> 117.83 + 184.02 * zl <= (m - 3.0302) * (zl * zl) -> 10 <= m -> zl <= ζ ->
  1.0001 * (117.8 + 184 * ζ + 0.93 * (ζ * ζ)) + 2.1 * (ζ * ζ) <= m * (ζ * ζ).
Proof.
  intros Hz Hm Hm0 H. set (a := m - 3.0302) in *.
  assert (A : 184.02 * zl + 117.83 <= a * zl * zl) by lra.
  assert (B : a * zl * ζ <= a * (ζ * ζ)).
  { replace (a * zl * ζ) with (a * (zl * ζ)) by ring. apply Rmult_le_compat_l; [unfold a; lra|]. apply Rmult_le_compat_r; lra. }
  assert (Q : 0 <= ζ * ζ) by nra.
  assert (D : 184.02 * ζ + 117.83 <= a * zl * ζ).
  { assert (H1 : 184.02 + 117.83 / zl <= a * zl).
    { apply Rmult_le_reg_r with zl; [lra|]. replace ((184.02 + 117.83 / zl) * zl) with (184.02 * zl + 117.83) by (field; lra). exact A. }
    apply Rle_trans with ((184.02 + 117.83 / zl) * ζ); [|apply Rmult_le_compat_r; lra].
    assert (H0 : 117.83 / zl * zl <= 117.83 / zl * ζ).
    { apply Rmult_le_compat_l; [|lra]. apply Rlt_le, Rdiv_lt_0_compat; lra. }
    replace (117.83 / zl * zl) with 117.83 in H0 by (field; lra). lra. }
  unfold a in *. lra.
Qed.

Lemma err_at f x zl zh rho r2 : nth_error (poleData f) x = Some (zl, zh, rho, r2) ->
  exists m e b, nth_error (poleErr f) x = Some (m, e, b) /\
    errOk (IZR zl / 1000) (IZR zh / 1000) (IZR rho / 10000) (IZR r2 / 1000) m e b.
Proof.
  destruct f; destruct x as [|[|[|[|[|x]]]]]; cbn; intros H; try discriminate H; try (now destruct x);
    injection H as <- <- <- <-; do 3 eexists; (split; [reflexivity|]);
    (constructor; [intros ζ Hζ; apply (er_m_of _ _ _) with (4 := Hζ); lra| | | | |]; lra).
Qed.

Lemma err_len f : length (poleErr f) = numCoeffs f.
Proof. destruct f; reflexivity. Qed.

(** ** The sum of the poles *)
Section Sum.
Variable lm : Libm.
Notation N := (B32 lm).
Variable S : R.
Hypothesis HS : / 1000000000000000000000 <= S <= 1000000000000000000000.
Notation u := (eps * S).

Definition memOk (y : f32 * f32) (Y : C) (d : R * R * R) : Prop :=
  cnear y Y (snd (fst d) * u) /\ Cmod Y <= snd d * S.

Definition sumE (l : list (R * R * R)) : R := List.fold_right Rplus 0 (List.map (fun d => snd (fst d)) l).
Definition sumB (l : list (R * R * R)) : R := List.fold_right Rplus 0 (List.map snd l).

Lemma sumB_nonneg l : List.Forall (fun d => 0 <= snd (fst d) /\ 0 <= snd d) l -> 0 <= sumB l /\ 0 <= sumE l.
Proof. induction 1 as [|d l [] H []]; cbn; [lra|]. unfold sumB, sumE in *. lra. Qed.

Lemma fold_near D : List.Forall (fun d => 0 <= snd (fst d) /\ 0 <= snd d) D ->
  forall ys Ys (a : f32 * f32) A ea ba W, length ys = length D -> length Ys = length D ->
  (forall k y Y d, nth_error ys k = Some y -> nth_error Ys k = Some Y -> nth_error D k = Some d -> memOk y Y d) ->
  cnear a A (ea * u) -> Cmod A <= ba * S -> 0 <= ea -> 0 <= ba -> ba + sumB D <= W -> 4 <= W <= 1000 ->
  ea + sumE D + INR (length D) * (1.01 * W) <= 100000 ->
  cnear (fold_left (cadd N) ys a) (fold_left Cplus Ys A) ((ea + sumE D + INR (length D) * (1.01 * W)) * u) /\
  Cmod (fold_left Cplus Ys A) <= (ba + sumB D) * S.
Proof.
  induction 1 as [|d D [Hd1 Hd2] HD IH]; intros [|y ys] [|Y Ys] a A ea ba W Ly LY Hm Na HA Hea Hba HW HW1 HE; try discriminate.
  - cbn in *. split; [eapply cnear_le; [exact Na|]|]; unfold sumE, sumB; cbn; [|lra].
    apply Req_le. ring.
  - destruct (sumB_nonneg D HD) as [B0 E0].
    cbn [fold_left length] in *. rewrite S_INR in *.
    change (sumE (d :: D)) with (snd (fst d) + sumE D) in *. change (sumB (d :: D)) with (snd d + sumB D) in *.
    assert (L0 := pos_INR (length D)). set (nD := INR (length D)) in *.
    assert (NW : 0 <= nD * (1.01 * W)) by (apply Rmult_le_pos; lra).
    destruct (Hm O y Y d eq_refl eq_refl eq_refl) as [Ny HY].
    assert (HAY : Cmod (A + Y)%C <= (ba + snd d) * S) by (eapply Rle_trans; [apply Cmod_triangle|lra]).
    assert (T := tau_S S HS).
    assert (SB : S * 1000000 <= Big).
    { apply Rle_trans with (IZR (10 ^ 27)); [change (IZR (10 ^ 27)) with 1000000000000000000000000000; lra|].
      unfold Big. apply IZR_le. vm_compute. discriminate. }
    assert (SP : 0 < S) by lra.
    assert (P1 : (ba + snd d) * S <= W * S) by (apply Rmult_le_compat_r; lra).
    assert (P2 : W * S <= 1000 * S) by (apply Rmult_le_compat_r; lra).
    assert (P3 : (ea + snd (fst d)) * S <= 100000 * S) by (apply Rmult_le_compat_r; lra).
    assert (N1 := cnear_add lm _ _ _ _ _ _ _ Na Ny HAY ltac:(unfold eps in *; lra)).
    assert (Q : 4 * S <= W * S) by (apply Rmult_le_compat_r; lra).
    assert (E1 : ea + snd (fst d) + sumE D + nD * (1.01 * W) <= 100000) by lra.
    destruct (IH ys Ys (cadd N a y) (A + Y)%C (ea + snd (fst d) + 1.01 * W) (ba + snd d) W) as [R1 R2]; try lra.
    + now injection Ly.
    + now injection LY.
    + intros k. apply (Hm (Datatypes.S k)).
    + eapply cnear_le; [exact N1|]. unfold eps in *. lra.
    + split.
      * eapply cnear_le; [exact R1|]. apply Rmult_le_compat_r; [unfold eps; lra|]. fold nD. lra.
      * eapply Rle_trans; [exact R2|]. apply Rmult_le_compat_r; lra.
Qed.

(** the same in any other order *)
Definition lsum (g : nat -> R) (l : list nat) : R := List.fold_right Rplus 0 (List.map g l).
Lemma lsum_app g l l' : lsum g (l ++ l') = lsum g l + lsum g l'.
Proof. unfold lsum. induction l as [|x l IH]; cbn; [lra|]. rewrite IH. lra. Qed.
Lemma lsum_perm g l l' : Permutation l l' -> lsum g l = lsum g l'.
Proof. unfold lsum. induction 1; cbn; lra. Qed.
Lemma lsum_pos g l : (forall k, 0 <= g k) -> 0 <= lsum g l.
Proof. intros H. unfold lsum. induction l as [|x l IH]; cbn; [lra|]. specialize (H x). lra. Qed.
Lemma lsum_seq A (h : A -> R) d l : forall k, lsum (fun i => h (nth (i - k) l d)) (seq k (length l)) = List.fold_right Rplus 0 (List.map h l).
Proof.
  unfold lsum. induction l as [|x l IH]; intros k; [reflexivity|]. cbn [length seq List.map List.fold_right].
  rewrite Nat.sub_diag. cbn [nth]. f_equal. rewrite <- (IH (Datatypes.S k)). f_equal. apply map_ext_in. intros i Hi. apply in_seq in Hi.
  f_equal. replace (i - k)%nat with (Datatypes.S (i - Datatypes.S k)) by lia. reflexivity.
Qed.
Lemma lsum_all A (h : A -> R) d l : lsum (fun i => h (nth i l d)) (seq 0 (length l)) = List.fold_right Rplus 0 (List.map h l).
Proof.
  rewrite <- (lsum_seq A h d l 0). unfold lsum. f_equal. apply map_ext. intros i. now rewrite Nat.sub_0_r.
Qed.

Lemma leaves_some t : 1 <= INR (length (leaves t)).
Proof.
  induction t as [i|a IHa b IHb]; cbn [leaves length INR]; [lra|]. rewrite app_length, plus_INR. lra.
Qed.
Lemma tree_near (ys : list f32) (g ge gb : nat -> R) W :
  (forall k, 0 <= ge k) -> (forall k, 0 <= gb k) -> 4 <= W <= 1000 ->
  forall t, (forall k, In k (leaves t) -> near (nth k ys (t0 N)) (g k) (ge k * u) /\ Rabs (g k) <= gb k * S) ->
  lsum gb (leaves t) <= W -> lsum ge (leaves t) + (INR (length (leaves t)) - 1) * (1.01 * W) <= 100000 ->
  near (treeSum (tadd N) (t0 N) ys t) (lsum g (leaves t)) ((lsum ge (leaves t) + (INR (length (leaves t)) - 1) * (1.01 * W)) * u) /\
  Rabs (lsum g (leaves t)) <= lsum gb (leaves t) * S.
Proof.
  intros He Hb HW t. assert (T := tau_S S HS).
  assert (SB : S * 1000000 <= Big).
  { apply Rle_trans with (IZR (10 ^ 27)); [change (IZR (10 ^ 27)) with 1000000000000000000000000000; lra|].
    unfold Big. apply IZR_le. vm_compute. discriminate. }
  assert (SP : 0 < S) by lra.
  assert (Q : 4 * S <= W * S) by (apply Rmult_le_compat_r; lra).
  assert (P2 : W * S <= 1000 * S) by (apply Rmult_le_compat_r; lra).
  induction t as [i|a IHa b IHb]; cbn [leaves treeSum]; intros Hl Hw HE.
  - destruct (Hl i (or_introl eq_refl)) as [N1 N2]. unfold lsum in *. cbn [List.map List.fold_right length INR] in *.
    rewrite !Rplus_0_r in *. split; [|exact N2]. eapply near_le; [exact N1|].
    apply Rmult_le_compat_r; [unfold eps; lra|]. lra.
  - rewrite !lsum_app, app_length, plus_INR in *.
    assert (A0 := lsum_pos ge (leaves a) He). assert (B0 := lsum_pos ge (leaves b) He).
    assert (A1 := lsum_pos gb (leaves a) Hb). assert (B1 := lsum_pos gb (leaves b) Hb).
    set (ea := lsum ge (leaves a)) in *. set (eb := lsum ge (leaves b)) in *.
    set (ba := lsum gb (leaves a)) in *. set (bb := lsum gb (leaves b)) in *.
    assert (La := leaves_some a). assert (Lb := leaves_some b).
    set (na := INR (length (leaves a))) in *. set (nb := INR (length (leaves b))) in *.
    assert (NWa : 0 <= (na - 1) * (1.01 * W)) by (apply Rmult_le_pos; lra).
    assert (NWb : 0 <= (nb - 1) * (1.01 * W)) by (apply Rmult_le_pos; lra).
    destruct IHa as [Na Ba]; [intros k Hk; apply Hl, in_or_app; now left|lra|lra|].
    destruct IHb as [Nb Bb]; [intros k Hk; apply Hl, in_or_app; now right|lra|lra|].
    set (Ga := lsum g (leaves a)) in *. set (Gb := lsum g (leaves b)) in *.
    assert (BAB : Rabs (Ga + Gb) <= (ba + bb) * S) by (eapply Rle_trans; [apply Rabs_triang|lra]).
    split; [|exact BAB].
    assert (E1 : ea + (na - 1) * (1.01 * W) <= 100000) by lra.
    assert (E2 : eb + (nb - 1) * (1.01 * W) <= 100000) by lra.
    set (xa := ea + (na - 1) * (1.01 * W)) in *. set (xb := eb + (nb - 1) * (1.01 * W)) in *.
    assert (XS : xa + xb <= 100000) by (unfold xa, xb; lra).
    assert (P1 : (ba + bb) * S <= W * S) by (apply Rmult_le_compat_r; lra).
    assert (P3 : (xa + xb) * S <= 100000 * S) by (apply Rmult_le_compat_r; lra).
    assert (N1 := near_add _ _ _ _ _ _ (W * S) Na Nb ltac:(lra) ltac:(unfold eps in *; lra)).
    eapply near_le; [exact N1|].
    replace (ea + eb + (na + nb - 1) * (1.01 * W)) with (xa + xb + 1.01 * W) by (unfold xa, xb; ring).
    unfold eps in *. lra.
Qed.


Lemma audible_fold (Ys : list C) : forall A : C, fst (fold_left Cplus Ys A) = fst A + audible Ys.
Proof.
  unfold audible. induction Ys as [|Y Ys IH]; intros A; cbn [fold_left List.map List.fold_right]; [ring|].
  rewrite IH. cbn [Cplus fst]. ring.
Qed.

Lemma err_pos f : List.Forall (fun d => 0 <= snd (fst d) /\ 0 <= snd d) (poleErr f).
Proof. destruct f; repeat constructor; cbn [fst snd]; lra. Qed.

(** the output: the sum of the poles *)
Lemma out_near f (ys : list (f32 * f32)) (Ys : list C) : length ys = numCoeffs f -> length Ys = numCoeffs f ->
  (forall k y Y d, nth_error ys k = Some y -> nth_error Ys k = Some Y -> nth_error (poleErr f) k = Some d -> memOk y Y d) ->
  near (yOut N ys) (audible Ys) (outErr f * u) /\ Rabs (audible Ys) <= outSize f * S.
Proof.
  intros L1 L2 Hm. assert (LE := err_len f).
  assert (SP : 0 < S) by lra. assert (u0 : 0 < u) by (unfold eps; lra).
  assert (Num : sumB (poleErr f) <= outSize f /\ 4 <= sumB (poleErr f) <= 1000 /\
     sumE (poleErr f) + INR (length (poleErr f)) * (1.01 * sumB (poleErr f)) <= outErr f /\ outErr f <= 100000).
  { unfold sumB, sumE. destruct f; cbn; lra. }
  destruct Num as (N1 & N2 & N3 & N4).
  destruct (ofZ32 0 ltac:(lia)) as [O1 O2].
  assert (NA : cnear (c0 N) (RtoC 0) (0 * u)).
  { split; [split; exact O1|]. rewrite Rmult_0_l. 
    assert (E : (cv (c0 N) - RtoC 0)%C = RtoC 0).
    { unfold cv, c0, RtoC, Cminus, Cplus, Copp. cbn [fst snd]. change (v32 (t0 N)) with (v32 (f32_ofZ 0)). rewrite O2. f_equal; ring. }
    rewrite E, Cmod_0. lra. }
  destruct (fold_near (poleErr f) (err_pos f) ys Ys (c0 N) (RtoC 0) 0 0 (sumB (poleErr f)) ltac:(congruence) ltac:(congruence) Hm NA)
    as [[R0 R1] R2]; try lra.
  { rewrite Cmod_0. lra. }
  assert (Ea : audible Ys = fst (fold_left Cplus Ys (RtoC 0))) by (rewrite audible_fold; cbn [fst RtoC]; ring).
  split.
  - unfold yOut. destruct (addsUp _ _) eqn:AU.
    { apply addsUp_perm in AU. change (Num.C N) with (f32 * f32)%type in *. rewrite L1 in AU |- *. set (t := torder N (numCoeffs f)) in *.
      set (z := ((0, 0), 0) : R * R * R).
      assert (PL : forall h : R * R * R -> R, lsum (fun i => h (nth i (poleErr f) z)) (leaves t) = List.fold_right Rplus 0 (List.map h (poleErr f))).
      { intros h. rewrite <- (lsum_perm _ _ _ AU), <- LE. apply lsum_all. }
      assert (PA : lsum (fun i => fst (nth i Ys (RtoC 0))) (leaves t) = audible Ys).
      { rewrite <- (lsum_perm _ _ _ AU), <- L2. apply lsum_all. }
      assert (FP := err_pos f). rewrite Forall_forall in FP.
      assert (P0 : forall k, 0 <= snd (fst (nth k (poleErr f) z)) /\ 0 <= snd (nth k (poleErr f) z)).
      { intros k. destruct (nth_in_or_default k (poleErr f) z) as [H|H]; [now apply FP|rewrite H; cbn; lra]. }
      destruct (tree_near (List.map fst ys) (fun i => fst (nth i Ys (RtoC 0))) (fun i => snd (fst (nth i (poleErr f) z)))
        (fun i => snd (nth i (poleErr f) z)) (sumB (poleErr f)) (fun k => proj1 (P0 k)) (fun k => proj2 (P0 k)) N2 t) as [G1 G2].
      - intros k Hk. apply (Permutation_in k (Permutation_sym AU)) in Hk. apply in_seq in Hk.
        destruct (nth_error ys k) as [y|] eqn:Y1; [|apply nth_error_None in Y1; lia].
        destruct (nth_error Ys k) as [Y|] eqn:Y2; [|apply nth_error_None in Y2; lia].
        destruct (nth_error (poleErr f) k) as [d|] eqn:Y3; [|apply nth_error_None in Y3; lia].
        rewrite (nth_error_nth _ _ _ Y2), (nth_error_nth _ _ _ Y3).
        rewrite (nth_error_nth (List.map fst ys) k (t0 N) (map_nth_error fst k ys Y1)).
        destruct (Hm k y Y d Y1 Y2 Y3) as [[C0 C1] C2]. split.
        + split; [exact (proj1 C0)|]. eapply Rle_trans; [|exact C1].
          exact (cmod_fst (cv y - Y)%C).
        + eapply Rle_trans; [apply cmod_fst|exact C2].
      - rewrite (PL snd). apply Rle_refl.
      - rewrite (PL (fun d => snd (fst d))). fold (sumE (poleErr f)).
        rewrite <- (Permutation_length AU), seq_length, <- LE. lra.
      - rewrite PA in G1. eapply near_le; [exact G1|]. rewrite (PL (fun d => snd (fst d))). fold (sumE (poleErr f)).
        rewrite <- (Permutation_length AU), seq_length, <- LE. apply Rmult_le_compat_r; lra. }
    split; [exact (proj1 R0)|]. rewrite Ea.
    set (P := fold_left Cplus Ys (RtoC 0)) in *. set (yN := fold_left (cadd N) ys (c0 N)) in *.
    assert (G := cmod_fst (cv yN - P)%C). change (fst (cv yN - P)%C) with (v32 (fst yN) - fst P) in G.
    eapply Rle_trans; [exact G|].
    eapply Rle_trans; [exact R1|]. apply Rmult_le_compat_r; lra.
  - rewrite Ea. eapply Rle_trans; [apply cmod_fst|]. eapply Rle_trans; [exact R2|]. apply Rmult_le_compat_r; lra.
Qed.
End Sum.
