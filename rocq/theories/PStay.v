(** * PStay: one order of one sample that stands still, in binary32 (for C64) *)
From Coq Require Import ZArith List Bool Reals Lia Lra Arith.
From Flocq Require Import Core IEEE754.BinarySingleNaN.
From Verif Require Import Num Maths CrossFader Wavetable Filters Osc Spec SpecC SpecT NumFacts Laws CFFacts
  WTFacts BuildFacts SimdFacts OscFacts OscStep OscRun OscHist CFHist PTables PRebuild RNum RLaws B32 B32Facts B32Laws
  SpecF SpecO SpecW PCross PHist PWork.
From Coquelicot Require Import Coquelicot.
From Verif Require Import SpecE SpecR SpecZ ExactMath ExactStep ExactRun ExactSig ExactMove PExact PHold PApx PSlope PTerm PAlpha PVal PFwd
  PCoef PPole PSum PTrack.
Import ListNotations.
Local Open Scope R_scope.

(** a step that rounds to 0 is exactly 0, and is then +0 unless the phase is 0 *)
Lemma still_step lm dir (q p : f32) : phase01 q -> phase01 p -> v32 (step32 lm dir q p) = 0 -> v32 p = v32 q.
Proof.
  intros Hq Hp E. destruct (step_value lm dir q p Hq Hp) as [_ V]. rewrite E in V.
  specialize (V ltac:(rewrite Rabs_R0; lra)).
  destruct Hq as [Fq Hq]. destruct Hp as [Fp Hp]. change (B2R p) with (v32 p) in *. change (B2R q) with (v32 q) in *.
  assert (Hb := phase_diff_bound p q Fp Fq Hp Hq). set (r := rnd32 (v32 p - v32 q)) in *.
  assert (Z0 : r = 0 -> v32 p = v32 q) by (apply rnd32_0; apply fmt32_B2R).
  destruct V as [[V _]|[[_ V]|[_ V]]]; [apply Z0; lra| |]; exfalso; unfold eps in *; lra.
Qed.

Lemma still_plus lm dir (q p : f32) : phase01 q -> phase01 p -> v32 p <> 0 -> v32 (step32 lm dir q p) = 0 ->
  step32 lm dir q p = B754_zero false.
Proof.
  intros Hq Hp H0 E. assert (Eq := still_step lm dir q p Hq Hp E).
  assert (p = q).
  { apply (B2R_inj 24 128).
    - destruct Hp as [Fp Hp]. change (B2R p) with (v32 p) in Hp. destruct p; try reflexivity; try discriminate. now elim H0.
    - rewrite Eq in H0. destruct Hq as [Fq Hq]. destruct q; try reflexivity; try discriminate. now elim H0.
    - exact Eq. }
  subst q. assert (S0 : tsub (B32 lm) p p = B754_zero false).
  { destruct Hp as [Fp Hp]. change (B2R p) with (v32 p) in Hp.
    change (tsub (B32 lm) p p) with (@Bminus 24 128 p32 e32 mode_NE p p).
    assert (C := Bminus_correct 24 128 p32 e32 mode_NE p p Fp Fp).
    rewrite Rminus_diag_eq, round_0, Rabs_R0 in C by (reflexivity || auto with typeclass_instances).
    rewrite Rlt_bool_true in C by apply bpow_gt_0. destruct C as (C1 & C2 & C3).
    rewrite Rcompare_Eq in C3 by reflexivity. rewrite andb_negb_r in C3.
    destruct (@Bminus 24 128 p32 e32 mode_NE p p) as [s|s| |s m e He]; try discriminate C2.
    - cbn [Bsign] in C3. now rewrite C3.
    - exfalso. cbn [B2R] in C1. revert C1. apply F2R_neq_0. cbn. destruct s; discriminate. }
  unfold step32, stepFwd, stepBi. rewrite S0. destruct dir; reflexivity.
Qed.

Section One.
Variable lm : Libm.
Hypothesis Hex : expAccurate lm.
Hypothesis Hlog : log2_exact lm.
Variable cfg : Cfg.
Hypothesis HB : (1 <= batch cfg)%nat.
Variable f : FilterType.
Notation N := (B32 lm).
Notation F := (filt N f).
Notation FR := (filt RNum f).
Variable x : nat.
Hypothesis Hx : (x < numCoeffs f)%nat.
Variable c : BinInt.Z.
Hypothesis Hc : (-64 <= c <= 64)%Z.
Notation S := (bpow radix2 c).
Notation Z := (zAt RNum cfg FR x : C).
Notation ζ := (Cmod Z).
Variables (K : BinInt.Z) (ys : list (T N)) (s : Slot N).
Hypothesis HK : (2 <= K <= 18)%Z.
Hypothesis Ly : zlen ys = (2 ^ K)%Z.
Hypothesis HS : slotOf ys s.
Hypothesis Ht : tame c ys.
Notation ysR := (List.map v32 ys).
Notation len := (2 ^ K)%Z.

(** the forward code, for steps that are 0 or more *)
Lemma stay_one dir (q p : f32) jmin jmax d k : plainPhase q -> plainPhase p ->
  let pd := step32 lm dir q p in
  0 <= v32 pd < / 2 -> (v32 pd = 0 -> ~ onGrid K (v32 p)) -> (0 <= jmin < len)%Z ->
  (if Req_bool (v32 q) 0 then jmin = (len - 1)%Z else IZR jmin <= v32 q * IZR len <= IZR jmin + 1) ->
  jmax = Zfloor (v32 p * IZR len) -> (loopLen len jmin jmax <= 4)%Z ->
  v32 q + d = v32 p + IZR k -> Rabs d < / 2 ->
  exists I, is_int Z (fun u => wave ysR (v32 q + d * u)) 0 1 I /\
    cnear (fwdVal N cfg F s len q pd p jmin jmax x) (Z * Z * I)%C (errI ζ c) /\ Cmod I <= S.
Proof.
  intros Hq Hp pd H1 Hoff H2 H3 H4 H5 H6 H7.
  destruct (Req_dec (v32 pd) 0) as [E0|E0].
  2:{ apply (fwd_one lm Hex Hlog cfg HB f x Hx c Hc K ys s HK Ly HS Ht dir q p jmin jmax d k); auto. fold pd. lra. }
  apply proj1 in Hq, Hp. specialize (Hoff E0). assert (Ep := still_step lm dir q p Hq Hp E0).
  assert (Ed : d = 0) by (apply (disp_unique cfg HB f x Hx (v32 q) (v32 p) d 0 k 0); auto; rewrite ?Rabs_R0; lra).
  subst d. destruct (zctx lm Hex cfg HB f x Hx) as (C1 & C2 & C3 & C4 & C5 & C6 & C7).
  assert (Hlen : (4 <= len)%Z) by (apply (Z.pow_le_mono_r 2 2 K); lia).
  assert (LyR : @zlen R ysR = len) by (unfold zlen in *; rewrite map_length; exact Ly).
  assert (Q0 := off_grid_pos K _ ltac:(lia) Hoff).
  rewrite Ep in Hoff, Q0, H4. rewrite Req_bool_false in H3 by exact Q0.
  assert (Ejm := off_grid_floor K _ jmin ltac:(lia) Hoff H3).
  assert (Hj : jmin = jmax) by congruence.
  destruct (slot_R lm cfg HB K ys HK Ly) as [sR HSR].
  assert (Hq' := proj2 Hq). assert (Hp' := proj2 Hp). change (B2R p) with (v32 p) in *. change (B2R q) with (v32 q) in *.
  destruct (hold_value cfg FR HB x C1 ltac:(intros E; rewrite E, Cmod_0 in C2; lra) ysR sR ltac:(rewrite LyR; exact Hlen) HSR
     (v32 q) jmin Hq' Q0 ltac:(rewrite LyR; exact Ejm)) as (I & I1 & I2).
  exists I. split; [exact I1|]. split; [|exact (one_int lm Hex cfg HB f x Hx c K ys HK Ly Ht _ _ _ I1)].
  rewrite <- I2, LyR. subst jmax. rewrite <- Hj.
  assert (Eb : boundaries len jmin jmin = []).
  { unfold boundaries. rewrite Z.ltb_irrefl. cbn [b2z]. rewrite Z.mul_0_r, Z.add_0_r. unfold zrange. now rewrite Z.sub_diag. }
  destruct (wrap_one lm Hlog cfg HB K HK q Hq) as (W1 & W2 & W3).
  rewrite Req_bool_false in W2 by exact Q0. cbn [b2z] in W2. rewrite Rplus_0_r in W2.
  assert (Fpd : fin32 pd = true) by (destruct (step_value lm dir q p Hq Hp) as [A _]; exact A).
  assert (W := whole_step lm Hex cfg F FR HB x ζ C1 (Rle_refl _) ltac:(lra) C3 C4 ltac:(lra) C6 C7 c K ys s sR Hc HK Ly HS HSR
     (tame_y lm c ys Ht) (tame_d lm c K ys Ly Ht) pd 0
     ltac:(split; [exact Fpd|rewrite E0, Rminus_0_r, Rabs_R0; unfold eps; lra])
     ltac:(rewrite Rabs_R0; lra) true (barF N p jmin) (barF RNum (v32 q) jmin) jmin jmin
     (tadd N q (tofZ N (b2z (teq N q (t0 N))))) p jmin jmin H2 H2 H2 H2 ltac:(rewrite Hj at 2; exact H5)
     W1 (proj1 Hp) ltac:(lra) ltac:(lra) ltac:(rewrite W2; exact H3) ltac:(rewrite Ep; exact H3)
     ltac:(rewrite Eb; intros i [])).
  cbv zeta in W. unfold fwdVal. rewrite W2, Ep in W. apply proj1 in W.
  unfold tmad at 3 4. cbn [tfuse Z.eqb tadd tmul tofZ teq RNum t0]. rewrite Req_bool_false by exact Q0. cbn [b2z]. rewrite Rplus_0_r.
  exact W.
Qed.
End One.
