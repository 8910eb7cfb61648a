(** * PVal: the loops of one order, in binary32, against the loops in exact arithmetic *)
From Coq Require Import ZArith List Bool Reals Lia Lra.
From Flocq Require Import Core IEEE754.BinarySingleNaN.
From Verif Require Import Num Maths Wavetable Filters Osc Spec B32 NumFacts Laws B32Facts B32Laws WTFacts BuildFacts SimdFacts
  OscFacts OscRun OscHist PErr PTables RNum RLaws SpecF SpecO SpecW PWork.
From Coquelicot Require Import Coquelicot.
From Verif Require Import SpecC SpecT SpecE ExactMath ExactStep PApx PSlope PTerm PAlpha.
Import ListNotations.
Local Open Scope R_scope.

Section Val.
Variable lm : Libm.
Hypothesis Hex : expAccurate lm.
Notation N := (B32 lm).
Variable cfg : Cfg.
Variable F : Filt N.
Variable FR : Filt RNum.
Hypothesis HB : (1 <= batch cfg)%nat.
Variable x : nat.
Notation zN := (zAt N cfg F x : f32 * f32).
Notation eN := (ezAt N cfg F x : f32 * f32).
Notation Z := (zAt RNum cfg FR x : C).
Variable ζ : R.
Hypothesis Hez : ezAt RNum cfg FR x = cexp Z.
Hypothesis Hζ : Cmod Z <= ζ.
Hypothesis Hζ5 : 0.1 <= ζ <= 4.6.
Hypothesis Nz : cnear zN Z (1.2 * eps * ζ).
Hypothesis Zneg : v32 (fst zN) <= 0.
Hypothesis ZnegR : fst Z <= 0.
Hypothesis NE : cnear eN (cexp Z) (6.1 * eps + 0.92 * eps * ζ).
Hypothesis HE : Cmod (cexp Z) <= 0.75.

Variables (c K : BinInt.Z) (ys : list (T N)) (s : Slot N) (sR : Slot RNum).
Hypothesis Hc : (-64 <= c <= 64)%Z.
Hypothesis HK : (2 <= K <= 18)%Z.
Hypothesis Ly : zlen ys = (2 ^ K)%Z.
Hypothesis HS : slotOf ys s.
Hypothesis HSR : slotOf (N := RNum) (List.map v32 ys) sR.
Notation ysR := (List.map v32 ys).
Notation S := (bpow radix2 c).
Hypothesis Hy : forall y : f32, In y ys -> fin32 y = true /\ Rabs (v32 y) <= S.
Hypothesis Hd : forall j, Rabs (cyc ysR (j + 1) - cyc ysR j) * IZR (2 ^ K) <= S.
Notation u := (eps * S).
Notation mR j := (at_ (s_m sR) j : R).
Notation qR j := (at_ (s_q sR) j : R).
Notation dR j := (at_ (s_md sR) j : R).
Notation len := (2 ^ K)%Z.

Let LyR : zlen ysR = (2 ^ K)%Z. Proof. unfold zlen in *. now rewrite map_length. Qed.
Let HS1 : / 1000000000000000000000 <= S <= 1000000000000000000000.
Proof.
  assert (A : bpow radix2 (-64) <= S) by (apply bpow_le; lia). assert (B : S <= bpow radix2 64) by (apply bpow_le; lia).
  assert (P : bpow radix2 64 = 18446744073709551616) by reflexivity.
  assert (Q : bpow radix2 (-64) = / 18446744073709551616) by reflexivity. lra.
Qed.
Let Hpos : (0 < len)%Z. Proof. apply Z.pow_pos_nonneg; lia. Qed.
Let Hlen1 : (1 <= zlen ysR)%Z. Proof. rewrite LyR. lia. Qed.
Let Hlen4 : (4 <= zlen ysR)%Z. Proof. rewrite LyR. apply (Z.pow_le_mono_r 2 2 K); lia. Qed.

Variables (pd : f32) (d : R).
Hypothesis Npd : near pd d (0.5 * eps).
Hypothesis Hd5 : Rabs d <= 0.5.
Hypothesis Hd0 : d <> 0.

(** the four numbers given to computeI0 *)
Lemma part_a j : (0 <= j < len)%Z ->
  nearP (at_ (s_m s) j) pd (mR j * d) (1.27 * u) /\ Rabs (mR j * d) <= 0.5 * S.
Proof.
  intros Hj. destruct (mq_near lm c K ys s sR Hc HK Ly HS HSR Hy Hd j Hj) as (M1 & _ & M2 & _).
  assert (U0 := u_pos c). assert (T0 := tau_u c K Hc). assert (SB := s_big c K Hc). assert (SP := s_pos c).
  split.
  - destruct (near_mulP _ _ _ _ _ _ S 0.5 M1 Npd M2 Hd5) as (X1 & X2 & X3).
    split; [exact X1|]. split; [exact X2|]. intros k. eapply Rle_trans; [apply X3|]. unfold eps in *; lra.
  - rewrite Rabs_mult. rewrite Rmult_comm. apply Rmult_le_compat; auto using Rabs_pos.
Qed.
Lemma part_b site j (p : f32) : (0 <= j < len)%Z -> fin32 p = true -> 0 <= v32 p <= 1 ->
  IZR j <= v32 p * IZR len <= IZR j + 1 ->
  near (tmad N site (at_ (s_m s) j) p (at_ (s_q s) j)) (mR j * v32 p + qR j) (3.55 * u) /\
  Rabs (mR j * v32 p + qR j) <= S.
Proof.
  intros Hj Fp Hp Hseg. destruct (mq_near lm c K ys s sR Hc HK Ly HS HSR Hy Hd j Hj) as (M1 & M3 & M2 & M4).
  assert (U0 := u_pos c). assert (T0 := tau_u c K Hc). assert (SB := s_big c K Hc). assert (SP := s_pos c).
  assert (LB := line_bound lm c K ys sR HK Ly HSR Hy j (v32 p) Hj Hseg).
  split; [|exact LB].
  assert (Hp' : Rabs (v32 p) <= 1) by (apply Rabs_le; lra).
  assert (X := near_mulP _ _ _ _ _ _ S 1 M1 (near_exact p Fp) M2 Hp').
  eapply near_le; [apply (near_mad lm site _ _ _ _ _ _ _ S (2 * S) X M3 LB M4)|]; unfold eps in *; lra.
Qed.

Lemma i0_step jp jx (pb qb : f32) : (0 <= jp < len)%Z -> (0 <= jx < len)%Z ->
  fin32 pb = true -> fin32 qb = true -> 0 <= v32 pb <= 1 -> 0 <= v32 qb <= 1 ->
  IZR jp <= v32 pb * IZR len <= IZR jp + 1 -> IZR jx <= v32 qb * IZR len <= IZR jx + 1 ->
  let V := i0Val RNum cfg FR x (mR jp) (mR jp * v32 pb + qR jp) (mR jx) (mR jx * v32 qb + qR jx) d : C in
  cnear (i0Val N cfg F x (at_ (s_m s) jp) (tmad N 1 (at_ (s_m s) jp) pb (at_ (s_q s) jp))
                         (at_ (s_m s) jx) (tmad N 2 (at_ (s_m s) jx) qb (at_ (s_q s) jx)) pd)
    V (9 * u + 22.4 * (ζ * u) + 0.93 * (ζ * ζ * u)) /\
  Cmod V <= 1.75 * (ζ * S) + 0.875 * S.
Proof.
  intros Hjp Hjx Fp Fq Hp Hq Sp Sq V.
  destruct (part_a jp Hjp) as [A1 A2]. destruct (part_a jx Hjx) as [C1 C2].
  destruct (part_b 1 jp pb Hjp Fp Hp Sp) as [B1 B2]. destruct (part_b 2 jx qb Hjx Fq Hq Sq) as [D1 D2].
  assert (EV : V = (cexp Z * (Z * RtoC (mR jp * v32 pb + qR jp) + RtoC (mR jp * d)) - RtoC (mR jx * d) -
                    Z * RtoC (mR jx * v32 qb + qR jx))%C).
  { unfold V. rewrite i0_R, ec_0 by assumption. ring. }
  rewrite EV.
  exact (i0_near lm zN eN Z (cexp Z) ζ S HS1 Hζ Hζ5 Nz NE HE (laneOf N cfg F x) _ _ _ _ _ _ _ _ _
           A1 B1 C1 D1 A2 B2 C2 D2).
Qed.

(** one boundary *)
Definition atGrid (r : BinInt.Z) : f32 := tdiv N (tofZ N (r + 1)) (tofZ N len).
Lemma sum_step fwd (barN : BinInt.Z -> f32) (barR : BinInt.Z -> R) i (v : f32 * f32) (V : C) e m :
  let r := (i mod len)%Z in
  let a := tquo N (quoSite fwd) (tsub N (barN r) (atGrid r)) pd in
  let be := (barR r - IZR (r + 1) / IZR len) / d in
  fin32 a = true -> 0 <= v32 a <= 3 -> 0 <= be -> Rabs ((v32 a - be) * d) <= 4 * eps ->
  cnear v V e -> Cmod V <= m -> 0 <= e <= 10000 * u -> 0 <= m <= 1.75 * (ζ * S) + 5 * S ->
  let V' := sumU RNum cfg FR fwd barR len sR d x V i : C in
  cnear (sumU N cfg F fwd barN len s pd x v i) V' (e + 27.2 * u + 40.4 * (ζ * u)) /\ Cmod V' <= m + S.
Proof.
  intros r a be Fa Ha Hbe Hab Nv Bv He Hm V'.
  assert (Hr : (0 <= r < len)%Z) by (apply Z.mod_pos_bound; exact Hpos).
  destruct (b_grid lm (r + 1) K ltac:(lia) ltac:(lia)) as [G1 G2].
  change (@tdiv N (tofZ N (r + 1)) (tofZ N len)) with (atGrid r) in G1, G2.
  destruct (d_near lm c K ys s sR Hc HK Ly HS HSR Hy Hd r Hr) as (D1 & D2 & D3).
  set (X := IZR (r + 1) / IZR len) in *.
  assert (HX : 0 <= X <= 1).
  { assert (0 < IZR len) by (now apply IZR_lt). unfold X. split.
    - apply Rmult_le_pos; [apply IZR_le; lia|left; now apply Rinv_0_lt_compat].
    - apply Rmult_le_reg_r with (IZR len); [assumption|]. unfold Rdiv. rewrite Rmult_assoc, Rinv_l by lra.
      rewrite Rmult_1_l, Rmult_1_r. apply IZR_le. lia. }
  assert (NX : near (atGrid r) X 0).
  { split; [exact G1|]. rewrite G2, Rminus_eq_0, Rabs_R0. lra. }
  destruct (term_near lm Hex zN Z ζ S HS1 Hζ Hζ5 Nz Zneg ZnegR (laneOf N cfg F x) a pd (atGrid r) (at_ (s_md s) r) (at_ (s_qd s) r)
     d X (dR r) be Fa Ha Hbe Hab Npd Hd5 NX HX D1 D2 D3) as (w & T1 & T2 & T3 & T4 & T5 & T6).
  assert (EV : V' = (if fwd then V + cexp (RtoC be * Z) * RtoC (d * dR r) else V - cexp (RtoC be * Z) * RtoC (d * dR r))%C).
  { unfold V'. rewrite (sumU_R cfg FR x Hez).
    - cbv zeta. fold r. rewrite (ec_cexp cfg FR x Hez). fold X.
      replace (1 - (1 - (barR r - X) / d)) with be by (unfold be; ring). destruct fwd; reflexivity.
    - fold r. fold X.
      assert (LyT : @zlen (T RNum) ysR = len) by exact LyR.
      assert (J := jump_R ysR sR r Hlen1 HSR ltac:(rewrite LyT; exact Hr)). rewrite LyT in J. exact J. }
  rewrite EV.
  exact (sum_near lm zN Z ζ S HS1 Hζ Hζ5 (laneOf N cfg F x) fwd a pd (atGrid r) (at_ (s_md s) r) (at_ (s_qd s) r)
     v w _ _ V e m T1 T2 T3 T4 T5 T6 Nv Bv He Hm).
Qed.

(** all boundaries of a sample *)
Lemma fold_step fwd (barN : BinInt.Z -> f32) (barR : BinInt.Z -> R) (is : list BinInt.Z) :
  (forall i, In i is -> let r := (i mod len)%Z in
    let a := tquo N (quoSite fwd) (tsub N (barN r) (atGrid r)) pd in
    let be := (barR r - IZR (r + 1) / IZR len) / d in
    fin32 a = true /\ 0 <= v32 a <= 3 /\ 0 <= be /\ Rabs ((v32 a - be) * d) <= 4 * eps) ->
  forall (v : f32 * f32) (V : C) e m,
  cnear v V e -> Cmod V <= m -> 0 <= e -> 0 <= m ->
  e + INR (length is) * (27.2 * u + 40.4 * (ζ * u)) <= 10000 * u -> m + INR (length is) * S <= 1.75 * (ζ * S) + 5 * S ->
  let V' := fold_left (sumU RNum cfg FR fwd barR len sR d x) is V : C in
  cnear (fold_left (sumU N cfg F fwd barN len s pd x) is v) V' (e + INR (length is) * (27.2 * u + 40.4 * (ζ * u))) /\
  Cmod V' <= m + INR (length is) * S.
Proof.
  assert (U0 := u_pos c). assert (SP := s_pos c). assert (ZU : 0 <= ζ * u) by (apply Rmult_le_pos; lra).
  induction is as [|i is IH]; intros Hi v V e m Nv Bv He Hm E1 E2.
  - cbn [length INR fold_left] in *. rewrite !Rmult_0_l, !Rplus_0_r. split; [exact Nv|exact Bv].
  - cbn [length fold_left] in *. rewrite S_INR in *. assert (L0 := pos_INR (length is)).
    assert (P1 : 0 <= INR (length is) * (27.2 * u + 40.4 * (ζ * u))) by (apply Rmult_le_pos; lra).
    assert (P2 : 0 <= INR (length is) * S) by (apply Rmult_le_pos; lra).
    destruct (Hi i (or_introl eq_refl)) as (A1 & A2 & A3 & A4).
    destruct (sum_step fwd barN barR i v V e m A1 A2 A3 A4 Nv Bv ltac:(lra) ltac:(lra)) as [B1 B2].
    destruct (IH ltac:(intros k Hk; apply Hi; now right) _ _ _ _ B1 B2 ltac:(lra) ltac:(lra) ltac:(lra) ltac:(lra)) as [C1 C2].
    split; [eapply cnear_le; [exact C1|lra]|lra].
Qed.

Lemma zrange_len a b : INR (length (zrange a b)) = INR (Z.to_nat (b - a)).
Proof.
  unfold zrange. set (k := Z.to_nat (b - a)). clearbody k. revert a.
  induction k as [|k IH]; intros a0; [reflexivity|]. cbn [zseq length]. rewrite !S_INR, IH. reflexivity.
Qed.

(** the two tables of the loop length *)
Lemma bounds_len jmin jmax : (0 <= jmin < len)%Z -> (0 <= jmax < len)%Z -> (loopLen len jmin jmax <= 4)%Z ->
  INR (length (boundaries len jmin jmax)) <= 4.
Proof.
  intros H1 H2 H. unfold boundaries. rewrite zrange_len. rewrite INR_IZR_INZ. apply IZR_le.
  unfold loopLen in H. unfold b2z. destruct (Z.ltb_spec jmax jmin); lia.
Qed.

Definition errI : R := 117.8 * u + 184 * (ζ * u) + 0.93 * (ζ * ζ * u).
Definition bndI : R := 1.75 * (ζ * S) + 4.875 * S.

Lemma whole_step fwd (barN : BinInt.Z -> f32) (barR : BinInt.Z -> R) jp jx (pb qb : f32) jmin jmax :
  (0 <= jp < len)%Z -> (0 <= jx < len)%Z -> (0 <= jmin < len)%Z -> (0 <= jmax < len)%Z -> (loopLen len jmin jmax <= 4)%Z ->
  fin32 pb = true -> fin32 qb = true -> 0 <= v32 pb <= 1 -> 0 <= v32 qb <= 1 ->
  IZR jp <= v32 pb * IZR len <= IZR jp + 1 -> IZR jx <= v32 qb * IZR len <= IZR jx + 1 ->
  (forall i, In i (boundaries len jmin jmax) -> let r := (i mod len)%Z in
    let a := tquo N (quoSite fwd) (tsub N (barN r) (atGrid r)) pd in
    let be := (barR r - IZR (r + 1) / IZR len) / d in
    fin32 a = true /\ 0 <= v32 a <= 3 /\ 0 <= be /\ Rabs ((v32 a - be) * d) <= 4 * eps) ->
  let V := i0Val RNum cfg FR x (mR jp) (mR jp * v32 pb + qR jp) (mR jx) (mR jx * v32 qb + qR jx) d : C in
  let V' := fold_left (sumU RNum cfg FR fwd barR len sR d x) (boundaries len jmin jmax) V : C in
  cnear (fold_left (sumU N cfg F fwd barN len s pd x) (boundaries len jmin jmax)
     (i0Val N cfg F x (at_ (s_m s) jp) (tmad N 1 (at_ (s_m s) jp) pb (at_ (s_q s) jp))
                         (at_ (s_m s) jx) (tmad N 2 (at_ (s_m s) jx) qb (at_ (s_q s) jx)) pd))
    V' errI /\ Cmod V' <= bndI.
Proof.
  intros Hjp Hjx Hjm Hjx' HL Fp Fq Hp Hq Sp Sq Hi V V'.
  assert (U0 := u_pos c). assert (SP := s_pos c). assert (ZU : 0 <= ζ * u) by (apply Rmult_le_pos; lra).
  assert (ZU2 : 0 <= ζ * ζ * u <= 4.6 * (ζ * u)) by (split; nra).
  assert (ZS : 0.1 * u <= ζ * u <= 4.6 * u) by (split; nra).
  assert (LL := bounds_len jmin jmax Hjm Hjx' HL). assert (L0 := pos_INR (length (boundaries len jmin jmax))).
  destruct (i0_step jp jx pb qb Hjp Hjx Fp Fq Hp Hq Sp Sq) as [A B]. fold V in A, B.
  assert (P1 : INR (length (boundaries len jmin jmax)) * (27.2 * u + 40.4 * (ζ * u)) <= 4 * (27.2 * u + 40.4 * (ζ * u))) by (apply Rmult_le_compat_r; lra).
  assert (P2 : INR (length (boundaries len jmin jmax)) * S <= 4 * S) by (apply Rmult_le_compat_r; lra).
  assert (ZSS : 0 <= ζ * S) by (apply Rmult_le_pos; lra).
  destruct (fold_step fwd barN barR _ Hi _ V _ _ A B ltac:(lra) ltac:(lra) ltac:(lra) ltac:(lra)) as [C1 C2].
  fold V' in C1, C2. unfold errI, bndI. split; [eapply cnear_le; [exact C1|lra]|lra].
Qed.
End Val.
