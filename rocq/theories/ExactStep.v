(** * ExactStep: in exact arithmetic the loops compute z^2 times the integral *)
From Coq Require Import ZArith List Bool Reals Lia Lra Arith.
From Flocq Require Import Core.
From Verif Require Import Num Maths CrossFader Wavetable Filters Osc Spec SpecC SpecT NumFacts Laws CFFacts
  WTFacts BuildFacts SimdFacts OscFacts OscStep OscRun OscHist PTables RNum RLaws.
From Coquelicot Require Import Coquelicot.
From Verif Require Import SpecE ExactMath.
Import ListNotations.
Local Open Scope R_scope.

Lemma m_pure (M Q n r c0 c1 : R) : 0 < n -> M * (r / n) + Q = c0 -> M * ((r + 1) / n) + Q = c1 ->
  M = n * (c1 - c0).
Proof. intros H <- <-. field. lra. Qed.
Lemma q_pure (M Q n r c0 c1 t : R) : 0 < n -> M * (r / n) + Q = c0 -> M = n * (c1 - c0) ->
  M * t + Q = c0 + (t * n - r) * (c1 - c0).
Proof.
  intros H A B. assert (E : c1 - c0 = M / n) by (rewrite B; field; lra).
  rewrite E, <- A. field. lra.
Qed.

(** ** Periodic samples *)
Section Cyc.
Variable ys : list R.
Notation len := (zlen ys).
Hypothesis Hlen : (1 <= len)%Z.
Notation c := (cyc ys).
Notation n := (IZR len).

Lemma n_pos : 0 < n.
Proof. apply IZR_lt. lia. Qed.

Lemma cyc_at j : (0 <= j < len)%Z -> c j = (at_ (N := RNum) ys j : R).
Proof. intros H. unfold cyc, elem, at_. rewrite Z.mod_small by assumption. reflexivity. Qed.
Lemma cyc_mod j : c (j mod len) = c j.
Proof. unfold cyc. now rewrite Z.mod_mod by lia. Qed.
Lemma cyc_next j : (0 <= j < len)%Z -> c (j + 1) = at_ (N := RNum) ys ((j + 1) mod len).
Proof.
  intros H. rewrite <- cyc_mod. apply cyc_at. apply Z.mod_pos_bound. lia.
Qed.
Lemma cyc_lap j s : c (j + s * len) = c j.
Proof. unfold cyc. now rewrite Z.mod_add by lia. Qed.

Lemma line_lap k s t : line c n (k + s * len) (t + IZR s) = line c n k t.
Proof.
  unfold line. rewrite cyc_lap. replace (k + s * len + 1)%Z with (k + 1 + s * len)%Z by lia.
  rewrite cyc_lap, plus_IZR, mult_IZR. ring.
Qed.
Lemma slope_lap k s : slope c n (k + s * len) = slope c n k.
Proof.
  unfold slope. rewrite cyc_lap. replace (k + s * len + 1)%Z with (k + 1 + s * len)%Z by lia.
  now rewrite cyc_lap.
Qed.
Lemma slope_mod k : slope c n (k mod len) = slope c n k.
Proof.
  rewrite (Z.div_mod k len) at 2 by lia. rewrite (Z.add_comm (len * _)), (Z.mul_comm len). symmetry.
  apply slope_lap.
Qed.

Lemma wave_poly t : wave ys t = poly c n t.
Proof. reflexivity. Qed.
Lemma wave_lap t s : wave ys (t + IZR s) = wave ys t.
Proof.
  rewrite !wave_poly. unfold poly.
  replace ((t + IZR s) * n) with (t * n + IZR (s * len)) by (rewrite mult_IZR; ring).
  assert (E : Zfloor (t * n + IZR (s * len)) = (Zfloor (t * n) + s * len)%Z).
  { apply Zfloor_imp. rewrite !plus_IZR. assert (A := Zfloor_lb (t * n)). assert (B := Zfloor_ub (t * n)). lra. }
  rewrite E. apply line_lap.
Qed.

Variable s : Slot RNum.
Hypothesis S : slotOf (N := RNum) ys s.

Lemma m_slope r : (0 <= r < len)%Z -> (at_ (N := RNum) (s_m s) r : R) = slope c n r.
Proof.
  intros Hr. destruct (segment_R ys s r Hlen S Hr) as [A B].
  rewrite <- cyc_at in A by assumption. rewrite <- cyc_next in B by assumption.
  rewrite plus_IZR in B. exact (m_pure _ _ _ _ _ _ n_pos A B).
Qed.
Lemma q_line r (t : R) : (0 <= r < len)%Z ->
  at_ (N := RNum) (s_m s) r * t + at_ (N := RNum) (s_q s) r = line c n r t.
Proof.
  intros Hr. destruct (segment_R ys s r Hlen S Hr) as [A _].
  rewrite <- cyc_at in A by assumption.
  exact (q_pure _ _ _ _ _ _ t n_pos A (m_slope r Hr)).
Qed.
Lemma md_slope r : (0 <= r < len)%Z ->
  (at_ (N := RNum) (s_md s) r : R) = slope c n (r + 1) - slope c n r.
Proof.
  intros Hr. rewrite (sf_md _ _ _ S) by assumption. rewrite !m_slope.
  - rewrite slope_mod. reflexivity.
  - assumption.
  - apply Z.mod_pos_bound; lia.
Qed.
End Cyc.

(** ** The loops *)
Section Loops.
Variable cfg : Cfg.
Variable F : Filt RNum.
Hypothesis HB : (1 <= batch cfg)%nat.
Variable x : nat.
Notation z := (zAt RNum cfg F x : C).
Hypothesis Hez : ezAt RNum cfg F x = cexp z.

Lemma ec_cexp u : ec z u = cexp (RtoC (1 - u) * z)%C.
Proof.
  unfold ec, er, ei, cexp. destruct z as [z1 z2]. cbn [fst snd Cmult RtoC].
  replace ((1 - u) * z1 - 0 * z2) with (z1 * (1 - u)) by ring.
  replace ((1 - u) * z2 + 0 * z1) with (z2 * (1 - u)) by ring. reflexivity.
Qed.
Lemma ec_0 : ec z 0 = cexp z.
Proof. rewrite ec_cexp. f_equal. destruct z as [z1 z2]. cx; ring. Qed.
Lemma ec_1 : ec z 1 = RtoC 1.
Proof.
  unfold ec, er, ei. rewrite !Rminus_eq_0, !Rmult_0_r, exp_0, cos_0, sin_0. cx; ring.
Qed.

Lemma i0_R mp b mn d pd : i0Val RNum cfg F x mp b mn d pd =
  (ec z 0 * (z * RtoC b + RtoC (mp * pd)) - (z * RtoC d + RtoC (mn * pd)))%C.
Proof.
  rewrite ec_0, <- Hez. unfold i0Val, i0_lane, i0_scalar.
  destruct (zAt RNum cfg F x) as [z1 z2], (ezAt RNum cfg F x) as [e1 e2].
  destruct (laneOf RNum cfg F x); unfold cfnma, cfms, cfma, csubx, csubp, caddpx, cmul, tdotm, tdotp, tnmad, cbc, t0;
    cbn [tfuse Z.eqb tadd tsub tmul txfma txfms topp tofZ RNum fst snd]; cx; cbn [fst snd]; ring.
Qed.

Lemma sumU_R fwd bar len s pd v i :
  let r := (i mod len)%Z in
  let p := IZR (r + 1) / IZR len in
  at_ (N := RNum) (s_qd s) r + at_ (N := RNum) (s_md s) r * p = 0 ->
  sumU RNum cfg F fwd bar len s pd x v i =
    let t := (ec z (1 - (bar r - p) / pd) * RtoC (pd * at_ (N := RNum) (s_md s) r))%C in
    if fwd then (v + t)%C else (v - t)%C.
Proof.
  intros r p. unfold sumU. fold r. cbn [tquo tdiv tsub tofZ RNum]. fold p.
  set (md := at_ (s_md s) r). set (qd := at_ (s_qd s) r). intros Hq.
  change (T RNum) with R in *.
  assert (Eq : qd = - (md * p)) by lra. clearbody qd. subst qd.
  set (a := (bar r - p) / pd). unfold ec, er, ei. replace (1 - (1 - a)) with a by ring.
  destruct (zAt RNum cfg F x) as [z1 z2]. destruct v as [v1 v2].
  destruct (laneOf RNum cfg F x).
  - unfold sum_lane_upd, sum_lane, cfma, cfnma, cxmul, cadd, csub, cmul, cbc, t0.
    cbn [txexp txfma txfms topp tadd tsub tmul tofZ RNum fst snd Rcexp].
    unfold Rcexp. cbn [fst snd].
    replace (z1 * a - z2 * 0) with (z1 * a) by ring. replace (z1 * 0 + z2 * a) with (z2 * a) by ring.
    destruct fwd; cx; cbn [fst snd]; ring.
  - unfold sum_scalar_upd, cadd, csub, cmul, caddx, caddfx, tdotm, tdotp, tmad, cscale.
    cbn [tfuse Z.eqb tcexp tadd tsub tmul tofZ RNum fst snd Rcexp].
    unfold Rcexp. cbn [fst snd].
    destruct fwd; cx; cbn [fst snd]; ring.
Qed.

(** folding over the boundaries is the sum of the jumps *)
Lemma fold_jumps (fwd : bool) (g : C -> Z -> C) (f : Z -> C) m : forall a v,
  (forall i w, (a <= i < a + Z.of_nat m)%Z -> g w i = if fwd then (w + f i)%C else (w - f i)%C) ->
  fold_left g (zseq a m) v = if fwd then (v + sumC f a m)%C else (v - sumC f a m)%C.
Proof.
  induction m as [|m IH]; intros a v H; cbn [zseq fold_left sumC].
  - destruct fwd, v; cx; cbn [fst snd]; ring.
  - rewrite H by lia. rewrite IH by (intros; apply H; lia).
    destruct fwd; ring.
Qed.

Section Table.
Variable ys : list R.
Variable s : Slot RNum.
Notation len := (zlen ys).
Hypothesis Hlen : (4 <= len)%Z.
Hypothesis S : slotOf (N := RNum) ys s.
Notation c := (cyc ys).
Notation n := (IZR len).
Let Hlen1 : (1 <= len)%Z. Proof. lia. Qed.
Let Hpos : (0 < len)%Z. Proof. lia. Qed.

(** forward: the path starts at p0 (1 when p0 = 0, in the last segment), in segment jmin *)
Lemma fwd_exact p0 p1 pd jmin jmax :
  0 <= p0 < 1 -> 0 <= p1 < 1 -> 0 < pd <= /2 -> (exists k, p0 + pd = p1 + IZR k) ->
  (0 <= jmin < len)%Z ->
  (if Req_bool p0 0 then jmin = (len - 1)%Z else IZR jmin <= p0 * n <= IZR jmin + 1) ->
  jmax = Zfloor (p1 * n) ->
  exists I, is_int z (fun u => wave ys (p0 + pd * u)) 0 1 I /\
    fwdVal RNum cfg F s len p0 pd p1 jmin jmax x = (z * z * I)%C.
Proof.
  intros Hp0 Hp1 Hpd [k Hk] Hjm Hst Hjx.
  assert (Hn := n_pos ys Hlen1).
  set (e := b2z (Req_bool p0 0)). set (pb := p0 + IZR e).
  assert (Hn4 : 4 <= n) by (apply (IZR_le 4); assumption).
  assert (Hpb : 0 < pb <= 1 /\ IZR jmin <= pb * n <= IZR jmin + 1).
  { unfold pb, e. destruct (Req_bool_spec p0 0) as [->|H0]; cbn [b2z].
    - rewrite Hst, minus_IZR. split; lra.
    - rewrite Rplus_0_r. split; [lra|assumption]. }
  destruct Hpb as [Hpb Hjb].
  set (sZ := (k + e)%Z). assert (Hs : pb + pd = p1 + IZR sZ) by (unfold pb, sZ; rewrite plus_IZR; lra).
  assert (Hs01 : (sZ = 0 \/ sZ = 1)%Z).
  { assert (-1 < IZR sZ < 2) by lra. destruct H as [A B]. apply lt_IZR in A. apply lt_IZR in B. lia. }
  assert (Fx := Zfloor_lb (p1 * n)). assert (Fy := Zfloor_ub (p1 * n)). rewrite <- Hjx in Fx, Fy.
  assert (Hjx0 : (0 <= jmax < len)%Z).
  { split; [apply (le_IZR 0)|apply lt_IZR].
    - rewrite Hjx. change 0 with (IZR 0). apply IZR_le. rewrite <- (Zfloor_IZR 0). apply Zfloor_le. nra.
    - nra. }
  assert (Hsb : sZ = b2z (jmax <? jmin)%Z).
  { destruct Hs01 as [E|E]; rewrite E in *; destruct (Z.ltb_spec jmax jmin) as [H|H]; cbn [b2z]; auto; exfalso.
    - assert (IZR jmin <= p1 * n) by nra.
      assert (jmin <= jmax)%Z; [|lia]. rewrite Hjx. apply Zfloor_lub. assumption.
    - assert (IZR jmax <= IZR jmin - 1) by nra. rewrite <- minus_IZR in H0. apply le_IZR in H0. lia. }
  set (b := (jmax + sZ * len)%Z).
  assert (Hab : (jmin <= b)%Z).
  { unfold b. destruct (Z.ltb_spec jmax jmin) as [H|H]; rewrite Hsb; cbn [b2z]; lia. }
  destruct (fwd_path z c n Hn pb pd ltac:(lra) (Z.to_nat (b - jmin)) jmin 0 ltac:(lra)) as (I & A & E).
  { now rewrite Rmult_0_r, Rplus_0_r. }
  { replace (jmin + Z.of_nat (Z.to_nat (b - jmin)))%Z with b by lia. rewrite Hs. unfold b.
    rewrite plus_IZR, mult_IZR. split; nra. }
  replace (jmin + Z.of_nat (Z.to_nat (b - jmin)))%Z with b in E by lia.
  exists I. split.
  { eapply is_int_ext; [lra| |exact A]. intros u _. cbn beta. rewrite <- wave_poly. unfold pb.
    replace (p0 + IZR e + pd * u) with (p0 + pd * u + IZR e) by ring. now rewrite wave_lap. }
  rewrite E. unfold fwdVal, tmad. cbn [tfuse Z.eqb tadd tmul tofZ teq RNum t0].
  change (p0 + IZR (b2z (Req_bool p0 (IZR 0)))) with pb.
  rewrite i0_R, !(q_line ys Hlen1 s S), !(m_slope ys Hlen1 s S) by lia.
  unfold boundaries. rewrite <- Hsb, (Z.mul_comm len). fold b. unfold zrange.
  rewrite (fold_jumps true _ (jump z c n pb pd)).
  2:{ intros i w Hi. rewrite sumU_R.
      2:{ apply (jump_R ys s); [assumption|assumption|]. apply Z.mod_pos_bound. exact Hpos. }
      cbn beta iota zeta. f_equal.
      rewrite (md_slope ys Hlen1 s S) by (apply Z.mod_pos_bound; exact Hpos).
      unfold jump, uAt.
      assert (Hi2 : (jmin <= i < b)%Z) by lia.
      set (r := (i mod len)%Z).
      assert (Er : exists lap, (lap = 0 \/ lap = 1)%Z /\ i = (r + lap * len)%Z /\
                 barF RNum p1 jmax r - IZR (r + 1) / n = p1 + IZR sZ - (IZR i + 1) / n).
      { unfold barF. cbn [tadd tofZ RNum]. unfold r.
        destruct (Z_lt_le_dec i len) as [Hl|Hl].
        - exists 0%Z. rewrite (Z.mod_small i len) by lia. split; [auto|]. split; [lia|].
          assert (E0 : b2z (jmax <? i)%Z = sZ).
          { revert Hi2. unfold b. rewrite Hsb. destruct (Z.ltb_spec jmax jmin), (Z.ltb_spec jmax i); cbn [b2z]; lia. }
          rewrite E0, plus_IZR. reflexivity.
        - exists 1%Z. assert (Es : sZ = 1%Z) by (unfold b in Hi2; lia).
          assert (Em : (i mod len = i - len)%Z).
          { symmetry. apply (Z.mod_unique_pos i len 1); unfold b in Hi2; lia. }
          rewrite Em. split; [auto|]. split; [lia|].
          assert (E0 : b2z (jmax <? i - len)%Z = 0%Z).
          { destruct (Z.ltb_spec jmax (i - len)); [unfold b in Hi2; lia|reflexivity]. }
          rewrite E0, Es, plus_IZR, minus_IZR. field. lra. }
      destruct Er as (lap & _ & Ei & Eb). rewrite Eb.
      rewrite Ei at 3 4. rewrite slope_lap by assumption.
      replace (r + lap * len + 1)%Z with (r + 1 + lap * len)%Z by lia. rewrite slope_lap by assumption.
      f_equal. f_equal. replace (p1 + IZR sZ) with (pb + pd) by lra. field. split; lra. }
  assert (Eb : line c n b (pb + pd * 1) = line c n jmax p1 /\ slope c n b = slope c n jmax).
  { unfold b. rewrite Rmult_1_r, Hs, line_lap, slope_lap by assumption. auto. }
  unfold Ek. rewrite ec_1. destruct Eb as [-> ->]. rewrite Rmult_0_r, Rplus_0_r, Cmult_1_l. reflexivity.
Qed.

Lemma bwd_exact p0 p1 pd jm jmin jmax :
  0 <= p0 < 1 -> 0 <= p1 < 1 -> -/2 <= pd < 0 -> (exists k, p0 + pd = p1 + IZR k) ->
  (0 <= jmax < len)%Z -> IZR jmax <= p0 * n <= IZR jmax + 1 ->
  (0 <= jmin < len)%Z ->
  (if Req_bool p1 0 then jmin = (len - 1)%Z else IZR jmin <= p1 * n <= IZR jmin + 1) ->
  ((jm =? 0)%Z = Req_bool p1 0) ->
  exists I, is_int z (fun u => wave ys (p0 + pd * u)) 0 1 I /\
    bwdVal RNum cfg F s len p0 pd p1 jm jmin jmax x = (z * z * I)%C.
Proof.
  intros Hp0 Hp1 Hpd [k Hk] Hjx Hst Hjm Hen Hz.
  assert (Hn := n_pos ys Hlen1).
  set (e := b2z (Req_bool p1 0)). set (qb := p1 + IZR e).
  assert (Hn4 : 4 <= n) by (apply (IZR_le 4); assumption).
  assert (Hqb : 0 < qb <= 1 /\ IZR jmin <= qb * n <= IZR jmin + 1).
  { unfold qb, e. destruct (Req_bool_spec p1 0) as [->|H0]; cbn [b2z].
    - rewrite Hen, minus_IZR. split; lra.
    - rewrite Rplus_0_r. split; [lra|assumption]. }
  destruct Hqb as [Hqb Hjb].
  set (sZ := (e - k)%Z). assert (Hs : p0 + IZR sZ + pd = qb) by (unfold qb, sZ; rewrite minus_IZR; lra).
  assert (Hs01 : (sZ = 0 \/ sZ = 1)%Z).
  { assert (-1 < IZR sZ < 2) by lra. destruct H as [A B]. apply lt_IZR in A. apply lt_IZR in B. lia. }
  assert (Hsb : sZ = b2z (jmax <? jmin)%Z).
  { destruct Hs01 as [E|E]; rewrite E in *; destruct (Z.ltb_spec jmax jmin) as [H|H]; cbn [b2z]; auto; exfalso.
    - assert (IZR jmin < IZR jmax + 1) by nra. rewrite <- plus_IZR in H0. apply lt_IZR in H0. lia.
    - assert (IZR jmax + 2 <= IZR jmin + 1) by nra. rewrite <- !plus_IZR in H0. apply le_IZR in H0. lia. }
  set (a := (jmax + sZ * len)%Z).
  assert (Hab : (jmin <= a)%Z).
  { unfold a. destruct (Z.ltb_spec jmax jmin) as [H|H]; rewrite Hsb; cbn [b2z]; lia. }
  destruct (bwd_path z c n Hn (p0 + IZR sZ) pd ltac:(lra) (Z.to_nat (a - jmin)) jmin) as (I & A & E).
  { replace (jmin + Z.of_nat (Z.to_nat (a - jmin)))%Z with a by lia. unfold a.
    rewrite plus_IZR, mult_IZR. split; nra. }
  { now rewrite Hs. }
  replace (jmin + Z.of_nat (Z.to_nat (a - jmin)))%Z with a in E by lia.
  exists I. split.
  { eapply is_int_ext; [lra| |exact A]. intros u _. cbn beta. rewrite <- wave_poly.
    replace (p0 + IZR sZ + pd * u) with (p0 + pd * u + IZR sZ) by ring. now rewrite wave_lap. }
  rewrite E. unfold bwdVal, tmad. cbn [tfuse Z.eqb tadd tmul tofZ teq RNum t0].
  change (p1 + IZR (b2z (Req_bool p1 (IZR 0)))) with qb.
  rewrite i0_R, !(q_line ys Hlen1 s S), !(m_slope ys Hlen1 s S) by lia.
  unfold boundaries. rewrite <- Hsb, (Z.mul_comm len). fold a. unfold zrange.
  rewrite (fold_jumps false _ (jump z c n (p0 + IZR sZ) pd)).
  2:{ intros i w Hi. rewrite sumU_R.
      2:{ apply (jump_R ys s); [assumption|assumption|]. apply Z.mod_pos_bound. exact Hpos. }
      cbn beta iota zeta. f_equal.
      rewrite (md_slope ys Hlen1 s S) by (apply Z.mod_pos_bound; exact Hpos).
      unfold jump, uAt.
      assert (Hi2 : (jmin <= i < a)%Z) by lia.
      match goal with |- context [barB RNum p1 ?o jmax] => set (off := o) end.
      set (r := (i mod len)%Z).
      assert (Eoff : off = if Req_bool p1 0 then 0 else - IZR sZ).
      { unfold off. rewrite Hz, Hsb. unfold t0. cbn [tofZ RNum].
        destruct (Req_bool p1 0), (jmax <? jmin)%Z; cbn; ring. }
      assert (Er : exists lap, (lap = 0 \/ lap = 1)%Z /\ i = (r + lap * len)%Z /\
                 barB RNum p1 off jmax r - IZR (r + 1) / n = qb - (IZR i + 1) / n).
      { unfold barB. cbn [tadd tofZ RNum]. rewrite Eoff. unfold r.
        destruct (Z_lt_le_dec i len) as [Hl|Hl].
        - exists 0%Z. rewrite (Z.mod_small i len) by lia. split; [auto|]. split; [lia|].
          assert (E0 : b2z (jmax <? i)%Z = sZ).
          { revert Hi2. unfold a. rewrite Hsb. destruct (Z.ltb_spec jmax jmin), (Z.ltb_spec jmax i); cbn [b2z]; lia. }
          rewrite E0, plus_IZR. unfold qb, e.
          destruct (Req_bool_spec p1 0) as [H1|H1]; cbn [b2z].
          + assert (sZ = 1)%Z.
            { destruct Hs01 as [Es|Es]; [|assumption]. exfalso. unfold a in Hi2. lia. }
            rewrite H. ring.
          + ring.
        - exists 1%Z. assert (Es : sZ = 1%Z) by (unfold a in Hi2; lia).
          assert (Em : (i mod len = i - len)%Z).
          { symmetry. apply (Z.mod_unique_pos i len 1); unfold a in Hi2; lia. }
          rewrite Em. split; [auto|]. split; [lia|].
          assert (E0 : b2z (jmax <? i - len)%Z = 0%Z).
          { destruct (Z.ltb_spec jmax (i - len)); [unfold a in Hi2; lia|reflexivity]. }
          rewrite E0, Es, plus_IZR, minus_IZR. unfold qb, e.
          destruct (Req_bool_spec p1 0) as [H1|H1]; cbn [b2z]; field; lra. }
      destruct Er as (lap & _ & Ei & Eb). rewrite Eb.
      rewrite Ei at 3 4. rewrite slope_lap by assumption.
      replace (r + lap * len + 1)%Z with (r + 1 + lap * len)%Z by lia. rewrite slope_lap by assumption.
      f_equal. f_equal. rewrite <- Hs. field. split; lra. }
  assert (Eb : line c n a (p0 + IZR sZ + pd * 0) = line c n jmax p0 /\ slope c n a = slope c n jmax).
  { unfold a. rewrite Rmult_0_r, Rplus_0_r, line_lap, slope_lap by assumption. auto. }
  unfold Ek. rewrite ec_1. destruct Eb as [-> ->]. rewrite Rmult_1_r, Hs, Cmult_1_l. reflexivity.
Qed.
End Table.
End Loops.
