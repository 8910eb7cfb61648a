(** * ExactWrong: the value of a sample that starts in a wrong segment *)
From Coq Require Import ZArith List Bool Reals Lia Lra Arith.
From Flocq Require Import Core.
From Verif Require Import Num Maths CrossFader Wavetable Filters Osc Spec SpecC SpecT NumFacts Laws CFFacts
  WTFacts BuildFacts SimdFacts OscFacts OscStep OscRun OscHist PTables RNum RLaws.
From Coquelicot Require Import Coquelicot.
From Verif Require Import SpecE ExactMath ExactStep ExactRun SpecY.
Import ListNotations.
Local Open Scope R_scope.

Lemma sumC_snoc f m : forall a, sumC f a (S m) = (sumC f a m + f (a + Z.of_nat m)%Z)%C.
Proof.
  induction m as [|m IH]; intros a.
  - cbn. rewrite Z.add_0_r. ring.
  - change (sumC f a (S (S m))) with (f a + sumC f (a + 1) (S m))%C. rewrite IH. cbn [sumC].
    replace (a + Z.of_nat (S m))%Z with (a + 1 + Z.of_nat m)%Z by lia. ring.
Qed.
Lemma sumC_split f k : forall a m, sumC f a (k + m) = (sumC f a k + sumC f (a + Z.of_nat k) m)%C.
Proof.
  induction k as [|k IH]; intros a m; cbn [sumC Nat.add].
  - replace (a + Z.of_nat 0)%Z with a by lia. ring.
  - rewrite IH. replace (a + Z.of_nat (S k))%Z with (a + 1 + Z.of_nat k)%Z by lia. ring.
Qed.
Lemma sumC_ext f g m : forall a, (forall i, (a <= i < a + Z.of_nat m)%Z -> f i = g i) -> sumC f a m = sumC g a m.
Proof.
  induction m as [|m IH]; intros a H; cbn [sumC]; [reflexivity|]. rewrite H by lia. rewrite IH; [reflexivity|].
  intros i Hi. apply H. lia.
Qed.
Lemma sumC_scal (k : C) f m : forall a, sumC (fun i => (k * f i)%C) a m = (k * sumC f a m)%C.
Proof. induction m as [|m IH]; intros a; cbn [sumC]; [ring|]. rewrite IH. ring. Qed.
Lemma sumFrom_C f lo hi : sumFrom f lo hi = sumC f lo (Z.to_nat (hi - lo)).
Proof.
  unfold sumFrom, zrange. generalize (Z.to_nat (hi - lo)) as m. intros m. revert lo.
  induction m as [|m IH]; intros lo; cbn [zseq fold_right sumC]; [reflexivity|]. now rewrite IH.
Qed.

Section Off.
Variable cfg : Cfg.
Variable F : Filt RNum.
Hypothesis HB : (1 <= batch cfg)%nat.
Variable x : nat.
Notation z := (zAt RNum cfg F x : C).
Hypothesis Hez : ezAt RNum cfg F x = cexp z.
Hypothesis Hz0 : z <> RtoC 0.
Variable ys : list R.
Variable s : Slot RNum.
Notation len := (zlen ys).
Hypothesis Hlen : (4 <= len)%Z.
Hypothesis S : slotOf (N := RNum) ys s.
Notation c := (cyc ys).
Notation n := (IZR len).
Let Hlen1 : (1 <= len)%Z. Proof. lia. Qed.
Let Hpos : (0 < len)%Z. Proof. lia. Qed.

Lemma click_ec t : (z * z * click z t)%C = (ec z 0 * (1 + RtoC t * z) - ec z (- t))%C.
Proof.
  assert (G : forall w : C, cexp (RtoC (1 - - t) * w)%C = (cexp w * cexp (RtoC t * w))%C).
  { intros [z1 z2]. unfold cexp. cbn [fst snd Cmult RtoC].
    replace ((1 - - t) * z1 - 0 * z2) with (z1 + (t * z1 - 0 * z2)) by ring.
    replace ((1 - - t) * z2 + 0 * z1) with (z2 + (t * z2 + 0 * z1)) by ring.
    set (a1 := t * z1 - 0 * z2). set (a2 := t * z2 + 0 * z1).
    rewrite exp_plus, cos_plus, sin_plus. apply C_eq; cbn [fst snd]; ring. }
  unfold click. rewrite (ec_0 cfg F x Hez), (ec_cexp cfg F x Hez), G. field. exact Hz0.
Qed.

Lemma slope_kink i : slope c n (i + 1) - slope c n i = n * kink ys (i + 1).
Proof. unfold slope, kink. replace (i + 1 - 1)%Z with i by lia. ring. Qed.
Lemma line_step i t : line c n (i + 1) t - line c n i t = n * kink ys (i + 1) * (t - (IZR i + 1) / n).
Proof.
  assert (Hn := n_pos ys Hlen1). unfold line, kink. replace (i + 1 - 1)%Z with i by lia. rewrite plus_IZR. field. lra.
Qed.

(** any fold over boundaries, as a sum *)
Lemma fold_U (fwd : bool) bar pd a m v :
  fold_left (sumU RNum cfg F fwd bar len s pd x) (zseq a m) v =
  let f := fun i => (ec z (1 - (bar (i mod len)%Z - (IZR (i mod len) + 1) / n) / pd) *
                     RtoC (pd * (n * kink ys (i mod len + 1))))%C in
  if fwd then (v + sumC f a m)%C else (v - sumC f a m)%C.
Proof.
  apply (fold_jumps cfg HB fwd). intros i w _. rewrite (sumU_R cfg F x Hez).
  2:{ apply (jump_R ys s); [assumption|assumption|]. apply Z.mod_pos_bound. exact Hpos. }
  cbv zeta. rewrite (md_slope ys Hlen1 s S) by (apply Z.mod_pos_bound; exact Hpos).
  rewrite slope_kink, plus_IZR. reflexivity.
Qed.

(** backward, one segment too high *)
Lemma bwd_off p0 p1 pd jm jmin jmax : pd <> 0 ->
  (0 <= jmax)%Z -> (jmax + 1 < len)%Z -> (0 <= jmin < len)%Z -> (jmin <> jmax + 1)%Z ->
  (jm = 0%Z <-> p1 = 0) -> (p1 = 0 -> (jmax + 1 < jmin)%Z) ->
  p0 + pd = p1 - (if (jmax <? jmin)%Z then 1 else 0) + (if Req_bool p1 0 then 1 else 0) ->
  bwdVal RNum cfg F s len p0 pd p1 jm jmin (jmax + 1) x =
  (bwdVal RNum cfg F s len p0 pd p1 jm jmin jmax x
   + RtoC (pd * n * kink ys (jmax + 1)) * (z * z * click z (((IZR jmax + 1) / n - p0) / - pd)))%C.
Proof.
  intros Hpd Hj0 Hj1 Hjm Hne Hz1 Hz2 Hstep. assert (Hn := n_pos ys Hlen1).
  unfold bwdVal, tmad. cbn [tfuse Z.eqb tadd tmul tofZ teq RNum t0].
  set (qb := p1 + IZR (b2z (Req_bool p1 0))).
  rewrite !(i0_R cfg F x Hez), !(q_line ys Hlen1 s S), !(m_slope ys Hlen1 s S) by lia.
  assert (Eflag : (jmax + 1 <? jmin)%Z = (jmax <? jmin)%Z).
  { destruct (Z.ltb_spec (jmax + 1) jmin), (Z.ltb_spec jmax jmin); auto; lia. }
  rewrite Eflag. match goal with |- context [barB RNum p1 ?o jmax] => set (off := o) end.
  unfold boundaries. rewrite Eflag. set (fl := (jmax <? jmin)%Z) in *. unfold zrange.
  set (m := Z.to_nat (jmax + len * b2z fl - jmin)).
  assert (Hm : (jmin + Z.of_nat m = jmax + len * b2z fl)%Z).
  { unfold m, fl. destruct (Z.ltb_spec jmax jmin); cbn [b2z]; lia. }
  replace (Z.to_nat (jmax + 1 + len * b2z fl - jmin)) with (Datatypes.S m) by (unfold m in *; lia).
  rewrite !fold_U. cbv zeta. rewrite sumC_snoc, Hm.
  rewrite (sumC_ext _ (fun i => (ec z (1 - (barB RNum p1 off jmax (i mod len)%Z - (IZR (i mod len) + 1) / n) / pd) *
                     RtoC (pd * (n * kink ys (i mod len + 1))))%C) m).
  2:{ intros i Hi. unfold barB. cbn [tadd tofZ RNum].
      assert (Hr : (i mod len <> jmax + 1)%Z).
      { intros E. assert (D := Z.div_mod i len ltac:(lia)). rewrite E in D.
        revert Hi Hm. unfold fl. destruct (Z.ltb_spec jmax jmin); cbn [b2z]; intros Hi Hm.
        - assert (i / len = 0 \/ i / len = 1)%Z.
          { assert (0 <= i / len)%Z by (apply Z.div_pos; lia).
            assert (i / len < 2)%Z by (apply Z.div_lt_upper_bound; lia). lia. }
          destruct H0 as [E0|E0]; rewrite E0 in D; lia.
        - rewrite Z.div_small in D by lia. lia. }
      replace (jmax + 1 <? i mod len)%Z with (jmax <? i mod len)%Z; [reflexivity|].
      clear - Hr. set (r := (i mod len)%Z) in *. clearbody r. destruct (Z.ltb_spec (jmax + 1) r), (Z.ltb_spec jmax r); auto; lia. }
  set (Sm := sumC _ jmin m).
  replace ((jmax + len * b2z fl) mod len)%Z with jmax by (rewrite (Z.mul_comm len), Z.mod_add by lia; rewrite Z.mod_small; lia).
  replace (slope c n (jmax + 1)) with (slope c n jmax + n * kink ys (jmax + 1)) by (rewrite <- slope_kink; ring).
  replace (line c n (jmax + 1) p0) with (line c n jmax p0 + n * kink ys (jmax + 1) * (p0 - (IZR jmax + 1) / n))
    by (rewrite <- line_step; ring).
  rewrite click_ec.
  assert (Eb : 1 - (barB RNum p1 off (jmax + 1) jmax - (IZR jmax + 1) / n) / pd = - (((IZR jmax + 1) / n - p0) / - pd)).
  { assert (E0 : barB RNum p1 off (jmax + 1) jmax = p0 + pd).
    { unfold barB. cbn [tadd tofZ RNum].
      replace (jmax + 1 <? jmax)%Z with false by (symmetry; apply Z.ltb_ge; lia). cbn [b2z].
      rewrite Hstep. unfold off, t0. cbn [tofZ RNum]. fold fl.
      destruct (Req_bool_spec p1 0) as [H1|H1].
      - assert (jm = 0%Z) by (apply Hz1; assumption). rewrite H. cbn [Z.eqb negb andb].
        specialize (Hz2 H1). replace fl with true by (symmetry; apply Z.ltb_lt; lia). lra.
      - assert (Hjm0 : (jm =? 0)%Z = false) by (apply Z.eqb_neq; intros E; apply H1, Hz1, E).
        rewrite Hjm0. cbn [negb andb]. destruct fl; lra. }
    rewrite E0. field. split; lra. }
  rewrite Eb. set (t := ((IZR jmax + 1) / n - p0) / - pd).
  replace (p0 - (IZR jmax + 1) / n) with (pd * t) by (unfold t; field; lra).
  generalize (ec z (- t)) as e1. generalize (ec z 0) as e0. clearbody Sm t. clear Hez Hz0.
  generalize (zAt RNum cfg F x : C) as w. change (Num.C RNum) with C.
  generalize (line c n jmax p0) (slope c n jmax) (line c n jmin qb) (slope c n jmin) (kink ys (jmax + 1)).
  intros l1 l2 l3 l4 kk w e0 e1. rewrite !RtoC_plus, !RtoC_mult, !RtoC_plus, !RtoC_mult. ring.
Qed.

(** forward, some segments too low *)
Lemma fwd_off p0 p1 pd J T jmax : 0 < p0 -> pd <> 0 ->
  (0 <= J)%Z -> (J <= T)%Z -> (T < len)%Z -> (0 <= jmax < len)%Z ->
  ((jmax <? J) = (jmax <? T))%Z ->
  p0 + pd = p1 + (if (jmax <? T)%Z then 1 else 0) ->
  fwdVal RNum cfg F s len p0 pd p1 J jmax x =
  (fwdVal RNum cfg F s len p0 pd p1 T jmax x
   - z * z * sumC (fun i => RtoC (pd * n * kink ys (i + 1)) * click z ((p0 - (IZR i + 1) / n) / pd)) J (Z.to_nat (T - J)))%C.
Proof.
  intros Hp0 Hpd HJ HJT HT Hjx Hfl Hstep. assert (Hn := n_pos ys Hlen1).
  unfold fwdVal, tmad. cbn [tfuse Z.eqb tadd tmul tofZ teq RNum t0]. rewrite Req_bool_false by lra. cbn [b2z]. rewrite Rplus_0_r.
  rewrite !(i0_R cfg F x Hez), !(q_line ys Hlen1 s S), !(m_slope ys Hlen1 s S) by lia.
  unfold boundaries. rewrite Hfl. set (fl := (jmax <? T)%Z) in *. unfold zrange.
  set (m := Z.to_nat (jmax + len * b2z fl - T)).
  assert (Hm : (T + Z.of_nat m = jmax + len * b2z fl)%Z).
  { unfold m, fl. destruct (Z.ltb_spec jmax T); cbn [b2z]; lia. }
  replace (Z.to_nat (jmax + len * b2z fl - J)) with (Z.to_nat (T - J) + m)%nat by (unfold m in *; lia).
  rewrite !fold_U. cbv zeta. rewrite sumC_split. replace (J + Z.of_nat (Z.to_nat (T - J)))%Z with T by lia.
  set (Sm := sumC _ T m).
  set (k := Z.to_nat (T - J)).
  assert (HT2 : T = (J + Z.of_nat k)%Z) by (unfold k; lia).
  assert (Key : forall k, (J + Z.of_nat k <= T)%Z ->
    (ec z 0 * (z * RtoC (line c n J p0) + RtoC (slope c n J * pd)) +
     sumC (fun i => (ec z (1 - (barF RNum p1 jmax (i mod len)%Z - (IZR (i mod len) + 1) / n) / pd) *
                     RtoC (pd * (n * kink ys (i mod len + 1))))%C) J k
     = ec z 0 * (z * RtoC (line c n (J + Z.of_nat k) p0) + RtoC (slope c n (J + Z.of_nat k) * pd))
       - z * z * sumC (fun i => RtoC (pd * n * kink ys (i + 1)) * click z ((p0 - (IZR i + 1) / n) / pd)) J k)%C).
  { clear k HT2. induction k as [|k IH]; intros Hk.
    - replace (J + Z.of_nat 0)%Z with J by lia. cbn [sumC]. ring.
    - specialize (IH ltac:(lia)). rewrite !sumC_snoc.
      set (i := (J + Z.of_nat k)%Z) in *. replace (J + Z.of_nat (Datatypes.S k))%Z with (i + 1)%Z by (unfold i; lia).
      assert (Hi : (0 <= i < len)%Z) by (unfold i; lia).
      rewrite (Z.mod_small i len) by lia.
      assert (Eb : 1 - (barF RNum p1 jmax i - (IZR i + 1) / n) / pd = - ((p0 - (IZR i + 1) / n) / pd)).
      { assert (E0 : barF RNum p1 jmax i = p0 + pd).
        { unfold barF. cbn [tadd tofZ RNum]. rewrite Hstep.
          assert (Efl : (jmax <? i)%Z = fl).
          { revert Hfl. unfold fl. destruct (Z.ltb_spec jmax J), (Z.ltb_spec jmax T), (Z.ltb_spec jmax i); auto; try discriminate; unfold i in *; lia. }
          rewrite Efl. destruct fl; reflexivity. }
        rewrite E0. field. split; lra. }
      rewrite Eb. set (t := (p0 - (IZR i + 1) / n) / pd).
      replace (slope c n (i + 1)) with (slope c n i + n * kink ys (i + 1)) by (rewrite <- slope_kink; ring).
      replace (line c n (i + 1) p0) with (line c n i p0 + n * kink ys (i + 1) * (pd * t))
        by (unfold t; replace (pd * ((p0 - (IZR i + 1) / n) / pd)) with (p0 - (IZR i + 1) / n) by (field; split; lra); rewrite <- line_step; ring).
      assert (Ec := click_ec t).
      remember (sumC (fun i => RtoC (pd * n * kink ys (i + 1)) * click z ((p0 - (IZR i + 1) / n) / pd))%C J k) as S2 eqn:ES2.
      clear ES2.
      transitivity (ec z 0 * (z * RtoC (line c n i p0) + RtoC (slope c n i * pd)) - z * z * S2
         + ec z (- t) * RtoC (pd * (n * kink ys (i + 1))))%C.
      { rewrite <- IH. ring. }
      replace (z * z * (S2 + RtoC (pd * n * kink ys (i + 1)) * click z t))%C
        with (z * z * S2 + RtoC (pd * n * kink ys (i + 1)) * (z * z * click z t))%C by ring.
      rewrite Ec. generalize (ec z (- t)) as e1. generalize (ec z 0) as e0. generalize (z * z * S2)%C as SS.
      clear Ec. generalize (zAt RNum cfg F x : C) as w. change (Num.C RNum) with C.
      generalize (line c n i p0) (slope c n i) (kink ys (i + 1)).
      intros l1 l2 kk w SS e0 e1. rewrite !RtoC_plus, !RtoC_mult, !RtoC_plus, !RtoC_mult. ring. }
  specialize (Key k ltac:(lia)). rewrite <- HT2 in Key.
  set (A := (ec z 0 * (z * RtoC (line c n J p0) + RtoC (slope c n J * pd)))%C) in *.
  set (A2 := (ec z 0 * (z * RtoC (line c n T p0) + RtoC (slope c n T * pd)))%C) in *.
  match goal with |- (A - ?V + (?P + Sm))%C = (A2 - ?V + Sm - ?Q)%C =>
    assert (KK : (A + P = A2 - Q)%C) by exact Key; transitivity (A + P - V + Sm)%C; [|rewrite KK] end;
   match goal with |- @eq _ ?a ?b => change (@eq C a b) end; ring.
Qed.
End Off.
