(** * OscFacts: index invariant and totality of the oscillator, any number system with the
    index laws *)
From Coq Require Import ZArith List Bool Reals Lia Lra Arith.
From Flocq Require Import Core.
From Verif Require Import Num Maths CrossFader Wavetable Filters Osc NumFacts Laws CFFacts WTFacts SimdFacts.
Import ListNotations.
Local Open Scope Z_scope.

Section OscFacts.
Variable N : Num.
Variable L : Laws N.
Variable cfg : Cfg.
Variable F : Filt N.
Notation dbg := (dbg cfg).
Notation B := (batch cfg).
Notation n := (kNumCoeffs N F).
Notation upper := (kUpper N cfg F).
Notation fin := (fin N L).
Notation val := (val N L).

(** ** The integral computation never leaves its tables *)
Lemma len_pos K nw (w : WT N) k : WTok K nw w -> 0 <= k < K - 1 -> 4 <= 2 ^ (K - k) <= 2 ^ 18.
Proof.
  intros HW Hk. assert (HK := wo_K _ _ _ _ HW). split.
  - apply (Z.pow_le_mono_r 2 2); lia.
  - apply Z.pow_le_mono_r; lia.
Qed.
Lemma len_half K k : 0 <= k -> k + 1 < K - 1 -> 2 ^ (K - k) = 2 * 2 ^ (K - (k + 1)).
Proof. intros. rewrite <- Z.pow_succ_r by lia. f_equal. lia. Qed.

Section Simd.
Hypothesis HB : (1 <= B)%nat.
Hypothesis HF : filtOk N F.


Lemma computeI0_ok w wf k s len ip ix pd pb qb arr :
  wt_slot N w wf k = Ok s -> slotOk len s -> 0 <= ip < len -> 0 <= ix < len ->
  length arr = upper ->
  exists arr', computeI0 N cfg F w wf arr k ip ix pd pb qb = Ok arr' /\
    let a := tmul N (at_ (s_m s) ip) pd in
    let b := tmad N 1 (at_ (s_m s) ip) pb (at_ (s_q s) ip) in
    let c := tmul N (at_ (s_m s) ix) pd in
    let d := tmad N 2 (at_ (s_m s) ix) qb (at_ (s_q s) ix) in
    OrdUpd N cfg F (fun x _ => i0_lane N a b c d (ezAt N cfg F x) (zAt N cfg F x))
           (fun x _ => i0_scalar N (at_ (s_m s) ip) b (at_ (s_m s) ix) d pd (ezAt N cfg F x) (zAt N cfg F x)) arr arr'.
Proof.
  intros Hs [Sm Sq _ _] Hip Hix Ha. unfold computeI0, wt_m, wt_q. rewrite Hs. cbn [bind].
  rewrite (znth_at N (s_m s) ip), (znth_at N (s_q s) ip), (znth_at N (s_m s) ix), (znth_at N (s_q s) ix) by lia.
  cbn [bind]. apply i0_orders_upd; assumption.
Qed.

(** the number of the division in the boundary loop *)
Definition quoSite (fwd : bool) : Z := if fwd then 70 else 71.
(** the boundary loops, both directions: bar gives phase_red_bar from i_red *)
Definition sumU (fwd : bool) (bar : Z -> T N) (len : Z) (s : Slot N) (pd : T N) (x : nat)
           (v : C N) (i : Z) : C N :=
  let r := i mod len in
  let p := tdiv N (tofZ N (r + 1)) (tofZ N len) in
  let a := tquo N (quoSite fwd) (tsub N (bar r) p) pd in
  if laneOf N cfg F x
  then sum_lane_upd N fwd a pd p (at_ (s_md s) r) (at_ (s_qd s) r) (zAt N cfg F x) v
  else sum_scalar_upd N fwd a pd p (at_ (s_md s) r) (at_ (s_qd s) r) (zAt N cfg F x) v.

Lemma sum_fold_ok fwd bar len s pd (f : list (C N) -> Z -> res (list (C N))) :
  1 <= len <= int_max -> slotOk len s ->
  (forall arr i, f arr i =
     let! i_red := reduceZ dbg i len in
     let! p := znth (computePhaseVector N len) (i_red + 1) in
     let! mdi := znth (s_md s) i_red in
     let! qdi := znth (s_qd s) i_red in
     sum_orders N cfg F fwd (tquo N (quoSite fwd) (tsub N (bar i_red) p) pd) pd p mdi qdi arr) ->
  forall is arr, (forall i, In i is -> 0 <= i < 2 * len) -> length arr = upper ->
  exists arr', foldr f is arr = Ok arr' /\ length arr' = upper /\
    forall x v, (x < n)%nat -> nth_error arr x = Some v ->
      nth_error arr' x = Some (fold_left (sumU fwd bar len s pd x) is v).
Proof.
  intros Hlen [_ _ Smd Sqd] Hf is. induction is as [|i is IH]; intros arr Hi Ha.
  - exists arr. cbn [foldr fold_left]. auto.
  - cbn [foldr fold_left]. rewrite Hf.
    rewrite reduceZ_spec by (specialize (Hi i (or_introl eq_refl)); lia). cbn [bind].
    assert (Hr := Z.mod_pos_bound i len ltac:(lia)).
    rewrite znth_phaseVector by lia. cbn [bind].
    rewrite (znth_at N (s_md s)), (znth_at N (s_qd s)) by lia. cbn [bind].
    destruct (sum_orders_upd N cfg F HB HF fwd
                (tquo N (quoSite fwd) (tsub N (bar (i mod len)) (tdiv N (tofZ N (i mod len + 1)) (tofZ N len))) pd) pd
                (tdiv N (tofZ N (i mod len + 1)) (tofZ N len))
                (at_ (s_md s) (i mod len)) (at_ (s_qd s) (i mod len)) arr Ha) as (a1 & E1 & L1 & U1).
    rewrite E1. cbn [bind].
    destruct (IH a1) as (a2 & E2 & L2 & U2).
    + intros; apply Hi; now right.
    + congruence.
    + exists a2. split; [assumption|]. split; [assumption|].
      intros x v Hx Hv. apply U2; [assumption|]. rewrite (U1 x v Hx Hv).
      unfold sumU. destruct (laneOf N cfg F x); reflexivity.
Qed.

Lemma bornSup_ok len jmin jmax : 0 <= jmin < len -> 0 <= jmax < len -> 2 * len <= int_max ->
  bornSup len jmin jmax = Ok (jmax + len * b2z (jmax <? jmin)).
Proof.
  intros H1 H2 H3. unfold bornSup. apply chk_ok. unfold b2z, int_min.
  destruct (Z.ltb_spec jmax jmin); lia.
Qed.

Definition boundaries (len jmin jmax : Z) : list Z :=
  zrange jmin (jmax + len * b2z (jmax <? jmin)).

Lemma boundaries_range len jmin jmax i : 0 <= jmin < len -> 0 <= jmax < len ->
  In i (boundaries len jmin jmax) -> 0 <= i < 2 * len.
Proof.
  intros H1 H2 Hi. apply In_zrange in Hi. unfold b2z in Hi.
  destruct (Z.ltb_spec jmax jmin); lia.
Qed.

Section Tables.
Variables K nw : Z.
Variable w : WT N.
Hypothesis HW : WTok K nw w.

Lemma wt_slot_shape wf k : 0 <= wf < nw -> 0 <= k < K - 1 ->
  exists s ys, wt_slot N w wf k = Ok s /\ slotOf ys s /\ zlen ys = 2 ^ (K - k) /\ slotOk (2 ^ (K - k)) s.
Proof.
  intros H1 H2. destruct (wt_slot_ok N K nw w wf k HW H1 H2) as (s & ys & A & S & D).
  exists s, ys. split; [exact A|]. split; [exact S|]. split; [exact D|].
  rewrite <- D. exact (sf_shape _ _ _ S).
Qed.

Definition barF (phred : T N) (jmax r : Z) : T N := tadd N phred (tofZ N (b2z (jmax <? r))).
Definition barB (phred off : T N) (jmax r : Z) : T N :=
  tadd N (tadd N phred off) (tofZ N (b2z (jmax <? r))).

Lemma computeFwdI_ok wf k s prev pd phred jmin jmax arr :
  0 <= wf < nw -> 0 <= k < K - 1 -> wt_slot N w wf k = Ok s -> slotOk (2 ^ (K - k)) s ->
  0 <= jmin < 2 ^ (K - k) -> 0 <= jmax < 2 ^ (K - k) -> length arr = upper ->
  exists arr', computeFwdI N cfg F w wf prev arr k jmin jmax pd phred = Ok arr' /\
    length arr' = upper /\
    forall x v, (x < n)%nat -> nth_error arr x = Some v ->
      nth_error arr' x = Some
        (let len := 2 ^ (K - k) in
         let pb := tadd N prev (tofZ N (b2z (teq N prev (t0 N)))) in
         let a := tmul N (at_ (s_m s) jmin) pd in
         let b := tmad N 1 (at_ (s_m s) jmin) pb (at_ (s_q s) jmin) in
         let c := tmul N (at_ (s_m s) jmax) pd in
         let d := tmad N 2 (at_ (s_m s) jmax) phred (at_ (s_q s) jmax) in
         fold_left (sumU true (barF phred jmax) len s pd x) (boundaries len jmin jmax)
           (if laneOf N cfg F x
            then i0_lane N a b c d (ezAt N cfg F x) (zAt N cfg F x)
            else i0_scalar N (at_ (s_m s) jmin) b (at_ (s_m s) jmax) d pd (ezAt N cfg F x) (zAt N cfg F x))).
Proof.
  intros Hwf Hk Es Ss Hj1 Hj2 Ha. unfold computeFwdI.
  destruct (computeI0_ok w wf k s (2 ^ (K - k)) jmin jmax pd
             (tadd N prev (tofZ N (b2z (teq N prev (t0 N))))) phred arr) as (a1 & E1 & L1 & U1); auto.
  rewrite E1. cbn [bind]. unfold computeISumFwd.
  rewrite (wt_len_ok N K nw w k HW Hk). cbn [bind].
  assert (Hl := len_pos K nw w k HW Hk).
  rewrite bornSup_ok by (auto; unfold int_max; lia). cbn [bind].
  unfold wt_mDiff, wt_qDiff, wt_phases. rewrite Es. cbn [bind].
  rewrite (wo_ph _ _ _ _ HW k Hk). cbn [bind].
  destruct (sum_fold_ok true (barF phred jmax) (2 ^ (K - k)) s pd
     (sumFwd_iter N cfg F (computePhaseVector N (2 ^ (K - k))) (s_md s) (s_qd s) (2 ^ (K - k)) jmax pd phred))
     with (is := boundaries (2 ^ (K - k)) jmin jmax) (arr := a1) as (a2 & E2 & L2 & U2).
  - unfold int_max; lia.
  - assumption.
  - reflexivity.
  - intros i Hi. eapply boundaries_range; [| |exact Hi]; lia.
  - congruence.
  - exists a2. split; [exact E2|]. split; [assumption|].
    intros x v Hx Hv. apply U2; [assumption|]. now rewrite (U1 x v Hx Hv).
Qed.

Lemma computeBwdI_ok wf k s prev pd phred jm jmin jmax arr :
  0 <= wf < nw -> 0 <= k < K - 1 -> wt_slot N w wf k = Ok s -> slotOk (2 ^ (K - k)) s ->
  0 <= jmin < 2 ^ (K - k) -> 0 <= jmax < 2 ^ (K - k) -> length arr = upper ->
  (dbg = true -> tlt N pd (t0 N) = true) ->
  exists arr', computeBwdI N cfg F w wf prev arr k jm jmin jmax pd phred = Ok arr' /\
    length arr' = upper /\
    forall x v, (x < n)%nat -> nth_error arr x = Some v ->
      nth_error arr' x = Some
        (let len := 2 ^ (K - k) in
         let qb := tadd N phred (tofZ N (b2z (teq N phred (t0 N)))) in
         let a := tmul N (at_ (s_m s) jmax) pd in
         let b := tmad N 1 (at_ (s_m s) jmax) prev (at_ (s_q s) jmax) in
         let c := tmul N (at_ (s_m s) jmin) pd in
         let d := tmad N 2 (at_ (s_m s) jmin) qb (at_ (s_q s) jmin) in
         let off := if negb (jm =? 0) && (jmax <? jmin) then tofZ N (-1) else t0 N in
         fold_left (sumU false (barB phred off jmax) len s pd x) (boundaries len jmin jmax)
           (if laneOf N cfg F x
            then i0_lane N a b c d (ezAt N cfg F x) (zAt N cfg F x)
            else i0_scalar N (at_ (s_m s) jmax) b (at_ (s_m s) jmin) d pd (ezAt N cfg F x) (zAt N cfg F x))).
Proof.
  intros Hwf Hk Es Ss Hj1 Hj2 Ha Hpd. unfold computeBwdI.
  rewrite assert_ok by assumption. cbn [bind].
  destruct (computeI0_ok w wf k s (2 ^ (K - k)) jmax jmin pd prev
             (tadd N phred (tofZ N (b2z (teq N phred (t0 N))))) arr) as (a1 & E1 & L1 & U1); auto.
  rewrite E1. cbn [bind]. unfold computeISumBwd.
  rewrite assert_ok by assumption. cbn [bind].
  rewrite (wt_len_ok N K nw w k HW Hk). cbn [bind].
  assert (Hl := len_pos K nw w k HW Hk).
  rewrite bornSup_ok by (auto; unfold int_max; lia). cbn [bind].
  unfold wt_mDiff, wt_qDiff, wt_phases. rewrite Es. cbn [bind].
  rewrite (wo_ph _ _ _ _ HW k Hk). cbn [bind].
  set (off := if negb (jm =? 0) && (jmax <? jmin) then tofZ N (-1) else t0 N).
  destruct (sum_fold_ok false (barB phred off jmax) (2 ^ (K - k)) s pd
     (sumBwd_iter N cfg F (computePhaseVector N (2 ^ (K - k))) (s_md s) (s_qd s) (2 ^ (K - k)) jmax off pd phred))
     with (is := boundaries (2 ^ (K - k)) jmin jmax) (arr := a1) as (a2 & E2 & L2 & U2).
  - unfold int_max; lia.
  - assumption.
  - reflexivity.
  - intros i Hi. eapply boundaries_range; [| |exact Hi]; lia.
  - congruence.
  - exists a2. split; [exact E2|]. split; [assumption|].
    intros x v Hx Hv. apply U2; [assumption|]. now rewrite (U1 x v Hx Hv).
Qed.

End Tables.
End Simd.

(** ** The oscillator's invariant *)
Definition pos (K k : Z) (p : T N) : R := (val p * IZR (2 ^ (K - k)))%R.

Record OscOk (K nw : Z) (o : Osc N) (w : WT N) : Prop := {
  oo_wt : o_wt o = Some w;
  oo_W : WTok K nw w;
  oo_cf : CFok N (wt_cf w);
  oo_wf : 0 <= o_wf o < nw;
  oo_phred : okPhase N L (o_phred o);
  oo_phase : o_phase o = o_phred o;
  oo_pd : fin (o_pd o);
  oo_mm : 0 <= o_mm o < K - 1;
  oo_y : length (o_y o) = n;
  oo_jf : (0 <= val (o_pd o))%R -> o_j o = Zfloor (pos K (o_mm o) (o_phred o));
  oo_jb : (val (o_pd o) < 0)%R -> o_j o = Zceil (pos K (o_mm o) (o_phred o))
}.

(** The state in which a move to a lower entry reads element -1 of the phase grid: the last
    step was not forward and the table index is 0 *)
Definition trap (o : Osc N) : Prop := (val (o_pd o) <= 0)%R /\ o_j o = 0.

Section Step.
Variables (K nw : Z) (o : Osc N) (w : WT N).
Hypothesis HO : OscOk K nw o w.
Notation P := (o_phred o).

Lemma K_range : 2 <= K <= 18.
Proof. exact (wo_K _ _ _ _ (oo_W _ _ _ _ HO)). Qed.

Lemma P_range : (0 <= val P < 1)%R.
Proof. exact (proj2 (oo_phred _ _ _ _ HO)). Qed.
Lemma P_fin : fin P.
Proof. exact (proj1 (oo_phred _ _ _ _ HO)). Qed.

Lemma pos_bounds k : 0 <= k < K - 1 -> (0 <= pos K k P < IZR (2 ^ (K - k)))%R.
Proof.
  intros Hk. assert (HK := K_range). assert (HP := P_range). unfold pos.
  assert (A := IZR_pow2_pos (K - k) ltac:(lia)). split.
  - apply Rmult_le_pos; lra.
  - rewrite <- (Rmult_1_l (IZR (2 ^ (K - k)))) at 2. apply Rmult_lt_compat_r; lra.
Qed.

Lemma pos_scale k d : 0 <= d -> 0 <= k -> k + d < K - 1 ->
  (pos K k P = pos K (k + d) P * IZR (2 ^ d))%R.
Proof.
  intros Hd Hk Hkd. unfold pos. rewrite Rmult_assoc, <- mult_IZR, <- Z.pow_add_r by lia.
  do 3 f_equal. lia.
Qed.

Lemma grid_val k i : 0 <= k < K - 1 -> 0 <= i <= 2 ^ (K - k) ->
  fin (tdiv N (tofZ N i) (tofZ N (2 ^ (K - k)))) /\
  val (tdiv N (tofZ N i) (tofZ N (2 ^ (K - k)))) = (IZR i / IZR (2 ^ (K - k)))%R.
Proof. intros Hk Hi. assert (HK := K_range). apply grid_spec; lia. Qed.

(** comparing the phase with grid point i is comparing the position with i *)
Lemma grid_cmp k i : 0 <= k < K - 1 ->
  ((IZR i / IZR (2 ^ (K - k)) <= val P)%R <-> (IZR i <= pos K k P)%R) /\
  ((val P <= IZR i / IZR (2 ^ (K - k)))%R <-> (pos K k P <= IZR i)%R) /\
  ((IZR i / IZR (2 ^ (K - k)) < val P)%R <-> (IZR i < pos K k P)%R) /\
  ((val P < IZR i / IZR (2 ^ (K - k)))%R <-> (pos K k P < IZR i)%R).
Proof.
  intros Hk. assert (HK := K_range). assert (A := IZR_pow2_pos (K - k) ltac:(lia)).
  unfold pos. set (l := IZR (2 ^ (K - k))) in *.
  assert (E : (IZR i = IZR i / l * l)%R) by (field; lra).
  repeat split; intros H.
  - rewrite E. apply Rmult_le_compat_r; lra.
  - rewrite E in H. apply Rmult_le_reg_r in H; lra.
  - rewrite E. apply Rmult_le_compat_r; lra.
  - rewrite E in H. apply Rmult_le_reg_r in H; lra.
  - rewrite E. apply Rmult_lt_compat_r; lra.
  - rewrite E in H. apply Rmult_lt_reg_r in H; lra.
  - rewrite E. apply Rmult_lt_compat_r; lra.
  - rewrite E in H. apply Rmult_lt_reg_r in H; lra.
Qed.

Lemma grid01 k i : 0 <= k < K - 1 -> 0 <= i <= 2 ^ (K - k) -> (0 <= IZR i / IZR (2 ^ (K - k)) <= 1)%R.
Proof.
  intros Hk Hi. assert (HK := K_range). assert (A := IZR_pow2_pos (K - k) ltac:(lia)). split.
  - apply Rmult_le_pos; [apply IZR_le; lia | left; now apply Rinv_0_lt_compat].
  - apply Rmult_le_reg_r with (IZR (2 ^ (K - k))); [assumption|].
    unfold Rdiv. rewrite Rmult_assoc, Rinv_l, Rmult_1_r, Rmult_1_l by lra. apply IZR_le; lia.
Qed.

(** sign of (previous phase - grid point) *)
Lemma sgn_grid k i : 0 <= k < K - 1 -> 0 <= i <= 2 ^ (K - k) ->
  let sg := msign N (tsub N P (tdiv N (tofZ N i) (tofZ N (2 ^ (K - k))))) in
  -1 <= sg <= 1 /\ ((IZR i <= pos K k P)%R -> 0 <= sg) /\ ((pos K k P <= IZR i)%R -> sg <= 0) /\
  (playable (val P) -> (IZR i < pos K k P)%R -> sg = 1) /\
  (playable (val P) -> (pos K k P < IZR i)%R -> sg = -1).
Proof.
  intros Hk Hi sg. assert (HK := K_range). assert (HP := P_range).
  destruct (grid_val k i Hk Hi) as [G1 G2]. assert (G3 := grid01 k i Hk Hi).
  destruct (grid_cmp k i Hk) as (C1 & C2 & C3 & C4).
  assert (Hr : -1 <= sg <= 1).
  { unfold sg, msign. destruct (tlt N _ _); [lia|]. destruct (tsignbit N _); lia. }
  repeat split; try (apply Hr).
  - intros H. apply (sgn_ge N L); rewrite ?G2; auto; [apply P_fin|lra|now apply C1].
  - intros H. apply (sgn_le N L); rewrite ?G2; auto; [apply P_fin|lra|now apply C2].
  - intros Hpl H. apply (sgn_pos N L); rewrite ?G2; auto; [apply P_fin|lra|].
    apply C3 in H. destruct (Hpl (K - k) i) as [E|D]; [lia|lia|lra|].
    rewrite Rabs_pos_eq in D by lra. exact D.
  - intros Hpl H. apply (sgn_neg N L); rewrite ?G2; auto; [apply P_fin|lra|].
    apply C4 in H. destruct (Hpl (K - k) i) as [E|D]; [lia|lia|lra|].
    rewrite Rabs_left1 in D by lra. lra.
Qed.

Lemma j_range : 0 <= o_j o <= 2 ^ (K - o_mm o) /\ ((0 <= val (o_pd o))%R -> o_j o < 2 ^ (K - o_mm o)).
Proof.
  assert (HK := K_range). assert (Hm := oo_mm _ _ _ _ HO). assert (HP := P_range).
  assert (Hk : 0 <= K - o_mm o) by lia.
  destruct (Rle_or_lt 0 (val (o_pd o))) as [H|H].
  - rewrite (oo_jf _ _ _ _ HO H). assert (A := floor_pos_range (val P) (K - o_mm o) HP Hk).
    unfold pos. split; lia.
  - rewrite (oo_jb _ _ _ _ HO H). assert (A := ceil_pos_range (val P) (K - o_mm o) HP Hk).
    unfold pos. split; [lia|lra].
Qed.

Lemma pow_split k : 0 <= k -> forall m, k <= m -> m < K - 1 -> 2 ^ (K - k) = 2 ^ (m - k) * 2 ^ (K - m).
Proof. intros H m H1 H2. rewrite <- Z.pow_add_r by lia. f_equal; lia. Qed.

(** the adjusted index: always within the grid; sharp under the conditions the code needs *)
Lemma adjustJ_ok mi : 0 <= mi < K - 1 -> ~ (trap o /\ mi < o_mm o) ->
  exists j, adjustJ N (computePhaseVector N (2 ^ (K - mi))) mi (o_mm o) (o_j o) (o_pd o) P = Ok j /\
    0 <= j <= 2 ^ (K - mi) /\
    ((0 <= val (o_pd o))%R -> j < 2 ^ (K - mi) /\ (IZR j <= pos K mi P)%R) /\
    ((0 < val (o_pd o))%R -> o_mm o - 1 <= mi -> (IZR j <= pos K mi P <= IZR j + 1)%R) /\
    ((0 <= val (o_pd o))%R -> o_mm o <= mi -> (IZR j <= pos K mi P < IZR j + 1)%R) /\
    ((val (o_pd o) < 0)%R ->
       mi = o_mm o \/ mi = o_mm o - 1 \/ (o_mm o <= mi /\ o_j o mod 2 ^ (mi - o_mm o) = 0) ->
       (IZR j - 1 <= pos K mi P <= IZR j)%R).
Proof.
  intros Hmi Htrap. assert (HK := K_range). assert (Hm := oo_mm _ _ _ _ HO).
  assert (Hj := j_range). destruct Hj as [Hj1 Hj2].
  assert (Hjf := oo_jf _ _ _ _ HO). assert (Hjb := oo_jb _ _ _ _ HO).
  assert (Hpm := pos_bounds (o_mm o) Hm). assert (Hpi := pos_bounds mi Hmi).
  assert (Hpow18 : 2 ^ (K - o_mm o) <= 2 ^ 18) by (apply Z.pow_le_mono_r; lia).
  assert (Hpow18' : 2 ^ (K - mi) <= 2 ^ 18) by (apply Z.pow_le_mono_r; lia).
  destruct (zero_spec N L) as [Z1 Z2]. assert (Fp := oo_pd _ _ _ _ HO).
  unfold adjustJ.
  destruct (Z.ltb_spec (o_mm o) mi) as [Hup|Hup].
  - (* going up *)
    rewrite ishr_ok by lia.
    set (d := mi - o_mm o) in *.
    assert (Hsp := pow_split (o_mm o) ltac:(lia) mi ltac:(lia) ltac:(lia)). fold d in Hsp.
    assert (Hd : 0 < 2 ^ d) by (apply pow2_pos; lia).
    assert (HdR : (0 < IZR (2 ^ d))%R) by (apply IZR_lt; lia).
    assert (Hps := pos_scale (o_mm o) d ltac:(lia) ltac:(lia) ltac:(lia)).
    replace (o_mm o + d) with mi in Hps by lia.
    assert (Hdm := Z.div_mod (o_j o) (2 ^ d) ltac:(lia)).
    assert (Hmb := Z.mod_pos_bound (o_j o) (2 ^ d) Hd).
    set (q := o_j o / 2 ^ d) in *. set (r := o_j o mod 2 ^ d) in *.
    assert (Hq0 : 0 <= q) by (apply Z.div_pos; lia).
    exists q. split; [reflexivity|]. split; [nia|].
    assert (Hfl : (0 <= val (o_pd o))%R -> (IZR q <= pos K mi P < IZR q + 1)%R).
    { intros H. specialize (Hjf H). assert (A := Zfloor_lb (pos K (o_mm o) P)).
      assert (A' := Zfloor_ub (pos K (o_mm o) P)). rewrite <- Hjf in A, A'.
      split.
      - apply Rmult_le_reg_r with (IZR (2 ^ d)); [assumption|]. rewrite <- Hps.
        apply Rle_trans with (IZR (o_j o)); [|assumption]. rewrite <- mult_IZR. apply IZR_le. lia.
      - apply Rmult_lt_reg_r with (IZR (2 ^ d)); [assumption|]. rewrite <- Hps.
        apply Rlt_le_trans with (IZR (o_j o) + 1)%R; [assumption|].
        rewrite <- (plus_IZR q 1), <- mult_IZR, <- (plus_IZR (o_j o) 1). apply IZR_le. nia. }
    split; [|split; [|split]].
    + intros H. specialize (Hfl H). split; [|lra]. specialize (Hj2 H). nia.
    + intros H _. assert (A := Hfl (Rlt_le _ _ H)). lra.
    + intros H _. now apply Hfl.
    + intros H Hc. specialize (Hjb H). assert (A := Zceil_ub (pos K (o_mm o) P)).
      assert (A' := Zceil_lb (pos K (o_mm o) P)). rewrite <- Hjb in A, A'.
      assert (Hr0 : r = 0) by (unfold r, d; destruct Hc as [Hc|[Hc|[_ Hc]]]; [lia|lia|exact Hc]).
      assert (Hoj : IZR (o_j o) = (IZR q * IZR (2 ^ d))%R).
      { rewrite <- mult_IZR. f_equal. lia. }
      split.
      * apply Rmult_le_reg_r with (IZR (2 ^ d)); [assumption|]. rewrite <- Hps.
        rewrite Rmult_minus_distr_r, <- Hoj, Rmult_1_l.
        assert (1 <= IZR (2 ^ d))%R by (apply (IZR_le 1); lia). lra.
      * apply Rmult_le_reg_r with (IZR (2 ^ d)); [assumption|]. rewrite <- Hps, <- Hoj. assumption.
  - destruct (Z.ltb_spec mi (o_mm o)) as [Hdn|Hdn].
    + (* going down *)
      set (d := o_mm o - mi) in *.
      assert (Hsp := pow_split mi ltac:(lia) (o_mm o) ltac:(lia) ltac:(lia)). fold d in Hsp.
      assert (Hd : 2 <= 2 ^ d) by (apply (Z.pow_le_mono_r 2 1); lia).
      assert (HdR : (2 <= IZR (2 ^ d))%R) by (apply IZR_le; lia).
      assert (Hps := pos_scale mi d ltac:(lia) ltac:(lia) ltac:(lia)).
      replace (mi + d) with (o_mm o) in Hps by lia.
      rewrite ishl_ok; [|lia|lia|unfold int_max; nia]. cbn [bind].
      set (j' := o_j o * 2 ^ d) in *.
      assert (Ej' : IZR j' = (IZR (o_j o) * IZR (2 ^ d))%R) by (unfold j'; now rewrite mult_IZR).
      rewrite (lt_spec N L _ _ Z1 Fp), Z2.
      destruct (Rlt_bool_spec 0 (val (o_pd o))) as [Hpd|Hpd].
      * (* previous step forward *)
        specialize (Hj2 (Rlt_le _ _ Hpd)). specialize (Hjf (Rlt_le _ _ Hpd)).
        assert (Hj'r : 0 <= j' /\ j' + 2 ^ d <= 2 ^ (K - mi)) by (unfold j'; nia).
        rewrite znth_phaseVector by lia. cbn [bind].
        destruct (grid_val mi (j' + 1) ltac:(lia) ltac:(lia)) as [G1 G2].
        rewrite (lt_spec N L _ _ G1 P_fin), G2.
        destruct (grid_cmp mi (j' + 1) ltac:(lia)) as (C1 & C2 & C3 & C4).
        assert (A := Zfloor_lb (pos K (o_mm o) P)). assert (A' := Zfloor_ub (pos K (o_mm o) P)).
        rewrite <- Hjf in A, A'.
        assert (Hlow : (IZR j' <= pos K mi P)%R).
        { rewrite Hps, Ej'. apply Rmult_le_compat_r; lra. }
        assert (Hhi : (pos K mi P < IZR j' + IZR (2 ^ d))%R).
        { rewrite Hps, Ej'. replace (IZR (o_j o) * IZR (2 ^ d) + IZR (2 ^ d))%R with
            ((IZR (o_j o) + 1) * IZR (2 ^ d))%R by ring. apply Rmult_lt_compat_r; lra. }
        destruct (Rlt_bool_spec (IZR (j' + 1) / IZR (2 ^ (K - mi))) (val P)) as [Hc|Hc];
          unfold b2z; rewrite chk_ok by (unfold int_min, int_max; lia).
        -- apply C3 in Hc. exists (j' + 1). split; [reflexivity|].
           split; [lia|]. split; [|split; [|split]].
           ++ intros _. split; [|lra].
              assert (j' + 1 < 2 ^ (K - mi)); [|assumption].
              apply lt_IZR. lra.
           ++ intros _ Hmm. assert (d = 1) by lia. assert (Hd1 : 2 ^ d = 2) by (now rewrite H).
              rewrite Hd1 in Hhi. rewrite plus_IZR in *. lra.
           ++ intros; lia.
           ++ intros; lra.
        -- apply C2 in Hc. exists j'. rewrite Z.add_0_r. split; [reflexivity|].
           split; [lia|]. split; [|split; [|split]].
           ++ intros _. split; [lia|lra].
           ++ intros _ Hmm. rewrite plus_IZR in *. lra.
           ++ intros; lia.
           ++ intros; lra.
      * (* previous step not forward *)
        assert (Hj0 : 0 < o_j o).
        { destruct (Z.eq_dec (o_j o) 0) as [E|]; [|lia].
          exfalso. apply Htrap. split; [|assumption]. split; assumption. }
        assert (Hj'r : 2 ^ d <= j' <= 2 ^ (K - mi)) by (unfold j'; nia).
        rewrite znth_phaseVector by lia. cbn [bind].
        destruct (grid_val mi (j' - 1) ltac:(lia) ltac:(lia)) as [G1 G2].
        rewrite (lt_spec N L _ _ P_fin G1), G2.
        destruct (grid_cmp mi (j' - 1) ltac:(lia)) as (C1 & C2 & C3 & C4).
        assert (Hge : (0 <= val (o_pd o))%R -> (IZR j' <= pos K mi P)%R /\ j' < 2 ^ (K - mi)).
        { intros H. specialize (Hjf H). assert (A := Zfloor_lb (pos K (o_mm o) P)).
          rewrite <- Hjf in A. split.
          - rewrite Hps, Ej'. apply Rmult_le_compat_r; lra.
          - specialize (Hj2 H). unfold j'. nia. }
        assert (Hle : (val (o_pd o) < 0)%R -> (IZR j' - IZR (2 ^ d) < pos K mi P <= IZR j')%R).
        { intros H. specialize (Hjb H). assert (A := Zceil_ub (pos K (o_mm o) P)).
          assert (A' := Zceil_lb (pos K (o_mm o) P)). rewrite <- Hjb in A, A'. rewrite Hps, Ej'.
          split.
          - replace (IZR (o_j o) * IZR (2 ^ d) - IZR (2 ^ d))%R with
              ((IZR (o_j o) - 1) * IZR (2 ^ d))%R by ring. apply Rmult_lt_compat_r; lra.
          - apply Rmult_le_compat_r; lra. }
        destruct (Rlt_bool_spec (val P) (IZR (j' - 1) / IZR (2 ^ (K - mi)))) as [Hc|Hc];
          unfold b2z; rewrite chk_ok by (unfold int_min, int_max; lia).
        -- apply C4 in Hc. exists (j' - 1). split; [reflexivity|].
           split; [lia|]. rewrite minus_IZR in Hc.
           split; [|split; [|split]].
           ++ intros H. destruct (Hge H). lra.
           ++ intros; lra.
           ++ intros; lia.
           ++ intros H Hmm. specialize (Hle H). assert (d = 1) by lia.
              assert (Hd1 : 2 ^ d = 2) by (now rewrite H0).
              rewrite Hd1 in Hle. rewrite minus_IZR. lra.
        -- apply C1 in Hc. exists j'. rewrite Z.sub_0_r. split; [reflexivity|].
           rewrite minus_IZR in Hc.
           split; [lia|]. split; [|split; [|split]].
           ++ intros H. destruct (Hge H). auto.
           ++ intros; lra.
           ++ intros; lia.
           ++ intros H Hmm. specialize (Hle H). lra.
    + (* same entry *)
      assert (E : mi = o_mm o) by lia. rewrite E in *.
      exists (o_j o). split; [reflexivity|]. split; [lia|].
      assert (A := Zfloor_lb (pos K (o_mm o) P)). assert (A' := Zfloor_ub (pos K (o_mm o) P)).
      assert (A2 := Zceil_ub (pos K (o_mm o) P)). assert (A2' := Zceil_lb (pos K (o_mm o) P)).
      split; [|split; [|split]].
      * intros H. split; [auto|]. rewrite (Hjf H). lra.
      * intros H _. rewrite (Hjf (Rlt_le _ _ H)). lra.
      * intros H _. rewrite (Hjf H). lra.
      * intros H _. rewrite (Hjb H). lra.
Qed.

(** when it does fault, it is the access out of the phase grid *)
Lemma adjustJ_trap mi : 0 <= mi < K - 1 -> trap o -> mi < o_mm o ->
  adjustJ N (computePhaseVector N (2 ^ (K - mi))) mi (o_mm o) (o_j o) (o_pd o) P = Fault OutOfBounds.
Proof.
  intros Hmi [Hpd Hj] Hlt. assert (HK := K_range). assert (Hm := oo_mm _ _ _ _ HO).
  destruct (zero_spec N L) as [Z1 Z2]. assert (Fp := oo_pd _ _ _ _ HO).
  unfold adjustJ. destruct (Z.ltb_spec (o_mm o) mi); [lia|].
  destruct (Z.ltb_spec mi (o_mm o)); [|lia].
  rewrite Hj. rewrite ishl_ok by (unfold int_max; lia). cbn [bind].
  rewrite (lt_spec N L _ _ Z1 Fp), Z2. rewrite Rlt_bool_false by lra.
  rewrite Z.mul_0_l. rewrite znth_fault by lia. reflexivity.
Qed.

End Step.
End OscFacts.
