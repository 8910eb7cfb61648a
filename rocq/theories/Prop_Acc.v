(** * Prop_Acc: property C53 -- phase accumulators *)
From Coq Require Import ZArith List Bool Reals Lia Lra Arith.
From Flocq Require Import Core IEEE754.BinarySingleNaN.
From Verif Require Import Num Maths CrossFader Wavetable Filters Osc Spec SpecC SpecT NumFacts Laws B32 B32Facts B32Laws B32Pow Demo SpecF SpecO SpecW
  OscRun PHist Prop_Build Prop_CrossFader Prop_Safety SpecP SpecA PWide PAcc PTone Prop_Wide.
From Coquelicot Require Import Coquelicot.
From Verif Require Import SpecE SpecR Prop_Close Prop_CloseEx.
Import ListNotations.
Local Open Scope R_scope.

(** ** C53, forward: all phases are in [0,1); each is 0 or at least 2^-23; every step the
    oscillator computes from them, in either mode, is forward, at most half a cycle, and within
    3/2^25 of a cycle of the step asked for *)
Definition closeStep (s d : f32) : Prop :=
  finite d /\ 0 < B2R d <= / 2 /\ Rabs (B2R d - B2R s) <= 3 / IZR (2 ^ 25).

Lemma q34 : 3 / IZR (2 ^ 25) = 3 / 4 * e23.
Proof. assert (E : / IZR (2 ^ 25) = e23 / 4) by (rewrite <- e25_e; reflexivity). unfold Rdiv at 1. rewrite E. lra. Qed.

Theorem C53_forward : forall lm dir ss (p : f32), phase01 p -> List.Forall fairStep ss ->
  length (accum p ss) = length ss /\
  List.Forall (fun q => phase01 q /\ (B2R q = 0 \/ / IZR (2 ^ 23) <= B2R q)) (accum p ss) /\
  Forall2 closeStep ss (steps32 lm dir p (accum p ss)).
Proof.
  intros lm dir ss. induction ss as [|s ss IH]; intros p Hp Hs; [split; [reflexivity|split; constructor]|].
  inversion_clear Hs as [|? ? Hs1 Hs2]. cbn [accum]. fold (fadd p s).
  destruct (acc_fwd lm p s dir Hp Hs1) as (Hq & Hg & _ & Ff & Hd & Hn). set (q := fmod1 (fadd p s)) in *.
  destruct (IH q Hq Hs2) as (I0 & I1 & I2). rewrite e23_def in Hg.
  split; [cbn; now rewrite I0|]. split.
  - constructor; [|exact I1]. split; assumption.
  - cbn [steps32]. constructor; [|exact I2]. split; [exact Ff|]. split; [exact Hd|]. rewrite q34. exact Hn.
Qed.
Print Assumptions C53_forward.

(** backward (kBidirectionnal): fmod keeps the sign, so the phases are in (-1,0], each 0 or at
    most -2^-23, and the steps are backward *)
Definition closeStepBack (s d : f32) : Prop :=
  finite d /\ - / 2 <= B2R d < 0 /\ Rabs (B2R d - B2R s) <= 3 / IZR (2 ^ 25).
Definition backPhase (q : f32) : Prop := finite q /\ -1 < B2R q <= 0 /\ (B2R q = 0 \/ B2R q <= - / IZR (2 ^ 23)).

Theorem C53_backward : forall lm ss (p : f32), backPhase p -> List.Forall (fun s => fairStep (Bopp s)) ss ->
  length (accum p ss) = length ss /\
  List.Forall backPhase (accum p ss) /\
  Forall2 closeStepBack ss (steps32 lm kBidirectionnal p (accum p ss)).
Proof.
  intros lm ss. induction ss as [|s ss IH]; intros p Hp Hs; [split; [reflexivity|split; constructor]|].
  inversion_clear Hs as [|? ? [Fs Hs1] Hs2]. cbn [accum]. fold (fadd p s).
  rewrite is_finite_Bopp in Fs. rewrite B2R_Bopp in Hs1. rewrite <- e23_def in Hs1.
  destruct Hp as (Fp & Hp & _).
  destruct (acc_bwd lm p s Fp Hp Fs Hs1) as (Fq & Hq & Hg & _ & Ff & Hd & Hn). set (q := fmod1 (fadd p s)) in *.
  rewrite e23_def in Hg. assert (Bq : backPhase q) by (repeat split; auto; apply Hq).
  destruct (IH q Bq Hs2) as (I0 & I1 & I2).
  split; [cbn; now rewrite I0|]. split.
  - constructor; assumption.
  - cbn [steps32]. constructor; [|exact I2]. split; [exact Ff|]. split; [exact Hd|]. rewrite q34. exact Hn.
Qed.
Print Assumptions C53_backward.

(** drift: after n updates the phase is, up to whole cycles, within n/2^24 of the exact sum *)
Definition total32 (ss : list f32) : R := List.fold_right (fun s a => B2R s + a) 0 ss.

Theorem C53_drift : forall ss (p : f32),
  (phase01 p /\ List.Forall fairStep ss) \/ (backPhase p /\ List.Forall (fun s => fairStep (Bopp s)) ss) ->
  exists k : Z, Rabs (B2R (last (accum p ss) p) + IZR k - (B2R p + total32 ss)) <= INR (length ss) / IZR (2 ^ 24).
Proof.
  assert (E24 : / IZR (2 ^ 24) = e23 / 2) by (rewrite <- e24_e; reflexivity).
  induction ss as [|s ss IH]; intros p Hp.
  - exists 0%Z. change (Rabs (B2R p + 0 - (B2R p + 0)) <= 0 / IZR (2 ^ 24)). rewrite Rminus_diag_eq by reflexivity. rewrite Rabs_R0. unfold Rdiv. lra.
  - assert (Core : exists k : Z, Rabs (B2R (fmod1 (fadd p s)) + IZR k - (B2R p + B2R s)) <= e23 / 2 /\
      ((phase01 (fmod1 (fadd p s)) /\ List.Forall fairStep ss) \/ (backPhase (fmod1 (fadd p s)) /\ List.Forall (fun s => fairStep (Bopp s)) ss))).
    { destruct Hp as [[Hp Hs]|[Hp Hs]]; inversion_clear Hs as [|? ? Hs1 Hs2].
      - destruct (acc_fwd demo_libm p s kForward Hp Hs1) as (Hq & _ & (k & Hk) & _). exists k. split; [exact Hk|left; auto].
      - destruct Hs1 as [Fs Hs1]. rewrite is_finite_Bopp in Fs. rewrite B2R_Bopp in Hs1. rewrite <- e23_def in Hs1. destruct Hp as (Fp & Hp & _).
        destruct (acc_bwd demo_libm p s Fp Hp Fs Hs1) as (Fq & Hq & Hg & (k & Hk) & _). rewrite e23_def in Hg.
        exists k. split; [exact Hk|right; split; [|exact Hs2]]. repeat split; auto; apply Hq. }
    destruct Core as (k & Hk & Hn). cbn [accum]. fold (fadd p s). set (q := fmod1 (fadd p s)) in *.
    destruct (IH q Hn) as (k' & Hk').
    exists (k' + k)%Z. rewrite last_cons, plus_IZR. cbn [total32 List.fold_right]. fold (total32 ss).
    replace (B2R (last (accum q ss) q) + (IZR k' + IZR k) - (B2R p + (B2R s + total32 ss))) with
      ((B2R (last (accum q ss) q) + IZR k' - (B2R q + total32 ss)) + (B2R q + IZR k - (B2R p + B2R s))) by ring.
    eapply Rle_trans; [apply Rabs_triang|]. change (length (s :: ss)) with (S (length ss)). rewrite S_INR.
    unfold Rdiv in *. rewrite E24 in *. lra.
Qed.
Print Assumptions C53_drift.

(** accumulator blocks are blocks a careful caller gives (C21's hypothesis, including the
    exclusion of C22) ... *)
Theorem C53_careful : forall lm debug dir ss (p : f32), phase01 p -> List.Forall fairStep ss ->
  okBlock lm debug true dir p (accum p ss).
Proof.
  intros lm debug dir ss. induction ss as [|s ss IH]; intros p Hp Hs; [exact I|].
  inversion_clear Hs as [|? ? Hs1 Hs2]. cbn [accum okBlock]. fold (fadd p s).
  destruct (acc_fwd lm p s dir Hp Hs1) as (Hq & _ & _ & Ff & Hd & _). set (q := fmod1 (fadd p s)) in *.
  split; [|now apply IH]. split; [exact Hq|]. split; [intros _; lra|intros _; left; lra].
Qed.
Print Assumptions C53_careful.

(** ... so playing them is free of undefined behaviour *)
Theorem C53_safe : forall lm src cfg F w (p d : f32) dir ss, log2_exact lm -> resamplerOk (B32 lm) src ->
  (1 <= batch cfg)%nat -> filterShape (B32 lm) F -> usable lm src (dbg cfg) w ->
  phase01 p -> finite d -> 0 < B2R d -> List.Forall fairStep ss ->
  exists o ys, run (B32 lm) src cfg F (osc_new (B32 lm) F)
    [OpInit (B32 lm) (Some w) p d; OpProcess (B32 lm) dir (accum p ss)] = Ok (o, ys).
Proof.
  intros lm src cfg F w p d dir ss Hlog Hsrc HB HF Hu Hp Fd Hd Hs. apply C21_safe; auto.
  cbn [okHist]. split; [exact Hu|]. split.
  - split; [exact Hp|]. split; [exact Fd|]. split; [intros _; lra|intros _; left; exact Hd].
  - split; [|exact I]. now apply C53_careful.
Qed.
Print Assumptions C53_safe.

(** and as accurate for ever as C50 says, when the steps stay 2^-23 away from the limits of
    their octave *)
Theorem C53_accurate : forall lm src cfg f c wfs nw K w sr fade n (p d s : f32) r m,
  accurateExp lm -> log2_exact lm -> (1 <= batch cfg)%nat -> (-64 <= c <= 64)%Z ->
  wellFormed (B32 lm) wfs nw K -> rate32 lm sr -> tcast (B32 lm) (tmul (B32 lm) fade sr) = Ok n -> (1 <= n)%Z ->
  wt_build (B32 lm) src (Osc.dbg cfg) wfs nw sr fade = Ok (Some w) -> tameAll lm src c wfs nw K ->
  finite d -> 0 < B2R d -> entryFor K (B2R d) r -> plainPhase p ->
  octaveStep K r s -> 0 < B2R s -> B2R s + / IZR (2 ^ 23) < / 2 -> (n <= Z.of_nat m)%Z ->
  let ops := [OpInit (B32 lm) (Some w) p d; OpProcess (B32 lm) kForward (accum p (repeat s m))] in
  exists st Ys o ys, plays32 lm src (Osc.dbg cfg) f c None ops (Some st) Ys /\
    Osc.run (B32 lm) src cfg (filt (B32 lm) f) (osc_new (B32 lm) (filt (B32 lm) f)) ops = Ok (o, ys) /\
    length ys = m /\ Forall2 (within f c) ys Ys.
Proof.
  intros lm src cfg f c wfs nw K w sr fade n p d s r m Hex Hlog HB Hc HW Hsr Hn Hn1 Hb Ht Fd Hd Hr Hp Hs Hs0 Hs1 Hm ops.
  assert (Hs' := Hs). destruct Hs' as (Fs & Hb1 & E1 & E2). rewrite <- e23_def in *. assert (P := e23_pos).
  rewrite Rabs_pos_eq in Hb1, E1, E2 by lra.
  assert (Fair : List.Forall fairStep (repeat s m)).
  { apply Forall_forall. intros x Hx. apply repeat_spec in Hx. subst x. split; [exact Fs|]. rewrite <- e23_def. lra. }
  destruct (C53_forward lm kForward (repeat s m) p (proj1 Hp) Fair) as (L & Ph & St). rewrite repeat_length in L.
  set (rs := repeat r (m - Z.to_nat n)).
  assert (Er : (repeat r (Z.to_nat n) ++ rs)%list = repeat r m).
  { unfold rs. rewrite <- repeat_app. f_equal. lia. }
  destruct (C50_readme_histories lm src cfg f c wfs nw K w sr fade n p d r (accum p (repeat s m)) rs) as (st & Ys & o & ys & A1 & A2 & A3 & A4); auto.
  - constructor; [exact Hp|]. eapply Forall_impl; [|exact Ph]. intros q [Hq Hg]. split; [exact Hq|].
    destruct Hg as [Hg|Hg]; [left; exact Hg|right]. eapply Rle_trans; [|exact Hg].
    rewrite <- !(bpow_Z) by lia. rewrite <- !bpow_opp. apply bpow_le. lia.
  - rewrite Er. clear - St E1 E2 Hs0 Hs1 P. revert St. generalize (steps32 lm kForward p (accum p (repeat s m))).
    induction m as [|m IH]; intros l St; inversion_clear St as [|? d0 ? l0 Hd Hl]; [constructor|]. cbn [repeat]. constructor; [|now apply IH].
    destruct Hd as (Fd & Hd & Hn). rewrite q34 in Hn. assert (Hn' := Rabs_le_inv _ _ Hn).
    split; [lra|]. rewrite Rabs_pos_eq by lra. split; [lra|]. exact (near_entry K r _ _ Hn E1 E2).
  - unfold rs. clear. change (r :: repeat r (m - Z.to_nat n)) with (repeat r (S (m - Z.to_nat n))).
    assert (A : forall l i a, nth_error (repeat r l) i = Some a -> a = r) by (intros l i a E; apply nth_error_In in E; now apply repeat_spec in E).
    split.
    + intros i a b Ha Hb. apply A in Ha, Hb. subst. rewrite Z.sub_diag. cbn. lia.
    + intros i j a b c e Hij Ha Hb Hab. apply A in Ha, Hb. congruence.
  - exists st, Ys, o, ys. split; [exact A1|]. split; [exact A2|]. split; [rewrite A3; exact L|exact A4].
Qed.
Print Assumptions C53_accurate.


(** shorter steps may stall: from phase 1/2, steps of 2^-26 or less never move *)
Theorem C53_stall_refuted : forall (s : f32) m, finite s -> 0 <= B2R s <= / IZR (2 ^ 26) ->
  accum (fl 1 2) (repeat s m) = repeat (fl 1 2) m /\
  forall lm, B2R (step32 lm kForward (fl 1 2) (fl 1 2)) = 0.
Proof.
  intros s m Fs Hs.
  assert (V : fin32 (fl 1 2) = true /\ B2R (fl 1 2) = / 2) by (split; [reflexivity|vm_compute; lra]). destruct V as [F1 V1].
  assert (P26 : / IZR (2 ^ 26) = bpow radix2 (-26)) by reflexivity.
  assert (B : bpow radix2 (-26) <= / 8) by (replace (/ 8) with (bpow radix2 (-3)) by reflexivity; apply bpow_le; lia).
  assert (E : fadd (fl 1 2) s = fl 1 2).
  { destruct (add32 (fl 1 2) s F1 Fs) as (A1 & A2); [apply small32_1; lra|]. fold (fadd (fl 1 2) s) in *.
    assert (Er : rnd32 (B2R (fl 1 2) + B2R s) = / 2).
    { rewrite V1. apply Rle_antisym.
      - apply Rnot_lt_le. intros H.
        assert (Fm : fmt32 (/ 2)) by (replace (/ 2) with (bpow radix2 (-1)) by reflexivity; apply fmt32_bpow; lia).
        assert (Hg := rnd_half (/ 2 + B2R s) 0 ltac:(lia)). change (bpow radix2 0) with 1 in Hg.
        rewrite Rabs_pos_eq in Hg by lra. specialize (Hg ltac:(lra)). apply Rabs_le_inv in Hg.
        assert (Fr : fmt32 (rnd32 (/ 2 + B2R s))) by (apply generic_format_round; auto with typeclass_instances).
        assert (Sc : succ radix2 (FLT_exp (-149) 24) (/ 2) <= rnd32 (/ 2 + B2R s)) by (apply succ_le_lt; auto with typeclass_instances).
        assert (Es : succ radix2 (FLT_exp (-149) 24) (/ 2) = / 2 + bpow radix2 (-24)).
        { rewrite succ_eq_pos by lra. f_equal. replace (/ 2) with (bpow radix2 (-1)) by reflexivity. rewrite ulp_bpow. reflexivity. }
        rewrite Es in Sc. change (0 - 25)%Z with (-25)%Z in Hg.
        assert (X1 : bpow radix2 (-25) = 2 * bpow radix2 (-26)) by (change (-25)%Z with (1 + -26)%Z; rewrite bpow_plus; reflexivity).
        assert (X2 : bpow radix2 (-24) = 4 * bpow radix2 (-26)) by (change (-24)%Z with (2 + -26)%Z; rewrite bpow_plus; reflexivity).
        assert (X3 := bpow_gt_0 radix2 (-26)). rewrite P26 in Hs. lra.
      - apply rnd32_ge; [|lra]. replace (/ 2) with (bpow radix2 (-1)) by reflexivity. apply fmt32_bpow. lia. }
    apply inj_pos; [exact A1|exact F1|rewrite A2, Er; lra|]. rewrite A2, Er, V1. exact eq_refl. }
  split.
  2:{ intros lm. assert (E0 : rnd32 (B2R (fl 1 2) - B2R (fl 1 2)) = 0) by (rewrite Rminus_diag_eq by reflexivity; apply round_0; auto with typeclass_instances).
      destruct (step_fwd lm (fl 1 2) (fl 1 2) F1 F1) as [_ S]; [lra|rewrite E0; lra|].
      rewrite S, E0, Rlt_bool_false by lra. reflexivity. }
  induction m as [|m IH]; [reflexivity|]. cbn [repeat accum]. fold (fadd (fl 1 2) s). rewrite E.
  assert (Ef : fmod1 (fl 1 2) = fl 1 2).
  { destruct (fmod1_ok (fl 1 2) F1 ltac:(rewrite V1; lra)) as [G1 G2].
    assert (T0 : Ztrunc (B2R (fl 1 2)) = 0%Z) by (destruct (trunc_pos (B2R (fl 1 2)) ltac:(rewrite V1; lra)) as [[_ T]|[T _]]; [exact T|rewrite V1 in T; lra]).
    rewrite T0, Rminus_0_r in G2. apply inj_pos; [exact G1|exact F1|rewrite G2, V1; lra|exact G2]. }
  rewrite Ef. now rewrite IH.
Qed.
Print Assumptions C53_stall_refuted.

(** ** cases: a sweep upward from 440 Hz at 44.1 kHz (steps given as fractions of a cycle), and a
    negative frequency *)
Example C53_case : List.Forall fairStep [fl 440 44100; fl 441 44100; fl 21000 44100] /\
  List.Forall (fun s => fairStep (Bopp s)) [fl (-440) 44100; fl (-1) 8; fl (-1) 8].
Proof.
  assert (A : / IZR (2 ^ 23) <= / 200) by (apply Rinv_le; [lra|apply IZR_le; lia]).
  assert (H : forall s : f32, finite s -> / 200 <= B2R s <= / 2 - / 200 -> fairStep s) by (intros s F H; split; [exact F|lra]).
  split; repeat (apply List.Forall_cons; [apply H; [reflexivity|vm_compute; lra]|]); apply List.Forall_nil.
Qed.
Example C53_accurate_case : forall f m, (1 <= Z.of_nat m)%Z -> exists w st Ys,
  plays32 nice_libm (demo_src NN) true f 4 None
    [OpInit NN (Some w) (fl 0 1) (fl 3 16); OpProcess NN kForward (accum (fl 0 1) (repeat (fl 3 16) m))] (Some st) Ys.
Proof.
  intros f m Hm. destruct ramp_built as (w & Ew).
  assert (A : / IZR (2 ^ 23) <= / 32) by (apply Rinv_le; [lra|apply IZR_le; lia]).
  assert (B : 0 < / IZR (2 ^ 23)) by (apply Rinv_0_lt_compat, IZR_lt; reflexivity).
  assert (V : B2R (fl 3 16) = 3 / 16) by (vm_compute; lra).
  destruct (C53_accurate nice_libm (demo_src NN) (mkCfg true 4) f 4 demo16 1 4 w sr48 (fl 1 40000) 1 (fl 0 1) (fl 3 16) (fl 3 16) 1 m)
    as (st & Ys & o & ys & Hp & _).
  - exact nice_exp.
  - exact nice_log.
  - cbn; lia.
  - lia.
  - repeat split; try lia; try reflexivity; unfold int_max; lia.
  - exact (CF_rate _).
  - vm_compute; reflexivity.
  - lia.
  - exact Ew.
  - exact ramp_tame.
  - reflexivity.
  - rewrite V. lra.
  - rewrite V. change (entryFor 4 (3 / 16) 1). split; [lia|]. change (IZR (2 ^ (1 + 1))) with 4. change (IZR (2 ^ 4)) with 16. change (IZR (2 ^ 1)) with 2.
    split; right; lra.
  - split; [split; [reflexivity|]|left]; vm_compute; lra.
  - unfold octaveStep, entryFor. rewrite V, Rabs_pos_eq by lra. change (IZR (2 ^ (1 + 1))) with 4. change (IZR (2 ^ 4)) with 16. change (IZR (2 ^ 1)) with 2.
    split; [reflexivity|]. split; [lra|]. split; (split; [lia|]; split; right; lra).
  - rewrite V. lra.
  - rewrite V. lra.
  - exact Hm.
  - exists w, st, Ys. exact Hp.
Qed.
