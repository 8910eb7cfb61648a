(** * Prop_Harm32Ex: the hypotheses of C55 are met *)
From Coq Require Import ZArith List Bool Reals Lia Lra Arith.
From Flocq Require Import Core IEEE754.BinarySingleNaN.
From Verif Require Import Num Maths CrossFader Wavetable Filters Osc Spec SpecC SpecT RNum B32 B32Facts B32Laws Demo CFHist
  SpecF SpecO SpecW SpecJ Prop_Build Prop_CrossFader.
From Coquelicot Require Import Coquelicot.
From Verif Require Import SpecE SpecX SpecV SpecG SpecH SpecR PCover32 Prop_Close Prop_CloseEx Prop_Harm Prop_Harm32.
Import ListNotations.
Local Open Scope R_scope.

(** a quarter of a cycle per sample, [k] cycles *)
Fixpoint quarters (k : nat) : list f32 :=
  match k with O => [] | S k => fl 1 4 :: fl 1 2 :: fl 3 4 :: fl 0 1 :: quarters k end.
Definition sine4 : list Harmonic := [(1%Z, 4, - (PI / 2))].

Lemma sine4_wave x : Rabs (wave (List.map (@B2R 24 128) (mipmap NN (demo_src NN) (waveform NN demo16 (2 ^ 4) 0) 2)) x - harmonics sine4 x)
  <= bend sine4 4.
Proof.
  assert (E : List.map (@B2R 24 128) (mipmap NN (demo_src NN) (waveform NN demo16 (2 ^ 4) 0) 2) = [0; 4; 0; -4]).
  { change (mipmap NN (demo_src NN) (waveform NN demo16 (2 ^ 4) 0) 2) with (List.map f32_ofZ [0; 4; 0; -4]%Z).
    cbn [List.map]. repeat (apply (f_equal2 (@cons R)); [apply ofZ32; lia|]). reflexivity. }
  rewrite E. apply (C49_samples [0; 4; 0; -4] sine4); [reflexivity|].
  intros i Hi. change (zlen [0; 4; 0; -4]) with 4%Z in *.
  assert (Hi' : i = 0%Z \/ i = 1%Z \/ i = 2%Z \/ i = 3%Z) by lia.
  unfold harmonics, sine4, number, amplitude, offset, rsum. cbn [List.map fold_right fst snd].
  destruct Hi' as [-> | [-> | [-> | ->]]]; [change (elem [0; 4; 0; -4] 0) with 0|change (elem [0; 4; 0; -4] 1) with 4|change (elem [0; 4; 0; -4] 2) with 0|change (elem [0; 4; 0; -4] 3) with (-4)].
  - replace (2 * PI * 1 * (0 / 4) + - (PI / 2)) with (- (PI / 2)) by field. rewrite cos_neg, cos_PI2. ring.
  - replace (2 * PI * 1 * (1 / 4) + - (PI / 2)) with 0 by field. rewrite cos_0. ring.
  - replace (2 * PI * 1 * (2 / 4) + - (PI / 2)) with (PI / 2) by field. rewrite cos_PI2. ring.
  - replace (2 * PI * 1 * (3 / 4) + - (PI / 2)) with PI by field. rewrite cos_PI. ring.
Qed.

Lemma quarters_plain k : List.Forall plainPhase (quarters k).
Proof. induction k as [|k IH]; cbn [quarters]; [constructor|]. do 4 (constructor; [plain|]). exact IH. Qed.
Lemma quarters_steps k : List.Forall (stepIn 4 2) (steps32 nice_libm kForward (fl 0 1) (quarters k)).
Proof.
  induction k as [|k IH]; cbn [quarters]; [constructor|]. cbn [steps32]. do 4 (constructor; [instep|]). exact IH.
Qed.
Lemma quarters_paced k : paced (B2R (fl 0 1)) (1 / 4) 0 (quarters k).
Proof.
  assert (V0 : B2R (fl 0 1) = 0) by real. assert (V1 : B2R (fl 1 4) = 1 / 4) by real.
  assert (V2 : B2R (fl 1 2) = 1 / 2) by real. assert (V3 : B2R (fl 3 4) = 3 / 4) by real.
  enough (G : forall k m n p, nth_error (quarters k) n = Some p ->
     exists t : Z, B2R p = 1 / 4 * INR (S n) + IZR m + IZR t).
  { intros n p Hp. destruct (G k 0%Z n p Hp) as [t Ht]. exists t. rewrite V0, Ht.
    replace (1 / 4 * INR (S n) + 0 + IZR t - (0 + 1 / 4 * INR (S n)) - IZR t) with 0 by ring. rewrite Rabs_R0. lra. }
  clear k. induction k as [|k IH]; intros m n p Hp; [destruct n; discriminate|].
  cbn [quarters] in Hp. destruct n as [|[|[|[|n]]]]; cbn [nth_error] in Hp.
  - injection Hp as <-. exists (- m)%Z. rewrite V1, opp_IZR. cbn [INR]. lra.
  - injection Hp as <-. exists (- m)%Z. rewrite V2, opp_IZR. cbn [INR]. lra.
  - injection Hp as <-. exists (- m)%Z. rewrite V3, opp_IZR. cbn [INR]. lra.
  - injection Hp as <-. exists (- m - 1)%Z. rewrite V0, minus_IZR, opp_IZR. cbn [INR]. lra.
  - destruct (IH m n p Hp) as [t Ht]. exists (t - 1)%Z. rewrite Ht, minus_IZR. rewrite !S_INR. lra.
Qed.

(** entry 2 of the triangle of 16 samples is the triangle 0, 4, 0, -4, which is within
    bend sine4 4 = pi^2/8 of a sine of amplitude 4; played at a quarter of a cycle per sample *)
Example C55_case : forall f delta, 0 < delta -> exists w M, forall k, exists o ys,
  Osc.run NN (demo_src NN) (mkCfg true 4) (filt NN f) (osc_new NN (filt NN f))
    [OpInit NN (Some w) (fl 0 1) (fl 1 4); OpProcess NN kForward (quarters k)] = Ok (o, ys) /\
  length ys = length (quarters k) /\
  forall i y, (M <= i)%nat -> nth_error ys i = Some y -> finite y /\
    Rabs (B2R y - heard (filt RNum f) sine4 (1 / 4) (B2R (fl 0 1)) (S i)) <=
      (bend sine4 4 + bpow radix2 4 * 0) * gainBound (filt RNum f) + accuracy f * (bpow radix2 4 / IZR (2 ^ 24)) + delta.
Proof.
  intros f delta Hd. destruct ramp_built as (w & Ew). exists w.
  destruct (C55_built_tone nice_libm (demo_src NN) (mkCfg true 4) f 4 demo16 1 4 w sr48 (fl 1 40000) 1 (fl 0 1) (fl 1 4) 2
     (1 / 4) 0 sine4 (bend sine4 4) delta) as [M HM].
  - exact nice_exp.
  - exact nice_log.
  - cbn; lia.
  - lia.
  - repeat split; try lia; try reflexivity; unfold int_max; lia.
  - exact (CF_rate _).
  - vm_compute; reflexivity.
  - lia.
  - exact Ew.
  - exact ramp_tame.
  - plain.
  - reflexivity.
  - real.
  - split; [lia|]. split; [left; lia|right; real].
  - lra.
  - rewrite Rabs_pos_eq by lra. lra.
  - exact sine4_wave.
  - exact Hd.
  - exists M. intros k. apply HM; [apply quarters_plain|apply quarters_steps|apply quarters_paced].
Qed.

(** ** A constant table *)
Definition ones16 : list f32 := repeat (f32_ofZ 1) 16.
Lemma ones_entries i k y : (0 <= i < 1)%Z -> (0 <= k <= 4 - 2)%Z ->
  In y (mipmap NN (demo_src NN) (waveform NN ones16 (2 ^ 4) i) k) -> finite y /\ B2R y = 1.
Proof.
  intros Hi Hk Hy. assert (i = 0%Z) by lia. subst i.
  assert (E : mipmap NN (demo_src NN) (waveform NN ones16 (2 ^ 4) 0) k = repeat (f32_ofZ 1) (Z.to_nat (2 ^ (4 - k)))).
  { assert (Hk' : k = 0%Z \/ k = 1%Z \/ k = 2%Z) by lia. destruct Hk' as [-> | [-> | ->]]; reflexivity. }
  rewrite E in Hy. apply repeat_spec in Hy. subst y. exact (ofZ32 1 ltac:(lia)).
Qed.
Example C55_constant_case : forall f, exists w st0 st Ys,
  wt_build NN (demo_src NN) true ones16 1 sr48 (fl 1 40000) = Ok (Some w) /\
  fresh32 nice_libm true f 4 1 ones16 w 0 (fl 0 1) (fl 1 4) st0 /\
  plays32 nice_libm (demo_src NN) true f 4 (Some st0) [OpProcess NN kForward (quarters 5)] (Some st) Ys /\ length Ys = 20%nat /\
  exists o ys, Osc.run NN (demo_src NN) (mkCfg true 4) (filt NN f) (osc_new NN (filt NN f))
      [OpInit NN (Some w) (fl 0 1) (fl 1 4); OpProcess NN kForward (quarters 5)] = Ok (o, ys) /\ length ys = 20%nat /\
    forall i y, nth_error ys i = Some y -> finite y /\ Rabs (B2R y - 1 * dcResponse (filt RNum f) (S i)) <=
        Rabs 1 / IZR (2 ^ 23) * gainBound (filt RNum f) + accuracy f * (bpow radix2 4 / IZR (2 ^ 24)).
Proof.
  intros f.
  assert (HW : wellFormed NN ones16 1 4) by (repeat split; try lia; try reflexivity; unfold int_max; lia).
  assert (Hn : tcast NN (tmul NN (fl 1 40000) sr48) = Ok 1%Z) by (vm_compute; reflexivity).
  assert (Hw : exists w, wt_build NN (demo_src NN) true ones16 1 sr48 (fl 1 40000) = Ok (Some w)).
  { destruct (C02_build_shape nice_libm (demo_src NN) true ones16 1 sr48 (fl 1 40000) 4 1) as (w & E & _); auto; try lia.
    - exact nice_log.
    - intros inp ratio cap; repeat split.
    - unfold int_max. lia.
    - exact (proj1 (proj2 (proj2 (proj2 (proj2 C02_case))))).
    - exists w. exact E. }
  destruct Hw as (w & Ew). exists w.
  assert (Hr : entryFor 4 (B2R (fl 1 4)) 2) by (split; [lia|]; split; [left; lia|right; real]).
  destruct (built_fresh32 nice_libm nice_log (demo_src NN) (mkCfg true 4) ltac:(cbn; lia) f ones16 1 4 w sr48 (fl 1 40000) 1 (fl 0 1) (fl 1 4) 2
     HW (CF_rate _) Hn ltac:(lia) Ew ltac:(plain) eq_refl ltac:(real) Hr) as (HT & w' & m & g0 & Fr & HT' & En & Hg & Hcs & Hm).
  set (st0 := mkI32 nice_libm 4 1 ones16 w' 0 (fl 0 1) (fl 1 4) m (repeat (RtoC 0) (numCoeffs f))) in *.
  destruct (calm_forward32 nice_libm nice_log (demo_src NN) (mkCfg true 4) ltac:(cbn; lia) f 1 (quarters 5) st0 g0 2 (repeat 2%Z 20)) as (st' & ys & Bk); auto.
  - lia.
  - clear. generalize 20%nat as k. intros k. revert g0. induction k as [|k IH]; intros g; cbn [repeat calm]; auto.
  - real.
  - constructor; [plain|apply quarters_plain].
  - cbn [i_K i_phase st0]. assert (A := quarters_steps 5).
    change 20%nat with (length (steps32 nice_libm kForward (fl 0 1) (quarters 5))). revert A.
    generalize (steps32 nice_libm kForward (fl 0 1) (quarters 5)) as l. clear.
    induction 1; cbn [length repeat]; constructor; assumption.
  - assert (Hl : length (ys ++ []) = 20%nat).
    { rewrite app_nil_r. change 20%nat with (length (quarters 5)). clear - Bk. induction Bk; cbn [length]; congruence. }
    assert (Hp : plays32 nice_libm (demo_src NN) true f 4 (Some st0) [OpProcess NN kForward (quarters 5)] (Some st') (ys ++ [])).
    { eapply p32_process; [exact Bk|constructor]. }
    exists st0, st', (ys ++ []). split; [exact Ew|]. split; [exact Fr|]. split; [exact Hp|]. split; [exact Hl|].
    destruct (C55_constant32 nice_libm (demo_src NN) (mkCfg true 4) f 4 ones16 1 4 w sr48 (fl 1 40000) 1 (fl 0 1) (fl 1 4) st0
      [OpProcess NN kForward (quarters 5)] (Some st') (ys ++ []) 1 nice_exp nice_log ltac:(cbn; lia) ltac:(lia) HW (CF_rate _) Hn ltac:(lia) Ew
      ones_entries) as (o & zs & E & L & Y); auto.
    + rewrite Rabs_R1. apply (bpow_le radix2 0). lia.
    + repeat constructor.
    + exists o, zs. split; [exact E|]. split; [exact (eq_trans L Hl)|exact Y].
Qed.
