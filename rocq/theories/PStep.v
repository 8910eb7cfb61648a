(** * PStep: the binary32 phase step (lemmas behind C17, C18) *)
From Coq Require Import ZArith List Bool Reals Lia Lra.
From Flocq Require Import Core IEEE754.BinarySingleNaN.
From Verif Require Import Num Maths CrossFader Wavetable Filters Osc NumFacts B32 B32Facts B32Laws SpecF SpecO SpecC PLoop.
Import ListNotations.
Local Open Scope Z_scope.

Section PStep.
Variable lm : Libm.
Notation N := (B32 lm).

Lemma step_range (q p : f32) : phase01 q -> phase01 p ->
  let d := stepBetween N kBidirectionnal q p : f32 in
  is_finite d = true /\ (- / 2 <= B2R d <= / 2)%R /\ (B2R d = 0%R <-> B2R p = B2R q) /\
  exists k, (k = -1 \/ k = 0 \/ k = 1) /\ B2R d = (toF32 (B2R p - B2R q) + IZR k)%R.
Proof.
  intros [F1 H1] [F2 H2] d. change d with (stepBi N p q).
  destruct (b_bi lm p q F2 F1 H2 H1) as (A & B & C & E). split; [exact A|]. split; [exact B|]. split; [exact C|].
  change (B2R (stepBi N p q : f32)) with (v32 (stepBi N p q)). rewrite E. cbv zeta.
  change (toF32 (B2R p - B2R q)) with (rnd32 (v32 p - v32 q)).
  destruct (Rlt_bool _ _).
  - exists 1. split; [auto|]. reflexivity.
  - destruct (Rlt_bool _ _).
    + exists (-1). split; [auto|]. reflexivity.
    + exists 0. split; [auto|]. ring.
Qed.

Lemma steps_agree (q p : f32) : phase01 q -> phase01 p ->
  (0 < B2R (stepBetween N kForward q p : f32) < / 2)%R ->
  stepBi N p q = stepFwd N p q /\ tle N (t0 N) (stepFwd N p q) = true /\
  tlt N (t0 N) (stepFwd N p q) && tle N (stepFwd N p q) (tfrac N 1 2) = true.
Proof.
  intros [F1 H1] [F2 H2]. change (stepBetween N kForward q p) with (stepFwd N p q). intros Hs.
  destruct (b_fwd lm p q F2 F1 H2 H1) as [Ff _].
  destruct (b_half lm 1 ltac:(lia)) as [Hh1 Hh1']. destruct (b_half lm (-1) ltac:(lia)) as [Hh2 Hh2'].
  destruct (ofZ32 0 ltac:(lia)) as [Z1 Z2]. destruct (ofZ32 1 ltac:(lia)) as [O1 O2].
  split; [|split].
  - revert Hs. unfold stepBi, stepFwd. destruct (subp32 p q F2 F1) as [A B]; [lra|lra|].
    change (tsub N p q) with (@Bminus 24 128 p32 e32 mode_NE p q) in *.
    set (d := @Bminus 24 128 p32 e32 mode_NE p q) in *. cbv zeta. cbn [tlt B32].
    rewrite (Bltb_correct _ _ d (t0 N)), (Bltb_correct _ _ d (tfrac N (-1) 2)), (Bltb_correct _ _ (tfrac N 1 2) d) by assumption.
    change (B2R (t0 N)) with (v32 (f32_ofZ 0)). rewrite Z2, Hh1', Hh2'.
    change (B2R d) with (v32 d).
    destruct (Rlt_bool_spec (v32 d) 0) as [Hd|Hd]; intros Hs.
    + rewrite Rlt_bool_true; [reflexivity|].
      destruct (Rlt_or_le (v32 d) (-1 / 2)) as [|Hge]; [assumption|]. exfalso.
      change (tadd N d (t1 N)) with (@Bplus 24 128 p32 e32 mode_NE d (f32_ofZ 1)) in Hs.
      assert (Hb := phase_diff_bound p q F2 F1 H2 H1).
      destruct (add32 d (f32_ofZ 1) A O1) as [C1 C2]; [rewrite O2; apply small32_1; rewrite B; lra|].
      assert (/ 2 <= rnd32 (v32 d + v32 (f32_ofZ 1)))%R.
      { apply rnd32_ge; [|rewrite O2; lra]. apply (fmt32_bpow (-1)). lia. }
      change (B2R (@Bplus 24 128 p32 e32 mode_NE d (f32_ofZ 1))) with (v32 (@Bplus 24 128 p32 e32 mode_NE d (f32_ofZ 1))) in Hs.
      rewrite C2 in Hs. lra.
    + change (B2R d) with (v32 d) in Hs. rewrite !Rlt_bool_false by lra. reflexivity.
  - cbn [tle B32]. rewrite (Bleb_correct _ _ (t0 N) (stepFwd N p q)) by assumption.
    change (B2R (t0 N)) with (v32 (f32_ofZ 0)). rewrite Z2. apply Rle_bool_true. lra.
  - cbn [tle tlt B32]. rewrite (Bltb_correct _ _ (t0 N) (stepFwd N p q)), (Bleb_correct _ _ (stepFwd N p q) (tfrac N 1 2)) by assumption.
    change (B2R (t0 N)) with (v32 (f32_ofZ 0)). rewrite Z2, Hh1'. rewrite Rlt_bool_true, Rle_bool_true by lra. reflexivity.
Qed.

Section Run.
Variable cfg : Cfg.
Variable F : Filt N.

(** every wrapped forward step of the block is in (0, 1/2) *)
Fixpoint forwardSteps (prev : f32) (ps : list f32) : Prop :=
  match ps with
  | [] => True
  | p :: t => phase01 p /\ (0 < B2R (stepBetween N kForward prev p : f32) < / 2)%R /\ forwardSteps p t
  end.

Lemma loops_agree ps : forall o out, phase01 (prevPhase N o) -> forwardSteps (prevPhase N o) ps ->
  processLoop N cfg F kForward o ps out = processLoop N cfg F kBidirectionnal o ps out.
Proof.
  induction ps as [|p ps IH]; intros o [|z out] H0 Hs; cbn [processLoop]; try reflexivity.
  destruct Hs as (Hp & Hs & Ht).
  destruct (steps_agree (prevPhase N o) p H0 Hp Hs) as (E1 & E2 & E3). unfold prevPhase in *.
  assert (Eone : processOne N cfg F kForward o p = processOne N cfg F kBidirectionnal o p).
  { unfold processOne. destruct (o_wt o) as [w|]; [|reflexivity]. rewrite E1, E2, assert_ok by (intros _; exact E3). reflexivity. }
  rewrite <- Eone. destruct (processOne N cfg F kForward o p) as [[o1 y]|f] eqn:E; cbn [bind]; [|reflexivity].
  destruct (one_shape N cfg F _ _ _ _ _ E) as (P & _). rewrite IH; [reflexivity| |]; unfold prevPhase; rewrite P; assumption.
Qed.

Lemma process_agree o ps out : phase01 (prevPhase N o) -> forwardSteps (prevPhase N o) ps ->
  process N cfg F kForward o ps out = process N cfg F kBidirectionnal o ps out.
Proof. intros H1 H2. unfold process. now rewrite (loops_agree ps o out H1 H2). Qed.
End Run.
End PStep.
