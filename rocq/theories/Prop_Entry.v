(** * Prop_Entry: property C66 -- only the mipmap entry of the octave played is heard *)
From Coq Require Import ZArith List Bool Reals Lia Lra Arith.
From Flocq Require Import Core IEEE754.BinarySingleNaN.
From Verif Require Import Num Maths CrossFader Wavetable Filters Osc Spec SpecC SpecT NumFacts Laws CFFacts
  WTFacts BuildFacts OscFacts OscStep OscRun OscHist CFHist RNum RLaws B32 B32Facts B32Laws B32Pow Demo
  SpecF SpecO SpecW PTables PCross PHist PHeld SpecL PLoop PRate SpecRate SpecEntry PRate32 PEntry Prop_Build Prop_CrossFader Prop_Rate.
Import ListNotations.
Local Open Scope Z_scope.

Section Entry.
Variable lm : Libm.
Hypothesis Hlog : log2_exact lm.
Variables src1 src2 : Resampler (B32 lm).
Variable cfg : Cfg.
Variable F : Filt (B32 lm).
Notation N := (B32 lm).
Notation L := (B32_Laws lm Hlog).
Notation dbg := (dbg cfg).
Notation run1 := (Osc.run N src1 cfg F).
Notation run2 := (Osc.run N src2 cfg F).

(** two tables fresh from build that agree on entry [r] *)
Record alike (K r : Z) (w1 w2 : WT N) : Prop := {
  al_slots : forall i, wt_slot N w1 i r = wt_slot N w2 i r;
  al_ph : wt_phases N w1 r = wt_phases N w2 r;
  al_sc : cf_scale (wt_cf w1) = cf_scale (wt_cf w2);
  al_l1 : cf_left (wt_cf w1) = 0;
  al_l2 : cf_left (wt_cf w2) = 0;
  al_p1 : cf_prev (wt_cf w1) = cf_next (wt_cf w1);
  al_p2 : cf_prev (wt_cf w2) = cf_next (wt_cf w2);
  al_x1 : cf_next (wt_cf w1) = findLoop N (tfrac N 1 10) (cf_scale (wt_cf w1)) 0;
  al_x2 : cf_next (wt_cf w2) = findLoop N (tfrac N 1 10) (cf_scale (wt_cf w2)) 0;
  al_r : exists n, reachable N src1 dbg (rate32 lm) K n w1 }.

Lemma slot_none src K nw wfs w i r : Contents N src K nw wfs w -> ~ 0 <= i < nw -> wt_slot N w i r = Fault OutOfBounds.
Proof.
  intros C Hi. unfold wt_slot, znth. destruct (Z.ltb_spec i 0); [reflexivity|].
  rewrite (proj2 (nth_error_None (wt_slots w) (Z.to_nat i))); [reflexivity|].
  assert (E := ct_nw _ _ _ _ _ _ C). unfold zlen in E. lia.
Qed.

Lemma alike_build wfs1 wfs2 nw K (sr1 sr2 fade1 fade2 : f32) r w1 w2 :
  wellFormed N wfs1 nw K -> wellFormed N wfs2 nw K -> rate32 lm sr1 -> rate32 lm sr2 ->
  0 <= r <= K - 2 -> sameEntry N src1 src2 wfs1 wfs2 nw K r ->
  wt_build N src1 dbg wfs1 nw sr1 fade1 = Ok (Some w1) -> wt_build N src2 dbg wfs2 nw sr2 fade2 = Ok (Some w2) ->
  alike K r w1 w2 /\ tcast N (tmul N fade1 sr1) = Ok (cf_num (wt_cf w1)) /\ tcast N (tmul N fade2 sr2) = Ok (cf_num (wt_cf w2)).
Proof.
  intros W1 W2 R1 R2 Hr HE B1 B2.
  destruct (fresh_state lm Hlog src1 dbg wfs1 nw K sr1 fade1 w1 W1 R1 B1) as (n1 & T1 & N1 & P1 & Q1 & X1 & H1).
  destruct (fresh_state lm Hlog src2 dbg wfs2 nw K sr2 fade2 w2 W2 R2 B2) as (n2 & T2 & N2 & P2 & Q2 & X2 & H2).
  split; [|split; congruence].
  destruct W1 as (HK & Hnw & Hl1 & Hm), W2 as (_ & _ & Hl2 & _).
  destruct (wt_build_some N src1 dbg L wfs1 nw sr1 fade1 K w1 HK Hnw Hl1 Hm B1) as (C1 & m1 & _ & F1).
  destruct (wt_build_some N src2 dbg L wfs2 nw sr2 fade2 K w2 HK Hnw Hl2 Hm B2) as (C2 & m2 & _ & F2).
  destruct (cf_make_pow2 N dbg L m1 K sr1 ltac:(lia)) as (c1 & F1' & _ & _ & _ & _ & _ & S1).
  destruct (cf_make_pow2 N dbg L m2 K sr2 ltac:(lia)) as (c2 & F2' & _ & _ & _ & _ & _ & S2).
  assert (c1 = wt_cf w1) by congruence. assert (c2 = wt_cf w2) by congruence. subst c1 c2.
  constructor; auto.
  - intros i. destruct (Z_le_dec 0 i) as [Hi0|Hi0]; [destruct (Z_lt_dec i nw) as [Hi1|Hi1]|].
    + destruct (slot_of N src1 K nw wfs1 w1 i r C1 ltac:(lia) ltac:(lia)) as (s1 & E1 & _ & _ & M1).
      destruct (slot_of N src2 K nw wfs2 w2 i r C2 ltac:(lia) ltac:(lia)) as (s2 & E2 & _ & _ & M2).
      rewrite (HE i ltac:(lia)) in M1. rewrite M1 in M2. rewrite E1, E2. exact M2.
    + rewrite (slot_none src1 K nw wfs1 w1 i r C1), (slot_none src2 K nw wfs2 w2 i r C2) by lia. reflexivity.
    + rewrite (slot_none src1 K nw wfs1 w1 i r C1), (slot_none src2 K nw wfs2 w2 i r C2) by lia. reflexivity.
  - unfold wt_phases. rewrite (ct_ph _ _ _ _ _ _ C1 r), (ct_ph _ _ _ _ _ _ C2 r) by lia. reflexivity.
  - rewrite (scale_same lm Hlog K sr1 sr2 ltac:(lia) R1 R2), S2 in S1. congruence.
  - eauto.
Qed.

Lemma zero_zero : teq N (t0 N) (t0 N) = true.
Proof. reflexivity. Qed.

Lemma alike_akin K w1 w2 r : alike K r w1 w2 -> entryFor K (B2R (tfrac N 1 10 : f32)) r ->
  akin N (cf_scale (wt_cf w1)) r w1 w2.
Proof.
  intros [A B C D E G H I J (n & HR)] He.
  assert (X : findLoop N (tfrac N 1 10) (cf_scale (wt_cf w1)) 0 = r).
  { apply (asks32 lm Hlog src1 dbg K n w1 r (tfrac N 1 10) HR); [reflexivity|exact He]. }
  constructor; auto; try congruence.
Qed.

Lemma init_run_of src o w (p d : f32) ops : outputs N (Osc.run N src cfg F o (OpInit N (Some w) p d :: ops)) =
  outputs N (let! o1 := resetInternals N cfg F (set_wt N o (Some w)) p d in Osc.run N src cfg F (set_wf N o1 0) ops).
Proof. symmetry. exact (init_run lm src cfg F o w p d ops _ eq_refl). Qed.

Lemma entry_init o K w1 w2 r (p d : f32) ops : alike K r w1 w2 -> entryFor K (B2R (tfrac N 1 10 : f32)) r ->
  stays K r kBidirectionnal d -> staysIn lm K r p ops ->
  outputs N (run1 o (OpInit N (Some w1) p d :: ops)) = outputs N (run2 o (OpInit N (Some w2) p d :: ops)).
Proof.
  intros T He Hd Hs. destruct (al_r _ _ _ _ T) as (n & HR). assert (C := alike_akin K w1 w2 r T He).
  assert (Ad := proj1 (asks_stays lm Hlog src1 dbg K n w1 r _ d HR Hd)).
  assert (As := asks_ops lm Hlog src1 dbg K n w1 r ops HR p Hs).
  rewrite !init_run_of.
  assert (R := akin_reset N cfg F (cf_scale (wt_cf w1)) r (set_wt N o (Some w1)) (set_wt N o (Some w2)) w1 w2 p d eq_refl eq_refl C eq_refl Ad).
  destruct (resetInternals N cfg F (set_wt N o (Some w1)) p d) as [o1|], (resetInternals N cfg F (set_wt N o (Some w2)) p d) as [o2|];
    cbn [bind]; try contradiction; [|now rewrite R].
  eapply sameRes_outputs. eapply (akin_run N src1 src2 cfg F (cf_scale (wt_cf w1)) r zero_zero); [|exact As].
  destruct R as (A & B1 & B2 & B3 & B4 & B5 & B6 & B7 & B8). split; [exact A|]. cbn. repeat split; assumption.
Qed.

Lemma entry_rest sc r w1 w2 m1 m2 q1 q2 o1 o2 (p d : f32) ops : (forall i, wt_slot N w1 i r = wt_slot N w2 i r) ->
  wt_phases N w1 r = wt_phases N w2 r -> m1 <= 0 -> m2 <= 0 ->
  lazy N sc r w1 m1 q1 o1 -> lazy N sc r w2 m2 q2 o2 -> o_wf o1 = o_wf o2 ->
  asks N sc r (tabs N d) -> opsAsk N sc r p ops ->
  outputs N (run1 o1 (OpReset N p d :: ops)) = outputs N (run2 o2 (OpReset N p d :: ops)).
Proof.
  intros S P M1 M2 (v1 & V1 & I1 & _) (v2 & V2 & I2 & _) Hw Ha Hops.
  assert (C : akin N sc r v1 v2).
  { destruct I1 as (A1 & A2 & A3 & A4 & [(A5 & A6 & A7)|(A5 & A6 & A7)]), I2 as (B1 & B2 & B3 & B4 & [(B5 & B6 & B7)|(B5 & B6 & B7)]); try lia.
    assert (cf_left (wt_cf v1) = 0) by lia. assert (cf_left (wt_cf v2) = 0) by lia.
    constructor; auto.
    - intros i. unfold wt_slot. rewrite A1, B1. exact (S i).
    - unfold wt_phases. rewrite A2, B2. exact P.
    - rewrite A7, B7; auto. }
  assert (R := akin_reset N cfg F sc r o1 o2 v1 v2 p d V1 V2 C Hw Ha).
  apply (sameRes_outputs N (fun _ _ => True)). cbn [run apply].
  destruct (resetInternals N cfg F o1 p d) as [r1|], (resetInternals N cfg F o2 p d) as [r2|]; cbn [bind]; try contradiction; [|exact R].
  eapply sameRes_bind; [eapply (akin_run N src1 src2 cfg F sc r zero_zero); [exact R|exact Hops]|]. intros o5 o6 zs _. split; [exact I|reflexivity].
Qed.

Lemma entry_after o K w1 w2 r (p d : f32) pre o1 ys1 o2 ys2 (p2 d2 : f32) ops : alike K r w1 w2 ->
  1 <= cf_num (wt_cf w1) <= Z.of_nat (asked pre) -> 1 <= cf_num (wt_cf w2) <= Z.of_nat (asked pre) ->
  stays K r kBidirectionnal d -> staysIn lm K r p pre ->
  run1 o (OpInit N (Some w1) p d :: pre) = Ok (o1, ys1) -> run2 o (OpInit N (Some w2) p d :: pre) = Ok (o2, ys2) ->
  stays K r kBidirectionnal d2 -> staysIn lm K r p2 ops ->
  outputs N (run1 o1 (OpReset N p2 d2 :: ops)) = outputs N (run2 o2 (OpReset N p2 d2 :: ops)).
Proof.
  intros T A1 A2 Hd Hs E1 E2 Hd2 Hs2. destruct (al_r _ _ _ _ T) as (n & HR).
  assert (I1 : inert N (cf_scale (wt_cf w1)) r w1 (cf_num (wt_cf w1) + 1) w1) by (apply inert_fresh; [reflexivity|lia|apply T|apply T]).
  assert (I2 : inert N (cf_scale (wt_cf w1)) r w2 (cf_num (wt_cf w2) + 1) w2) by (apply inert_fresh; [symmetry; apply T|lia|apply T|apply T]).
  assert (Ad := proj1 (asks_stays lm Hlog src1 dbg K n w1 r _ d HR Hd)).
  assert (As := asks_ops lm Hlog src1 dbg K n w1 r pre HR p Hs).
  assert (Ad2 := proj1 (asks_stays lm Hlog src1 dbg K n w1 r _ d2 HR Hd2)).
  assert (As2 := asks_ops lm Hlog src1 dbg K n w1 r ops HR p2 Hs2).
  destruct (init_lazy lm src1 cfg F _ r o w1 p d pre o1 ys1 I1 Ad As E1) as (q1 & L1 & W1).
  destruct (init_lazy lm src2 cfg F _ r o w2 p d pre o2 ys2 I2 Ad As E2) as (q2 & L2 & W2).
  eapply (entry_rest (cf_scale (wt_cf w1)) r w1 w2); [apply T|apply T| | |exact L1|exact L2|congruence|exact Ad2|exact As2]; lia.
Qed.
End Entry.

(** ** C66, no fade.  Two tables built in any way -- other samples, another resampler, another
    rate, another fade -- whose entry [r] holds the same samples: if [r] is where a fresh table
    stands, any calls whose steps all stay with it play the same samples on both, or fault in
    the same way.  What the other entries hold is not heard. *)
Theorem C66_only_the_entry : forall lm src1 src2 cfg F wfs1 wfs2 nw K (sr1 sr2 fade1 fade2 : f32) w1 w2 r (p d : f32) ops o,
  log2_exact lm -> wellFormed (B32 lm) wfs1 nw K -> wellFormed (B32 lm) wfs2 nw K -> rate32 lm sr1 -> rate32 lm sr2 ->
  wt_build (B32 lm) src1 (Osc.dbg cfg) wfs1 nw sr1 fade1 = Ok (Some w1) ->
  wt_build (B32 lm) src2 (Osc.dbg cfg) wfs2 nw sr2 fade2 = Ok (Some w2) ->
  sameEntry (B32 lm) src1 src2 wfs1 wfs2 nw K r ->
  entryFor K (B2R (tfrac (B32 lm) 1 10 : f32)) r ->
  stays K r kBidirectionnal d -> staysIn lm K r p ops ->
  outputs (B32 lm) (Osc.run (B32 lm) src1 cfg F o (OpInit (B32 lm) (Some w1) p d :: ops)) =
  outputs (B32 lm) (Osc.run (B32 lm) src2 cfg F o (OpInit (B32 lm) (Some w2) p d :: ops)).
Proof.
  intros lm src1 src2 cfg F wfs1 wfs2 nw K sr1 sr2 fade1 fade2 w1 w2 r p d ops o Hlog W1 W2 R1 R2 B1 B2 HE He Hd Hs.
  destruct (alike_build lm Hlog src1 src2 cfg wfs1 wfs2 nw K sr1 sr2 fade1 fade2 r w1 w2 W1 W2 R1 R2 (proj1 He) HE B1 B2) as (T & _).
  exact (entry_init lm Hlog src1 src2 cfg F o K w1 w2 r p d ops T He Hd Hs).
Qed.
Print Assumptions C66_only_the_entry.

(** ** C66, any octave: the fade out of the entry of step 0.1 may be heard, but once both fades
    are over and the oscillator has been reset, only entry [r] is. *)
Theorem C66_only_the_entry_after_fade : forall lm src1 src2 cfg F wfs1 wfs2 nw K (sr1 sr2 fade1 fade2 : f32) n1 n2 w1 w2 r
    (p d : f32) pre o o1 ys1 o2 ys2 (p2 d2 : f32) ops,
  log2_exact lm -> wellFormed (B32 lm) wfs1 nw K -> wellFormed (B32 lm) wfs2 nw K -> rate32 lm sr1 -> rate32 lm sr2 ->
  tcast (B32 lm) (tmul (B32 lm) fade1 sr1) = Ok n1 -> tcast (B32 lm) (tmul (B32 lm) fade2 sr2) = Ok n2 ->
  wt_build (B32 lm) src1 (Osc.dbg cfg) wfs1 nw sr1 fade1 = Ok (Some w1) ->
  wt_build (B32 lm) src2 (Osc.dbg cfg) wfs2 nw sr2 fade2 = Ok (Some w2) ->
  sameEntry (B32 lm) src1 src2 wfs1 wfs2 nw K r ->
  1 <= n1 <= Z.of_nat (asked pre) -> 1 <= n2 <= Z.of_nat (asked pre) ->
  stays K r kBidirectionnal d -> staysIn lm K r p pre ->
  Osc.run (B32 lm) src1 cfg F o (OpInit (B32 lm) (Some w1) p d :: pre) = Ok (o1, ys1) ->
  Osc.run (B32 lm) src2 cfg F o (OpInit (B32 lm) (Some w2) p d :: pre) = Ok (o2, ys2) ->
  stays K r kBidirectionnal d2 -> staysIn lm K r p2 ops ->
  outputs (B32 lm) (Osc.run (B32 lm) src1 cfg F o1 (OpReset (B32 lm) p2 d2 :: ops)) =
  outputs (B32 lm) (Osc.run (B32 lm) src2 cfg F o2 (OpReset (B32 lm) p2 d2 :: ops)).
Proof.
  intros lm src1 src2 cfg F wfs1 wfs2 nw K sr1 sr2 fade1 fade2 n1 n2 w1 w2 r p d pre o o1 ys1 o2 ys2 p2 d2 ops
    Hlog W1 W2 R1 R2 C1 C2 B1 B2 HE A1 A2 Hd Hs E1 E2 Hd2 Hs2.
  assert (Hr : 0 <= r <= K - 2) by apply Hd.
  destruct (alike_build lm Hlog src1 src2 cfg wfs1 wfs2 nw K sr1 sr2 fade1 fade2 r w1 w2 W1 W2 R1 R2 Hr HE B1 B2) as (T & T1 & T2).
  assert (cf_num (wt_cf w1) = n1) by congruence. assert (cf_num (wt_cf w2) = n2) by congruence.
  apply (entry_after lm Hlog src1 src2 cfg F o K w1 w2 r p d pre o1 ys1 o2 ys2 p2 d2 ops); auto; lia.
Qed.
Print Assumptions C66_only_the_entry_after_fade.

(** ** C66, the lowest octave.  Entry 0 is the waveform as given: there, whatever the resampler
    returned for the other entries, the same samples are played. *)
Theorem C66_resampler_not_heard : forall lm src1 src2 cfg F wfs nw K (sr1 sr2 fade1 fade2 : f32) n1 n2 w1 w2
    (p d : f32) pre o o1 ys1 o2 ys2 (p2 d2 : f32) ops,
  log2_exact lm -> wellFormed (B32 lm) wfs nw K -> rate32 lm sr1 -> rate32 lm sr2 ->
  tcast (B32 lm) (tmul (B32 lm) fade1 sr1) = Ok n1 -> tcast (B32 lm) (tmul (B32 lm) fade2 sr2) = Ok n2 ->
  wt_build (B32 lm) src1 (Osc.dbg cfg) wfs nw sr1 fade1 = Ok (Some w1) ->
  wt_build (B32 lm) src2 (Osc.dbg cfg) wfs nw sr2 fade2 = Ok (Some w2) ->
  1 <= n1 <= Z.of_nat (asked pre) -> 1 <= n2 <= Z.of_nat (asked pre) ->
  stays K 0 kBidirectionnal d -> staysIn lm K 0 p pre ->
  Osc.run (B32 lm) src1 cfg F o (OpInit (B32 lm) (Some w1) p d :: pre) = Ok (o1, ys1) ->
  Osc.run (B32 lm) src2 cfg F o (OpInit (B32 lm) (Some w2) p d :: pre) = Ok (o2, ys2) ->
  stays K 0 kBidirectionnal d2 -> staysIn lm K 0 p2 ops ->
  outputs (B32 lm) (Osc.run (B32 lm) src1 cfg F o1 (OpReset (B32 lm) p2 d2 :: ops)) =
  outputs (B32 lm) (Osc.run (B32 lm) src2 cfg F o2 (OpReset (B32 lm) p2 d2 :: ops)).
Proof.
  intros lm src1 src2 cfg F wfs nw K sr1 sr2 fade1 fade2 n1 n2 w1 w2 p d pre o o1 ys1 o2 ys2 p2 d2 ops
    Hlog W R1 R2 C1 C2 B1 B2 A1 A2 Hd Hs E1 E2 Hd2 Hs2.
  apply (C66_only_the_entry_after_fade lm src1 src2 cfg F wfs wfs nw K sr1 sr2 fade1 fade2 n1 n2 w1 w2 0 p d pre
    o o1 ys1 o2 ys2 p2 d2 ops); auto. intros i _. reflexivity.
Qed.
Print Assumptions C66_resampler_not_heard.

(** ** The hypotheses are met: tables of 8-sample waveforms in a debug build, fades of 1 and 2
    samples.  In octave 1, two sets of waveforms that differ in every other sample ... *)
From Verif Require Import Prop_Safety.
Local Open Scope R_scope.
Local Ltac real := vm_compute; lra.
Local Ltac stay := split; [vm_compute; reflexivity|split; [real|split; [first [intros _; real|intros; discriminate]
  |split; [lia|split; [first [left; lia|right; first [rewrite Rabs_pos_eq by real|rewrite Rabs_left by real]; real]
    |first [left; lia|right; first [rewrite Rabs_pos_eq by real|rewrite Rabs_left by real]; real]]]]]].
Local Ltac history H := repeat match goal with |- _ /\ _ => split end; try exact H; try exact I; try lia;
    try (vm_compute; reflexivity); try (intros _); try (vm_compute; lra);
    try (split; vm_compute; lra); try (left; vm_compute; lra); try (right; split; vm_compute; lra).

Definition other16 : list f32 := map f32_ofZ [0;7;2;-5;4;1;2;9;0;6;-2;5;-4;0;-2;8]%Z.
(** a resampler that writes nothing *)
Definition mute_src : Resampler FN := fun wf ratio cap => mkSrcOut 0 (zlen wf) cap [].

Lemma entry_table (src : Resampler FN) (wfs : list (T FN)) (fade : f32) n : resamplerOk FN src -> zlen wfs = 16%Z ->
  tcast FN (tmul FN fade sr48) = Ok n -> (1 <= n)%Z ->
  exists w, wt_build FN src true wfs 2 sr48 fade = Ok (Some w) /\ wt_numWaveforms FN w = 2%Z /\ usable demo_libm src true w.
Proof.
  intros Hs Hz Hc Hn. destruct (C02_build_shape demo_libm src true wfs 2 sr48 fade 3 n) as (w & E & A & B & _);
    try lia; try reflexivity; try apply C02_case; try (unfold int_max; lia); try exact Hc; try exact Hs; try exact Hz.
  exists w. split; [exact E|]. split; [exact A|].
  exists 3%Z, n. split; [|exact Hn]. eapply (r_build FN _ _ _ _ wfs 2 sr48 fade); try lia; try exact E; try exact Hc; try exact Hz.
  - unfold int_max; lia.
  - exact (CF_rate _).
Qed.

Lemma entry_wf wfs : zlen wfs = 16%Z -> wellFormed FN wfs 2 3.
Proof. intros H. repeat split; try lia; try exact H; unfold int_max; lia. Qed.

Lemma entry_runs (src : Resampler FN) w d pre : resamplerOk FN src -> usable demo_libm src true w ->
  okHist demo_libm src true true None (OpInit FN (Some w) (fl 0 1) d :: pre) ->
  exists o ys, Osc.run FN src (mkCfg true 4) (filt FN kType2) (osc_new FN (filt FN kType2)) (OpInit FN (Some w) (fl 0 1) d :: pre) = Ok (o, ys).
Proof.
  intros Hs Hu Hh. apply (C21_safe demo_libm src (mkCfg true 4) (filt FN kType2)); auto.
  - exact demo_exact.
  - cbn; lia.
  - repeat split; reflexivity.
Qed.

Notation erun src := (Osc.run FN src (mkCfg true 4) (filt FN kType2)).
Notation enew := (osc_new FN (filt FN kType2)).
Example C66_after_fade_case : exists w1 w2 o1 ys1 o2 ys2,
  wellFormed FN demo16 2 3 /\ wellFormed FN other16 2 3 /\
  tcast FN (tmul FN (fl 1 40000) sr48) = Ok 1%Z /\ tcast FN (tmul FN (fl 2 40000) sr48) = Ok 2%Z /\
  wt_build FN (demo_src FN) true demo16 2 sr48 (fl 1 40000) = Ok (Some w1) /\
  wt_build FN (demo_src FN) true other16 2 sr48 (fl 2 40000) = Ok (Some w2) /\
  sameEntry FN (demo_src FN) (demo_src FN) demo16 other16 2 3 1 /\
  ~ sameEntry FN (demo_src FN) (demo_src FN) demo16 other16 2 3 0 /\
  (2 <= Z.of_nat (asked preOps))%Z /\
  stays 3 1 kBidirectionnal (fl 5 16) /\ staysIn demo_libm 3 1 (fl 0 1) preOps /\
  erun (demo_src FN) enew (OpInit FN (Some w1) (fl 0 1) (fl 5 16) :: preOps) = Ok (o1, ys1) /\
  erun (demo_src FN) enew (OpInit FN (Some w2) (fl 0 1) (fl 5 16) :: preOps) = Ok (o2, ys2) /\
  stays 3 1 kBidirectionnal (fl (-3) 8) /\ staysIn demo_libm 3 1 (fl 1 2) postOps.
Proof.
  assert (Hs : resamplerOk FN (demo_src FN)) by (intros inp ratio cap; repeat split).
  destruct (entry_table (demo_src FN) demo16 (fl 1 40000) 1 Hs eq_refl) as (w1 & E1 & N1 & U1); [vm_compute; reflexivity|lia|].
  destruct (entry_table (demo_src FN) other16 (fl 2 40000) 2 Hs eq_refl) as (w2 & E2 & N2 & U2); [vm_compute; reflexivity|lia|].
  destruct (pre_runs w1 [] U1 N1 I) as (_ & o1 & ys1 & R1). destruct (pre_runs w2 [] U2 N2 I) as (_ & o2 & ys2 & R2).
  destruct pre_stays as (S1 & S2 & S3 & S4).
  exists w1, w2, o1, ys1, o2, ys2. split; [now apply entry_wf|]. split; [now apply entry_wf|].
  split; [vm_compute; reflexivity|]. split; [vm_compute; reflexivity|].
  split; [exact E1|]. split; [exact E2|]. split.
  { intros i Hi. assert (i = 0 \/ i = 1)%Z as [-> | ->] by lia; reflexivity. }
  split.
  { intros H. specialize (H 0%Z ltac:(lia)). change (map f32_ofZ [0;1;2;3;4;3;2;1]%Z = map f32_ofZ [0;7;2;-5;4;1;2;9]%Z) in H.
    assert (Q : B2R (f32_ofZ 1) = B2R (f32_ofZ 7)) by exact (f_equal (fun l => B2R (nth 1 l (f32_ofZ 0))) H).
    rewrite (proj2 (ofZ32 1 ltac:(lia))), (proj2 (ofZ32 7 ltac:(lia))) in Q. lra. }
  split; [cbn; lia|]. split; [exact S1|]. split; [exact S2|]. split; [exact R1|]. split; [exact R2|]. split; [exact S3|exact S4].
Qed.

(** ... and in octave 0 one set of waveforms with two resamplers. *)
Definition lowPre : list (Op FN) := [OpProcess FN kForward [fl 1 8; fl 1 4; fl 7 16]].
Definition lowPost : list (Op FN) := [OpProcess FN kBidirectionnal [fl 3 8; fl 7 16]; OpSetWaveform FN 1; OpProcess FN kForward [fl 5 8]].
Example C66_resampler_case : exists w1 w2 o1 ys1 o2 ys2,
  tcast FN (tmul FN (fl 1 40000) sr48) = Ok 1%Z /\ tcast FN (tmul FN (fl 2 40000) sr48) = Ok 2%Z /\
  wt_build FN (demo_src FN) true demo16 2 sr48 (fl 1 40000) = Ok (Some w1) /\
  wt_build FN mute_src true demo16 2 sr48 (fl 2 40000) = Ok (Some w2) /\
  ~ sameEntry FN (demo_src FN) mute_src demo16 demo16 2 3 1 /\
  (2 <= Z.of_nat (asked lowPre))%Z /\
  stays 3 0 kBidirectionnal (fl 1 8) /\ staysIn demo_libm 3 0 (fl 0 1) lowPre /\
  erun (demo_src FN) enew (OpInit FN (Some w1) (fl 0 1) (fl 1 8) :: lowPre) = Ok (o1, ys1) /\
  erun mute_src enew (OpInit FN (Some w2) (fl 0 1) (fl 1 8) :: lowPre) = Ok (o2, ys2) /\
  stays 3 0 kBidirectionnal (fl (-1) 8) /\ staysIn demo_libm 3 0 (fl 1 2) lowPost.
Proof.
  assert (Hs : resamplerOk FN (demo_src FN)) by (intros inp ratio cap; repeat split).
  assert (Hm : resamplerOk FN mute_src) by (intros inp ratio cap; repeat split).
  destruct (entry_table (demo_src FN) demo16 (fl 1 40000) 1 Hs eq_refl) as (w1 & E1 & N1 & U1); [vm_compute; reflexivity|lia|].
  destruct (entry_table mute_src demo16 (fl 2 40000) 2 Hm eq_refl) as (w2 & E2 & N2 & U2); [vm_compute; reflexivity|lia|].
  destruct (entry_runs (demo_src FN) w1 (fl 1 8) lowPre Hs U1) as (o1 & ys1 & R1).
  { unfold lowPre. cbn [okHist okBlock]. split; [exact U1|]. history I. }
  destruct (entry_runs mute_src w2 (fl 1 8) lowPre Hm U2) as (o2 & ys2 & R2).
  { unfold lowPre. cbn [okHist okBlock]. split; [exact U2|]. history I. }
  exists w1, w2, o1, ys1, o2, ys2.
  split; [vm_compute; reflexivity|]. split; [vm_compute; reflexivity|].
  split; [exact E1|]. split; [exact E2|]. split.
  { intros H. specialize (H 0%Z ltac:(lia)). change (map f32_ofZ [0;2;4;2]%Z = [t0 FN; t0 FN; t0 FN; t0 FN]) in H.
    assert (Q : B2R (f32_ofZ 2) = B2R (t0 FN : f32)) by exact (f_equal (fun l => B2R (nth 1 l (f32_ofZ 0))) H).
    rewrite (proj2 (ofZ32 2 ltac:(lia))) in Q. change (B2R (t0 FN : f32)) with 0 in Q. lra. }
  split; [cbn; lia|]. split; [stay|]. split.
  { unfold lowPre. cbn [staysIn steps32]. split; [|exact I]. repeat (constructor; [stay|]). constructor. }
  split; [exact R1|]. split; [exact R2|]. split; [stay|].
  unfold lowPost. cbn [staysIn steps32]. repeat match goal with |- _ /\ _ => split end.
  - repeat (constructor; [stay|]). constructor.
  - repeat (constructor; [stay|]). constructor.
  - exact I.
Qed.
