(** * Prop_Used: property C68 -- an oscillator forgets what it played *)
From Coq Require Import ZArith List Bool Reals Lia Lra Arith.
From Flocq Require Import Core IEEE754.BinarySingleNaN.
From Verif Require Import Num Maths CrossFader Wavetable Filters Osc Spec SpecC SpecT NumFacts Laws CFFacts
  WTFacts BuildFacts OscFacts OscStep OscRun OscHist CFHist RNum RLaws B32 B32Facts B32Laws B32Pow Demo
  SpecF SpecO SpecW PCross PHist PHeld SpecL PLoop PRate SpecRate PRate32 PUsed Prop_Build Prop_CrossFader.
Import ListNotations.
Local Open Scope Z_scope.

(** calls that neither load a table nor re-sample the one in use *)
Definition plays {N : Num} (op : Op N) : Prop :=
  match op with OpReset _ _ _ | OpSetWaveform _ _ | OpProcess _ _ _ => True | _ => False end.

Section Used.
Variable lm : Libm.
Hypothesis Hlog : log2_exact lm.
Variable src : Resampler (B32 lm).
Variable cfg : Cfg.
Variable F : Filt (B32 lm).
Notation N := (B32 lm).
Notation L := (B32_Laws lm Hlog).
Notation dbg := (dbg cfg).
Notation run := (Osc.run N src cfg F).
Notation reach := (reachable N src dbg (rate32 lm)).

Lemma find_scale (w : WT N) d w' m : wt_findMipMapIndices N dbg w d = Ok (w', m) ->
  wt_slots w' = wt_slots w /\ wt_ph w' = wt_ph w /\ cf_scale (wt_cf w') = cf_scale (wt_cf w).
Proof.
  unfold wt_findMipMapIndices. intros H. apply bind_ok in H. destruct H as ([c mm] & E & H).
  inversion H; subst. repeat split. cbn [wt_cf]. unfold newIndices in E. apply bind_ok in E. destruct E as (i & _ & E).
  destruct (negb (cf_left (wt_cf w) =? 0)).
  - apply bind_ok in E. destruct E as ([] & _ & E). apply bind_ok in E. destruct E as (l & _ & E).
    inversion E; subst. destruct (l =? 0); cbn [set_prev set_left cf_scale]; destruct (negb _ && negb _); reflexivity.
  - destruct (i =? _); [apply bind_ok in E; destruct E as ([] & _ & E)|]; inversion E; subst; reflexivity.
Qed.

Lemma scale_of K n w (sr : f32) : reach K n w -> rate32 lm sr -> computeMipMapScale N (2 ^ K) sr = Ok (cf_scale (wt_cf w)).
Proof.
  intros H R. induction H as [wfs nw sr1 fade n w HK Hnw Hl Hm Hr Hc Hb|n w d w' m H IH E|n w sr1 fade n' w' H IH Hr Hc E].
  - destruct (wt_build_some N src dbg L wfs nw sr1 fade K w HK Hnw Hl Hm Hb) as (_ & n1 & En & Ec).
    destruct (cf_make_pow2 N dbg L n1 K sr1 ltac:(lia)) as (c & F1 & _ & _ & _ & _ & _ & S1).
    assert (c = wt_cf w) by congruence. subst c. rewrite (scale_same lm Hlog K sr sr1 HK R Hr). exact S1.
  - rewrite IH. f_equal. symmetry. apply (find_scale w d w' m E).
  - destruct (resample_shape lm Hlog src dbg K n w H) as (og & nw & (HK & Hnw & Hl & Hm) & _ & HU).
    rewrite HU in E. destruct (wt_build N src dbg og nw sr1 fade) as [[w1|]|] eqn:B; cbn [bind] in E; try discriminate E.
    injection E as ->.
    destruct (wt_build_some N src dbg L og nw sr1 fade K w' HK Hnw Hl Hm B) as (_ & n1 & En & Ec).
    destruct (cf_make_pow2 N dbg L n1 K sr1 ltac:(lia)) as (c & F1 & _ & _ & _ & _ & _ & S1).
    assert (c = wt_cf w') by congruence. subst c. rewrite (scale_same lm Hlog K sr sr1 HK R Hr). exact S1.
Qed.

Lemma has_rate K n w : reach K n w -> exists sr : f32, rate32 lm sr.
Proof. induction 1; eauto. Qed.

Lemma forgets K n1 n2 w1 w2 r o1 o2 pre1 pre2 o1' ys1 o2' ys2 (p d : f32) ops :
  reach K n1 w1 -> reach K n2 w2 -> sameTables N w1 w2 -> o_wt o1 = Some w1 -> o_wt o2 = Some w2 ->
  1 <= n1 -> 1 <= n2 ->
  staysIn lm K r (prevPhase N o1) pre1 -> staysIn lm K r (prevPhase N o2) pre2 ->
  2 * n1 < Z.of_nat (asked pre1) -> 2 * n2 < Z.of_nat (asked pre2) ->
  run o1 pre1 = Ok (o1', ys1) -> run o2 pre2 = Ok (o2', ys2) -> o_wf o1' = o_wf o2' ->
  stays K r kBidirectionnal d -> staysIn lm K r p ops ->
  outputs N (run o1' (OpReset N p d :: ops)) = outputs N (run o2' (OpReset N p d :: ops)).
Proof.
  intros H1 H2 [S P] E1 E2 P1 P2 S1 S2 A1 A2 R1 R2 Hw Hd Hs.
  destruct (has_rate K n1 w1 H1) as (sr & Hr).
  assert (Esc : cf_scale (wt_cf w2) = cf_scale (wt_cf w1)).
  { assert (X1 := scale_of K n1 w1 sr H1 Hr). rewrite (scale_of K n2 w2 sr H2 Hr) in X1. now injection X1. }
  destruct (reach_ok lm Hlog src dbg K n1 w1 H1) as (_ & _ & _ & M1 & _ & C1). specialize (C1 P1).
  destruct (reach_ok lm Hlog src dbg K n2 w2 H2) as (_ & _ & _ & M2 & _ & C2). specialize (C2 P2).
  assert (I1 := worn_any N (cf_scale (wt_cf w1)) r w1 eq_refl ltac:(lia) (cfo_left N _ C1) (cfo_idle N _ C1)).
  assert (I2 := worn_any N (cf_scale (wt_cf w1)) r w2 Esc ltac:(lia) (cfo_left N _ C2) (cfo_idle N _ C2)).
  assert (Q1 := asks_ops lm Hlog src dbg K n1 w1 r pre1 H1 _ S1).
  assert (Q2 := asks_ops lm Hlog src dbg K n2 w2 r pre2 H2 _ S2). rewrite Esc in Q2.
  destruct (tired_run N src cfg F (cf_scale (wt_cf w1)) r w1 pre1 (2 * cf_num (wt_cf w1) + 1) (o_phase o1) o1 o1' ys1
    (ex_intro _ w1 (conj E1 (conj I1 eq_refl))) Q1 R1) as (q1 & L1 & _).
  destruct (tired_run N src cfg F (cf_scale (wt_cf w1)) r w2 pre2 (2 * cf_num (wt_cf w2) + 1) (o_phase o2) o2 o2' ys2
    (ex_intro _ w2 (conj E2 (conj I2 eq_refl))) Q2 R2) as (q2 & L2 & _).
  assert (Ad := proj1 (asks_stays lm Hlog src dbg K n1 w1 r _ d H1 Hd)).
  assert (As := asks_ops lm Hlog src dbg K n1 w1 r ops H1 p Hs).
  eapply (tired_rest N src cfg F (cf_scale (wt_cf w1)) r w1 w2);
    [symmetry; exact S|symmetry; exact P| | |exact L1|exact L2|exact Hw|split; assumption]; lia.
Qed.

(** ** The table held while playing *)
Section Kept.
Variable P : WT N -> Prop.
Hypothesis HP : forall w d w' m, P w -> wt_findMipMapIndices N dbg w d = Ok (w', m) -> P w'.
Definition keeps (o : Osc N) : Prop := exists w, o_wt o = Some w /\ P w.

Lemma keeps_reset o p d o' : keeps o -> resetInternals N cfg F o p d = Ok o' -> keeps o'.
Proof.
  intros (w & Ew & Pw) E. unfold resetInternals in E. rewrite Ew in E. apply bind_ok in E. destruct E as ([] & _ & E).
  apply bind_ok in E. destruct E as (ph & _ & E). apply bind_ok in E. destruct E as ([w1 [[[mi g] mu] gu]] & Ef & E).
  apply bind_ok in E. destruct E as (len & _ & E). apply bind_ok in E. destruct E as (j & _ & E).
  inversion E; subst. eexists. split; [reflexivity|]. exact (HP _ _ _ _ Pw Ef).
Qed.

Lemma keeps_one dir o p o' y : keeps o -> processOne N cfg F dir o p = Ok (o', y) -> keeps o'.
Proof.
  intros (w & Ew & Pw) E. unfold processOne in E. rewrite Ew in E.
  assert (Fw : forall pd, processSampleFwd N cfg F o w p pd = Ok (o', y) -> keeps o').
  { intros pd E1. unfold processSampleFwd in E1. apply bind_ok in E1. destruct E1 as (x & Ex & E1).
    apply bind_ok in E1. destruct E1 as (a & _ & E1). apply bind_ok in E1. destruct E1 as (icpx & _ & E1).
    unfold finish in E1. inversion E1; subst; clear E1.
    unfold idxFwd in Ex. apply bind_ok in Ex. destruct Ex as ([] & _ & Ex).
    apply bind_ok in Ex. destruct Ex as ([w1 [[[mi g] mu] gu]] & Ef & Ex).
    repeat (apply bind_ok in Ex; destruct Ex as (? & _ & Ex)). inversion Ex; subst; clear Ex.
    eexists. split; [reflexivity|]. exact (HP _ _ _ _ Pw Ef). }
  assert (Bw : forall pd, processSampleBwd N cfg F o w p pd = Ok (o', y) -> keeps o').
  { intros pd E1. unfold processSampleBwd in E1. apply bind_ok in E1. destruct E1 as (x & Ex & E1).
    apply bind_ok in E1. destruct E1 as (a & _ & E1). apply bind_ok in E1. destruct E1 as (icpx & _ & E1).
    unfold finish in E1. inversion E1; subst; clear E1.
    unfold idxBwd in Ex. apply bind_ok in Ex. destruct Ex as ([] & _ & Ex).
    apply bind_ok in Ex. destruct Ex as ([w1 [[[mi g] mu] gu]] & Ef & Ex).
    repeat (apply bind_ok in Ex; destruct Ex as (? & _ & Ex)). inversion Ex; subst; clear Ex.
    eexists. split; [reflexivity|]. exact (HP _ _ _ _ Pw Ef). }
  destruct dir; cbv zeta in E.
  - apply bind_ok in E. destruct E as ([] & _ & E). eapply Fw. exact E.
  - destruct (tle N _ _); [eapply Fw|eapply Bw]; exact E.
Qed.

Lemma keeps_loop dir ps : forall o out o' ys, keeps o -> processLoop N cfg F dir o ps out = Ok (o', ys) -> keeps o'.
Proof.
  induction ps as [|p ps IH]; intros o out o' ys Ho E; cbn [processLoop] in E.
  - assert (o = o') by congruence. now subst.
  - destruct out as [|z out]; [assert (o = o') by congruence; now subst|].
    apply bind_ok in E. destruct E as ([o1 y] & E1 & E). apply bind_ok in E. destruct E as ([o2 zs] & E2 & E).
    assert (o2 = o') by congruence. subst o2. eapply IH; [|exact E2]. eapply keeps_one; eassumption.
Qed.

Lemma keeps_run ops : forall o o' ys, keeps o -> Forall plays ops -> run o ops = Ok (o', ys) -> keeps o'.
Proof.
  induction ops as [|op ops IH]; intros o o' ys Ho Hp E; cbn [Osc.run] in E.
  - assert (o = o') by congruence. now subst.
  - inversion Hp as [|? ? Hp1 Hp2]; subst. apply bind_ok in E. destruct E as ([o1 zs] & E1 & E).
    apply bind_ok in E. destruct E as ([o2 zs2] & E2 & E). assert (o2 = o') by congruence. subst o2. clear E.
    destruct op as [wd p d|wd p d|p d|k|sr|dir ps]; cbn [plays] in Hp1; try contradiction; cbn [Osc.apply] in E1;
      (eapply IH; [|exact Hp2|exact E2]).
    + apply bind_ok in E1. destruct E1 as (o3 & E1 & E3). assert (o1 = o3) by congruence. subst o3. eapply keeps_reset; eassumption.
    + apply bind_ok in E1. destruct E1 as (o3 & E1 & E3). unfold setWaveform in E1.
      apply bind_ok in E1. destruct E1 as ([] & _ & E1). assert (o1 = set_wf N o k) by congruence. subst o1. exact Ho.
    + unfold process in E1. apply bind_ok in E1. destruct E1 as ([] & _ & E1). apply bind_ok in E1. destruct E1 as ([] & _ & E1).
      eapply keeps_loop; eassumption.
Qed.
End Kept.

Lemma kept K n w o (p d : f32) ops o' ys : reach K n w -> Forall plays ops ->
  run o (OpInit N (Some w) p d :: ops) = Ok (o', ys) ->
  exists w', o_wt o' = Some w' /\ reach K n w' /\ sameTables N w w'.
Proof.
  intros Hr Hp E. set (P := fun w' => reach K n w' /\ sameTables N w w').
  assert (HP : forall w1 d w' m, P w1 -> wt_findMipMapIndices N dbg w1 d = Ok (w', m) -> P w').
  { intros w1 d1 w' m [H [S1 S2]] Ef. split; [eapply r_ask; eassumption|].
    destruct (find_scale w1 d1 w' m Ef) as (G1 & G2 & _). split; congruence. }
  cbn [Osc.run Osc.apply osc_init] in E. apply bind_ok in E. destruct E as ([o1 zs] & E1 & E).
  apply bind_ok in E. destruct E as ([o2 us] & E2 & E). injection E as <- _.
  apply bind_ok in E1. destruct E1 as ([o3 st] & E1 & E3). injection E3 as <- _.
  apply bind_ok in E1. destruct E1 as (o4 & E1 & E4). injection E4 as <- _.
  assert (K0 : keeps P (set_wt N o (Some w))) by (exists w; split; [reflexivity|split; [exact Hr|split; reflexivity]]).
  assert (K1 := keeps_reset P HP _ _ _ _ K0 E1).
  destruct (keeps_run P HP ops (set_wf N o4 0) o2 us K1 Hp E2) as (w' & Ew & A & B). exists w'. auto.
Qed.
End Used.

(** ** C68, states.  Two oscillators hold tables of the same samples, in whatever states their
    cross-fades, filters and phases are.  Once each has been asked for more samples of one
    octave than twice its fade, in blocks of any sizes and with whatever resets, the pasts can
    no longer be told apart: with the same waveform selected, after the same reset, the same
    calls of that octave give the same samples, or fault in the same way. *)
Theorem C68_state_forgotten : forall lm src cfg F K n1 n2 w1 w2 r o1 o2 pre1 pre2 o1' ys1 o2' ys2 (p d : f32) ops,
  log2_exact lm ->
  reachable (B32 lm) src (Osc.dbg cfg) (rate32 lm) K n1 w1 -> reachable (B32 lm) src (Osc.dbg cfg) (rate32 lm) K n2 w2 ->
  sameTables (B32 lm) w1 w2 -> o_wt o1 = Some w1 -> o_wt o2 = Some w2 -> 1 <= n1 -> 1 <= n2 ->
  staysIn lm K r (prevPhase (B32 lm) o1) pre1 -> staysIn lm K r (prevPhase (B32 lm) o2) pre2 ->
  2 * n1 < Z.of_nat (asked pre1) -> 2 * n2 < Z.of_nat (asked pre2) ->
  Osc.run (B32 lm) src cfg F o1 pre1 = Ok (o1', ys1) -> Osc.run (B32 lm) src cfg F o2 pre2 = Ok (o2', ys2) ->
  o_wf o1' = o_wf o2' ->
  stays K r kBidirectionnal d -> staysIn lm K r p ops ->
  outputs (B32 lm) (Osc.run (B32 lm) src cfg F o1' (OpReset (B32 lm) p d :: ops)) =
  outputs (B32 lm) (Osc.run (B32 lm) src cfg F o2' (OpReset (B32 lm) p d :: ops)).
Proof. intros lm src cfg F K n1 n2 w1 w2 r o1 o2 pre1 pre2 o1' ys1 o2' ys2 p d ops Hlog. exact (forgets lm Hlog src cfg F K n1 n2 w1 w2 r o1 o2 pre1 pre2 o1' ys1 o2' ys2 p d ops). Qed.
Print Assumptions C68_state_forgotten.

(** ** C68, pasts.  The same for what was played since a table was loaded: any two pasts, in any
    octaves and directions, of two oscillators that were loaded with the same table. *)
Theorem C68_past_forgotten : forall lm src cfg F K n w r o1 o2 (q1 d1 q2 d2 : f32) past1 past2 pre1 pre2 m1 m2 us1 us2 o1' ys1 o2' ys2 (p d : f32) ops,
  log2_exact lm -> reachable (B32 lm) src (Osc.dbg cfg) (rate32 lm) K n w -> 1 <= n ->
  Forall plays past1 -> Forall plays past2 ->
  Osc.run (B32 lm) src cfg F o1 (OpInit (B32 lm) (Some w) q1 d1 :: past1) = Ok (m1, us1) ->
  Osc.run (B32 lm) src cfg F o2 (OpInit (B32 lm) (Some w) q2 d2 :: past2) = Ok (m2, us2) ->
  staysIn lm K r (prevPhase (B32 lm) m1) pre1 -> staysIn lm K r (prevPhase (B32 lm) m2) pre2 ->
  2 * n < Z.of_nat (asked pre1) -> 2 * n < Z.of_nat (asked pre2) ->
  Osc.run (B32 lm) src cfg F m1 pre1 = Ok (o1', ys1) -> Osc.run (B32 lm) src cfg F m2 pre2 = Ok (o2', ys2) ->
  o_wf o1' = o_wf o2' ->
  stays K r kBidirectionnal d -> staysIn lm K r p ops ->
  outputs (B32 lm) (Osc.run (B32 lm) src cfg F o1' (OpReset (B32 lm) p d :: ops)) =
  outputs (B32 lm) (Osc.run (B32 lm) src cfg F o2' (OpReset (B32 lm) p d :: ops)).
Proof.
  intros lm src cfg F K n w r o1 o2 q1 d1 q2 d2 past1 past2 pre1 pre2 m1 m2 us1 us2 o1' ys1 o2' ys2 p d ops
    Hlog Hr Hn P1 P2 R1 R2 S1 S2 A1 A2 E1 E2 Hw Hd Hs.
  destruct (kept lm src cfg F K n w o1 q1 d1 past1 m1 us1 Hr P1 R1) as (w1 & W1 & H1 & T1).
  destruct (kept lm src cfg F K n w o2 q2 d2 past2 m2 us2 Hr P2 R2) as (w2 & W2 & H2 & T2).
  apply (forgets lm Hlog src cfg F K n n w1 w2 r m1 m2 pre1 pre2 o1' ys1 o2' ys2 p d ops); auto.
  destruct T1 as [G1 G2], T2 as [G3 G4]. split; congruence.
Qed.
Print Assumptions C68_past_forgotten.

(** ** The hypotheses are met: a table with a fade of one sample; one oscillator played octave 1
    forwards, the other octave 0 back and forth; both then play octave 1. *)
From Verif Require Import Prop_Safety Prop_Rate.

Lemma run_wf lm src cfg F ops : forall (o o' : Osc (B32 lm)) ys, Forall plays ops ->
  Osc.run (B32 lm) src cfg F o ops = Ok (o', ys) -> o_wf o' = wfAfter (B32 lm) ops (o_wf o).
Proof.
  induction ops as [|op ops IH]; intros o o' ys Hp E; cbn [Osc.run] in E.
  - assert (o = o') by congruence. now subst.
  - inversion Hp as [|? ? Hp1 Hp2]; subst. apply bind_ok in E. destruct E as ([o1 zs] & E1 & E).
    apply bind_ok in E. destruct E as ([o2 zs2] & E2 & E). assert (o2 = o') by congruence. subst o2. clear E.
    rewrite (IH o1 o' zs2 Hp2 E2).
    destruct op as [wd p d|wd p d|p d|k|sr|dir ps]; cbn [plays] in Hp1; try contradiction; cbn [Osc.apply] in E1.
    + apply bind_ok in E1. destruct E1 as (o3 & E1 & E3). assert (o1 = o3) by congruence. subst o3.
      unfold resetInternals in E1. apply bind_ok in E1. destruct E1 as ([] & _ & E1).
      destruct (o_wt o) as [w|]; [|discriminate E1].
      apply bind_ok in E1. destruct E1 as (ph & _ & E1). apply bind_ok in E1. destruct E1 as ([w1 [[[mi g] mu] gu]] & Ef & E1).
      apply bind_ok in E1. destruct E1 as (len & _ & E1). apply bind_ok in E1. destruct E1 as (j & _ & E1).
      inversion E1; subst. reflexivity.
    + apply bind_ok in E1. destruct E1 as (o3 & E1 & E3). unfold setWaveform in E1.
      apply bind_ok in E1. destruct E1 as ([] & _ & E1). assert (o1 = set_wf (B32 lm) o k) by congruence. subst o1. reflexivity.
    + unfold process in E1. apply bind_ok in E1. destruct E1 as ([] & _ & E1). apply bind_ok in E1. destruct E1 as ([] & _ & E1).
      apply (loop_shape (B32 lm) cfg F) in E1; [|now rewrite map_length]. destruct E1 as (_ & _ & E1 & _). now rewrite E1.
Qed.

Definition pastOps : list (Op FN) :=
  [OpProcess FN kForward [fl 1 8; fl 1 4]; OpSetWaveform FN 1; OpProcess FN kBidirectionnal [fl 1 8; fl 1 16];
   OpReset FN (fl 1 2) (fl (-1) 8); OpSetWaveform FN 0].

Lemma past_runs w : usable demo_libm (demo_src FN) true w -> wt_numWaveforms FN w = 2%Z ->
  exists o ys, Osc.run FN (demo_src FN) (mkCfg true 4) (filt FN kType2) (osc_new FN (filt FN kType2))
    (OpInit FN (Some w) (fl 0 1) (fl 1 8) :: pastOps ++ backOps) = Ok (o, ys).
Proof.
  intros Hu Hn.
  assert (Hh : okHist demo_libm (demo_src FN) true true None (OpInit FN (Some w) (fl 0 1) (fl 1 8) :: pastOps ++ backOps)).
  { unfold pastOps, backOps, preOps. cbn [okHist okBlock app last].
    change (wt_numWaveforms (B32 demo_libm) w) with (wt_numWaveforms FN w). rewrite Hn.
    split; [exact Hu|]. repeat match goal with |- _ /\ _ => split end; try exact I; try lia;
    try (vm_compute; reflexivity); try (intros _); try (vm_compute; lra);
    try (split; vm_compute; lra); try (left; vm_compute; lra); try (right; split; vm_compute; lra). }
  apply (C21_safe demo_libm (demo_src FN) (mkCfg true 4) (filt FN kType2)); auto.
  - exact demo_exact.
  - intros inp ratio cap; repeat split.
  - cbn; lia.
  - repeat split; reflexivity.
Qed.

Example C68_case : exists w m1 us1 m2 us2 o1' ys1 o2' ys2,
  reachable FN (demo_src FN) true (rate32 demo_libm) 3 1 w /\
  Forall plays preOps /\ Forall plays pastOps /\
  Osc.run FN (demo_src FN) (mkCfg true 4) (filt FN kType2) (osc_new FN (filt FN kType2))
    (OpInit FN (Some w) (fl 0 1) (fl 5 16) :: preOps) = Ok (m1, us1) /\
  Osc.run FN (demo_src FN) (mkCfg true 4) (filt FN kType2) (osc_new FN (filt FN kType2))
    (OpInit FN (Some w) (fl 0 1) (fl 1 8) :: pastOps) = Ok (m2, us2) /\
  staysIn demo_libm 3 1 (prevPhase FN m1) backOps /\ staysIn demo_libm 3 1 (prevPhase FN m2) backOps /\
  2 * 1 < Z.of_nat (asked backOps) /\
  Osc.run FN (demo_src FN) (mkCfg true 4) (filt FN kType2) m1 backOps = Ok (o1', ys1) /\
  Osc.run FN (demo_src FN) (mkCfg true 4) (filt FN kType2) m2 backOps = Ok (o2', ys2) /\
  o_wf o1' = o_wf o2' /\
  stays 3 1 kBidirectionnal (fl (-3) 8) /\ staysIn demo_libm 3 1 (fl 1 2) postOps.
Proof.
  destruct (rate_table (fl 1 40000) 1) as (w & E & Nw & Nm & U); [vm_compute; reflexivity|lia|].
  assert (HW : wellFormed FN demo16 2 3) by (repeat split; try lia; try reflexivity; unfold int_max; lia).
  destruct (fresh_state demo_libm demo_exact (demo_src FN) true demo16 2 3 sr48 _ w HW (CF_rate _) E) as (n & Tn & _ & _ & _ & _ & HR).
  assert (n = 1).
  { assert (X : tcast FN (tmul FN (fl 1 40000) sr48) = Ok 1) by (vm_compute; reflexivity).
    assert (Q : Ok 1 = Ok n) by exact (eq_trans (eq_sym X) Tn). now injection Q. }
  subst n. destruct pre_stays as (S1 & S2 & S3 & S4).
  assert (Split : forall a (b : list (Op FN)) o r, Osc.run FN (demo_src FN) (mkCfg true 4) (filt FN kType2) o (a ++ b) = Ok r ->
    exists m us o' ys, Osc.run FN (demo_src FN) (mkCfg true 4) (filt FN kType2) o a = Ok (m, us) /\
      Osc.run FN (demo_src FN) (mkCfg true 4) (filt FN kType2) m b = Ok (o', ys)).
  { induction a as [|x a IH]; intros b o [o' ys] R; cbn [app] in R.
    - exists o, [], o', ys. split; [reflexivity|exact R].
    - cbn [Osc.run] in R. apply bind_ok in R. destruct R as ([o3 zs] & R1 & R). apply bind_ok in R. destruct R as (r4 & R2 & _).
      destruct (IH b o3 r4 R2) as (m & us & o5 & ys5 & A & B). exists m, (zs ++ us), o5, ys5. split; [|exact B].
      cbn [Osc.run]. rewrite R1. cbn [bind]. rewrite A. reflexivity. }
  destruct (pre_runs w backOps U Nw) as (_ & e1 & f1 & R1).
  { unfold backOps, preOps. cbn [okHist okBlock last]. repeat match goal with |- _ /\ _ => split end; try exact I; try lia;
    try (vm_compute; reflexivity); try (intros _); try (vm_compute; lra);
    try (split; vm_compute; lra); try (left; vm_compute; lra); try (right; split; vm_compute; lra). }
  destruct (past_runs w U Nw) as (e2 & f2 & R2).
  destruct (Split (OpInit FN (Some w) (fl 0 1) (fl 5 16) :: preOps) backOps _ _ R1) as (m1 & us1 & o1' & ys1 & A1 & B1).
  destruct (Split (OpInit FN (Some w) (fl 0 1) (fl 1 8) :: pastOps) backOps _ _ R2) as (m2 & us2 & o2' & ys2 & A2 & B2).
  assert (P0 : Forall plays backOps) by (repeat constructor).
  assert (P1 : Forall plays preOps) by (repeat constructor).
  assert (P2 : Forall plays pastOps) by (repeat constructor).
  assert (W0 : forall o (p d : T FN) ops m us, Forall plays ops ->
    Osc.run FN (demo_src FN) (mkCfg true 4) (filt FN kType2) o (OpInit FN (Some w) p d :: ops) = Ok (m, us) ->
    o_wf m = wfAfter FN ops 0).
  { intros o p d ops m us Hp R. cbn [Osc.run Osc.apply osc_init] in R. apply bind_ok in R. destruct R as ([o1 zs] & R & R3).
    apply bind_ok in R3. destruct R3 as ([o2 vs] & R4 & R3). injection R3 as <- _.
    apply bind_ok in R. destruct R as ([o3 st] & R & R5). injection R5 as <- _.
    apply bind_ok in R. destruct R as (o4 & R & R5). injection R5 as <- _.
    exact (run_wf demo_libm (demo_src FN) (mkCfg true 4) (filt FN kType2) ops _ _ _ Hp R4). }
  exists w, m1, us1, m2, us2, o1', ys1, o2', ys2.
  split; [exact HR|]. split; [exact P1|]. split; [exact P2|]. split; [exact A1|]. split; [exact A2|].
  split; [split; [exact S1|exact S2]|]. split; [split; [exact S1|exact S2]|]. split; [cbn; lia|].
  split; [exact B1|]. split; [exact B2|]. split; [|split; [exact S3|exact S4]].
  transitivity 0; [|symmetry].
  - exact (eq_trans (run_wf demo_libm (demo_src FN) (mkCfg true 4) (filt FN kType2) backOps _ _ _ P0 B1) (W0 _ _ _ _ _ _ P1 A1)).
  - exact (eq_trans (run_wf demo_libm (demo_src FN) (mkCfg true 4) (filt FN kType2) backOps _ _ _ P0 B2) (W0 _ _ _ _ _ _ P2 A2)).
Qed.
