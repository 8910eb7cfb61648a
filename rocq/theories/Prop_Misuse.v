(** * Prop_Misuse: property C58 -- what the library does not check *)
From Coq Require Import ZArith List Bool Reals Lia Lra.
From Flocq Require Import Core IEEE754.BinarySingleNaN.
From Verif Require Import Num Maths CrossFader Wavetable Filters Osc Spec NumFacts B32 B32Facts B32Laws B32Pow Laws Demo SpecF SpecO SpecK
  WTFacts OscFacts OscHist PLoop PHist PMisuse Prop_Build Prop_Safety Mem SpecI Prop_Mem.
Import ListNotations.
Local Open Scope Z_scope.

(** ** no table yet.  Any number system: as long as no table has been handed over, a debug build
    stops at the first call that is not a null init or swap; a release build dereferences a null
    pointer at the first call that looks at the table. *)
Theorem C58_no_table : forall N src cfg F (ops : list (Op N)), forallb noTable ops = true ->
  (dbg cfg = true -> run N src cfg F (osc_new N F) ops =
     if forallb nullTable ops then Ok (osc_new N F, []) else Fault AssertFail) /\
  (dbg cfg = false ->
     if forallb looksAway ops
     then exists o, run N src cfg F (osc_new N F) ops = Ok (o, []) /\ osc_numWaveforms N o = Fault NullDeref
     else run N src cfg F (osc_new N F) ops = Fault NullDeref).
Proof.
  intros N src cfg F ops. split; intros D.
  - induction ops as [|op ops IH]; [reflexivity|]. cbn [forallb] in H |- *. apply andb_true_iff in H. destruct H as (H1 & H2).
    specialize (IH H2). destruct op as [[w|] p d|[w|] p d|p d|k|sr|dir ps]; try discriminate;
      cbn [nullTable andb Osc.run Osc.apply osc_init osc_swap bind].
    + rewrite IH. destruct (forallb nullTable ops); reflexivity.
    + rewrite IH. destruct (forallb nullTable ops); reflexivity.
    + unfold resetInternals, assert_. rewrite D. reflexivity.
    + unfold setWaveform, assert_. rewrite D. reflexivity.
    + unfold osc_updateSamplerate, assert_. rewrite D. reflexivity.
    + unfold process, assert_. rewrite D. reflexivity.
  - assert (X : forall o, o_wt o = None ->
      if forallb looksAway ops
      then exists o', run N src cfg F o ops = Ok (o', []) /\ osc_numWaveforms N o' = Fault NullDeref
      else run N src cfg F o ops = Fault NullDeref); [|now apply X].
    induction ops as [|op ops IH]; intros o En.
    { exists o. split; [reflexivity|]. unfold osc_numWaveforms. now rewrite En. }
    cbn [forallb] in H |- *. apply andb_true_iff in H. destruct H as (H1 & H2). specialize (IH H2).
    assert (S : forall o1, apply N src cfg F o op = Ok (o1, []) -> o_wt o1 = None ->
      if forallb looksAway ops
      then exists o', run N src cfg F o (op :: ops) = Ok (o', []) /\ osc_numWaveforms N o' = Fault NullDeref
      else run N src cfg F o (op :: ops) = Fault NullDeref).
    { intros o1 E1 E2. specialize (IH o1 E2). cbn [Osc.run]. rewrite E1. cbn [bind].
      destruct (forallb looksAway ops); [destruct IH as (o' & A & B); exists o'; rewrite A; auto|rewrite IH; reflexivity]. }
    destruct op as [[w|] p d|[w|] p d|p d|k|sr|dir [|p ps]]; try discriminate; cbn [looksAway andb].
    + now apply (S o).
    + now apply (S o).
    + cbn [Osc.run Osc.apply]. unfold resetInternals, assert_. rewrite D, En. reflexivity.
    + apply (S (set_wf N o k)); [|exact En]. cbn [Osc.apply]. unfold setWaveform, assert_. rewrite D. reflexivity.
    + cbn [Osc.run Osc.apply]. unfold osc_updateSamplerate, assert_. rewrite D, En. reflexivity.
    + apply (S o); [|exact En]. cbn [Osc.apply]. unfold process, assert_. rewrite D. reflexivity.
    + cbn [Osc.run Osc.apply]. unfold process, assert_. rewrite D. cbn [andb bind map Osc.processLoop]. unfold processOne. rewrite En. reflexivity.
Qed.
Print Assumptions C58_no_table.

Example C58_no_table_case : forall N src F (x : T N),
  let ops := [OpInit N None x x; OpSetWaveform N 3; OpProcess N kForward []; OpProcess N kForward [x]] in
  forallb noTable ops = true /\ run N src (mkCfg true 4) F (osc_new N F) ops = Fault AssertFail /\
  run N src (mkCfg false 4) F (osc_new N F) ops = Fault NullDeref.
Proof. intros N src F x ops. repeat split. Qed.

(** ** a waveform that is not in the table.  Any number system, any oscillator: whenever the block
    could be played, it cannot after selecting a waveform outside of [0, numWaveforms); the
    selection itself goes unnoticed, and selecting another one undoes it. *)
Theorem C58_bad_waveform : forall N src cfg F (o : Osc N) nw k dir (p : T N) ps r,
  osc_numWaveforms N o = Ok nw -> ~ (0 <= k < nw) ->
  run N src cfg F o [OpProcess N dir (p :: ps)] = Ok r ->
  run N src cfg F o [OpSetWaveform N k; OpProcess N dir (p :: ps)] = Fault OutOfBounds /\
  (exists o', run N src cfg F o [OpSetWaveform N k] = Ok (o', []) /\ crtWaveform N o' = k) /\
  forall j ops, run N src cfg F o (OpSetWaveform N k :: OpSetWaveform N j :: ops) =
                run N src cfg F o (OpSetWaveform N j :: ops).
Proof.
  intros N src cfg F o nw k dir p ps r Hn Hk H.
  unfold osc_numWaveforms in Hn. destruct (o_wt o) as [w|] eqn:Ew; [|discriminate]. inversion Hn; subst nw. clear Hn.
  assert (S : forall (o : Osc N) j, is_some (o_wt o) = true -> setWaveform N cfg o j = Ok (set_wf N o j)).
  { intros o0 j E. unfold setWaveform, assert_. rewrite E, andb_false_r. reflexivity. }
  split; [|split].
  - cbn [Osc.run Osc.apply] in *. rewrite S by now rewrite Ew. cbn [bind].
    apply bind_ok in H. destruct H as ([o1 ys] & H & _). unfold process in *. cbn [set_wf o_wt].
    apply bind_ok in H. destruct H as ([] & E1 & H). apply bind_ok in H. destruct H as ([] & E2 & H). rewrite E1, E2. cbn [bind].
    cbn [map Osc.processLoop] in *. apply bind_ok in H. destruct H as ([o2 y] & H & _).
    rewrite (bad_wf N cfg F dir o w p (o2, y) k H Ew Hk). reflexivity.
  - exists (set_wf N o k). split; [|reflexivity]. cbn [Osc.run Osc.apply]. rewrite S by now rewrite Ew. reflexivity.
  - intros j ops. cbn [Osc.run Osc.apply]. rewrite S by now rewrite Ew. cbn [bind].
    rewrite (S (set_wf N o k) j) by (cbn [set_wf o_wt]; now rewrite Ew). rewrite S by now rewrite Ew. cbn [bind].
    change (set_wf N (set_wf N o k) j) with (set_wf N o j).
    destruct (run N src cfg F (set_wf N o j) ops) as [[o2 ys]|f]; reflexivity.
Qed.
Print Assumptions C58_bad_waveform.

(** ** phases far away, binary32.  After any careful history (C21), a block that reaches a phase
    that is NaN, infinite, at least 3 or below -2 never returns: an assertion in a debug build, an
    invalid conversion or index in a release build. *)
Section Loaded.
Variable lm : Libm.
Variable src : Resampler (B32 lm).
Variable cfg : Cfg.
Variable F : Filt (B32 lm).
Notation N := (B32 lm).

Lemma run_app2 (a : list (Op N)) : forall o b, run N src cfg F o (a ++ b) =
  let! (o1, ys) := run N src cfg F o a in let! (o2, zs) := run N src cfg F o1 b in Ok (o2, ys ++ zs).
Proof.
  induction a as [|op a IH]; intros o b.
  - cbn [app Osc.run bind]. destruct (run N src cfg F o b) as [[o2 zs]|f]; reflexivity.
  - cbn [app Osc.run]. destruct (apply N src cfg F o op) as [[o1 ys]|f]; cbn [bind]; [|reflexivity].
    rewrite IH. destruct (run N src cfg F o1 a) as [[o2 zs]|f]; cbn [bind]; [|reflexivity].
    destruct (run N src cfg F o2 b) as [[o3 us]|f]; cbn [bind]; [|reflexivity]. now rewrite app_assoc.
Qed.

Lemma apply_some (o : Osc N) op o1 ys : apply N src cfg F o op = Ok (o1, ys) ->
  is_some (o_wt o) = true \/ noTable op = false -> is_some (o_wt o1) = true.
Proof.
  assert (R : forall (o : Osc N) p d o1, resetInternals N cfg F o p d = Ok o1 -> is_some (o_wt o1) = true).
  { intros o0 p d o2 E. unfold resetInternals in E. apply bind_ok in E. destruct E as ([] & _ & E).
    destruct (o_wt o0) as [w|]; [|discriminate].
    apply bind_ok in E. destruct E as (q & Er & E). apply bind_ok in E. destruct E as ([w' [[[mi x1] x2] x3]] & _ & E).
    apply bind_ok in E. destruct E as (len & _ & E). apply bind_ok in E. destruct E as (j & Ej & E). inversion E; subst. reflexivity. }
  destruct op as [[w|] p d|[w|] p d|p d|k|sr|dir ps]; cbn [Osc.apply osc_init osc_swap bind]; intros H S.
  - apply bind_ok in H. destruct H as ([o2 x] & H & E). inversion E; subst. apply bind_ok in H. destruct H as (o3 & H & E').
    inversion E'; subst. cbn [set_wf o_wt]. exact (R _ _ _ _ H).
  - inversion H; subst. destruct S as [S|S]; [exact S|discriminate].
  - apply bind_ok in H. destruct H as ([o2 x] & H & E). inversion E; subst. apply bind_ok in H. destruct H as (o3 & H & E').
    inversion E'; subst. cbn [set_wf o_wt]. exact (R _ _ _ _ H).
  - inversion H; subst. destruct S as [S|S]; [exact S|discriminate].
  - apply bind_ok in H. destruct H as (o2 & H & E). inversion E; subst. exact (R _ _ _ _ H).
  - apply bind_ok in H. destruct H as (o2 & H & E). inversion E; subst. unfold setWaveform in H.
    apply bind_ok in H. destruct H as ([] & _ & H). inversion H; subst. destruct S as [S|S]; [exact S|discriminate].
  - apply bind_ok in H. destruct H as (o2 & H & E). inversion E; subst. unfold osc_updateSamplerate in H.
    apply bind_ok in H. destruct H as ([] & _ & H). destruct (o_wt o) as [w|]; [|discriminate].
    apply bind_ok in H. destruct H as (w' & _ & H). inversion H; subst. reflexivity.
  - unfold process in H. apply bind_ok in H. destruct H as ([] & _ & H). apply bind_ok in H. destruct H as ([] & _ & H).
    destruct S as [S|S]; [|discriminate]. exact (loop_some N cfg F _ _ _ _ _ _ H S).
Qed.

Lemma loaded_after d s dir ps (ops : list (Op N)) : forall st o o1 ys,
  okHist lm src d s st (ops ++ [OpProcess N dir ps]) -> (st <> None -> is_some (o_wt o) = true) ->
  run N src cfg F o ops = Ok (o1, ys) -> is_some (o_wt o1) = true.
Proof.
  induction ops as [|op ops IH]; intros st o o1 ys H S R.
  - cbn [Osc.run] in R. inversion R; subst. cbn [app okHist] in H. destruct st as [[q nw]|]; [|contradiction]. apply S. discriminate.
  - cbn [Osc.run] in R. apply bind_ok in R. destruct R as ([o2 zs] & E & R). apply bind_ok in R. destruct R as ([o3 us] & R & E').
    inversion E'; subst. assert (A := apply_some o op o2 zs E). cbn [app] in H.
    destruct op as [[w|] p dd|[w|] p dd|p dd|k|sr|dir' ps']; cbn [okHist] in H.
    + destruct H as (_ & _ & H). apply (IH _ _ _ _ H) in R; auto.
    + apply (IH _ _ _ _ H) in R; auto.
    + destruct H as (_ & _ & H). apply (IH _ _ _ _ H) in R; auto.
    + apply (IH _ _ _ _ H) in R; auto.
    + destruct st as [[q nw]|]; [|contradiction]. destruct H as (_ & H). apply (IH _ _ _ _ H) in R; auto; intros _; apply A; left; apply S; discriminate.
    + destruct st as [[q nw]|]; [|contradiction]. destruct H as (_ & H). apply (IH _ _ _ _ H) in R; auto.
    + destruct st as [[q nw]|]; [|contradiction]. destruct H as (_ & H). apply (IH _ _ _ _ H) in R; auto; intros _; apply A; left; apply S; discriminate.
    + destruct st as [[q nw]|]; [|contradiction]. destruct H as (_ & H). apply (IH _ _ _ _ H) in R; auto; intros _; apply A; left; apply S; discriminate.
Qed.
End Loaded.

Theorem C58_bad_phase : forall lm src cfg F s ops dir ps (p : f32) qs o ys, log2_exact lm -> resamplerOk (B32 lm) src ->
  (1 <= batch cfg)%nat -> filterShape (B32 lm) F ->
  okHist lm src (dbg cfg) s None (ops ++ [OpProcess (B32 lm) dir ps]) ->
  run (B32 lm) src cfg F (osc_new (B32 lm) F) (ops ++ [OpProcess (B32 lm) dir ps]) = Ok (o, ys) ->
  badPhase p ->
  exists f, run (B32 lm) src cfg F (osc_new (B32 lm) F) (ops ++ [OpProcess (B32 lm) dir (ps ++ p :: qs)]) = Fault f /\
    (dbg cfg = true -> f = AssertFail).
Proof.
  intros lm src cfg F s ops dir ps p qs o ys Hlog Hsrc HB HF H R B.
  assert (R0 := R). rewrite run_app2 in R. apply bind_ok in R. destruct R as ([o1 y1] & R1 & R).
  apply bind_ok in R. destruct R as ([o2 y2] & R2 & R). inversion R; subst o2. clear R.
  assert (I : is_some (o_wt o1) = true).
  { apply (loaded_after lm src cfg F _ _ _ _ _ _ _ _ _ H) in R1; auto; intros X; now contradiction X. }
  assert (I2 : is_some (o_wt o) = true).
  { cbn [Osc.run] in R2. apply bind_ok in R2. destruct R2 as ([o2 u] & R2 & E). cbn [bind] in E. inversion E; subst.
    apply (apply_some lm src cfg F _ _ _ _ R2). now left. }
  destruct (run_tracked lm Hlog src cfg F HB HF Hsrc s _ None _ eq_refl H) as [(o' & ys' & E & st & T)|[_ E]]; [|congruence].
  rewrite R0 in E. inversion E; subst o' ys'. clear E.
  destruct st as [[q nw]|]; [|cbn [tracked] in T; subst o; discriminate].
  destruct T as (G & _ & _). destruct G as [(K & nw' & w & HO) _].
  assert (Q : phase01 (o_phase o)).
  { assert (X := oo_phred _ _ _ _ _ _ _ HO). rewrite <- (oo_phase _ _ _ _ _ _ _ HO) in X. exact X. }
  destruct (bad_one lm cfg F K nw' o w dir p (oo_wt _ _ _ _ _ _ _ HO) (oo_W _ _ _ _ _ _ _ HO) Q B) as (f & Ef & Df).
  exists f. split; [|exact Df].
  rewrite run_app2, R1. cbn [bind].
  assert (X := run_blocks (B32 lm) src cfg F dir [ps; p :: qs] o1 ltac:(discriminate)).
  cbn [map concat] in X. rewrite app_nil_r in X. rewrite <- X. clear X.
  cbn [Osc.run] in R2. apply bind_ok in R2. destruct R2 as ([o2 u] & R2 & E). cbn [bind] in E. inversion E; subst o2.
  cbn [Osc.run]. rewrite R2. cbn [bind Osc.apply]. unfold process. rewrite I2.
  rewrite assert_ok by reflexivity. cbn [bind]. rewrite assert_ok by (intros _; unfold zlen; rewrite map_length; apply Z.eqb_refl).
  cbn [bind map Osc.processLoop]. rewrite Ef. reflexivity.
Qed.
Print Assumptions C58_bad_phase.

(** ** starting there.  A non-finite starting phase never returns from init, swapWavetable or
    resetInternals; a debug build stops at all of the phases above. *)
Theorem C58_bad_start : forall lm src cfg F (o : Osc (B32 lm)) op (p d : f32) rest,
  (exists w, op = OpInit (B32 lm) (Some w) p d \/ op = OpSwap (B32 lm) (Some w) p d) \/
  (exists nw, osc_numWaveforms (B32 lm) o = Ok nw) /\ op = OpReset (B32 lm) p d ->
  (dbg cfg = true -> badPhase p -> run (B32 lm) src cfg F o (op :: rest) = Fault AssertFail) /\
  (is_finite p = false -> exists f, run (B32 lm) src cfg F o (op :: rest) = Fault f).
Proof.
  intros lm src cfg F o op p d rest H.
  assert (X : exists o' w', o_wt o' = Some w' /\ forall f, resetInternals (B32 lm) cfg F o' p d = Fault f ->
    run (B32 lm) src cfg F o (op :: rest) = Fault f).
  { destruct H as [(w & [->| ->])|((nw & E) & ->)].
    - exists (set_wt (B32 lm) o (Some w)), w. split; [reflexivity|]. intros f E. cbn [Osc.run Osc.apply osc_init]. rewrite E. reflexivity.
    - exists (set_wt (B32 lm) o (Some w)), w. split; [reflexivity|]. intros f E. cbn [Osc.run Osc.apply osc_swap]. rewrite E. reflexivity.
    - unfold osc_numWaveforms in E. destruct (o_wt o) as [w|] eqn:Ew; [|discriminate]. exists o, w. split; [exact Ew|].
      intros f E'. cbn [Osc.run Osc.apply]. rewrite E'. reflexivity. }
  destruct X as (o' & w' & Ew & X). destruct (bad_reset lm cfg F o' w' p d Ew) as (A & B). split.
  - intros D Bp. apply X. now apply A.
  - intros Bp. destruct (B Bp) as (f & E). exists f. now apply X.
Qed.
Print Assumptions C58_bad_start.

(** ** a debug build stops at every phase outside [-1,2], wherever it comes in a block and after any
    careful history, and at every such starting phase (C52: those of [-1,2) work, but for
    [-2^-25,0)) *)
Theorem C58_debug_range : forall lm src cfg F s ops dir ps (p : f32) qs o ys, log2_exact lm -> resamplerOk (B32 lm) src ->
  (1 <= batch cfg)%nat -> filterShape (B32 lm) F ->
  okHist lm src (dbg cfg) s None (ops ++ [OpProcess (B32 lm) dir ps]) ->
  run (B32 lm) src cfg F (osc_new (B32 lm) F) (ops ++ [OpProcess (B32 lm) dir ps]) = Ok (o, ys) ->
  dbg cfg = true -> outsidePhase p ->
  run (B32 lm) src cfg F (osc_new (B32 lm) F) (ops ++ [OpProcess (B32 lm) dir (ps ++ p :: qs)]) = Fault AssertFail.
Proof.
  intros lm src cfg F s ops dir ps p qs o ys Hlog Hsrc HB HF H R D B.
  assert (R0 := R). rewrite run_app2 in R. apply bind_ok in R. destruct R as ([o1 y1] & R1 & R).
  apply bind_ok in R. destruct R as ([o2 y2] & R2 & R). inversion R; subst o2. clear R.
  assert (I : is_some (o_wt o1) = true).
  { apply (loaded_after lm src cfg F _ _ _ _ _ _ _ _ _ H) in R1; auto; intros X; now contradiction X. }
  assert (I2 : is_some (o_wt o) = true).
  { cbn [Osc.run] in R2. apply bind_ok in R2. destruct R2 as ([o2 u] & R2 & E). cbn [bind] in E. inversion E; subst.
    apply (apply_some lm src cfg F _ _ _ _ R2). now left. }
  destruct (run_tracked lm Hlog src cfg F HB HF Hsrc s _ None _ eq_refl H) as [(o' & ys' & E & st & T)|[_ E]]; [|congruence].
  rewrite R0 in E. inversion E; subst o' ys'. clear E.
  destruct st as [[q nw]|]; [|cbn [tracked] in T; subst o; discriminate].
  destruct T as (G & _ & _). destruct G as [(K & nw' & w & HO) _].
  assert (Ef := outside_one lm cfg F K nw' o w dir p (oo_wt _ _ _ _ _ _ _ HO) (oo_W _ _ _ _ _ _ _ HO) (oo_cf _ _ _ _ _ _ _ HO) D B).
  rewrite run_app2, R1. cbn [bind].
  assert (X := run_blocks (B32 lm) src cfg F dir [ps; p :: qs] o1 ltac:(discriminate)).
  cbn [map concat] in X. rewrite app_nil_r in X. rewrite <- X. clear X.
  cbn [Osc.run] in R2. apply bind_ok in R2. destruct R2 as ([o2 u] & R2 & E). cbn [bind] in E. inversion E; subst o2.
  cbn [Osc.run]. rewrite R2. cbn [bind Osc.apply]. unfold process. rewrite I2.
  rewrite assert_ok by reflexivity. cbn [bind]. rewrite assert_ok by (intros _; unfold zlen; rewrite map_length; apply Z.eqb_refl).
  cbn [bind map Osc.processLoop]. rewrite Ef. reflexivity.
Qed.
Print Assumptions C58_debug_range.
Theorem C58_debug_start : forall lm src cfg F (o : Osc (B32 lm)) op (p d : f32) rest,
  (exists w, op = OpInit (B32 lm) (Some w) p d \/ op = OpSwap (B32 lm) (Some w) p d) \/
  (exists nw, osc_numWaveforms (B32 lm) o = Ok nw) /\ op = OpReset (B32 lm) p d ->
  dbg cfg = true -> outsidePhase p -> run (B32 lm) src cfg F o (op :: rest) = Fault AssertFail.
Proof.
  intros lm src cfg F o op p d rest H D B. assert (ER := reduce_outside lm cfg p D B).
  assert (X : forall o' w', o_wt o' = Some w' -> resetInternals (B32 lm) cfg F o' p d = Fault AssertFail).
  { intros o' w' Ew. unfold resetInternals. rewrite Ew. unfold assert_ at 1. cbn [is_some negb]. rewrite andb_false_r. cbn [bind].
    rewrite ER. reflexivity. }
  destruct H as [(w & [->| ->])|((nw & E) & ->)].
  - cbn [Osc.run Osc.apply osc_init]. rewrite (X _ w) by reflexivity. reflexivity.
  - cbn [Osc.run Osc.apply osc_swap]. rewrite (X _ w) by reflexivity. reflexivity.
  - unfold osc_numWaveforms in E. destruct (o_wt o) as [w|] eqn:Ew; [|discriminate].
    cbn [Osc.run Osc.apply]. rewrite (X _ w Ew). reflexivity.
Qed.
Print Assumptions C58_debug_start.

(** *** concrete cases.  The history of C21_case ends in a block, so it is of the form the theorem
    asks for; NaN, infinity, 7/2 and -5/2 are such phases. *)
Example C58_bad_phase_case :
  (exists w ops dir ps, okHist demo_libm (demo_src FN) true true None (ops ++ [OpProcess FN dir ps]) /\
    ops ++ [OpProcess FN dir ps] = safeOps w) /\
  badPhase B754_nan /\ badPhase (B754_infinity true) /\ badPhase (fl 7 2) /\ badPhase (fl (-5) 2).
Proof.
  split.
  - destruct C21_case as (w & _ & H & _). exists w, (removelast (safeOps w)), kBidirectionnal, [fl 3 8; fl 7 16].
    assert (E : removelast (safeOps w) ++ [OpProcess FN kBidirectionnal [fl 3 8; fl 7 16]] = safeOps w) by reflexivity.
    split; [rewrite E; exact H|exact E].
  - split; [left; reflexivity|]. split; [left; reflexivity|].
    split; [right; left; vm_compute; lra|right; right; vm_compute; lra].
Qed.

(** a silent waveform of 8 samples behind a filter of one pole (Prop_Mem): what a release build does *)
Definition outcome (dbg : bool) (ops : list (Op FN)) : option fault :=
  match quiet dbg with
  | Some o => match run FN (demo_src FN) (mkCfg dbg 1) onePole o ops with Ok _ => None | Fault f => Some f end
  | None => Some RuntimeError
  end.
Example C58_runs :
  (outcome true [OpProcess FN kForward [fl 1 8; fl 1 4]] = None /\
   outcome true [OpSetWaveform FN 1; OpProcess FN kForward [fl 1 8; fl 1 4]] = Some OutOfBounds /\
   outcome true [OpSetWaveform FN (-1); OpProcess FN kForward [fl 1 8; fl 1 4]] = Some OutOfBounds) /\
  (outcome false [OpProcess FN kForward [fl 1 8; fl 7 2]] = Some OutOfBounds /\
   outcome false [OpProcess FN kBidirectionnal [fl 1 8; fl (-5) 2]] = Some OutOfBounds /\
   outcome false [OpProcess FN kForward [fl 1 8; B754_infinity false]] = Some BadCast /\
   outcome true [OpProcess FN kForward [fl 1 8; B754_infinity false]] = Some AssertFail) /\
  outcome false [OpReset FN B754_nan (fl 1 8)] = Some BadCast.
Proof. repeat split; vm_compute; reflexivity. Qed.

(** phases between those of C52 and those of C58_bad_phase: the debug build stops, the release build
    plays on *)
Example C58_debug_range_case :
  outsidePhase (fl 9 4) /\ outsidePhase (fl (-5) 4) /\ outsidePhase B754_nan /\
  outcome true [OpProcess FN kForward [fl 1 8; fl 9 4]] = Some AssertFail /\
  outcome true [OpProcess FN kBidirectionnal [fl 1 8; fl (-5) 4]] = Some AssertFail /\
  outcome true [OpReset FN (fl 9 4) (fl 1 8)] = Some AssertFail /\
  outcome false [OpProcess FN kForward [fl 1 8; fl 9 4]] = None.
Proof.
  split; [right; left; vm_compute; lra|]. split; [right; right; vm_compute; lra|]. split; [left; reflexivity|].
  repeat split; vm_compute; reflexivity.
Qed.
