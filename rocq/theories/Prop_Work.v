(** * Prop_Work: property C41 -- how much work a sample costs (binary32, any filter and SIMD width)

    The loops of process() that do not have a fixed number of iterations are the two loops over
    the segment boundaries crossed during the sample, one on the lower and one on the upper of
    the two blended mipmap entries.  Work.v is the oscillator with those iterations counted:
    each sample comes with the pair (iterations on the lower entry, iterations on the upper). *)
From Coq Require Import ZArith List Bool Reals Lia Lra Arith.
From Flocq Require Import Core IEEE754.BinarySingleNaN.
From Verif Require Import Num Maths CrossFader Wavetable Filters Osc Spec NumFacts WTFacts Laws B32 B32Facts
  B32Laws B32Pow Demo SpecF SpecO SpecW Work CFFacts OscFacts OscStep OscRun CFHist PCross PHist PHeld PWork
  Prop_Build Prop_CrossFader.
Import ListNotations.
Local Open Scope Z_scope.

(** counting changes nothing: same samples, same faults, same final state *)
Theorem C41_same : forall N src cfg F o ops, samples N (runW N src cfg F o ops) = run N src cfg F o ops.
Proof. intros. apply erase_run. Qed.
Print Assumptions C41_same.

Section Work.
Variable lm : Libm.
Hypothesis Hlog : log2_exact lm.
Variable src : Resampler (B32 lm).
Variable cfg : Cfg.
Variable F : Filt (B32 lm).
Notation N := (B32 lm).
Notation L := (B32_Laws lm Hlog).
Hypothesis HB : (1 <= batch cfg)%nat.
Hypothesis HF : filterShape N F.
Hypothesis Hsrc : resamplerOk N src.

Lemma after_hist ops o ys w : okHist lm src (dbg cfg) false None ops -> run N src cfg F (osc_new N F) ops = Ok (o, ys) ->
  o_wt o = Some w -> exists K nw, OscOk N L F K nw o w.
Proof.
  intros Hh Hr Hw.
  destruct (run_tracked lm Hlog src cfg F HB HF Hsrc false ops None (osc_new N F) eq_refl Hh) as [(o2 & zs & E & st & T)|[_ E]].
  2:{ congruence. }
  assert (o2 = o) by congruence. subst o2.
  destruct st as [[q nw]|]; [|cbn in T; subst o; discriminate].
  destruct T as ([(K & nw' & w' & HO) _] & _). exists K, nw'.
  assert (Ew := oo_wt _ _ _ _ _ _ _ HO). assert (w = w') by congruence. now subst.
Qed.

Lemma always_loop dir K len ps : forall o nw w o' l, OscOk N L F K nw o w -> len = 2 ^ K ->
  okBlock lm (dbg cfg) false dir (o_phase o) ps -> processLoopW N cfg F dir o ps = Ok (o', l) ->
  Forall (fun x => 0 <= fst (snd x) < len /\ 0 <= snd (snd x) < len) l.
Proof.
  induction ps as [|p ps IH]; intros o nw w o' l HO Hl Hp E; cbn [processLoopW] in E.
  - assert (l = []) by congruence. subst l. constructor.
  - apply bind_ok in E. destruct E as ([[o1 y] c] & E1 & E). apply bind_ok in E. destruct E as ([o2 m] & E2 & E).
    assert (l = (y, c) :: m) by congruence. subst l. clear E.
    destruct Hp as [(P1 & P2 & _) Hps].
    assert (Epd : stepOf N dir p (o_phase o) = step32 lm dir (o_phase o) p) by (destruct dir; reflexivity).
    assert (A := one_costs N L cfg F HB (HF' lm F HF) K nw o w HO dir p o1 y c P1). cbv zeta in A.
    rewrite Epd in A. specialize (A P2 E1). destruct A as (HO1 & _ & _ & Eph & M1 & M2 & M3 & a & b & Ha & Hb & Ec & _).
    set (d := magOf N L (step32 lm dir (o_phase o) p)) in *.
    rewrite <- Eph in Hps. constructor; [|eapply (IH o1 nw _ o2 m HO1 Hl Hps E2)].
    assert (HK := K_range N L F K nw o w HO).
    assert (Pw : forall i, 0 <= i <= K -> 2 ^ (K - i) <= len) by (intros; rewrite Hl; apply Z.pow_le_mono_r; lia).
    assert (P0 : 0 < len) by (rewrite Hl; apply Z.pow_pos_nonneg; lia).
    cbn [snd]. rewrite Ec. unfold costs. cbn [fst snd].
    assert (R1 := loopLen_range _ a b Ha Hb). assert (Q1 := Pw (miOf N w d) ltac:(lia)). split; [lia|].
    destruct (negb _) eqn:Eg; [|lia].
    assert (M4 : muOf N w d < K - 1).
    { destruct M3 as [M3|M3]; [exact M3|]. rewrite M3, (teq_zero_refl N L) in Eg. discriminate. }
    assert (H2 : 0 <= a / 2 < 2 ^ (K - muOf N w d) /\ 0 <= b / 2 < 2 ^ (K - muOf N w d)).
    { split; apply (half_idx cfg HB K (miOf N w d) (muOf N w d)); auto; lia. }
    assert (R2 := loopLen_range _ (a / 2) (b / 2) (proj1 H2) (proj2 H2)).
    assert (Q2 := Pw (muOf N w d) ltac:(lia)). lia.
Qed.

Lemma start_holds ops o ys w K n : okHist lm src (dbg cfg) false None ops -> run N src cfg F (osc_new N F) ops = Ok (o, ys) ->
  o_wt o = Some w -> reachable N src (dbg cfg) (rate32 lm) K n w -> plainPhase (prevPhase N o) ->
  holds lm Hlog src cfg F K n o w.
Proof.
  intros Hh Hr Hw Hre Hp. destruct (after_hist ops o ys w Hh Hr Hw) as (K' & nw & HO).
  destruct (reach_ok lm Hlog src (dbg cfg) K n w Hre) as (HK & (nw' & HW) & _).
  assert (HK' := K_range N L F K' nw o w HO).
  assert (E1 := wt_len_ok N K' nw w 0 (oo_W _ _ _ _ _ _ _ HO) ltac:(lia)).
  rewrite (wt_len_ok N K nw' w 0 HW) in E1 by lia.
  assert (K' = K).
  { apply (Z.pow_inj_r 2); [lia|lia|lia|]. rewrite !Z.sub_0_r in E1. congruence. }
  subst K'. split; [exists nw; exact HO|]. split; [exact Hre|exact Hp].
Qed.

Lemma start_cf K n w : reachable N src (dbg cfg) (rate32 lm) K n w -> 1 <= n -> cfInv n (K - 1) (cfState N (wt_cf w)) /\ 2 <= K.
Proof.
  intros Hre Hn. destruct (reach_ok lm Hlog src (dbg cfg) K n w Hre) as (HK & (nw & HW) & _ & En & _ & HC).
  split; [|lia]. destruct (proj1 (CFok_inv N _) (HC Hn)) as [_ X].
  rewrite En, (wo_scale _ _ _ _ HW) in X. exact X.
Qed.
End Work.

(** ** C41.  In any history each of the two loops runs less than once around the table: the cost
    of a sample is below the base waveform length, whatever the phases. *)
Theorem C41_always : forall lm src cfg F ops o ys w len dir ps o' l,
  log2_exact lm -> resamplerOk (B32 lm) src -> (1 <= batch cfg)%nat -> filterShape (B32 lm) F ->
  okHist lm src (dbg cfg) false None ops -> run (B32 lm) src cfg F (osc_new (B32 lm) F) ops = Ok (o, ys) ->
  o_wt o = Some w -> wt_waveformLen (B32 lm) w 0 = Ok len ->
  okBlock lm (dbg cfg) false dir (prevPhase (B32 lm) o) ps ->
  processW (B32 lm) cfg F dir o ps = Ok (o', l) ->
  Forall (fun x => 0 <= fst (snd x) < len /\ 0 <= snd (snd x) < len) l.
Proof.
  intros lm src cfg F ops o ys w len dir ps o' l Hlog Hsrc HB HF Hh Hr Hw Hlen Hb E.
  destruct (after_hist lm Hlog src cfg F HB HF Hsrc ops o ys w Hh Hr Hw) as (K & nw & HO).
  unfold processW in E. apply bind_ok in E. destruct E as ([] & _ & E).
  refine (always_loop lm Hlog cfg F HB HF dir K len ps o nw w o' l HO _ Hb E).
  assert (HK := K_range (B32 lm) (B32_Laws lm Hlog) F K nw o w HO).
  rewrite (wt_len_ok (B32 lm) K nw w 0 (oo_W _ _ _ _ _ _ _ HO)) in Hlen by lia.
  replace (K - 0) with K in Hlen by lia. congruence.
Qed.
Print Assumptions C41_always.

(** the table in use always is one built from a well-formed request of some base length 2^K and
    with some fade of n >= 1 samples *)
Theorem C41_table : forall lm src cfg F strict ops o ys w, log2_exact lm -> (1 <= batch cfg)%nat ->
  okHist lm src (dbg cfg) strict None ops -> run (B32 lm) src cfg F (osc_new (B32 lm) F) ops = Ok (o, ys) ->
  o_wt o = Some w -> exists K n, reachable (B32 lm) src (dbg cfg) (rate32 lm) K n w /\ 1 <= n.
Proof.
  intros lm src cfg F strict ops o ys w Hlog HB Hh Hr Hw.
  exact (held_usable lm Hlog src cfg F HB strict ops o ys w Hh Hr Hw).
Qed.
Print Assumptions C41_table.

(** Settled: once 2n+1 consecutive steps (of either direction) were in the same octave, samples
    with steps in that octave cross at most two boundaries of one entry and none of another --
    whatever the table's size and whatever happened before. *)
Theorem C41_settled : forall lm src cfg F ops o ys w K n dir (ps0 ps : list f32) r o' l,
  log2_exact lm -> resamplerOk (B32 lm) src -> (1 <= batch cfg)%nat -> filterShape (B32 lm) F ->
  okHist lm src (dbg cfg) false None ops -> run (B32 lm) src cfg F (osc_new (B32 lm) F) ops = Ok (o, ys) ->
  o_wt o = Some w -> reachable (B32 lm) src (dbg cfg) (rate32 lm) K n w -> 1 <= n ->
  Forall plainPhase (prevPhase (B32 lm) o :: ps0 ++ ps) ->
  2 * n + 1 <= Z.of_nat (length ps0) ->
  Forall (stepIn K r) (steps32 lm dir (prevPhase (B32 lm) o) (ps0 ++ ps)) ->
  processW (B32 lm) cfg F dir o (ps0 ++ ps) = Ok (o', l) ->
  Forall (fun x => 0 <= fst (snd x) <= 2 /\ snd (snd x) = 0) (skipn (length ps0) l).
Proof.
  intros lm src cfg F ops o ys w K n dir ps0 ps r o' l Hlog Hsrc HB HF Hh Hr Hw Hre Hn Hp H0 Hs E.
  assert (Ho := start_holds lm Hlog src cfg F HB HF Hsrc ops o ys w K n Hh Hr Hw Hre ltac:(inversion Hp; assumption)).
  apply Forall_inv_tail in Hp. apply Forall_app in Hp. destruct Hp as [Hp0 Hp].
  unfold processW in E. apply bind_ok in E. destruct E as ([] & _ & E). change (prevPhase (B32 lm) o) with (o_phase o) in Hs.
  rewrite (steps_app lm) in Hs. apply Forall_app in Hs. destruct Hs as [Hs0 Hs].
  rewrite (loopW_app lm cfg F) in E. apply bind_ok in E. destruct E as ([o1 l1] & E1 & E).
  apply bind_ok in E. destruct E as ([o2 l2] & E2 & E). assert (El : l = l1 ++ l2) by congruence. clear E.
  assert (Ll : length l1 = @length f32 ps0) by exact (loopW_length lm cfg F dir ps0 o o1 l1 E1).
  rewrite El, <- Ll, skipn_app, Nat.sub_diag, skipn_all. cbn [app skipn].
  destruct (lead lm Hlog src cfg F HB HF K n Hn dir ps0 o w r o1 l1 Ho Hp0 Hs0 E1) as (w1 & B1 & B2 & B3 & B4).
  destruct B4 as (B4 & B5 & _); [intros ->; cbn [length Z.of_nat] in H0; lia|].
  rewrite (cfRun_settles n (K - 1)) in B3.
  - rewrite B3 in B4. cbv beta iota in B4. rewrite Z.min_id in B4. rewrite <- B2 in Hs.
    exact (settled_block lm Hlog src cfg F HB HF K n Hn dir ps o1 w1 r o2 l2 B1 B3 B4 B5 Hp Hs E2).
  - exact (proj1 (start_cf lm Hlog src cfg HB K n w Hre Hn)).
  - exact Hn.
  - destruct ps0 as [|p0 ps0]; [cbn [length Z.of_nat] in H0; lia|]. cbn [steps32] in Hs0. apply Forall_inv in Hs0.
    destruct Hs0 as (_ & _ & (R & _)). lia.
  - exact H0.
Qed.
Print Assumptions C41_settled.

(** The README's rule, forward: after settling in octave r, as long as the octave of the step
    moves by at most one at a time, with more than n samples between changes, a sample crosses
    at most four boundaries of the lower entry and two of the upper. *)
Theorem C41_readme : forall lm src cfg F ops o ys w K n (ps0 ps : list f32) r rs o' l,
  log2_exact lm -> resamplerOk (B32 lm) src -> (1 <= batch cfg)%nat -> filterShape (B32 lm) F ->
  okHist lm src (dbg cfg) false None ops -> run (B32 lm) src cfg F (osc_new (B32 lm) F) ops = Ok (o, ys) ->
  o_wt o = Some w -> reachable (B32 lm) src (dbg cfg) (rate32 lm) K n w -> 1 <= n ->
  Forall plainPhase (prevPhase (B32 lm) o :: ps0 ++ ps) ->
  2 * n + 1 <= Z.of_nat (length ps0) ->
  Forall (stepIn K r) (steps32 lm kForward (prevPhase (B32 lm) o) ps0) ->
  Forall2 (fun d i => stepIn K i d) (steps32 lm kForward (last ps0 (prevPhase (B32 lm) o)) ps) rs ->
  octaveRule n (r :: rs) ->
  processW (B32 lm) cfg F kForward o (ps0 ++ ps) = Ok (o', l) ->
  Forall (fun x => 0 <= fst (snd x) <= 4 /\ 0 <= snd (snd x) <= 2) (skipn (length ps0) l).
Proof.
  intros lm src cfg F ops o ys w K n ps0 ps r rs o' l Hlog Hsrc HB HF Hh Hr Hw Hre Hn Hp H0 Hs0 Hs Hrule E.
  assert (Ho := start_holds lm Hlog src cfg F HB HF Hsrc ops o ys w K n Hh Hr Hw Hre ltac:(inversion Hp; assumption)).
  apply Forall_inv_tail in Hp. apply Forall_app in Hp. destruct Hp as [Hp0 Hp].
  unfold processW in E. apply bind_ok in E. destruct E as ([] & _ & E). change (prevPhase (B32 lm) o) with (o_phase o) in *.
  rewrite (loopW_app lm cfg F) in E. apply bind_ok in E. destruct E as ([o1 l1] & E1 & E).
  apply bind_ok in E. destruct E as ([o2 l2] & E2 & E). assert (El : l = l1 ++ l2) by congruence. clear E.
  assert (Ll : length l1 = @length f32 ps0) by exact (loopW_length lm cfg F kForward ps0 o o1 l1 E1).
  rewrite El, <- Ll, skipn_app, Nat.sub_diag, skipn_all. cbn [app skipn].
  destruct (lead lm Hlog src cfg F HB HF K n Hn kForward ps0 o w r o1 l1 Ho Hp0 Hs0 E1) as (w1 & B1 & B2 & B3 & B4).
  destruct B4 as (B4 & B5 & B6); [intros ->; cbn [length Z.of_nat] in H0; lia|].
  rewrite (cfRun_settles n (K - 1)) in B3.
  - rewrite <- B2 in Hs. apply (rule_calm n r rs ltac:(lia)) in Hrule.
    refine (rule_block lm Hlog src cfg F HB HF K n Hn ps o1 w1 0 r rs o2 l2 B1 ltac:(lia) _ Hrule B4 (B6 eq_refl) Hp Hs E2).
    rewrite B3. cbn [calmState]. repeat split; intros; lia.
  - exact (proj1 (start_cf lm Hlog src cfg HB K n w Hre Hn)).
  - exact Hn.
  - destruct ps0 as [|p0 ps0]; [cbn [length Z.of_nat] in H0; lia|]. cbn [steps32] in Hs0. apply Forall_inv in Hs0.
    destruct Hs0 as (_ & _ & (R & _)). lia.
  - exact H0.
Qed.
Print Assumptions C41_readme.

(** ** Concrete cases.  One waveform of 16 samples (entries of 16, 8 and 4), fade of one sample *)
Definition startOps (w : WT FN) (p d : T FN) : list (Op FN) := [OpInit FN (Some w) p d].
Definition workTable (dbg : bool) : res (option (WT FN)) := wt_build FN (demo_src FN) dbg demo16 1 sr48 (fl 1 40000).

(** A loaded oscillator meeting the hypotheses on the history *)
Lemma work_start (p d : T FN) : okInit true true p d ->
  exists w0 o w, workTable true = Ok (Some w0) /\ okHist demo_libm (demo_src FN) true false None (startOps w0 p d) /\
    run FN (demo_src FN) (mkCfg true 4) (filt FN kType2) (osc_new FN (filt FN kType2)) (startOps w0 p d) = Ok (o, []) /\
    o_wt o = Some w /\ reachable FN (demo_src FN) true (rate32 demo_libm) 4 1 w /\ prevPhase FN o = p.
Proof.
  intros Hi.
  assert (Hb : match workTable true with Ok (Some _) => true | _ => false end = true) by (vm_compute; reflexivity).
  destruct (workTable true) as [[w0|]|] eqn:E; [|discriminate|discriminate]. clear Hb.
  assert (Hre : reachable FN (demo_src FN) true (rate32 demo_libm) 4 1 w0).
  { eapply (r_build FN _ _ _ _ demo16 1 sr48 (fl 1 40000)); try exact E; try lia.
    - reflexivity.
    - unfold int_max; lia.
    - exact (CF_rate _).
    - vm_compute; reflexivity. }
  exists w0.
  assert (Hh : okHist demo_libm (demo_src FN) true true None (startOps w0 p d)).
  { split; [exists 4, 1; split; [exact Hre|lia]|]. split; [exact Hi|exact I]. }
  assert (Hh' : okHist demo_libm (demo_src FN) true false None (startOps w0 p d)).
  { split; [exists 4, 1; split; [exact Hre|lia]|]. split; [|exact I].
    destruct Hi as (A & B & C & D). split; [exact A|]. split; [exact B|]. split; [exact C|discriminate]. }
  assert (Hsrc : resamplerOk FN (demo_src FN)) by apply C02_case.
  assert (Hfs : filterShape FN (filt FN kType2)) by (repeat split; reflexivity).
  destruct (hist_safe demo_libm demo_exact (demo_src FN) (mkCfg true 4) (filt FN kType2) ltac:(cbn; lia) Hfs Hsrc true
             (startOps w0 p d) Hh) as [(o & ys & Er)|[H _]]; [|discriminate].
  change (B32 demo_libm) with FN in Er. assert (Er0 := Er). unfold startOps in Er. cbn [run apply osc_init] in Er.
  destruct (resetInternals _ _ _ _ _ _) as [o1|] eqn:E1 in Er; [|discriminate]. cbn [bind] in Er.
  assert (Eo : o = set_wf FN o1 0) by (cbn [bind app] in Er; congruence).
  unfold resetInternals in E1. cbn [o_wt set_wt] in E1. apply bind_ok in E1. destruct E1 as ([] & _ & E1).
  apply bind_ok in E1. destruct E1 as (ph & _ & E1). apply bind_ok in E1. destruct E1 as ([w1 [[[mi g] mu] gu]] & Ef & E1).
  apply bind_ok in E1. destruct E1 as (len & _ & E1). apply bind_ok in E1. destruct E1 as (j & _ & E1).
  assert (Ew : o_wt o1 = Some w1 /\ prevPhase FN o1 = p) by (split; inversion E1; reflexivity).
  assert (Ey : ys = []) by (inversion Er; reflexivity). subst ys.
  exists o, w1. split; [reflexivity|]. split; [exact Hh'|]. split; [exact Er0|].
  subst o. split; [apply Ew|]. split; [eapply r_ask; [exact Hre|exact Ef]|apply Ew].
Qed.

(** the costs of a block played after loading *)
Definition costsOf (dbg : bool) (p d : T FN) (dir : Direction) (ps : list (T FN)) : option (list (Z * Z)) :=
  match workTable dbg with
  | Ok (Some w) =>
      match run FN (demo_src FN) (mkCfg dbg 4) (filt FN kType2) (osc_new FN (filt FN kType2)) (startOps w p d) with
      | Ok (o, _) => match processW FN (mkCfg dbg 4) (filt FN kType2) dir o ps with
                     | Ok (_, l) => Some (map snd l) | _ => None end
      | _ => None end
  | _ => None end.

Lemma costsOf_elim dbg p d dir ps w o c : workTable dbg = Ok (Some w) ->
  run FN (demo_src FN) (mkCfg dbg 4) (filt FN kType2) (osc_new FN (filt FN kType2)) (startOps w p d) = Ok (o, []) ->
  costsOf dbg p d dir ps = Some c ->
  exists o' l, processW FN (mkCfg dbg 4) (filt FN kType2) dir o ps = Ok (o', l) /\ map snd l = c.
Proof.
  intros E Er Hc. unfold costsOf in Hc. rewrite E, Er in Hc.
  destruct (processW _ _ _ _ _ _) as [[o' l]|]; [|discriminate]. exists o', l. split; [reflexivity|congruence].
Qed.

Ltac real := vm_compute; lra.
Ltac plain := split; [split; [vm_compute; reflexivity|split; real]|first [left; real|right; real]].
Ltac instep := split; [real|split; [first [rewrite Rabs_pos_eq by real|rewrite Rabs_left by real]; real
  |split; [lia|split; [first [left; lia|right; first [rewrite Rabs_pos_eq by real|rewrite Rabs_left by real]; real]
    |first [left; lia|right; first [rewrite Rabs_pos_eq by real|rewrite Rabs_left by real]; real]]]]].

(** settling in octave 1 in both directions, then four more samples *)
Definition lead1 : list (T FN) := [fl 1 8; fl 5 16; fl 1 8].
Definition tail1 : list (T FN) := [fl 15 16; fl 3 4; fl 29 32; fl 1 16].
Example C41_settled_case : Forall plainPhase (fl 0 1 :: lead1 ++ tail1) /\
  Forall (stepIn 4 1) (steps32 demo_libm kBidirectionnal (fl 0 1) (lead1 ++ tail1)) /\
  2 * 1 + 1 <= Z.of_nat (length lead1) /\
  costsOf true (fl 0 1) (fl 1 8) kBidirectionnal (lead1 ++ tail1) =
    Some [(2, 0); (2, 0); (2, 0); (2, 0); (2, 0); (2, 0); (1, 0)].
Proof.
  split; [cbn [lead1 tail1 app]; repeat (constructor; [plain|]); constructor|].
  split; [cbn [lead1 tail1 app steps32]; repeat (constructor; [instep|]); constructor|].
  split; [cbn; lia|]. vm_compute. reflexivity.
Qed.

(** the README's rule: octave 1, then 2 for two samples, then 1 again *)
Definition lead2 : list (T FN) := [fl 1 8; fl 1 4; fl 3 8].
Definition tail2 : list (T FN) := [fl 5 8; fl 7 8; fl 0 1; fl 1 8; fl 1 4].
Example C41_readme_case : Forall plainPhase (fl 0 1 :: lead2 ++ tail2) /\
  Forall (stepIn 4 1) (steps32 demo_libm kForward (fl 0 1) lead2) /\
  Forall2 (fun d i => stepIn 4 i d) (steps32 demo_libm kForward (last lead2 (fl 0 1)) tail2) [2; 2; 1; 1; 1] /\
  octaveRule 1 [1; 2; 2; 1; 1; 1] /\ 2 * 1 + 1 <= Z.of_nat (length lead2) /\
  costsOf true (fl 0 1) (fl 1 8) kForward (lead2 ++ tail2) =
    Some [(2, 0); (2, 0); (2, 0); (3, 0); (1, 0); (2, 1); (2, 0); (2, 0)].
Proof.
  split; [cbn [lead2 tail2 app]; repeat (constructor; [plain|]); constructor|].
  split; [cbn [lead2 steps32]; repeat (constructor; [instep|]); constructor|].
  split; [cbn [lead2 tail2 last steps32]; repeat (constructor; [instep|]); constructor|].
  split.
  { split.
    - intros i a b Ha Hb. do 6 (destruct i as [|i]; [cbn in Ha, Hb; inversion Ha; inversion Hb; subst; lia || (vm_compute; lia)|]).
      cbn in Hb. destruct i; discriminate.
    - intros i j a b c e Hij Ha Hb Hab Hc He Hce.
      do 6 (destruct i as [|i]; [cbn in Ha, Hb; inversion Ha; inversion Hb; subst; try lia;
        do 6 (destruct j as [|j]; [cbn in Hc, He; inversion Hc; inversion He; subst; lia|]); cbn in He; destruct j; discriminate|]).
      cbn in Hb. destruct i; discriminate. }
  split; [cbn; lia|]. vm_compute. reflexivity.
Qed.

(** ** Outside the README's rule a sample can cost almost a whole turn of the table although the
    step is tiny: backward in the top octave, then one forward step of 1/64 of a cycle (a
    quarter of a table segment), two octaves below: 14 of 16 boundaries on the lower entry and
    7 of 8 on the upper (a work spike proportional to the table's size). *)
Definition spike : list (T FN) := [fl 1 64; fl 49 64; fl 33 64; fl 17 64; fl 18 64].
Lemma spike_costs : costsOf true (fl 17 64) (fl (-1) 4) kBidirectionnal spike = Some [(2, 0); (1, 0); (1, 0); (1, 0); (14, 7)].
Proof. vm_compute. reflexivity. Qed.
Lemma spike_len : match workTable true with Ok (Some w) => match wt_waveformLen FN w 0 with Ok z => z =? 16 | _ => false end | _ => false end = true.
Proof. vm_compute. reflexivity. Qed.
Lemma spike_init : okInit true true (fl 17 64) (fl (-1) 4).
Proof.
  split; [split; [reflexivity|split; real]|]. split; [reflexivity|]. split; [intros _; real|]. intros _. right. split; real.
Qed.
Lemma spike_block : okBlock demo_libm true true kBidirectionnal (fl 17 64) spike.
Proof.
  cbn [spike okBlock]. repeat match goal with |- _ /\ _ => split end; try exact I; try (vm_compute; reflexivity); try (intros _);
      try real; try (split; real); try (left; real); try (right; split; real).
Qed.
Theorem C41_step_bound_refuted : exists w o ys o' l,
  okHist demo_libm (demo_src FN) true true None (startOps w (fl 17 64) (fl (-1) 4) ++ [OpProcess FN kBidirectionnal spike]) /\
  wt_waveformLen FN w 0 = Ok 16 /\
  run FN (demo_src FN) (mkCfg true 4) (filt FN kType2) (osc_new FN (filt FN kType2)) (startOps w (fl 17 64) (fl (-1) 4)) = Ok (o, ys) /\
  processW FN (mkCfg true 4) (filt FN kType2) kBidirectionnal o spike = Ok (o', l) /\
  map snd l = [(2, 0); (1, 0); (1, 0); (1, 0); (14, 7)] /\
  B2R (step32 demo_libm kBidirectionnal (fl 17 64) (fl 18 64)) = (/ 64)%R.
Proof.
  destruct (work_start (fl 17 64) (fl (-1) 4) spike_init) as (w & o & w1 & E & Hh & Er & _).
  destruct (costsOf_elim _ _ _ _ _ w o _ E Er spike_costs) as (o' & l & Ep & El).
  assert (Hl := spike_len). rewrite E in Hl. destruct (wt_waveformLen FN w 0) as [z|] eqn:Ez; [|discriminate].
  apply Z.eqb_eq in Hl. exists w, o, [], o', l. split.
  { destruct Hh as (Hu & _ & _). split; [exact Hu|]. split; [exact spike_init|]. split; [exact spike_block|exact I]. }
  split; [congruence|]. split; [exact Er|]. split; [exact Ep|]. split; [exact El|]. real.
Qed.
Print Assumptions C41_step_bound_refuted.
