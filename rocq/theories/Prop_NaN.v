(** * Prop_NaN: properties C39 (repeating a phase) and C40 (NaN is absorbing) *)
From Coq Require Import ZArith List Bool Reals Lia Lra Arith.
From Flocq Require Import Core IEEE754.BinarySingleNaN.
From Verif Require Import Num Maths CrossFader Wavetable Filters Osc Spec B32 B32Laws B32Pow Demo SpecF SpecO SpecC SpecN
  NumFacts Laws OscFacts OscRun OscHist PHist PLoop PNaN PBuild Prop_Build Prop_CrossFader.
Import ListNotations.
Local Open Scope Z_scope.

(** ** C39, debug builds: two equal consecutive phases anywhere in a block -- any oscillator
    with a table, any filter, either direction -- and process does not return; if everything
    up to the first of them went well, what happens is the failed assertion *)
Theorem C39_repeat_debug : forall lm cfg (F : Filt (B32 lm)) dir (o : Osc (B32 lm)) ps (p : T (B32 lm)) qs out,
  dbg cfg = true -> o_wt o <> None -> is_finite (p : f32) = true ->
  length out = length (ps ++ p :: p :: qs) ->
  is_ok (process (B32 lm) cfg F dir o (ps ++ p :: p :: qs) out) = false /\
  (forall out1, length out1 = length (ps ++ [p]) -> is_ok (process (B32 lm) cfg F dir o (ps ++ [p]) out1) = true ->
     process (B32 lm) cfg F dir o (ps ++ p :: p :: qs) out = Fault AssertFail).
Proof. intros lm cfg F dir o ps p qs out. apply repeat_block. Qed.
Print Assumptions C39_repeat_debug.

(** the same when the block starts with the phase the oscillator already stands on *)
Theorem C39_repeat_debug_first : forall lm cfg (F : Filt (B32 lm)) dir (o : Osc (B32 lm)) (p : T (B32 lm)) qs z out,
  dbg cfg = true -> o_wt o <> None -> is_finite (p : f32) = true ->
  is_finite (prevPhase (B32 lm) o : f32) = true -> B2R (p : f32) = B2R (prevPhase (B32 lm) o : f32) ->
  length out = length qs ->
  process (B32 lm) cfg F dir o (p :: qs) (z :: out) = Fault AssertFail.
Proof.
  intros lm cfg F dir o p qs z out D Hw Hp Hq E Hl. unfold process.
  destruct (o_wt o) as [w|] eqn:Ew; [|contradiction]. cbn [is_some]. rewrite assert_ok by reflexivity. cbn [bind].
  rewrite (zlen_eqb _ _ (p :: qs) (z :: out)) by (cbn [length]; lia). rewrite assert_ok by reflexivity. cbn [bind processLoop].
  rewrite (repeat_asserts lm cfg F dir o p); auto. congruence.
Qed.
Print Assumptions C39_repeat_debug_first.

(** ** C39, release builds: an oscillator standing on phase 0 that is given phase 0 again
    either reads out of bounds (C22) or outputs NaN *)
Theorem C39_repeat_release : forall lm src cfg F ops o ys dir (p : f32),
  log2_exact lm -> nanExp lm -> resamplerOk (B32 lm) src -> (1 <= batch cfg)%nat ->
  filterShape (B32 lm) F -> (1 <= length (f_r F))%nat -> dbg cfg = false ->
  okHist lm src (dbg cfg) false None ops ->
  run (B32 lm) src cfg F (osc_new (B32 lm) F) ops = Ok (o, ys) -> o_wt o <> None ->
  B2R (prevPhase (B32 lm) o : f32) = 0%R -> is_finite p = true -> B2R p = 0%R ->
  process (B32 lm) cfg F dir o [p] [t0 (B32 lm)] = Fault OutOfBounds \/
  exists o', process (B32 lm) cfg F dir o [p] [t0 (B32 lm)] = Ok (o', [nan : T (B32 lm)]) /\ someNan lm o'.
Proof.
  intros lm src cfg F ops o ys dir p Hlog He Hsrc HB HF Hn D Hh Hr Hw Hq Hp Hz.
  destruct (hist_state lm Hlog src cfg F HB HF Hsrc false ops o ys Hh Hr Hw) as (((K & nw & w & HO) & _) & _).
  assert (HF2 := HF' lm F HF).
  destruct (process (B32 lm) cfg F dir o [p] [t0 (B32 lm)]) as [[o' yy]|f] eqn:E.
  2:{ left. f_equal.
      assert (Hst : okStep lm (dbg cfg) false dir (prevPhase (B32 lm) o) p).
      { split; [split; [assumption|lra]|]. split; [rewrite D; discriminate|discriminate]. }
      destruct (fault_exactly lm Hlog src cfg F HB HF Hsrc ops o ys dir p Hh Hr Hw Hst) as (_ & w1 & w2 & mi & g & mu & gu & _ & _ & A).
      destruct (_ && _) in A; [congruence|]. destruct A as (o1 & y1 & A). congruence. }
  right. exists o'. unfold process in E. apply bind_ok in E. destruct E as ([] & _ & E). apply bind_ok in E. destruct E as ([] & _ & E).
  cbn [processLoop] in E. apply bind_ok in E. destruct E as ([o1 y] & E1 & E). cbn [bind] in E. inversion E; subst o1 yy. clear E.
  assert (Hp0 : B2R (o_phred o : f32) = 0%R).
  { rewrite <- (oo_phase _ _ _ _ _ _ _ HO). exact Hq. }
  assert (A := zero_again lm Hlog cfg F HB HF2 K nw o w dir p o' y He D HO Hp0 Hp Hz E1).
  assert (S : someNan lm o').
  { apply (allNan_some lm cfg F HB o' A). exact Hn. }
  split; [|exact S]. f_equal. f_equal. f_equal.
  assert (Y := processOne_ok (B32 lm) cfg F (B32_Laws lm Hlog) HB HF2 K nw o w HO dir p).
  cbv zeta in Y. unfold admitted in Y. rewrite D in Y.
  specialize (Y (conj Hp (conj (Req_le 0 (B2R p) (eq_sym Hz)) (eq_ind_r (fun r => (r < 1)%R) Rlt_0_1 Hz))) ltac:(discriminate)).
  destruct (_ && _) in Y; [congruence|]. destruct Y as (o2 & out & iv & E2 & St). rewrite E1 in E2. inversion E2; subst o2 out.
  rewrite (sp_out _ _ _ _ _ _ _ _ _ _ _ _ _ St). destruct S as (c & Hc & _).
  apply (yOut_nan lm _ c Hc). rewrite (proj2 A c Hc). reflexivity.
Qed.
Print Assumptions C39_repeat_release.

(** the README's example: init with the default state, then a block of zeros.  For every
    table and every filter, a release build either faults or outputs only NaN; the first
    sample is never a fault. *)
Theorem C39_readme_release : forall lm src cfg F w dir (zeros : list (T (B32 lm))) z,
  log2_exact lm -> nanExp lm -> resamplerOk (B32 lm) src -> (1 <= batch cfg)%nat ->
  filterShape (B32 lm) F -> (1 <= length (f_r F))%nat -> dbg cfg = false ->
  usable lm src (dbg cfg) w ->
  (forall p, In p (z :: zeros) -> is_finite (p : f32) = true /\ B2R (p : f32) = 0%R) ->
  let start := OpInit (B32 lm) (Some w) (fst (defaultInit (B32 lm))) (snd (defaultInit (B32 lm))) in
  (exists o, run (B32 lm) src cfg F (osc_new (B32 lm) F) [start; OpProcess (B32 lm) dir [z]] = Ok (o, [nan : T (B32 lm)])) /\
  (forall o ys, run (B32 lm) src cfg F (osc_new (B32 lm) F) [start; OpProcess (B32 lm) dir (z :: zeros)] = Ok (o, ys) ->
     length ys = S (length zeros) /\ forall y, In y ys -> y = (nan : T (B32 lm))).
Proof.
  intros lm src cfg F w dir zeros z Hlog He Hsrc HB HF Hn D Hu Hz start.
  assert (HF2 := HF' lm F HF).
  assert (Hi : okInit (dbg cfg) false (fst (defaultInit (B32 lm))) (snd (defaultInit (B32 lm)))).
  { split; [split; [reflexivity|vm_compute; lra]|]. split; [reflexivity|]. split; [rewrite D; discriminate|discriminate]. }
  assert (Hh : okHist lm src (dbg cfg) false None [start]) by (split; [exact Hu|split; [exact Hi|exact I]]).
  destruct (load_fine (B32 lm) (B32_Laws lm Hlog) cfg F HB false (osc_new (B32 lm) F) w _ _ (usable_ok lm Hlog src cfg w Hu) (okInit_ok lm Hlog cfg false _ _ Hi)) as (o1 & E1 & G1).
  destruct (load_track (B32 lm) (B32_Laws lm Hlog) cfg F HB false (osc_new (B32 lm) F) w _ _ o1 (usable_ok lm Hlog src cfg w Hu) (okInit_ok lm Hlog cfg false _ _ Hi) E1) as (_ & P1 & D1 & _).
  set (o := set_wf (B32 lm) o1 0) in *.
  assert (Ea : apply (B32 lm) src cfg F (osc_new (B32 lm) F) start = Ok (o, [])).
  { unfold start. cbn [apply osc_init]. rewrite E1. reflexivity. }
  assert (Er : run (B32 lm) src cfg F (osc_new (B32 lm) F) [start] = Ok (o, [])).
  { cbn [run]. rewrite Ea. reflexivity. }
  assert (Hw : o_wt o <> None).
  { destruct G1 as [(K & nw & w1 & HO) _]. rewrite (oo_wt _ _ _ _ _ _ _ HO). discriminate. }
  assert (Hpz : B2R (prevPhase (B32 lm) o : f32) = 0%R).
  { unfold prevPhase, o. cbn [o_phase set_wf]. rewrite P1. reflexivity. }
  destruct (Hz z (or_introl eq_refl)) as [Hf Hv].
  assert (Hst : okStep lm (dbg cfg) false dir (prevPhase (B32 lm) o) z).
  { split; [split; [assumption|lra]|]. split; [rewrite D; discriminate|discriminate]. }
  assert (Hrun : forall ps, run (B32 lm) src cfg F (osc_new (B32 lm) F) [start; OpProcess (B32 lm) dir ps] =
     let! (o2, ys) := process (B32 lm) cfg F dir o ps (map (fun _ => t0 (B32 lm)) ps) in Ok (o2, ys)).
  { intros ps. change (run (B32 lm) src cfg F (osc_new (B32 lm) F) [start; OpProcess (B32 lm) dir ps]) with
      (let! (o1, ys) := apply (B32 lm) src cfg F (osc_new (B32 lm) F) start in
       let! (o2, zs) := run (B32 lm) src cfg F o1 [OpProcess (B32 lm) dir ps] in Ok (o2, ys ++ zs)).
    rewrite Ea. cbn [bind run apply].
    destruct (process (B32 lm) cfg F dir o ps _) as [[o2 zs]|]; cbn [bind]; [|reflexivity]. now rewrite app_nil_r. }
  (* the first sample *)
  assert (First : exists o', process (B32 lm) cfg F dir o [z] [t0 (B32 lm)] = Ok (o', [nan : T (B32 lm)]) /\ someNan lm o').
  { destruct (C39_repeat_release lm src cfg F [start] o [] dir z) as [Ef|H]; auto. exfalso.
    destruct (fault_exactly lm Hlog src cfg F HB HF Hsrc [start] o [] dir z Hh Er Hw Hst) as (_ & w1 & w2 & mi & g & mu & gu & _ & _ & A).
    rewrite Rle_bool_false in A.
    - cbn [andb] in A. destruct A as (o2 & y2 & A). congruence.
    - unfold prevPhaseDiff, o. cbn [o_pd set_wf]. rewrite D1. vm_compute. lra. }
  destruct First as (o2 & F1 & F2).
  split.
  - exists o2. rewrite Hrun. cbn [map]. rewrite F1. reflexivity.
  - intros of ys E.  rewrite Hrun in E. cbn [map] in E.
    change (z :: zeros) with ([z] ++ zeros) in E.
    change (t0 (B32 lm) :: map (fun _ => t0 (B32 lm)) zeros) with ([t0 (B32 lm)] ++ map (fun _ => t0 (B32 lm)) zeros) in E.
    rewrite process_app in E by (rewrite ?map_length; reflexivity). rewrite F1 in E. cbn [bind] in E.
    apply bind_ok in E. destruct E as ([o3 y3] & E & Eq). injection Eq as <- <-.
    apply bind_ok in E. destruct E as ([o4 y4] & E & Eq). injection Eq as <- <-.
    unfold process in E. apply bind_ok in E. destruct E as ([] & _ & E). apply bind_ok in E. destruct E as ([] & _ & E).
    assert (F1' := F1). unfold process in F1'. apply bind_ok in F1'. destruct F1' as ([] & _ & F1'). apply bind_ok in F1'. destruct F1' as ([] & _ & F1').
    assert (Hb0 : blockPre (B32 lm) (B32_Laws lm Hlog) cfg false dir (o_phase o) [z]).
    { apply (okBlock_ok lm Hlog). split; [exact Hst|exact I]. }
    destruct (processLoop_track (B32 lm) (B32_Laws lm Hlog) cfg F HB HF2 false dir [z] o [t0 (B32 lm)] o2 [nan : T (B32 lm)] G1 Hb0 eq_refl F1') as (G2 & P2 & _).
    assert (Hb : blockPre (B32 lm) (B32_Laws lm Hlog) cfg false dir (o_phase o2) zeros).
    { apply (okBlock_ok lm Hlog). generalize (o_phase o2). clear - Hz D.
      assert (A : forall p, In p zeros -> is_finite (p : f32) = true /\ B2R (p : f32) = 0%R) by (intros p Hp; apply Hz; now right).
      clear Hz. induction zeros as [|p ps IH]; intros q; [exact I|]. split; [|apply IH; intros r Hr; apply A; now right].
      destruct (A p (or_introl eq_refl)) as [A1 A2]. split; [split; [exact A1|lra]|]. split; [rewrite D; discriminate|discriminate]. }
    destruct (loop_nan lm Hlog cfg F HB HF2 false dir zeros o2 _ o4 y4 G2 Hb (map_length _ _) E F2) as (_ & Hy).
    destruct (loop_shape (B32 lm) cfg F dir zeros o2 _ o4 y4 E (map_length _ _)) as (Ly & _).
    split; [cbn [app length]; lia|]. intros y [<-|Hin]; [reflexivity|now apply Hy].
Qed.
Print Assumptions C39_readme_release.

(** ** C40.  From a state reached by any history in which some filter state is NaN, every
    sample output is NaN, whatever is played, whichever waveform is selected and whatever
    sample rate is set, and the state stays NaN ... *)
Theorem C40_nan_absorbing : forall lm src cfg F before o ys after o' zs,
  log2_exact lm -> resamplerOk (B32 lm) src -> (1 <= batch cfg)%nat -> filterShape (B32 lm) F ->
  okHist lm src (dbg cfg) false None before ->
  run (B32 lm) src cfg F (osc_new (B32 lm) F) before = Ok (o, ys) -> o_wt o <> None -> someNan lm o ->
  okHist lm src (dbg cfg) false
    (Some (prevPhase (B32 lm) o, match osc_numWaveforms (B32 lm) o with Ok k => k | Fault _ => 0 end)) after ->
  Forall (keepsMemory lm) after ->
  run (B32 lm) src cfg F o after = Ok (o', zs) ->
  someNan lm o' /\ forall z, In z zs -> z = (nan : T (B32 lm)).
Proof.
  intros lm src cfg F before o ys after o' zs Hlog Hsrc HB HF Hb Hr Hw Hn Ha Hk E.
  apply (hist_nan lm Hlog src cfg F HB HF Hsrc after (Some (o_phase o, nwOf (B32 lm) o)) o o' zs); auto.
  - exact (hist_state lm Hlog src cfg F HB HF Hsrc false before o ys Hb Hr Hw).
  - discriminate.
  - unfold nwOf. unfold osc_numWaveforms in Ha. destruct (o_wt o); [exact Ha|contradiction].
Qed.
Print Assumptions C40_nan_absorbing.

(** ... until resetInternals, init or swapWavetable: what follows is what follows on an
    oscillator that never saw a NaN (no hypothesis on either oscillator's filter state) *)
Theorem C40_reset_recovers : forall lm src cfg F (o clean : Osc (B32 lm)) p d ops,
  o_wt o = o_wt clean -> crtWaveform (B32 lm) o = crtWaveform (B32 lm) clean ->
  outputs (B32 lm) (run (B32 lm) src cfg F o (OpReset (B32 lm) p d :: ops)) =
  outputs (B32 lm) (run (B32 lm) src cfg F clean (OpReset (B32 lm) p d :: ops)).
Proof. intros. now apply reset_forgets. Qed.
Print Assumptions C40_reset_recovers.
Theorem C40_load_recovers : forall lm src cfg F (o clean : Osc (B32 lm)) w p d ops (swap : bool),
  let op := if swap then OpSwap (B32 lm) (Some w) p d else OpInit (B32 lm) (Some w) p d in
  outputs (B32 lm) (run (B32 lm) src cfg F o (op :: ops)) = outputs (B32 lm) (run (B32 lm) src cfg F clean (op :: ops)).
Proof. intros. apply load_forgets. Qed.
Print Assumptions C40_load_recovers.

(** ** Concrete cases: the README block on a built table, release build: all NaN, then still
    NaN when moving again, then clean after a reset. *)
Definition nan_libm : Libm := mkLibm demo_log2
  (fun z => match z with (B754_nan, B754_nan) => (nan, nan) | _ => demo_exp z end)
  (fun z => match z with (B754_nan, B754_nan) => (nan, nan) | _ => demo_exp z end) true (fun _ => 0%Z) (fun _ => SLeaf 1) (fun s => Z.even s).
Notation NN := (B32 nan_libm).
Definition readmeOps (w : WT NN) (more : bool) : list (Op NN) :=
  [OpInit NN (Some w) (fst (defaultInit NN)) (snd (defaultInit NN)); OpProcess NN kBidirectionnal [t0 NN; t0 NN; t0 NN]] ++
  if more then [OpReset NN (t0 NN) (tfrac NN 4 10); OpProcess NN kBidirectionnal [tfrac NN 1 4]] else [].
Definition isNan (x : f32) : bool := match x with B754_nan => true | _ => false end.
Example C39_readme_case : forall f,
  match wt_build NN (demo_src NN) false (map f32_ofZ [0; 1; 2; 3; 4; 3; 2; 1]) 1 (f32_ofZ 48000) (defaultFade NN) with
  | Ok (Some w) =>
      match run NN (demo_src NN) (mkCfg false 4) (filt NN f) (osc_new NN (filt NN f)) (readmeOps w true) with
      | Ok (_, [a; b; c; d]) => isNan a && isNan b && isNan c && negb (isNan d)
      | _ => false
      end
  | _ => false
  end = true.
Proof. intros []; vm_compute; reflexivity. Qed.
Example C39_nanExp_case : nanExp nan_libm /\ forall f, (1 <= length (f_r (filt NN f)))%nat.
Proof. split; [split; reflexivity|]. intros []; cbn; lia. Qed.
Example C40_case : forall f,
  match wt_build NN (demo_src NN) false (map f32_ofZ [0; 1; 2; 3; 4; 3; 2; 1]) 1 (f32_ofZ 48000) (defaultFade NN) with
  | Ok (Some w) =>
      match run NN (demo_src NN) (mkCfg false 4) (filt NN f) (osc_new NN (filt NN f)) (readmeOps w false) with
      | Ok (o, _) => existsb (fun c => isNan (fst c)) (o_y o)
      | _ => false
      end
  | _ => false
  end = true.
Proof. intros []; vm_compute; reflexivity. Qed.
