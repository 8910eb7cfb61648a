(** * Prop_Calls: properties C17-C20, C34-C36 -- what a sequence of oscillator calls means

    Theorems over [N : Num] hold for every number system, in particular for binary32
    ([B32 lm]).  [run] performs a history of calls, [outputs] keeps the samples. *)
From Coq Require Import ZArith List Bool Reals Lia Lra.
From Flocq Require Import Core IEEE754.BinarySingleNaN.
From Verif Require Import Num Maths CrossFader Wavetable Filters Osc Spec B32 B32Facts B32Laws B32Pow Demo SpecF SpecO SpecC
  PLoop PIso PStep OscHist PHist Prop_Build Prop_CrossFader Prop_Safety.
Import ListNotations.
Local Open Scope Z_scope.

(** ** C17.  After a bidirectional block whose last two phases (the one before the block for
    a block of one) are q and p: the reported step is in [-1/2,1/2], zero iff p = q, and is
    the binary32 difference of the phases up to a whole cycle, without a second rounding. *)
Theorem C17_step_range : forall lm cfg F o ps out o' ys,
  process (B32 lm) cfg F kBidirectionnal o ps out = Ok (o', ys) -> length out = length ps -> ps <> [] ->
  let q := last (removelast ps) (prevPhase (B32 lm) o) : f32 in
  let p := last ps (prevPhase (B32 lm) o) : f32 in
  let d := prevPhaseDiff (B32 lm) o' : f32 in
  phase01 q -> phase01 p ->
  is_finite d = true /\ (- / 2 <= B2R d <= / 2)%R /\ (B2R d = 0%R <-> B2R p = B2R q) /\
  exists k, (k = -1 \/ k = 0 \/ k = 1) /\ B2R d = (toF32 (B2R p - B2R q) + IZR k)%R.
Proof.
  intros lm cfg F o ps out o' ys E Hl Hne q p d Hq Hp. unfold process in E.
  apply NumFacts.bind_ok in E. destruct E as ([] & _ & E). apply NumFacts.bind_ok in E. destruct E as ([] & _ & E).
  destruct (loop_shape (B32 lm) cfg F _ _ _ _ _ _ E Hl) as (_ & _ & _ & D & _).
  assert (Ed : d = stepBetween (B32 lm) kBidirectionnal q p) by (apply D; assumption).
  rewrite Ed. now apply step_range.
Qed.
Print Assumptions C17_step_range.

(** ** C18.  Equal outcomes: same samples, same oscillator, or the same fault. *)
Theorem C18_directions_agree : forall lm cfg F o ps out,
  phase01 (prevPhase (B32 lm) o) -> forwardSteps lm (prevPhase (B32 lm) o) ps ->
  process (B32 lm) cfg F kForward o ps out = process (B32 lm) cfg F kBidirectionnal o ps out.
Proof. exact process_agree. Qed.
Print Assumptions C18_directions_agree.

(** forward steps of 1/4, 1/4, 3/8 (wrapping) and 1/4 *)
Example C18_case : phase01 (fl 1 8) /\ forwardSteps demo_libm (fl 1 8) [fl 3 8; fl 5 8; fl 0 1; fl 1 4].
Proof. repeat split; try reflexivity; vm_compute; lra. Qed.

(** at a wrapping step of exactly half a cycle, from 3/4 to 1/4, they move in opposite
    directions *)
Theorem C18_half_cycle_differs : forall lm cfg F o o1 o2 ys1 ys2,
  prevPhase (B32 lm) o = (fl 3 4 : f32) ->
  process (B32 lm) cfg F kForward o [fl 1 4] [t0 (B32 lm)] = Ok (o1, ys1) ->
  process (B32 lm) cfg F kBidirectionnal o [fl 1 4] [t0 (B32 lm)] = Ok (o2, ys2) ->
  B2R (prevPhaseDiff (B32 lm) o1 : f32) = (/ 2)%R /\ B2R (prevPhaseDiff (B32 lm) o2 : f32) = (- / 2)%R.
Proof.
  intros lm cfg F o o1 o2 ys1 ys2 Hp E1 E2. unfold process in E1, E2.
  apply NumFacts.bind_ok in E1. destruct E1 as ([] & _ & E1). apply NumFacts.bind_ok in E1. destruct E1 as ([] & _ & E1).
  apply NumFacts.bind_ok in E2. destruct E2 as ([] & _ & E2). apply NumFacts.bind_ok in E2. destruct E2 as ([] & _ & E2).
  destruct (loop_shape (B32 lm) cfg F _ _ _ _ _ _ E1 eq_refl) as (_ & _ & _ & D1 & _).
  destruct (loop_shape (B32 lm) cfg F _ _ _ _ _ _ E2 eq_refl) as (_ & _ & _ & D2 & _).
  unfold prevPhaseDiff. rewrite D1, D2 by discriminate. cbn [removelast last]. unfold prevPhase in Hp. rewrite Hp.
  split; vm_compute; lra.
Qed.
Print Assumptions C18_half_cycle_differs.

(** ** C19 *)
Theorem C19_block_size : forall N src cfg F dir o (blocks : list (list (T N))), blocks <> [] ->
  run N src cfg F o (map (OpProcess N dir) blocks) = run N src cfg F o [OpProcess N dir (concat blocks)].
Proof. intros N src cfg F dir o blocks. exact (run_blocks N src cfg F dir blocks o). Qed.
Print Assumptions C19_block_size.

(** ** C20.  One sample per phase; the first k samples are what processing the first k
    phases alone gives; getters; waveform and tables untouched. *)
Theorem C20_one_per_phase : forall N cfg F dir o (ps out : list (T N)) o' ys,
  process N cfg F dir o ps out = Ok (o', ys) -> length out = length ps ->
  length ys = length ps /\
  (forall k, exists ok, process N cfg F dir o (firstn k ps) (firstn k out) = Ok (ok, firstn k ys)) /\
  prevPhase N o' = last ps (prevPhase N o) /\
  (ps <> [] -> prevPhaseDiff N o' =
     stepBetween N dir (last (removelast ps) (prevPhase N o)) (last ps (prevPhase N o))) /\
  crtWaveform N o' = crtWaveform N o /\
  (forall w, o_wt o = Some w -> exists w', o_wt o' = Some w' /\ sameTables N w w').
Proof.
  intros N cfg F dir o ps out o' ys E Hl.
  assert (P := fun k => process_prefix N cfg F dir o ps out o' ys k E Hl).
  unfold process in E.
  apply NumFacts.bind_ok in E. destruct E as ([] & _ & E). apply NumFacts.bind_ok in E. destruct E as ([] & _ & E).
  destruct (loop_shape N cfg F _ _ _ _ _ _ E Hl) as (A & B & C & D & G).
  repeat (split; [assumption|]). exact G.
Qed.
Print Assumptions C20_one_per_phase.

(** ** C34 *)
(** what loading [w] at phase [p] and step [d] leaves behind *)
Definition loaded (N : Num) (F : Filt N) (o' : Osc N) (w : WT N) (p d : T N) : Prop :=
  (exists w', o_wt o' = Some w' /\ sameTables N w w') /\
  crtWaveform N o' = 0 /\ prevPhase N o' = p /\ prevPhaseDiff N o' = d /\
  o_y o' = repeat (c0 N) (length (f_r F)).

Theorem C34_null : forall N cfg F o (p d : T N),
  osc_init N cfg F o None p d = Ok (o, 1) /\ osc_swap N cfg F o None p d = Ok (o, None).
Proof. intros. split; reflexivity. Qed.

Theorem C34_ownership : forall N cfg F o w (p d : T N),
  (forall o' st, osc_init N cfg F o (Some w) p d = Ok (o', st) -> st = 0 /\ loaded N F o' w p d) /\
  (forall o' r, osc_swap N cfg F o (Some w) p d = Ok (o', r) -> r = o_wt o /\ loaded N F o' w p d).
Proof.
  intros N cfg F o w p d.
  assert (R : forall o1, resetInternals N cfg F (set_wt N o (Some w)) p d = Ok o1 -> loaded N F (set_wf N o1 0) w p d).
  { intros o1 E. unfold resetInternals in E. cbn [o_wt set_wt is_some] in E.
    apply NumFacts.bind_ok in E. destruct E as ([] & _ & E). apply NumFacts.bind_ok in E. destruct E as (pr & _ & E).
    apply NumFacts.bind_ok in E. destruct E as ([w' [[[mi g] mu] gu]] & Ef & E).
    apply NumFacts.bind_ok in E. destruct E as (len & _ & E). apply NumFacts.bind_ok in E. destruct E as (j & _ & E).
    inversion E; subst. split; [exists w'; split; [reflexivity|exact (find_keeps N cfg _ _ _ _ Ef)]|]. repeat split. }
  split; intros o' x H; unfold osc_init, osc_swap in H; apply NumFacts.bind_ok in H; destruct H as (o1 & E & H);
    inversion H; subst; split; auto.
Qed.
Print Assumptions C34_ownership.

(** in binary32 both always succeed, whatever the oscillator's state *)
Theorem C34_always_succeeds : forall lm src cfg F o w (p d : f32), log2_exact lm -> (1 <= batch cfg)%nat ->
  usable lm src (dbg cfg) w -> okInit (dbg cfg) false p d ->
  (exists o', osc_init (B32 lm) cfg F o (Some w) p d = Ok (o', 0)) /\
  (exists o', osc_swap (B32 lm) cfg F o (Some w) p d = Ok (o', o_wt o)).
Proof.
  intros lm src cfg F o w p d Hlog HB Hw Hi.
  assert (A := usable_ok lm Hlog src cfg w Hw). assert (B := okInit_ok lm Hlog cfg false p d Hi).
  destruct (init_fine _ (B32_Laws lm Hlog) cfg F HB false o w p d A B) as (o1 & E1 & _).
  destruct (swap_fine _ (B32_Laws lm Hlog) cfg F HB false o w p d A B) as (o2 & E2 & _). eauto.
Qed.
Print Assumptions C34_always_succeeds.

(** ** C35.  Two oscillators with the same table (cross-fader included) and waveform, whatever
    their past: after resetInternals every later call gives the same samples or the same
    fault.  Loading a table forgets even more. *)
Theorem C35_reset_forgets : forall N src cfg F o1 o2 (p d : T N) ops,
  o_wt o1 = o_wt o2 -> crtWaveform N o1 = crtWaveform N o2 ->
  outputs N (run N src cfg F o1 (OpReset N p d :: ops)) = outputs N (run N src cfg F o2 (OpReset N p d :: ops)).
Proof. exact reset_forgets. Qed.
Print Assumptions C35_reset_forgets.

Theorem C35_load_forgets : forall N src cfg F o1 o2 w (p d : T N) ops,
  outputs N (run N src cfg F o1 (OpInit N (Some w) p d :: ops)) = outputs N (run N src cfg F o2 (OpInit N (Some w) p d :: ops)) /\
  outputs N (run N src cfg F o1 (OpSwap N (Some w) p d :: ops)) = outputs N (run N src cfg F o2 (OpSwap N (Some w) p d :: ops)).
Proof.
  intros. split; [exact (load_forgets N src cfg F o1 o2 w p d ops false)|exact (load_forgets N src cfg F o1 o2 w p d ops true)].
Qed.
Print Assumptions C35_load_forgets.

(** ** C36.  Tables built from two banks that agree on waveform [k] only: once it is selected,
    every history that stays on it gives the same samples (or the same fault). *)
Theorem C36_waveforms_isolated : forall lm src cfg F (wfs1 wfs2 : list (T (B32 lm))) K nw k (sr fade : f32) w1 w2 o p d ops,
  log2_exact lm -> resamplerOk (B32 lm) src ->
  2 <= K <= 18 -> 1 <= nw -> nw * 2 ^ K <= int_max -> 0 <= k < nw ->
  zlen wfs1 = nw * 2 ^ K -> zlen wfs2 = nw * 2 ^ K ->
  waveform (B32 lm) wfs1 (2 ^ K) k = waveform (B32 lm) wfs2 (2 ^ K) k ->
  wt_build (B32 lm) src (dbg cfg) wfs1 nw sr fade = Ok (Some w1) ->
  wt_build (B32 lm) src (dbg cfg) wfs2 nw sr fade = Ok (Some w2) ->
  Forall (staysOn (B32 lm) k) ops ->
  outputs _ (run (B32 lm) src cfg F o (OpInit _ (Some w1) p d :: OpSetWaveform _ k :: ops)) =
  outputs _ (run (B32 lm) src cfg F o (OpInit _ (Some w2) p d :: OpSetWaveform _ k :: ops)).
Proof.
  intros lm src cfg F wfs1 wfs2 K nw k sr fade w1 w2 o p d ops Hlog Hsrc HK Hnw Hm Hk H1 H2 Hw B1 B2 Hops.
  apply (isolated (B32 lm) src cfg F (B32_Laws lm Hlog) Hsrc K nw k Hk); [|assumption].
  apply (build_agree (B32 lm) src cfg (B32_Laws lm Hlog) K nw k wfs1 wfs2 sr fade); auto; lia.
Qed.
Print Assumptions C36_waveforms_isolated.

(** setWaveform changes the selection and nothing else, in particular not the filter memory *)
Theorem C36_setWaveform : forall N cfg o k o', setWaveform N cfg o k = Ok o' ->
  crtWaveform N o' = k /\ o_y o' = o_y o /\ o_wt o' = o_wt o /\ prevPhase N o' = prevPhase N o /\
  prevPhaseDiff N o' = prevPhaseDiff N o /\ o_phred o' = o_phred o /\ o_mm o' = o_mm o /\ o_j o' = o_j o.
Proof.
  intros N cfg o k o' E. unfold setWaveform in E. apply NumFacts.bind_ok in E. destruct E as ([] & _ & E).
  inversion E. repeat split.
Qed.
Print Assumptions C36_setWaveform.

(** two banks of two eight-sample waveforms that differ in waveform 0 only; both build, and a
    history on waveform 1 with a change of rate succeeds on both *)
Definition demoB : list (T FN) := map f32_ofZ [9;9;9;9;-9;-9;-9;-9; 0;-1;-2;-3;-4;-3;-2;-1].
Definition isoOps : list (Op FN) :=
  [OpProcess FN kForward [fl 1 4; fl 1 2; fl 7 8]; OpUpdateSamplerate FN (f32_ofZ 44100);
   OpReset FN (fl 1 2) (fl (-1) 8); OpProcess FN kBidirectionnal [fl 3 8; fl 7 16]].
Definition isoTest : bool :=
  match wt_build FN (demo_src FN) true demo16 2 sr48 (defaultFade FN), wt_build FN (demo_src FN) true demoB 2 sr48 (defaultFade FN) with
  | Ok (Some w1), Ok (Some w2) =>
      let r w := is_ok (run FN (demo_src FN) (mkCfg true 4) (filt FN kType2) (osc_new FN (filt FN kType2))
                      (OpInit FN (Some w) (fl 0 1) (fl 4 10) :: OpSetWaveform FN 1 :: isoOps)) in
      r w1 && r w2
  | _, _ => false end.
Example C36_case : isoTest = true /\ Forall (staysOn FN 1) isoOps /\ zlen demoB = 2 * 2 ^ 3 /\
  waveform FN demo16 8 1 = waveform FN demoB 8 1 /\ demo16 <> demoB.
Proof.
  split; [vm_compute; reflexivity|]. split; [repeat constructor|]. split; [reflexivity|]. split; [reflexivity|].
  intros E. assert (E1 : Btrunc (hd (f32_ofZ 7) demo16) = Btrunc (hd (f32_ofZ 7) demoB)) by now rewrite E.
  vm_compute in E1. discriminate.
Qed.
