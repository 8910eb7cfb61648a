(** * Prop_Bank: property C67 -- the place of a waveform in its set does not matter *)
From Coq Require Import ZArith List Bool Reals Lia Lra Arith.
From Flocq Require Import Core IEEE754.BinarySingleNaN.
From Verif Require Import Num Maths CrossFader Wavetable Filters Osc Spec SpecC SpecT SpecBank NumFacts Laws
  WTFacts BuildFacts B32 B32Laws Demo SpecF SpecL PLoop PBank Prop_Build Prop_CrossFader.
Import ListNotations.
Local Open Scope Z_scope.

(** ** C67.  Two tables are built at the same rate and with the same fade from two sets of
    waveforms; the sets may share any of their waveforms, in any places.  Load one or the other
    and make the same calls, any number of them -- resets, changes of rate, blocks in both
    directions, selections of shared waveforms, under the number each set has for it: the
    samples are the same, or the same fault occurs. *)
Theorem C67_place : forall lm src cfg F (wfs1 wfs2 : list (T (B32 lm))) nw1 nw2 K (sr fade : f32) w1 w2 i j o p d ops1 ops2,
  log2_exact lm -> resamplerOk (B32 lm) src ->
  wellFormed (B32 lm) wfs1 nw1 K -> wellFormed (B32 lm) wfs2 nw2 K ->
  wt_build (B32 lm) src (dbg cfg) wfs1 nw1 sr fade = Ok (Some w1) ->
  wt_build (B32 lm) src (dbg cfg) wfs2 nw2 sr fade = Ok (Some w2) ->
  sameWave (B32 lm) K wfs1 wfs2 nw1 nw2 i j ->
  Forall2 (moved (B32 lm) (sameWave (B32 lm) K wfs1 wfs2 nw1 nw2)) ops1 ops2 ->
  outputs (B32 lm) (run (B32 lm) src cfg F o (OpInit (B32 lm) (Some w1) p d :: OpSetWaveform (B32 lm) i :: ops1)) =
  outputs (B32 lm) (run (B32 lm) src cfg F o (OpInit (B32 lm) (Some w2) p d :: OpSetWaveform (B32 lm) j :: ops2)).
Proof.
  intros lm src cfg F wfs1 wfs2 nw1 nw2 K sr fade w1 w2 i j o p d ops1 ops2 Hlog Hs (HK & H1 & L1 & M1) (_ & H2 & L2 & M2) B1 B2 HW Hops.
  assert (HJ : forall i j, sameWave (B32 lm) K wfs1 wfs2 nw1 nw2 i j -> 0 <= i < nw1 /\ 0 <= j < nw2) by (intros a b (A & B & _); auto).
  apply (moved_run (B32 lm) src cfg F (B32_Laws lm Hlog) Hs K nw1 nw2 _ HJ); [|exact HW|exact Hops].
  apply (build_agree (B32 lm) src cfg (B32_Laws lm Hlog) K nw1 nw2 _ HJ wfs1 wfs2 sr fade); auto.
  intros a b (_ & _ & E). exact E.
Qed.
Print Assumptions C67_place.

(** ** C67, alone.  Playing waveform [k] of a set is playing it from a table that holds nothing
    else. *)
Theorem C67_alone : forall lm src cfg F (wfs : list (T (B32 lm))) nw K k (sr fade : f32) w w1 o p d ops,
  log2_exact lm -> resamplerOk (B32 lm) src -> wellFormed (B32 lm) wfs nw K -> 0 <= k < nw ->
  wt_build (B32 lm) src (dbg cfg) wfs nw sr fade = Ok (Some w) ->
  wt_build (B32 lm) src (dbg cfg) (waveform (B32 lm) wfs (2 ^ K) k) 1 sr fade = Ok (Some w1) ->
  Forall (plain (B32 lm)) ops ->
  outputs (B32 lm) (run (B32 lm) src cfg F o (OpInit (B32 lm) (Some w) p d :: OpSetWaveform (B32 lm) k :: ops)) =
  outputs (B32 lm) (run (B32 lm) src cfg F o (OpInit (B32 lm) (Some w1) p d :: ops)).
Proof.
  intros lm src cfg F wfs nw K k sr fade w w1 o p d ops Hlog Hs HW Hk B B1 Hops.
  assert (HP : 0 < 2 ^ K) by (apply Z.pow_pos_nonneg; [lia|apply Z.le_trans with 2; [lia|apply HW]]).
  assert (Z1 : zlen (waveform (B32 lm) wfs (2 ^ K) k) = 2 ^ K).
  { destruct HW as (_ & _ & HL & _). unfold waveform, zlen in *. rewrite firstn_length, skipn_length. nia. }
  assert (Z2 : waveform (B32 lm) (waveform (B32 lm) wfs (2 ^ K) k) (2 ^ K) 0 = waveform (B32 lm) wfs (2 ^ K) k).
  { unfold waveform at 1. rewrite Z.mul_0_l. cbn [Z.to_nat skipn]. apply firstn_all2. unfold zlen in Z1. lia. }
  assert (W1 : wellFormed (B32 lm) (waveform (B32 lm) wfs (2 ^ K) k) 1 K).
  { destruct HW as (A1 & A2 & A3 & A4). split; [exact A1|]. split; [lia|]. split; [rewrite Z1; lia|nia]. }
  assert (HM : Forall2 (moved (B32 lm) (sameWave (B32 lm) K wfs (waveform (B32 lm) wfs (2 ^ K) k) nw 1)) ops ops).
  { clear - Hops. induction Hops as [|op ops H _ IH]; constructor; [|exact IH].
    destruct op as [[u|] a b|[u|] a b|a b|z|s|di ps]; try contradiction H; reflexivity. }
  assert (HS : sameWave (B32 lm) K wfs (waveform (B32 lm) wfs (2 ^ K) k) nw 1 k 0) by (split; [lia|]; split; [lia|]; symmetry; exact Z2).
  rewrite (C67_place lm src cfg F wfs _ nw 1 K sr fade w w1 k 0 o p d ops ops Hlog Hs HW W1 B B1 HS HM).
  (* the selection of waveform 0 after init changes nothing *)
  cbn [run apply osc_init]. destruct (resetInternals _ _ _ _ _ _) as [o1|] eqn:E; cbn [bind]; [|reflexivity].
  assert (Ew : exists v, o_wt o1 = Some v).
  { unfold resetInternals in E. cbn [o_wt set_wt is_some] in E.
    apply bind_ok in E. destruct E as ([] & _ & E). apply bind_ok in E. destruct E as (pr & _ & E).
    apply bind_ok in E. destruct E as ([w' [[[mi g] mu] gu]] & Ef & E).
    apply bind_ok in E. destruct E as (len & _ & E). apply bind_ok in E. destruct E as (jj & _ & E).
    inversion E; subst. eexists; reflexivity. }
  destruct Ew as (v & Ev). unfold setWaveform. cbn [o_wt set_wf]. rewrite Ev. cbn [is_some].
  rewrite assert_ok by reflexivity. cbn [bind].
  change (set_wf (B32 lm) (set_wf (B32 lm) o1 0) 0) with (set_wf (B32 lm) o1 0).
  destruct (run (B32 lm) src cfg F (set_wf (B32 lm) o1 0) ops) as [[o2 ys]|]; reflexivity.
Qed.
Print Assumptions C67_alone.

(** ** The hypotheses are met: two sets of eight-sample waveforms that share two, in other
    places, and a history with selections and a change of rate that succeeds on both and gives
    seven samples; and the first set's second waveform alone. *)
Definition bank24 : list f32 := map f32_ofZ [9;9;9;9;-9;-9;-9;-9; 0;-1;-2;-3;-4;-3;-2;-1; 0;1;2;3;4;3;2;1].
Definition bankOps (i j : Z) : list (Op FN) :=
  [OpProcess FN kForward [fl 1 4; fl 1 2; fl 7 8]; OpUpdateSamplerate FN (f32_ofZ 44100); OpSetWaveform FN i;
   OpReset FN (fl 1 2) (fl (-1) 8); OpProcess FN kBidirectionnal [fl 3 8; fl 7 16]; OpSetWaveform FN j;
   OpProcess FN kBidirectionnal [fl 5 16; fl 9 16]].
Definition bankTest : bool :=
  match wt_build FN (demo_src FN) true demo16 2 sr48 (defaultFade FN), wt_build FN (demo_src FN) true bank24 3 sr48 (defaultFade FN) with
  | Ok (Some w1), Ok (Some w2) =>
      let r w i ops := match run FN (demo_src FN) (mkCfg true 4) (filt FN kType2) (osc_new FN (filt FN kType2))
                      (OpInit FN (Some w) (fl 0 1) (fl 4 10) :: OpSetWaveform FN i :: ops) with
                      | Ok (_, ys) => (length ys =? 7)%nat | Fault _ => false end in
      r w1 1 (bankOps 0 1) && r w2 1 (bankOps 2 1)
  | _, _ => false end.
Example C67_place_case : bankTest = true /\ wellFormed FN demo16 2 3 /\ wellFormed FN bank24 3 3 /\
  sameWave FN 3 demo16 bank24 2 3 1 1 /\ Forall2 (moved FN (sameWave FN 3 demo16 bank24 2 3)) (bankOps 0 1) (bankOps 2 1).
Proof.
  split; [vm_compute; reflexivity|].
  split; [repeat split; try lia; try reflexivity; unfold int_max; lia|].
  split; [repeat split; try lia; try reflexivity; unfold int_max; lia|].
  split; [split; [lia|]; split; [lia|]; reflexivity|].
  repeat constructor; lia.
Qed.

Definition aloneOps : list (Op FN) :=
  [OpProcess FN kForward [fl 1 4; fl 1 2; fl 7 8]; OpUpdateSamplerate FN (f32_ofZ 44100);
   OpReset FN (fl 1 2) (fl (-1) 8); OpProcess FN kBidirectionnal [fl 3 8; fl 7 16]].
Definition aloneTest : bool :=
  match wt_build FN (demo_src FN) true demo16 2 sr48 (defaultFade FN),
        wt_build FN (demo_src FN) true (waveform FN demo16 (2 ^ 3) 1) 1 sr48 (defaultFade FN) with
  | Ok (Some w), Ok (Some w1) =>
      let r ops := match run FN (demo_src FN) (mkCfg true 4) (filt FN kType2) (osc_new FN (filt FN kType2)) ops with
                   | Ok (_, ys) => (length ys =? 5)%nat | Fault _ => false end in
      r (OpInit FN (Some w) (fl 0 1) (fl 4 10) :: OpSetWaveform FN 1 :: aloneOps) && r (OpInit FN (Some w1) (fl 0 1) (fl 4 10) :: aloneOps)
  | _, _ => false end.
Example C67_alone_case : aloneTest = true /\ Forall (plain FN) aloneOps.
Proof. split; [vm_compute; reflexivity|]. repeat constructor. Qed.
