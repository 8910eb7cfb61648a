(** * Prop_Linear: property C30 -- the whole library is linear in the samples (exact
    arithmetic) *)
From Coq Require Import ZArith List Bool Reals Lia Lra Arith.
From Flocq Require Import Core.
From Verif Require Import Num Maths CrossFader Wavetable Filters Osc Spec SpecC SpecT NumFacts RNum RLaws Demo.
From Coquelicot Require Import Coquelicot.
From Verif Require Import SpecE SpecX ExactLin PExact.
Import ListNotations.
Local Open Scope R_scope.

(** ** C30.  Take any three scripts of calls that are the same but for the tables they load:
    the first loads tables made of samples xs, the second of samples ys, the third of
    a*xs + b*ys (each with the same number of waveforms, sample rate and fade).  Then all
    three abort alike, or the third's output is a times the first's plus b times the
    second's, sample by sample.  Any filter coefficients, SIMD width, debug or release,
    any phases, any calls in any order (histories that leave the documented domain
    included). *)
Theorem C30_linear : forall src cfg F a b l1 l2 l3,
  linearResampler src -> linScripts src (dbg cfg) a b l1 l2 l3 ->
  match outputs RNum (Osc.run RNum src cfg F (osc_new RNum F) l1),
        outputs RNum (Osc.run RNum src cfg F (osc_new RNum F) l2),
        outputs RNum (Osc.run RNum src cfg F (osc_new RNum F) l3) with
  | Ok o1, Ok o2, Ok o3 => length o1 = length o2 /\ o3 = lincomb a b o1 o2
  | Fault f1, Fault f2, Fault f3 => f1 = f2 /\ f2 = f3
  | _, _, _ => False
  end.
Proof.
  intros src cfg F a b l1 l2 l3 Hs Hl.
  assert (H := run3 src cfg F a b Hs l1 l2 l3 Hl _ _ _ (new3 F a b)).
  unfold R3, outputs in *. change (Osc RNum * list (T RNum))%type with (Osc RNum * list R)%type in *.
  destruct (Osc.run RNum src cfg F (osc_new RNum F) l1) as [[o1 ys1]|],
    (Osc.run RNum src cfg F (osc_new RNum F) l2) as [[o2 ys2]|],
    (Osc.run RNum src cfg F (osc_new RNum F) l3) as [[o3 ys3]|]; cbn in *; try contradiction; auto.
  destruct H as [_ H]. exact (D3_lincomb a b _ _ _ H).
Qed.
Print Assumptions C30_linear.

(** The tables themselves: WavetableData::build accepts the combination exactly when it
    accepts the parts (so the tables [linScripts] speaks of exist), and aborts on it exactly
    when it aborts on the parts. *)
Theorem C30_build : forall src dbg a b xs ys nw sr fade,
  linearResampler src -> length xs = length ys ->
  match wt_build RNum src dbg xs nw sr fade, wt_build RNum src dbg ys nw sr fade,
        wt_build RNum src dbg (lincomb a b xs ys) nw sr fade with
  | Ok (Some w1), Ok (Some w2), Ok (Some w3) => linTables src dbg a b w1 w2 w3
  | Ok None, Ok None, Ok None => True
  | Fault f1, Fault f2, Fault f3 => f1 = f2 /\ f2 = f3
  | _, _, _ => False
  end.
Proof.
  intros src dbg a b xs ys nw sr fade Hs Hl.
  assert (H := build3 src a b Hs dbg xs ys _ nw sr fade (lincomb_D3 a b xs ys Hl)).
  unfold R3 in H.
  destruct (wt_build RNum src dbg xs nw sr fade) as [[w1|]|] eqn:E1,
    (wt_build RNum src dbg ys nw sr fade) as [[w2|]|] eqn:E2,
    (wt_build RNum src dbg (lincomb a b xs ys) nw sr fade) as [[w3|]|] eqn:E3; cbn in *; try contradiction; auto.
  exists xs, ys, nw, sr, fade. auto.
Qed.
Print Assumptions C30_build.

(** ** The hypotheses are met *)
Lemma lincomb_length a b : forall xs ys, length xs = length ys -> length (lincomb a b xs ys) = length xs.
Proof. intros xs ys H. unfold lincomb. rewrite map_length, combine_length. lia. Qed.
Lemma decimate_lin a b r : forall (xs ys : list R) k, length xs = length ys ->
  length (decimate r k xs) = length (decimate r k ys) /\
  decimate r k (lincomb a b xs ys) = lincomb a b (decimate r k xs) (decimate r k ys).
Proof.
  induction xs as [|x xs IH]; intros [|y ys] k H; cbn in H; try discriminate; [split; reflexivity|].
  injection H as H. destruct k as [|k]; cbn [decimate lincomb combine List.map].
  - destruct (IH ys (r - 1)%nat H) as [A B]. split; [cbn; f_equal; exact A|]. cbn. f_equal. exact B.
  - apply (IH ys k H).
Qed.
(** the decimating resampler is linear *)
Example demo_linear : linearResampler (demo_src RNum).
Proof.
  intros a b xs ys ratio cap H ox oy oz. unfold ox, oy, oz, demo_src. cbn [so_err so_used so_gen so_data].
  destruct (decimate_lin a b (Z.to_nat ratio) xs ys 0%nat H) as [A B].
  assert (L := lincomb_length a b xs ys H).
  unfold zlen. change (T RNum) with R in *. rewrite L, H. auto 10.
Qed.

(** a sine-like and a triangle-like table, and the difference of twice the one and thrice the
    other: played from the same phases, with a swap to another such table half-way and a
    sample-rate change *)
Example ex_linear : forall (dbg : bool), exists w1 w2 w3 ops1 ops2 ops3,
  wt_build RNum (demo_src RNum) dbg demoWave 1 1 1 = Ok (Some w1) /\
  wt_build RNum (demo_src RNum) dbg [0;1;2;3;4;3;2;1] 1 1 1 = Ok (Some w2) /\
  linTables (demo_src RNum) dbg 2 (-3) w1 w2 w3 /\
  linScripts (demo_src RNum) dbg 2 (-3) ops1 ops2 ops3 /\
  ops3 = [OpInit RNum (Some w3) 0 (1/8); OpProcess RNum kForward [1/8; 5/8]; OpUpdateSamplerate RNum 2;
          OpSwap RNum (Some w3) (1/4) (1/8); OpProcess RNum kBidirectionnal [2/8; 1/8]].
Proof.
  intros dbg. destruct (demo_table dbg) as [w1 E1].
  assert (L : length demoWave = length [0;1;2;3;4;3;2;1]) by reflexivity.
  assert (H := C30_build (demo_src RNum) dbg 2 (-3) _ _ 1 1 1 demo_linear L).
  rewrite E1 in H.
  destruct (wt_build RNum (demo_src RNum) dbg [0;1;2;3;4;3;2;1] 1 1 1) as [[w2|]|] eqn:E2; try contradiction.
  destruct (wt_build RNum (demo_src RNum) dbg (lincomb 2 (-3) demoWave _) 1 1 1) as [[w3|]|] eqn:E3; try contradiction.
  exists w1, w2, w3. do 3 eexists. split; [exact E1|]. split; [reflexivity|]. split; [exact H|].
  split; [|reflexivity].
  apply ls_init; [exact H|]. apply ls_other; [exact I|]. apply ls_other; [exact I|].
  apply ls_swap; [exact H|]. apply ls_other; [exact I|]. apply ls_nil.
Qed.
