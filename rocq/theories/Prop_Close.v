(** * Prop_Close: properties C50, C51 -- binary32 accuracy and level, for ever

    SpecR describes the ideal: the waveform drawn through the binary32 samples, read at a
    phase moving at constant speed between the binary32 phases, filtered by the exact
    continuous-time filter, with no rounding after the inputs.  These theorems bound, for
    histories of any length, the distance between the samples the binary32 oscillator returns
    and that ideal: rounding errors do not build up. *)
From Coq Require Import ZArith List Bool Reals Lia Lra Arith.
From Flocq Require Import Core IEEE754.BinarySingleNaN.
From Verif Require Import Num Maths CrossFader Wavetable Filters Osc Spec SpecC SpecT RNum B32 B32Facts B32Laws B32Pow Demo
  SpecF SpecO SpecW Prop_Build Prop_CrossFader.
From Coquelicot Require Import Coquelicot.
From Verif Require Import SpecE SpecR PApx PTerm PSum PTrackH PCover32.
Import ListNotations.
Local Open Scope R_scope.

Lemma accurate_is lm : accurateExp lm -> expAccurate lm.
Proof.
  intros H g Hg [a b] [Fa Fb] Ha Hb. cbn [fst snd] in *.
  destruct (H g Hg a b Fa Fb Ha Hb) as (F1 & F2 & D). split; [split; assumption|].
  unfold eps. replace (8 * / 16777216) with (8 / IZR (2 ^ 24)) by (change (IZR (2 ^ 24)) with 16777216; lra).
  exact D.
Qed.

Lemma f2_length {A B} {P : A -> B -> Prop} {l l'} : Forall2 P l l' -> length l = length l'.
Proof. induction 1; cbn [length]; congruence. Qed.

(** one output sample [y] against the ideal one [Y], for samples and slopes up to 2^c *)
Definition within (f : FilterType) (c : Z) (y : f32) (Y : R) : Prop :=
  finite y /\ Rabs (B2R y - Y) <= accuracy f * (bpow radix2 c / IZR (2 ^ 24)).

(** ** C50.  For every history the ideal describes -- any tables, phases, octave moves, fades,
    turns, re-samplings, selections, of any length -- the oscillator runs without a fault and
    each sample it returns is a finite number within accuracy(f) * 2^c / 2^24 of the ideal. *)
Theorem C50_accurate_for_ever : forall lm src cfg f c ops st Ys,
  accurateExp lm -> log2_exact lm -> (1 <= batch cfg)%nat -> (-64 <= c <= 64)%Z ->
  plays32 lm src (Osc.dbg cfg) f c None ops st Ys ->
  exists o ys, Osc.run (B32 lm) src cfg (filt (B32 lm) f) (osc_new (B32 lm) (filt (B32 lm) f)) ops = Ok (o, ys) /\
    Forall2 (within f c) ys Ys.
Proof.
  intros lm src cfg f c ops st Ys Hex Hlog HB Hc Hp.
  destruct (plays_near lm (accurate_is lm Hex) Hlog src cfg HB f c Hc None ops st Ys Hp (osc_new (B32 lm) (filt (B32 lm) f)) I) as (o & ys & E & _ & H).
  exists o, ys. split; [exact E|]. clear E Hp. induction H as [|y Y ys Ys [[F D] _] H IH]; constructor; [|exact IH]. split; [exact F|].
  replace (accuracy f * (bpow radix2 c / IZR (2 ^ 24))) with (outErr f * (eps * bpow radix2 c)); [exact D|].
  unfold eps, Rdiv. change (IZR (2 ^ 24)) with 16777216. change (outErr f) with (accuracy f). ring.
Qed.
Print Assumptions C50_accurate_for_ever.

(** ... which includes forward play obeying the README's rule: a table is built and loaded,
    one fade is spent in the octave of the announced step, and from then on the octave of the
    step moves by at most one at a time, with more than one fade between two moves. *)
Theorem C50_readme_histories : forall lm src cfg f c wfs nw K w sr fade n (p d : f32) r ps rs,
  accurateExp lm -> log2_exact lm -> (1 <= batch cfg)%nat -> (-64 <= c <= 64)%Z ->
  wellFormed (B32 lm) wfs nw K -> rate32 lm sr -> tcast (B32 lm) (tmul (B32 lm) fade sr) = Ok n -> (1 <= n)%Z ->
  wt_build (B32 lm) src (Osc.dbg cfg) wfs nw sr fade = Ok (Some w) -> tameAll lm src c wfs nw K ->
  finite d -> 0 < B2R d -> entryFor K (B2R d) r -> List.Forall plainPhase (p :: ps) ->
  Forall2 (fun s i => stepIn K i s) (steps32 lm kForward p ps) (repeat r (Z.to_nat n) ++ rs) ->
  octaveRule n (r :: rs) ->
  let ops := [OpInit (B32 lm) (Some w) p d; OpProcess (B32 lm) kForward ps] in
  exists st Ys o ys, plays32 lm src (Osc.dbg cfg) f c None ops (Some st) Ys /\
    Osc.run (B32 lm) src cfg (filt (B32 lm) f) (osc_new (B32 lm) (filt (B32 lm) f)) ops = Ok (o, ys) /\
    length ys = length ps /\ Forall2 (within f c) ys Ys.
Proof.
  intros lm src cfg f c wfs nw K w sr fade n p d r ps rs Hex Hlog HB Hc HW Hs Hn Hn1 Hb Ht Fd Hd Hr Hp Hen Hru ops.
  destruct (readme_plays32 lm Hlog src cfg HB f c wfs nw K w sr fade n p d r ps rs HW Hs Hn Hn1 Hb Ht Fd Hd Hr Hp Hen Hru) as (st & Ys & H).
  destruct (C50_accurate_for_ever lm src cfg f c ops (Some st) Ys Hex Hlog HB Hc H) as (o & ys & E & W).
  exists st, Ys, o, ys. split; [exact H|]. split; [exact E|]. split; [|exact W].
  refine (eq_trans (f2_length W) _). refine (eq_trans (plays_len lm src (Osc.dbg cfg) f c None ops (Some st) Ys H) _).
  unfold ops. cbn [blockLen]. apply Nat.add_0_r.
Qed.
Print Assumptions C50_readme_histories.

(** ... and, once settled in an octave, play in any direction within it, turning at will and
    across phase 0. *)
Theorem C50_turning_histories : forall lm src cfg f c wfs nw K w sr fade n (p d : f32) r ps dir ps2,
  accurateExp lm -> log2_exact lm -> (1 <= batch cfg)%nat -> (-64 <= c <= 64)%Z ->
  wellFormed (B32 lm) wfs nw K -> rate32 lm sr -> tcast (B32 lm) (tmul (B32 lm) fade sr) = Ok n -> (1 <= n)%Z ->
  wt_build (B32 lm) src (Osc.dbg cfg) wfs nw sr fade = Ok (Some w) -> tameAll lm src c wfs nw K ->
  finite d -> 0 < B2R d -> entryFor K (B2R d) r -> List.Forall plainPhase (p :: ps ++ ps2) ->
  (n <= Z.of_nat (length ps))%Z -> List.Forall (stepIn K r) (steps32 lm kForward p ps) ->
  List.Forall (stepIn K r) (steps32 lm dir (last ps p) ps2) ->
  let ops := [OpInit (B32 lm) (Some w) p d; OpProcess (B32 lm) kForward ps; OpProcess (B32 lm) dir ps2] in
  exists st Ys o ys, plays32 lm src (Osc.dbg cfg) f c None ops (Some st) Ys /\
    Osc.run (B32 lm) src cfg (filt (B32 lm) f) (osc_new (B32 lm) (filt (B32 lm) f)) ops = Ok (o, ys) /\
    length ys = (length ps + length ps2)%nat /\ Forall2 (within f c) ys Ys.
Proof.
  intros lm src cfg f c wfs nw K w sr fade n p d r ps dir ps2 Hex Hlog HB Hc HW Hs Hn Hn1 Hb Ht Fd Hd Hr Hp Hl Hst Hst2 ops.
  destruct (turns_plays32 lm Hlog src cfg HB f c wfs nw K w sr fade n p d r ps dir ps2 HW Hs Hn Hn1 Hb Ht Fd Hd Hr Hp Hl Hst Hst2) as (st & Ys & H).
  destruct (C50_accurate_for_ever lm src cfg f c ops (Some st) Ys Hex Hlog HB Hc H) as (o & ys & E & W).
  exists st, Ys, o, ys. split; [exact H|]. split; [exact E|]. split; [|exact W].
  refine (eq_trans (f2_length W) _). refine (eq_trans (plays_len lm src (Osc.dbg cfg) f c None ops (Some st) Ys H) _).
  unfold ops. cbn [blockLen]. f_equal. apply Nat.add_0_r.
Qed.
Print Assumptions C50_turning_histories.

(** ** C51.  In those histories no sample, ideal or returned, is ever louder than loudest(f)
    (resp. loudest(f) + 0.001) times 2^c. *)
Theorem C51_level : forall lm src cfg f c ops st Ys,
  accurateExp lm -> log2_exact lm -> (1 <= batch cfg)%nat -> (-64 <= c <= 64)%Z ->
  plays32 lm src (Osc.dbg cfg) f c None ops st Ys ->
  List.Forall (fun Y => Rabs Y <= loudest f * bpow radix2 c) Ys /\
  forall o ys, Osc.run (B32 lm) src cfg (filt (B32 lm) f) (osc_new (B32 lm) (filt (B32 lm) f)) ops = Ok (o, ys) ->
    List.Forall (fun y => finite y /\ Rabs (B2R y) <= (loudest f + 0.001) * bpow radix2 c) ys.
Proof.
  intros lm src cfg f c ops st Ys Hex Hlog HB Hc Hp.
  destruct (plays_near lm (accurate_is lm Hex) Hlog src cfg HB f c Hc None ops st Ys Hp (osc_new (B32 lm) (filt (B32 lm) f)) I) as (o & ys & E & _ & H).
  assert (SP := bpow_gt_0 radix2 c).
  split.
  - clear - H. induction H as [|y Y ys Ys [_ A] H IH]; constructor; [exact A|exact IH].
  - intros o' ys' E'. rewrite E in E'. assert (ys' = ys) by congruence. subst ys'. clear - H SP.
    induction H as [|y Y ys Ys [[F D] A] H IH]; constructor; [|exact IH]. split; [exact F|].
    assert (Hb : outErr f * (eps * bpow radix2 c) <= 0.001 * bpow radix2 c).
    { rewrite <- Rmult_assoc. apply Rmult_le_compat_r; [lra|]. unfold eps. destruct f; cbn [outErr]; lra. }
    change (loudest f) with (outSize f). replace (B2R y) with ((B2R y - Y) + Y) by ring.
    eapply Rle_trans; [apply Rabs_triang|]. change (B2R y) with (v32 y). lra.
Qed.
Print Assumptions C51_level.
