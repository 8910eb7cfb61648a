(** * Prop_Robust: property C63 -- slightly different phases and samples give slightly
    different output *)
From Coq Require Import ZArith List Bool Reals Lia Lra Arith.
From Flocq Require Import Core IEEE754.BinarySingleNaN.
From Verif Require Import Num Maths CrossFader Wavetable Filters Osc Spec SpecC SpecT NumFacts Laws CFFacts
  WTFacts BuildFacts OscHist B32 B32Facts B32Laws CFHist PLoop PTables RNum RLaws Demo.
From Coquelicot Require Import Coquelicot.
From Verif Require Import SpecE SpecX SpecU ExactMath ExactStep ExactRun ExactHist ExactCover ExactSig ExactLaws PExact PRobust Prop_Exact.
Import ListNotations.
Local Open Scope R_scope.

(** ** C63.  Two programs make the same calls, with phases at most [eps] of a cycle apart,
    steps in the same octaves, and tables whose entries differ by at most [delta]; no
    waveform of the first is steeper than [S] per cycle.  Then the two outputs never differ
    by more than (S eps + delta) times the filter's gain bound: errors do not accumulate,
    however long they play and whatever the calls are. *)
Theorem C63_slightly_off : forall src cfg F ops ops' st st' ys ys' eps delta S,
  (1 <= batch cfg)%nat -> exactFilter F -> stable F ->
  0 <= eps < /8 -> 0 <= delta -> 0 <= S ->
  nearScripts src (dbg cfg) eps delta S 0 0 ops ops' ->
  plays src (dbg cfg) F None ops st ys -> plays src (dbg cfg) F None ops' st' ys' ->
  outputs RNum (Osc.run RNum src cfg F (osc_new RNum F) ops) = Ok ys /\
  outputs RNum (Osc.run RNum src cfg F (osc_new RNum F) ops') = Ok ys' /\
  Forall2 (fun y y' => Rabs (y' - y) <= (S * eps + delta) * gainBound F) ys ys'.
Proof.
  intros src cfg F ops ops' st st' ys ys' eps delta S HB HF HS He Hd H0 Hn P P'.
  split; [eapply plays_outputs; eassumption|]. split; [eapply plays_outputs; eassumption|].
  exact (plays_close src (dbg cfg) F HF HS eps delta S He Hd H0 0 0 ops ops' Hn None None st st' ys ys' I P P').
Qed.
Print Assumptions C63_slightly_off.

(** Without reference to [plays]: every forward history that follows the README's rule.  The
    phases of the second program are at most [eps] off; both programs are heard, and the
    outputs stay together. *)
Theorem C63_readme_histories : forall src cfg f wfs nw K w sr fade n p p' d r ps ps' rs eps S,
  (1 <= batch cfg)%nat ->
  wellFormed RNum wfs nw K -> 0 < sr -> 1 <= fade * sr < IZR int_max -> tcast RNum (fade * sr) = Ok n ->
  wt_build RNum src (dbg cfg) wfs nw sr fade = Ok (Some w) ->
  (forall i k j, (0 <= i < nw)%Z -> (0 <= k <= K - 2)%Z ->
     let ys := mipmap RNum src (waveform RNum wfs (2 ^ K) i) k in
     Rabs (cyc ys (j + 1) - cyc ys j) * IZR (zlen ys) <= S) ->
  0 < d -> entryFor K d r -> sharp p -> sharp p' -> List.Forall sharp ps -> List.Forall sharp ps' ->
  List.Forall (fun s => 0 < s <= /2) (stepsOf kForward p ps) ->
  List.Forall (fun s => 0 < s <= /2) (stepsOf kForward p' ps') ->
  Forall2 (entryFor K) (stepsOf kForward p ps) (repeat r (Z.to_nat n) ++ rs) -> octaveRule n (r :: rs) ->
  0 <= eps < /8 -> Forall2 (nearPhase eps) (p :: ps) (p' :: ps') ->
  Forall2 sameOctave (stepsOf kForward p ps) (stepsOf kForward p' ps') ->
  exists ys ys',
    outputs RNum (Osc.run RNum src cfg (filt RNum f) (osc_new RNum (filt RNum f))
      [OpInit RNum (Some w) p d; OpProcess RNum kForward ps]) = Ok ys /\
    outputs RNum (Osc.run RNum src cfg (filt RNum f) (osc_new RNum (filt RNum f))
      [OpInit RNum (Some w) p' d; OpProcess RNum kForward ps']) = Ok ys' /\
    length ys = length ps /\
    Forall2 (fun y y' => Rabs (y' - y) <= S * eps * gainBound (filt RNum f)) ys ys'.
Proof.
  intros src cfg f wfs nw K w sr fade n p p' d r ps ps' rs eps S HB HW Hs Hf Hn Hb Hst Hd Hr Hp Hp' Hsh Hsh' Hps Hps' Hen Hru He Hnear Hoc.
  assert (HF := shipped_exact f).
  assert (Hen' : Forall2 (entryFor K) (stepsOf kForward p' ps') (repeat r (Z.to_nat n) ++ rs)).
  { revert Hoc Hps Hps' Hen. generalize (stepsOf kForward p ps) as l. generalize (stepsOf kForward p' ps') as l'.
    generalize (repeat r (Z.to_nat n) ++ rs) as q. clear - HW.
    intros q l' l H. revert q. induction H as [|x y l l' Hxy H IH]; intros q A B E; inversion E; subst; constructor.
    - inversion_clear A. inversion_clear B. destruct HW as (HK & _).
      assert (Q := octave_entry K x y y0 ltac:(lia) Hxy). rewrite !Rabs_pos_eq in Q by lra. auto.
    - inversion_clear A. inversion_clear B. auto. }
  destruct (C23_readme_histories src cfg (filt RNum f) wfs nw K w sr fade n p d r ps rs) as (st & ys & P & E); auto.
  destruct (C23_readme_histories src cfg (filt RNum f) wfs nw K w sr fade n p' d r ps' rs) as (st' & ys' & P' & E'); auto.
  exists ys, ys'. split; [exact E|]. split; [exact E'|]. split.
  { assert (L := plays_length _ _ _ _ _ _ _ P). refine (eq_trans L _). cbn. apply Nat.add_0_r. }
  assert (HS0 : 0 <= S).
  { eapply Rle_trans; [|apply (Hst 0%Z 0%Z 0%Z)]; [|destruct HW as (_ & ? & _); lia|destruct HW; lia].
    apply Rmult_le_pos; [apply Rabs_pos|]. apply IZR_le. unfold zlen. lia. }
  inversion Hnear as [|? ? ? ? Hn1 Hn2]; subst.
  destruct (C63_slightly_off src cfg (filt RNum f) [OpInit RNum (Some w) p d; OpProcess RNum kForward ps]
    [OpInit RNum (Some w) p' d; OpProcess RNum kForward ps'] (Some st) (Some st') ys ys' eps 0 S HB HF (shipped_stable f) He (Rle_refl 0) HS0) as (_ & _ & G); auto.
  - apply ns_init; [|exact Hn1| |].
    + exists wfs, wfs, nw, K, sr, fade. repeat (split; [assumption|]). intros i k j Hi Hk. cbv zeta. split.
      * rewrite Rminus_eq_0, Rabs_R0. lra.
      * now apply Hst.
    + split; [nra|]. exists (mag radix2 d - 1)%Z. replace (mag radix2 d - 1 + 1)%Z with (mag radix2 d : Z) by lia.
      assert (M := bpow_mag_le radix2 d ltac:(lra)). assert (M2 := bpow_mag_gt radix2 d). tauto.
    + apply ns_process; [exact Hn2|exact Hoc|constructor].
  - replace (S * eps + 0) with (S * eps) in G by ring. exact G.
Qed.
Print Assumptions C63_readme_histories.

(** ** The hypotheses are met: the demo table played across phase 0 in two octaves, the second
    program 1/64 of a cycle late or early; one pair of phases lies on the two sides of 0 *)
Lemma sharp64 i : (0 <= i < 64)%Z -> sharp (IZR i / 64).
Proof. intros H. apply (sharp_dyadic 6 i); lia. Qed.
Ltac idx := unfold elem; repeat match goal with |- context [Z.to_nat ?e] => let v := eval vm_compute in (Z.to_nat e) in change (Z.to_nat e) with v end; cbn [nth].
Lemma steep16 : forall i k j, (0 <= i < 1)%Z -> (0 <= k <= 1)%Z ->
  let ys := mipmap RNum (demo_src RNum) (waveform RNum demoWave (2 ^ 3) i) k in
  Rabs (cyc ys (j + 1) - cyc ys j) * IZR (zlen ys) <= 8.
Proof.
  intros i k j Hi Hk. assert (i = 0%Z) by lia. subst i. cbv zeta.
  assert (G : forall ys : list R, (0 < zlen ys)%Z -> (forall i : nat, (Z.of_nat i < zlen ys)%Z ->
      Rabs (elem ys ((Z.of_nat i + 1) mod zlen ys) - elem ys (Z.of_nat i)) * IZR (zlen ys) <= 8) ->
      forall j, Rabs (cyc ys (j + 1) - cyc ys j) * IZR (zlen ys) <= 8).
  { clear. intros ys Hl H j. assert (M := Z.mod_pos_bound j (zlen ys) Hl).
    specialize (H (Z.to_nat (j mod zlen ys))). rewrite Z2Nat.id in H by lia. specialize (H ltac:(lia)).
    unfold cyc. rewrite Z.add_mod_idemp_l in H by lia. exact H. }
  assert (Hk2 : k = 0%Z \/ k = 1%Z) by lia. destruct Hk2 as [-> | ->].
  - apply (G [0; 1; 2; 1; 0; -1; -2; -1]); [reflexivity|]. intros i Hi'. change (zlen [0; 1; 2; 1; 0; -1; -2; -1]) with 8%Z in *.
    apply Rle_trans with (1 * 8); [|lra]. apply Rmult_le_compat_r; [lra|]. apply Rabs_le.
    destruct i as [|[|[|[|[|[|[|[|i]]]]]]]]; [..|lia]; idx; lra.
  - apply (G [0; 2; 0; -2]); [reflexivity|]. intros i Hi'. change (zlen [0; 2; 0; -2]) with 4%Z in *.
    apply Rle_trans with (2 * 4); [|lra]. apply Rmult_le_compat_r; [lra|]. apply Rabs_le.
    destruct i as [|[|[|[|i]]]]; [..|lia]; idx; lra.
Qed.
Ltac sharps64 := repeat (apply List.Forall_cons; [apply sharp64; lia|]); constructor.
Ltac nears := repeat (apply Forall2_cons; [first [exists 0%Z; apply Rabs_le; lra | exists (-1)%Z; apply Rabs_le; lra | exists 1%Z; apply Rabs_le; lra]|]); constructor.
Ltac octave i := split; [lra|exists i; change (bpow radix2 i) with (/ IZR (2 ^ (- i))); change (bpow radix2 (i + 1)) with (/ IZR (2 ^ (- (i + 1)))); cbn -[Rinv Rdiv];
  rewrite !Rabs_pos_eq by lra; lra].
Example C63_case : forall dbg f, exists w ys ys',
  wt_build RNum (demo_src RNum) dbg demoWave 1 1 1 = Ok (Some w) /\
  outputs RNum (Osc.run RNum (demo_src RNum) (mkCfg dbg 4) (filt RNum f) (osc_new RNum (filt RNum f))
    [OpInit RNum (Some w) (0/64) (1/8); OpProcess RNum kForward [10/64; 20/64; 40/64; 63/64; 9/64]]) = Ok ys /\
  outputs RNum (Osc.run RNum (demo_src RNum) (mkCfg dbg 4) (filt RNum f) (osc_new RNum (filt RNum f))
    [OpInit RNum (Some w) (1/64) (1/8); OpProcess RNum kForward [11/64; 19/64; 41/64; 0/64; 9/64]]) = Ok ys' /\
  length ys = 5%nat /\
  Forall2 (fun y y' => Rabs (y' - y) <= 8 * (/ 64) * gainBound (filt RNum f)) ys ys'.
Proof.
  intros dbg f. destruct (demo_table dbg) as [w Ew]. exists w.
  assert (Es : stepsOf kForward (0/64) [10/64; 20/64; 40/64; 63/64; 9/64] = [10/64; 10/64; 20/64; 23/64; 10/64]).
  { steps. repeat rcase. listeq. }
  assert (Es' : stepsOf kForward (1/64) [11/64; 19/64; 41/64; 0/64; 9/64] = [10/64; 8/64; 22/64; 23/64; 9/64]).
  { steps. repeat rcase. listeq. }
  destruct (C63_readme_histories (demo_src RNum) (mkCfg dbg 4) f demoWave 1 3 w 1 1 1 (0/64) (1/64) (1/8) 0
    [10/64; 20/64; 40/64; 63/64; 9/64] [11/64; 19/64; 41/64; 0/64; 9/64] [0; 1; 1; 0]%Z (/ 64) 8) as (ys & ys' & A & B & C0 & D).
  - cbn. lia.
  - exact demo_wellFormed.
  - lra.
  - split; [lra|]. rewrite Rmult_1_l. apply IZR_lt. reflexivity.
  - exact demo_cast.
  - exact Ew.
  - exact steep16.
  - lra.
  - ent.
  - apply sharp64; lia.
  - apply sharp64; lia.
  - sharps64.
  - sharps64.
  - rewrite Es. repeat constructor; lra.
  - rewrite Es'. repeat constructor; lra.
  - rewrite Es. cbn [Z.to_nat Pos.to_nat Pos.iter_op repeat app].
    repeat (apply Forall2_cons; [ent|]); constructor.
  - split.
    + intros i a b H1 H2. destruct i as [|[|[|[|[|i]]]]]; cbn in H1, H2; try discriminate; some.
    + intros i j a b c e Hij H1 H2 Hab H3 H4 Hce.
      assert (j < 4)%nat by (destruct (Nat.lt_ge_cases j 4); [assumption|]; do 4 (destruct j as [|j]; [lia|]); cbn in H4; destruct j; discriminate).
      destruct i as [|[|[|[|i]]]]; [| | | |lia]; cbn in H1, H2; some; try congruence;
      destruct j as [|[|[|[|j]]]]; try lia; cbn in H3, H4; some; congruence.
  - lra.
  - nears.
  - rewrite Es, Es'. repeat (apply Forall2_cons; [first [octave (-3)%Z|octave (-2)%Z]|]); constructor.
  - exists ys, ys'. repeat (split; [assumption|]). assumption.
Qed.
