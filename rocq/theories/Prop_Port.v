(** * Prop_Port: property C61 -- the same program sounds the same on every machine *)
From Coq Require Import ZArith List Bool Reals Lia Lra Arith.
From Flocq Require Import Core IEEE754.BinarySingleNaN.
From Verif Require Import Num Maths CrossFader Wavetable Filters Osc Spec SpecC SpecT NumFacts RNum B32 B32Facts B32Laws B32Pow Demo
  CFHist SpecF SpecO SpecW Prop_Build Prop_CrossFader.
From Coquelicot Require Import Coquelicot.
From Verif Require Import SpecE SpecR ExactCover PApx PTerm PTrackH PCover32 Prop_Close Prop_CloseEx SpecQ PPort.
Import ListNotations.
Local Open Scope R_scope.

Lemma within_alike f c : forall ys1 ys2 Ys, Forall2 (within f c) ys1 Ys -> Forall2 (within f c) ys2 Ys -> Forall2 (alike f c) ys1 ys2.
Proof.
  intros ys1 ys2 Ys H. revert ys2. induction H as [|y1 Y ys1 Ys [F1 D1] _ IH]; intros ys2 H2; inversion H2 as [|y2 ? ys2' ? [F2 D2] H2']; subst;
    constructor; [|now apply IH].
  split; [exact F1|]. split; [exact F2|].
  replace (B2R y1 - B2R y2) with ((B2R y1 - Y) + - (B2R y2 - Y)) by ring.
  eapply Rle_trans; [apply Rabs_triang|]. rewrite Rabs_Ropp. lra.
Qed.

(** ** C61.  Two machines with accurate exponentials -- any math libraries, compilers'
    contractions and summation orders, SIMD widths, debug or release -- and the same resampler
    execute the same calls (tables built from the same samples, resets, selections, blocks of
    phases in both directions) that the ideal of C50 describes.  Then both run without a fault
    and their samples, one by one and for ever, differ by at most
    2 * accuracy(f) * 2^c / 2^24. *)
Theorem C61_portable : forall lm1 lm2 src1 src2 cfg1 cfg2 f c calls ops1 ops2 st Ys,
  accurateExp lm1 -> accurateExp lm2 -> log2_exact lm1 -> log2_exact lm2 ->
  (1 <= batch cfg1)%nat -> (1 <= batch cfg2)%nat -> (-64 <= c <= 64)%Z ->
  sameResampler lm1 lm2 src1 src2 -> ratesOk lm2 calls ->
  realised lm1 src1 (Osc.dbg cfg1) calls ops1 -> realised lm2 src2 (Osc.dbg cfg2) calls ops2 ->
  renders lm1 src1 (Osc.dbg cfg1) f c None calls st Ys ->
  exists o1 ys1 o2 ys2,
    Osc.run (B32 lm1) src1 cfg1 (filt (B32 lm1) f) (osc_new (B32 lm1) (filt (B32 lm1) f)) ops1 = Ok (o1, ys1) /\
    Osc.run (B32 lm2) src2 cfg2 (filt (B32 lm2) f) (osc_new (B32 lm2) (filt (B32 lm2) f)) ops2 = Ok (o2, ys2) /\
    Forall2 (alike f c) ys1 ys2.
Proof.
  intros lm1 lm2 src1 src2 cfg1 cfg2 f c calls ops1 ops2 st Ys X1 X2 G1 G2 B1 B2 Hc Hs Hq R1 R2 H.
  destruct (renders_same lm1 lm2 G1 G2 src1 src2 Hs (Osc.dbg cfg1) (Osc.dbg cfg2) f c calls ops2 R2 Hq None None st Ys I H) as (st2 & H2 & _).
  destruct (C50_accurate_for_ever lm1 src1 cfg1 f c ops1 st Ys X1 G1 B1 Hc (renders_plays lm1 src1 _ f c calls ops1 R1 None st Ys H))
    as (o1 & ys1 & E1 & W1).
  destruct (C50_accurate_for_ever lm2 src2 cfg2 f c ops2 st2 Ys X2 G2 B2 Hc (renders_plays lm2 src2 _ f c calls ops2 R2 None st2 Ys H2))
    as (o2 & ys2 & E2 & W2).
  exists o1, ys1, o2, ys2. split; [exact E1|]. split; [exact E2|]. exact (within_alike f c ys1 ys2 Ys W1 W2).
Qed.
Print Assumptions C61_portable.

(** ... which includes forward play obeying the README's rule (as in C50_readme_histories). *)
Theorem C61_readme : forall lm1 lm2 src1 src2 cfg1 cfg2 f c wfs nw K w1 w2 sr fade n (p d : f32) r ps rs,
  accurateExp lm1 -> accurateExp lm2 -> log2_exact lm1 -> log2_exact lm2 ->
  (1 <= batch cfg1)%nat -> (1 <= batch cfg2)%nat -> (-64 <= c <= 64)%Z ->
  sameResampler lm1 lm2 src1 src2 ->
  wellFormed (B32 lm1) wfs nw K -> rate32 lm1 sr -> rate32 lm2 sr -> tcast (B32 lm1) (tmul (B32 lm1) fade sr) = Ok n -> (1 <= n)%Z ->
  wt_build (B32 lm1) src1 (Osc.dbg cfg1) wfs nw sr fade = Ok (Some w1) ->
  wt_build (B32 lm2) src2 (Osc.dbg cfg2) wfs nw sr fade = Ok (Some w2) -> tameAll lm1 src1 c wfs nw K ->
  finite d -> 0 < B2R d -> entryFor K (B2R d) r -> List.Forall plainPhase (p :: ps) ->
  Forall2 (fun s i => stepIn K i s) (steps32 lm1 kForward p ps) (repeat r (Z.to_nat n) ++ rs) ->
  octaveRule n (r :: rs) ->
  exists o1 ys1 o2 ys2,
    Osc.run (B32 lm1) src1 cfg1 (filt (B32 lm1) f) (osc_new (B32 lm1) (filt (B32 lm1) f))
      [OpInit (B32 lm1) (Some w1) p d; OpProcess (B32 lm1) kForward ps] = Ok (o1, ys1) /\
    Osc.run (B32 lm2) src2 cfg2 (filt (B32 lm2) f) (osc_new (B32 lm2) (filt (B32 lm2) f))
      [OpInit (B32 lm2) (Some w2) p d; OpProcess (B32 lm2) kForward ps] = Ok (o2, ys2) /\
    length ys1 = length ps /\ Forall2 (alike f c) ys1 ys2.
Proof.
  intros lm1 lm2 src1 src2 cfg1 cfg2 f c wfs nw K w1 w2 sr fade n p d r ps rs X1 X2 G1 G2 B1 B2 Hc Hs HW Hr Hr2 Hn Hn1 Hb1 Hb2 Ht Fd Hd He Hp Hen Hru.
  destruct (built_fresh32 lm1 G1 src1 cfg1 B1 f wfs nw K w1 sr fade n p d r HW Hr Hn Hn1 Hb1 ltac:(inversion Hp; assumption) Fd Hd He)
    as (HT & w' & m & g0 & Fr & HT' & En & Hg & Hcs & Hm).
  set (st0 := mkI32 lm1 K nw wfs w' 0 p d m (repeat (RtoC 0) (numCoeffs f))) in *.
  destruct (calm_forward32 lm1 G1 src1 cfg1 B1 f n ps st0 g0 r (repeat r (Z.to_nat n) ++ rs)) as (st' & Ys & B); auto.
  - lia.
  - apply calm_lead; [lia| |lia]. apply rule_calm; [lia|assumption].
  - destruct (C61_portable lm1 lm2 src1 src2 cfg1 cfg2 f c [CallLoad false wfs nw sr fade p d; CallProcess kForward ps]
      [OpInit (B32 lm1) (Some w1) p d; OpProcess (B32 lm1) kForward ps] [OpInit (B32 lm2) (Some w2) p d; OpProcess (B32 lm2) kForward ps]
      (Some st') (Ys ++ [])) as (o1 & ys1 & o2 & ys2 & E1 & E2 & A); auto.
    + constructor; [exact (proj2 (proj2 Hr2))|]. repeat constructor.
    + apply (re_load lm1 src1 _ false wfs nw sr fade p d w1); [exact Hb1|]. repeat constructor.
    + apply (re_load lm2 src2 _ false wfs nw sr fade p d w2); [exact Hb2|]. repeat constructor.
    + eapply rd_load; [exact HW|exact Hr|exact Hn|exact Hn1|exact Hb1|exact Ht|exact Fr|].
      eapply rd_process; [exact B|constructor].
    + exists o1, ys1, o2, ys2. split; [exact E1|]. split; [exact E2|]. split; [|exact A].
      destruct (C50_readme_histories lm1 src1 cfg1 f c wfs nw K w1 sr fade n p d r ps rs X1 G1 B1 Hc HW Hr Hn Hn1 Hb1 Ht Fd Hd He Hp Hen Hru)
        as (_ & _ & o & ys & _ & E & Hl & _).
      rewrite E in E1. assert (Q : ys = ys1) by congruence. rewrite <- Q. exact Hl.
Qed.
Print Assumptions C61_readme.

(** ** The hypotheses are met: a machine with fused products everywhere and sums from the last
    pole to the first, of four lanes, in debug; another without any, of eight lanes, in release;
    the table and phases of C50's example. *)
Definition plain_libm : Libm := mkLibm demo_log2 niceExp niceExp false (fun _ => 0%Z) (fun _ => SLeaf 1) (fun _ => false).
Example C61_case : forall f, exists w1 w2 o1 ys1 o2 ys2,
  accurateExp nice_libm /\ accurateExp plain_libm /\ log2_exact plain_libm /\
  sameResampler nice_libm plain_libm (demo_src (B32 nice_libm)) (demo_src (B32 plain_libm)) /\
  Osc.run (B32 nice_libm) (demo_src _) (mkCfg true 4) (filt _ f) (osc_new _ (filt _ f))
      [OpInit (B32 nice_libm) (Some w1) (fl 0 1) (fl 1 8); OpProcess (B32 nice_libm) kForward path] = Ok (o1, ys1) /\
  Osc.run (B32 plain_libm) (demo_src _) (mkCfg false 8) (filt _ f) (osc_new _ (filt _ f))
      [OpInit (B32 plain_libm) (Some w2) (fl 0 1) (fl 1 8); OpProcess (B32 plain_libm) kForward path] = Ok (o2, ys2) /\
  length ys1 = 8%nat /\ Forall2 (alike f 4) ys1 ys2.
Proof.
  intros f. destruct ramp_built as (w1 & Ew1).
  assert (HS : sameResampler nice_libm plain_libm (demo_src (B32 nice_libm)) (demo_src (B32 plain_libm))) by (intros xs ratio cap; reflexivity).
  assert (X2 : accurateExp plain_libm) by exact nice_exp.
  assert (G2 : log2_exact plain_libm) by exact demo_exact.
  destruct (C02_build_shape plain_libm (demo_src (B32 plain_libm)) false demo16 1 sr48 (fl 1 40000) 4 1) as (w2 & Ew2 & _); auto; try lia.
  - intros inp ratio cap; repeat split.
  - unfold int_max. lia.
  - exact (proj1 (proj2 (proj2 (proj2 (proj2 C02_case))))).
  - destruct (C61_readme nice_libm plain_libm (demo_src NN) (demo_src (B32 plain_libm)) (mkCfg true 4) (mkCfg false 8) f 4 demo16 1 4 w1 w2
      sr48 (fl 1 40000) 1 (fl 0 1) (fl 1 8) 1 path [1;1;2;2;1;1;1]%Z) as (o1 & ys1 & o2 & ys2 & E1 & E2 & Hl & A).
    + exact nice_exp.
    + exact X2.
    + exact nice_log.
    + exact G2.
    + cbn; lia.
    + cbn; lia.
    + lia.
    + exact HS.
    + repeat split; try lia; try reflexivity; unfold int_max; lia.
    + exact (CF_rate _).
    + exact (CF_rate _).
    + vm_compute; reflexivity.
    + lia.
    + exact Ew1.
    + exact Ew2.
    + exact ramp_tame.
    + reflexivity.
    + real.
    + split; [lia|]. split; [right; real|right; real].
    + unfold path. repeat (constructor; [plain|]). constructor.
    + unfold path. cbn [steps32 repeat Z.to_nat app]. repeat (constructor; [instep|]). constructor.
    + split.
      * intros i a b Ha Hb. do 8 (destruct i as [|i]; [cbn in Ha, Hb; inversion Ha; inversion Hb; subst; lia || (vm_compute; lia)|]).
        cbn in Hb. destruct i; discriminate.
      * intros i j a b c e Hij Ha Hb Hab Hc He Hce.
        do 8 (destruct i as [|i]; [cbn in Ha, Hb; inversion Ha; inversion Hb; subst; try lia;
          do 8 (destruct j as [|j]; [cbn in Hc, He; inversion Hc; inversion He; subst; lia|]); cbn in He; destruct j; discriminate|]).
        cbn in Hb. destruct i; discriminate.
    + exists w1, w2, o1, ys1, o2, ys2. split; [exact nice_exp|]. split; [exact X2|]. split; [exact G2|]. split; [exact HS|].
      split; [exact E1|]. split; [exact E2|]. split; [exact Hl|exact A].
Qed.
