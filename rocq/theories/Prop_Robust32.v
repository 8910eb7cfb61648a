(** * Prop_Robust32: property C63 in single precision *)
From Coq Require Import ZArith List Bool Reals Lia Lra Arith.
From Flocq Require Import Core IEEE754.BinarySingleNaN.
From Verif Require Import Num Maths CrossFader Wavetable Filters Osc Spec SpecC SpecT RNum B32 B32Facts B32Laws B32Pow Demo
  SpecF SpecO SpecW Prop_Build Prop_CrossFader.
From Coquelicot Require Import Coquelicot.
From Verif Require Import SpecE SpecX SpecH SpecR SpecU PApx PTerm PSum PTrackH PCover32 PExact ConvFacts PGain ExactLaws PFade PRobust PRobust32 Prop_Close Prop_CloseEx.
Import ListNotations.
Local Open Scope R_scope.

(** two returned samples of programs whose phases are [eps] apart: the steepest waveform moves
    by at most 2^c eps, which the filter amplifies by at most loudest(f); to which each
    program adds the rounding of C50 *)
Definition slightlyOff (f : FilterType) (c : Z) (eps : R) (y y' : f32) : Prop :=
  finite y /\ finite y' /\
  Rabs (B2R y' - B2R y) <= (loudest f * eps + 2 * accuracy f / IZR (2 ^ 24)) * bpow radix2 c.

(** ** C63, binary32.  The same calls with the same tables, phases at most [eps] of a cycle apart
    and computed steps in the same octaves: the outputs stay together for ever. *)
Theorem C63_slightly_off32 : forall lm src cfg f c ops ops' st st' Ys Ys' eps,
  accurateExp lm -> log2_exact lm -> (1 <= batch cfg)%nat -> (-64 <= c <= 64)%Z -> 0 <= eps < /8 ->
  nearScripts32 lm eps (f32_ofZ 0) (f32_ofZ 0) ops ops' ->
  plays32 lm src (Osc.dbg cfg) f c None ops st Ys -> plays32 lm src (Osc.dbg cfg) f c None ops' st' Ys' ->
  exists o ys o' ys',
    Osc.run (B32 lm) src cfg (filt (B32 lm) f) (osc_new (B32 lm) (filt (B32 lm) f)) ops = Ok (o, ys) /\
    Osc.run (B32 lm) src cfg (filt (B32 lm) f) (osc_new (B32 lm) (filt (B32 lm) f)) ops' = Ok (o', ys') /\
    Forall2 (slightlyOff f c eps) ys ys'.
Proof.
  intros lm src cfg f c ops ops' st st' Ys Ys' eps Hex Hlog HB Hc He Hn P P'.
  destruct (plays_close3 lm (accurate_is lm Hex) Hlog src (Osc.dbg cfg) f c eps He _ _ ops ops' Hn None None None st st' Ys Ys' I P P')
    as (t & Zs & Pt & Near).
  destruct (C50_accurate_for_ever lm src cfg f c ops st Ys Hex Hlog HB Hc P) as (o & ys & R1 & W1).
  destruct (C50_accurate_for_ever lm src cfg f c ops' t Zs Hex Hlog HB Hc Pt) as (o' & ys' & R2 & W2).
  exists o, ys, o', ys'. split; [exact R1|]. split; [exact R2|]. clear R1 R2 P P' Pt.
  assert (SP := bpow_gt_0 radix2 c).
  assert (Sw : rsum (List.map snd (poleErr f)) <= loudest f) by (unfold rsum; destruct f; cbn [poleErr List.map snd List.fold_right loudest]; lra).
  revert ys ys' W1 W2. induction Near as [|Y Z Ys Zs HYZ Near IH]; intros ys ys' W1 W2; inversion W1 as [|y ? ys0 ? [F1 D1] W1']; inversion W2 as [|y' ? ys0' ? [F2 D2] W2']; subst; constructor; [|now apply IH].
  split; [exact F1|]. split; [exact F2|]. unfold nearby3 in HYZ.
  assert (G : bpow radix2 c * eps * rsum (List.map snd (poleErr f)) <= bpow radix2 c * eps * loudest f).
  { apply Rmult_le_compat_l; [|exact Sw]. apply Rmult_le_pos; lra. }
  replace (B2R y' - B2R y) with ((B2R y' - Z) + (Z - Y) + (Y - B2R y)) by ring.
  eapply Rle_trans; [apply Rabs_triang|]. eapply Rle_trans; [apply Rplus_le_compat_r, Rabs_triang|].
  rewrite (Rabs_minus_sym Y). set (S0 := bpow radix2 c) in *.
  replace ((loudest f * eps + 2 * accuracy f / IZR (2 ^ 24)) * S0) with (accuracy f * (S0 / IZR (2 ^ 24)) + S0 * eps * loudest f + accuracy f * (S0 / IZR (2 ^ 24))) by (unfold Rdiv; ring).
  lra.
Qed.
Print Assumptions C63_slightly_off32.

Lemma octave_self d : d <> 0 -> sameOctave d d.
Proof.
  intros Hd. split; [nra|]. exists (mag radix2 d - 1)%Z. replace (mag radix2 d - 1 + 1)%Z with (mag radix2 d : Z) by lia.
  assert (M := bpow_mag_le radix2 d Hd). assert (M2 := bpow_mag_gt radix2 d). tauto.
Qed.

(** ... without reference to the ideal: forward play by the README's rule. *)
Theorem C63_readme32 : forall lm src cfg f c wfs nw K w sr fade n (p p' d : f32) r ps ps' rs eps,
  accurateExp lm -> log2_exact lm -> (1 <= batch cfg)%nat -> (-64 <= c <= 64)%Z -> 0 <= eps < /8 ->
  wellFormed (B32 lm) wfs nw K -> rate32 lm sr -> tcast (B32 lm) (tmul (B32 lm) fade sr) = Ok n -> (1 <= n)%Z ->
  wt_build (B32 lm) src (Osc.dbg cfg) wfs nw sr fade = Ok (Some w) -> tameAll lm src c wfs nw K ->
  finite d -> 0 < B2R d -> entryFor K (B2R d) r -> List.Forall plainPhase (p :: ps) -> List.Forall plainPhase (p' :: ps') ->
  Forall2 (fun s i => stepIn K i s) (steps32 lm kForward p ps) (repeat r (Z.to_nat n) ++ rs) ->
  octaveRule n (r :: rs) ->
  Forall2 (nearPhase32 eps) (p :: ps) (p' :: ps') ->
  Forall2 sameOctave32 (steps32 lm kForward p ps) (steps32 lm kForward p' ps') ->
  List.Forall (fun s : f32 => Rabs (B2R s) < /2) (steps32 lm kForward p' ps') ->
  exists o ys o' ys',
    Osc.run (B32 lm) src cfg (filt (B32 lm) f) (osc_new (B32 lm) (filt (B32 lm) f))
      [OpInit (B32 lm) (Some w) p d; OpProcess (B32 lm) kForward ps] = Ok (o, ys) /\
    Osc.run (B32 lm) src cfg (filt (B32 lm) f) (osc_new (B32 lm) (filt (B32 lm) f))
      [OpInit (B32 lm) (Some w) p' d; OpProcess (B32 lm) kForward ps'] = Ok (o', ys') /\
    length ys = length ps /\ Forall2 (slightlyOff f c eps) ys ys'.
Proof.
  intros lm src cfg f c wfs nw K w sr fade n p p' d r ps ps' rs eps Hex Hlog HB Hc He HW Hs Hn Hn1 Hb Ht Fd Hd Hr Hp Hp' Hen Hru Hnear Hoc Hhalf.
  assert (HK : (2 <= K)%Z) by (destruct HW; lia).
  assert (Hen' : Forall2 (fun s i => stepIn K i s) (steps32 lm kForward p' ps') (repeat r (Z.to_nat n) ++ rs)).
  { revert Hoc Hhalf Hen. generalize (steps32 lm kForward p ps) as l. generalize (steps32 lm kForward p' ps') as l'.
    generalize (repeat r (Z.to_nat n) ++ rs) as q. clear - HK.
    intros q l' l H. revert q. induction H as [|x y l l' Hxy H IH]; intros q A E; inversion E as [|? i ? ? Hx]; subst; constructor.
    - inversion_clear A. destruct Hx as (X1 & X2 & X3). split; [|split; [assumption|]].
      + destruct Hxy as [Hxy _]. intros Q. rewrite Q in Hxy. lra.
      + exact (octave_entry K _ _ _ HK Hxy X3).
    - inversion_clear A. auto. }
  destruct (C50_readme_histories lm src cfg f c wfs nw K w sr fade n p d r ps rs Hex Hlog HB Hc HW Hs Hn Hn1 Hb Ht Fd Hd Hr Hp Hen Hru)
    as (st & Ys & o1 & ys1 & P & R1 & L1 & _).
  destruct (C50_readme_histories lm src cfg f c wfs nw K w sr fade n p' d r ps' rs Hex Hlog HB Hc HW Hs Hn Hn1 Hb Ht Fd Hd Hr Hp' Hen' Hru)
    as (st' & Ys' & o1' & ys1' & P' & _).
  inversion Hnear as [|? ? ? ? Hn0 Hn2]; subst.
  assert (Nr : nearScripts32 lm eps (f32_ofZ 0) (f32_ofZ 0) [OpInit (B32 lm) (Some w) p d; OpProcess (B32 lm) kForward ps]
    [OpInit (B32 lm) (Some w) p' d; OpProcess (B32 lm) kForward ps']).
  { apply n3_init; [exact Hn0|apply octave_self; lra|]. apply n3_process; [exact Hn2|exact Hoc|constructor]. }
  destruct (C63_slightly_off32 lm src cfg f c _ _ _ _ _ _ eps Hex Hlog HB Hc He Nr P P') as (o & ys & o' & ys' & A & B & G).
  exists o, ys, o', ys'. split; [exact A|]. split; [exact B|]. split; [|exact G].
    rewrite R1 in A. assert (Q : ys1 = ys) by congruence. rewrite <- Q. exact L1.
Qed.
Print Assumptions C63_readme32.

(** ** The hypotheses are met: C50's table and phases; the other program is 1/64 of a cycle late
    or early, one pair of phases on the two sides of 0 *)
Definition path' : list f32 := [fl 7 64; fl 1 4; fl 3 8; fl 5 8; fl 57 64; fl 1 64; fl 9 64; fl 17 64].
Ltac near32 := unfold nearPhase32, nearPhase; first [exists 0%Z; apply Rabs_le; vm_compute; lra|exists 1%Z; apply Rabs_le; vm_compute; lra|exists (-1)%Z; apply Rabs_le; vm_compute; lra].
Ltac octave32 i := unfold sameOctave32, sameOctave; split; [real|exists i; rewrite !Rabs_pos_eq by real; repeat split; real].
Example C63_case32 : forall f, exists w o ys o' ys',
  Osc.run NN (demo_src NN) (mkCfg true 4) (filt NN f) (osc_new NN (filt NN f))
    [OpInit NN (Some w) (fl 0 1) (fl 1 8); OpProcess NN kForward path] = Ok (o, ys) /\
  Osc.run NN (demo_src NN) (mkCfg true 4) (filt NN f) (osc_new NN (filt NN f))
    [OpInit NN (Some w) (fl 63 64) (fl 1 8); OpProcess NN kForward path'] = Ok (o', ys') /\
  length ys = 8%nat /\ Forall2 (slightlyOff f 4 (/64)) ys ys'.
Proof.
  intros f. destruct ramp_built as (w & Ew). exists w.
  destruct (C63_readme32 nice_libm (demo_src NN) (mkCfg true 4) f 4 demo16 1 4 w sr48 (fl 1 40000) 1 (fl 0 1) (fl 63 64) (fl 1 8) 1
    path path' [1;1;2;2;1;1;1]%Z (/64)) as (o & ys & o' & ys' & A & B & L & G).
  - exact nice_exp.
  - exact nice_log.
  - cbn; lia.
  - lia.
  - lra.
  - repeat split; try lia; try reflexivity; unfold int_max; lia.
  - exact (CF_rate _).
  - vm_compute; reflexivity.
  - lia.
  - exact Ew.
  - exact ramp_tame.
  - reflexivity.
  - real.
  - split; [lia|]. split; [right; real|right; real].
  - unfold path. repeat (constructor; [plain|]). constructor.
  - unfold path'. repeat (constructor; [plain|]). constructor.
  - unfold path. cbn [steps32 repeat Z.to_nat app]. repeat (constructor; [instep|]). constructor.
  - split.
    + intros i a b Ha Hb. do 8 (destruct i as [|i]; [cbn in Ha, Hb; inversion Ha; inversion Hb; subst; lia || (vm_compute; lia)|]).
      cbn in Hb. destruct i; discriminate.
    + intros i j a b c e Hij Ha Hb Hab Hc He Hce.
      do 8 (destruct i as [|i]; [cbn in Ha, Hb; inversion Ha; inversion Hb; subst; try lia;
        do 8 (destruct j as [|j]; [cbn in Hc, He; inversion Hc; inversion He; subst; lia|]); cbn in He; destruct j; discriminate|]).
      cbn in Hb. destruct i; discriminate.
  - unfold path, path'. repeat (constructor; [near32|]). constructor.
  - unfold path, path'. cbn [steps32]. repeat (apply Forall2_cons; [first [octave32 (-3)%Z|octave32 (-2)%Z]|]). apply Forall2_nil.
  - unfold path'. cbn [steps32]. repeat (constructor; [rewrite Rabs_pos_eq by real; real|]). constructor.
  - exists o, ys, o', ys'. repeat (split; [assumption|]). exact G.
Qed.
