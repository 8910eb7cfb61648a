(** * C64 in binary32: standing still (release builds), within the accuracy of C50

    The same pauses as in Prop_Hold, for the binary32 oscillator: the output stays within the
    accuracy of C50 of the ideal output, however long the history; and while a pause lasts it
    settles to within that accuracy of the waveform's value times the gain of the filter at
    frequency 0. *)
From Coq Require Import ZArith List Bool Reals Lia Lra Arith.
From Flocq Require Import Core IEEE754.BinarySingleNaN.
From Verif Require Import Num Maths CrossFader Wavetable Filters Osc Spec SpecC SpecT NumFacts CFFacts RNum B32 B32Facts B32Laws B32Pow Demo
  SpecF SpecO SpecW Prop_Build Prop_CrossFader.
From Coquelicot Require Import Coquelicot.
From Verif Require Import SpecE SpecR SpecX SpecZ SpecZ32 ExactRun ExactLaws PExact PApx PTerm PSum PHold PTrack PTrackH PCover32 PHold32
  Prop_Close Prop_CloseEx.
Import ListNotations.
Local Open Scope R_scope.

Lemma close_within f c ys Ys : Forall2 (close f c) ys Ys -> Forall2 (within f c) ys Ys.
Proof.
  induction 1 as [|y Y ys Ys [[F D] _] H IH]; constructor; [|exact IH]. split; [exact F|].
  replace (accuracy f * (bpow radix2 c / IZR (2 ^ 24))) with (outErr f * (eps * bpow radix2 c)); [exact D|].
  unfold eps, Rdiv. change (IZR (2 ^ 24)) with 16777216. change (outErr f) with (accuracy f). ring.
Qed.

Theorem C64_pauses32 : forall lm src cfg f c ops st Ys,
  accurateExp lm -> log2_exact lm -> (1 <= batch cfg)%nat -> (-64 <= c <= 64)%Z ->
  roams32 lm src (Osc.dbg cfg) f c None ops st Ys ->
  exists o ys, Osc.run (B32 lm) src cfg (filt (B32 lm) f) (osc_new (B32 lm) (filt (B32 lm) f)) ops = Ok (o, ys) /\
    Forall2 (within f c) ys Ys.
Proof.
  intros lm src cfg f c ops st Ys Hex Hlog HB Hc Hp.
  destruct (roams_near lm (accurate_is lm Hex) Hlog src cfg HB f c Hc None ops st Ys Hp (osc_new (B32 lm) (filt (B32 lm) f)) I)
    as (o & ys & E & _ & H).
  exists o, ys. split; [exact E|]. now apply close_within.
Qed.
Print Assumptions C64_pauses32.

Theorem C64_pausing_histories32 : forall lm src cfg f c wfs nw K w sr fade n (p d : f32) ps dir ps2,
  accurateExp lm -> log2_exact lm -> Osc.dbg cfg = false -> (1 <= batch cfg)%nat -> (-64 <= c <= 64)%Z ->
  wellFormed (B32 lm) wfs nw K -> rate32 lm sr -> tcast (B32 lm) (tmul (B32 lm) fade sr) = Ok n -> (1 <= n)%Z ->
  wt_build (B32 lm) src false wfs nw sr fade = Ok (Some w) -> tameAll lm src c wfs nw K ->
  finite d -> 0 < B2R d -> entryFor K (B2R d) 0 -> List.Forall plainPhase (p :: ps ++ ps2) ->
  (n <= Z.of_nat (length ps))%Z -> List.Forall (stepIn K 0) (steps32 lm kForward p ps) ->
  List.Forall (stepIn0 K) (steps32 lm dir (last ps p) ps2) ->
  noTurn (List.map (@B2R 24 128) (steps32 lm dir (last ps p) ps2)) -> standsOff32 lm dir K (last ps p) ps2 ->
  let ops := [OpInit (B32 lm) (Some w) p d; OpProcess (B32 lm) kForward ps; OpProcess (B32 lm) dir ps2] in
  exists st Ys o ys, roams32 lm src (Osc.dbg cfg) f c None ops (Some st) Ys /\
    Osc.run (B32 lm) src cfg (filt (B32 lm) f) (osc_new (B32 lm) (filt (B32 lm) f)) ops = Ok (o, ys) /\
    Forall2 (within f c) ys Ys.
Proof.
  intros lm src cfg f c wfs nw K w sr fade n p d ps dir ps2 Hex Hlog D HB Hc HW Hs Hn Hn1 Hb Ht Fd Hd Hr Hp Hl Hst Hst2 Hnt Hso ops.
  destruct (still_plays32 lm Hlog src f c wfs nw K w sr fade n p d ps dir ps2 HW Hs Hn Hn1 Hb Ht Fd Hd Hr Hp Hl Hst Hst2 Hnt Hso) as (st & Ys & H).
  rewrite <- D in H.
  destruct (C64_pauses32 lm src cfg f c ops (Some st) Ys Hex Hlog HB Hc H) as (o & ys & E & W).
  exists st, Ys, o, ys. auto.
Qed.
Print Assumptions C64_pausing_histories32.

(** a pause that lasts *)
Theorem C64_hold_settles32 : forall lm src cfg f c wfs nw K w sr fade n (p d : f32) ps dir,
  accurateExp lm -> log2_exact lm -> Osc.dbg cfg = false -> (1 <= batch cfg)%nat -> (-64 <= c <= 64)%Z ->
  wellFormed (B32 lm) wfs nw K -> rate32 lm sr -> tcast (B32 lm) (tmul (B32 lm) fade sr) = Ok n -> (1 <= n)%Z ->
  wt_build (B32 lm) src false wfs nw sr fade = Ok (Some w) -> tameAll lm src c wfs nw K ->
  finite d -> 0 < B2R d -> entryFor K (B2R d) 0 -> List.Forall plainPhase (p :: ps) ->
  (n <= Z.of_nat (length ps))%Z -> List.Forall (stepIn K 0) (steps32 lm kForward p ps) ->
  ~ onGrid K (B2R (last ps p)) ->
  forall eps, 0 < eps -> exists N0, forall N, exists o ys zs,
    Osc.run (B32 lm) src cfg (filt (B32 lm) f) (osc_new (B32 lm) (filt (B32 lm) f))
      [OpInit (B32 lm) (Some w) p d; OpProcess (B32 lm) kForward ps; OpProcess (B32 lm) dir (repeat (last ps p) N)] = Ok (o, ys ++ zs) /\
    length ys = length ps /\ length zs = N /\
    forall i z, nth_error zs i = Some z -> finite z /\ ((N0 <= i)%nat ->
      Rabs (B2R z - dcGain (filt RNum f) * wave (List.map (@B2R 24 128) (waveform (B32 lm) wfs (2 ^ K) 0)) (B2R (last ps p)))
        <= accuracy f * (bpow radix2 c / IZR (2 ^ 24)) + eps).
Proof.
  intros lm src cfg f c wfs nw K w sr fade n p d ps dir Hex Hlog D HB Hc HW Hs Hn Hn1 Hb Ht Fd Hd Hr Hp Hl Hst Hog eps0 He.
  assert (Hp0 : plainPhase p) by (inversion Hp; assumption).
  destruct (built_fresh32 lm Hlog src (mkCfg false 1) (le_n 1) f wfs nw K w sr fade n p d 0 HW Hs Hn Hn1 Hb Hp0 Fd Hd Hr)
    as (HT & w' & m & g0 & Fr & HT' & En & Hg & Hcs & Hm).
  set (st0 := mkI32 lm K nw wfs w' 0 p d m (repeat (RtoC 0) (numCoeffs f))) in *.
  destruct (settle_forward32 lm Hlog src (mkCfg false 1) (le_n 1) f n ps st0 g0 0) as (st1 & Ys & B & E1 & E2 & E3 & E4 & E5 & E6 & E7 & E8); auto; [lia|].
  cbn [Osc.dbg] in *.
  assert (Wf : i_wf lm st1 = 0%Z).
  { clear -B. assert (G : forall st ps st' ys, block32 lm src false f kForward st ps st' ys -> i_wf lm st' = i_wf lm st).
    { induction 1 as [|? ? ? ? ? ? ? S ? IH]; [reflexivity|]. rewrite IH. now destruct S. }
    now rewrite (G _ _ _ _ B). }
  unfold st0 in E1, E2, E3, E4, E8. cbn [i_K i_nw i_wfs i_tab i_wf i_phase i_step i_entry i_mem] in *.
  assert (Pl : plays32 lm src false f c None [OpInit (B32 lm) (Some w) p d; OpProcess (B32 lm) kForward ps] (Some st1) (Ys ++ [])).
  { eapply p32_load; [left; reflexivity|exact HT|exact Ht|exact Fr|]. eapply p32_process; [exact B|]. constructor. }
  assert (Pl' := Pl). rewrite <- D in Pl'.
  destruct (plays_near lm (accurate_is lm Hex) Hlog src cfg HB f c Hc None _ _ _ Pl' (osc_new (B32 lm) (filt (B32 lm) f)) I)
    as (o1 & ys1 & _ & Tr & _). cbn [tracksO] in Tr.
  assert (Ly : length (i_mem lm st1) = length (f_r (filt RNum f))).
  { rewrite (tk_len _ _ _ _ _ _ _ _ Tr). symmetry. exact (knR f). }
  assert (Hps := tk_plain _ _ _ _ _ _ _ _ Tr). rewrite E8 in Hps.
  set (v := wave (List.map (@B2R 24 128) (waveform (B32 lm) wfs (2 ^ K) 0)) (B2R (last ps p))).
  assert (Lim := held_lim (filt RNum f) (shipped_exact f) v (i_mem lm st1) (shipped_stable f) Ly).
  apply is_lim_seq_spec in Lim. destruct (Lim (mkposreal eps0 He)) as [N0 HN0]. cbn [pos] in HN0.
  exists N0. intros N.
  destruct (hold_block32 lm Hlog src f dir N st1) with (Y := i_mem lm st1) (k := 0%nat) (v := v) as (st2 & Zs & B2 & Lz & Hz);
    rewrite ?E1, ?E2, ?E3, ?E8; auto.
  { symmetry. apply held_0; [apply shipped_exact|exact Ly]. }
  { unfold v, curve. rewrite E1, E3, Wf. reflexivity. }
  rewrite E8 in B2.
  assert (Ro : roams32 lm src false f c None ([OpInit (B32 lm) (Some w) p d; OpProcess (B32 lm) kForward ps] ++ [OpProcess (B32 lm) dir (repeat (last ps p) N)])
     (Some st2) ((Ys ++ []) ++ (Zs ++ []))).
  { eapply ro32_plays; [exact Pl|]. eapply ro32_block; [exact B2|]. constructor. }
  rewrite <- D in Ro. destruct (C64_pauses32 lm src cfg f c _ _ _ Hex Hlog HB Hc Ro) as (o & out & E & W).
  rewrite !app_nil_r in W. apply Forall2_app_inv_r in W. destruct W as (ys & zs & Wy & Wz & ->).
  exists o, ys, zs. split; [exact E|]. split; [|split].
  - refine (eq_trans (f2_length Wy) _). exact (block_len _ _ _ _ _ _ _ _ _ B).
  - refine (eq_trans (f2_length Wz) _). exact Lz.
  - intros i z Ei.
    assert (Wi : exists Z, nth_error Zs i = Some Z /\ within f c z Z).
    { clear -Wz Ei. revert i Ei. induction Wz as [|a b zs Zs H _ IH]; intros [|i] Ei; try discriminate; cbn [nth_error] in *.
      - injection Ei as <-. eauto.
      - now apply IH. }
    destruct Wi as (Z & EZ & F & Dz). split; [exact F|]. intros Hi.
    assert (HZ := Hz i Z EZ). specialize (HN0 (0 + S i)%nat ltac:(lia)). rewrite <- HZ in HN0.
    apply Rabs_def2 in HN0. apply Rabs_le_inv in Dz. apply Rabs_le. lra.
Qed.
Print Assumptions C64_hold_settles32.

(** ** a concrete case: the 16-sample triangle of Prop_CloseEx in a release build, a walk that
    pauses at 1/32 and 3/32 *)
Lemma ramp_release : exists w, wt_build NN (demo_src NN) false demo16 1 sr48 (fl 1 40000) = Ok (Some w).
Proof.
  destruct (C02_build_shape nice_libm (demo_src NN) false demo16 1 sr48 (fl 1 40000) 4 1) as (w & E & _); auto; try lia.
  - exact nice_log.
  - intros inp ratio cap; repeat split.
  - unfold int_max. lia.
  - exact (proj1 (proj2 (proj2 (proj2 (proj2 C02_case))))).
  - exists w. exact E.
Qed.

Lemma odd32 (x : f32) i : B2R x = IZR i / 32 -> (i = 2 * (i / 2) + 1)%Z -> ~ onGrid 4 (B2R x).
Proof.
  intros Hx Hi [j Hj]. rewrite Hx in Hj. change (2 ^ 4)%Z with 16%Z in Hj.
  assert (E : IZR i = IZR (2 * j)) by (rewrite mult_IZR; lra). apply eq_IZR in E. lia.
Qed.

Example C64_case32 : forall f, exists w st Ys,
  roams32 nice_libm (demo_src NN) false f 4 None
    [OpInit NN (Some w) (fl 0 1) (fl 1 16); OpProcess NN kForward [fl 1 32];
     OpProcess NN kBidirectionnal [fl 1 32; fl 3 32; fl 3 32; fl 5 32; fl 3 32; fl 3 32; fl 1 8]] (Some st) Ys.
Proof.
  intros f. destruct ramp_release as (w & Ew). exists w.
  assert (O1 : ~ onGrid 4 (B2R (fl 1 32))) by (apply (odd32 _ 1); [real|reflexivity]).
  assert (O3 : ~ onGrid 4 (B2R (fl 3 32))) by (apply (odd32 _ 3); [real|reflexivity]).
  destruct (C64_pausing_histories32 nice_libm (demo_src NN) (mkCfg false 4) f 4 demo16 1 4 w sr48 (fl 1 40000) 1 (fl 0 1) (fl 1 16)
    [fl 1 32] kBidirectionnal [fl 1 32; fl 3 32; fl 3 32; fl 5 32; fl 3 32; fl 3 32; fl 1 8]) as (st & Ys & o & ys & Hp & _).
  - exact nice_exp.
  - exact nice_log.
  - reflexivity.
  - cbn; lia.
  - lia.
  - repeat split; try lia; try reflexivity; unfold int_max; lia.
  - exact (CF_rate _).
  - vm_compute; reflexivity.
  - lia.
  - exact Ew.
  - exact ramp_tame.
  - reflexivity.
  - real.
  - split; [lia|]. split; [right; real|left; lia].
  - cbn [app]. repeat (constructor; [plain|]). constructor.
  - cbn [length Z.of_nat]. lia.
  - cbn [steps32]. repeat (constructor; [instep|]). constructor.
  - cbn [steps32 last]. repeat (constructor; [first [left; real|right; instep]|]). constructor.
  - cbn [steps32 last List.map noTurn]. repeat split; intros;
      match goal with H : _ = 0 |- _ => first [real|exfalso; revert H; real] end.
  - cbn [steps32 last standsOff32]. repeat split; intros H; first [assumption|exfalso; revert H; real].
  - exists st, Ys. exact Hp.
Qed.

(** the triangle held at 1/32: half way between its first two samples (0 and 1) *)
Example C64_hold_case32 : forall f, exists w, forall eps, 0 < eps -> exists N0, forall N, exists o ys zs,
  Osc.run NN (demo_src NN) (mkCfg false 4) (filt NN f) (osc_new NN (filt NN f))
    [OpInit NN (Some w) (fl 0 1) (fl 1 16); OpProcess NN kForward [fl 1 32]; OpProcess NN kForward (repeat (fl 1 32) N)] = Ok (o, ys ++ zs) /\
  length zs = N /\
  forall i z, nth_error zs i = Some z -> finite z /\ ((N0 <= i)%nat ->
    Rabs (B2R z - dcGain (filt RNum f) * (/ 2)) <= accuracy f * (bpow radix2 4 / IZR (2 ^ 24)) + eps).
Proof.
  intros f. destruct ramp_release as (w & Ew). exists w. intros e He.
  destruct (C64_hold_settles32 nice_libm (demo_src NN) (mkCfg false 4) f 4 demo16 1 4 w sr48 (fl 1 40000) 1 (fl 0 1) (fl 1 16)
    [fl 1 32] kForward) with (eps := e) as (N0 & H).
  - exact nice_exp.
  - exact nice_log.
  - reflexivity.
  - cbn; lia.
  - lia.
  - repeat split; try lia; try reflexivity; unfold int_max; lia.
  - exact (CF_rate _).
  - vm_compute; reflexivity.
  - lia.
  - exact Ew.
  - exact ramp_tame.
  - reflexivity.
  - real.
  - split; [lia|]. split; [right; real|left; lia].
  - repeat (constructor; [plain|]). constructor.
  - cbn [length Z.of_nat]. lia.
  - cbn [steps32]. repeat (constructor; [instep|]). constructor.
  - apply (odd32 _ 1); [real|reflexivity].
  - exact He.
  - exists N0. intros N. destruct (H N) as (o & ys & zs & E & _ & L & Hz). exists o, ys, zs. split; [exact E|]. split; [exact L|].
    intros i z Ei. destruct (Hz i z Ei) as [F Hc]. split; [exact F|]. intros Hi.
    match type of Hc with _ -> Rabs (_ - _ * ?v) <= _ => assert (Ev : v = / 2) end.
    { cbn [last]. unfold wave. match goal with |- context [zlen ?l] => replace (zlen l) with 16%Z by reflexivity; set (W := l) end.
      assert (L0 : cyc W 0 = 0) by (unfold W; vm_compute; lra). assert (L1 : cyc W (0 + 1) = 1) by (unfold W; vm_compute; lra).
      assert (P : B2R (fl 1 32) = 1 / 32) by real. rewrite P.
      replace (Zfloor (1 / 32 * IZR 16)) with 0%Z by (symmetry; apply Zfloor_imp; cbn; lra).
      rewrite L0, L1. lra. }
    rewrite <- Ev. exact (Hc Hi).
Qed.
