(** * Prop_FadeEx: the hypotheses of C56 are met *)
From Coq Require Import ZArith List Bool Reals Lia Lra Arith.
From Flocq Require Import Core IEEE754.BinarySingleNaN.
From Verif Require Import Num Maths CrossFader Wavetable Filters Osc Spec SpecC SpecT NumFacts Laws CFFacts
  WTFacts BuildFacts OscHist B32 B32Facts B32Laws B32Pow CFHist PLoop PTables RNum RLaws Demo SpecF SpecO SpecW Prop_Build Prop_CrossFader.
From Coquelicot Require Import Coquelicot.
From Verif Require Import SpecE SpecX SpecR SpecL ExactMath ExactStep ExactRun ExactHist ExactCover ExactSig ExactLaws PExact
  PApx PTerm PSum PTrackH PCover32 Prop_Exact Prop_Close Prop_CloseEx PFade PFade32 Prop_Fade.
Import ListNotations.
Local Open Scope R_scope.

(** selections inserted in a history keep it a history *)
Lemma with_selects src dbg F w p d dir1 ps dir2 ps2 st ys wfs nw K i k : exactFilter F ->
  plays src dbg F None [OpInit RNum (Some w) p d; OpProcess RNum dir1 ps; OpProcess RNum dir2 ps2] st ys ->
  wellFormed RNum wfs nw K -> table src dbg wfs nw w -> (0 <= i < nw)%Z -> (0 <= k < nw)%Z ->
  exists st' ys', plays src dbg F None
    ([OpInit RNum (Some w) p d; OpSetWaveform RNum i; OpProcess RNum dir1 ps] ++ OpSetWaveform RNum k :: [OpProcess RNum dir2 ps2]) (Some st') ys'.
Proof.
  intros HF H HW HT Hi Hk.
  destruct (plays_inv _ _ _ _ _ _ _ _ H) as (K1 & nw1 & wfs1 & s1 & HW1 & HT1 & Fr & H1).
  destruct (table_unique src dbg wfs nw K wfs1 nw1 K1 w 0 0 HW HT HW1 HT1) as (_ & En & _); [lia|destruct HW; lia|]. subst nw1.
  assert (N1 := fresh_nw _ _ _ _ _ _ _ _ _ _ Fr).
  destruct (plays_inv _ _ _ _ _ _ _ _ H1) as (s1' & s2 & y1 & y2 & E1 & B1 & -> & H2). assert (s1' = s1) by congruence. subst s1'.
  destruct (plays_inv _ _ _ _ _ _ _ _ H2) as (s2' & s3 & y3 & y4 & E2 & B2 & -> & H3). assert (s2' = s2) by congruence. subst s2'.
  set (pick := fun k s => mkIdeal (id_K s) (id_nw s) (id_wfs s) (id_tab s) k (id_phase s) (id_step s) (id_entry s) (id_mem s)).
  assert (T0 : forall k s, twin s (pick k s)) by (intros; constructor; reflexivity).
  destruct (twin_block src dbg F _ _ _ _ _ B1 (pick i s1) (T0 i s1)) as (t2 & z1 & C1 & T1).
  assert (T1' : twin s2 (pick k t2)) by (destruct T1; constructor; assumption).
  destruct (twin_block src dbg F _ _ _ _ _ B2 _ T1') as (t3 & z2 & C2 & T2).
  exists t3, (z1 ++ z2 ++ []). cbn [app].
  eapply pl_load; [left; reflexivity|exact HW1|exact HT1|exact Fr|].
  apply pl_select; [now rewrite N1|]. eapply pl_process; [exact C1|].
  apply pl_select; [rewrite (block_nw _ _ _ _ _ _ _ _ C1); cbn; now rewrite N1|]. eapply pl_process; [exact C2|constructor].
Qed.
Lemma with_selects32 lm (Hlog : log2_exact lm) src dbg f c w p d dir1 ps dir2 ps2 st ys wfs nw K i k :
  plays32 lm src dbg f c None [OpInit (B32 lm) (Some w) p d; OpProcess (B32 lm) dir1 ps; OpProcess (B32 lm) dir2 ps2] st ys ->
  table32 lm src dbg K nw wfs w -> (0 <= i < nw)%Z -> (0 <= k < nw)%Z ->
  exists st' ys', plays32 lm src dbg f c None
    ([OpInit (B32 lm) (Some w) p d; OpSetWaveform (B32 lm) i; OpProcess (B32 lm) dir1 ps] ++ OpSetWaveform (B32 lm) k :: [OpProcess (B32 lm) dir2 ps2]) (Some st') ys'.
Proof.
  intros H HT Hi Hk.
  destruct (plays_inv3 _ _ _ _ _ _ _ _ _ _ H) as (K1 & nw1 & wfs1 & s1 & HT1 & Ht1 & Fr & H1).
  assert (En := table_nw lm Hlog src dbg _ _ _ _ _ _ _ HT HT1). subst nw1.
  assert (N1 := fresh_nw3 _ _ _ _ _ _ _ _ _ _ _ Fr).
  destruct (plays_inv3 _ _ _ _ _ _ _ _ _ _ H1) as (s1' & s2 & y1 & y2 & E1 & B1 & -> & H2). assert (s1' = s1) by congruence. subst s1'.
  destruct (plays_inv3 _ _ _ _ _ _ _ _ _ _ H2) as (s2' & s3 & y3 & y4 & E2 & B2 & -> & H3). assert (s2' = s2) by congruence. subst s2'.
  set (pick := fun k s => mkI32 lm (i_K lm s) (i_nw lm s) (i_wfs lm s) (i_tab lm s) k (i_phase lm s) (i_step lm s) (i_entry lm s) (i_mem lm s)).
  assert (T0 : forall k s, twin3 lm s (pick k s)) by (intros; constructor; reflexivity).
  destruct (twin_block3 lm src dbg f _ _ _ _ _ B1 (pick i s1) (T0 i s1)) as (t2 & z1 & C1 & T1).
  assert (T1' : twin3 lm s2 (pick k t2)) by (destruct T1; constructor; assumption).
  destruct (twin_block3 lm src dbg f _ _ _ _ _ B2 _ T1') as (t3 & z2 & C2 & T2).
  exists t3, (z1 ++ z2 ++ []). cbn [app].
  eapply p32_load; [left; reflexivity|exact HT1|exact Ht1|exact Fr|].
  apply p32_select; [now rewrite N1|]. eapply p32_process; [exact C1|].
  apply p32_select; [rewrite (block_nw3 _ _ _ _ _ _ _ _ _ C1); cbn; now rewrite N1|]. eapply p32_process; [exact C2|constructor].
Qed.

(** two waveforms of 8 samples, one the negative of the other; a fade of one sample *)
Definition pair : list R := [0;1;2;3;4;3;2;1; 0;-1;-2;-3;-4;-3;-2;-1].
Definition before (w : WT RNum) (i : Z) : list (Op RNum) :=
  [OpInit RNum (Some w) 0 (1/8); OpSetWaveform RNum i; OpProcess RNum kForward [1/8]].
Definition after : list (Op RNum) := [OpProcess RNum kBidirectionnal [0/8; 7/8; 6/8; 7/8]].
Example C56_case : forall f dbg, exists w st1 st2 ys1 ys2,
  Forall2 sameButWaveform (before w 0) (before w 1) /\
  loads (demo_src RNum) dbg (fun y => Rabs y <= 4) (before w 0) /\
  plays (demo_src RNum) dbg (filt RNum f) None (before w 0 ++ OpSetWaveform RNum 1 :: after) st1 ys1 /\
  plays (demo_src RNum) dbg (filt RNum f) None (before w 1 ++ OpSetWaveform RNum 1 :: after) st2 ys2 /\
  length ys1 = 5%nat.
Proof.
  intros f dbg.
  assert (HW : wellFormed RNum pair 2 3) by (unfold wellFormed, zlen, int_max; cbn; lia).
  assert (Hf : 1 <= 1 * 1 < IZR int_max) by (split; [lra|]; rewrite Rmult_1_l; apply IZR_lt; reflexivity).
  destruct (wt_build_ok RNum (demo_src RNum) dbg LR pair 2 1 1 3 1) as (w & Ew & _);
    [lia|lia|reflexivity|unfold int_max; lia|unfold t0; cbn; apply Rle_bool_false; lra|exact demo_cast|exact demo_resampler|].
  assert (HT : table (demo_src RNum) dbg pair 2 w) by (apply (t_build _ _ _ _ 1 1); [lra|exact Hf|exact Ew]).
  assert (S0 : sharp 0) by (replace 0 with (0 / 8) by field; apply (dyadic8 0); lia).
  assert (Es : stepsOf kForward 0 [1/8] = [1/8]) by (steps; repeat rcase; listeq).
  assert (Es2 : stepsOf kBidirectionnal (1/8) [0/8; 7/8; 6/8; 7/8] = [-(1/8); -(1/8); -(1/8); 1/8]) by (steps; repeat rcase; listeq).
  destruct (turns_plays (demo_src RNum) dbg (filt RNum f) pair 2 3 w 1 1 1 0 (1/8) 0
     [1/8] kBidirectionnal [0/8; 7/8; 6/8; 7/8]) as (st & ys & H); auto; try lra.
  - exact demo_cast.
  - ent.
  - sharps.
  - cbn. lia.
  - rewrite Es. repeat (apply List.Forall_cons; [split; [lra|ent]|]); constructor.
  - sharps.
  - cbn [last]. rewrite Es2. repeat (apply List.Forall_cons;
      [rewrite ?Rabs_Ropp, (Rabs_pos_eq (1/8)) by lra; split; [lra|ent]|]); constructor.
  - destruct (with_selects _ _ _ _ _ _ _ _ _ _ _ _ pair 2 3 0 1 (shipped_exact f) H HW HT ltac:(lia) ltac:(lia)) as (st1 & ys1 & H1).
    destruct (with_selects _ _ _ _ _ _ _ _ _ _ _ _ pair 2 3 1 1 (shipped_exact f) H HW HT ltac:(lia) ltac:(lia)) as (st2 & ys2 & H2).
    exists w, (Some st1), (Some st2), ys1, ys2. split.
    { constructor; [now left|]. constructor; [right; exists 0%Z, 1%Z; split; reflexivity|]. constructor; [now left|constructor]. }
    split.
    { assert (HS : samplesOf (demo_src RNum) dbg (fun y => Rabs y <= 4) w).
      { exists pair, 2%Z, 3%Z. split; [exact HW|]. split; [exact HT|].
        intros i k y Hi Hk.
        assert (A : forall y : R, In y pair -> Rabs y <= 4).
        { intros v Hv. apply Rabs_le_between. cbn [pair In] in Hv. lra. }
        assert (Hi2 : i = 0%Z \/ i = 1%Z) by lia. assert (Hk2 : k = 0%Z \/ k = 1%Z) by lia.
        intros Hy. apply A. destruct Hi2 as [-> | ->], Hk2 as [-> | ->].
        + change (In y [0;1;2;3;4;3;2;1]) in Hy. cbn [pair In] in *. tauto.
        + change (In y [0;2;4;2]) in Hy. cbn [pair In] in *. tauto.
        + change (In y [0;-1;-2;-3;-4;-3;-2;-1]) in Hy. cbn [pair In] in *. tauto.
        + change (In y [0;-2;-4;-2]) in Hy. cbn [pair In] in *. tauto. }
      intros w' p d [Hin|Hin]; cbn in Hin; repeat destruct Hin as [Hin|Hin]; try discriminate; try contradiction.
      injection Hin as <- <- <-. exact HS. }
    split; [exact H1|]. split; [exact H2|]. assert (E := plays_length _ _ _ _ _ _ _ H1). rewrite E. reflexivity.
Qed.

(** the same in single precision *)
Definition before32 (w : WT NN) (i : Z) : list (Op NN) :=
  [OpInit NN (Some w) (fl 0 1) (fl 1 8); OpSetWaveform NN i; OpProcess NN kForward [fl 1 8; fl 1 4]].
Definition after32 : list (Op NN) := [OpProcess NN kBidirectionnal [fl 1 8; fl 0 1; fl 7 8; fl 3 4; fl 7 8]].
Lemma pair_tame : tameAll nice_libm (demo_src NN) 4 demo16 2 3.
Proof.
  assert (E : forall i k, (0 <= i <= 1)%Z -> (0 <= k <= 1)%Z -> entry32 nice_libm (demo_src NN) demo16 3 i k =
     List.map f32_ofZ (if (i =? 0)%Z then (if (k =? 0)%Z then [0;1;2;3;4;3;2;1] else [0;2;4;2])%Z else (if (k =? 0)%Z then [0;-1;-2;-3;-4;-3;-2;-1] else [0;-2;-4;-2])%Z)).
  { intros i k Hi Hk. assert (Hk' : k = 0%Z \/ k = 1%Z) by lia. assert (Hi' : i = 0%Z \/ i = 1%Z) by lia.
    destruct Hk' as [-> | ->], Hi' as [-> | ->]; reflexivity. }
  intros i k Hi Hk. rewrite E by lia.
  assert (Hk' : k = 0%Z \/ k = 1%Z) by lia. assert (Hi' : i = 0%Z \/ i = 1%Z) by lia.
  destruct Hk' as [-> | ->], Hi' as [-> | ->]; apply small_tame; try lia; try discriminate; reflexivity.
Qed.
Example C56_case32 : forall f, exists w st1 st2 Ys1 Ys2,
  accurateExp nice_libm /\ log2_exact nice_libm /\
  Forall2 sameButWaveform (before32 w 0) (before32 w 1) /\
  plays32 nice_libm (demo_src NN) true f 4 None (before32 w 0 ++ OpSetWaveform NN 1 :: after32) st1 Ys1 /\
  plays32 nice_libm (demo_src NN) true f 4 None (before32 w 1 ++ OpSetWaveform NN 1 :: after32) st2 Ys2 /\
  length Ys1 = 7%nat.
Proof.
  intros f.
  assert (HW : wellFormed NN demo16 2 3) by (repeat split; try lia; try reflexivity; unfold int_max; lia).
  assert (HC : tcast NN (tmul NN (fl 1 40000) sr48) = Ok 1%Z) by (vm_compute; reflexivity).
  destruct (C02_build_shape nice_libm (demo_src NN) true demo16 2 sr48 (fl 1 40000) 3 1) as (w & Ew & _); auto; try lia.
  { exact nice_log. }
  { intros inp ratio cap; repeat split. }
  { unfold int_max. lia. }
  { exact (proj1 (proj2 (proj2 (proj2 (proj2 C02_case))))). }
  assert (HT : table32 nice_libm (demo_src NN) true 3 2 demo16 w).
  { eapply (t32_build nice_libm (demo_src NN) true 3 2 demo16 sr48 (fl 1 40000) 1); [exact HW|exact (CF_rate _)|exact HC|lia|exact Ew]. }
  destruct (C50_turning_histories nice_libm (demo_src NN) (mkCfg true 4) f 4 demo16 2 3 w sr48 (fl 1 40000) 1 (fl 0 1) (fl 1 8) 0
    [fl 1 8; fl 1 4] kBidirectionnal [fl 1 8; fl 0 1; fl 7 8; fl 3 4; fl 7 8]) as (st & Ys & o & ys & Hp & _).
  - exact nice_exp.
  - exact nice_log.
  - cbn; lia.
  - lia.
  - exact HW.
  - exact (CF_rate _).
  - exact HC.
  - lia.
  - exact Ew.
  - exact pair_tame.
  - reflexivity.
  - real.
  - split; [lia|]. split; [first [left; reflexivity|right; real]|first [left; reflexivity|right; real]].
  - cbn [app]. repeat (constructor; [plain|]). constructor.
  - cbn [length Z.of_nat]. lia.
  - cbn [steps32]. repeat (constructor; [instep|]). constructor.
  - cbn [steps32 last]. repeat (constructor; [instep|]). constructor.
  - destruct (with_selects32 nice_libm nice_log _ _ _ _ _ _ _ _ _ _ _ _ _ demo16 2 3 0 1 Hp HT ltac:(lia) ltac:(lia)) as (st1 & Y1 & H1).
    destruct (with_selects32 nice_libm nice_log _ _ _ _ _ _ _ _ _ _ _ _ _ demo16 2 3 1 1 Hp HT ltac:(lia) ltac:(lia)) as (st2 & Y2 & H2).
    exists w, (Some st1), (Some st2), Y1, Y2. split; [exact nice_exp|]. split; [exact nice_log|]. split.
    { constructor; [now left|]. constructor; [right; exists 0%Z, 1%Z; split; reflexivity|]. constructor; [now left|constructor]. }
    split; [exact H1|]. split; [exact H2|]. exact (plays_len _ _ _ _ _ _ _ _ _ H1).
Qed.
