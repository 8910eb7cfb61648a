(** * Prop_Restart: property C62 -- updateSamplerate makes the next sample fade again *)
From Coq Require Import ZArith List Bool Reals Lia Lra Arith Psatz.
From Flocq Require Import Core IEEE754.BinarySingleNaN.
From Verif Require Import Num Maths CrossFader Wavetable Filters Osc Spec SpecC SpecT NumFacts Laws B32 B32Facts B32Laws
  B32Pow SpecF CFFacts WTFacts BuildFacts OscFacts OscStep OscRun OscHist CFHist PCross PTables RNum RLaws Demo Prop_Build Prop_CrossFader.
From Coquelicot Require Import Coquelicot.
From Verif Require Import SpecE SpecX SpecY ExactMath ExactStep ExactRun ExactHist ExactCover ExactLaws ExactClick PExact PClick PRestart.
Import ListNotations.
Local Open Scope Z_scope.

(** ** C62 (binary32): whatever the table was doing, and whether or not the rate changes, after
    updateSamplerate the entries requested are as after a jump from the octave of step 0.1: if
    the steps stay in another octave [r], the first request puts the whole gain on the
    neighbour of [r] on the side of 0.1's octave, and the gain returns linearly over the next
    [n'] requests; if they stay in 0.1's own octave nothing is heard of it. *)
Theorem C62_fade_restarts : forall lm src dbg K n w (sr fade : f32) n' w' i0 r (ds : list f32) (d : f32),
  log2_exact lm -> reachable (B32 lm) src dbg (rate32 lm) K n w -> rate32 lm sr ->
  tcast (B32 lm) (tmul (B32 lm) fade sr) = Ok n' -> 1 <= n' <= 2 ^ 24 ->
  wt_updateSamplerate (B32 lm) src dbg w sr fade = Ok w' ->
  entryFor K (B2R (tfrac (B32 lm) 1 10 : f32)) i0 -> List.Forall (inOctave K r) (ds ++ [d]) ->
  exists w'' outs mi (g : f32) mu (gu : f32),
    ask (B32 lm) dbg w' (ds ++ [d]) = Ok (w'', outs ++ [(mi, g, mu, gu)]) /\
    let k := Z.of_nat (length ds) in
    let gold := toF32 (IZR (n' - k) / IZR n') in      (* gain of the neighbour *)
    let gnew := toF32 (1 - gold) in                   (* gain of the entry for these steps *)
    if (r =? i0) || (n' <=? k) then mi = r /\ B2R g = 1%R /\ B2R gu = 0%R
    else if i0 <? r then mi = r - 1 /\ mu = r /\ B2R g = gold /\ B2R gu = gnew
    else mi = r /\ mu = r + 1 /\ B2R g = gnew /\ B2R gu = gold.
Proof.
  intros lm src dbg K n w sr fade n' w' i0 r ds d Hlog H1 H2 H3 Hn H4 Hi Hds.
  assert (HB := resample_is_build lm Hlog src dbg K n w sr fade n' w' H1 H2 H3 H4).
  exact (restart_ramp lm Hlog src dbg K n' w' i0 r ds d HB Hn Hi Hds).
Qed.
Print Assumptions C62_fade_restarts.

(** ** C62 (exact arithmetic): what is heard.  After any history, an oscillator moving forward
    in octave [r] is re-sampled, to any rate and possibly the one it has: its next sample is
    made of the neighbour entry alone. *)
Local Open Scope R_scope.
Definition nextTo (i0 r : Z) : Z := if (i0 <? r)%Z then (r - 1)%Z else (r + 1)%Z.

Theorem C62_neighbour_heard : forall src cfg F ops st ys sr p r i0,
  (1 <= batch cfg)%nat -> resamplerOk RNum src -> exactFilter F ->
  plays src (dbg cfg) F None ops (Some st) ys ->
  200 <= sr -> sr < IZR int_max ->
  let q := id_phase st in
  let d := stepBetween RNum kForward q p in
  0 < id_step st -> sharp p -> 0 < d <= /2 ->
  entryFor (id_K st) (1/10) i0 -> entryFor (id_K st) d r -> r <> i0 -> (id_entry st <= r)%Z ->
  outputs RNum (Osc.run RNum src cfg F (osc_new RNum F)
      (ops ++ [OpUpdateSamplerate RNum sr; OpProcess RNum kForward [p]]))
    = Ok (ys ++ [audible (allPoles F (fun u => wave (entry src st (nextTo i0 r)) (q + d * u)) (id_mem st))]).
Proof.
  intros src cfg F ops st ys sr p r i0 HB Hsrc HF Hp Hs1 Hs2 q d Hst Hsh Hd Hi Hr Hne Hent.
  destruct (plays_exact src cfg F HB HF None ops (Some st) ys Hp (osc_new RNum F) I) as (o & E & Tr).
  cbn [tracksO] in Tr.
  assert (HW := tr_well _ _ _ _ _ Tr). assert (HT := tr_tab _ _ _ _ _ Tr).
  assert (Hf : 1 <= 5 / 1000 * sr < IZR int_max) by lra.
  destruct (table_ok src (dbg cfg) _ _ _ _ HW HT) as (_ & W & _).
  assert (Hu : exists w', wt_updateSamplerate RNum src (dbg cfg) (id_tab st) sr (5 / 1000) = Ok w').
  { destruct (updateSamplerate_ok RNum LR src cfg HB Hsrc _ _ (id_tab st) sr (5/1000) W) as (w' & Hu & _); [|exists w'; exact Hu].
    split; [unfold t0; cbn [tle tofZ RNum]; apply Rle_bool_false; lra|].
    exists (Zfloor (5 / 1000 * sr)). unfold tcast. cbn [ttrunc tmul RNum]. rewrite Ztrunc_floor by lra.
    assert (A : (1 <= Zfloor (5 / 1000 * sr))%Z) by (apply Zfloor_lub; apply Hf).
    assert (B : (Zfloor (5 / 1000 * sr) <= int_max)%Z).
    { apply le_IZR. apply Rle_trans with (1 := Zfloor_lb _). lra. }
    rewrite in_int_true by (unfold int_min in *; lia). auto. }
  destruct Hu as (w' & Hu).
  destruct (resampled_state src (dbg cfg) _ _ _ _ sr (5/1000) w' i0 HW HT ltac:(lra) Hf Hi Hu) as (HT' & Es).
  destruct (find_R src (dbg cfg) _ _ _ w' d r HW HT' ltac:(lra) Hr) as (w2 & E2 & _ & _ & _ & Hn).
  rewrite Es in E2. rewrite <- (Rabs_pos_eq d) in E2 by lra.
  set (n := cf_num (wt_cf w')) in *. assert (Hn1 : 1 <= IZR n) by (apply (IZR_le 1); exact Hn).
  assert (Eo : outS RNum n (0, i0, i0)%Z r = if (i0 <? r)%Z then ((r - 1)%Z, 1, r, 0) else (r, 0, (r + 1)%Z, 1)).
  { unfold outS, fadeT, cfStep. cbn [Z.eqb andb]. destruct (Z.eqb_spec r i0); [contradiction|].
    unfold t1. cbn [tdiv tofZ tsub RNum]. replace (IZR n / IZR n) with 1 by (field; lra). replace (1 - 1) with 0 by ring.
    destruct (Z.ltb_spec i0 r).
    - destruct (Z.ltb_spec (r - 1) r); [reflexivity|lia].
    - destruct (Z.ltb_spec (r + 1) r); [lia|reflexivity]. }
  rewrite Eo in E2. clear Eo.
  set (s1 := mkIdeal (id_K st) (id_nw st) (id_wfs st) w' (id_wf st) q (id_step st) (id_entry st) (id_mem st)).
  set (y := audible (allPoles F (fun u => wave (entry src st (nextTo i0 r)) (q + d * u)) (id_mem st))).
  assert (P : exists st2, plays src (dbg cfg) F (Some st) [OpUpdateSamplerate RNum sr; OpProcess RNum kForward [p]] (Some st2) [y]).
  { assert (S : exists st2, sample src (dbg cfg) F kForward s1 p st2 y).
    { unfold nextTo in y. destruct (Z.ltb_spec i0 r).
      - eexists. replace y with (audible (allPoles F (mixed src s1 q d ((r - 1)%Z, 1, r, 0)) (id_mem st))).
        2:{ unfold y. f_equal. apply allPoles_ext. intros u _. cbn. fold q. change (entry src s1) with (entry src st). ring. }
        eapply sample_; [exact Hsh|reflexivity|apply Rgt_not_eq; exact (proj1 Hd)|change (- / 2 <= d <= / 2); lra|exact E2| |reflexivity].
        left. cbn. split; [exact Hst|lia].
      - eexists. replace y with (audible (allPoles F (mixed src s1 q d (r, 0, (r + 1)%Z, 1)) (id_mem st))).
        2:{ unfold y. f_equal. apply allPoles_ext. intros u _. cbn. fold q. change (entry src s1) with (entry src st). ring. }
        eapply sample_; [exact Hsh|reflexivity|apply Rgt_not_eq; exact (proj1 Hd)|change (- / 2 <= d <= / 2); lra|exact E2| |reflexivity].
        left. cbn. split; [exact Hst|lia]. }
    destruct S as (st2 & S). exists st2. eapply pl_rate; [exact Hs1|exact Hs2|exact Hu|].
    change [y] with ([y] ++ []). eapply pl_process; [|constructor]. econstructor; [exact S|constructor]. }
  destruct P as (st2 & P).
  exact (plays_outputs src cfg F _ _ _ HB HF (plays_app src (dbg cfg) F None ops (Some st) ys Hp _ _ _ P)).
Qed.
Print Assumptions C62_neighbour_heard.

(** ** C62: updateSamplerate with the rate the table already has is not neutral.  Tables of
    eight samples whose only pulse the band-limited entry of four samples has lost: the
    oscillator, playing that entry, is silent; one redundant updateSamplerate and the pulse is
    heard. *)
Definition pulse : list R := [0; 0; 0; 0; 0; 1; 0; 0].
Definition start (w : WT RNum) : list (Op RNum) := [OpInit RNum (Some w) (1/8) (1/4); OpProcess RNum kForward [3/8]].

Lemma wave_silent t : wave [0; 0; 0; 0] t = 0.
Proof.
  assert (A : forall k, cyc [0; 0; 0; 0] k = 0).
  { intros k. unfold cyc. change (zlen [0; 0; 0; 0]) with 4%Z. assert (H := Z.mod_pos_bound k 4 ltac:(lia)).
    set (m := (k mod 4)%Z) in *. assert (m = 0 \/ m = 1 \/ m = 2 \/ m = 3)%Z as [-> | [-> | [-> | ->]]] by lia; reflexivity. }
  unfold wave. rewrite !A. ring.
Qed.
Lemma wave_pulse u : 0 <= u <= 1 -> wave pulse (3/8 + 1/4 * u) = halfRamp u.
Proof.
  intros Hu. unfold wave, halfRamp. change (zlen pulse) with 8%Z.
  destruct (Rle_dec u (/2)) as [H|H].
  - destruct H as [H|H].
    + rewrite (Zfloor_imp 3) by (cbn; lra). change (cyc pulse 3) with 0. change (cyc pulse (3 + 1)) with 0. ring.
    + rewrite (Zfloor_imp 4) by (cbn; lra). change (cyc pulse 4) with 0. change (cyc pulse (4 + 1)) with 1. rewrite H. field.
  - destruct (Req_dec u 1) as [->|Hn].
    + rewrite (Zfloor_imp 5) by (cbn; lra). change (cyc pulse 5) with 1. change (cyc pulse (5 + 1)) with 0. field.
    + rewrite (Zfloor_imp 4) by (cbn; lra). change (cyc pulse 4) with 0. change (cyc pulse (4 + 1)) with 1. field.
Qed.
Lemma response_silent z : response z (fun _ => 0) = RtoC 0.
Proof.
  unfold response, RtoC. f_equal.
  - erewrite RInt_ext; [|intros u _; apply Rmult_0_r]. rewrite RInt_const. apply Rmult_0_r.
  - erewrite RInt_ext; [|intros u _; apply Rmult_0_r]. rewrite RInt_const. apply Rmult_0_r.
Qed.

Theorem C62_same_rate_refuted : forall src cfg w,
  (1 <= batch cfg)%nat -> resamplerOk RNum src -> mipmap RNum src pulse 1 = [0; 0; 0; 0] ->
  wt_build RNum src (dbg cfg) pulse 1 200 (5/1000) = Ok (Some w) ->
  let F := filt RNum kType1 in
  exists y,
    outputs RNum (Osc.run RNum src cfg F (osc_new RNum F) (start w ++ [OpProcess RNum kForward [5/8]])) = Ok [0; 0] /\
    outputs RNum (Osc.run RNum src cfg F (osc_new RNum F)
       (start w ++ [OpUpdateSamplerate RNum 200; OpProcess RNum kForward [5/8]])) = Ok [0; y] /\
    / 10 <= y.
Proof.
  intros src cfg w HB Hsrc Hm Hb F.
  assert (HW : wellFormed RNum pulse 1 3).
  { split; [lia|]. split; [lia|]. split; [reflexivity|unfold int_max; cbn; lia]. }
  destruct (built_state src (dbg cfg) pulse 3 w 200 (5/1000) HW ltac:(lia) ltac:(lra) ltac:(lra) Hb) as (HT & Hn & Hst).
  assert (HF : exactFilter F) by apply shipped_exact.
  assert (S1 : sharp (1/8)) by (apply (sharp_dyadic 3 1); lia).
  assert (S3 : sharp (3/8)) by (apply (sharp_dyadic 3 3); lia).
  assert (S5 : sharp (5/8)) by (apply (sharp_dyadic 3 5); lia).
  assert (O1 : entryFor 3 (1/4) 1) by (split; [lia|]; split; [left; lia|right; cbn; lra]).
  destruct (find_R src (dbg cfg) pulse 1 3 w (1/4) 1 HW HT ltac:(lra) O1) as (w0 & E0 & T0 & N0 & HT0 & _).
  rewrite Hn, Hst in E0, T0. cbn in E0, T0. rewrite Hn in N0.
  destruct (find_R src (dbg cfg) pulse 1 3 w0 (1/4) 1 HW HT0 ltac:(lra) O1) as (w1 & E1 & T1 & N1 & HT1 & _).
  rewrite N0, T0 in E1, T1. cbn in E1, T1. rewrite N0 in N1.
  destruct (find_R src (dbg cfg) pulse 1 3 w1 (1/4) 1 HW HT1 ltac:(lra) O1) as (w2 & E2 & _).
  rewrite N1, T1 in E2. cbn in E2. unfold t1, t0 in E0, E1, E2. cbn [tdiv tsub tofZ RNum] in E0, E1, E2.
  replace (1 / 1) with 1 in E0 by field. replace (1 - 1) with 0 in E0 by ring.
  replace (0 / 1) with 0 in E1 by field. replace (1 - 0) with 1 in E1 by ring.
  rewrite <- (Rabs_pos_eq (1/4)) in E0, E1, E2 by lra.
  assert (D1 : stepBetween RNum kForward (1/8) (3/8) = 1/4).
  { unfold stepBetween, t0, t1. cbn [tsub tadd tlt tofZ tdiv RNum]. rewrite Rlt_bool_false by lra. change (@eq R (3/8 - 1/8) (1/4)). field. }
  assert (D2 : stepBetween RNum kForward (3/8) (5/8) = 1/4).
  { unfold stepBetween, t0, t1. cbn [tsub tadd tlt tofZ tdiv RNum]. rewrite Rlt_bool_false by lra. change (@eq R (5/8 - 3/8) (1/4)). field. }
  destruct filt1 as [R1 Z1].
  set (st0 := mkIdeal 3 1 pulse w0 0 (1/8) (1/4) 0 [RtoC 0]).
  set (st1 := mkIdeal 3 1 pulse w1 0 (3/8) (1/4) 1 [RtoC 0]).
  assert (Em : forall s, id_K s = 3%Z -> id_wfs s = pulse -> id_wf s = 0%Z -> entry src s 1 = [0; 0; 0; 0]).
  { intros s A B D. unfold entry. rewrite A, B, D. exact Hm. }
  assert (Quiet : forall s q d mu, id_K s = 3%Z -> id_wfs s = pulse -> id_wf s = 0%Z ->
    allPoles F (mixed src s q d (1%Z, 1, mu, 0)) [RtoC 0] = [RtoC 0]).
  { intros s q d mu A B D. rewrite (allPoles_ext F _ (fun _ => 0)).
    2:{ intros u _. cbn [mixed]. rewrite (Em s A B D), wave_silent. ring. }
    unfold F, allPoles. rewrite R1, Z1. cbn [combine List.map fst snd]. unfold onePole. rewrite response_silent. f_equal. ring. }
  assert (A0 : audible [RtoC 0] = 0) by (cbn; ring).
  assert (P : plays src (dbg cfg) F None (start w) (Some st1) [0]).
  { apply (pl_load src (dbg cfg) F None _ w (1/8) (1/4) 3 1 pulse st0).
    - left; reflexivity.
    - exact HW.
    - exact HT.
    - replace st0 with (mkIdeal 3 1 pulse w0 0 (1/8) (1/4) 0 (repeat (RtoC 0) (length (f_r F)))) by (unfold F; rewrite R1; reflexivity).
      eapply fresh_; [exact S1|lra|exact E0].
    - change [0] with ([0] ++ []). eapply pl_process; [|constructor].
      econstructor; [|constructor]. rewrite <- A0.
      apply (sample_ src (dbg cfg) F kForward st0 (3/8) (1/4) w1 1 1 1 0 [RtoC 0] S3 (eq_sym D1)).
      + lra.
      + lra.
      + exact E1.
      + left. cbn. split; [lra|]. lia.
      + symmetry. now apply Quiet. }
  assert (I0 : entryFor 3 (1/10) 0) by (split; [lia|]; split; [right; cbn; lra|left; reflexivity]).
  assert (Y := C62_neighbour_heard src cfg F (start w) st1 [0] 200 (5/8) 1 0 HB Hsrc HF P ltac:(lra)).
  cbv zeta in Y. change (id_phase st1) with (3/8) in Y. change (id_K st1) with 3%Z in Y. change (id_entry st1) with 1%Z in Y.
  change (id_step st1) with (1/4) in Y. change (id_mem st1) with [RtoC 0] in Y. rewrite D2 in Y.
  specialize (Y ltac:(apply IZR_lt; reflexivity) ltac:(lra) S5 ltac:(lra) I0 O1 ltac:(lia) ltac:(lia)).
  change (nextTo 0 1) with 0%Z in Y. change (entry src st1 0) with pulse in Y.
  eexists. split; [|split; [exact Y|]].
  - assert (P2 : exists st2, plays src (dbg cfg) F (Some st1) [OpProcess RNum kForward [5/8]] (Some st2) [0]).
    { eexists. change [0] with ([0] ++ []). eapply pl_process; [|constructor].
      econstructor; [|constructor]. rewrite <- A0.
      apply (sample_ src (dbg cfg) F kForward st1 (5/8) (1/4) w2 1 1 2 0 [RtoC 0] S5 (eq_sym D2)).
      + lra.
      + lra.
      + exact E2.
      + left. cbn. split; [lra|]. lia.
      + symmetry. now apply Quiet. }
    destruct P2 as (st2 & P2).
    exact (plays_outputs src cfg F _ _ _ HB HF (plays_app src (dbg cfg) F None _ (Some st1) [0] P _ _ _ P2)).
  - rewrite (allPoles_ext F _ halfRamp) by (intros u Hu; apply wave_pulse; lra).
    apply Rle_trans with (1 := ramp1). right. unfold F, allPoles. rewrite R1, Z1. cbn [combine List.map fst snd audible fold_right].
    unfold onePole. rewrite Rplus_0_r. rewrite Cmult_0_r, Cplus_0_l. reflexivity.
Qed.
Print Assumptions C62_same_rate_refuted.

(** ** cases: the demo resampler loses that pulse; and octave 1 (step 0.3) of a table of eight
    samples at 48 kHz, 0.1 being in octave 0 *)
Example C62_case : forall d, resamplerOk RNum (demo_src RNum) /\ mipmap RNum (demo_src RNum) pulse 1 = [0; 0; 0; 0] /\
  exists w, wt_build RNum (demo_src RNum) d pulse 1 200 (5/1000) = Ok (Some w).
Proof.
  intros d. split; [intros inp ratio cap; repeat split|]. split; [reflexivity|].
  destruct (wt_build_ok RNum (demo_src RNum) d LR pulse 1 200 (5/1000) 3 1) as (w & E & _).
  - lia.
  - lia.
  - reflexivity.
  - unfold int_max. cbn. lia.
  - unfold t0. cbn [tle tofZ RNum]. apply Rle_bool_false. lra.
  - unfold tcast. cbn [ttrunc tmul RNum]. replace (5 / 1000 * 200) with (IZR 1) by field. rewrite Ztrunc_IZR. reflexivity.
  - intros inp ratio cap; repeat split.
  - exists w. exact E.
Qed.

Example C62_case32 : exists w w', reachable FN (demo_src FN) true (rate32 demo_libm) 3 240 w /\
  tcast FN (tmul FN (defaultFade FN) sr48) = Ok 240%Z /\ wt_updateSamplerate FN (demo_src FN) true w sr48 (defaultFade FN) = Ok w' /\
  entryFor 3 (B2R (fl 1 10 : f32)) 0 /\ List.Forall (inOctave 3 1) ([fl 3 10; fl 3 10] ++ [fl 3 10]).
Proof.
  destruct CF_case_reachable as (w & Hw).
  destruct (reach_ok demo_libm demo_exact (demo_src FN) true 3 240 w Hw) as (_ & (nw & HW) & _).
  assert (Hc : tcast FN (tmul FN (defaultFade FN) sr48) = Ok 240%Z) by (vm_compute; reflexivity).
  destruct (updateSamplerate_ok FN (B32_Laws demo_libm demo_exact) (demo_src FN) (mkCfg true 4) ltac:(cbn; lia)
     ltac:(intros inp ratio cap; repeat split) 3 nw w sr48 (defaultFade FN) HW) as (w' & E & _).
  { split; [vm_compute; reflexivity|]. exists 240%Z. split; [exact Hc|lia]. }
  exists w, w'. split; [exact Hw|]. split; [exact Hc|]. split; [exact E|].
  destruct CF_case_octaves as (A & B & _). split; [exact A|]. cbn [app]. repeat (apply List.Forall_cons; [exact B|]). apply List.Forall_nil.
Qed.
