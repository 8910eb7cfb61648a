(** * C64: standing still (release builds)

    A caller may pause: give the same phase again and again.  A debug build stops there (C58).
    A release build, as long as the phase is not a grid point of the entry it reads, feeds its
    filter with the value the waveform has at that phase, exactly as it should; the pause leaves
    no trace, and a pause that lasts lets the output settle to that value times the gain of the
    filter at frequency 0.  Left out: standing on a grid point, and going back right after
    standing (there the library is one segment off). *)
From Coq Require Import ZArith List Bool Reals Lia Lra Arith.
From Flocq Require Import Core.
From Verif Require Import Num Maths CrossFader Wavetable Filters Osc Spec SpecC SpecT NumFacts Laws CFFacts
  WTFacts BuildFacts SimdFacts OscFacts OscStep OscRun OscHist CFHist PTables PHist RNum RLaws Demo.
From Coquelicot Require Import Coquelicot.
From Verif Require Import SpecE SpecX SpecY SpecZ ExactMath ExactStep ExactRun ExactHist ExactSig ExactCover ExactLaws
  ExactClick PExact PClick PHold Prop_Exact.
Import ListNotations.
Local Open Scope R_scope.

(** histories with pauses give the ideal output, sample for sample *)
Theorem C64_pauses : forall src cfg F ops st ys,
  (1 <= batch cfg)%nat -> exactFilter F -> roams src (dbg cfg) F None ops st ys ->
  exists o, Osc.run RNum src cfg F (osc_new RNum F) ops = Ok (o, ys).
Proof.
  intros src cfg F ops st ys HB HF H.
  destruct (roams_exact src cfg F HB HF None ops st ys H (osc_new RNum F) I) as (o & E & _). eauto.
Qed.

(** which histories: a table built and loaded, forward in the lowest octave until the
    cross-fader has settled, then any walk within that octave, pauses included, that does not
    pause on a grid point and does not turn back right after a pause *)
Theorem C64_pausing_histories : forall src cfg F wfs nw K w sr fade n p d ps dir ps2,
  dbg cfg = false -> (1 <= batch cfg)%nat -> exactFilter F ->
  wellFormed RNum wfs nw K -> 0 < sr -> 1 <= fade * sr < IZR int_max -> tcast RNum (fade * sr) = Ok n ->
  wt_build RNum src false wfs nw sr fade = Ok (Some w) -> sharp p -> 0 < d -> entryFor K d 0 ->
  List.Forall sharp ps -> (n <= Z.of_nat (length ps))%Z ->
  List.Forall (fun s => 0 < s <= /2 /\ entryFor K s 0) (stepsOf kForward p ps) ->
  List.Forall sharp ps2 ->
  List.Forall (fun s => Rabs s <= /2 /\ entryFor K (Rabs s) 0) (stepsOf dir (last ps p) ps2) ->
  noTurn (stepsOf dir (last ps p) ps2) -> standsOff dir K (last ps p) ps2 ->
  let ops := [OpInit RNum (Some w) p d; OpProcess RNum kForward ps; OpProcess RNum dir ps2] in
  exists st ys o, roams src (dbg cfg) F None ops (Some st) ys /\
    Osc.run RNum src cfg F (osc_new RNum F) ops = Ok (o, ys).
Proof.
  intros src cfg F wfs nw K w sr fade n p d ps dir ps2 D HB HF HW Hs Hf Hn Hb Hp Hd Hr Hsh Hl Hst Hsh2 Hst2 Hnt Hso ops.
  destruct (still_plays src F wfs nw K w sr fade n p d ps dir ps2 HW Hs Hf Hn Hb Hp Hd Hr Hsh Hl Hst Hsh2 Hst2 Hnt Hso) as (st & ys & H).
  rewrite <- D in H. destruct (C64_pauses src cfg F _ _ _ HB HF H) as (o & E). exists st, ys, o. auto.
Qed.

(** a pause that lasts: the output settles to the value of the waveform at the held phase times
    the gain of the filter at frequency 0 *)
Theorem C64_hold_settles : forall src cfg F wfs nw K w sr fade n p d ps dir,
  dbg cfg = false -> (1 <= batch cfg)%nat -> exactFilter F -> stable F ->
  wellFormed RNum wfs nw K -> 0 < sr -> 1 <= fade * sr < IZR int_max -> tcast RNum (fade * sr) = Ok n ->
  wt_build RNum src false wfs nw sr fade = Ok (Some w) -> sharp p -> 0 < d -> entryFor K d 0 ->
  List.Forall sharp ps -> (n <= Z.of_nat (length ps))%Z ->
  List.Forall (fun s => 0 < s <= /2 /\ entryFor K s 0) (stepsOf kForward p ps) ->
  ~ onGrid K (last ps p) ->
  exists ys, forall eps, 0 < eps -> exists N0, forall N, exists o zs,
    Osc.run RNum src cfg F (osc_new RNum F)
      [OpInit RNum (Some w) p d; OpProcess RNum kForward ps; OpProcess RNum dir (repeat (last ps p) N)] = Ok (o, ys ++ zs) /\
    length zs = N /\
    forall i y, (N0 <= i)%nat -> nth_error zs i = Some y ->
      Rabs (y - dcGain F * wave (waveform RNum wfs (2 ^ K) 0) (last ps p)) <= eps.
Proof.
  intros src cfg F wfs nw K w sr fade n p d ps dir D HB HF HS HW Hs Hf Hn Hb Hp Hd Hr Hsh Hl Hst Hog.
  destruct (built_fresh src false F wfs nw K w sr fade n p d 0 HW Hs Hf Hn Hb Hp Hd Hr)
    as (HT & w' & m & g0 & Fr & HT' & En & Hn1 & Hg & Hcs & Hm).
  set (st0 := mkIdeal K nw wfs w' 0 p d m (repeat (RtoC 0) (length (f_r F)))) in *.
  destruct (settle_forward src false F n ps st0 g0 0) as (st1 & ys & B & E1 & E2 & E3 & E4 & E5 & E6 & E7 & E8); auto; [lia|].
  cbn [st0 id_K id_nw id_wfs id_phase] in *.
  assert (HK : (2 <= K)%Z) by (destruct HW as (HK & _); lia).
  assert (Pl : plays src false F None [OpInit RNum (Some w) p d; OpProcess RNum kForward ps] (Some st1) (ys ++ [])).
  { eapply pl_load; [left; reflexivity|exact HW|exact HT|exact Fr|]. eapply pl_process; [exact B|]. constructor. }
  assert (Wf : id_wf st1 = 0%Z).
  { clear -B. assert (G : forall st ps st' ys, block src false F kForward st ps st' ys -> id_wf st' = id_wf st).
    { induction 1 as [|? ? ? ? ? ? ? S ? IH]; [reflexivity|]. rewrite IH. now destruct S. }
    now rewrite (G _ _ _ _ B). }
  assert (Pl' := Pl). rewrite <- D in Pl'.
  destruct (plays_exact src cfg F HB HF _ _ _ _ Pl' (osc_new RNum F) I) as (o1 & _ & Tr). cbn [tracksO] in Tr.
  assert (Ly : length (id_mem st1) = length (f_r F)).
  { rewrite <- (tr_y _ _ _ _ _ Tr). exact (oo_y _ _ _ _ _ _ _ (tr_ok _ _ _ _ _ Tr)). }
  assert (Hps := tr_sharp _ _ _ _ _ Tr). rewrite E8 in Hps.
  set (c := wave (waveform RNum wfs (2 ^ K) 0) (last ps p)).
  exists (ys ++ []). intros eps He.
  assert (Lim := held_lim F HF c (id_mem st1) HS Ly).
  apply is_lim_seq_spec in Lim. destruct (Lim (mkposreal eps He)) as [N0 HN0]. cbn [pos] in HN0.
  exists N0. intros N.
  destruct (hold_block src F HF dir N st1) with (Y := id_mem st1) (k := 0%nat) (c := c) as (st2 & zs & B2 & Lz & Hz);
    rewrite ?E1, ?E2, ?E3, ?E8; auto.
  { symmetry. now apply held_0. }
  { unfold c, entry. rewrite E1, E3, Wf. reflexivity. }
  rewrite E8 in B2.
  assert (Ro : roams src false F None ([OpInit RNum (Some w) p d; OpProcess RNum kForward ps] ++ [OpProcess RNum dir (repeat (last ps p) N)])
     (Some st2) ((ys ++ []) ++ (zs ++ []))).
  { eapply ro_plays; [exact Pl|]. eapply ro_block; [exact B2|]. constructor. }
  rewrite <- D in Ro. destruct (C64_pauses src cfg F _ _ _ HB HF Ro) as (o & E).
  exists o, zs. rewrite (app_nil_r zs) in E. split; [exact E|]. split; [exact Lz|].
  intros i y Hi Ey. rewrite (Hz i y Ey). left. apply HN0. lia.
Qed.

(** what is heard when the first movement after a pause goes back: the ideal sample plus, for
    every pole, 2 r (d len kink) click, where the kink is the bend of the waveform at the grid
    point [b] above the held phase, which the movement never reaches *)
Theorem C64_turning_back : forall src cfg F ops st ys dir p mu w',
  (1 <= batch cfg)%nat -> exactFilter F ->
  roams src (dbg cfg) F None ops (Some st) ys ->
  let q := id_phase st in
  let d := stepBetween RNum dir q p in
  let m := id_entry st in
  let len := zlen (entry src st m) in
  let j := Zfloor (q * IZR len) in
  let b := (j + 1)%Z in
  id_step st = 0 -> sharp p -> -/2 <= d < 0 ->
  wt_findMipMapIndices RNum (dbg cfg) (id_tab st) (Rabs d) = Ok (w', (m, 1, mu, 0)) ->
  IZR j < q * IZR len -> (b < len)%Z ->
  let ideal := allPoles F (fun u => wave (entry src st m) (q + d * u)) (id_mem st) in
  let e z := (RtoC (d * IZR len * kink (entry src st m) b) * click z ((IZR b / IZR len - q) / - d))%C in
  outputs RNum (Osc.run RNum src cfg F (osc_new RNum F) (ops ++ [OpProcess RNum dir [p]]))
    = Ok (ys ++ [audible (disturbed F e ideal)]).
Proof.
  intros src cfg F ops st ys dir p mu w' HB HF Hr q d m len j b Hs Hsh Hd Hf Hj Hb ideal e.
  destruct (roams_exact src cfg F HB HF None ops (Some st) ys Hr (osc_new RNum F) I) as (o & E & Tr). cbn [tracksO] in Tr.
  destruct (still_click src cfg F HB HF dir st p d w' m mu o Tr Hs eq_refl Hsh eq_refl Hd Hf Hj Hb) as (o' & E').
  assert (Ei : allPoles F (mixed src st (id_phase st) d (m, 1, mu, 0)) (id_mem st) = ideal).
  { apply allPoles_ext. intros u _. cbn. fold q. ring. }
  rewrite Ei in E'.
  rewrite (run_app0 src cfg F _ _ _ _ _ E). cbn [Osc.run Osc.apply]. unfold process.
  rewrite (oo_wt _ _ _ _ _ _ _ (tr_ok _ _ _ _ _ Tr)).
  rewrite assert_ok by reflexivity. cbn [bind].
  rewrite assert_ok by reflexivity. cbn [bind List.map processLoop].
  rewrite E'. reflexivity.
Qed.
Print Assumptions C64_turning_back.

Lemma dyadic16 i : (0 <= i < 16)%Z -> sharp (IZR i / 16).
Proof. intros H. apply (sharp_dyadic 4 i); lia. Qed.
Lemma odd16_off i : (i = 2 * (i / 2) + 1)%Z -> ~ onGrid 3 (IZR i / 16).
Proof.
  intros Hi [j Hj]. change (2 ^ 3)%Z with 8%Z in Hj. assert (E : IZR i = IZR (2 * j)) by (rewrite mult_IZR; lra).
  apply eq_IZR in E. lia.
Qed.
(** so "a pause may be followed by any movement" is false: with the smallest shipped filter and
    any waveform of 8 samples, standing one sample at 3/16 and going back to 1/16 makes a sample
    that is off by at least 1/100 of the bend of the waveform at its sample 2 *)
Theorem C64_turn_back_refuted : forall src cfg wfs w sr fade,
  dbg cfg = false -> (1 <= batch cfg)%nat -> wellFormed RNum wfs 1 3 -> 0 < sr -> 1 <= fade * sr < 2 ->
  wt_build RNum src false wfs 1 sr fade = Ok (Some w) ->
  let F := filt RNum kType1 in
  let ops := [OpInit RNum (Some w) (1/16) (1/8); OpProcess RNum kBidirectionnal [3/16; 3/16]] in
  exists st y1 y2 y z,
    roams src false F None ops (Some st) [y1; y2] /\
    ideally src false F kBidirectionnal st (1/16) z /\
    outputs RNum (Osc.run RNum src cfg F (osc_new RNum F) (ops ++ [OpProcess RNum kBidirectionnal [1/16]]))
      = Ok [y1; y2; y] /\
    Rabs (y - z) >= Rabs (kink (waveform RNum wfs 8 0) 2) / 100.
Proof.
  intros src cfg wfs w sr fade D HB HW Hs Hf Hb F ops.
  destruct (built_state src false wfs 3 w sr fade HW ltac:(lia) Hs Hf Hb) as (HT & Hn & Hst).
  assert (HF : exactFilter F) by apply shipped_exact.
  assert (S1 : sharp (1/16)) by (apply (sharp_dyadic 4 1); lia).
  assert (S3 : sharp (3/16)) by (apply (sharp_dyadic 4 3); lia).
  assert (Ent : entryFor 3 (1/8) 0) by (split; [lia|]; split; [right; cbn; lra|left; reflexivity]).
  destruct (find_R src false wfs 1 3 w (1/8) 0 HW HT ltac:(lra) Ent) as (w0 & E0 & T0 & _ & HT0 & _).
  rewrite Hn, Hst in E0, T0. cbn [outS Z.eqb andb cfStep] in E0, T0.
  destruct (find_R src false wfs 1 3 w0 (1/8) 0 HW HT0 ltac:(lra) Ent) as (w1 & E1 & T1 & _ & HT1 & _).
  rewrite T0 in E1, T1. cbn [outS Z.eqb andb cfStep] in E1, T1.
  destruct (find_0 src wfs 1 3 w1 HW HT1 T1) as (w2 & E2 & T2 & HT2).
  destruct (find_R src false wfs 1 3 w2 (1/8) 0 HW HT2 ltac:(lra) Ent) as (w3 & E3 & _).
  rewrite T2 in E3. cbn [outS Z.eqb andb cfStep] in E3.
  unfold t1, t0 in E0, E1, E2, E3. cbn [tofZ RNum] in E0, E1, E2, E3.
  assert (A8 : Rabs (1 / 8) = 1 / 8) by (apply Rabs_pos_eq; lra).
  assert (D1 : stepBetween RNum kBidirectionnal (1/16) (3/16) = 1/8) by (steps; repeat rcase; match goal with |- @eq _ ?a ?b => change (@eq R a b) end; field).
  assert (D2 := step_same kBidirectionnal (3/16)).
  assert (D3 : stepBetween RNum kBidirectionnal (3/16) (1/16) = - (1/8)) by (steps; repeat rcase; match goal with |- @eq _ ?a ?b => change (@eq R a b) end; field).
  set (mem0 := repeat (RtoC 0) (length (f_r F))).
  set (st0 := mkIdeal 3 1 wfs w0 0 (1/16) (1/8) 0 mem0).
  set (mem1 := allPoles F (mixed src st0 (1/16) (1/8) (0%Z, 1, 1%Z, 0)) mem0).
  set (st1 := mkIdeal 3 1 wfs w1 0 (3/16) (1/8) 0 mem1).
  set (mem2 := allPoles F (mixed src st1 (3/16) 0 (0%Z, 1, 1%Z, 0)) mem1).
  set (st2 := mkIdeal 3 1 wfs w2 0 (3/16) 0 0 mem2).
  assert (P : roams src false F None ops (Some st2) [audible mem1; audible mem2]).
  { apply (ro_plays src false F None [OpInit RNum (Some w) (1/16) (1/8)] (Some st0) [] [OpProcess RNum kBidirectionnal [3/16; 3/16]]).
    - eapply pl_load; [left; reflexivity|exact HW|exact HT| |constructor].
      eapply fresh_; [exact S1|lra|rewrite A8; exact E0].
    - change [audible mem1; audible mem2] with ([audible mem1; audible mem2] ++ []). eapply ro_block; [|constructor].
      apply (block0_cons src false F kBidirectionnal st0 (3/16) st1).
      + apply (sample0_ src false F kBidirectionnal st0 (3/16) (1/8) w1 0 1 1 0 mem1 S3 (eq_sym D1)); auto; try lra.
        * cbn [st0 id_tab]. rewrite A8. exact E1.
        * left. left. cbn. split; [lra|lia].
      + apply (block0_cons src false F kBidirectionnal st1 (3/16) st2); [|constructor].
        apply (sample0_ src false F kBidirectionnal st1 (3/16) 0 w2 0 1 1 0 mem2 S3 (eq_sym D2)); auto; try lra.
        * cbn [st1 id_tab]. rewrite Rabs_R0. exact E2.
        * left. left. cbn. split; [lra|lia].
        * intros _. apply (odd16_off 3). reflexivity. }
  set (ideal := allPoles F (mixed src st2 (3/16) (-(1/8)) (0%Z, 1, 1%Z, 0)) mem2).
  exists st2, (audible mem1), (audible mem2).
  assert (P' := P). rewrite <- D in P'.
  destruct (roams_exact src cfg F HB HF None ops (Some st2) _ P' (osc_new RNum F) I) as (o' & E' & Tr).
  cbn [tracksO] in Tr.
  assert (Hlen : zlen (entry src st2 0) = 8%Z).
  { destruct (entry_slot src cfg F HB st2 o' 0 Tr ltac:(cbn; lia)) as (A & _). exact A. }
  assert (Y := C64_turning_back src cfg F ops st2 _ kBidirectionnal (1/16) 1 w3 HB HF P').
  assert (Efl : Zfloor (3 / 16 * IZR 8) = 1%Z) by (apply Zfloor_imp; cbn; lra).
  cbv zeta in Y. change (id_phase st2) with (3/16) in Y. change (id_entry st2) with 0%Z in Y.
  change (id_step st2) with 0 in Y. change (id_tab st2) with w2 in Y. change (id_mem st2) with mem2 in Y.
  rewrite D3, Hlen, Efl, Rabs_Ropp, A8, D in Y.
  specialize (Y eq_refl S1 ltac:(lra) E3 ltac:(lra) ltac:(lia)).
  change (1 + 1)%Z with 2%Z in Y.
  eexists. exists (audible ideal). split; [exact P|]. split.
  { apply (ideally_ src false F kBidirectionnal st2 (1/16) (-(1/8)) w3 0 1 1 0 S1 (eq_sym D3)); [lra|lra|].
    cbn [st2 id_tab]. rewrite Rabs_Ropp, A8. exact E3. }
  split; [exact Y|].
  change (waveform RNum wfs 8 0) with (entry src st2 0).
  assert (L2 : length mem2 = 1%nat).
  { unfold mem2. apply (length_allPoles cfg F HB HF). unfold mem1. apply (length_allPoles cfg F HB HF). reflexivity. }
  unfold F at 1. rewrite disturbed1 by (apply (length_allPoles cfg F HB HF); exact L2).
  replace (allPoles F (fun u => wave (entry src st2 0) (3 / 16 + - (1 / 8) * u)) mem2) with ideal.
  2:{ apply allPoles_ext. intros u _. cbn. ring. }
  rewrite Re_scal. replace ((2 / 8 - 3 / 16) / - - (1 / 8)) with (/ 2) by field.
  set (v := Re _). assert (Hv : v <= - / 100) by apply click1. set (kk := kink _ 2).
  replace (audible ideal + - (1 / 8) * 8 * kk * v - audible ideal) with (kk * - v) by field.
  rewrite Rabs_mult, (Rabs_pos_eq (- v)) by lra. assert (A := Rabs_pos kk). apply Rle_ge. unfold Rdiv.
  apply Rmult_le_compat_l; lra.
Qed.
Print Assumptions C64_turn_back_refuted.
Print Assumptions C64_pauses.
Print Assumptions C64_pausing_histories.
Print Assumptions C64_hold_settles.

(** ** a concrete case: the 8-sample triangle, a walk that pauses at 1/16, 3/16 (twice) and turns
    back only after moving on *)
Ltac sharps16 := repeat (apply List.Forall_cons; [apply dyadic16; lia|]); constructor.

Example ex_pausing : exists w st ys,
  wt_build RNum (demo_src RNum) false demoWave 1 1 1 = Ok (Some w) /\
  roams (demo_src RNum) false (filt RNum kType2) None
    [OpInit RNum (Some w) 0 (1/8); OpProcess RNum kForward [1/16];
     OpProcess RNum kBidirectionnal [1/16; 3/16; 3/16; 3/16; 5/16; 3/16; 3/16; 4/16]] (Some st) ys.
Proof.
  destruct (demo_table false) as [w Ew]. exists w.
  assert (S0 : sharp 0) by (replace 0 with (0 / 16) by field; apply (dyadic16 0); lia).
  assert (Es : stepsOf kForward 0 [1/16] = [1/16]) by (steps; repeat rcase; listeq).
  assert (Es2 : stepsOf kBidirectionnal (1/16) [1/16; 3/16; 3/16; 3/16; 5/16; 3/16; 3/16; 4/16] =
     [0; 1/8; 0; 0; 1/8; -(1/8); 0; 1/16]).
  { steps. repeat rcase. listeq. }
  destruct (still_plays (demo_src RNum) (filt RNum kType2) demoWave 1 3 w 1 1 1 0 (1/8)
     [1/16] kBidirectionnal [1/16; 3/16; 3/16; 3/16; 5/16; 3/16; 3/16; 4/16]) as (st & ys & H).
  - exact demo_wellFormed.
  - lra.
  - split; [lra|]. rewrite Rmult_1_l. apply IZR_lt. reflexivity.
  - exact demo_cast.
  - exact Ew.
  - exact S0.
  - lra.
  - ent.
  - sharps16.
  - cbn. lia.
  - rewrite Es. repeat (apply List.Forall_cons; [split; [lra|ent]|]); constructor.
  - sharps16.
  - cbn [last]. rewrite Es2. repeat (apply List.Forall_cons;
      [rewrite ?Rabs_Ropp, ?Rabs_R0, ?(Rabs_pos_eq (1/8)), ?(Rabs_pos_eq (1/16)) by lra; split; [lra|ent]|]); constructor.
  - cbn [last]. rewrite Es2. cbn [noTurn]. repeat split; intros; lra.
  - cbn [last standsOff]. repeat split; try (intros _; apply odd16_off; reflexivity).
    intros E. exfalso. revert E. cbn [stepBetween]. steps. repeat rcase. lra.
  - exists st, ys. split; [exact Ew|exact H].
Qed.

(** and C64_hold_settles applies to the same table, held at 1/16 *)
Example ex_hold : forall f, exists w,
  wt_build RNum (demo_src RNum) false demoWave 1 1 1 = Ok (Some w) /\
  exists ys, forall eps, 0 < eps -> exists N0, forall N, exists o zs,
    Osc.run RNum (demo_src RNum) (mkCfg false 4) (filt RNum f) (osc_new RNum (filt RNum f))
      [OpInit RNum (Some w) 0 (1/8); OpProcess RNum kForward [1/16]; OpProcess RNum kForward (repeat (1/16) N)] = Ok (o, ys ++ zs) /\
    length zs = N /\
    forall i y, (N0 <= i)%nat -> nth_error zs i = Some y -> Rabs (y - dcGain (filt RNum f) * (1/2)) <= eps.
Proof.
  intros f. destruct (demo_table false) as [w Ew]. exists w. split; [exact Ew|].
  assert (S0 : sharp 0) by (replace 0 with (0 / 16) by field; apply (dyadic16 0); lia).
  assert (Es : stepsOf kForward 0 [1/16] = [1/16]) by (steps; repeat rcase; listeq).
  assert (Ew2 : wave (waveform RNum demoWave (2 ^ 3) 0) (1 / 16) = 1 / 2).
  { unfold wave. change (zlen (waveform RNum demoWave (2 ^ 3) 0)) with 8%Z.
    replace (Zfloor (1 / 16 * IZR 8)) with 0%Z by (symmetry; apply Zfloor_imp; cbn; lra).
    change (cyc (waveform RNum demoWave (2 ^ 3) 0) 0) with 0. change (cyc (waveform RNum demoWave (2 ^ 3) 0) (0 + 1)) with 1.
    lra. }
  rewrite <- Ew2.
  apply (C64_hold_settles (demo_src RNum) (mkCfg false 4) (filt RNum f) demoWave 1 3 w 1 1 1 0 (1/8) [1/16] kForward);
    auto; try lra.
  - cbn; lia.
  - apply shipped_exact.
  - apply shipped_stable.
  - exact demo_wellFormed.
  - split; [lra|]. rewrite Rmult_1_l. apply IZR_lt. reflexivity.
  - exact demo_cast.
  - ent.
  - sharps16.
  - cbn. lia.
  - rewrite Es. repeat (apply List.Forall_cons; [split; [lra|ent]|]); constructor.
  - cbn [last]. apply odd16_off. reflexivity.
Qed.
