(** * C26, C27: the moves between table entries that lose the position *)
From Coq Require Import ZArith List Bool Reals Lia Lra Arith.
From Flocq Require Import Core.
From Verif Require Import Num Maths CrossFader Wavetable Filters Osc Spec SpecC SpecT NumFacts Laws CFFacts
  WTFacts BuildFacts OscHist CFHist PTables RNum RLaws Demo.
From Coquelicot Require Import Coquelicot.
From Verif Require Import SpecE SpecX SpecY ExactMath ExactStep ExactRun ExactHist ExactCover ExactLaws ExactClick PExact PClick.
Import ListNotations.
Local Open Scope R_scope.
Ltac inR := match goal with |- @eq _ ?a ?b => change (@eq R a b) end.

(** ** C26: what is heard when a reverse-playing oscillator rises to entry [m].  Let [c] be the
    grid position it remembers.  Unless 2^(m-m0) divides [c], the sample is the ideal one plus,
    for every pole, 2 r (d len kink) click: it runs as if the bend of the waveform at sample
    [b] of the new entry, which lies ahead of the starting phase, had just been passed. *)
Theorem C26_click : forall src cfg F ops st ys dir p m mu w',
  (1 <= batch cfg)%nat -> exactFilter F ->
  plays src (dbg cfg) F None ops (Some st) ys ->
  let q := id_phase st in
  let d := stepBetween RNum dir q p in
  let c := Zceil (q * IZR (2 ^ (id_K st - id_entry st))) in
  let k := (m - id_entry st)%Z in
  let b := (c / 2 ^ k + 1)%Z in
  let len := zlen (entry src st m) in
  id_step st < 0 -> sharp p -> -/2 <= d < 0 ->
  wt_findMipMapIndices RNum (dbg cfg) (id_tab st) (Rabs d) = Ok (w', (m, 1, mu, 0)) ->
  (0 < k)%Z -> (c mod 2 ^ k <> 0)%Z -> (b < len)%Z ->
  let ideal := allPoles F (fun u => wave (entry src st m) (q + d * u)) (id_mem st) in
  let e z := (RtoC (d * IZR len * kink (entry src st m) b) * click z ((IZR b / IZR len - q) / - d))%C in
  outputs RNum (Osc.run RNum src cfg F (osc_new RNum F) (ops ++ [OpProcess RNum dir [p]]))
    = Ok (ys ++ [audible (disturbed F e ideal)]).
Proof.
  intros src cfg F ops st ys dir p m mu w' HB HF Hp q d c k b len Hs Hsh Hd Hf Hk Hc Hb ideal e.
  apply (one_more src cfg F ops st ys dir p _ HB HF Hp). intros o Tr.
  destruct (rise_click src cfg F HB HF dir st p d w' m mu o Tr Hs Hsh eq_refl Hd Hf ltac:(lia) Hc Hb) as (o' & E).
  assert (Ei : allPoles F (mixed src st (id_phase st) d (m, 1, mu, 0)) (id_mem st) = ideal).
  { apply allPoles_ext. intros u _. cbn. fold q. ring. }
  rewrite Ei in E. exists o'. exact E.
Qed.
Print Assumptions C26_click.

(** With the smallest shipped filter and any waveform of 8 samples: two reverse steps of a
    quarter of a cycle make a sample that is off by at least 1/100 of the bend of the entry of
    4 samples at its sample 2. *)
Theorem C26_reverse_rise_refuted : forall src cfg wfs w sr fade,
  (1 <= batch cfg)%nat -> wellFormed RNum wfs 1 3 -> 0 < sr -> 1 <= fade * sr < 2 ->
  wt_build RNum src (dbg cfg) wfs 1 sr fade = Ok (Some w) ->
  let F := filt RNum kType1 in
  let ops := [OpInit RNum (Some w) (5/8) (-(1/8)); OpProcess RNum kBidirectionnal [3/8]] in
  exists st y1 y z,
    plays src (dbg cfg) F None ops (Some st) [y1] /\
    ideally src (dbg cfg) F kBidirectionnal st (1/8) z /\
    outputs RNum (Osc.run RNum src cfg F (osc_new RNum F) (ops ++ [OpProcess RNum kBidirectionnal [1/8]]))
      = Ok [y1; y] /\
    Rabs (y - z) >= Rabs (kink (mipmap RNum src (waveform RNum wfs 8 0) 1) 2) / 100.
Proof.
  intros src cfg wfs w sr fade HB HW Hs Hf Hb F ops.
  destruct (built_state src (dbg cfg) wfs 3 w sr fade HW ltac:(lia) Hs Hf Hb) as (HT & Hn & Hst).
  assert (HF : exactFilter F) by apply shipped_exact.
  assert (S5 : sharp (5/8)) by (apply (sharp_dyadic 3 5); lia).
  assert (S3 : sharp (3/8)) by (apply (sharp_dyadic 3 3); lia).
  assert (S1 : sharp (1/8)) by (apply (sharp_dyadic 3 1); lia).
  (* the two steps *)
  destruct (find_R src (dbg cfg) wfs 1 3 w (1/8) 0 HW HT ltac:(lra)) as (w0 & E0 & T0 & N0 & HT0 & _).
  { split; [lia|]. split; [right; cbn; lra|left; reflexivity]. }
  rewrite Hn, Hst in E0, T0. cbn [outS Z.eqb andb cfStep] in E0, T0. rewrite Hn in N0.
  destruct (find_R src (dbg cfg) wfs 1 3 w0 (1/4) 1 HW HT0 ltac:(lra)) as (w1 & E1 & T1 & N1 & HT1 & _).
  { split; [lia|]. split; [left; lia|right; cbn; lra]. }
  rewrite N0, T0 in E1, T1. cbn [outS Z.eqb andb cfStep fadeT Z.ltb Z.compare] in E1, T1. rewrite N0 in N1.
  destruct (find_R src (dbg cfg) wfs 1 3 w1 (1/4) 1 HW HT1 ltac:(lra)) as (w2 & E2 & _).
  { split; [lia|]. split; [left; lia|right; cbn; lra]. }
  rewrite N1, T1 in E2. cbn in E2. unfold t1 in E1, E2. cbn [tdiv tsub tofZ RNum] in E1, E2.
  replace (1 / 1) with 1 in E1 by field. replace (1 - 1) with 0 in E1 by ring.
  replace (0 / 1) with 0 in E2 by field. replace (1 - 0) with 1 in E2 by ring.
  replace (1 / 8) with (Rabs (- (1 / 8))) in E0 by (rewrite Rabs_Ropp; apply Rabs_pos_eq; lra).
  replace (1 / 4) with (Rabs (- (1 / 4))) in E1, E2 by (rewrite Rabs_Ropp; apply Rabs_pos_eq; lra).
  assert (D1 : stepBetween RNum kBidirectionnal (5/8) (3/8) = - (1/4)).
  { unfold stepBetween, tfrac. cbn [tsub tadd tlt tofZ tdiv RNum]. rewrite !Rlt_bool_false by lra. inR; field. }
  assert (D2 : stepBetween RNum kBidirectionnal (3/8) (1/8) = - (1/4)).
  { unfold stepBetween, tfrac. cbn [tsub tadd tlt tofZ tdiv RNum]. rewrite !Rlt_bool_false by lra. inR; field. }
  set (mem0 := repeat (RtoC 0) (length (f_r F))).
  set (st0 := mkIdeal 3 1 wfs w0 0 (5/8) (-(1/8)) 0 mem0).
  set (mem1 := allPoles F (mixed src st0 (5/8) (-(1/4)) (0%Z, 1, 1%Z, 0)) mem0).
  set (st1 := mkIdeal 3 1 wfs w1 0 (3/8) (-(1/4)) 0 mem1).
  assert (P : plays src (dbg cfg) F None ops (Some st1) [audible mem1]).
  { apply (pl_load src (dbg cfg) F None _ w (5/8) (-(1/8)) 3 1 wfs st0).
    - left; reflexivity.
    - exact HW.
    - exact HT.
    - eapply fresh_; [exact S5|lra|exact E0].
    - change [audible mem1] with ([audible mem1] ++ []). eapply pl_process; [|constructor].
      econstructor; [|constructor].
      apply (sample_ src (dbg cfg) F kBidirectionnal st0 (3/8) (-(1/4)) w1 0 1 1 0 mem1 S3 (eq_sym D1)).
      + lra.
      + lra.
      + exact E1.
      + right. cbn. split; [lra|]. left. reflexivity.
      + reflexivity. }
  set (ideal := allPoles F (mixed src st1 (3/8) (-(1/4)) (1%Z, 1, 1%Z, 0)) mem1).
  exists st1, (audible mem1).
  assert (Ec : Zceil (3 / 8 * IZR (2 ^ (3 - 0))) = 3%Z).
  { replace (3 / 8 * IZR (2 ^ (3 - 0))) with (IZR 3) by (cbn; field). apply Zceil_IZR. }
  assert (HO := P). destruct (plays_exact src cfg F HB HF None ops (Some st1) _ P (osc_new RNum F) I) as (o' & E' & Tr).
  cbn [tracksO] in Tr.
  assert (Hlen : zlen (entry src st1 1) = 4%Z).
  { destruct (entry_slot src cfg F HB st1 o' 1 Tr ltac:(cbn; lia)) as (A & _). exact A. }
  assert (Y := C26_click src cfg F ops st1 [audible mem1] kBidirectionnal (1/8) 1 1 w2 HB HF P).
  cbv zeta in Y. change (id_phase st1) with (3/8) in Y. change (id_K st1) with 3%Z in Y. change (id_entry st1) with 0%Z in Y.
  change (id_step st1) with (-(1/4)) in Y. change (id_tab st1) with w1 in Y. change (id_mem st1) with mem1 in Y.
  rewrite D2, Ec, Hlen in Y.
  specialize (Y ltac:(lra) S1 ltac:(lra) E2 ltac:(lia) ltac:(discriminate) ltac:(reflexivity)).
  change (3 / 2 ^ (1 - 0) + 1)%Z with 2%Z in Y.
  eexists. exists (audible ideal). split; [exact P|]. split.
  { apply (ideally_ src (dbg cfg) F kBidirectionnal st1 (1/8) (-(1/4)) w2 1 1 1 0 S1 (eq_sym D2)); [lra|lra|exact E2]. }
  split; [exact Y|].
  change (mipmap RNum src (waveform RNum wfs 8 0) 1) with (entry src st1 1).
  assert (L1 : length mem1 = 1%nat).
  { unfold mem1. apply (length_allPoles cfg F HB HF). reflexivity. }
  unfold F at 1. rewrite disturbed1 by (apply (length_allPoles cfg F HB HF); exact L1).
  replace (allPoles F (fun u => wave (entry src st1 1) (3 / 8 + - (1 / 4) * u)) mem1) with ideal.
  2:{ apply allPoles_ext. intros u _. cbn. ring. }
  rewrite Re_scal. replace ((2 / 4 - 3 / 8) / - - (1 / 4)) with (/ 2) by field.
  set (v := Re _). assert (Hv : v <= - / 100) by apply click1. set (kk := kink _ 2).
  replace (audible ideal + - (1 / 4) * 4 * kk * v - audible ideal) with (kk * - v) by field.
  rewrite Rabs_mult, (Rabs_pos_eq (- v)) by lra. assert (A := Rabs_pos kk). apply Rle_ge. unfold Rdiv.
  apply Rmult_le_compat_l; lra.
Qed.
Print Assumptions C26_reverse_rise_refuted.

(** ** C27: what is heard on the first sample of a drop to entries [m], [m+1] after a forward
    step: the ideal sample minus, for every bend [i] of entry [m+1] between the start of the old
    segment (sample J of entry m+1) and the starting phase (sample T), 2 r (d len kink) click. *)
Theorem C27_click : forall src cfg F ops st ys dir p m mu w',
  (1 <= batch cfg)%nat -> exactFilter F ->
  plays src (dbg cfg) F None ops (Some st) ys ->
  let q := id_phase st in
  let d := stepBetween RNum dir q p in
  let len := zlen (entry src st mu) in
  let J := (Zfloor (q * IZR (2 ^ (id_K st - id_entry st))) * 2 ^ (id_entry st - mu))%Z in
  let T := Zfloor (q * IZR len) in
  0 < id_step st -> sharp p -> 0 < d <= /2 ->
  wt_findMipMapIndices RNum (dbg cfg) (id_tab st) (Rabs d) = Ok (w', (m, 0, mu, 1)) ->
  (m < id_entry st)%Z ->
  let ideal := allPoles F (fun u => wave (entry src st mu) (q + d * u)) (id_mem st) in
  let e z := (- sumFrom (fun i => RtoC (d * IZR len * kink (entry src st mu) i)
                                  * click z ((q - IZR i / IZR len) / d)) (J + 1) (T + 1))%C in
  outputs RNum (Osc.run RNum src cfg F (osc_new RNum F) (ops ++ [OpProcess RNum dir [p]]))
    = Ok (ys ++ [audible (disturbed F e ideal)]).
Proof.
  intros src cfg F ops st ys dir p m mu w' HB HF Hp q d len J T Hs Hsh Hd Hf Hm ideal e.
  apply (one_more src cfg F ops st ys dir p _ HB HF Hp). intros o Tr.
  destruct (drop_click src cfg F HB HF dir st p d w' m mu o Tr Hs Hsh eq_refl Hd Hf Hm) as (o' & E).
  assert (Ei : allPoles F (mixed src st (id_phase st) d (m, 0, mu, 1)) (id_mem st) = ideal).
  { apply allPoles_ext. intros u _. cbn. fold q. ring. }
  rewrite Ei in E. exists o'. exact E.
Qed.
Print Assumptions C27_click.

(** With the smallest shipped filter and any waveform of 16 samples: two forward steps of a
    quarter of a cycle followed by one of 1/16 make a sample that is off by at least 1/200 of
    the bend of the entry of 8 samples at its sample 1. *)
Theorem C27_two_octave_drop_refuted : forall src cfg wfs w sr fade,
  (1 <= batch cfg)%nat -> wellFormed RNum wfs 1 4 -> 0 < sr -> 1 <= fade * sr < 2 ->
  wt_build RNum src (dbg cfg) wfs 1 sr fade = Ok (Some w) ->
  let F := filt RNum kType1 in
  let ops := [OpInit RNum (Some w) (29/32) (1/4); OpProcess RNum kForward [5/32]] in
  exists st y1 y z,
    plays src (dbg cfg) F None ops (Some st) [y1] /\
    ideally src (dbg cfg) F kForward st (7/32) z /\
    outputs RNum (Osc.run RNum src cfg F (osc_new RNum F) (ops ++ [OpProcess RNum kForward [7/32]]))
      = Ok [y1; y] /\
    Rabs (y - z) >= Rabs (kink (mipmap RNum src (waveform RNum wfs 16 0) 1) 1) / 200.
Proof.
  intros src cfg wfs w sr fade HB HW Hs Hf Hb F ops.
  destruct (built_state src (dbg cfg) wfs 4 w sr fade HW ltac:(lia) Hs Hf Hb) as (HT & Hn & Hst).
  assert (HF : exactFilter F) by apply shipped_exact.
  assert (S29 : sharp (29/32)) by (apply (sharp_dyadic 5 29); lia).
  assert (S5 : sharp (5/32)) by (apply (sharp_dyadic 5 5); lia).
  assert (S7 : sharp (7/32)) by (apply (sharp_dyadic 5 7); lia).
  destruct (find_R src (dbg cfg) wfs 1 4 w (1/4) 2 HW HT ltac:(lra)) as (w0 & E0 & T0 & N0 & HT0 & _).
  { split; [lia|]. split; [left; lia|right; cbn; lra]. }
  rewrite Hn, Hst in E0, T0. cbn in E0, T0. rewrite Hn in N0.
  destruct (find_R src (dbg cfg) wfs 1 4 w0 (1/4) 2 HW HT0 ltac:(lra)) as (w1 & E1 & T1 & N1 & HT1 & _).
  { split; [lia|]. split; [left; lia|right; cbn; lra]. }
  rewrite N0, T0 in E1, T1. cbn in E1, T1. rewrite N0 in N1.
  destruct (find_R src (dbg cfg) wfs 1 4 w1 (1/16) 0 HW HT1 ltac:(lra)) as (w2 & E2 & _).
  { split; [lia|]. split; [right; cbn; lra|left; reflexivity]. }
  rewrite N1, T1 in E2. cbn in E2. unfold t1 in E0, E1, E2. cbn [tdiv tsub tofZ RNum] in E0, E1, E2.
  replace (1 / 1) with 1 in E0, E2 by field. replace (1 - 1) with 0 in E0, E2 by ring.
  replace (0 / 1) with 0 in E1 by field. replace (1 - 0) with 1 in E1 by ring.
  rewrite <- (Rabs_pos_eq (1/4)) in E0, E1 by lra. rewrite <- (Rabs_pos_eq (1/16)) in E2 by lra.
  assert (D1 : stepBetween RNum kForward (29/32) (5/32) = 1/4).
  { unfold stepBetween, t0, t1. cbn [tsub tadd tlt tofZ tdiv RNum]. rewrite Rlt_bool_true by lra. inR; field. }
  assert (D2 : stepBetween RNum kForward (5/32) (7/32) = 1/16).
  { unfold stepBetween, t0, t1. cbn [tsub tadd tlt tofZ tdiv RNum]. rewrite Rlt_bool_false by lra. inR; field. }
  set (mem0 := repeat (RtoC 0) (length (f_r F))).
  set (st0 := mkIdeal 4 1 wfs w0 0 (29/32) (1/4) 1 mem0).
  set (mem1 := allPoles F (mixed src st0 (29/32) (1/4) (2%Z, 1, 2%Z, 0)) mem0).
  set (st1 := mkIdeal 4 1 wfs w1 0 (5/32) (1/4) 2 mem1).
  assert (P : plays src (dbg cfg) F None ops (Some st1) [audible mem1]).
  { apply (pl_load src (dbg cfg) F None _ w (29/32) (1/4) 4 1 wfs st0).
    - left; reflexivity.
    - exact HW.
    - exact HT.
    - eapply fresh_; [exact S29|lra|exact E0].
    - change [audible mem1] with ([audible mem1] ++ []). eapply pl_process; [|constructor].
      econstructor; [|constructor].
      apply (sample_ src (dbg cfg) F kForward st0 (5/32) (1/4) w1 2 1 2 0 mem1 S5 (eq_sym D1)).
      + lra.
      + lra.
      + exact E1.
      + left. cbn. split; [lra|]. lia.
      + reflexivity. }
  set (ideal := allPoles F (mixed src st1 (5/32) (1/16) (0%Z, 0, 1%Z, 1)) mem1).
  exists st1, (audible mem1).
  destruct (plays_exact src cfg F HB HF None ops (Some st1) _ P (osc_new RNum F) I) as (o' & E' & Tr).
  cbn [tracksO] in Tr.
  assert (Hlen : zlen (entry src st1 1) = 8%Z).
  { destruct (entry_slot src cfg F HB st1 o' 1 Tr ltac:(cbn; lia)) as (A & _). exact A. }
  assert (Y := C27_click src cfg F ops st1 [audible mem1] kForward (7/32) 0 1 w2 HB HF P).
  cbv zeta in Y. change (id_phase st1) with (5/32) in Y. change (id_K st1) with 4%Z in Y. change (id_entry st1) with 2%Z in Y.
  change (id_step st1) with (1/4) in Y. change (id_tab st1) with w1 in Y. change (id_mem st1) with mem1 in Y.
  assert (Ec : Zfloor (5 / 32 * IZR (2 ^ (4 - 2))) = 0%Z) by (apply Zfloor_imp; cbn; lra).
  assert (ET : Zfloor (5 / 32 * 8) = 1%Z) by (apply Zfloor_imp; cbn; lra).
  rewrite D2, Ec, Hlen, ET in Y.
  specialize (Y ltac:(lra) S7 ltac:(lra) E2 ltac:(lia)).
  eexists. exists (audible ideal). split; [exact P|]. split.
  { apply (ideally_ src (dbg cfg) F kForward st1 (7/32) (1/16) w2 0 0 1 1 S7 (eq_sym D2)); [lra|lra|exact E2]. }
  split; [exact Y|].
  change (mipmap RNum src (waveform RNum wfs 16 0) 1) with (entry src st1 1).
  assert (L1 : length mem1 = 1%nat).
  { unfold mem1. apply (length_allPoles cfg F HB HF). reflexivity. }
  unfold F at 1. rewrite disturbed1 by (apply (length_allPoles cfg F HB HF); exact L1).
  replace (allPoles F (fun u => wave (entry src st1 1) (5 / 32 + 1 / 16 * u)) mem1) with ideal.
  2:{ apply allPoles_ext. intros u _. cbn. ring. }
  change (0 * 2 ^ (2 - 1) + 1)%Z with 1%Z. change (1 + 1)%Z with 2%Z.
  set (kk := kink _ _).
  match goal with |- context [sumFrom ?f 1 2] => change (sumFrom f 1 2) with (f 1%Z + RtoC 0)%C end. cbv beta. fold kk.
  replace ((5 / 32 - 1 / 8) / (1 / 16)) with (/ 2) by field.
  replace (- (RtoC (1 / 16 * 8 * kk) * click z1 (/ 2) + 0))%C with (RtoC (- (kk / 2)) * click z1 (/2))%C.
  2:{ replace (1 / 16 * 8 * kk) with (kk / 2) by field. rewrite RtoC_opp. ring. }
  rewrite Re_scal.
  set (v := Re _). assert (Hv : v <= - / 100) by apply click1.
  replace (audible ideal + - (kk / 2) * v - audible ideal) with (kk * (- v / 2)) by field.
  rewrite Rabs_mult, (Rabs_pos_eq (- v / 2)) by lra. assert (A := Rabs_pos kk). apply Rle_ge. unfold Rdiv.
  apply Rmult_le_compat_l; lra.
Qed.
Print Assumptions C27_two_octave_drop_refuted.

(** ** Concrete waveforms that bend there: the sample is off by at least 1/50 *)
Example ex_click26 : forall cfg, (1 <= batch cfg)%nat -> exists w st y1 y z,
  let ops := [OpInit RNum (Some w) (5/8) (-(1/8)); OpProcess RNum kBidirectionnal [3/8]] in
  wt_build RNum (demo_src RNum) (dbg cfg) [0;0;0;0;1;0;0;0] 1 1 1 = Ok (Some w) /\
  plays (demo_src RNum) (dbg cfg) (filt RNum kType1) None ops (Some st) [y1] /\
  ideally (demo_src RNum) (dbg cfg) (filt RNum kType1) kBidirectionnal st (1/8) z /\
  outputs RNum (Osc.run RNum (demo_src RNum) cfg (filt RNum kType1) (osc_new RNum (filt RNum kType1))
     (ops ++ [OpProcess RNum kBidirectionnal [1/8]])) = Ok [y1; y] /\ Rabs (y - z) >= / 50.
Proof.
  intros cfg HB. set (wfs := [0;0;0;0;1;0;0;0] : list R).
  assert (HW : wellFormed RNum wfs 1 3) by (unfold wellFormed, zlen, int_max; cbn; lia).
  destruct (wt_build_ok RNum (demo_src RNum) (dbg cfg) LR wfs 1 1 1 3 1) as (w & Ew & _);
    [lia|lia|reflexivity|unfold int_max; lia|unfold t0; cbn; apply Rle_bool_false; lra|exact demo_cast|exact demo_resampler|].
  destruct (C26_reverse_rise_refuted (demo_src RNum) cfg wfs w 1 1 HB HW ltac:(lra) ltac:(lra) Ew) as (st & y1 & y & z & P & Q & O & B).
  exists w, st, y1, y, z. cbv zeta. split; [exact Ew|]. split; [exact P|]. split; [exact Q|]. split; [exact O|].
  change (mipmap RNum (demo_src RNum) (waveform RNum wfs 8 0) 1) with ([0;0;1;0] : list R) in B.
  unfold kink in B. change (cyc ([0;0;1;0] : list R) (2 - 1)) with 0 in B. change (cyc ([0;0;1;0] : list R) 2) with 1 in B.
  change (cyc ([0;0;1;0] : list R) (2 + 1)) with 0 in B.
  replace (0 - 2 * 1 + 0) with (- (2)) in B by ring. rewrite Rabs_Ropp, (Rabs_pos_eq 2) in B by lra. lra.
Qed.
Example ex_click27 : forall cfg, (1 <= batch cfg)%nat -> exists w st y1 y z,
  let ops := [OpInit RNum (Some w) (29/32) (1/4); OpProcess RNum kForward [5/32]] in
  wt_build RNum (demo_src RNum) (dbg cfg) [0;0;4;0;0;0;0;0;0;0;0;0;0;0;0;0] 1 1 1 = Ok (Some w) /\
  plays (demo_src RNum) (dbg cfg) (filt RNum kType1) None ops (Some st) [y1] /\
  ideally (demo_src RNum) (dbg cfg) (filt RNum kType1) kForward st (7/32) z /\
  outputs RNum (Osc.run RNum (demo_src RNum) cfg (filt RNum kType1) (osc_new RNum (filt RNum kType1))
     (ops ++ [OpProcess RNum kForward [7/32]])) = Ok [y1; y] /\ Rabs (y - z) >= / 25.
Proof.
  intros cfg HB. set (wfs := [0;0;4;0;0;0;0;0;0;0;0;0;0;0;0;0] : list R).
  assert (HW : wellFormed RNum wfs 1 4) by (unfold wellFormed, zlen, int_max; cbn; lia).
  destruct (wt_build_ok RNum (demo_src RNum) (dbg cfg) LR wfs 1 1 1 4 1) as (w & Ew & _);
    [lia|lia|reflexivity|unfold int_max; lia|unfold t0; cbn; apply Rle_bool_false; lra|exact demo_cast|exact demo_resampler|].
  destruct (C27_two_octave_drop_refuted (demo_src RNum) cfg wfs w 1 1 HB HW ltac:(lra) ltac:(lra) Ew) as (st & y1 & y & z & P & Q & O & B).
  exists w, st, y1, y, z. cbv zeta. split; [exact Ew|]. split; [exact P|]. split; [exact Q|]. split; [exact O|].
  change (mipmap RNum (demo_src RNum) (waveform RNum wfs 16 0) 1) with ([0;4;0;0;0;0;0;0] : list R) in B.
  set (ys := [0;4;0;0;0;0;0;0] : list R) in B. unfold kink in B. change (cyc ys (1 - 1)) with 0 in B.
  change (cyc ys 1) with 4 in B. change (cyc ys (1 + 1)) with 0 in B.
  replace (0 - 2 * 4 + 0) with (- (8)) in B by ring. rewrite Rabs_Ropp, (Rabs_pos_eq 8) in B by lra. lra.
Qed.
