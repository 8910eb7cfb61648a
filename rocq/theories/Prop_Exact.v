(** * Prop_Exact: properties C23-C25, C28, C29 -- exactness of the anti-aliasing and its
    consequences (exact arithmetic) *)
From Coq Require Import ZArith List Bool Reals Lia Lra Arith.
From Flocq Require Import Core IEEE754.BinarySingleNaN.
From Verif Require Import Num Maths CrossFader Wavetable Filters Osc Spec SpecC SpecT NumFacts Laws CFFacts
  WTFacts BuildFacts OscHist B32 B32Facts B32Laws CFHist PLoop PTables RNum RLaws Demo.
From Coquelicot Require Import Coquelicot.
From Verif Require Import SpecE SpecX ExactMath ExactStep ExactRun ExactHist ExactCover ExactSig ExactLaws PExact.
Import ListNotations.
Local Open Scope R_scope.

(** ** C23: whole histories.  Whenever the calls [ops] are a history of the ideal oscillator
    (SpecE.plays: exact integrals of the moving waveform against the filter's exponentials),
    the library returns exactly the ideal's samples: every filter given by poles and
    residues, every SIMD width, debug and release. *)
Theorem C23_histories_exact : forall src cfg F ops st ys,
  (1 <= batch cfg)%nat -> exactFilter F ->
  plays src (dbg cfg) F None ops st ys ->
  outputs RNum (Osc.run RNum src cfg F (osc_new RNum F) ops) = Ok ys.
Proof. intros src cfg F ops st ys HB HF H. eapply plays_outputs; eassumption. Qed.
Print Assumptions C23_histories_exact.

(** One forward sample, written out: after a forward step, while entry [m] alone is heard
    (gain 1), the new filter memory is, pole by pole,
      exp(z) y + 2 r * (integral over u in [0,1] of exp(z(1-u)) wave(q + d u))
    and the sample is the real part of the sum. *)
Theorem C23_forward_sample : forall src cfg F ops st ys p m mu w',
  (1 <= batch cfg)%nat -> exactFilter F ->
  plays src (dbg cfg) F None ops (Some st) ys ->
  let q := id_phase st in
  let d := stepBetween RNum kForward q p in
  sharp p -> 0 < d <= /2 -> 0 < id_step st -> (id_entry st - 1 <= m)%Z ->
  wt_findMipMapIndices RNum (dbg cfg) (id_tab st) d = Ok (w', (m, 1, mu, 0)) ->
  let mem := List.map (fun e => let '(r, z, y) := e in
       (cexp z * y + 2 * r * response z (fun u => wave (entry src st m) (q + d * u)))%C)
     (combine (combine (f_r F) (f_z F)) (id_mem st)) in
  outputs RNum (Osc.run RNum src cfg F (osc_new RNum F) (ops ++ [OpProcess RNum kForward [p]]))
    = Ok (ys ++ [fold_right Rplus 0 (List.map fst mem)]).
Proof.
  intros src cfg F ops st ys p m mu w' HB HF Hp q d Hsh Hd Hs Hm Hf mem.
  assert (Em : mem = allPoles F (mixed src st q d (m, 1, mu, 0)) (id_mem st)).
  { rewrite (allPoles_ext F _ (fun u => wave (entry src st m) (q + d * u))).
    - unfold mem, allPoles. apply map_ext. intros [[r z] y]. reflexivity.
    - intros u _. unfold mixed. ring. }
  rewrite Em. eapply plays_outputs; [assumption|assumption|]. eapply plays_sample; [exact Hp|].
  refine (sample_ src (dbg cfg) F kForward st p d w' m 1 mu 0 _ Hsh eq_refl _ _ _ _ eq_refl).
  - lra.
  - lra.
  - rewrite Rabs_pos_eq by lra. exact Hf.
  - left. split; assumption.
Qed.
Print Assumptions C23_forward_sample.

(** Every forward history that follows the README's rule (octave changes by one octave, more
    than one fade apart, the first after one fade) is such a history: a built table, an
    initial step, any phases (binary32 ones qualify unless subnormal: [sharp_binary32]). *)
Theorem C23_readme_histories : forall src cfg F wfs nw K w sr fade n p d r ps rs,
  (1 <= batch cfg)%nat -> exactFilter F ->
  wellFormed RNum wfs nw K -> 0 < sr -> 1 <= fade * sr < IZR int_max -> tcast RNum (fade * sr) = Ok n ->
  wt_build RNum src (dbg cfg) wfs nw sr fade = Ok (Some w) -> sharp p -> 0 < d -> entryFor K d r ->
  List.Forall sharp ps -> List.Forall (fun s => 0 < s <= /2) (stepsOf kForward p ps) ->
  Forall2 (entryFor K) (stepsOf kForward p ps) (repeat r (Z.to_nat n) ++ rs) -> octaveRule n (r :: rs) ->
  let ops := [OpInit RNum (Some w) p d; OpProcess RNum kForward ps] in
  exists st ys, plays src (dbg cfg) F None ops (Some st) ys /\
    outputs RNum (Osc.run RNum src cfg F (osc_new RNum F) ops) = Ok ys.
Proof.
  intros src cfg F wfs nw K w sr fade n p d r ps rs HB HF HW Hs Hf Hn Hb Hp Hd Hr Hsh Hst Hen Hru ops.
  destruct (readme_plays src (dbg cfg) F wfs nw K w sr fade n p d r ps rs) as (st & ys & H); auto.
  exists st, ys. split; [exact H|]. eapply plays_outputs; eassumption.
Qed.
Print Assumptions C23_readme_histories.

(** ** C24: backward playback and turns, written out.  Same formula for every step of at most
    half a cycle either way, following a step in either direction, on one table entry. *)
Theorem C24_any_direction_sample : forall src cfg F ops st ys dir p mu w',
  (1 <= batch cfg)%nat -> exactFilter F ->
  plays src (dbg cfg) F None ops (Some st) ys ->
  let q := id_phase st in
  let d := stepBetween RNum dir q p in
  let m := id_entry st in
  sharp p -> d <> 0 -> -/2 <= d <= /2 -> id_step st <> 0 ->
  wt_findMipMapIndices RNum (dbg cfg) (id_tab st) (Rabs d) = Ok (w', (m, 1, mu, 0)) ->
  let mem := List.map (fun e => let '(r, z, y) := e in
       (cexp z * y + 2 * r * response z (fun u => wave (entry src st m) (q + d * u)))%C)
     (combine (combine (f_r F) (f_z F)) (id_mem st)) in
  outputs RNum (Osc.run RNum src cfg F (osc_new RNum F) (ops ++ [OpProcess RNum dir [p]]))
    = Ok (ys ++ [fold_right Rplus 0 (List.map fst mem)]).
Proof.
  intros src cfg F ops st ys dir p mu w' HB HF Hp q d m Hsh Hd Hd2 Hs Hf mem.
  assert (Em : mem = allPoles F (mixed src st q d (m, 1, mu, 0)) (id_mem st)).
  { rewrite (allPoles_ext F _ (fun u => wave (entry src st m) (q + d * u))).
    - unfold mem, allPoles. apply map_ext. intros [[r z] y]. reflexivity.
    - intros u _. unfold mixed. ring. }
  rewrite Em. eapply plays_outputs; [assumption|assumption|]. eapply plays_sample; [exact Hp|].
  refine (sample_ src (dbg cfg) F dir st p d w' m 1 mu 0 _ Hsh eq_refl Hd Hd2 Hf _ eq_refl).
  unfold traceable. cbv zeta. fold m.
  destruct (Rlt_le_dec 0 (id_step st)); [left|right]; (split; [lra|]); [lia|now left].
Qed.
Print Assumptions C24_any_direction_sample.

(** ... and such histories exist: settle forward for one fade, then play any phases in any
    direction (turning at will, across phase 0 too) with steps in the same octave. *)
Theorem C24_turning_histories : forall src cfg F wfs nw K w sr fade n p d r ps dir ps2,
  (1 <= batch cfg)%nat -> exactFilter F ->
  wellFormed RNum wfs nw K -> 0 < sr -> 1 <= fade * sr < IZR int_max -> tcast RNum (fade * sr) = Ok n ->
  wt_build RNum src (dbg cfg) wfs nw sr fade = Ok (Some w) -> sharp p -> 0 < d -> entryFor K d r ->
  List.Forall sharp ps -> (n <= Z.of_nat (length ps))%Z ->
  List.Forall (fun s => 0 < s <= /2 /\ entryFor K s r) (stepsOf kForward p ps) ->
  List.Forall sharp ps2 ->
  List.Forall (fun s => 0 < Rabs s <= /2 /\ entryFor K (Rabs s) r) (stepsOf dir (last ps p) ps2) ->
  let ops := [OpInit RNum (Some w) p d; OpProcess RNum kForward ps; OpProcess RNum dir ps2] in
  exists st ys, plays src (dbg cfg) F None ops (Some st) ys /\
    outputs RNum (Osc.run RNum src cfg F (osc_new RNum F) ops) = Ok ys.
Proof.
  intros src cfg F wfs nw K w sr fade n p d r ps dir ps2 HB HF HW Hs Hf Hn Hb Hp Hd Hr Hsh Hl Hst Hsh2 Hst2 ops.
  destruct (turns_plays src (dbg cfg) F wfs nw K w sr fade n p d r ps dir ps2) as (st & ys & H); auto.
  exists st, ys. split; [exact H|]. eapply plays_outputs; eassumption.
Qed.
Print Assumptions C24_turning_histories.

(** ** C25: while fading between entries [m] and [mu] with gains [g] and [gu], the sample adds
    the gain-weighted sum of the two exact responses; after a forward step, for any rise and
    for a drop of one octave. *)
Theorem C25_fading_sample : forall src cfg F ops st ys p m g mu gu w',
  (1 <= batch cfg)%nat -> exactFilter F ->
  plays src (dbg cfg) F None ops (Some st) ys ->
  let q := id_phase st in
  let d := stepBetween RNum kForward q p in
  sharp p -> 0 < d <= /2 -> 0 < id_step st -> (id_entry st - 1 <= m)%Z ->
  wt_findMipMapIndices RNum (dbg cfg) (id_tab st) d = Ok (w', (m, g, mu, gu)) ->
  let mem := List.map (fun e => let '(r, z, y) := e in
       (cexp z * y + 2 * r * (RtoC g * response z (fun u => wave (entry src st m) (q + d * u))
                              + RtoC gu * response z (fun u => wave (entry src st mu) (q + d * u))))%C)
     (combine (combine (f_r F) (f_z F)) (id_mem st)) in
  outputs RNum (Osc.run RNum src cfg F (osc_new RNum F) (ops ++ [OpProcess RNum kForward [p]]))
    = Ok (ys ++ [fold_right Rplus 0 (List.map fst mem)]) /\
  0 <= g /\ 0 <= gu /\ g + gu = 1 /\
  (0 <= m <= id_K st - 2)%Z /\ (gu <> 0 -> (0 <= mu <= id_K st - 2)%Z).
Proof.
  intros src cfg F ops st ys p m g mu gu w' HB HF Hp q d Hsh Hd Hs Hm Hf mem.
  assert (L : live src (dbg cfg) F st) by exact (plays_live src (dbg cfg) F HF _ _ _ _ Hp I).
  destruct (find_gains src (dbg cfg) _ _ _ _ d _ _ _ _ _ (lv_well _ _ _ _ L) (lv_tab _ _ _ _ L) (proj1 Hd) Hf)
    as (G1 & G2 & G3 & G4 & G5 & _).
  split; [|repeat (split; [assumption|]); assumption].
  assert (Em : mem = allPoles F (mixed src st q d (m, g, mu, gu)) (id_mem st)).
  { unfold mem, allPoles. apply map_ext. intros [[r z] y]. cbn [fst snd]. unfold onePole, mixed.
    rewrite (response_lin z (fun u => wave (entry src st m) (q + d * u))
                            (fun u => wave (entry src st mu) (q + d * u)) g gu); [reflexivity| |]; intros; apply wave_path_cont. }
  rewrite Em. eapply plays_outputs; [assumption|assumption|]. eapply plays_sample; [exact Hp|].
  refine (sample_ src (dbg cfg) F kForward st p d w' m g mu gu _ Hsh eq_refl _ _ _ _ eq_refl).
  - lra.
  - lra.
  - rewrite Rabs_pos_eq by lra. exact Hf.
  - left. split; assumption.
Qed.
Print Assumptions C25_fading_sample.

(** ** C28: every sample of every exact history is bounded by B * sum of 2|r|/|Re z|, when all
    samples of the loaded mipmap tables are in [-B,B] and the poles are stable *)
Theorem C28_bounded_for_ever : forall src cfg F ops st ys B,
  (1 <= batch cfg)%nat -> exactFilter F -> stable F -> 0 <= B ->
  plays src (dbg cfg) F None ops st ys -> loads src (dbg cfg) (fun y => Rabs y <= B) ops ->
  outputs RNum (Osc.run RNum src cfg F (osc_new RNum F) ops) = Ok ys /\
  List.Forall (fun y => Rabs y <= B * gainBound F) ys.
Proof.
  intros src cfg F ops st ys B HB HF HS H0 Hp Hl. split; [eapply plays_outputs; eassumption|].
  eapply plays_within; try eassumption. exact I.
Qed.
Print Assumptions C28_bounded_for_ever.

(** ** C29: when all mipmap samples of the loaded waveforms are [c], the n-th sample after a
    load is c * dcResponse n, whatever phases, directions, waveform selections and sample
    rates follow; dcResponse tends to the gain of the (stable) filter at frequency 0 *)
Theorem C29_constant_waveform : forall src cfg F w p d ops st ys c,
  (1 <= batch cfg)%nat -> exactFilter F ->
  samplesOf src (dbg cfg) (fun y => y = c) w ->
  List.Forall keepsPlaying ops ->
  plays src (dbg cfg) F None (OpInit RNum (Some w) p d :: ops) st ys ->
  outputs RNum (Osc.run RNum src cfg F (osc_new RNum F) (OpInit RNum (Some w) p d :: ops)) = Ok ys /\
  forall n y, nth_error ys n = Some y -> y = c * dcResponse F (S n).
Proof.
  intros src cfg F w p d ops st ys c HB HF Hc Hk Hp. split; [eapply plays_outputs; eassumption|].
  inversion Hp as [| st0 op0 rest0 st0' ys0 Hop Hp0 | st0 op0 w0 p0 d0 K nw wfs st1 rest0 st0' ys0 Hop HW HT Hf Hp0 | | | | ].
  { destruct Hop as (p1 & d1 & [E|E]); discriminate. }
  destruct Hop as [E|E]; [|discriminate]. injection E as <- <- <-. subst.
  apply (plays_dc src (dbg cfg) F HF c st1 ops st ys Hp0 0).
  - eapply fresh_live; try eassumption. destruct HW as (_ & A & _). lia.
  - destruct Hf. intros i k y Hi Hk' Hy. cbn in Hi, Hk', Hy.
    exact (samplesOf_all src (dbg cfg) _ w wfs nw K Hc HW HT i k y Hi Hk' Hy).
  - destruct Hf. cbn [id_mem]. symmetry. now apply dcMem_0.
  - exact Hk.
Qed.
Print Assumptions C29_constant_waveform.

Theorem C29_limit : forall F, exactFilter F -> stable F -> is_lim_seq (dcResponse F) (dcGain F).
Proof. exact dcResponse_limit. Qed.
Print Assumptions C29_limit.

(** The filters the library ships meet the conditions on the filter in C23-C29: the squares and
    exponentials it precomputes are those of its poles, and the poles are left of the axis. *)
Theorem C23_shipped_filters : forall f, exactFilter (filt RNum f) /\ stable (filt RNum f).
Proof. intros f. split; [apply shipped_exact|apply shipped_stable]. Qed.
Print Assumptions C23_shipped_filters.

(** ** The hypotheses are met: a table of 8 samples, fade of one sample *)
Ltac steps := cbn [stepsOf]; unfold stepBetween, t0, t1, tfrac; cbn [tsub tadd tlt tofZ tdiv RNum].
Ltac rcase := match goal with
  | |- context [Rlt_bool ?a ?b] =>
      first [rewrite (Rlt_bool_true a b) by lra | rewrite (Rlt_bool_false a b) by lra] end.
Ltac listeq := repeat (apply (f_equal2 (@cons R)); [field|]); reflexivity.
Lemma dyadic8 i : (0 <= i < 8)%Z -> sharp (IZR i / 8).
Proof. intros H. apply (sharp_dyadic 3 i); lia. Qed.

Ltac sharps := repeat (apply List.Forall_cons; [apply dyadic8; lia|]); constructor.
Ltac ent := split; [lia|]; split; (solve [left; reflexivity | right; cbn; lra]).
Lemma some_inj {A} (a b : A) : Some a = Some b -> a = b.
Proof. congruence. Qed.
Ltac some := repeat match goal with H : Some _ = Some _ |- _ => apply some_inj in H; subst end; try lia.
(** a forward history through a rise and a drop, across phase 0 *)
Example ex_forward : forall dbg, exists w st ys,
  wt_build RNum (demo_src RNum) dbg demoWave 1 1 1 = Ok (Some w) /\
  plays (demo_src RNum) dbg (filt RNum kType2) None
    [OpInit RNum (Some w) 0 (1/8); OpProcess RNum kForward [1/8; 2/8; 5/8; 7/8; 1/8; 2/8]] (Some st) ys /\
  length ys = 6%nat.
Proof.
  intros dbg. destruct (demo_table dbg) as [w Ew]. exists w.
  assert (S0 : sharp 0) by (replace 0 with (0 / 8) by field; apply (dyadic8 0); lia).
  assert (Es : stepsOf kForward 0 [1/8; 2/8; 5/8; 7/8; 1/8; 2/8] = [1/8; 1/8; 3/8; 2/8; 2/8; 1/8]).
  { steps. repeat rcase. listeq. }
  destruct (readme_plays (demo_src RNum) dbg (filt RNum kType2) demoWave 1 3 w 1 1 1 0 (1/8) 0
     [1/8; 2/8; 5/8; 7/8; 1/8; 2/8] [0; 1; 1; 1; 0]%Z) as (st & ys & H).
  - exact demo_wellFormed.
  - lra.
  - split; [lra|]. rewrite Rmult_1_l. apply IZR_lt. reflexivity.
  - exact demo_cast.
  - exact Ew.
  - exact S0.
  - lra.
  - split; [lia|]. split; [right|left; reflexivity]. cbn. lra.
  - sharps.
  - rewrite Es. repeat constructor; lra.
  - rewrite Es. cbn [Z.to_nat Pos.to_nat Pos.iter_op repeat app].
    repeat (apply Forall2_cons; [ent|]); constructor.
  - split.
    + intros i a b H1 H2. destruct i as [|[|[|[|[|[|i]]]]]]; cbn in H1, H2; try discriminate; some.
    + intros i j a b c e Hij H1 H2 Hab H3 H4 Hce.
      assert (j < 5)%nat by (destruct (Nat.lt_ge_cases j 5); [assumption|]; do 5 (destruct j as [|j]; [lia|]); cbn in H4; destruct j; discriminate).
      destruct i as [|[|[|[|[|i]]]]]; [| | | | |lia]; cbn in H1, H2; some; try congruence;
      destruct j as [|[|[|[|[|j]]]]]; try lia; cbn in H3, H4; some; congruence.
  - exists st, ys. split; [exact Ew|]. split; [exact H|].
    assert (E := plays_length _ _ _ _ _ _ _ H). rewrite E. reflexivity.
Qed.

(** a settled oscillator turning around, backwards across phase 0 and forth again *)
Example ex_turning : forall dbg, exists w st ys,
  wt_build RNum (demo_src RNum) dbg demoWave 1 1 1 = Ok (Some w) /\
  plays (demo_src RNum) dbg (filt RNum kType2) None
    [OpInit RNum (Some w) 0 (1/8); OpProcess RNum kForward [1/8];
     OpProcess RNum kBidirectionnal [0/8; 7/8; 6/8; 7/8; 0/8; 1/8]] (Some st) ys /\
  length ys = 7%nat.
Proof.
  intros dbg. destruct (demo_table dbg) as [w Ew]. exists w.
  assert (S0 : sharp 0) by (replace 0 with (0 / 8) by field; apply (dyadic8 0); lia).
  assert (Es : stepsOf kForward 0 [1/8] = [1/8]) by (steps; repeat rcase; listeq).
  assert (Es2 : stepsOf kBidirectionnal (1/8) [0/8; 7/8; 6/8; 7/8; 0/8; 1/8] = [-(1/8); -(1/8); -(1/8); 1/8; 1/8; 1/8]).
  { steps. repeat rcase. listeq. }
  destruct (turns_plays (demo_src RNum) dbg (filt RNum kType2) demoWave 1 3 w 1 1 1 0 (1/8) 0
     [1/8] kBidirectionnal [0/8; 7/8; 6/8; 7/8; 0/8; 1/8]) as (st & ys & H).
  - exact demo_wellFormed.
  - lra.
  - split; [lra|]. rewrite Rmult_1_l. apply IZR_lt. reflexivity.
  - exact demo_cast.
  - exact Ew.
  - exact S0.
  - lra.
  - split; [lia|]. split; [right|left; reflexivity]. cbn. lra.
  - sharps.
  - cbn. lia.
  - rewrite Es. repeat (apply List.Forall_cons; [split; [lra|ent]|]); constructor.
  - sharps.
  - cbn [last]. rewrite Es2. repeat (apply List.Forall_cons;
      [rewrite ?Rabs_Ropp, (Rabs_pos_eq (1/8)) by lra; split; [lra|ent]|]); constructor.
  - exists st, ys. split; [exact Ew|]. split; [exact H|].
    assert (E := plays_length _ _ _ _ _ _ _ H). rewrite E. reflexivity.
Qed.

(** the table of ex_forward has samples within [-2,2], and every shipped filter is exact and
    stable: C28 bounds its outputs *)
Example ex_bounded : forall dbg w, wt_build RNum (demo_src RNum) dbg demoWave 1 1 1 = Ok (Some w) ->
  forall f ps, exactFilter (filt RNum f) /\ stable (filt RNum f) /\
  loads (demo_src RNum) dbg (fun y => Rabs y <= 2) [OpInit RNum (Some w) 0 (1/8); OpProcess RNum kForward ps].
Proof.
  intros dbg w Ew f ps. split; [apply shipped_exact|]. split; [apply shipped_stable|].
  assert (HS : samplesOf (demo_src RNum) dbg (fun y => Rabs y <= 2) w).
  { exists demoWave, 1%Z, 3%Z. split; [exact demo_wellFormed|]. split.
    - apply (t_build _ _ _ _ 1 1); [lra| |exact Ew]. split; [lra|]. rewrite Rmult_1_l. apply IZR_lt. reflexivity.
    - intros i k y Hi Hk. assert (i = 0%Z) by lia. subst i. assert (Hk2 : k = 0%Z \/ k = 1%Z) by lia.
      assert (A : forall y : R, In y [0; 1; 2; 1; 0; -1; -2; -1] -> Rabs y <= 2).
      { intros v Hv. apply Rabs_le_between. cbn [In] in Hv. lra. }
      destruct Hk2 as [-> | ->].
      + exact (A y).
      + intros Hy. apply A. change (In y [0; 2; 0; -2]) in Hy. cbn [In] in *. tauto. }
  intros w' p d [H|H]; cbn in H; repeat destruct H as [H|H]; try discriminate; try contradiction.
  injection H as <- <- <-. exact HS.
Qed.

(** a constant table; its output settles to the constant times the filter's gain *)
Example ex_constant : forall dbg (c : R), exists w st ys,
  wt_build RNum (demo_src RNum) dbg (repeat c 8) 1 1 1 = Ok (Some w) /\
  samplesOf (demo_src RNum) dbg (fun y => y = c) w /\
  plays (demo_src RNum) dbg (filt RNum kType1) None
    [OpInit RNum (Some w) 0 (1/8); OpProcess RNum kForward [1/8];
     OpProcess RNum kBidirectionnal [0/8; 7/8]] (Some st) ys /\
  length ys = 3%nat.
Proof.
  intros dbg c.
  assert (HW : wellFormed RNum (repeat c 8) 1 3) by (unfold wellFormed, zlen, int_max; cbn; lia).
  assert (Hf : 1 <= 1 * 1 < IZR int_max) by (split; [lra|]; rewrite Rmult_1_l; apply IZR_lt; reflexivity).
  destruct (wt_build_ok RNum (demo_src RNum) dbg LR (repeat c 8) 1 1 1 3 1) as (w & Ew & _);
    [lia|lia|reflexivity|unfold int_max; lia|unfold t0; cbn; apply Rle_bool_false; lra|exact demo_cast|exact demo_resampler|].
  exists w.
  assert (S0 : sharp 0) by (replace 0 with (0 / 8) by field; apply (dyadic8 0); lia).
  assert (Es : stepsOf kForward 0 [1/8] = [1/8]) by (steps; repeat rcase; listeq).
  assert (Es2 : stepsOf kBidirectionnal (1/8) [0/8; 7/8] = [-(1/8); -(1/8)]) by (steps; repeat rcase; listeq).
  destruct (turns_plays (demo_src RNum) dbg (filt RNum kType1) (repeat c 8) 1 3 w 1 1 1 0 (1/8) 0
     [1/8] kBidirectionnal [0/8; 7/8]) as (st & ys & H); auto; try lra.
  - exact demo_cast.
  - ent.
  - sharps.
  - cbn. lia.
  - rewrite Es. repeat (apply List.Forall_cons; [split; [lra|ent]|]); constructor.
  - sharps.
  - cbn [last]. rewrite Es2. repeat (apply List.Forall_cons;
      [rewrite ?Rabs_Ropp, (Rabs_pos_eq (1/8)) by lra; split; [lra|ent]|]); constructor.
  - exists st, ys. split; [exact Ew|]. split.
    + exists (repeat c 8), 1%Z, 3%Z. split; [exact HW|]. split; [apply (t_build _ _ _ _ 1 1); [lra|exact Hf|exact Ew]|].
      intros i k y Hi Hk. assert (i = 0%Z) by lia. subst i. assert (Hk2 : k = 0%Z \/ k = 1%Z) by lia.
      destruct Hk2 as [-> | ->]; intros Hy.
      * change (In y (repeat c 8)) in Hy. now apply repeat_spec in Hy.
      * change (In y (repeat c 4)) in Hy. now apply repeat_spec in Hy.
    + split; [exact H|]. assert (E := plays_length _ _ _ _ _ _ _ H). rewrite E. reflexivity.
Qed.
