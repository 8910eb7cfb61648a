(** * Prop_CrossFader: properties C09-C16 -- mipmap selection and cross-fading

    [reachable ... K n w]: [w] is a table of base length 2^K in use, its current fade being of
    [n] samples; [ask] is a sequence of findMipMapIndices calls; [entryFor K d i]: entry [i]
    is the one for phase step [d] (Spec.v).  A result is (lower entry, its gain, upper entry,
    its gain). *)
From Coq Require Import ZArith List Bool Reals Lia Lra Floats.SpecFloat.
From Flocq Require Import Core IEEE754.BinarySingleNaN.
From Verif Require Import Num Maths CrossFader Wavetable Spec B32 B32Laws B32Pow Demo SpecF PCross PBuild Prop_Build.
Import ListNotations.
Local Open Scope Z_scope.

(** ** C09.  The limits stored in a table are 2^(i+1)/len exactly, so two tables of the same
    length have equal limits whatever their sample rates; and updateSamplerate's result is a
    table as build makes it, i.e. with a cross-fader at rest on the entry for step 0.1. *)
Theorem C09_limits_exact : forall lm src dbg K n w i (x : f32), log2_exact lm ->
  reachable (B32 lm) src dbg (rate32 lm) K n w -> 0 <= i < K - 1 ->
  znth (cf_scale (wt_cf w)) i = Ok x ->
  is_finite x = true /\ B2R x = (IZR (2 ^ (i + 1)) / IZR (2 ^ K))%R.
Proof. intros lm src dbg K n w i x Hlog. exact (limits_exact lm Hlog src dbg K n w i x). Qed.
Print Assumptions C09_limits_exact.

(** The usual sample rates meet [rate32] whatever the compiler does with the division. *)
Theorem C09_usual_rates : forall lm z,
  In z [8000; 11025; 12000; 16000; 22050; 24000; 32000; 44100; 48000; 64000; 88200; 96000; 176400; 192000; 352800; 384000] ->
  rate32 lm (f32_ofZ z).
Proof. intros lm z H. cbn [In] in H. repeat (destruct H as [<-|H]; [apply rate32_Z; [lia|vm_compute; reflexivity]|]). contradiction. Qed.
Print Assumptions C09_usual_rates.

Theorem C09_resample_restarts : forall lm src dbg K n w (sr fade : f32) n' w' i0 (d : f32), log2_exact lm ->
  reachable (B32 lm) src dbg (rate32 lm) K n w -> rate32 lm sr ->
  tcast (B32 lm) (tmul (B32 lm) fade sr) = Ok n' ->
  wt_updateSamplerate (B32 lm) src dbg w sr fade = Ok w' ->
  builtTable lm src dbg K n' w' /\
  (entryFor K (B2R (tfrac (B32 lm) 1 10 : f32)) i0 -> inOctave K i0 d ->
    exists w'', wt_findMipMapIndices (B32 lm) dbg w' d = Ok (w'', (i0, t1 (B32 lm), i0 + 1, t0 (B32 lm))) /\
      wt_numMipMapTables (B32 lm) w' = K - 1).
Proof.
  intros lm src dbg K n w sr fade n' w' i0 d Hlog H1 H2 H3 H4.
  assert (HB := resample_is_build lm Hlog src dbg K n w sr fade n' w' H1 H2 H3 H4).
  exact (conj HB (built_first lm Hlog src dbg K n' w' i0 d HB)).
Qed.
Print Assumptions C09_resample_restarts.

(** ** C10.  Once the step [d] has been in its octave for 2n calls, the entry used is the one
    for [d], alone; one output sample then advances at most 2 table samples, and at least 1
    except in entry 0. *)
Theorem C10_step_size : forall lm src dbg K n w (ds : list f32) (d : f32), log2_exact lm ->
  reachable (B32 lm) src dbg (rate32 lm) K n w -> 1 <= n ->
  is_finite d = true -> (0 < B2R d <= / 2)%R -> 2 * n <= Z.of_nat (length ds) ->
  (forall r, entryFor K (B2R d) r -> Forall (inOctave K r) ds) ->
  exists w1 outs w2 mi (g : f32) mu (gu : f32) len,
    ask (B32 lm) dbg w ds = Ok (w1, outs) /\
    wt_findMipMapIndices (B32 lm) dbg w1 d = Ok (w2, (mi, g, mu, gu)) /\
    B2R g = 1%R /\ B2R gu = 0%R /\
    entryFor K (B2R d) mi /\ wt_waveformLen (B32 lm) w2 mi = Ok len /\
    (B2R d * IZR len <= 2)%R /\ (1 <= mi -> (1 <= B2R d * IZR len)%R).
Proof. intros lm src dbg K n w ds d Hlog. exact (fade_step_size lm Hlog src dbg K n w ds d). Qed.
Print Assumptions C10_step_size.

(** ** C11 *)
Theorem C11_gains_convex : forall lm src dbg K n w (d : f32), log2_exact lm ->
  reachable (B32 lm) src dbg (rate32 lm) K n w -> 1 <= n -> posStep d ->
  exists w' mi (g : f32) mu (gu : f32),
    wt_findMipMapIndices (B32 lm) dbg w d = Ok (w', (mi, g, mu, gu)) /\
    is_finite g = true /\ is_finite gu = true /\ (0 <= B2R g <= 1)%R /\ (0 <= B2R gu <= 1)%R /\
    is_finite (fadd g gu) = true /\ B2R (fadd g gu) = 1%R.
Proof.
  intros lm src dbg K n w d Hlog H Hn [Hf Hd].
  destruct (find_valid lm Hlog src dbg K n w d H Hn Hf Hd) as (w' & mi & g & mu & gu & E & C & _).
  exists w', mi, g, mu, gu. exact (conj E C).
Qed.
Print Assumptions C11_gains_convex.

(** ** C12 *)
Theorem C12_entries_adjacent : forall lm src dbg K n w (d : f32), log2_exact lm ->
  reachable (B32 lm) src dbg (rate32 lm) K n w -> 1 <= n -> posStep d ->
  exists w' mi (g : f32) mu (gu : f32),
    wt_findMipMapIndices (B32 lm) dbg w d = Ok (w', (mi, g, mu, gu)) /\
    0 <= mi < wt_numMipMapTables (B32 lm) w /\
    (mu = mi + 1 \/ (mu = mi /\ B2R gu = 0%R /\ B2R g = 1%R)) /\
    (mu < wt_numMipMapTables (B32 lm) w \/ gu = f32_ofZ 0).
Proof.
  intros lm src dbg K n w d Hlog H Hn [Hf Hd].
  destruct (find_valid lm Hlog src dbg K n w d H Hn Hf Hd) as (w' & mi & g & mu & gu & E & _ & C).
  exists w', mi, g, mu, gu. exact (conj E C).
Qed.
Print Assumptions C12_entries_adjacent.

(** ** C13 *)
Theorem C13_fade_settles : forall lm src dbg K n w (ds : list f32) r, log2_exact lm ->
  reachable (B32 lm) src dbg (rate32 lm) K n w -> 1 <= n -> Forall (inOctave K r) ds ->
  exists w' outs, ask (B32 lm) dbg w ds = Ok (w', outs) /\ length outs = length ds /\
    forall t, 2 * n <= Z.of_nat t -> (t < length ds)%nat ->
      exists (g : f32) mu (gu : f32), nth_error outs t = Some (r, g, mu, gu) /\ B2R g = 1%R /\ B2R gu = 0%R.
Proof.
  intros lm src dbg K n w ds r Hlog H Hn Hd.
  destruct (fade_settles lm Hlog src dbg K n w ds r H Hn Hd) as (w' & outs & A & B & _ & C).
  exists w', outs. exact (conj A (conj B C)).
Qed.
Print Assumptions C13_fade_settles.

(** ** C14.  [ds0] settles on octave p, [d] requests the adjacent octave r, [ds] follow. *)
Theorem C14_linear_ramp : forall lm src dbg K n w (ds0 : list f32) (d : f32) (ds : list f32) p r,
  log2_exact lm -> reachable (B32 lm) src dbg (rate32 lm) K n w -> 1 <= n <= 2 ^ 24 -> Z.abs (r - p) = 1 ->
  2 * n + 1 <= Z.of_nat (length ds0) -> Forall (inOctave K p) ds0 -> inOctave K r d ->
  Forall (fun d' => inOctave K p d' \/ inOctave K r d') ds -> Z.of_nat (length ds) <= n ->
  exists w' outs mi (g : f32) mu (gu : f32),
    ask (B32 lm) dbg w (ds0 ++ d :: ds) = Ok (w', outs ++ [(mi, g, mu, gu)]) /\
    let k := Z.of_nat (length ds) in
    let gold := toF32 (IZR (n - k) / IZR n) in      (* gain of the old entry p *)
    let gnew := toF32 (1 - gold) in                 (* gain of the new entry r *)
    if k =? n then mi = r /\ B2R g = 1%R /\ B2R gu = 0%R
    else if p <? r then mi = p /\ mu = r /\ B2R g = gold /\ B2R gu = gnew
    else mi = r /\ mu = p /\ B2R g = gnew /\ B2R gu = gold.
Proof.
  intros lm src dbg K n w ds0 d ds p r Hlog H Hn Hpr Hl0 H0 (Hf & Hd & He) Hds Hl.
  refine (fade_ramp lm Hlog src dbg K n w ds0 d ds p r H Hn Hpr Hl0 H0 Hf Hd He _ Hl).
  refine (Forall_impl _ _ Hds). intros a [(A & B & C)|(A & B & C)]; auto.
Qed.
Print Assumptions C14_linear_ramp.

(** ** C15 *)
Theorem C15_octave_rule : forall lm src dbg K n w (ds0 ds : list f32) p rs, log2_exact lm ->
  reachable (B32 lm) src dbg (rate32 lm) K n w -> 1 <= n ->
  2 * n + 1 <= Z.of_nat (length ds0) -> Forall (inOctave K p) ds0 ->
  Forall2 (fun d r => inOctave K r d) ds rs -> octaveRule n (p :: rs) ->
  exists w1 outs0 w2 outs,
    ask (B32 lm) dbg w ds0 = Ok (w1, outs0) /\ ask (B32 lm) dbg w1 ds = Ok (w2, outs) /\
    length outs = length ds /\
    (* the lower entry moves by at most one per call *)
    (forall t a ga ua gua b gb ub gub,
       nth_error outs t = Some (a, ga, ua, gua) -> nth_error outs (S t) = Some (b, gb, ub, gub) ->
       Z.abs (b - a) <= 1) /\
    (* just before any change of octave the previous fade is over *)
    (forall t a b, nth_error rs t = Some a -> nth_error rs (S t) = Some b -> a <> b ->
       exists (g : f32) mu (gu : f32), nth_error outs t = Some (a, g, mu, gu) /\ B2R g = 1%R /\ B2R gu = 0%R).
Proof. intros lm src dbg K n w ds0 ds p rs Hlog. exact (fade_rule lm Hlog src dbg K n w ds0 ds p rs). Qed.
Print Assumptions C15_octave_rule.

(** ** C16: refuted for every table: a fade of zero samples gives NaN gains on the first
    change of octave; a fade of n < 0 samples never ends: for as long as the counter does not
    overflow, the requested entry [r] has a gain <= 0 and its neighbour a gain >= 1. *)
Theorem C16_zero_fade_refuted : forall lm src dbg K w i0 (d : f32) r, log2_exact lm ->
  builtTable lm src dbg K 0 w ->
  entryFor K (B2R (tfrac (B32 lm) 1 10 : f32)) i0 -> inOctave K r d -> r <> i0 ->
  exists w' mi (g : f32) mu (gu : f32), wt_findMipMapIndices (B32 lm) dbg w d = Ok (w', (mi, g, mu, gu)) /\
    is_nan g = true /\ is_nan gu = true.
Proof.
  intros lm src dbg K w i0 d r Hlog HB Hi (Hf & Hd & He) Hne.
  exact (fade_zero lm Hlog src dbg K w i0 d r HB Hi Hf Hd He Hne).
Qed.
Print Assumptions C16_zero_fade_refuted.

Theorem C16_negative_fade_refuted : forall lm src dbg K n w i0 (d : f32) r (t : nat), log2_exact lm ->
  builtTable lm src dbg K n w -> n < 0 ->
  entryFor K (B2R (tfrac (B32 lm) 1 10 : f32)) i0 -> inOctave K r d -> r <> i0 ->
  - 2 ^ 31 <= n - Z.of_nat t ->
  exists w' outs mi (g : f32) mu (gu : f32),
    ask (B32 lm) dbg w (repeat d t ++ [d]) = Ok (w', outs ++ [(mi, g, mu, gu)]) /\
    ((mi = r /\ mu = r + 1 /\ (B2R g <= 0)%R /\ (1 <= B2R gu)%R) \/
     (mu = r /\ mi = r - 1 /\ (B2R gu <= 0)%R /\ (1 <= B2R g)%R)).
Proof.
  intros lm src dbg K n w i0 d r t Hlog HB Hn Hi (Hf & Hd & He) Hne Ht.
  exact (fade_negative lm Hlog src dbg K n w i0 d r t HB Hn Hi Hf Hd He Hne Ht).
Qed.
Print Assumptions C16_negative_fade_refuted.

(** the fades for which the property does hold *)
Theorem C16_finite_gains : forall lm src dbg K n w (d : f32), log2_exact lm ->
  reachable (B32 lm) src dbg (rate32 lm) K n w -> 1 <= n -> posStep d ->
  exists w' mi (g : f32) mu (gu : f32), wt_findMipMapIndices (B32 lm) dbg w d = Ok (w', (mi, g, mu, gu)) /\
    is_finite g = true /\ is_finite gu = true.
Proof.
  intros lm src dbg K n w d Hlog H Hn Hd.
  destruct (C11_gains_convex lm src dbg K n w d Hlog H Hn Hd) as (w' & mi & g & mu & gu & E & A & B & _).
  exists w', mi, g, mu, gu. auto.
Qed.
Print Assumptions C16_finite_gains.

(** ** Concrete instances: two waveforms of eight samples at 48 kHz.  Fades of 240 samples
    (the default), of zero and of -240 samples; initial entry 0 (0.1 < 2/8), other entry 1
    (step 0.3). *)
Lemma CF_rate lm : rate32 lm sr48.
Proof. apply (C09_usual_rates lm 48000). cbn. tauto. Qed.
Lemma CF_built fade n : tcast FN (tmul FN fade sr48) = Ok n ->
  exists w, builtTable demo_libm (demo_src FN) true 3 n w.
Proof.
  intros Hc. destruct (C02_build_shape demo_libm (demo_src FN) true demo16 2 sr48 fade 3 n) as (w & E & _); auto; try lia.
  - exact demo_exact.
  - intros inp ratio cap; repeat split.
  - unfold int_max. lia.
  - exact (proj1 (proj2 (proj2 (proj2 (proj2 C02_case))))).
  - exists w, demo16, 2, sr48, fade. repeat split; auto; try (unfold int_max; lia); try apply (CF_rate demo_libm).
Qed.
Example CF_case_reachable : exists w, reachable FN (demo_src FN) true (rate32 demo_libm) 3 240 w.
Proof.
  destruct (CF_built (defaultFade FN) 240 ltac:(vm_compute; reflexivity)) as (w & wfs & nw & sr & fade & H).
  exists w. eapply r_build; apply H.
Qed.
Example CF_case_zero : exists w, builtTable demo_libm (demo_src FN) true 3 0 w.
Proof. apply (CF_built (f32_ofZ 0)). vm_compute. reflexivity. Qed.
Example CF_case_negative : exists w, builtTable demo_libm (demo_src FN) true 3 (-240) w.
Proof. apply (CF_built (fl (-5) 1000)). vm_compute. reflexivity. Qed.

Lemma CF_lt (x y : f32) : is_finite x = true -> is_finite y = true -> SpecFloat.SFltb (B2SF x) (B2SF y) = true -> (B2R x < B2R y)%R.
Proof.
  intros Hx Hy H. assert (A := Bltb_correct 24 128 x y Hx Hy). unfold Bltb in A. rewrite H in A.
  destruct (Rlt_bool_spec (B2R x) (B2R y)); [assumption|discriminate].
Qed.
Example CF_case_octaves : entryFor 3 (B2R (fl 1 10 : f32)) 0 /\ inOctave 3 1 (fl 3 10) /\ inOctave 3 0 (fl 1 5).
Proof.
  assert (Q : (is_finite (fl 1 4 : f32) = true /\ B2R (fl 1 4 : f32) = / 4)%R).
  { split; [reflexivity|]. vm_compute. lra. }
  destruct Q as [Q1 Q2].
  assert (Z0 : (B2R (f32_ofZ 0) = 0)%R) by reflexivity.
  assert (A1 : (B2R (fl 1 10 : f32) < / 4)%R) by (rewrite <- Q2; apply CF_lt; vm_compute; reflexivity).
  assert (A2 : (/ 4 < B2R (fl 3 10 : f32))%R) by (rewrite <- Q2; apply CF_lt; vm_compute; reflexivity).
  assert (A3 : (B2R (fl 1 5 : f32) < / 4)%R) by (rewrite <- Q2; apply CF_lt; vm_compute; reflexivity).
  assert (A4 : (0 < B2R (fl 1 5 : f32))%R) by (rewrite <- Z0; apply CF_lt; vm_compute; reflexivity).
  assert (F : is_finite (fl 3 10 : f32) = true /\ is_finite (fl 1 5 : f32) = true) by (split; vm_compute; reflexivity).
  set (a := B2R (fl 1 10)) in *. set (b := B2R (fl 3 10 : f32)) in *. set (c := B2R (fl 1 5 : f32)) in *.
  unfold inOctave, entryFor. fold b c. change (2 ^ 3) with 8. cbn [Z.add Z.pow Z.pow_pos Pos.iter Z.mul Pos.mul].
  repeat split; try lia; try apply F; try lra.
Qed.

(** the condition on the rate is needed: at 44106 Hz, multiplying by the reciprocal sets the first
    limit of an 8-sample table just below 1/4 *)
Definition recip_libm : Libm := mkLibm demo_log2 demo_exp demo_exp true (fun _ => 0) (fun _ => SLeaf 1) (fun _ => true).
Definition recipTest : bool :=
  match wt_build (B32 recip_libm) (demo_src _) true demo16 2 (f32_ofZ 44106) (fl 1 40000) with
  | Ok (Some w) => match znth (cf_scale (wt_cf w)) 0 with Ok x => is_finite x && Bltb x (fl 1 4) | _ => false end
  | _ => false end.
Theorem C09_unusual_rate_refuted : log2_exact recip_libm /\
  exists w (x : f32), wt_build (B32 recip_libm) (demo_src _) true demo16 2 (f32_ofZ 44106) (fl 1 40000) = Ok (Some w) /\
    znth (cf_scale (wt_cf w)) 0 = Ok x /\ is_finite x = true /\ (B2R x < / 4)%R.
Proof.
  split; [exact demo_exact|]. assert (H : recipTest = true) by (vm_compute; reflexivity). unfold recipTest in H.
  destruct (wt_build _ _ _ _ _ _ _) as [[w|]|]; try discriminate.
  destruct (znth (cf_scale (wt_cf w)) 0) as [x|] eqn:E; try discriminate. exists w, x. split; [reflexivity|]. split; [exact E|].
  assert (V : B2R (fl 1 4) = (/ 4)%R) by (vm_compute; lra).
  assert (F : is_finite (fl 1 4) = true) by reflexivity.
  apply andb_prop in H. destruct H as [G H]. destruct x as [s|s| |s m e P]; try discriminate G.
  - split; [reflexivity|]. cbn. lra.
  - split; [reflexivity|]. rewrite <- V. apply Rcompare_Lt_inv. unfold Bltb, SFltb in H. assert (C := Bcompare_correct 24 128 (B754_finite s m e P) (fl 1 4) eq_refl F).
    unfold Bcompare in C. rewrite C in H. destruct (Rcompare _ _); try discriminate H; reflexivity.
Qed.
Print Assumptions C09_unusual_rate_refuted.
