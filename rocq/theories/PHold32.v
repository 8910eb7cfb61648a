(** * PHold32: lemmas behind C64 -- standing still in binary32 *)
From Coq Require Import ZArith List Bool Reals Lia Lra Arith.
From Flocq Require Import Core IEEE754.BinarySingleNaN.
From Verif Require Import Num Maths CrossFader Wavetable Filters Osc Spec SpecC SpecT NumFacts Laws CFFacts
  WTFacts BuildFacts SimdFacts OscFacts OscStep OscRun OscHist CFHist PTables PRebuild RNum RLaws B32 B32Facts B32Laws
  SpecF SpecO SpecW PCross PHist PWork.
From Coquelicot Require Import Coquelicot.
From Verif Require Import SpecE SpecR SpecX SpecZ SpecZ32 ExactMath ExactStep ExactRun ExactCover PExact PApx PHold PTerm PStay PTrack PTrackS PTrackH PCover32.
Import ListNotations.
Local Open Scope R_scope.

Section Hist.
Variable lm : Libm.
Hypothesis Hex : expAccurate lm.
Hypothesis Hlog : log2_exact lm.
Variable src : Resampler (B32 lm).
Variable cfg : Cfg.
Hypothesis HB : (1 <= batch cfg)%nat.
Variable f : FilterType.
Variable c : Z.
Hypothesis Hc : (-64 <= c <= 64)%Z.
Notation N := (B32 lm).
Notation L := (B32_Laws lm Hlog).
Notation F := (filt N f).
Notation dbg := (Osc.dbg cfg).
Notation tracks := (tracks lm Hlog src cfg f c).
Notation close := (close f c).

Lemma stays_near dir st ps st' Ys : stays32 lm src dbg f dir st ps st' Ys ->
  forall (o : Osc N) (out : list (T N)), tracks st o -> length out = length ps ->
  exists o' ys, processLoop N cfg F dir o ps out = Ok (o', ys) /\ tracks st' o' /\ Forall2 close ys Ys.
Proof.
  induction 1 as [st|st p st1 y ps st2 ys Hs Hb IH]; intros o out Tr Hl.
  - destruct out; [|discriminate]. exists o, []. auto.
  - destruct out as [|z out]; [discriminate|]. cbn [processLoop].
    destruct (stay_near lm Hex Hlog src cfg HB f c Hc dir st p st1 y o Tr Hs) as (o1 & x & E1 & T1 & C1).
    rewrite E1. cbn [bind]. destruct (IH o1 out T1 ltac:(now injection Hl)) as (o2 & xs & E2 & T2 & C2).
    rewrite E2. cbn [bind]. exists o2, (x :: xs). split; [reflexivity|]. split; [exact T2|]. constructor; assumption.
Qed.

Lemma process_stays dir st ps st' Ys (o : Osc N) : stays32 lm src dbg f dir st ps st' Ys -> tracks st o ->
  exists o' ys, Osc.apply N src cfg F o (OpProcess N dir ps) = Ok (o', ys) /\ tracks st' o' /\ Forall2 close ys Ys.
Proof.
  intros Hb Tr. cbn [Osc.apply]. unfold process. rewrite (oo_wt _ _ _ _ _ _ _ (tk_ok _ _ _ _ _ _ _ _ Tr)).
  rewrite assert_ok by reflexivity. cbn [bind].
  rewrite assert_ok.
  2:{ intros _. unfold zlen. rewrite map_length. apply Z.eqb_refl. }
  cbn [bind]. destruct (stays_near dir st ps st' Ys Hb o (List.map (fun _ => t0 N) ps) Tr) as (o' & ys & E & T & C).
  { apply map_length. }
  exists o', ys. auto.
Qed.

Lemma run_app32 (ops rest : list (Op N)) o o1 ys : Osc.run N src cfg F o ops = Ok (o1, ys) ->
  Osc.run N src cfg F o (ops ++ rest) = (let! (o2, zs) := Osc.run N src cfg F o1 rest in Ok (o2, ys ++ zs)).
Proof.
  revert o ys. induction ops as [|op ops IH]; intros o ys H; cbn [Osc.run app] in *.
  - injection H as <- <-. destruct (Osc.run N src cfg F o rest) as [[o2 zs]|]; reflexivity.
  - apply bind_ok in H. destruct H as ([o2 y1] & E1 & H). apply bind_ok in H. destruct H as ([o3 y2] & E2 & H).
    injection H as <- <-. rewrite E1. cbn [bind]. rewrite (IH _ _ E2).
    destruct (Osc.run N src cfg F o3 rest) as [[o4 zs]|]; cbn [bind]; [|reflexivity]. now rewrite app_assoc.
Qed.

Theorem roams_near st ops st' Ys : roams32 lm src dbg f c st ops st' Ys ->
  forall o : Osc N, tracksO lm Hlog src cfg f c st o ->
  exists o' ys, Osc.run N src cfg F o ops = Ok (o', ys) /\ tracksO lm Hlog src cfg f c st' o' /\ Forall2 close ys Ys.
Proof.
  induction 1 as [st|st ops st1 ys rest st2 zs Hp Hr IH|st dir ps st1 ys rest st2 zs Hb Hr IH]; intros o Tr.
  - exists o, []. auto.
  - destruct (plays_near lm Hex Hlog src cfg HB f c Hc _ _ _ _ Hp o Tr) as (o1 & xs & E1 & T1 & C1).
    destruct (IH o1 T1) as (o2 & xs2 & E2 & T2 & C2). exists o2, (xs ++ xs2).
    split; [rewrite (run_app32 _ _ _ _ _ E1), E2; reflexivity|]. split; [exact T2|]. now apply Forall2_app.
  - cbn [tracksO] in Tr. cbn [Osc.run].
    destruct (process_stays dir st ps st1 ys o Hb Tr) as (o1 & xs & E1 & T1 & C1). rewrite E1. cbn [bind].
    destruct (IH _ T1) as (o2 & xs2 & E & T & C). rewrite E. cbn [bind]. exists o2, (xs ++ xs2).
    split; [reflexivity|]. split; [exact T|]. now apply Forall2_app.
Qed.
End Hist.

(** ** which histories these are *)
Section Cover.
Variable lm : Libm.
Hypothesis Hlog : log2_exact lm.
Variable src : Resampler (B32 lm).
Variable f : FilterType.
Variable c : Z.
Notation N := (B32 lm).
Notation L := (B32_Laws lm Hlog).

Lemma find320 K nw wfs w (d : f32) : table32 lm src false K nw wfs w -> fin32 d = true -> entryFor K (v32 d) 0 ->
  cfState N (wt_cf w) = (0, 0, 0)%Z ->
  exists w', wt_findMipMapIndices N false w d = Ok (w', (0%Z, t1 N, 1%Z, t0 N)) /\
    cfState N (wt_cf w') = (0, 0, 0)%Z /\ table32 lm src false K nw wfs w' /\ (2 <= K <= 18)%Z.
Proof.
  intros HT Hf Hr Hs.
  destruct (table32_ok lm Hlog src false _ _ _ _ HT) as (HW & Ct & nf & Hre & Hnf).
  destruct (reach_ok lm Hlog src false K nf w Hre) as (HK & _ & HSc & En & Hm & HCf). specialize (HCf Hnf).
  assert (Er : req N (wt_cf w) d = 0%Z) by (apply (req32 lm Hlog src false K nf w d 0 Hre Hf Hr)).
  assert (E : wt_findMipMapIndices N false w d = Ok (mkWT (wt_slots w) (wt_ph w)
     (cfWith N (wt_cf w) (cfStep (cf_num (wt_cf w)) (cfState N (wt_cf w)) 0)),
     outS N (cf_num (wt_cf w)) (cfState N (wt_cf w)) 0)).
  { unfold wt_findMipMapIndices. rewrite (newIndices_eq N false (wt_cf w) d HCf), Er by discriminate.
    cbn [bind]. now rewrite cfOut_S. }
  assert (HT' := t32_ask lm src false K nw wfs w d _ _ HT E).
  rewrite Hs in E, HT'. unfold outS, cfStep in E, HT'. cbn [Z.eqb andb] in E, HT'.
  eexists. split; [exact E|]. cbn [wt_cf]. rewrite cfWith_state. split; [reflexivity|]. split; [exact HT'|lia].
Qed.

Lemma step_fin dir (q p : f32) : phase01 q -> phase01 p -> fin32 (step32 lm dir q p) = true.
Proof.
  intros [Q1 Q2] [P1 P2]. destruct dir.
  - apply (fwd_spec N L p q P1 Q1 P2 Q2).
  - apply (bi_spec N L p q P1 Q1 P2 Q2).
Qed.

Lemma displaced0 dir (q p : f32) K : (2 <= K <= 18)%Z -> phase01 q -> phase01 p -> stepIn0 K (step32 lm dir q p) ->
  exists d k, B2R q + d = B2R p + IZR k /\ Rabs d < / 2 /\ (B2R (step32 lm dir q p) = 0 -> d = 0).
Proof.
  intros HK Hq Hp [H|H].
  - exists 0, 0%Z. rewrite (still_step lm dir q p Hq Hp H), Rabs_R0. repeat split; lra.
  - destruct (displaced lm (mkCfg false 1) (le_n 1) dir q p K 0 HK Hq Hp H) as (d & k & E1 & E2).
    exists d, k. split; [exact E1|]. split; [exact E2|]. intros E. destruct H as [H _]. contradiction.
Qed.

(** one sample within the lowest octave *)
Lemma still_sample dir (st : Ideal32 lm) (p : f32) :
  table32 lm src false (i_K lm st) (i_nw lm st) (i_wfs lm st) (i_tab lm st) ->
  cfState N (wt_cf (i_tab lm st)) = (0, 0, 0)%Z -> i_entry lm st = 0%Z ->
  plainPhase (i_phase lm st) -> plainPhase p ->
  let s := step32 lm dir (i_phase lm st) p in
  stepIn0 (i_K lm st) s -> (B2R (i_step lm st) = 0 -> 0 <= B2R s) -> (B2R s = 0 -> ~ onGrid (i_K lm st) (B2R p)) ->
  exists w' d mem, stay32 lm src false f dir st p
      (mkI32 lm (i_K lm st) (i_nw lm st) (i_wfs lm st) w' (i_wf lm st) p s 0 mem) (audible mem) /\
    table32 lm src false (i_K lm st) (i_nw lm st) (i_wfs lm st) w' /\ cfState N (wt_cf w') = (0, 0, 0)%Z /\
    (B2R s = 0 -> d = 0) /\
    mem = allPoles (filt RNum f) (fun u => curve lm src st 0 (B2R (i_phase lm st) + d * u)) (i_mem lm st).
Proof.
  intros HT Hs He Hq Hp s Hst Hnt Hoff.
  assert (Fs := step_fin dir _ _ (proj1 Hq) (proj1 Hp)). fold s in Fs.
  destruct (babs_val s Fs) as [Fa Va]. change (@Babs 24 128 s) with (tabs N s) in Fa, Va.
  assert (HK : (2 <= i_K lm st)%Z).
  { destruct (table32_ok lm Hlog src false _ _ _ _ HT) as ((HK & _) & _). lia. }
  assert (Hen : entryFor (i_K lm st) (v32 (tabs N s)) 0).
  { rewrite Va. destruct Hst as [E|E]; [|apply E]. change (B2R s) with (v32 s) in E. rewrite E, Rabs_R0. now apply entry_zero. }
  destruct (find320 _ _ _ _ _ HT Fa Hen Hs) as (w' & Ef & Es & HT' & HK').
  destruct (displaced0 dir _ _ _ HK' (proj1 Hq) (proj1 Hp) Hst) as (d & k & E1 & E2 & E3). fold s in E3.
  exists w', d, (allPoles (filt RNum f) (fun u => curve lm src st 0 (B2R (i_phase lm st) + d * u)) (i_mem lm st)).
  split; [|auto].
  assert (G1 : B2R (t1 N) = 1) by (destruct (ofZ32 1 ltac:(lia)) as [_ G]; exact G).
  assert (G0 : B2R (t0 N) = 0) by (destruct (ofZ32 0 ltac:(lia)) as [_ G]; exact G).
  apply (stay32_ lm src false f dir st p s d k w' 0 (t1 N) 1 (t0 N)); auto.
  - destruct Hst as [E|(_ & E & _)]; [rewrite E, Rabs_R0; lra|exact E].
  - unfold traceable32. rewrite He. destruct (Rtotal_order (B2R (i_step lm st)) 0) as [H|[H|H]].
    + left; right. auto.
    + right. split; [exact H|lia].
    + left; left. split; [exact H|lia].
  - rewrite Z.sub_0_r. exact Hoff.
  - intros Hneg E0. specialize (Hnt E0). lra.
  - apply allPoles_ext. intros u _. rewrite G1, G0. ring.
Qed.

Lemma still_block32 dir ps : forall (st : Ideal32 lm),
  table32 lm src false (i_K lm st) (i_nw lm st) (i_wfs lm st) (i_tab lm st) ->
  cfState N (wt_cf (i_tab lm st)) = (0, 0, 0)%Z -> i_entry lm st = 0%Z ->
  List.Forall plainPhase (i_phase lm st :: ps) ->
  List.Forall (stepIn0 (i_K lm st)) (steps32 lm dir (i_phase lm st) ps) ->
  noTurn (List.map (@B2R 24 128) (i_step lm st :: steps32 lm dir (i_phase lm st) ps)) ->
  standsOff32 lm dir (i_K lm st) (i_phase lm st) ps ->
  exists st' ys, stays32 lm src false f dir st ps st' ys.
Proof.
  induction ps as [|p ps IH]; intros st HT Hs He Hsh Hst Hnt Hso.
  - exists st, []. constructor.
  - inversion_clear Hsh as [|? ? Hq Hps]. assert (Hps0 := Hps). inversion_clear Hps as [|? ? Hp _]. cbn [steps32] in *.
    inversion_clear Hst as [|? ? Hs1 Hst'].
    set (s := step32 lm dir (i_phase lm st) p) in *.
    cbn [standsOff32] in Hso. fold s in Hso. destruct Hso as [Hso1 Hso2].
    assert (Hnt' : (B2R (i_step lm st) = 0 -> 0 <= B2R s) /\ noTurn (List.map (@B2R 24 128) (s :: steps32 lm dir p ps))) by exact Hnt.
    destruct Hnt' as [Hnt1 Hnt2].
    destruct (still_sample dir st p HT Hs He Hq Hp Hs1 Hnt1 Hso1) as (w' & d & mem & Sm & HT' & Es & _).
    match type of Sm with stay32 _ _ _ _ _ _ _ ?st1 ?y => destruct (IH st1) as (st' & ys & B);
      cbn [i_K i_nw i_wfs i_tab i_wf i_phase i_step i_entry i_mem]; auto;
      exists st', (y :: ys); econstructor; eassumption end.
Qed.

Lemma last_plain (ps : list f32) p : List.Forall plainPhase (p :: ps) -> plainPhase (last ps p).
Proof.
  intros Hpp. rewrite List.Forall_forall in Hpp. apply Hpp. destruct ps as [|p1 ps]; [now left|]. right.
  destruct (@exists_last _ (p1 :: ps) ltac:(discriminate)) as (l & a & E). rewrite E, last_last. apply in_or_app. right. now left.
Qed.

Lemma still_plays32 wfs nw K w sr fade n (p d : f32) ps dir ps2 :
  wellFormed N wfs nw K -> rate32 lm sr -> tcast N (tmul N fade sr) = Ok n -> (1 <= n)%Z ->
  wt_build N src false wfs nw sr fade = Ok (Some w) -> tameAll lm src c wfs nw K ->
  finite d -> 0 < B2R d -> entryFor K (B2R d) 0 ->
  List.Forall plainPhase (p :: ps ++ ps2) -> (n <= Z.of_nat (length ps))%Z ->
  List.Forall (stepIn K 0) (steps32 lm kForward p ps) ->
  List.Forall (stepIn0 K) (steps32 lm dir (last ps p) ps2) ->
  noTurn (List.map (@B2R 24 128) (steps32 lm dir (last ps p) ps2)) -> standsOff32 lm dir K (last ps p) ps2 ->
  exists st ys, roams32 lm src false f c None
    [OpInit N (Some w) p d; OpProcess N kForward ps; OpProcess N dir ps2] (Some st) ys.
Proof.
  intros HW Hs Hn Hn1 Hb Ht Fd Hd Hr Hp Hl Hst Hst2 Hnt Hso.
  assert (Hp0 : plainPhase p) by (inversion Hp; assumption).
  assert (Hpp : List.Forall plainPhase (p :: ps)).
  { constructor; [exact Hp0|]. apply List.Forall_inv_tail in Hp. apply List.Forall_app in Hp. apply Hp. }
  assert (Hp2 : List.Forall plainPhase (last ps p :: ps2)).
  { constructor; [now apply last_plain|]. apply List.Forall_inv_tail in Hp. apply List.Forall_app in Hp. apply Hp. }
  destruct (built_fresh32 lm Hlog src (mkCfg false 1) (le_n 1) f wfs nw K w sr fade n p d 0 HW Hs Hn Hn1 Hb Hp0 Fd Hd Hr)
    as (HT & w' & m & g0 & Fr & HT' & En & Hg & Hcs & Hm).
  set (st0 := mkI32 lm K nw wfs w' 0 p d m (repeat (RtoC 0) (numCoeffs f))) in *.
  destruct (settle_forward32 lm Hlog src (mkCfg false 1) (le_n 1) f n ps st0 g0 0) as (st1 & ys & B & E1 & E2 & E3 & E4 & E5 & E6 & E7 & E8); auto; [lia|].
  unfold st0 in E1, E2, E3, E4, E8. cbn [i_K i_nw i_wfs i_tab i_wf i_phase i_step i_entry i_mem Osc.dbg] in *.
  destruct (still_block32 dir ps2 st1) as (st2 & zs & B2); rewrite ?E1, ?E2, ?E3, ?E8; auto.
  { cbn [List.map]. destruct (List.map (@B2R 24 128) (steps32 lm dir (last ps p) ps2)) eqn:El; [exact I|]. split; [|exact Hnt]. intros E0. now elim E7. }
  exists st2, ((ys ++ []) ++ (zs ++ [])).
  apply (ro32_plays lm src false f c None [OpInit N (Some w) p d; OpProcess N kForward ps] (Some st1)).
  - eapply p32_load; [left; reflexivity|exact HT|exact Ht|exact Fr|]. eapply p32_process; [exact B|]. constructor.
  - eapply ro32_block; [exact B2|]. constructor.
Qed.

(** standing still for a long time *)
Lemma hold_block32 dir n : forall (st : Ideal32 lm),
  table32 lm src false (i_K lm st) (i_nw lm st) (i_wfs lm st) (i_tab lm st) ->
  cfState N (wt_cf (i_tab lm st)) = (0, 0, 0)%Z -> i_entry lm st = 0%Z -> plainPhase (i_phase lm st) ->
  ~ onGrid (i_K lm st) (B2R (i_phase lm st)) ->
  forall Y k v, i_mem lm st = heldMem (filt RNum f) v Y k -> v = curve lm src st 0 (B2R (i_phase lm st)) ->
  exists st' ys, stays32 lm src false f dir st (repeat (i_phase lm st) n) st' ys /\ length ys = n /\
    forall i y, nth_error ys i = Some y -> y = audible (heldMem (filt RNum f) v Y (k + S i)).
Proof.
  induction n as [|n IH]; intros st HT Hs He Hq Hog Y k v Hm Hv.
  - exists st, []. split; [constructor|]. split; [reflexivity|]. intros [|i] y; discriminate.
  - cbn [repeat].
    assert (Z0 : B2R (step32 lm dir (i_phase lm st) (i_phase lm st)) = 0).
    { destruct (Hq) as [[Q1 Q2] _]. unfold step32, stepFwd, stepBi.
      assert (D0 : B2R (tsub N (i_phase lm st) (i_phase lm st)) = 0 /\ fin32 (tsub N (i_phase lm st) (i_phase lm st)) = true).
      { destruct (sub32 (i_phase lm st) (i_phase lm st) Q1 Q1) as (A & B & _); [rewrite Rminus_eq_0; apply small32_1; lra|].
        split; [refine (eq_trans B _); rewrite Rminus_eq_0; apply round_0; auto with typeclass_instances|exact A]. }
      destruct D0 as [D0 D1].
      destruct (zero_spec N L) as [Z1 Z2]. destruct (half_spec N L 1 ltac:(lia)) as [Hh1 Hh2].
      destruct (half_spec N L (-1) ltac:(lia)) as [Hm1 Hm2].
      destruct dir.
      - rewrite (lt_spec N L _ _ D1 Z1), Z2. change (Laws.val N L (tsub N (i_phase lm st) (i_phase lm st))) with (B2R (tsub N (i_phase lm st) (i_phase lm st))).
        rewrite Rlt_bool_false; [exact D0|]. rewrite D0. lra.
      - rewrite (lt_spec N L _ _ D1 Hm1), Hm2, (lt_spec N L _ _ Hh1 D1), Hh2.
        change (Laws.val N L (tsub N (i_phase lm st) (i_phase lm st))) with (B2R (tsub N (i_phase lm st) (i_phase lm st))).
        rewrite D0. rewrite !Rlt_bool_false by lra. exact D0. }
    destruct (still_sample dir st (i_phase lm st) HT Hs He Hq Hq) as (w' & d & mem & Sm & HT' & Es & Hd & Hmem).
    { now left. } { intros _. rewrite Z0. lra. } { intros _. exact Hog. }
    specialize (Hd Z0). subst d.
    assert (Em : mem = heldMem (filt RNum f) v Y (S k)).
    { rewrite Hmem, Hm. apply held_S; [apply shipped_exact|]. intros u _. rewrite Hv. f_equal. ring. }
    clear Hmem. subst mem.
    match type of Sm with stay32 _ _ _ _ _ _ _ ?st1 ?y => destruct (IH st1) with (Y := Y) (k := S k) (v := v) as (st' & ys & B & Hl & Hy);
      cbn [i_K i_nw i_wfs i_tab i_wf i_phase i_step i_entry i_mem]; auto;
      exists st', (y :: ys) end.
    split; [econstructor; eassumption|]. split; [cbn [length]; now f_equal|].
    intros [|i] y E; cbn [nth_error] in E.
    + injection E as <-. f_equal. f_equal. lia.
    + rewrite (Hy i y E). f_equal. f_equal. lia.
Qed.
End Cover.

(** number of samples asked for *)
Lemma stays_len lm src dbg f dir st ps st' Ys : stays32 lm src dbg f dir st ps st' Ys -> length Ys = @length f32 ps.
Proof. induction 1; cbn [length]; congruence. Qed.
