(** * PWide: lemmas behind C52 -- phases outside [0,1) *)
From Coq Require Import ZArith List Bool Reals Lia Lra Arith.
From Flocq Require Import Core IEEE754.BinarySingleNaN.
From Verif Require Import Num Maths CrossFader Wavetable Filters Osc Spec NumFacts Laws B32 B32Facts
  B32Laws B32Pow SpecF SpecO CFFacts WTFacts BuildFacts SimdFacts OscFacts OscStep OscRun OscHist CFHist PCross PBuild PHist
  RNum RLaws SpecP.
Import ListNotations.
Local Open Scope Z_scope.

Section Any.
Variable N : Num.
Variable cfg : Cfg.
Variable F : Filt N.
Notation dbg := (dbg cfg).

(** the oscillator with another last phase *)
Definition set_ph (o : Osc N) (p : T N) : Osc N :=
  mkOsc (o_wt o) (o_y o) p (o_phred o) (o_pd o) (o_mm o) (o_j o) (o_pj o) (o_wf o).
Definition nrm (o : Osc N) : Osc N := set_ph o (o_phred o).
Definition rePh (p : T N) (r : Osc N * T N) : Osc N * T N := (set_ph (fst r) p, snd r).

(** [q] is what [p] reduces to *)
Definition redTo (p q : T N) : Prop := reduceT N dbg p (t1 N) = Ok q /\ reduceT N dbg q (t1 N) = Ok q.

Lemma idxFwd_wide o w p q pd r : redTo p q ->
  idxFwd N cfg o w p pd = idxFwd N cfg (set_ph o r) w q pd.
Proof. intros [E1 E2]. unfold idxFwd. rewrite E1, E2. reflexivity. Qed.
Lemma idxBwd_wide o w p q pd r : redTo p q ->
  idxBwd N cfg o w p pd = idxBwd N cfg (set_ph o r) w q pd.
Proof. intros [E1 E2]. unfold idxBwd. rewrite E1, E2. reflexivity. Qed.

Lemma fwd_wide o w p q pd r : redTo p q ->
  processSampleFwd N cfg F o w p pd =
  let! z := processSampleFwd N cfg F (set_ph o r) w q pd in Ok (rePh p z).
Proof.
  intros H. unfold processSampleFwd. rewrite (idxFwd_wide o w p q pd r H).
  destruct (idxFwd N cfg (set_ph o r) w q pd) as [x|]; [|reflexivity]. cbn [bind].
  cbn [set_ph o_wf o_phred]. destruct (computeFwdI _ _ _ _ _ _ _ _ _ _ _ _) as [a|]; [|reflexivity]. cbn [bind].
  destruct (if negb _ then _ else _) as [ic|]; reflexivity.
Qed.
Lemma bwd_wide o w p q pd r : redTo p q ->
  processSampleBwd N cfg F o w p pd =
  let! z := processSampleBwd N cfg F (set_ph o r) w q pd in Ok (rePh p z).
Proof.
  intros H. unfold processSampleBwd. rewrite (idxBwd_wide o w p q pd r H).
  destruct (idxBwd N cfg (set_ph o r) w q pd) as [x|]; [|reflexivity]. cbn [bind].
  cbn [set_ph o_wf o_phred]. destruct (computeBwdI _ _ _ _ _ _ _ _ _ _ _ _ _) as [a|]; [|reflexivity]. cbn [bind].
  destruct (if negb _ then _ else _) as [ic|]; reflexivity.
Qed.

(** two oscillators that differ in the last phase only, a phase and what it reduces to, the same
    step: the same sample *)
Lemma one_wide dir o p q r : redTo p q -> stepOf N dir p (o_phase o) = stepOf N dir q r ->
  processOne N cfg F dir o p = let! z := processOne N cfg F dir (set_ph o r) q in Ok (rePh p z).
Proof.
  intros H E. unfold processOne. cbn [set_ph o_wt o_phase]. destruct (o_wt o) as [w|]; [|reflexivity].
  destruct dir; cbn [stepOf] in E; rewrite E.
  - destruct (assert_ dbg _) as [[]|]; cbn [bind]; [|reflexivity]. apply (fwd_wide o w p q _ r H).
  - destruct (tle N _ _); [apply (fwd_wide o w p q _ r H)|apply (bwd_wide o w p q _ r H)].
Qed.

Lemma reset_wide o p q d r : redTo p q ->
  resetInternals N cfg F o p d = let! o1 := resetInternals N cfg F (set_ph o r) q d in Ok (set_ph o1 p).
Proof.
  intros [E1 E2]. unfold resetInternals. cbn [set_ph o_wt o_pj o_wf].
  destruct (assert_ dbg _) as [[]|]; cbn [bind]; [|reflexivity]. destruct (o_wt o) as [w|]; [|reflexivity].
  rewrite E1, E2. cbn [bind]. destruct (wt_findMipMapIndices N dbg w (tabs N d)) as [[w1 [[[a1 a2] a3] a4]]|]; cbn [bind]; [|reflexivity].
  destruct (wt_waveformLen N w1 a1); cbn [bind]; [|reflexivity].
  destruct (if tle N (t0 N) d then _ else _); reflexivity.
Qed.
End Any.

Section Safe.
Variable N : Num.
Variable L : Laws N.
Variable cfg : Cfg.
Variable F : Filt N.
Hypothesis HB : (1 <= batch cfg)%nat.
Hypothesis HF : filtOk N F.
Notation dbg := (dbg cfg).
Notation fin := (fin N L).
Notation val := (val N L).
Variable strict : bool.
Notation good := (good N L F strict).
Notation nrm := (nrm N).
Notation set_ph := (set_ph N).

(** [q]: the phase [p] reduces to *)
Definition wide (p q : T N) : Prop := redTo N cfg p q /\ okPhase N L q.

Definition stepPreW (dir : Direction) (prev p q : T N) : Prop :=
  wide p q /\ fin (stepOf N dir p prev) /\
  (dir = kForward -> (0 <= val (stepOf N dir p prev))%R) /\
  (dbg = true -> val (stepOf N dir p prev) <> 0%R /\ (- / 2 <= val (stepOf N dir p prev) <= / 2)%R) /\
  (strict = true -> (0 < val (stepOf N dir p prev))%R \/
                    (val (stepOf N dir p prev) < 0)%R /\ val q <> 0%R).

Lemma oneW_ok K nw o w dir p q : OscOk N L F K nw (nrm o) w ->
  stepPreW dir (o_phase o) p q ->
  let pd := stepOf N dir p (o_phase o) in
  let d := if Rle_bool 0 (val pd) then pd else tabs N pd in
  if Rle_bool (val (o_pd o)) 0 && (o_j o =? 0) && (miOf N w d <? o_mm o)
  then processOne N cfg F dir o p = Fault OutOfBounds
  else exists o' out iv, processOne N cfg F dir o p = Ok (set_ph o' p, out) /\
         Stepped N F L K nw (nrm o) w d q pd iv o' out.
Proof.
  intros HO ([Hr Hq] & Hf & Hfw & Hd & _) pd d. fold pd in Hf, Hfw, Hd.
  destruct (zero_spec N L) as [Z1 Z2].
  assert (Hd1 : dbg = true -> (0 <= val pd)%R -> (0 < val pd <= /2)%R).
  { intros D H. destruct (Hd D). lra. }
  assert (Hsel : processOne N cfg F dir o p =
     if Rle_bool 0 (val pd) then processSampleFwd N cfg F o w p pd
     else processSampleBwd N cfg F o w p pd).
  { unfold processOne. assert (Ew := oo_wt _ _ _ _ _ _ _ HO). cbn [PWide.nrm PWide.set_ph o_wt] in Ew. rewrite Ew.
    destruct dir; cbn [stepOf] in pd; fold pd.
    - specialize (Hfw eq_refl). rewrite assert_ok.
      + rewrite Rle_bool_true by lra. reflexivity.
      + intros D. specialize (Hd1 D Hfw). destruct (half_spec N L 1 ltac:(lia)) as [Hh1 Hh2].
        rewrite (lt_spec N L _ _ Z1 Hf), Z2, (le_spec N L _ _ Hf Hh1), Hh2.
        rewrite Rlt_bool_true, Rle_bool_true by lra. reflexivity.
    - rewrite (le_spec N L _ _ Z1 Hf), Z2. reflexivity. }
  assert (Htr : (Rle_bool (val (o_pd o)) 0 && (o_j o =? 0) && (miOf N w d <? o_mm o) = true) <->
                (trap N L (nrm o) /\ miOf N w d < o_mm o)).
  { unfold trap. cbn [PWide.nrm PWide.set_ph o_pd o_j]. rewrite !andb_true_iff, Z.eqb_eq, Z.ltb_lt.
    split; intros [[H1 H2] H3]; repeat split; auto.
    - destruct (Rle_bool_spec (val (o_pd o)) 0); [assumption|discriminate].
    - now apply Rle_bool_true. }
  rewrite Hsel.
  rewrite (fwd_wide N cfg F o w p q pd (o_phred o) Hr), (bwd_wide N cfg F o w p q pd (o_phred o) Hr).
  fold (PWide.nrm N o).
  destruct (Rle_bool (val (o_pd o)) 0 && (o_j o =? 0) && (miOf N w d <? o_mm o)) eqn:Eb.
  - destruct (proj1 Htr eq_refl) as [T1 T2]. unfold d in *.
    destruct (Rle_bool_spec 0 (val pd)) as [H|H].
    + rewrite (idxFwd_trap N cfg F L HB K nw (nrm o) w HO q pd Hq Hf H (fun D => Hd1 D H) T1 T2). reflexivity.
    + rewrite (idxBwd_trap N cfg F L HB K nw (nrm o) w HO q pd Hq Hf H (fun D => proj1 (proj2 (Hd D))) T1 T2). reflexivity.
  - assert (Hnt : ~ (trap N L (nrm o) /\ miOf N w d < o_mm o)).
    { intros H. apply Htr in H. discriminate. }
    unfold d in *. destruct (Rle_bool_spec 0 (val pd)) as [H|H].
    + destruct (processSampleFwd_ok N cfg F L HB HF K nw (nrm o) w HO q pd Hq Hf H ltac:(auto) Hnt) as (o' & out & jm & E & S & _).
      rewrite E. do 3 eexists. split; [reflexivity|exact S].
    + destruct (processSampleBwd_ok N cfg F L HB HF K nw (nrm o) w HO q pd Hq Hf H) as (o' & out & jm & E & S & _); auto.
      { intros D. apply (Hd D). }
      rewrite E. do 3 eexists. split; [reflexivity|exact S].
Qed.
Definition goodW (o : Osc N) : Prop := good (nrm o).

Lemma nrm_set o p : nrm (set_ph o p) = nrm o.
Proof. reflexivity. Qed.
Lemma nrm_ok K nw o w : OscOk N L F K nw o w -> nrm o = o.
Proof. intros HO. assert (E := oo_phase _ _ _ _ _ _ _ HO). unfold PWide.nrm, PWide.set_ph. rewrite <- E at 1. destruct o; reflexivity. Qed.

Lemma oneW_fine dir o p q : goodW o -> stepPreW dir (o_phase o) p q ->
  fineT strict (fun r => goodW (fst r) /\ o_phase (fst r) = p /\ nwOf N (fst r) = nwOf N o /\ o_wf (fst r) = o_wf o)
    (processOne N cfg F dir o p).
Proof.
  intros [(K & nw & w & HO) Hc] HP.
  assert (A := oneW_ok K nw o w dir p q HO HP). cbv zeta in A.
  destruct HP as (_ & _ & _ & _ & H3).
  set (pd := stepOf N dir p (o_phase o)) in *.
  destruct (Rle_bool (val (o_pd o)) 0 && (o_j o =? 0) && (miOf N w _ <? o_mm o)) eqn:Eb.
  - right. split; [|assumption].
    destruct strict eqn:Es; [exfalso|reflexivity].
    apply andb_prop in Eb. destruct Eb as [Eb _]. apply andb_prop in Eb. destruct Eb as [E1 E2].
    apply (clear_notrap N L cfg F HB true K nw (nrm o) w HO Hc eq_refl). split; [|now apply Z.eqb_eq].
    cbn [PWide.nrm PWide.set_ph o_pd].
    destruct (Rle_bool_spec (val (o_pd o)) 0); [assumption|discriminate].
  - left. destruct A as (o' & out & iv & E & S). exists (set_ph o' p, out). split; [assumption|].
    assert (HO' := sp_ok _ _ _ _ _ _ _ _ _ _ _ _ _ S).
    cbn [fst]. split; [|split; [reflexivity|split]].
    + unfold goodW. rewrite nrm_set, (nrm_ok _ _ _ _ HO').
      split; [exists K, nw, (wtNext N w (if Rle_bool 0 (val pd) then pd else tabs N pd)); exact HO'|].
      intros Hs. rewrite (sp_pd _ _ _ _ _ _ _ _ _ _ _ _ _ S).
      assert (Ep := oo_phase _ _ _ _ _ _ _ HO').
      rewrite (sp_phase _ _ _ _ _ _ _ _ _ _ _ _ _ S) in Ep. rewrite <- Ep. now apply H3.
    + change (nwOf N (set_ph o' p)) with (nwOf N o'). change (nwOf N o) with (nwOf N (nrm o)).
      now rewrite (nwOf_ok N L F K nw _ _ HO'), (nwOf_ok N L F K nw _ _ HO).
    + change (o_wf (set_ph o' p)) with (o_wf o'). exact (sp_wf _ _ _ _ _ _ _ _ _ _ _ _ _ S).
Qed.

Fixpoint blockPreW (dir : Direction) (prev : T N) (ps : list (T N)) : Prop :=
  match ps with
  | [] => True
  | p :: t => (exists q, stepPreW dir prev p q) /\ blockPreW dir p t
  end.

Lemma loopW_fine dir ps : forall o out, goodW o -> blockPreW dir (o_phase o) ps -> length out = length ps ->
  fineT strict (fun r => goodW (fst r) /\ o_phase (fst r) = last ps (o_phase o) /\ nwOf N (fst r) = nwOf N o)
    (processLoop N cfg F dir o ps out).
Proof.
  induction ps as [|p ps IH]; intros o out Hg Hp Hl.
  - left. exists (o, out). split; [destruct out; reflexivity|auto].
  - destruct out as [|z out]; [discriminate|]. cbn [length] in Hl.
    cbn [processLoop]. destruct Hp as [[q Hp1] Hp2].
    eapply fine_bind; [eapply oneW_fine; eassumption|].
    intros [o1 y] (Hg1 & E1 & N1 & _). cbn [fst] in *.
    eapply fine_bind; [apply IH; [assumption|rewrite E1; assumption|lia]|].
    intros [o2 ys] (Hg2 & E2 & N2). cbn [fst] in *. left. eexists. split; [reflexivity|]. cbn [fst].
    split; [assumption|]. split; [|congruence]. rewrite E2, E1. symmetry. apply last_cons.
Qed.

Definition initPreW (p q d : T N) : Prop :=
  wide p q /\ fin d /\ (dbg = true -> val d <> 0%R) /\
  (strict = true -> (0 < val d)%R \/ (val d < 0)%R /\ val q <> 0%R).

Lemma initPreW_pre p q d : initPreW p q d -> initPre N L cfg strict q d.
Proof. intros ((_ & H1) & H2 & H3 & H4). repeat split; auto; apply H1. Qed.

Lemma resetW_fine o p q d : goodW o -> initPreW p q d ->
  exists o', resetInternals N cfg F o p d = Ok o' /\ goodW o' /\ o_phase o' = p /\ nwOf N o' = nwOf N o.
Proof.
  intros G Hi. assert (Hp := initPreW_pre _ _ _ Hi). destruct Hi as ([Hr Hq] & _).
  rewrite (reset_wide N cfg F o p q d (o_phred o) Hr). fold (PWide.nrm N o).
  assert (G' := G). destruct G' as [(K & nw & w & HO) Hc].
  destruct (resetInternals_fine N L cfg F HB strict K nw (nrm o) w q d) as (o' & w' & E & H1 & H2 & _); auto; try apply HO.
  rewrite E. cbn [bind]. eexists. split; [reflexivity|]. split; [|split; [reflexivity|]].
  - unfold goodW. rewrite nrm_set, (nrm_ok _ _ _ _ H1). split; [exists K, nw, w'; assumption|assumption].
  - change (nwOf N (set_ph o' p)) with (nwOf N o'). change (nwOf N o) with (nwOf N (nrm o)).
    now rewrite (nwOf_ok N L F K nw _ _ H1), (nwOf_ok N L F K nw _ _ HO).
Qed.

Lemma loadW_fine o w p q d : tableOk N w -> initPreW p q d ->
  exists o1, resetInternals N cfg F (set_wt N o (Some w)) p d = Ok o1 /\ goodW (set_wf N o1 0) /\
    o_phase o1 = p /\ nwOf N o1 = wt_numWaveforms N w.
Proof.
  intros Hw Hi. assert (Hp := initPreW_pre _ _ _ Hi). destruct Hi as ([Hr Hq] & _).
  rewrite (reset_wide N cfg F _ p q d (o_phase o) Hr).
  change (set_ph (set_wt N o (Some w)) (o_phase o)) with (set_wt N o (Some w)).
  destruct (load_fine N L cfg F HB strict o w q d Hw Hp) as (o1 & E & G).
  rewrite E. cbn [bind]. eexists. split; [reflexivity|].
  destruct (load_track N L cfg F HB strict o w q d o1 Hw Hp E) as (_ & _ & _ & Nw).
  split; [|split; [reflexivity|exact Nw]].
  unfold goodW. destruct G as [(K & nw & w1 & HO) Hc].
  change (nrm (set_wf N (set_ph o1 p) 0)) with (nrm (set_wf N o1 0)). rewrite (nrm_ok _ _ _ _ HO).
  split; [exists K, nw, w1; assumption|assumption].
Qed.

Lemma setwfW o k : goodW o -> 0 <= k < nwOf N o -> goodW (set_wf N o k).
Proof.
  intros [(K & nw & w & HO) Hc] Hk. unfold goodW.
  change (nrm (set_wf N o k)) with (set_wf N (nrm o) k).
  change (nwOf N o) with (nwOf N (nrm o)) in Hk. rewrite (nwOf_ok N L F K nw _ _ HO) in Hk.
  split; [exists K, nw, w; now apply OscOk_set_wf|exact Hc].
Qed.
End Safe.

(** half a unit in the last place *)
Lemma rnd_half x e : (-125 <= e)%Z -> (Rabs x < bpow radix2 e)%R -> (Rabs (rnd32 x - x) <= bpow radix2 (e - 25))%R.
Proof.
  intros He Hx. destruct (Req_dec x 0) as [->|Hn].
  - rewrite round_0 by auto with typeclass_instances. rewrite Rminus_0_r, Rabs_R0. apply bpow_ge_0.
  - eapply Rle_trans; [apply error_le_half_ulp; auto with typeclass_instances|].
    rewrite ulp_neq_0 by assumption. unfold cexp, FLT_exp.
    assert (M : (mag radix2 x <= e)%Z) by (apply mag_le_bpow; assumption).
    replace (bpow radix2 (e - 25)) with (/ 2 * bpow radix2 (e - 24))%R.
    + apply Rmult_le_compat_l; [lra|]. apply bpow_le. lia.
    + replace (e - 25)%Z with (-1 + (e - 24))%Z by lia. rewrite bpow_plus. reflexivity.
Qed.

Section Main.
Variable lm : Libm.
Hypothesis Hlog : log2_exact lm.
Variable src : Resampler (B32 lm).
Variable cfg : Cfg.
Variable F : Filt (B32 lm).
Notation N := (B32 lm).
Notation L := (B32_Laws lm Hlog).
Hypothesis HB : (1 <= batch cfg)%nat.
Hypothesis HF : filterShape N F.
Hypothesis Hsrc : resamplerOk N src.
Variable strict : bool.
Notation goodW := (goodW N L F strict).

Definition trackedW (st : option (f32 * Z)) (o : Osc N) : Prop :=
  match st with
  | Some (p, nw) => goodW o /\ o_phase o = p /\ nwOf N o = nw
  | None => o = osc_new N F
  end.

(** ** what a wide phase reduces to *)
Lemma wide_red (p : f32) : phaseWide p -> exists q, wide N L cfg p q /\
  (B2R (q : f32) = 0%R <-> ~ offZero p).
Proof.
  intros (Hf & Hr & Hneg).
  assert (Core : exists q : f32, reduceT N (dbg cfg) p (t1 N) = Ok q /\ okPhase N L q /\ (B2R q = 0%R <-> ~ offZero p)).
  2:{ destruct Core as (q & E & Hq & Hz). exists q. split; [split; [split; [exact E|]|exact Hq]|exact Hz].
      exact (reduce_phase N L (dbg cfg) q Hq). }
  destruct (one_spec N L) as [O1 O2]. destruct (zero_spec N L) as [Z1 Z2].
  destruct (red_spec N L) as (R1 & R2 & R3 & R4).
  unfold reduceT. rewrite assert_ok.
  2:{ intros _. rewrite (lt_spec N L _ _ Z1 O1), Z2, O2. apply Rlt_bool_true. lra. }
  cbn [bind]. rewrite assert_ok.
  2:{ intros _. rewrite (le_spec N L p _ Hf R1), R2, (le_spec N L _ p R3 Hf), R4.
      change (val N L p) with (B2R p). rewrite !Rle_bool_true by lra. reflexivity. }
  cbn [bind]. rewrite (le_spec N L _ p O1 Hf), O2, (lt_spec N L p _ Hf Z1), Z2.
  change (val N L p) with (B2R p). change (val N L (t1 N)) with (B2R (t1 N : f32)) in O2.
  destruct (Rle_bool_spec 1 (B2R p)) as [H1|H1].
  - (* p in [1,2) *)
    assert (S : small32 (B2R p - B2R (t1 N : f32))) by (rewrite O2; apply small32_1; lra).
    destruct (sub32 p (t1 N) Hf O1 S) as (S1 & S2 & _). rewrite O2 in S2.
    assert (X : rnd32 (B2R p - 1) = (B2R p - 1)%R).
    { apply rnd32_id. apply (Sterbenz.sterbenz radix2 (FLT_exp (-149) 24)); auto with typeclass_instances.
      - apply fmt32_B2R. - apply (fmt32_Z 1); lia. - lra. }
    rewrite X in S2.
    eexists. split; [reflexivity|]. change (tsub N p (t1 N)) with (fsub p (t1 N : f32)).
    split; [split; [exact S1|change (0 <= B2R (fsub p (t1 N : f32)) < 1)%R; lra]|].
    rewrite S2. unfold offZero. split; [intros E [_ [E' _]]; lra|].
    intros Hn. destruct (Req_dec (B2R p) 1) as [E|E]; [lra|]. exfalso. apply Hn. repeat split; lra.
  - destruct (Rlt_bool_spec (B2R p) 0) as [H0|H0].
    + (* p < 0 *)
      assert (Hp : (B2R p < - bpow radix2 (-25))%R).
      { destruct Hneg as [H|H]; [|lra]. rewrite <- (bpow_Z 25) in H by lia. rewrite <- bpow_opp in H. exact H. }
      assert (S : small32 (B2R p + B2R (t1 N : f32))) by (rewrite O2; apply small32_1; lra).
      destruct (add32 p (t1 N) Hf O1 S) as [S1 S2]. rewrite O2 in S2.
      assert (A1 : (0 <= rnd32 (B2R p + 1))%R) by (apply rnd32_ge; [apply (fmt32_Z 0); lia|lra]).
      assert (B0 := bpow_gt_0 radix2 (-25)).
      assert (A2 : (rnd32 (B2R p + 1) < 1)%R).
      { assert (E := rnd_half (B2R p + 1) 0 ltac:(lia)). change (bpow radix2 0) with 1%R in E.
        rewrite Rabs_pos_eq in E by lra. specialize (E ltac:(lra)). change (0 - 25)%Z with (-25)%Z in E.
        apply Rabs_le_inv in E. lra. }
      eexists. split; [reflexivity|]. change (tadd N p (t1 N)) with (fadd p (t1 N : f32)).
      split; [split; [exact S1|change (0 <= B2R (fadd p (t1 N : f32)) < 1)%R; rewrite S2; lra]|].
      rewrite S2. unfold offZero. split.
      * intros E [_ [_ E']]. apply E'.
        assert (Ez := rnd32_0 (B2R p) (-1) (fmt32_B2R p) (fmt32_Z (-1) ltac:(lia))).
        apply Ez. replace (B2R p - -1)%R with (B2R p + 1)%R by lra. exact E.
      * intros Hn. destruct (Req_dec (B2R p) (-1)) as [E|E].
        { rewrite E. replace (-1 + 1)%R with 0%R by lra. apply round_0; auto with typeclass_instances. }
        exfalso. apply Hn. repeat split; lra.
    + eexists. split; [reflexivity|]. split; [split; [exact Hf|change (0 <= B2R p < 1)%R; lra]|].
      unfold offZero. split; [intros E [E' _]; lra|].
      intros Hn. destruct (Req_dec (B2R p) 0) as [E|E]; [exact E|]. exfalso. apply Hn. repeat split; lra.
Qed.

(** the step between two wide phases is a finite number *)
Lemma step_fin dir (prev p : f32) : phaseWide prev -> phaseWide p -> fin32 (step32 lm dir prev p) = true.
Proof.
  intros (F1 & R1 & _) (F2 & R2 & _).
  assert (S : small32 (B2R p - B2R prev)).
  { apply small32_of_le with 2%Z; [lia|]. change (bpow radix2 2) with 4%R. apply Rabs_le. lra. }
  destruct (sub32 p prev F2 F1 S) as (S1 & S2 & _).
  assert (B : (Rabs (B2R (fsub p prev)) <= 4)%R).
  { rewrite S2. change 4%R with (bpow radix2 2). apply rnd32_abs_le; [lia|]. change (bpow radix2 2) with 4%R. apply Rabs_le. lra. }
  apply Rabs_le_inv in B.
  destruct (one_spec N L) as [O1 O2]. change (val N L (t1 N)) with (B2R (t1 N : f32)) in O2.
  assert (Sa : small32 (B2R (fsub p prev) + B2R (t1 N : f32))).
  { rewrite O2. apply small32_of_le with 3%Z; [lia|]. change (bpow radix2 3) with 8%R. apply Rabs_le. lra. }
  assert (Sb : small32 (B2R (fsub p prev) - B2R (t1 N : f32))).
  { rewrite O2. apply small32_of_le with 3%Z; [lia|]. change (bpow radix2 3) with 8%R. apply Rabs_le. lra. }
  destruct (add32 (fsub p prev) (t1 N) S1 O1 Sa) as [A1 _]. destruct (sub32 (fsub p prev) (t1 N) S1 O1 Sb) as [A2 _].
  destruct dir; cbn [step32].
  - unfold stepFwd. destruct (tlt N _ _); [exact A1|exact S1].
  - unfold stepBi. destruct (tlt N _ _); [exact A1|]. destruct (tlt N _ _); [exact A2|exact S1].
Qed.

Lemma okStepW_pre dir (prev p : f32) : phaseWide prev -> okStepW lm (dbg cfg) strict dir prev p ->
  exists q, stepPreW N L cfg strict dir prev p q.
Proof.
  intros Hprev (Hp & H1 & H2 & H3). destruct (wide_red p Hp) as (q & Wq & Hz). exists q.
  assert (Hf := step_fin dir prev p Hprev Hp).
  split; [exact Wq|]. split; [destruct dir; exact Hf|]. split; [destruct dir; [exact H1|discriminate]|].
  split; [destruct dir; exact H2|]. intros Hs. specialize (H3 Hs).
  assert (H3' : (0 < B2R (step32 lm dir prev p))%R \/ (B2R (step32 lm dir prev p) < 0)%R /\ B2R (q : f32) <> 0%R) by tauto.
  destruct dir; exact H3'.
Qed.

Lemma okBlockW_pre dir ps : forall prev : f32, phaseWide prev -> okBlockW lm (dbg cfg) strict dir prev ps ->
  blockPreW N L cfg strict dir prev ps /\ phaseWide (last ps prev).
Proof.
  induction ps as [|p ps IH]; intros prev Hw Hb; [split; [exact I|exact Hw]|].
  destruct Hb as [H1 H2]. destruct (IH p (proj1 H1) H2) as [I1 I2].
  split; [split; [now apply okStepW_pre|exact I1]|]. rewrite last_cons. exact I2.
Qed.

Lemma okInitW_pre (p d : f32) : okInitW (dbg cfg) strict p d -> exists q, initPreW N L cfg strict p q d.
Proof.
  intros (Hp & H1 & H2 & H3). destruct (wide_red p Hp) as (q & Wq & Hz). exists q.
  split; [exact Wq|]. split; [exact H1|]. split; [exact H2|]. intros Hs. specialize (H3 Hs).
  change ((0 < B2R d)%R \/ (B2R d < 0)%R /\ B2R (q : f32) <> 0%R). tauto.
Qed.

Definition stW (st : option (f32 * Z)) (o : Osc N) : Prop :=
  match st with
  | Some (p, nw) => goodW o /\ o_phase o = p /\ nwOf N o = nw /\ phaseWide p
  | None => o = osc_new N F
  end.

Lemma run_wide ops : forall st o, stW st o -> okHistW lm src (dbg cfg) strict st ops ->
  (exists o' ys, run N src cfg F o ops = Ok (o', ys)) \/
  (strict = false /\ run N src cfg F o ops = Fault OutOfBounds).
Proof.
  induction ops as [|op ops IH]; intros st o Ht Hh.
  { left. exists o, []. reflexivity. }
  assert (Step : forall o1 ys st1, apply N src cfg F o op = Ok (o1, ys) -> stW st1 o1 -> okHistW lm src (dbg cfg) strict st1 ops ->
    (exists o' ys, run N src cfg F o (op :: ops) = Ok (o', ys)) \/
    (strict = false /\ run N src cfg F o (op :: ops) = Fault OutOfBounds)).
  { intros o1 ys st1 E T1 H1. cbn [run]. rewrite E. cbn [bind].
    destruct (IH st1 o1 T1 H1) as [(o2 & zs & E2)|[E1 E2]]; rewrite E2; cbn [bind]; [left|right]; eauto. }
  assert (HFf := HF' lm F HF).
  assert (Load : forall w p d, usable lm src (dbg cfg) w -> okInitW (dbg cfg) strict p d ->
    exists o1, resetInternals N cfg F (set_wt N o (Some w)) p d = Ok o1 /\
      stW (Some (p, wt_numWaveforms N w)) (set_wf N o1 0)).
  { intros w p d Hu Hi. destruct (okInitW_pre p d Hi) as (q & Hq).
    destruct (loadW_fine N L cfg F HB strict o w p q d (usable_ok lm Hlog src cfg w Hu) Hq) as (o1 & E & G & P & Nw).
    exists o1. split; [exact E|]. split; [exact G|]. split; [exact P|]. split; [exact Nw|]. apply Hi. }
  destruct op as [wd p d|wd p d|p d|k|sr|dir ps].
  - destruct wd as [w|]; cbn [okHistW] in Hh.
    + destruct Hh as (Hu & Hi & Hh). destruct (Load w p d Hu Hi) as (o1 & E & T1).
      eapply Step; [|exact T1|exact Hh]. cbn [apply osc_init]. rewrite E. reflexivity.
    + eapply Step; [reflexivity|exact Ht|exact Hh].
  - destruct wd as [w|]; cbn [okHistW] in Hh.
    + destruct Hh as (Hu & Hi & Hh). destruct (Load w p d Hu Hi) as (o1 & E & T1).
      eapply Step; [|exact T1|exact Hh]. cbn [apply osc_swap]. rewrite E. reflexivity.
    + eapply Step; [reflexivity|exact Ht|exact Hh].
  - cbn [okHistW] in Hh. destruct st as [[prev nw]|]; [|contradiction]. destruct Hh as (Hi & Hh).
    destruct Ht as (G & P & W & Hw). destruct (okInitW_pre p d Hi) as (q & Hq).
    destruct (resetW_fine N L cfg F HB strict o p q d G Hq) as (o1 & E & G1 & P1 & W1).
    eapply Step; [cbn [apply]; rewrite E; reflexivity| |exact Hh].
    split; [exact G1|]. split; [exact P1|]. split; [congruence|apply Hi].
  - cbn [okHistW] in Hh. destruct st as [[prev nw]|]; [|contradiction]. destruct Hh as (Hk & Hh).
    destruct Ht as (G & P & W & Hw). rewrite <- W in Hk.
    assert (G1 := setwfW N L F strict o k G Hk).
    eapply (Step (set_wf N o k) [] (Some (prev, nw))); [|split; [exact G1|split; [exact P|split; [exact W|exact Hw]]]|exact Hh].
    cbn [apply]. unfold setWaveform. destruct G as [(K & nw' & w & HO) _].
    assert (Ew := oo_wt _ _ _ _ _ _ _ HO). cbn [nrm set_ph o_wt] in Ew. rewrite Ew.
    rewrite assert_ok by reflexivity. reflexivity.
  - cbn [okHistW] in Hh. destruct st as [[prev nw]|]; [|contradiction]. destruct Hh as (Hk & Hh).
    destruct Ht as (G & P & W & Hw). destruct G as [(K & nw' & w & HO) Hc].
    assert (Ew := oo_wt _ _ _ _ _ _ _ HO). cbn [nrm set_ph o_wt] in Ew.
    destruct (updateSamplerate_ok N L src cfg HB Hsrc K nw' w sr (defaultFade N) (oo_W _ _ _ _ _ _ _ HO) (okRate_ok lm Hlog cfg HB sr Hk)) as (w' & E' & W1 & C1).
    eapply Step; [| |exact Hh].
    + cbn [apply]. unfold osc_updateSamplerate. rewrite Ew. rewrite assert_ok by reflexivity. cbn [bind]. rewrite E'. reflexivity.
    + split; [|split; [exact P|split; [|exact Hw]]].
      * split; [exists K, nw', w'; exact (OscOk_set_wt N L F K nw' (nrm N o) w w' HO W1 C1)|exact Hc].
      * rewrite <- W. change (nwOf N o) with (nwOf N (nrm N o)). rewrite (nwOf_ok N L F K nw' _ _ HO). unfold nwOf.
        cbn [set_wt o_wt]. exact (wo_slots _ _ _ _ W1).
  - cbn [okHistW] in Hh. destruct st as [[prev nw]|]; [|contradiction]. destruct Hh as (Hk & Hh).
    destruct Ht as (G & P & W & Hw). destruct (okBlockW_pre dir ps prev Hw Hk) as [Hb Hl]. rewrite <- P in Hb.
    assert (Hs : is_some (o_wt o) = true).
    { destruct G as [(K & nw' & w & HO) _]. assert (Ew := oo_wt _ _ _ _ _ _ _ HO). cbn [nrm set_ph o_wt] in Ew. now rewrite Ew. }
    assert (Ea : apply N src cfg F o (OpProcess N dir ps) = processLoop N cfg F dir o ps (map (fun _ => t0 N) ps)).
    { cbn [apply]. unfold process. rewrite Hs. rewrite assert_ok by reflexivity. cbn [bind].
      rewrite assert_ok by (intros _; rewrite zlen_map; apply Z.eqb_refl). reflexivity. }
    destruct (loopW_fine N L cfg F HB HFf strict dir ps o (map (fun _ => t0 N) ps) G Hb ltac:(now rewrite map_length)) as [([o1 ys] & E & G1 & P1 & W1)|[E1 E2]].
    + eapply Step; [rewrite Ea; exact E| |exact Hh]. cbn [fst] in *.
      split; [exact G1|]. split; [rewrite P1, P; reflexivity|]. split; [congruence|exact Hl].
    + right. split; [assumption|]. cbn [run]. rewrite Ea, E2. reflexivity.
Qed.
End Main.

(** ** exact arithmetic: only the position in the cycle matters *)
Section Cycle.
Variable src : Resampler RNum.
Variable cfg : Cfg.
Variable F : Filt RNum.
Local Open Scope R_scope.

Lemma cyc_range p : 0 <= cyc p < 1.
Proof. unfold cyc. assert (A := Zfloor_lb p). assert (B := Zfloor_ub p). lra. Qed.
Lemma cyc_shift p q k : 0 <= q < 1 -> p = q + IZR k -> cyc p = q.
Proof.
  intros Hq E. unfold cyc. replace (Zfloor p) with k; [lra|]. symmetry. apply Zfloor_imp. rewrite plus_IZR. lra.
Qed.
Lemma cyc_id p : 0 <= p < 1 -> cyc p = p.
Proof. intros H. apply (cyc_shift p p 0 H). lra. Qed.
(** for the phases in question the position is one of three *)
Lemma cyc_cases p : -1 <= p < 2 ->
  (p < 0 /\ cyc p = p + 1) \/ (0 <= p < 1 /\ cyc p = p) \/ (1 <= p /\ cyc p = p - 1).
Proof.
  intros H. destruct (Rlt_or_le p 0) as [H0|H0]; [left|right; destruct (Rlt_or_le p 1) as [H1|H1]; [left|right]].
  - split; [assumption|]. apply (cyc_shift p _ (-1)); [lra|]. lra.
  - split; [lra|]. now apply cyc_id.
  - split; [assumption|]. apply (cyc_shift p _ 1); lra.
Qed.

Lemma cyc_red p : -1 <= p < 2 -> redTo RNum cfg p (cyc p).
Proof.
  intros H. assert (G : forall q, -1 <= q < 2 -> reduceT RNum (dbg cfg) q (t1 RNum) = Ok (cyc q)).
  { intros q Hq. unfold reduceT. unfold t1, t2, t0. cbn [tle tlt tofZ tmul tsub tadd RNum].
    rewrite assert_ok by (intros _; apply Rlt_bool_true; lra). cbn [bind].
    rewrite assert_ok by (intros _; rewrite !Rle_bool_true by lra; reflexivity). cbn [bind].
    destruct (cyc_cases q Hq) as [[H1 ->]|[[H1 ->]|[H1 ->]]].
    - rewrite Rle_bool_false, Rlt_bool_true by lra. reflexivity.
    - rewrite Rle_bool_false, Rlt_bool_false by lra. reflexivity.
    - rewrite Rle_bool_true by lra. reflexivity. }
  split; [now apply G|]. assert (C := cyc_range p). rewrite (G (cyc p)) by lra. rewrite (cyc_id (cyc p)) by assumption. reflexivity.
Qed.

Lemma cyc_step dir prev p : -1 <= prev < 2 -> wideStep dir prev p ->
  stepOf RNum dir p prev = stepOf RNum dir (cyc p) (cyc prev).
Proof.
  intros Hv [Hp Hs]. assert (R1 := cyc_range p). assert (R2 := cyc_range prev).
  assert (D : exists k : Z, cyc p - cyc prev = p - prev + IZR k /\ (-3 < IZR k < 3)).
  { unfold cyc. exists (Zfloor prev - Zfloor p)%Z. rewrite minus_IZR. split; [lra|].
    assert (A := Zfloor_lb prev). assert (B := Zfloor_ub prev). assert (A' := Zfloor_lb p). assert (B' := Zfloor_ub p).
    assert (E1 : (-1 <= Zfloor prev)%Z) by (rewrite <- (Zfloor_IZR (-1)); apply Zfloor_le; lra).
    assert (E2 : (-1 <= Zfloor p)%Z) by (rewrite <- (Zfloor_IZR (-1)); apply Zfloor_le; lra).
    assert (E3 : (Zfloor p < 2)%Z) by (apply lt_IZR; lra).
    assert (E4 : (Zfloor prev < 2)%Z) by (apply lt_IZR; lra).
    rewrite <- minus_IZR. split; apply IZR_lt; lia. }
  destruct D as (k & D & Hk). assert (K1 := proj1 Hk). assert (K2 := proj2 Hk).
  apply (lt_IZR (-3)) in K1. apply (lt_IZR _ 3) in K2.
  set (b := p - prev) in *. set (a := cyc p - cyc prev) in *.
  assert (Ka : -1 < a < 1) by (unfold a; lra).
  destruct dir; cbn [stepOf]; unfold stepFwd, stepBi, t0, t1, tfrac; cbn [tsub tadd tlt tofZ tdiv RNum];
    fold a; fold b; cbn [wideStep] in Hs; match goal with |- @eq _ ?x ?y => change (@eq R x y) end.
  - assert (Hk5 : (k = -2 \/ k = -1 \/ k = 0 \/ k = 1 \/ k = 2)%Z) by lia.
    destruct (Rlt_bool_spec b 0) as [H1|H1]; destruct (Rlt_bool_spec a 0) as [H2|H2];
      destruct Hk5 as [->|[->|[->|[->| ->]]]]; lra.
  - assert (Hk5 : (k = -2 \/ k = -1 \/ k = 0 \/ k = 1 \/ k = 2)%Z) by lia.
    destruct Hs as [S1 S2]. apply Rabs_lt_inv in S1.
    assert (S3 : b <> 1 / 2) by (intros E; apply S2; rewrite E; apply Rabs_pos_eq; lra).
    assert (S4 : b <> - (1 / 2)) by (intros E; apply S2; rewrite E, Rabs_Ropp; apply Rabs_pos_eq; lra).
    assert (S5 : b < 1/2 \/ 1/2 < b) by (destruct (Rtotal_order b (1/2)) as [|[|]]; [left; assumption|contradiction|right; assumption]).
    assert (S6 : b < -(1/2) \/ -(1/2) < b) by (destruct (Rtotal_order b (-(1/2))) as [|[|]]; [left; assumption|contradiction|right; assumption]).
    clear S2 S3 S4.
    repeat match goal with |- context [Rlt_bool ?x ?y] => destruct (Rlt_bool_spec x y) end;
      destruct Hk5 as [->|[->|[->|[->| ->]]]]; lra.
Qed.

Definition cycO (o : Osc RNum) : Osc RNum := set_ph RNum o (cyc (o_phase o)).

(** the phase recorded is the phase given *)
Lemma one_phase dir o p o1 y : processOne RNum cfg F dir o p = Ok (o1, y) -> o_phase o1 = p.
Proof.
  unfold processOne. destruct (o_wt o) as [w|]; [|discriminate].
  assert (A : forall pd, processSampleFwd RNum cfg F o w p pd = Ok (o1, y) -> o_phase o1 = p).
  { intros pd E. unfold processSampleFwd in E. apply bind_ok in E. destruct E as (x & _ & E).
    apply bind_ok in E. destruct E as (a & _ & E). apply bind_ok in E. destruct E as (ic & _ & E). inversion E. reflexivity. }
  assert (B : forall pd, processSampleBwd RNum cfg F o w p pd = Ok (o1, y) -> o_phase o1 = p).
  { intros pd E. unfold processSampleBwd in E. apply bind_ok in E. destruct E as (x & _ & E).
    apply bind_ok in E. destruct E as (a & _ & E). apply bind_ok in E. destruct E as (ic & _ & E). inversion E. reflexivity. }
  destruct dir.
  - intros E. apply bind_ok in E. destruct E as ([] & _ & E). now apply A in E.
  - destruct (tle RNum _ _); [apply A|apply B].
Qed.
Lemma reset_phase o p d o1 : resetInternals RNum cfg F o p d = Ok o1 -> o_phase o1 = p.
Proof.
  unfold resetInternals. intros E. apply bind_ok in E. destruct E as ([] & _ & E). destruct (o_wt o); [|discriminate].
  apply bind_ok in E. destruct E as (ph & _ & E).
  apply bind_ok in E. destruct E as ([w1 [[[mi g] mu] gu]] & _ & E).
  apply bind_ok in E. destruct E as (len & _ & E). apply bind_ok in E. destruct E as (j & _ & E). inversion E. reflexivity.
Qed.

Definition simRun (a b : res (Osc RNum * list R)) : Prop :=
  match a, b with
  | Ok (o, ys), Ok (o', ys') => ys = ys' /\ o' = cycO o
  | Fault e, Fault e' => e = e'
  | _, _ => False
  end.

Lemma set_twice o p q : set_ph RNum (set_ph RNum o p) q = set_ph RNum o q.
Proof. reflexivity. Qed.
Lemma set_own (o : Osc RNum) (p : R) : o_phase o = p -> set_ph RNum o p = o.
Proof. intros <-. now destruct o. Qed.

Lemma loop_cyc dir ps : forall (o : Osc RNum) out, -1 <= o_phase o < 2 -> wideBlock dir (o_phase o) ps -> length out = length ps ->
  simRun (processLoop RNum cfg F dir o ps out) (processLoop RNum cfg F dir (cycO o) (map cyc ps) out) /\
  (forall o' ys, processLoop RNum cfg F dir o ps out = Ok (o', ys) -> o_phase o' = last ps (o_phase o)).
Proof.
  induction ps as [|p ps IH]; intros o out Hp Hb Hl.
  - destruct out; [|discriminate]. cbn. split; [auto|]. intros o' ys E. inversion E. reflexivity.
  - destruct out as [|z out]; [discriminate|]. cbn [length] in Hl. destruct Hb as [H1 H2].
    cbn [map processLoop].
    assert (E := one_wide RNum cfg F dir o p (cyc p) (cyc (o_phase o)) (cyc_red p (proj1 H1)) (cyc_step dir _ p Hp H1)).
    fold (cycO o) in E. rewrite E. destruct (processOne RNum cfg F dir (cycO o) (cyc p)) as [[o1 y]|e] eqn:E1.
    2:{ cbn. split; [reflexivity|]. discriminate. }
    cbn [bind rePh fst snd].
    assert (P1 := one_phase dir _ _ _ _ E1).
    destruct (IH (set_ph RNum o1 p) out (proj1 H1) H2 ltac:(lia)) as [S PL].
    assert (Ec : cycO (set_ph RNum o1 p) = o1).
    { unfold cycO. cbn [set_ph o_phase]. change (set_ph RNum (set_ph RNum o1 p) (cyc p) = o1). rewrite set_twice. now apply set_own. }
    rewrite Ec in S.
    destruct (processLoop RNum cfg F dir (set_ph RNum o1 p) ps out) as [[o2 ys]|e] eqn:E2;
    destruct (processLoop RNum cfg F dir o1 (map cyc ps) out) as [[o3 zs]|e'] eqn:E3; cbn in S |- *; try contradiction.
    + destruct S as [-> ->]. split; [auto|]. intros o' ws Ew. inversion Ew; subst.
      rewrite (PL o' zs eq_refl). symmetry. exact (last_cons R ps p (o_phase o)).
    + split; [assumption|]. discriminate.
Qed.

Lemma reset_cyc o p d : -1 <= p < 2 ->
  match resetInternals RNum cfg F o p d, resetInternals RNum cfg F (cycO o) (cyc p) d with
  | Ok o1, Ok o2 => o2 = cycO o1 /\ o_phase o1 = p
  | Fault e, Fault e' => e = e'
  | _, _ => False
  end.
Proof.
  intros Hp. rewrite (reset_wide RNum cfg F o p (cyc p) d (cyc (o_phase o)) (cyc_red p Hp)). fold (cycO o).
  destruct (resetInternals RNum cfg F (cycO o) (cyc p) d) as [o1|e] eqn:E; cbn [bind]; [|reflexivity].
  assert (P := reset_phase _ _ _ _ E). split; [|reflexivity].
  unfold cycO. cbn [set_ph o_phase]. change (o1 = set_ph RNum (set_ph RNum o1 p) (cyc p)). rewrite set_twice. symmetry. now apply set_own.
Qed.

Lemma wide_last dir (ps : list R) : forall q, -1 <= q < 2 -> wideBlock dir q ps -> -1 <= last ps q < 2.
Proof.
  induction ps as [|p ps IH]; intros q Hq Hb; [exact Hq|]. rewrite last_cons. apply IH; apply Hb.
Qed.

Lemma apply_cyc (o : Osc RNum) op : -1 <= o_phase o < 2 -> wideHist (o_phase o) [op] ->
  simRun (apply RNum src cfg F o op) (apply RNum src cfg F (cycO o) (cycOp op)) /\
  (forall o' ys rest, apply RNum src cfg F o op = Ok (o', ys) -> wideHist (o_phase o) (op :: rest) ->
     -1 <= o_phase o' < 2 /\ wideHist (o_phase o') rest).
Proof.
  intros Hp Hh. destruct op as [wd p d|wd p d|p d|k|sr|dir ps]; cbn [apply cycOp].
  - destruct wd as [w|]; cbn [wideHist] in Hh.
    + assert (S := reset_cyc (set_wt RNum o (Some w)) p d (proj1 Hh)).
      change (cycO (set_wt RNum o (Some w))) with (set_wt RNum (cycO o) (Some w)) in S. cbn [osc_init].
      destruct (resetInternals RNum cfg F (set_wt RNum o (Some w)) p d) as [o1|e];
      destruct (resetInternals RNum cfg F (set_wt RNum (cycO o) (Some w)) (cyc p) d) as [o2|e2]; cbn in S |- *; try contradiction.
      * destruct S as [-> P]. split; [split; reflexivity|]. intros o' ys rest E Hr. inversion E; subst. cbn [set_wf o_phase] in *. exact Hr.
      * split; [exact S|]. discriminate.
    + cbn. split; [auto|]. intros o' ys rest E Hr. inversion E; subst. auto.
  - destruct wd as [w|]; cbn [wideHist] in Hh.
    + assert (S := reset_cyc (set_wt RNum o (Some w)) p d (proj1 Hh)).
      change (cycO (set_wt RNum o (Some w))) with (set_wt RNum (cycO o) (Some w)) in S. cbn [osc_swap].
      destruct (resetInternals RNum cfg F (set_wt RNum o (Some w)) p d) as [o1|e];
      destruct (resetInternals RNum cfg F (set_wt RNum (cycO o) (Some w)) (cyc p) d) as [o2|e2]; cbn in S |- *; try contradiction.
      * destruct S as [-> P]. split; [split; reflexivity|]. intros o' ys rest E Hr. inversion E; subst. cbn [set_wf o_phase] in *. exact Hr.
      * split; [exact S|]. discriminate.
    + cbn. split; [auto|]. intros o' ys rest E Hr. inversion E; subst. auto.
  - cbn [wideHist] in Hh. assert (S := reset_cyc o p d (proj1 Hh)).
    destruct (resetInternals RNum cfg F o p d) as [o1|e];
    destruct (resetInternals RNum cfg F (cycO o) (cyc p) d) as [o2|e2]; cbn in S |- *; try contradiction.
    + destruct S as [-> P]. split; [auto|]. intros o' ys rest E Hr. inversion E; subst. exact Hr.
    + split; [exact S|]. discriminate.
  - unfold setWaveform. change (is_some (o_wt (cycO o))) with (is_some (o_wt o)).
    destruct (assert_ (dbg cfg) _) as [[]|e]; cbn; [|split; [exact eq_refl|discriminate]].
    split; [auto|]. intros o' ys rest E Hr. inversion E; subst. auto.
  - unfold osc_updateSamplerate. change (o_wt (cycO o)) with (o_wt o).
    destruct (assert_ (dbg cfg) _) as [[]|e]; cbn [bind]; [|split; [exact eq_refl|discriminate]].
    destruct (o_wt o) as [w|]; cbn [bind]; [|split; [exact eq_refl|discriminate]].
    destruct (wt_updateSamplerate RNum src (dbg cfg) w sr (defaultFade RNum)) as [w'|e]; cbn [bind]; [|split; [exact eq_refl|discriminate]].
    split; [split; reflexivity|]. intros o' ys rest E Hr. inversion E; subst. auto.
  - cbn [wideHist] in Hh. destruct Hh as [Hb _]. unfold process. change (o_wt (cycO o)) with (o_wt o).
    rewrite !zlen_map, map_map.
    destruct (assert_ (dbg cfg) (is_some (o_wt o))) as [[]|e]; cbn [bind]; [|split; [exact eq_refl|discriminate]].
    destruct (assert_ (dbg cfg) _) as [[]|e]; cbn [bind]; [|split; [exact eq_refl|discriminate]].
    destruct (loop_cyc dir ps o (map (fun _ => t0 RNum) ps) Hp Hb ltac:(now rewrite map_length)) as [S PL].
    split; [exact S|]. intros o' ys rest E [Hb' Hr]. rewrite (PL o' ys E). split; [|exact Hr].
    exact (wide_last dir ps (o_phase o) Hp Hb).
Qed.

Lemma run_cyc ops : forall (o : Osc RNum), -1 <= o_phase o < 2 -> wideHist (o_phase o) ops ->
  simRun (run RNum src cfg F o ops) (run RNum src cfg F (cycO o) (map cycOp ops)).
Proof.
  induction ops as [|op ops IH]; intros o Hp Hh; [cbn; auto|].
  assert (H1 : wideHist (o_phase o) [op]).
  { destruct op as [[w|] p d|[w|] p d|p d|k|sr|dir ps]; cbn [wideHist] in *; intuition. }
  destruct (apply_cyc o op Hp H1) as [S Nx]. cbn [run map].
  destruct (apply RNum src cfg F o op) as [[o1 ys]|e]; destruct (apply RNum src cfg F (cycO o) (cycOp op)) as [[o2 zs]|e'];
    cbn in S |- *; try contradiction; [|exact S].
  destruct S as [-> ->]. destruct (Nx o1 zs ops eq_refl Hh) as [Hp1 Hh1].
  assert (S2 := IH o1 Hp1 Hh1).
  destruct (run RNum src cfg F o1 ops) as [[o3 us]|e]; destruct (run RNum src cfg F (cycO o1) (map cycOp ops)) as [[o4 vs]|e'];
    cbn in S2 |- *; try contradiction; [|exact S2].
  destruct S2 as [-> ->]. auto.
Qed.

Lemma new_cyc : cycO (osc_new RNum F) = osc_new RNum F.
Proof.
  unfold cycO, osc_new, set_ph. cbn. f_equal. apply cyc_id. lra.
Qed.
End Cycle.
