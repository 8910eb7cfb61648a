(** * BuildFacts: WavetableData::build, any number system with the index laws *)
From Coq Require Import ZArith List Bool Reals Lia Lra.
From Flocq Require Import Core.
From Verif Require Import Num Maths CrossFader Wavetable Spec NumFacts Laws CFFacts WTFacts.
Import ListNotations.
Local Open Scope Z_scope.

Section Build.
Variable N : Num.
Variable src : Resampler N.
Variable dbg : bool.

Lemma zlen_thirdOfFive wf ratio : 0 < ratio ->
  zlen (thirdOfFive N src wf ratio) = zlen wf / ratio.
Proof.
  intros Hr. unfold thirdOfFive. set (out := zlen wf / ratio).
  assert (0 <= out) by (apply Z.div_pos; [apply zlen_nonneg|lia]).
  rewrite zlen_firstn, zlen_skipn, zlen_firstn, zlen_app, zlen_repeat.
  assert (A := zlen_nonneg _ (so_data (src (wf ++ wf ++ wf ++ wf ++ wf) ratio (5 * out)))).
  lia.
Qed.

Lemma downsample_cases wf ratio : 0 < ratio -> zlen wf * 5 <= int_max ->
  (exists f, downsampleWaveform N src wf ratio = Ok [] /\ f = tt) \/
  downsampleWaveform N src wf ratio = Ok (thirdOfFive N src wf ratio).
Proof.
  intros Hr Hl. unfold downsampleWaveform, thirdOfFive. assert (A := zlen_nonneg _ wf).
  rewrite Z.quot_div_nonneg by lia. set (out := zlen wf / ratio).
  assert (0 <= out) by (apply Z.div_pos; lia).
  assert (out <= zlen wf) by (apply Z.div_le_upper_bound; nia).
  rewrite !chk_ok by (unfold int_min, int_max in *; lia). cbn [bind].
  cbn [repeat concat]. rewrite app_nil_r.
  replace (out * 5) with (5 * out) by lia. replace (out * 2) with (2 * out) by lia.
  destruct (negb (so_err _ =? 0)); [left; now exists tt|].
  destruct (negb (so_used _ =? _) || negb (so_gen _ =? _)); [left; now exists tt|].
  right. reflexivity.
Qed.

Lemma downsample_ok wf ratio : 0 < ratio -> zlen wf * 5 <= int_max -> resamplerOk N src ->
  downsampleWaveform N src wf ratio = Ok (thirdOfFive N src wf ratio).
Proof.
  intros Hr Hl Hs. unfold downsampleWaveform, thirdOfFive. assert (A := zlen_nonneg _ wf).
  rewrite Z.quot_div_nonneg by lia. set (out := zlen wf / ratio).
  assert (0 <= out) by (apply Z.div_pos; lia).
  assert (out <= zlen wf) by (apply Z.div_le_upper_bound; nia).
  rewrite !chk_ok by (unfold int_min, int_max in *; lia). cbn [bind].
  cbn [repeat concat]. rewrite app_nil_r.
  replace (out * 5) with (5 * out) by lia. replace (out * 2) with (2 * out) by lia.
  destruct (Hs (wf ++ wf ++ wf ++ wf ++ wf) ratio (5 * out)) as (E1 & E2 & E3).
  rewrite E1, E2, E3. rewrite !zlen_app.
  replace (zlen wf + _) with (zlen wf * 5) by lia. rewrite !Z.eqb_refl. reflexivity.
Qed.

(** length of mipmap entry i *)
Lemma zlen_mipmap K wf i : zlen wf = 2 ^ K -> 0 <= i <= K -> i <= 16 ->
  zlen (mipmap N src wf i) = 2 ^ (K - i).
Proof.
  intros Hl Hi Hi2. unfold mipmap. destruct (Z.eqb_spec i 0) as [->|].
  - now rewrite Z.sub_0_r.
  - destruct (Z.leb_spec i 8).
    + rewrite zlen_thirdOfFive by (apply pow2_pos; lia). rewrite Hl, Z.pow_sub_r by lia. reflexivity.
    + rewrite !zlen_thirdOfFive by (try apply pow2_pos; lia).
      rewrite Hl. change 256 with (2 ^ 8). rewrite Z.div_div by (apply Z.pow_nonzero || apply pow2_pos; lia).
      rewrite <- Z.pow_add_r by lia. replace (i - 8 + 8) with i by lia.
      now rewrite Z.pow_sub_r by lia.
Qed.

(** slots of one waveform are the tables of its mipmap entries *)
Definition slotsOf (K : Z) (og : list (T N)) (slots : list (Slot N)) : Prop :=
  forall k s, znth slots k = Ok s ->
    zlen (mipmap N src og k) = 2 ^ (K - k) /\
    computeMQVector N (computePhaseVector N (2 ^ (K - k))) (mipmap N src og k) = Ok s.

(** invariant of the mipmap loop before index [idx] *)
Definition mInv (K : Z) (og : list (T N)) (idx : Z) (st : list (Slot N) * list (list (T N))) : Prop :=
  zlen (fst st) = idx /\ slotsOf K og (fst st) /\
  zlen (snd st) = Z.max (K - 10) 0 /\
  forall t, 1 <= t <= K - 10 ->
    znth (snd st) (t - 1) = Ok (if (t <? idx) && (t <=? 8) then mipmap N src og t else []).

Definition phOk (K : Z) (phs : list (list (T N))) : Prop :=
  forall k, 0 <= k < K - 1 -> znth phs k = Ok (computePhaseVector N (2 ^ (K - k))).

Lemma slotsOf_snoc K og slots s : slotsOf K og slots ->
  zlen (mipmap N src og (zlen slots)) = 2 ^ (K - zlen slots) ->
  computeMQVector N (computePhaseVector N (2 ^ (K - zlen slots))) (mipmap N src og (zlen slots)) = Ok s ->
  slotsOf K og (slots ++ [s]).
Proof.
  intros H1 H2 H3 k x Hx. assert (R := znth_range _ _ _ _ Hx).
  rewrite zlen_app, zlen_cons, zlen_nil in R.
  destruct (Z_lt_le_dec k (zlen slots)).
  - rewrite znth_app_l in Hx by assumption. now apply H1.
  - assert (k = zlen slots) by lia. subst k. rewrite znth_app_r, Z.sub_diag in Hx by lia.
    rewrite znth_cons_0 in Hx. inversion Hx; subst. auto.
Qed.

Lemma mipmapStep_cases K og phs st idx :
  2 <= K <= 24 -> zlen og = 2 ^ K -> phOk K phs -> 1 <= idx < K - 1 -> mInv K og idx st ->
  (mipmapStep N src phs og (Z.max (K - 10) 0) st idx = Fault RuntimeError /\
     (17 <= idx \/ ~ resamplerOk N src)) \/
  (idx <= 16 /\ exists st', mipmapStep N src phs og (Z.max (K - 10) 0) st idx = Ok st' /\
     mInv K og (idx + 1) st').
Proof.
  intros HK Hog Hph Hidx (I1 & I2 & I3 & I4). destruct st as [slots inter]. cbn [fst snd] in *.
  assert (P24 : 2 ^ K <= 2 ^ 24) by (apply Z.pow_le_mono_r; lia).
  unfold mipmapStep. unfold kMaxLibSamplerate. destruct (Z.leb_spec idx 8) as [Hle|Hgt].
  - rewrite ishl_ok; [|lia|lia|].
    2:{ assert (2 ^ (idx - 1) <= 2 ^ 7) by (apply Z.pow_le_mono_r; lia). unfold int_max. lia. }
    cbn [bind]. replace (2 * 2 ^ (idx - 1)) with (2 ^ idx)
      by (rewrite <- Z.pow_succ_r by lia; f_equal; lia).
    assert (Hm : thirdOfFive N src og (2 ^ idx) = mipmap N src og idx).
    { unfold mipmap. destruct (Z.eqb_spec idx 0); [lia|]. destruct (Z.leb_spec idx 8); [|lia]. reflexivity. }
    assert (Hz : zlen (mipmap N src og idx) = 2 ^ (K - idx)) by (apply zlen_mipmap; lia).
    assert (Hp : 0 < 2 ^ (K - idx)) by (apply pow2_pos; lia).
    assert (Ho : zlen og * 5 <= int_max) by (unfold int_max; lia).
    destruct (downsample_cases og (2 ^ idx) ltac:(apply pow2_pos; lia) Ho) as [(u & E & _)|E].
    + left. split.
      * rewrite E. cbn [bind]. rewrite zlen_nil. reflexivity.
      * right. intros Hs. rewrite (downsample_ok og (2 ^ idx) ltac:(apply pow2_pos; lia) Ho Hs), Hm in E.
        injection E as E. rewrite E, zlen_nil in Hz. lia.
    + right. split; [lia|]. rewrite E, Hm. cbn [bind].
      destruct (Z.eqb_spec (zlen (mipmap N src og idx)) 0); [lia|].
      rewrite (Hph idx ltac:(lia)).
      destruct (computeMQVector_ok N (mipmap N src og idx)) as (s & Es & _); [lia|].
      rewrite Hz in Es.
      destruct (Z.leb_spec idx (Z.max (K - 10) 0)) as [Hi|Hi].
      * rewrite zset_ok by lia. cbn [bind]. rewrite Es. cbn [bind].
        eexists. split; [reflexivity|]. unfold mInv; cbn [fst snd].
        rewrite zlen_app, zlen_cons, zlen_nil, zlen_nset. split; [lia|].
        split; [apply slotsOf_snoc; rewrite ?I1; assumption|]. split; [assumption|].
        intros t Ht. rewrite znth_nset by lia. destruct (Z.eqb_spec (t - 1) (idx - 1)).
        -- assert (t = idx) by lia. subst t. destruct (Z.ltb_spec idx (idx + 1)); [|lia].
           destruct (Z.leb_spec idx 8); [reflexivity|lia].
        -- rewrite I4 by lia. destruct (Z.ltb_spec t idx), (Z.ltb_spec t (idx + 1)); try lia; reflexivity.
      * cbn [bind]. rewrite Es. cbn [bind]. eexists. split; [reflexivity|]. unfold mInv; cbn [fst snd].
        rewrite zlen_app, zlen_cons, zlen_nil. split; [lia|].
        split; [apply slotsOf_snoc; rewrite ?I1; assumption|]. split; [assumption|].
        intros t Ht. rewrite I4 by lia.
        destruct (Z.ltb_spec t idx), (Z.ltb_spec t (idx + 1)); try lia; reflexivity.
  - replace (idx - 8 - 1) with ((idx - 8) - 1) by lia. rewrite I4 by lia. cbn [bind].
    destruct (Z.ltb_spec (idx - 8) idx); [|lia]. cbn [andb].
    destruct (Z.leb_spec (idx - 8) 8) as [H8|H8].
    + assert (Hz8 : zlen (mipmap N src og (idx - 8)) = 2 ^ (K - (idx - 8))) by (apply zlen_mipmap; lia).
      assert (Hz : zlen (mipmap N src og idx) = 2 ^ (K - idx)) by (apply zlen_mipmap; lia).
      assert (Hm : thirdOfFive N src (mipmap N src og (idx - 8)) 256 = mipmap N src og idx).
      { unfold mipmap. destruct (Z.eqb_spec idx 0); [lia|]. destruct (Z.leb_spec idx 8); [lia|].
        destruct (Z.eqb_spec (idx - 8) 0); [lia|]. destruct (Z.leb_spec (idx - 8) 8); [reflexivity|lia]. }
      assert (Hp : 0 < 2 ^ (K - idx)) by (apply pow2_pos; lia).
      assert (Ho : zlen (mipmap N src og (idx - 8)) * 5 <= int_max).
      { rewrite Hz8. assert (2 ^ (K - (idx - 8)) <= 2 ^ 24) by (apply Z.pow_le_mono_r; lia).
        unfold int_max. lia. }
      destruct (downsample_cases (mipmap N src og (idx - 8)) 256 ltac:(lia) Ho) as [(u & E & _)|E].
      * left. split.
        -- rewrite E. cbn [bind]. rewrite zlen_nil. reflexivity.
        -- right. intros Hs. rewrite (downsample_ok _ 256 ltac:(lia) Ho Hs), Hm in E.
           injection E as E. rewrite E, zlen_nil in Hz. lia.
      * right. split; [lia|]. rewrite E, Hm. cbn [bind].
        destruct (Z.eqb_spec (zlen (mipmap N src og idx)) 0); [lia|].
        rewrite (Hph idx ltac:(lia)).
        destruct (computeMQVector_ok N (mipmap N src og idx)) as (s & Es & _); [lia|].
        rewrite Hz in Es. cbn [bind]. rewrite Es. cbn [bind].
        eexists. split; [reflexivity|]. unfold mInv; cbn [fst snd].
        rewrite zlen_app, zlen_cons, zlen_nil. split; [lia|].
        split; [apply slotsOf_snoc; rewrite ?I1; assumption|]. split; [assumption|].
        intros t Ht. rewrite I4 by lia.
        destruct (Z.leb_spec t 8).
        -- destruct (Z.ltb_spec t idx), (Z.ltb_spec t (idx + 1)); try lia; reflexivity.
        -- now rewrite !andb_false_r.
    + left. split; [|left; lia].
      destruct (downsample_cases [] 256 ltac:(lia) ltac:(rewrite zlen_nil; unfold int_max; lia)) as [(u & E & _)|E];
        rewrite E; cbn [bind]; [rewrite zlen_nil; reflexivity|].
      rewrite zlen_thirdOfFive by lia. rewrite zlen_nil. reflexivity.
Qed.

Lemma mipmapLoop_cases K og phs n : forall idx st,
  2 <= K <= 24 -> zlen og = 2 ^ K -> phOk K phs -> 1 <= idx -> idx + Z.of_nat n = K - 1 ->
  mInv K og idx st ->
  (foldr (mipmapStep N src phs og (Z.max (K - 10) 0)) (zseq idx n) st = Fault RuntimeError /\
     (19 <= K \/ ~ resamplerOk N src)) \/
  ((idx <= K - 2 -> K <= 18) /\
   exists st', foldr (mipmapStep N src phs og (Z.max (K - 10) 0)) (zseq idx n) st = Ok st' /\
     mInv K og (K - 1) st').
Proof.
  induction n as [|n IH]; intros idx st HK Hog Hph Hidx Hn HI.
  - right. split; [lia|]. exists st. cbn [zseq foldr]. split; [reflexivity|].
    replace (K - 1) with idx by lia. assumption.
  - cbn [zseq foldr].
    destruct (mipmapStep_cases K og phs st idx HK Hog Hph ltac:(lia) HI) as [[E C]|(H16 & st' & E & HI')].
    + left. rewrite E. split; [reflexivity|]. destruct C; [left; lia|now right].
    + rewrite E. cbn [bind].
      destruct (IH (idx + 1) st' HK Hog Hph ltac:(lia) ltac:(lia) HI') as [A|(A1 & A2)].
      * left. assumption.
      * right. split; [|assumption]. intros _. destruct (Z_le_gt_dec (idx + 1) (K - 2)); [auto|lia].
Qed.

Lemma buildWaveform_cases K og phs :
  2 <= K <= 24 -> zlen og = 2 ^ K -> phOk K phs -> zlen phs = K - 1 ->
  (buildWaveform N src dbg (K - 1) phs og = Fault RuntimeError /\ (19 <= K \/ ~ resamplerOk N src)) \/
  (K <= 18 /\ exists slots, buildWaveform N src dbg (K - 1) phs og = Ok slots /\
     zlen slots = K - 1 /\ slotsOf K og slots).
Proof.
  intros HK Hog Hph Hl. unfold buildWaveform. unfold kMaxLibSamplerate.
  rewrite assert_ok.
  2:{ intros _. destruct (Z.eqb_spec (zlen phs) 0); [lia|reflexivity]. }
  cbn [bind]. destruct (Z.leb_spec (K - 1) 0); [lia|]. cbn [bind].
  rewrite (Hph 0 ltac:(lia)). cbn [bind]. rewrite Z.sub_0_r.
  destruct (computeMQVector_ok N og) as (s0 & E0 & _).
  { rewrite Hog. assert (A := pow2_pos K ltac:(lia)). lia. }
  rewrite Hog in E0. rewrite E0. cbn [bind].
  replace (K - 1 - 8 - 1) with (K - 10) by lia.
  unfold zrange.
  destruct (mipmapLoop_cases K og phs (Z.to_nat (K - 1 - 1)) 1
     ([s0], repeat [] (Z.to_nat (Z.max (K - 10) 0)))) as [[E C]|(C & st' & E & I1 & I2 & _)]; auto; try lia.
  - unfold mInv; cbn [fst snd]. split; [reflexivity|]. split; [|split].
    + intros k s Hs. assert (R := znth_range _ _ _ _ Hs). rewrite zlen_cons, zlen_nil in R.
      assert (k = 0) by lia. subst k. rewrite znth_cons_0 in Hs. inversion Hs; subst.
      rewrite Z.sub_0_r. auto.
    + rewrite zlen_repeat. lia.
    + intros t Ht. destruct (Z.ltb_spec t 1); [lia|]. cbn [andb].
      destruct (znth_ok _ (repeat (@nil (T N)) (Z.to_nat (Z.max (K - 10) 0))) (t - 1)) as [a Ha].
      { rewrite zlen_repeat. lia. }
      rewrite Ha. apply znth_In, repeat_spec in Ha. now subst.
  - left. rewrite E. auto.
  - right. split.
    + destruct (Z.eq_dec K 2); [lia|]. apply C; lia.
    + rewrite E. destruct st' as [slots inter]. cbn [bind fst] in *. eauto.
Qed.

Lemma zlen_waveform wfs len nw i : 0 <= len -> zlen wfs = nw * len -> 0 <= i < nw ->
  zlen (waveform N wfs len i) = len.
Proof.
  intros Hlen Hl Hi. unfold waveform. rewrite zlen_firstn, zlen_skipn, Hl.
  assert (0 <= i * len) by nia. assert (i * len + len <= nw * len) by nia. lia.
Qed.

(** what a built table contains *)
Record Contents (K nw : Z) (wfs : list (T N)) (w : WT N) : Prop := {
  ct_K : 2 <= K <= 18;
  ct_nw : zlen (wt_slots w) = nw;
  ct_num : forall i ws, znth (wt_slots w) i = Ok ws -> zlen ws = K - 1;
  ct_slots : forall i ws, znth (wt_slots w) i = Ok ws -> slotsOf K (waveform N wfs (2 ^ K) i) ws;
  ct_phn : zlen (wt_ph w) = K - 1;
  ct_ph : phOk K (wt_ph w);
  ct_scale : zlen (cf_scale (wt_cf w)) = K - 1
}.

Lemma computePhaseVectors_ok K : 2 <= K <= 24 ->
  exists phs, computePhaseVectors N (2 ^ K) (K - 1) = Ok phs /\ zlen phs = K - 1 /\ phOk K phs.
Proof.
  intros HK. unfold computePhaseVectors.
  assert (H : forall i, In i (zrange 0 (K - 1)) ->
    (let! d := ishl 1 i in Ok (computePhaseVector N (2 ^ K ÷ d))) =
    Ok ((fun i => computePhaseVector N (2 ^ (K - i))) i)).
  { intros i Hi. apply In_zrange in Hi. rewrite ishl_ok; [|lia|lia|].
    2:{ assert (2 ^ i <= 2 ^ 24) by (apply Z.pow_le_mono_r; lia). unfold int_max. lia. }
    cbn [bind]. do 2 f_equal. rewrite Z.mul_1_l.
    assert (A := pow2_pos K ltac:(lia)). assert (A' := pow2_pos i ltac:(lia)).
    rewrite Z.quot_div_nonneg by lia. now rewrite Z.pow_sub_r by lia. }
  rewrite (mapr_map _ _ _ _ _ H). eexists. split; [reflexivity|]. split.
  - rewrite zlen_map, zlen_zrange. lia.
  - intros k Hk. rewrite znth_map, znth_zrange by lia. reflexivity.
Qed.

(** ** The facts that need the number system's laws *)
Variable L : Laws N.

Lemma misPowerOfTwo_pow2 K : 0 <= K <= 24 -> misPowerOfTwo N (2 ^ K) = Ok true.
Proof.
  intros HK. unfold misPowerOfTwo. assert (A := pow2_le24 K HK).
  destruct (Z.eqb_spec (2 ^ K) 0); [lia|].
  destruct (ofZ_spec N L (2 ^ K) ltac:(lia)) as [F1 V1].
  destruct (log2_spec N L (tofZ N (2 ^ K)) K F1 ltac:(lia)) as [F2 V2].
  { rewrite V1. change 2 with (radix_val radix2). rewrite IZR_Zpower by lia. reflexivity. }
  rewrite (mceil_spec N L), (mfloor_spec N L); rewrite ?V2; auto.
  - cbn [bind]. rewrite Zceil_IZR, Zfloor_IZR, Z.eqb_refl. reflexivity.
  - unfold int_min, int_max. split; [apply IZR_le|apply IZR_lt]; lia.
  - unfold int_min, int_max. split; apply IZR_le; lia.
Qed.

Lemma computeNumMipMapTables_pow2 K : 0 <= K <= 24 -> computeNumMipMapTables N (2 ^ K) = Ok (K - 1).
Proof.
  intros HK. unfold computeNumMipMapTables.
  destruct (quarter_spec N L K HK) as [F1 V1].
  destruct (log2_spec N L _ (K - 2) F1 ltac:(lia) V1) as [F2 V2].
  rewrite (mfloor_spec N L); rewrite ?V2; auto.
  - cbn [bind]. rewrite Zfloor_IZR, chk_ok by (unfold int_min, int_max; lia). f_equal. lia.
  - unfold int_min, int_max. split; [apply IZR_le|apply IZR_lt]; lia.
Qed.

Lemma computeMipMapScale_pow2 K sr : 1 <= K <= 24 ->
  exists sc, computeMipMapScale N (2 ^ K) sr = Ok sc /\ zlen sc = K - 1 /\
    forall i, 0 <= i < K - 1 -> znth sc i =
      Ok (tquo N 80 (tmul N (tmul N (tdiv N sr (tofZ N (2 ^ K))) (t2 N)) (tofZ N (2 ^ i))) sr).
Proof.
  intros HK. unfold computeMipMapScale. rewrite computeNumMipMapTables_pow2 by lia. cbn [bind].
  destruct (Z.ltb_spec (K - 1) 0); [lia|]. eexists. split; [reflexivity|]. split.
  - rewrite zlen_map, zlen_zrange. lia.
  - intros i Hi. rewrite znth_map, znth_zrange by lia. reflexivity.
Qed.

Lemma cf_make_pow2 n K sr : 1 <= K <= 24 ->
  exists c, cf_make N dbg n (2 ^ K) sr = Ok c /\ cf_num c = n /\ zlen (cf_scale c) = K - 1 /\
    cf_left c = 0 /\ cf_prev c = cf_next c /\ cf_next c = findLoop N (tfrac N 1 10) (cf_scale c) 0 /\
    computeMipMapScale N (2 ^ K) sr = Ok (cf_scale c).
Proof.
  intros HK. destruct (computeMipMapScale_pow2 K sr HK) as (sc & E & Hl & _).
  unfold cf_make, findMipMapIndex. rewrite E. cbn [bind].
  rewrite assert_ok by (intros _; apply (tenth_pos N L)). cbn [bind].
  eexists. split; [reflexivity|]. cbn. auto 8.
Qed.

(** the constructor on well-formed arguments *)
Lemma wt_construct_cases wfs nw sr n K :
  2 <= K <= 24 -> 1 <= nw -> zlen wfs = nw * 2 ^ K -> nw * 2 ^ K <= int_max ->
  (wt_construct N src dbg wfs nw sr n (2 ^ K) = Fault RuntimeError /\ (19 <= K \/ ~ resamplerOk N src)) \/
  (exists w, wt_construct N src dbg wfs nw sr n (2 ^ K) = Ok w /\ Contents K nw wfs w /\
     cf_make N dbg n (2 ^ K) sr = Ok (wt_cf w)).
Proof.
  intros HK Hnw Hl Hmax. unfold wt_construct.
  destruct (cf_make_pow2 n K sr ltac:(lia)) as (c & Ec & C1 & C2 & _).
  rewrite Ec. cbn [bind]. assert (Hp := pow2_pos K ltac:(lia)).
  rewrite chk_ok by (unfold int_min; lia). cbn [bind].
  rewrite assert_ok by (intros _; apply Z.eqb_eq; lia). cbn [bind].
  unfold cf_numMipMapTables. rewrite C2.
  destruct (computePhaseVectors_ok K HK) as (phs & Ep & P1 & P2). rewrite Ep. cbn [bind].
  assert (Hstep : forall i, In i (zrange 0 nw) ->
    (let! off := chk (i * 2 ^ K) in let! og := subspan N wfs off (2 ^ K) in
     buildWaveform N src dbg (K - 1) phs og) =
    buildWaveform N src dbg (K - 1) phs (waveform N wfs (2 ^ K) i)).
  { intros i Hi. apply In_zrange in Hi.
    assert (0 <= i * 2 ^ K) by nia. assert (i * 2 ^ K + 2 ^ K <= nw * 2 ^ K) by nia.
    rewrite chk_ok by (unfold int_min; lia). cbn [bind]. unfold subspan.
    destruct (Z.leb_spec 0 (i * 2 ^ K)); [|lia]. destruct (Z.leb_spec 0 (2 ^ K)); [|lia].
    destruct (Z.leb_spec (i * 2 ^ K + 2 ^ K) (zlen wfs)); [|lia]. reflexivity. }
  rewrite (mapr_ext _ _ _ _ _ Hstep).
  assert (Hw : forall i, In i (zrange 0 nw) -> zlen (waveform N wfs (2 ^ K) i) = 2 ^ K).
  { intros i Hi. apply In_zrange in Hi. apply (zlen_waveform wfs _ nw); lia. }
  assert (Hm : forall is, (forall i, In i is -> In i (zrange 0 nw)) ->
    (mapr (fun i => buildWaveform N src dbg (K - 1) phs (waveform N wfs (2 ^ K) i)) is
       = Fault RuntimeError /\ (19 <= K \/ ~ resamplerOk N src)) \/
    (exists ss, mapr (fun i => buildWaveform N src dbg (K - 1) phs (waveform N wfs (2 ^ K) i)) is = Ok ss)).
  { induction is as [|i is IH]; intros Hin; [right; eexists; reflexivity|]. cbn [mapr].
    destruct (buildWaveform_cases K (waveform N wfs (2 ^ K) i) phs HK (Hw i (Hin i (or_introl eq_refl))) P2 P1)
      as [[E C]|(C & s & E & _)]; rewrite E; cbn [bind]; [left; auto|].
    destruct IH as [[E' C']|(ss & E')]; [intros; apply Hin; now right| |]; rewrite E'; cbn [bind]; eauto. }
  destruct (Hm (zrange 0 nw) ltac:(auto)) as [[E C]|(ss & E)]; rewrite E; cbn [bind]; [left; auto|].
  right. eexists. split; [reflexivity|]. split; [|cbn [wt_cf]; congruence].
  assert (Hs : forall i ws, znth ss i = Ok ws ->
     0 <= i < nw /\ buildWaveform N src dbg (K - 1) phs (waveform N wfs (2 ^ K) i) = Ok ws).
  { intros i ws Hi. assert (R := znth_range _ _ _ _ Hi).
    assert (Lz := mapr_zlen _ _ _ _ _ E). rewrite zlen_zrange in Lz. split; [lia|].
    exact (mapr_zrange_znth _ _ 0 nw ss i ws E Hi). }
  assert (H0 : exists ws, znth ss 0 = Ok ws).
  { apply znth_ok. assert (Lz := mapr_zlen _ _ _ _ _ E). rewrite zlen_zrange in Lz. lia. }
  destruct H0 as [ws0 H0]. destruct (Hs _ _ H0) as [_ H0'].
  destruct (buildWaveform_cases K _ phs HK (Hw 0 ltac:(apply In_zrange; lia)) P2 P1) as [[E' _]|(C & _)];
    [congruence|].
  constructor; cbn [wt_slots wt_ph wt_cf]; auto.
  - lia.
  - assert (Lz := mapr_zlen _ _ _ _ _ E). rewrite zlen_zrange in Lz. lia.
  - intros i ws Hi. destruct (Hs _ _ Hi) as [Ri Hb].
    destruct (buildWaveform_cases K _ phs HK (Hw i ltac:(apply In_zrange; lia)) P2 P1) as [[E' _]|(_ & s & E' & Q1 & Q2)];
      [congruence|]. rewrite Hb in E'. inversion E'; subst. assumption.
  - intros i ws Hi. destruct (Hs _ _ Hi) as [Ri Hb].
    destruct (buildWaveform_cases K _ phs HK (Hw i ltac:(apply In_zrange; lia)) P2 P1) as [[E' _]|(_ & s & E' & Q1 & Q2)];
      [congruence|]. rewrite Hb in E'. inversion E'; subst. assumption.
Qed.

(** build on well-formed arguments *)
Lemma wt_build_cases wfs nw sr fade K :
  2 <= K <= 24 -> 1 <= nw -> zlen wfs = nw * 2 ^ K -> nw * 2 ^ K <= int_max ->
  tle N sr (t0 N) = false ->
  wt_build N src dbg wfs nw sr fade =
    let! n := tcast N (tmul N fade sr) in
    match wt_construct N src dbg wfs nw sr n (2 ^ K) with
    | Ok w => Ok (Some w)
    | Fault RuntimeError => Ok None
    | Fault f => Fault f
    end.
Proof.
  intros HK Hnw Hl Hmax Hsr. unfold wt_build. assert (Hp := pow2_pos K ltac:(lia)).
  assert (Hpos : 0 < nw * 2 ^ K) by nia.
  destruct (Z.eqb_spec (zlen wfs) 0); [lia|]. destruct (Z.leb_spec nw 0); [lia|]. rewrite Hsr.
  rewrite Hl at 1. rewrite Z.rem_mod_nonneg by lia.
  replace (nw * 2 ^ K) with (2 ^ K * nw) at 1 by lia. rewrite Z.mod_mul by lia. cbn [negb Z.eqb].
  rewrite Hl. rewrite wrap_int_id by (unfold int_min; lia).
  replace (nw * 2 ^ K ÷ nw) with (2 ^ K).
  2:{ rewrite Z.mul_comm, Z.quot_mul by lia. reflexivity. }
  rewrite misPowerOfTwo_pow2 by lia. reflexivity.
Qed.

Theorem wt_build_ok wfs nw sr fade K n :
  2 <= K <= 18 -> 1 <= nw -> zlen wfs = nw * 2 ^ K -> nw * 2 ^ K <= int_max ->
  tle N sr (t0 N) = false -> tcast N (tmul N fade sr) = Ok n -> resamplerOk N src ->
  exists w, wt_build N src dbg wfs nw sr fade = Ok (Some w) /\ Contents K nw wfs w /\
    cf_make N dbg n (2 ^ K) sr = Ok (wt_cf w).
Proof.
  intros HK Hnw Hl Hmax Hsr Hn Hs. rewrite (wt_build_cases wfs nw sr fade K) by (auto; lia).
  rewrite Hn. cbn [bind].
  destruct (wt_construct_cases wfs nw sr n K ltac:(lia) Hnw Hl Hmax) as [[E C]|(w & E & W1 & W2)].
  - destruct C; [lia|contradiction].
  - rewrite E. eauto.
Qed.

Theorem wt_build_some wfs nw sr fade K w :
  2 <= K <= 24 -> 1 <= nw -> zlen wfs = nw * 2 ^ K -> nw * 2 ^ K <= int_max ->
  wt_build N src dbg wfs nw sr fade = Ok (Some w) ->
  Contents K nw wfs w /\ exists n, tcast N (tmul N fade sr) = Ok n /\
    cf_make N dbg n (2 ^ K) sr = Ok (wt_cf w).
Proof.
  intros HK Hnw Hl Hmax H.
  destruct (tle N sr (t0 N)) eqn:Hsr.
  { unfold wt_build in H. rewrite Hsr in H. destruct (zlen wfs =? 0); [discriminate|].
    destruct (nw <=? 0); discriminate. }
  rewrite (wt_build_cases wfs nw sr fade K) in H by (auto; lia).
  apply bind_ok in H. destruct H as (n & Hn & H).
  destruct (wt_construct_cases wfs nw sr n K ltac:(lia) Hnw Hl Hmax) as [[E C]|(w' & E & W1 & W2)];
    rewrite E in H; [discriminate|]. inversion H; subst w'. eauto.
Qed.

(** on well-formed arguments build returns nullptr or a table *)
Theorem wt_build_total wfs nw sr fade K n :
  2 <= K <= 24 -> 1 <= nw -> zlen wfs = nw * 2 ^ K -> nw * 2 ^ K <= int_max ->
  tcast N (tmul N fade sr) = Ok n ->
  exists r, wt_build N src dbg wfs nw sr fade = Ok r /\ (19 <= K -> r = None).
Proof.
  intros HK Hnw Hl Hmax Hn.
  destruct (tle N sr (t0 N)) eqn:Hsr.
  { unfold wt_build. rewrite Hsr. destruct (zlen wfs =? 0); [eauto|].
    destruct (nw <=? 0); eauto. }
  rewrite (wt_build_cases wfs nw sr fade K) by (auto; lia). rewrite Hn. cbn [bind].
  destruct (wt_construct_cases wfs nw sr n K HK Hnw Hl Hmax) as [[E C]|(w & E & W1 & W2)]; rewrite E.
  - eauto.
  - eexists. split; [reflexivity|]. intros. assert (A := ct_K _ _ _ _ W1). lia.
Qed.

Lemma Contents_WTok K nw wfs w : 1 <= nw -> nw * 2 ^ K <= int_max -> Contents K nw wfs w -> WTok K nw w.
Proof.
  intros Hnw Hmax [A1 A2 A3 A4 A5 A6 A7]. constructor; auto.
  intros i ws k s Hi Hk. destruct (A4 i ws Hi k s Hk) as [B1 B2]. eexists; eauto.
Qed.

End Build.
