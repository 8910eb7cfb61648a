(** * PExact: supporting facts for the exactness statements *)
From Coq Require Import ZArith List Bool Reals Lia Lra Arith.
From Flocq Require Import Core IEEE754.BinarySingleNaN.
From Verif Require Import Num Maths CrossFader Wavetable Filters Osc Spec SpecC SpecT NumFacts Laws CFFacts
  WTFacts BuildFacts OscHist B32 B32Facts B32Laws CFHist PLoop PTables RNum RLaws Demo.
From Coquelicot Require Import Coquelicot.
From Verif Require Import SpecE SpecX ExactMath ExactStep ExactRun ExactHist ExactCover ExactSig ExactLaws.
Import ListNotations.
Local Open Scope R_scope.

(** ** Which phases are sharp *)
Lemma sharp_dyadic k i : (0 <= k <= 126)%Z -> (0 <= i < 2 ^ k)%Z -> sharp (IZR i / IZR (2 ^ k)).
Proof.
  intros Hk Hi. assert (P := IZR_pow2_pos k ltac:(lia)).
  assert (I1 : 0 <= IZR i) by (apply IZR_le; lia). assert (I2 : IZR i < IZR (2 ^ k)) by (apply IZR_lt; lia).
  split.
  { split; [apply Rmult_le_pos; [lra|left; now apply Rinv_0_lt_compat]|].
    apply Rmult_lt_reg_r with (IZR (2 ^ k)); [assumption|]. unfold Rdiv. rewrite Rmult_assoc, Rinv_l; lra. }
  intros k' j Hk' Hj. assert (P' := IZR_pow2_pos k' ltac:(lia)). assert (Q := IZR_pow2_pos 126 ltac:(lia)).
  (* everything over 2^126 *)
  assert (E : forall a b, (0 <= b <= 126)%Z -> IZR a / IZR (2 ^ b) = IZR (a * 2 ^ (126 - b)) / IZR (2 ^ 126)).
  { intros a b Hb. assert (Pb := IZR_pow2_pos b ltac:(lia)). assert (Pc := IZR_pow2_pos (126 - b) ltac:(lia)).
    rewrite mult_IZR. replace (2 ^ 126)%Z with (2 ^ b * 2 ^ (126 - b))%Z by (rewrite <- Z.pow_add_r by lia; f_equal; lia).
    rewrite mult_IZR. field. lra. }
  rewrite (E i k), (E j k') by lia. set (a := (i * _)%Z). set (b := (j * _)%Z).
  destruct (Z.eq_dec a b) as [->|Hab]; [left; reflexivity|right].
  replace (IZR a / IZR (2 ^ 126) - IZR b / IZR (2 ^ 126)) with (IZR (a - b) * / IZR (2 ^ 126)) by (rewrite minus_IZR; field; lra).
  rewrite Rabs_mult, (Rabs_pos_eq (/ _)) by (left; now apply Rinv_0_lt_compat).
  rewrite <- (Rmult_1_l (/ IZR (2 ^ 126))) at 1. apply Rmult_le_compat_r; [left; now apply Rinv_0_lt_compat|].
  rewrite <- abs_IZR. apply (IZR_le 1). lia.
Qed.

Lemma sharp_binary32 (p : f32) : 0 <= B2R p < 1 -> B2R p = 0 \/ / IZR (2 ^ 126) <= B2R p -> sharp (B2R p).
Proof. intros H1 H2. split; [exact H1|]. exact (playable_normal p H1 H2). Qed.

(** ** The shipped filters are exact filters *)
Lemma shipped_exact f : exactFilter (filt RNum f).
Proof.
  constructor.
  - destruct f; reflexivity.
  - reflexivity.
  - reflexivity.
  - assert (Hn : forall n m v, (n < 0)%Z -> (0 < m)%Z -> ((IZR n / IZR m, v) : C) <> RtoC 0).
    { intros n m v Hn Hm E. apply (f_equal fst) in E. cbn [fst RtoC] in E.
      assert (IZR n < 0) by (apply (IZR_lt n 0); lia). assert (0 < IZR m) by (apply (IZR_lt 0); lia).
      assert (IZR n / IZR m < 0); [|lra]. unfold Rdiv. apply Ropp_lt_cancel. rewrite Ropp_0, Ropp_mult_distr_l.
      apply Rmult_lt_0_compat; [lra|now apply Rinv_0_lt_compat]. }
    destruct f; cbn [filt f_z zCoeffs zLit List.map]; repeat constructor; apply Hn; reflexivity.
Qed.

Lemma shipped_stable f : stable (filt RNum f).
Proof.
  unfold stable.
  assert (Hn : forall n m (v : R), (n < 0)%Z -> (0 < m)%Z -> fst ((IZR n / IZR m, v) : C) < 0).
  { intros n m v Hn Hm. cbn [fst].
    assert (IZR n < 0) by (apply (IZR_lt n 0); lia). assert (0 < IZR m) by (apply (IZR_lt 0); lia).
    unfold Rdiv. apply Ropp_lt_cancel. rewrite Ropp_0, Ropp_mult_distr_l.
    apply Rmult_lt_0_compat; [lra|now apply Rinv_0_lt_compat]. }
  destruct f; cbn [filt f_z zCoeffs zLit List.map]; repeat constructor; apply Hn; reflexivity.
Qed.

(** ** From new oscillators *)
Lemma plays_outputs src cfg F ops st ys : (1 <= batch cfg)%nat -> exactFilter F ->
  plays src (dbg cfg) F None ops st ys ->
  outputs RNum (Osc.run RNum src cfg F (osc_new RNum F) ops) = Ok ys.
Proof.
  intros HB HF H. destruct (plays_exact src cfg F HB HF None ops st ys H (osc_new RNum F) I) as (o' & E & _).
  rewrite E. reflexivity.
Qed.

Lemma plays_app src dbg F st ops st1 ys : plays src dbg F st ops st1 ys ->
  forall ops2 st2 zs, plays src dbg F st1 ops2 st2 zs -> plays src dbg F st (ops ++ ops2) st2 (ys ++ zs).
Proof.
  induction 1 as [st|st op rest st' ys Hop Hp IH|st op w p d K nw wfs st1 rest st' ys Hop HW HT Hf Hp IH
                 |st p d st1 rest st' ys Hf Hp IH|st k rest st' ys Hk Hp IH|st sr w' rest st' ys H1 H2 Hu Hp IH
                 |st dir ps st1 ys rest st' zs Hb Hp IH]; intros ops2 st2 us H; cbn [app].
  - exact H.
  - apply pl_null; auto.
  - eapply pl_load; eauto.
  - eapply pl_reset; eauto.
  - eapply pl_select; eauto.
  - eapply pl_rate; eauto.
  - rewrite <- app_assoc. eapply pl_process; eauto.
Qed.

(** one more sample *)
Lemma plays_sample src dbg F ops st ys dir p st' y : plays src dbg F None ops (Some st) ys ->
  sample src dbg F dir st p st' y ->
  plays src dbg F None (ops ++ [OpProcess RNum dir [p]]) (Some st') (ys ++ [y]).
Proof.
  intros H S. eapply plays_app; [exact H|]. apply (pl_process src dbg F st dir [p] st' [y] [] (Some st') []).
  - econstructor; [exact S|]. constructor.
  - constructor.
Qed.

Lemma plays_live src dbg F (HF : exactFilter F) so ops so' ys : plays src dbg F so ops so' ys ->
  liveO src dbg F so -> liveO src dbg F so'.
Proof.
  induction 1 as [st|st op rest st' ys Hop Hp IH|st op w p d K nw wfs st1 rest st' ys Hop HW HT Hf Hp IH
                 |st p d st1 rest st' ys Hf Hp IH|st k rest st' ys Hk Hp IH|st sr w' rest st' ys H1 H2 Hu Hp IH
                 |st dir ps st1 ys rest st' zs Hb Hp IH]; intros L; auto; apply IH; cbn [liveO] in *.
  - eapply fresh_live; eauto. destruct HW as (_ & A & _). lia.
  - eapply fresh_live; eauto; apply L.
  - now apply live_select.
  - eapply live_rate; eauto.
  - eapply block_live; eauto.
Qed.

Lemma allPoles_ext F x y mem : (forall u, 0 <= u <= 1 -> x u = y u) -> allPoles F x mem = allPoles F y mem.
Proof.
  intros H. unfold allPoles. apply map_ext. intros e. unfold onePole. now rewrite (response_ext _ x y H).
Qed.

(** ** A concrete table: one waveform of 8 samples *)
Definition demoWave : list R := [0; 1; 2; 1; 0; -1; -2; -1].
Lemma demo_wellFormed : wellFormed RNum demoWave 1 3.
Proof. unfold wellFormed, zlen, int_max. cbn. lia. Qed.
Lemma demo_resampler : resamplerOk RNum (demo_src RNum).
Proof. intros inp ratio cap. repeat split. Qed.
Lemma demo_table (dbg : bool) : exists w, wt_build RNum (demo_src RNum) dbg demoWave 1 1 1 = Ok (Some w).
Proof.
  destruct (wt_build_ok RNum (demo_src RNum) dbg LR demoWave 1 1 1 3 1) as (w & E & _); [lia|lia|reflexivity| | | | |].
  - unfold int_max. lia.
  - unfold t0. cbn. apply Rle_bool_false. lra.
  - unfold tcast. cbn. rewrite Rmult_1_r. rewrite (Ztrunc_IZR 1). reflexivity.
  - exact demo_resampler.
  - exists w. exact E.
Qed.
Lemma demo_cast : tcast RNum (1 * 1) = Ok 1%Z.
Proof. unfold tcast. cbn. rewrite Rmult_1_r. rewrite (Ztrunc_IZR 1). reflexivity. Qed.

(** as many samples as phases *)
Definition opSize (op : Op RNum) : nat := match op with OpProcess _ ps => length ps | _ => 0%nat end.
Lemma block_length src dbg F dir st ps st' ys : block src dbg F dir st ps st' ys -> length ys = length ps.
Proof. induction 1; cbn; congruence. Qed.
Lemma plays_length src dbg F so ops so' ys : plays src dbg F so ops so' ys ->
  length ys = list_sum (List.map opSize ops).
Proof.
  induction 1 as [st|st op rest st' ys Hop Hp IH|st op w p d K nw wfs st1 rest st' ys Hop HW HT Hf Hp IH
                 |st p d st1 rest st' ys Hf Hp IH|st k rest st' ys Hk Hp IH|st sr w' rest st' ys H1 H2 Hu Hp IH
                 |st dir ps st1 ys rest st' zs Hb Hp IH]; cbn [List.map list_sum fold_right]; auto.
  - destruct Hop as (p & d & [-> | ->]); exact IH.
  - destruct Hop as [-> | ->]; exact IH.
  - cbn [opSize]. rewrite app_length, IH, (block_length _ _ _ _ _ _ _ _ Hb). reflexivity.
Qed.

(** ** The step response settles *)
Lemma cexp_n_lim (z : C) : fst z < 0 -> is_lim_seq (fun n => exp (INR n * fst z)) 0.
Proof.
  intros Hz. apply (is_lim_seq_ext (fun n => exp (fst z) ^ n)).
  - intros n. rewrite Rmult_comm, <- Rpower_pow by apply exp_pos. unfold Rpower. rewrite ln_exp. f_equal. ring.
  - apply is_lim_seq_geom. rewrite Rabs_pos_eq by (left; apply exp_pos). rewrite <- exp_0. now apply exp_increasing.
Qed.
Lemma fst_le_Cmod (y : C) : Rabs (fst y) <= Cmod y.
Proof.
  unfold Cmod. rewrite <- sqrt_Rsqr_abs. apply sqrt_le_1_alt. unfold Rsqr.
  assert (T := pow2_ge_0 (snd y)). nra.
Qed.
Lemma stepResponse_lim (r z : C) : fst z < 0 -> is_lim_seq (fun n => fst (stepResponse r z n)) (fst (- (2 * r / z))%C).
Proof.
  intros Hz. set (a := (- (2 * r / z))%C).
  apply (is_lim_seq_ext (fun n => fst a + - fst (a * cexp (RtoC (INR n) * z))%C)).
  { intros n. unfold stepResponse. fold a. destruct a as [a1 a2]. destruct (cexp _) as [b1 b2]. cbn. ring. }
  replace (Finite (fst a)) with (Finite (fst a + 0)) by (f_equal; ring).
  apply is_lim_seq_plus'; [apply is_lim_seq_const|].
  apply is_lim_seq_abs_0. 
  apply (is_lim_seq_le_le (fun _ => 0) _ (fun n => Cmod a * exp (INR n * fst z))).
  - intros n. split; [apply Rabs_pos|]. rewrite Rabs_Ropp. eapply Rle_trans; [apply fst_le_Cmod|].
    rewrite Cmod_mult, cmod_cexp. right. f_equal. f_equal. destruct z as [z1 z2]. cbn. ring.
  - apply is_lim_seq_const.
  - replace (Finite 0) with (Rbar_mult (Finite (Cmod a)) (Finite 0)) by (cbn; f_equal; ring).
    apply is_lim_seq_scal_l. now apply cexp_n_lim.
Qed.
Lemma dcResponse_limit F : exactFilter F -> stable F -> is_lim_seq (dcResponse F) (dcGain F).
Proof.
  intros _ HS. unfold dcResponse, dcGain.
  assert (Hz : forall e, In e (combine (f_r F) (f_z F)) -> fst (snd e) < 0).
  { intros [r z] Hin. apply in_combine_r in Hin. unfold stable in HS. rewrite List.Forall_forall in HS. now apply HS. }
  revert Hz. generalize (combine (f_r F) (f_z F)) as es. induction es as [|[r z] es IH]; intros Hz; cbn [List.map fold_right].
  - apply is_lim_seq_const.
  - apply is_lim_seq_plus'; [apply stepResponse_lim; apply (Hz (r, z)); now left|].
    apply IH. intros e He. apply Hz. now right.
Qed.
