(** * PRate32: binary32 part of the lemmas behind C65 *)
From Coq Require Import ZArith List Bool Reals Lia Lra Arith.
From Flocq Require Import Core IEEE754.BinarySingleNaN.
From Verif Require Import Num Maths CrossFader Wavetable Filters Osc Spec SpecC SpecT NumFacts Laws CFFacts
  WTFacts BuildFacts OscFacts OscStep OscRun OscHist CFHist RNum RLaws B32 B32Facts B32Laws
  SpecF SpecO SpecW PCross PHist PHeld SpecL PLoop PRate SpecRate.
Import ListNotations.
Local Open Scope Z_scope.

Lemma pos_finite (x : f32) : fin32 x = true -> (0 < B2R x)%R -> is_finite_strict x = true.
Proof. destruct x as [s|s| |s m e E]; cbn; intros F P; try discriminate F; try reflexivity. exfalso. lra. Qed.

Section Rate32.
Variable lm : Libm.
Hypothesis Hlog : log2_exact lm.
Variable src : Resampler (B32 lm).
Variable dbg : bool.
Notation N := (B32 lm).
Notation L := (B32_Laws lm Hlog).

Lemma rate_pos (sr : f32) : rate32 lm sr -> tle N sr (t0 N) = false.
Proof.
  intros H. destruct (zero_spec N L) as [Z1 Z2]. assert (P := rate32_pos lm sr H).
  rewrite (le_spec N L sr (t0 N) (proj1 H) Z1), Z2. apply Rle_bool_false. exact P.
Qed.

Lemma scale_same K (sr1 sr2 : f32) : 2 <= K <= 24 -> rate32 lm sr1 -> rate32 lm sr2 ->
  computeMipMapScale N (2 ^ K) sr1 = computeMipMapScale N (2 ^ K) sr2.
Proof.
  intros HK R1 R2. unfold computeMipMapScale. rewrite (computeNumMipMapTables_pow2 N L) by lia. cbn [bind].
  destruct (K - 1 <? 0); [reflexivity|]. f_equal. apply map_ext_in. intros i Hi. apply In_zrange in Hi.
  destruct (b_scale lm sr1 K i R1 HK ltac:(lia)) as [G1 V1]. destruct (b_scale lm sr2 K i R2 HK ltac:(lia)) as [G2 V2].
  assert (P : (0 < IZR (2 ^ (i + 1)) / IZR (2 ^ K))%R) by (apply Rdiv_lt_0_compat; apply (IZR_lt 0); apply Z.pow_pos_nonneg; lia).
  cbv zeta in G1, V1, G2, V2. apply B2R_inj.
  - apply pos_finite; [exact G1|exact (eq_ind_r (fun r => (0 < r)%R) P V1)].
  - apply pos_finite; [exact G2|exact (eq_ind_r (fun r => (0 < r)%R) P V2)].
  - exact (eq_trans V1 (eq_sym V2)).
Qed.

Lemma make_any n K (sr1 sr2 : f32) : 2 <= K <= 24 -> rate32 lm sr1 -> rate32 lm sr2 ->
  cf_make N dbg n (2 ^ K) sr1 = cf_make N dbg n (2 ^ K) sr2.
Proof. intros HK R1 R2. unfold cf_make. now rewrite (scale_same K sr1 sr2). Qed.

Lemma build_same wfs nw K (sr1 sr2 fade1 fade2 : f32) : wellFormed N wfs nw K -> rate32 lm sr1 -> rate32 lm sr2 ->
  tcast N (tmul N fade1 sr1) = tcast N (tmul N fade2 sr2) ->
  wt_build N src dbg wfs nw sr1 fade1 = wt_build N src dbg wfs nw sr2 fade2.
Proof.
  intros (HK & Hnw & Hl & Hm) R1 R2 E.
  rewrite !(wt_build_cases N src dbg L wfs nw _ _ K) by (assumption || lia || now apply rate_pos).
  rewrite E. destruct (tcast N (tmul N fade2 sr2)) as [n|f]; cbn [bind]; [|reflexivity].
  unfold wt_construct. now rewrite (make_any n K sr1 sr2).
Qed.

Lemma build_slots wfs nw K (sr1 sr2 fade1 fade2 : f32) w1 w2 : wellFormed N wfs nw K -> rate32 lm sr1 -> rate32 lm sr2 ->
  wt_build N src dbg wfs nw sr1 fade1 = Ok (Some w1) -> wt_build N src dbg wfs nw sr2 fade2 = Ok (Some w2) ->
  wt_slots w1 = wt_slots w2 /\ wt_ph w1 = wt_ph w2 /\ cf_scale (wt_cf w1) = cf_scale (wt_cf w2).
Proof.
  intros (HK & Hnw & Hl & Hm) R1 R2 E1 E2.
  rewrite (wt_build_cases N src dbg L wfs nw sr1 fade1 K) in E1 by (assumption || lia || now apply rate_pos).
  rewrite (wt_build_cases N src dbg L wfs nw sr2 fade2 K) in E2 by (assumption || lia || now apply rate_pos).
  destruct (tcast N (tmul N fade1 sr1)) as [n1|f]; cbn [bind] in E1; [|discriminate E1].
  destruct (tcast N (tmul N fade2 sr2)) as [n2|f]; cbn [bind] in E2; [|discriminate E2].
  destruct (wt_construct N src dbg wfs nw sr1 n1 (2 ^ K)) as [v1|[]] eqn:C1; try discriminate E1. injection E1 as ->.
  destruct (wt_construct N src dbg wfs nw sr2 n2 (2 ^ K)) as [v2|[]] eqn:C2; try discriminate E2. injection E2 as ->.
  unfold wt_construct in C1, C2.
  destruct (cf_make_pow2 N dbg L n1 K sr1 ltac:(lia)) as (c1 & F1 & _ & Z1 & _ & _ & _ & S1).
  destruct (cf_make_pow2 N dbg L n2 K sr2 ltac:(lia)) as (c2 & F2 & _ & Z2 & _ & _ & _ & S2).
  assert (ES : cf_scale c1 = cf_scale c2).
  { rewrite (scale_same K sr1 sr2 HK R1 R2), S2 in S1. congruence. }
  rewrite F1 in C1. rewrite F2 in C2. cbn [bind] in C1, C2.
  unfold cf_numMipMapTables in C1, C2. rewrite Z1 in C1. rewrite Z2 in C2.
  destruct (chk (2 ^ K * nw)) as [t|]; cbn [bind] in C1, C2; [|discriminate C1].
  destruct (assert_ dbg (t =? zlen wfs)) as [[]|]; cbn [bind] in C1, C2; [|discriminate C1].
  destruct (computePhaseVectors N (2 ^ K) (K - 1)) as [phs|]; cbn [bind] in C1, C2; [|discriminate C1].
  match type of C1 with bind ?m _ = _ => destruct m as [ss|] eqn:Es end; cbn [bind] in C1; [|discriminate C1].
  cbn [bind] in C2. injection C1 as <-. injection C2 as <-. cbn. auto.
Qed.

Lemma resample_shape K n w : reachable N src dbg (rate32 lm) K n w -> exists og nw,
  wellFormed N og nw K /\ wt_numWaveforms N w = nw /\
  forall sr fade, wt_updateSamplerate N src dbg w sr fade =
    let! nd := wt_build N src dbg og nw sr fade in match nd with Some w' => Ok w' | None => Fault NullDeref end.
Proof.
  intros H. destruct (reach_ok lm Hlog src dbg K n w H) as (HK & (nw & HW) & _).
  destruct (rebuild_ok N dbg K nw w HW) as (og & Eo & Ho & _). destruct (wo_nw _ _ _ _ HW) as [Hnw Hm].
  exists og, nw. split; [repeat split; auto; lia|]. split; [exact (wo_slots _ _ _ _ HW)|].
  intros sr fade. unfold wt_updateSamplerate. rewrite Eo. cbn [bind]. unfold wt_numWaveforms. now rewrite (wo_slots _ _ _ _ HW).
Qed.

Lemma resample_same K n w (sr1 sr2 fade1 fade2 : f32) : reachable N src dbg (rate32 lm) K n w -> rate32 lm sr1 -> rate32 lm sr2 ->
  tcast N (tmul N fade1 sr1) = tcast N (tmul N fade2 sr2) ->
  wt_updateSamplerate N src dbg w sr1 fade1 = wt_updateSamplerate N src dbg w sr2 fade2.
Proof.
  intros H R1 R2 E. destruct (resample_shape K n w H) as (og & nw & HW & _ & HU). rewrite !HU.
  now rewrite (build_same og nw K sr1 sr2 fade1 fade2 HW R1 R2 E).
Qed.

(** ** A fresh table *)
Lemma fresh_state wfs nw K (sr fade : f32) w : wellFormed N wfs nw K -> rate32 lm sr ->
  wt_build N src dbg wfs nw sr fade = Ok (Some w) ->
  exists n, tcast N (tmul N fade sr) = Ok n /\ cf_num (wt_cf w) = n /\ cf_left (wt_cf w) = 0 /\
    cf_prev (wt_cf w) = cf_next (wt_cf w) /\ cf_next (wt_cf w) = findLoop N (tfrac N 1 10) (cf_scale (wt_cf w)) 0 /\
    reachable N src dbg (rate32 lm) K n w.
Proof.
  intros (HK & Hnw & Hl & Hm) Hr Hb.
  destruct (wt_build_some N src dbg L wfs nw sr fade K w HK Hnw Hl Hm Hb) as (_ & n & En & Ec).
  destruct (cf_make_pow2 N dbg L n K sr ltac:(lia)) as (c & F1 & A1 & A2 & A3 & A4 & A5 & _).
  assert (c = wt_cf w) by congruence. subst c. exists n. repeat split; auto. eapply r_build; eassumption.
Qed.

Lemma asks32 K n w r (d : f32) : reachable N src dbg (rate32 lm) K n w -> fin32 d = true -> entryFor K (B2R d) r ->
  asks N (cf_scale (wt_cf w)) r d.
Proof. intros H Fd He. exact (req32 lm Hlog src dbg K n w d r H Fd He). Qed.

Lemma asks_stays K n w r dir (s : f32) : reachable N src dbg (rate32 lm) K n w -> stays K r dir s ->
  asks N (cf_scale (wt_cf w)) r (tabs N s) /\ (tle N (t0 N) s = true -> asks N (cf_scale (wt_cf w)) r s).
Proof.
  intros H (Fs & H0 & _ & He). split.
  - apply (asks32 K n w r _ H); [exact (eq_trans (is_finite_Babs 24 128 s) Fs)|].
    change (tabs N s) with (@Babs 24 128 s). now rewrite B2R_Babs.
  - intros Hle. apply (asks32 K n w r _ H Fs). rewrite Rabs_pos_eq in He; [exact He|].
    destruct (zero_spec N L) as [Z1 Z2]. rewrite (le_spec N L (t0 N) s Z1 Fs), Z2 in Hle.
    destruct (Rle_bool_spec 0 (val N L s)); [assumption|discriminate].
Qed.

Lemma asks_block K n w r dir ps : reachable N src dbg (rate32 lm) K n w -> forall prev : f32,
  Forall (stays K r dir) (steps32 lm dir prev ps) -> blockAsks N (cf_scale (wt_cf w)) r dir prev ps.
Proof.
  intros H. induction ps as [|p ps IH]; intros prev Hs; [exact I|]. cbn [steps32] in Hs. inversion Hs as [|? ? H1 H2]; subst.
  split; [|now apply IH]. assert (A := asks_stays K n w r dir _ H H1). unfold stepAsks, step32 in *. destruct dir.
  - destruct H1 as (F1 & _ & P1 & He). apply (asks32 K n w r _ H F1). rewrite Rabs_pos_eq in He; [exact He|]. now apply Rlt_le, P1.
  - destruct (tle N (t0 N) (stepBi N p prev)); now apply A.
Qed.

Lemma asks_ops K n w r ops : reachable N src dbg (rate32 lm) K n w -> forall prev : f32,
  staysIn lm K r prev ops -> opsAsk N (cf_scale (wt_cf w)) r prev ops.
Proof.
  intros H. induction ops as [|op ops IH]; intros prev Hs; [exact I|].
  destruct op as [wd p d|wd p d|p d|k|sr|dir ps]; cbn [staysIn] in Hs; cbn [opsAsk]; try contradiction.
  - destruct Hs as [H1 H2]. split; [now apply (asks_stays K n w r kBidirectionnal d H H1)|now apply IH].
  - now apply IH.
  - destruct Hs as [H1 H2]. split; [now apply (asks_block K n w)|now apply IH].
Qed.
End Rate32.
