(** * Prop_Seg: properties C47, C48 -- accuracy of the binary32 tables *)
From Coq Require Import ZArith List Bool Reals Lia Lra.
From Flocq Require Import Core IEEE754.BinarySingleNaN.
From Verif Require Import Num Maths CrossFader Wavetable Filters Osc Spec SpecC SpecT SpecF SpecD B32 RNum NumFacts Laws
  B32Facts B32Laws RLaws WTFacts BuildFacts OscHist Demo PTables PErr PRebuild PSeg ExactMath SpecE.
Import ListNotations.
Local Open Scope Z_scope.

Lemma in_unit len t j : (0 < IZR len)%R -> (IZR j / IZR len <= t <= IZR (j + 1) / IZR len)%R -> 0 <= j < len ->
  (IZR j <= t * IZR len <= IZR j + 1)%R /\ (0 <= t <= 1)%R.
Proof.
  intros Hl [H1 H2] Hj. rewrite plus_IZR in H2.
  assert (A : (IZR j <= t * IZR len)%R).
  { apply (Rmult_le_compat_r (IZR len)) in H1; [|lra]. unfold Rdiv in H1. rewrite Rmult_assoc, Rinv_l in H1 by lra. lra. }
  assert (B : (t * IZR len <= IZR j + 1)%R).
  { apply (Rmult_le_compat_r (IZR len)) in H2; [|lra]. unfold Rdiv in H2. rewrite Rmult_assoc, Rinv_l in H2 by lra. lra. }
  assert (0 <= IZR j)%R by (apply IZR_le; lia).
  assert (IZR j + 1 <= IZR len)%R by (rewrite <- plus_IZR; apply IZR_le; lia).
  split; [lra|]. split; nra.
Qed.

Lemma In_znth_ex {A} (l : list A) x : In x l -> exists i, znth l i = Ok x.
Proof.
  intros H. apply (In_nth _ _ x) in H. destruct H as (n & Hn & E). exists (Z.of_nat n).
  rewrite (znth_nth _ _ _ x) by (unfold zlen; lia). now rewrite Nat2Z.id, E.
Qed.

(** the interpolated waveform on one segment *)
Lemma wave_on (ys : list R) j t : (0 < IZR (zlen ys))%R -> (IZR j <= t * IZR (zlen ys) <= IZR j + 1)%R ->
  wave ys t = (cyc ys j + (t * IZR (zlen ys) - IZR j) * (cyc ys (j + 1) - cyc ys j))%R.
Proof. intros Hl H. exact (poly_line (cyc ys) (IZR (zlen ys)) j t H). Qed.

(** ** C47 (binary32): the stored segments follow the waveform.  Take a table as build made it
    (played any number of times), and one of its entries whose samples are finite and at most
    2^b in size.  Every stored slope, intercept and difference is finite.  On segment j the
    stored line stays within 5/2 * 2^b * len / 2^24 of the straight line between the samples,
    and the stored jump at the end of segment j, which should be 0, is at most
    13 * 2^b * len / 2^24. *)
Theorem C47_lines : forall lm src dbg (wfs : list (T (B32 lm))) nw K (sr fade : f32) w0 ds w ms i k b,
  log2_exact lm -> wellFormed (B32 lm) wfs nw K ->
  wt_build (B32 lm) src dbg wfs nw sr fade = Ok (Some w0) -> ask (B32 lm) dbg w0 ds = Ok (w, ms) ->
  0 <= i < nw -> 0 <= k <= K - 2 -> -64 <= b <= 64 ->
  let ys := mipmap (B32 lm) src (waveform (B32 lm) wfs (2 ^ K) i) k in
  (forall y : f32, In y ys -> is_finite y = true /\ (Rabs (B2R y) <= bpow radix2 b)%R) ->
  exists M Q, wt_m (B32 lm) w i k = Ok M /\ wt_q (B32 lm) w i k = Ok Q /\
    forall j, 0 <= j < 2 ^ (K - k) ->
    exists m q : f32, znth M j = Ok m /\ znth Q j = Ok q /\ is_finite m = true /\ is_finite q = true /\
      forall t, (IZR j / IZR (2 ^ (K - k)) <= t <= IZR (j + 1) / IZR (2 ^ (K - k)))%R ->
        (Rabs (B2R m * t + B2R q - wave (List.map (fun y : f32 => B2R y) ys) t) <=
           5 / 2 * bpow radix2 b * IZR (2 ^ (K - k)) / IZR (2 ^ 24))%R.
Proof.
  intros lm src dbg wfs nw K sr fade w0 ds w ms i k b Hlog W Hbd Ha Hi Hk Hb ys Hy.
  assert (W' := W). destruct W' as (HK & Hnw & Hl & Hm).
  destruct (wt_build_some (B32 lm) src dbg (B32_Laws lm Hlog) wfs nw sr fade K w0 HK Hnw Hl Hm Hbd) as [C0 _].
  assert (C := ask_contents _ _ _ _ _ _ _ _ _ _ C0 Ha). assert (HK' := ct_K _ _ _ _ _ _ C).
  destruct (slot_of _ _ _ _ _ _ i k C Hi Hk) as (s & Es & S & Ls & _). fold ys in S, Ls.
  assert (Hp := pow2_pos (K - k) ltac:(lia)).
  exists (s_m s), (s_q s). unfold wt_m, wt_q. rewrite Es. split; [reflexivity|]. split; [reflexivity|].
  destruct (sf_shape _ _ _ S) as [LM LQ _ _]. rewrite Ls in LM, LQ.
  intros j Hj. exists (at_ (s_m s) j), (at_ (s_q s) j).
  split; [apply znth_at; lia|]. split; [apply znth_at; lia|].
  destruct (slot_seg lm b (K - k) ys s Hb ltac:(lia) Ls S Hy j Hj) as (Fm & Fq & _ & _ & Ln).
  split; [exact Fm|]. split; [exact Fq|]. intros t Ht.
  assert (HP : (0 < IZR (2 ^ (K - k)))%R) by (apply IZR_lt; lia).
  destruct (in_unit _ t j HP Ht Hj) as [Hj1 Ht1].
  assert (Lr : zlen (List.map (fun y : f32 => B2R y) ys) = 2 ^ (K - k)) by (rewrite zlen_map; exact Ls).
  rewrite (wave_on _ j t) by (rewrite Lr; assumption). unfold cyc. rewrite Lr.
  assert (Ev : forall x, 0 <= x < 2 ^ (K - k) -> elem (List.map (fun y : f32 => B2R y) ys) x = B2R (at_ ys x : f32)).
  { intros x Hx. unfold elem, at_. rewrite nth_indep with (d' := B2R (t0 (B32 lm) : f32)).
    - exact (map_nth (fun y : f32 => B2R y) ys (t0 (B32 lm)) (Z.to_nat x)).
    - rewrite map_length. unfold zlen in Ls. change (@length f32 ys) with (@length (T (B32 lm)) ys). lia. }
  rewrite !Ev by (apply Z.mod_pos_bound; lia).
  specialize (Ln t Ht1).
  assert (HB : bpow radix2 (K - k) = IZR (2 ^ (K - k))) by (rewrite bpow_Z by lia; reflexivity).
  rewrite HB in Ln. eapply Rle_trans; [exact Ln|]. apply Req_le.
  replace (K - k + b - 24) with ((K - k) + (b + -24)) by lia. rewrite !bpow_plus, HB.
  change (bpow radix2 (-24)) with (/ IZR (2 ^ 24))%R. field. apply IZR_neq. lia.
Qed.
Print Assumptions C47_lines.

Theorem C47_jumps : forall lm src dbg (wfs : list (T (B32 lm))) nw K (sr fade : f32) w0 ds w ms i k b,
  log2_exact lm -> wellFormed (B32 lm) wfs nw K ->
  wt_build (B32 lm) src dbg wfs nw sr fade = Ok (Some w0) -> ask (B32 lm) dbg w0 ds = Ok (w, ms) ->
  0 <= i < nw -> 0 <= k <= K - 2 -> -64 <= b <= 64 ->
  let ys := mipmap (B32 lm) src (waveform (B32 lm) wfs (2 ^ K) i) k in
  (forall y : f32, In y ys -> is_finite y = true /\ (Rabs (B2R y) <= bpow radix2 b)%R) ->
  exists MD QD, wt_mDiff (B32 lm) w i k = Ok MD /\ wt_qDiff (B32 lm) w i k = Ok QD /\
    forall j, 0 <= j < 2 ^ (K - k) ->
    exists md qd : f32, znth MD j = Ok md /\ znth QD j = Ok qd /\ is_finite md = true /\ is_finite qd = true /\
      (Rabs (B2R qd + B2R md * (IZR (j + 1) / IZR (2 ^ (K - k)))) <=
           13 * bpow radix2 b * IZR (2 ^ (K - k)) / IZR (2 ^ 24))%R.
Proof.
  intros lm src dbg wfs nw K sr fade w0 ds w ms i k b Hlog W Hbd Ha Hi Hk Hb ys Hy.
  assert (W' := W). destruct W' as (HK & Hnw & Hl & Hm).
  destruct (wt_build_some (B32 lm) src dbg (B32_Laws lm Hlog) wfs nw sr fade K w0 HK Hnw Hl Hm Hbd) as [C0 _].
  assert (C := ask_contents _ _ _ _ _ _ _ _ _ _ C0 Ha). assert (HK' := ct_K _ _ _ _ _ _ C).
  destruct (slot_of _ _ _ _ _ _ i k C Hi Hk) as (s & Es & S & Ls & _). fold ys in S, Ls.
  assert (Hp := pow2_pos (K - k) ltac:(lia)).
  exists (s_md s), (s_qd s). unfold wt_mDiff, wt_qDiff. rewrite Es. split; [reflexivity|]. split; [reflexivity|].
  destruct (sf_shape _ _ _ S) as [_ _ LM LQ]. rewrite Ls in LM, LQ.
  intros j Hj. exists (at_ (s_md s) j), (at_ (s_qd s) j).
  split; [apply znth_at; lia|]. split; [apply znth_at; lia|].
  destruct (slot_jump lm b (K - k) ys s Hb ltac:(lia) Ls S Hy j Hj) as (Fm & Fq & H).
  split; [exact Fm|]. split; [exact Fq|].
  assert (HB : bpow radix2 (K - k) = IZR (2 ^ (K - k))) by (rewrite bpow_Z by lia; reflexivity).
  rewrite HB in H. eapply Rle_trans; [exact H|]. apply Req_le.
  replace (K - k + b - 24) with ((K - k) + (b + -24)) by lia. rewrite !bpow_plus, HB.
  change (bpow radix2 (-24)) with (/ IZR (2 ^ 24))%R. field. apply IZR_neq. lia.
Qed.
Print Assumptions C47_jumps.

(** the usual wavetable, 2048 samples in [-1,1]: the lines are within 2^-12 *)
Corollary C47_2048 : forall lm src dbg (wfs : list (T (B32 lm))) nw (sr fade : f32) w0 ds w ms i,
  log2_exact lm -> wellFormed (B32 lm) wfs nw 11 ->
  wt_build (B32 lm) src dbg wfs nw sr fade = Ok (Some w0) -> ask (B32 lm) dbg w0 ds = Ok (w, ms) ->
  0 <= i < nw ->
  (forall y : f32, In y wfs -> is_finite y = true /\ (-1 <= B2R y <= 1)%R) ->
  exists M Q, wt_m (B32 lm) w i 0 = Ok M /\ wt_q (B32 lm) w i 0 = Ok Q /\
    forall j, 0 <= j < 2048 ->
    exists m q : f32, znth M j = Ok m /\ znth Q j = Ok q /\
      forall t, (IZR j / 2048 <= t <= IZR (j + 1) / 2048)%R ->
        (Rabs (B2R m * t + B2R q -
               wave (List.map (fun y : f32 => B2R y) (waveform (B32 lm) wfs 2048 i)) t) <= / 3276)%R.
Proof.
  intros lm src dbg wfs nw sr fade w0 ds w ms i Hlog W Hbd Ha Hi Hy.
  destruct (C47_lines lm src dbg wfs nw 11 sr fade w0 ds w ms i 0 0 Hlog W Hbd Ha Hi ltac:(lia) ltac:(lia))
    as (M & Q & E1 & E2 & H).
  { intros y Hin. change (mipmap (B32 lm) src (waveform (B32 lm) wfs (2 ^ 11) i) 0) with (waveform (B32 lm) wfs (2 ^ 11) i) in Hin.
    unfold waveform in Hin. destruct (Hy y) as [F V].
    { rewrite <- (firstn_skipn (Z.to_nat (i * 2 ^ 11)) wfs). apply in_or_app. right.
      rewrite <- (firstn_skipn (Z.to_nat (2 ^ 11)) (skipn _ wfs)). apply in_or_app. left. exact Hin. }
    split; [exact F|]. change (bpow radix2 0) with 1%R. apply Rabs_le. exact V. }
  exists M, Q. split; [exact E1|]. split; [exact E2|]. intros j Hj.
  change (2 ^ (11 - 0)) with 2048 in H. destruct (H j Hj) as (m & q & A1 & A2 & _ & _ & B).
  exists m, q. split; [exact A1|]. split; [exact A2|]. intros t Ht. specialize (B t Ht).
  change (mipmap (B32 lm) src (waveform (B32 lm) wfs (2 ^ 11) i) 0) with (waveform (B32 lm) wfs (2 ^ 11) i) in B.
  change (2 ^ 11) with 2048 in B. eapply Rle_trans; [exact B|]. change (bpow radix2 0) with 1%R.
  change (2 ^ 24) with 16777216. lra.
Qed.
Print Assumptions C47_2048.

(** ** C48 (binary32): sample-rate changes add up.  A table of waveforms of len samples in
    [-1,1] was built, played and re-sampled n times.  As long as n*len/2^21 is at most 1, the
    table held then is one that build makes (and that was then played) of samples that are
    finite and within n*len/2^21 of the originals. *)
Section Drift.
Variable lm : Libm.
Notation N := (B32 lm).
Variable src : Resampler N.
Variable dbg : bool.
Hypothesis Hlog : log2_exact lm.
Notation L := (B32_Laws lm Hlog).

Lemma rebuild_drift b (wfs : list (T N)) nw K w : wellFormed N wfs nw K -> Contents N src K nw wfs w ->
  -64 <= b <= 64 ->
  (forall x : f32, In x wfs -> is_finite x = true /\ (Rabs (B2R x) <= bpow radix2 b)%R) ->
  exists og, zlen og = zlen wfs /\
    (forall sr fade, wt_updateSamplerate N src dbg w sr fade = orNull (wt_build N src dbg og nw sr fade)) /\
    forall i (x y : f32), znth og i = Ok x -> znth wfs i = Ok y ->
      is_finite x = true /\ (Rabs (B2R x - B2R y) <= bpow radix2 (K + b - 22))%R.
Proof.
  intros (HK & Hnw & Hl & Hm) C Hb Hr. assert (HK' := ct_K _ _ _ _ _ _ C).
  assert (Hp := pow2_pos K ltac:(lia)).
  destruct (rebuild_at N src dbg K nw wfs w Hnw Hl Hm C) as (og & Er & Lo & Hu & H).
  exists og. split; [assumption|]. split; [assumption|].
  intros a x y Hx Hy. assert (Ra := znth_range _ _ _ _ Hy).
  assert (E : a = (a / 2 ^ K) * 2 ^ K + a mod 2 ^ K) by (rewrite Z.mul_comm; apply Z.div_mod; lia).
  assert (Hmo : 0 <= a mod 2 ^ K < 2 ^ K) by (apply Z.mod_pos_bound; lia).
  assert (Hd : 0 <= a / 2 ^ K < nw).
  { split; [apply Z.div_pos; lia|]. apply Z.div_lt_upper_bound; lia. }
  specialize (H _ _ Hd Hmo). rewrite <- E in H. cbv zeta in H.
  assert (Hin : forall c, 0 <= c < zlen wfs -> is_finite (at_ (N := N) wfs c) = true /\ (Rabs (B2R (at_ (N := N) wfs c)) <= bpow radix2 b)%R).
  { intros c Hc. apply Hr. eapply znth_In. apply (znth_at N wfs c Hc). }
  assert (Hmo1 : 0 <= (a mod 2 ^ K + 1) mod 2 ^ K < 2 ^ K) by (apply Z.mod_pos_bound; lia).
  destruct (Hin a Ra) as [F0 R0]. destruct (Hin (a / 2 ^ K * 2 ^ K + (a mod 2 ^ K + 1) mod 2 ^ K)) as [F1 R1]; [nia|].
  apply at_znth in Hx. apply at_znth in Hy. rewrite <- Hx, <- Hy. rewrite H.
  exact (seg_rebuilt lm b K (a mod 2 ^ K) (at_ (N := N) wfs a)
     (at_ (N := N) wfs (a / 2 ^ K * 2 ^ K + (a mod 2 ^ K + 1) mod 2 ^ K)) Hb HK' Hmo F0 F1 R0 R1).
Qed.

Lemma ask_app ds1 : forall w w1 ms1 d w2 m, ask N dbg w ds1 = Ok (w1, ms1) ->
  wt_findMipMapIndices N dbg w1 d = Ok (w2, m) -> exists ds ms, ask N dbg w ds = Ok (w2, ms).
Proof.
  induction ds1 as [|d1 ds1 IH]; intros w w1 ms1 d w2 m H1 H2; cbn [ask] in H1.
  - injection H1 as <- _. exists [d], [m]. cbn [ask]. rewrite H2. reflexivity.
  - apply bind_ok in H1. destruct H1 as ((wa & ma) & Ea & H1). apply bind_ok in H1. destruct H1 as ((wb & mb) & Eb & H1).
    injection H1 as <- _. destruct (IH _ _ _ _ _ _ Eb H2) as (ds & ms & E). exists (d1 :: ds). eexists. cbn [ask]. rewrite Ea. cbn [bind].
    rewrite E. reflexivity.
Qed.

Lemma drift (wfs : list (T N)) nw K (sr0 fade0 : f32) w0 n w : wellFormed N wfs nw K ->
  wt_build N src dbg wfs nw sr0 fade0 = Ok (Some w0) ->
  (forall x : f32, In x wfs -> is_finite x = true /\ (-1 <= B2R x <= 1)%R) ->
  later N src dbg w0 n w -> (INR n * IZR (2 ^ K) / IZR (2 ^ 21) <= 1)%R ->
  exists og sr fade w1 ds ms, zlen og = zlen wfs /\ wt_build N src dbg og nw sr fade = Ok (Some w1) /\
    ask N dbg w1 ds = Ok (w, ms) /\
    forall i (x y : f32), znth og i = Ok x -> znth wfs i = Ok y ->
      is_finite x = true /\ (Rabs (B2R x - B2R y) <= INR n * IZR (2 ^ K) / IZR (2 ^ 21))%R.
Proof.
  intros W Hb Hr H. assert (W' := W). destruct W' as (HK & Hnw & Hl & Hm).
  assert (Hwfs : forall i (y : f32), znth wfs i = Ok y -> is_finite y = true /\ (-1 <= B2R y <= 1)%R).
  { intros i y Hy. apply Hr. eapply znth_In. exact Hy. }
  induction H as [|n wa d wb m H IH E|n wa sr fade wb H IH E]; intros Hn.
  - exists wfs, sr0, fade0, w0, [], []. split; [reflexivity|]. split; [exact Hb|]. split; [reflexivity|].
    intros i x y Hx Hy. rewrite Hx in Hy. injection Hy as <-. split; [apply (Hwfs i x Hx)|].
    rewrite Rminus_diag_eq by reflexivity. rewrite Rabs_R0. cbn [INR]. unfold Rdiv. rewrite !Rmult_0_l. lra.
  - destruct (IH Hn) as (og & sr & fade & w1 & ds & ms & A1 & A2 & A3 & A4).
    destruct (ask_app _ _ _ _ _ _ _ A3 E) as (ds' & ms' & A5).
    exists og, sr, fade, w1, ds', ms'. auto.
  - assert (HP : (0 < IZR (2 ^ K) / IZR (2 ^ 21))%R).
    { apply Rmult_lt_0_compat; [apply IZR_lt, pow2_pos; lia|]. apply Rinv_0_lt_compat, IZR_lt. lia. }
    assert (Es : (INR (S n) * IZR (2 ^ K) / IZR (2 ^ 21) = INR n * IZR (2 ^ K) / IZR (2 ^ 21) + IZR (2 ^ K) / IZR (2 ^ 21))%R).
    { rewrite S_INR. field. apply IZR_neq. lia. }
    rewrite Es in *.
    destruct (IH ltac:(lra)) as (og & sr1 & fade1 & w1 & ds & ms & A1 & A2 & A3 & A4).
    assert (Wo : wellFormed N og nw K) by (unfold wellFormed; repeat split; lia).
    destruct (wt_build_some N src dbg L og nw sr1 fade1 K w1 HK Hnw (eq_trans A1 Hl) Hm A2) as [C0 _].
    assert (C := ask_contents _ _ _ _ _ _ _ _ _ _ C0 A3). assert (HK' := ct_K _ _ _ _ _ _ C).
    destruct (rebuild_drift 1 og nw K wa Wo C ltac:(lia)) as (og' & L' & U' & D').
    { intros x Hx. apply In_znth_ex in Hx. destruct Hx as (i & Hx).
      assert (Ri := znth_range _ _ _ _ Hx). destruct (znth_ok _ wfs i) as [y Hy]; [rewrite <- A1; exact Ri|].
      destruct (A4 i x y Hx Hy) as [Fx Dx]. destruct (Hwfs i y Hy) as [_ Ry]. split; [exact Fx|].
      change (bpow radix2 1) with 2%R. apply Rabs_le_inv in Dx. apply Rabs_le. lra. }
    rewrite U' in E. destruct (wt_build N src dbg og' nw sr fade) as [[w2|]|] eqn:Eb; try discriminate.
    cbn [orNull] in E. injection E as ->.
    exists og', sr, fade, wb, [], []. split; [lia|]. split; [exact Eb|]. split; [reflexivity|].
    intros i x y Hx Hy. assert (Ri := znth_range _ _ _ _ Hy).
    destruct (znth_ok _ og i) as [z Hz]; [rewrite A1; exact Ri|].
    destruct (D' i x z Hx Hz) as [Fx Dx]. destruct (A4 i z y Hz Hy) as [_ Dz]. split; [exact Fx|].
    assert (Eq : bpow radix2 (K + 1 - 22) = (IZR (2 ^ K) / IZR (2 ^ 21))%R).
    { replace (K + 1 - 22) with (K + -21) by lia. rewrite bpow_plus, bpow_Z by lia. reflexivity. }
    rewrite Eq in Dx. apply Rabs_le_inv in Dx. apply Rabs_le_inv in Dz. apply Rabs_le. lra.
Qed.
End Drift.

Theorem C48_drift : forall lm src dbg (wfs : list (T (B32 lm))) nw K (sr0 fade0 : f32) w0 n w,
  log2_exact lm -> wellFormed (B32 lm) wfs nw K ->
  wt_build (B32 lm) src dbg wfs nw sr0 fade0 = Ok (Some w0) ->
  (forall x : f32, In x wfs -> is_finite x = true /\ (-1 <= B2R x <= 1)%R) ->
  later (B32 lm) src dbg w0 n w -> (INR n * IZR (2 ^ K) / IZR (2 ^ 21) <= 1)%R ->
  exists og sr fade w1 ds ms, zlen og = zlen wfs /\
    wt_build (B32 lm) src dbg og nw sr fade = Ok (Some w1) /\ ask (B32 lm) dbg w1 ds = Ok (w, ms) /\
    forall i (x y : f32), znth og i = Ok x -> znth wfs i = Ok y ->
      is_finite x = true /\ (Rabs (B2R x - B2R y) <= INR n * IZR (2 ^ K) / IZR (2 ^ 21))%R.
Proof. intros. eapply drift; eassumption. Qed.
Print Assumptions C48_drift.

(** such tables exist, for any number of changes that the bound allows (here 1000) *)
Example C48_case : forall lm src dbg n, log2_exact lm -> resamplerOk (B32 lm) src -> (n <= 1000)%nat ->
  let wfs := List.map f32_ofZ [0; 1; 0; -1] : list (T (B32 lm)) in
  wellFormed (B32 lm) wfs 1 2 /\
  (forall x : f32, In x wfs -> is_finite x = true /\ (-1 <= B2R x <= 1)%R) /\
  (INR n * IZR (2 ^ 2) / IZR (2 ^ 21) <= 1)%R /\
  exists w0 w, wt_build (B32 lm) src dbg wfs 1 (f32_ofZ 48000) (defaultFade (B32 lm)) = Ok (Some w0) /\
    later (B32 lm) src dbg w0 n w.
Proof.
  intros lm src dbg n Hlog Hs Hn wfs.
  assert (W : wellFormed (B32 lm) wfs 1 2) by (unfold wellFormed, int_max; repeat split; cbn; lia).
  split; [exact W|]. split.
  { intros x Hx. cbn in Hx. destruct Hx as [<-|[<-|[<-|[<-|[]]]]]; (split; [reflexivity|vm_compute; lra]). }
  split.
  { assert (INR n <= INR 1000)%R by (apply le_INR; lia). rewrite (INR_IZR_INZ 1000) in H.
    change (Z.of_nat 1000) with 1000 in H. change (2 ^ 21) with 2097152. change (2 ^ 2) with 4. lra. }
  assert (Bu : forall og : list (T (B32 lm)), zlen og = 4 ->
    exists w, wt_build (B32 lm) src dbg og 1 (f32_ofZ 48000) (defaultFade (B32 lm)) = Ok (Some w) /\
      Contents (B32 lm) src 2 1 og w).
  { intros og Lg. destruct (wt_build_ok (B32 lm) src dbg (B32_Laws lm Hlog) og 1 (f32_ofZ 48000) (defaultFade (B32 lm)) 2 240)
      as (w & E & C & _); auto; try lia; try reflexivity; try (unfold int_max; lia). eauto. }
  destruct (Bu wfs eq_refl) as (w0 & E0 & C0). exists w0.
  cut (exists w og, zlen og = 4 /\ Contents (B32 lm) src 2 1 og w /\ later (B32 lm) src dbg w0 n w).
  { intros (w & _ & _ & _ & H). eauto. }
  clear Hn. induction n as [|n (w & og & Lg & C & H)].
  - exists w0, wfs. split; [reflexivity|]. split; [exact C0|constructor].
  - destruct (rebuild_at (B32 lm) src dbg 2 1 og w ltac:(lia) Lg ltac:(unfold int_max; lia) C) as (og' & _ & L' & U & _).
    destruct (Bu og' ltac:(congruence)) as (w' & E' & C'). exists w', og'.
    split; [congruence|]. split; [exact C'|]. eapply later_update; [exact H|].
    rewrite U, E'. reflexivity.
Qed.
