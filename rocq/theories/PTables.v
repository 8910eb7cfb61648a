(** * PTables: contents of the tables through build, play and updateSamplerate *)
From Coq Require Import ZArith List Bool Reals Lia Lra.
From Flocq Require Import Core.
From Verif Require Import Num Maths CrossFader Wavetable Spec SpecC SpecT NumFacts Laws CFFacts WTFacts
  BuildFacts OscHist RNum RLaws.
Import ListNotations.
Local Open Scope Z_scope.

Section Gen.
Variable N : Num.
Variable src : Resampler N.

Lemma waveform_at wfs len i j : 0 < len -> 0 <= i -> 0 <= j < len ->
  at_ (waveform N wfs len i) j = at_ wfs (i * len + j).
Proof.
  intros Hlen Hi Hj. unfold at_, waveform.
  assert (E : Z.to_nat (i * len + j) = (Z.to_nat (i * len) + Z.to_nat j)%nat) by nia.
  rewrite E. assert (Hn : (Z.to_nat j < Z.to_nat len)%nat) by lia.
  generalize dependent (Z.to_nat len). generalize (Z.to_nat (i * len)). generalize (Z.to_nat j).
  clear. intros j a n Hn. revert wfs a. induction wfs as [|x wfs IH]; intros a.
  - rewrite skipn_nil, firstn_nil. now destruct j, (a + _)%nat.
  - destruct a as [|a]; [|apply IH]. cbn [skipn Nat.add].
    clear IH. revert n Hn wfs x. induction j as [|j IH]; intros [|n] Hn wfs x; try lia; [reflexivity|].
    cbn [firstn nth]. destruct wfs as [|y wfs]; [rewrite firstn_nil; now destruct j|]. apply IH; lia.
Qed.

Lemma waveform_ext (l l' : list (T N)) len nw : 0 < len -> zlen l = nw * len -> zlen l' = nw * len ->
  (forall i, 0 <= i < nw -> waveform N l len i = waveform N l' len i) -> l = l'.
Proof.
  intros Hlen H1 H2 H. apply list_ext_znth; [lia|]. intros a Ha.
  rewrite (znth_at N l), (znth_at N l') by lia. f_equal.
  assert (E : a = (a / len) * len + a mod len) by (rewrite Z.mul_comm; apply Z.div_mod; lia).
  assert (Hm : 0 <= a mod len < len) by (apply Z.mod_pos_bound; lia).
  assert (Hd : 0 <= a / len < nw).
  { split; [apply Z.div_pos; lia|]. apply Z.div_lt_upper_bound; lia. }
  rewrite E, <- !waveform_at by lia. now rewrite H.
Qed.

(** tables are a function of the samples *)
Lemma Contents_same K nw wfs w w' : Contents N src K nw wfs w -> Contents N src K nw wfs w' ->
  sameTables N w w'.
Proof.
  intros C C'. split.
  - apply list_ext_znth; [rewrite (ct_nw _ _ _ _ _ _ C), (ct_nw _ _ _ _ _ _ C'); reflexivity|].
    intros i Hi. rewrite (ct_nw _ _ _ _ _ _ C') in Hi.
    destruct (znth_ok _ (wt_slots w) i) as [a Ha]; [rewrite (ct_nw _ _ _ _ _ _ C); lia|].
    destruct (znth_ok _ (wt_slots w') i) as [b Hb]; [rewrite (ct_nw _ _ _ _ _ _ C'); lia|].
    rewrite Ha, Hb. f_equal.
    assert (La := ct_num _ _ _ _ _ _ C _ _ Ha). assert (Lb := ct_num _ _ _ _ _ _ C' _ _ Hb).
    apply list_ext_znth; [lia|]. intros k Hk.
    destruct (znth_ok _ a k) as [s Hs]; [lia|]. destruct (znth_ok _ b k) as [s' Hs']; [lia|].
    rewrite Hs, Hs'.
    destruct (ct_slots _ _ _ _ _ _ C _ _ Ha _ _ Hs) as [_ E1].
    destruct (ct_slots _ _ _ _ _ _ C' _ _ Hb _ _ Hs') as [_ E2]. congruence.
  - apply list_ext_znth; [rewrite (ct_phn _ _ _ _ _ _ C), (ct_phn _ _ _ _ _ _ C'); reflexivity|].
    intros i Hi. rewrite (ct_phn _ _ _ _ _ _ C') in Hi.
    rewrite (ct_ph _ _ _ _ _ _ C i), (ct_ph _ _ _ _ _ _ C' i) by lia. reflexivity.
Qed.

Lemma Contents_tables K nw wfs w w' : Contents N src K nw wfs w -> sameTables N w w' ->
  cf_scale (wt_cf w') = cf_scale (wt_cf w) -> Contents N src K nw wfs w'.
Proof.
  intros [A1 A2 A3 A4 A5 A6 A7] [E1 E2] E3. constructor; rewrite ?E1, ?E2, ?E3; auto.
Qed.

Lemma newIndices_scale dbg c d c' m : newIndices N dbg c d = Ok (c', m) -> cf_scale c' = cf_scale c.
Proof.
  unfold newIndices. intros H. apply bind_ok in H. destruct H as (u & _ & H).
  destruct (negb (cf_left c =? 0)).
  - apply bind_ok in H. destruct H as (? & _ & H). apply bind_ok in H. destruct H as (l & _ & H).
    injection H as <- _. destruct (_ && _), (l =? 0); reflexivity.
  - destruct (u =? cf_next c).
    + apply bind_ok in H. destruct H as (? & _ & H). now injection H as <- _.
    + now injection H as <- _.
Qed.

Lemma find_contents dbg K nw wfs w d w' m : Contents N src K nw wfs w ->
  wt_findMipMapIndices N dbg w d = Ok (w', m) -> Contents N src K nw wfs w'.
Proof.
  intros C H. unfold wt_findMipMapIndices in H. apply bind_ok in H. destruct H as ((c & mm) & E & H).
  injection H as <- _. apply (Contents_tables K nw wfs w); auto; [split; reflexivity|].
  cbn [wt_cf]. now apply newIndices_scale in E.
Qed.

(** the slot behind the accessors *)
Lemma slot_of K nw wfs w i k : Contents N src K nw wfs w -> 0 <= i < nw -> 0 <= k <= K - 2 ->
  exists s, wt_slot N w i k = Ok s /\ slotOf (mipmap N src (waveform N wfs (2 ^ K) i) k) s /\
    zlen (mipmap N src (waveform N wfs (2 ^ K) i) k) = 2 ^ (K - k) /\
    computeMQVector N (computePhaseVector N (2 ^ (K - k))) (mipmap N src (waveform N wfs (2 ^ K) i) k) = Ok s.
Proof.
  intros C Hi Hk. assert (HK := ct_K _ _ _ _ _ _ C). unfold wt_slot.
  destruct (znth_ok _ (wt_slots w) i) as [ws Hws]; [rewrite (ct_nw _ _ _ _ _ _ C); lia|].
  rewrite Hws. cbn [bind].
  destruct (znth_ok _ ws k) as [s Hs]; [rewrite (ct_num _ _ _ _ _ _ C _ _ Hws); lia|].
  rewrite Hs. exists s. split; [reflexivity|].
  destruct (ct_slots _ _ _ _ _ _ C _ _ Hws _ _ Hs) as [E1 E2]. split; [|auto].
  destruct (computeMQVector_ok N (mipmap N src (waveform N wfs (2 ^ K) i) k)) as (s' & E3 & E4).
  { rewrite E1. assert (A := pow2_pos (K - k) ltac:(lia)). lia. }
  rewrite E1, E2 in E3. injection E3 as <-. assumption.
Qed.
End Gen.

(** ** Exact arithmetic *)
Section Exact.
Variable src : Resampler RNum.
Variable dbg : bool.
Local Open Scope R_scope.

Lemma computeM_R x0 x1 y0 y1 : computeM RNum x0 x1 y0 y1 = (y1 - y0) / (x1 - x0).
Proof. reflexivity. Qed.
Lemma computeQ_R x0 x1 y0 y1 : computeQ RNum x0 x1 y0 y1 = (y0 * (x1 - x0) - x0 * (y1 - y0)) / (x1 - x0).
Proof. reflexivity. Qed.

Lemma segment_R (ys : list (T RNum)) (s : Slot RNum) j : (1 <= zlen ys)%Z -> slotOf ys s -> (0 <= j < zlen ys)%Z ->
  at_ (N := RNum) (s_m s) j * (IZR j / IZR (zlen ys)) + at_ (N := RNum) (s_q s) j = at_ (N := RNum) ys j /\
  at_ (N := RNum) (s_m s) j * (IZR (j + 1) / IZR (zlen ys)) + at_ (N := RNum) (s_q s) j = at_ (N := RNum) ys ((j + 1) mod zlen ys).
Proof.
  intros Hl S Hj. rewrite (sf_m _ _ _ S), (sf_q _ _ _ S) by assumption.
  rewrite computeM_R, computeQ_R. cbn [tdiv tofZ RNum].
  set (y0 := at_ (N := RNum) ys j). set (y1 := at_ (N := RNum) ys ((j + 1) mod zlen ys)).
  change (T RNum) with R in *.
  rewrite plus_IZR. assert (IZR (zlen ys) <> 0) by (apply not_0_IZR; lia).
  split; field; split; auto; lra.
Qed.

Lemma jump_R (ys : list (T RNum)) (s : Slot RNum) j : (1 <= zlen ys)%Z -> slotOf ys s -> (0 <= j < zlen ys)%Z ->
  at_ (N := RNum) (s_qd s) j + at_ (N := RNum) (s_md s) j * (IZR (j + 1) / IZR (zlen ys)) = 0.
Proof.
  intros Hl S Hj. set (len := zlen ys) in *.
  destruct (segment_R ys s j Hl S Hj) as [_ A]. fold len in A.
  rewrite (sf_md _ _ _ S) by assumption. fold len. cbn [tsub RNum].
  destruct (Z.eq_dec j (len - 1)) as [->|Hne].
  - assert (Q := sf_qd_last _ _ _ S). fold len in Q. rewrite Q. cbn [tsub RNum].
    replace ((len - 1 + 1) mod len)%Z with 0%Z in * by (rewrite Z.sub_add, Z.mod_same by lia; reflexivity).
    destruct (segment_R ys s 0 Hl S ltac:(lia)) as [B _]. fold len in B.
    replace (len - 1 + 1)%Z with len in * by lia.
    change (T RNum) with R in *.
    replace (IZR 0 / IZR len) with 0 in B by (unfold Rdiv; rewrite Rmult_0_l; reflexivity).
    replace (IZR len / IZR len) with 1 in * by (field; apply not_0_IZR; lia). lra.
  - assert (Q := sf_qd _ _ _ S j ltac:(lia)). fold len in Q. rewrite Q. cbn [tsub RNum].
    replace ((j + 1) mod len)%Z with (j + 1)%Z in * by (rewrite Z.mod_small by lia; reflexivity).
    destruct (segment_R ys s (j + 1) Hl S ltac:(lia)) as [B _]. fold len in B.
    change (T RNum) with R in *. lra.
Qed.

Lemma rebuild_R K nw wfs w : (1 <= nw)%Z -> zlen wfs = (nw * 2 ^ K)%Z -> (nw * 2 ^ K <= int_max)%Z ->
  Contents RNum src K nw wfs w -> rebuildWaveforms RNum dbg w = Ok wfs.
Proof.
  intros Hnw Hl Hm C. assert (W := Contents_WTok _ _ _ _ _ _ Hnw Hm C).
  assert (HK := ct_K _ _ _ _ _ _ C).
  destruct (rebuild_ok RNum dbg K nw w W) as (og & E & Lo & H). rewrite E. f_equal.
  assert (Hp := pow2_pos K ltac:(lia)).
  apply (waveform_ext RNum og wfs (2 ^ K) nw); auto. intros i Hi.
  destruct (slot_of _ _ _ _ _ _ i 0 C Hi ltac:(lia)) as (s & Es & S & Ls & _).
  rewrite Z.sub_0_r in *. rewrite (H i s Hi Es). cbn in S.
  set (ys := waveform RNum wfs (2 ^ K) i) in *. change (mipmap RNum src ys 0) with ys in *.
  destruct (sf_shape _ _ _ S) as [LM LQ _ _].
  assert (LR : zlen (rebuildLoop RNum (s_m s) (s_q s) (computePhaseVector RNum (2 ^ K))) = (2 ^ K)%Z).
  { rewrite zlen_rebuildLoop; rewrite ?zlen_phaseVector; lia. }
  apply list_ext_znth; [lia|].
  intros j Hj. rewrite (znth_at RNum ys) by lia. rewrite (znth_at RNum (rebuildLoop _ _ _ _)) by lia.
  f_equal. rewrite at_rebuildLoop; rewrite ?zlen_phaseVector; try lia.
  assert (Ep := znth_phaseVector RNum (2 ^ K) j ltac:(lia)). apply at_znth in Ep. rewrite Ep.
  destruct (segment_R ys s j ltac:(lia) S ltac:(lia)) as [A _]. rewrite Ls in A. exact A.
Qed.

Lemma update_R K nw wfs w sr fade : (1 <= nw)%Z -> zlen wfs = (nw * 2 ^ K)%Z -> (nw * 2 ^ K <= int_max)%Z ->
  Contents RNum src K nw wfs w ->
  wt_updateSamplerate RNum src dbg w sr fade = orNull (wt_build RNum src dbg wfs nw sr fade).
Proof.
  intros Hnw Hl Hm C. unfold wt_updateSamplerate. rewrite (rebuild_R K nw wfs) by assumption. cbn [bind].
  unfold wt_numWaveforms. rewrite (ct_nw _ _ _ _ _ _ C).
  destruct (wt_build RNum src dbg wfs nw sr fade) as [[w'|]|f]; reflexivity.
Qed.

Lemma made_contents wfs nw K w : wellFormed RNum wfs nw K -> madeFrom RNum src dbg wfs nw w ->
  Contents RNum src K nw wfs w.
Proof.
  intros (HK & Hnw & Hl & Hm) H. induction H as [sr fade w H|w d w' m H IH E|w sr fade w' H IH E].
  - now destruct (wt_build_some RNum src dbg R_Laws wfs nw sr fade K w HK Hnw Hl Hm H).
  - eapply find_contents; eassumption.
  - rewrite (update_R K nw wfs) in E by assumption.
    destruct (wt_build RNum src dbg wfs nw sr fade) as [[w2|]|] eqn:Eb; try discriminate.
    injection E as <-. now destruct (wt_build_some RNum src dbg R_Laws wfs nw sr fade K w2 HK Hnw Hl Hm Eb).
Qed.
End Exact.
