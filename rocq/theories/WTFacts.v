(** * WTFacts: shape and contents of the tables, any number system with the index laws *)
From Coq Require Import ZArith List Bool Reals Lia Lra.
From Flocq Require Import Core.
From Verif Require Import Num Maths CrossFader Wavetable NumFacts Laws CFFacts.
Import ListNotations.
Local Open Scope Z_scope.

Section WT.
Variable N : Num.

(** [nth] with the zero default, used only inside its range *)
Definition at_ (l : list (T N)) (i : Z) : T N := nth (Z.to_nat i) l (t0 N).
Lemma znth_at l i : 0 <= i < zlen l -> znth l i = Ok (at_ l i).
Proof. intros H. now apply znth_nth. Qed.
Lemma at_znth l i x : znth l i = Ok x -> at_ l i = x.
Proof. intros H. assert (R := znth_range _ _ _ _ H). rewrite znth_at in H by assumption. congruence. Qed.

Lemma zlen_phaseVector len : 0 <= len -> zlen (computePhaseVector N len) = len + 1.
Proof. intros H. unfold computePhaseVector. rewrite zlen_map, zlen_zrange. lia. Qed.
Lemma znth_phaseVector len i : 0 <= i <= len ->
  znth (computePhaseVector N len) i = Ok (tdiv N (tofZ N i) (tofZ N len)).
Proof.
  intros H. unfold computePhaseVector. rewrite znth_map, znth_zrange by lia. reflexivity.
Qed.

Record slotOk (len : Z) (s : Slot N) : Prop := {
  so_m : zlen (s_m s) = len; so_q : zlen (s_q s) = len;
  so_md : zlen (s_md s) = len; so_qd : zlen (s_qd s) = len }.

(** contents of a slot built from samples [ys] *)
Record slotOf (ys : list (T N)) (s : Slot N) : Prop := {
  sf_shape : slotOk (zlen ys) s;
  sf_m : forall j, 0 <= j < zlen ys ->
    at_ (s_m s) j =
      computeM N (tdiv N (tofZ N j) (tofZ N (zlen ys))) (tdiv N (tofZ N (j + 1)) (tofZ N (zlen ys)))
                 (at_ ys j) (at_ ys ((j + 1) mod zlen ys));
  sf_q : forall j, 0 <= j < zlen ys ->
    at_ (s_q s) j =
      computeQ N (tdiv N (tofZ N j) (tofZ N (zlen ys))) (tdiv N (tofZ N (j + 1)) (tofZ N (zlen ys)))
                 (at_ ys j) (at_ ys ((j + 1) mod zlen ys));
  sf_md : forall j, 0 <= j < zlen ys ->
    at_ (s_md s) j = tsub N (at_ (s_m s) ((j + 1) mod zlen ys)) (at_ (s_m s) j);
  sf_qd : forall j, 0 <= j < zlen ys - 1 ->
    at_ (s_qd s) j = tsub N (at_ (s_q s) (j + 1)) (at_ (s_q s) j);
  sf_qd_last :
    at_ (s_qd s) (zlen ys - 1) =
      tsub N (tsub N (at_ (s_q s) 0) (at_ (s_q s) (zlen ys - 1))) (at_ (s_m s) 0)
}.

Lemma mapr_at (f : Z -> res (T N)) n l :
  mapr f (zrange 0 n) = Ok l -> zlen l = Z.max 0 n /\ forall j, 0 <= j < n -> f j = Ok (at_ l j).
Proof.
  intros H. assert (Hl := mapr_zlen _ _ _ _ _ H). rewrite zlen_zrange in Hl.
  split; [lia|]. intros j Hj.
  replace j with (0 + j) at 1 by lia. eapply mapr_zrange_znth; [exact H|]. apply znth_at. lia.
Qed.

Lemma computeMQVector_ok ys : 1 <= zlen ys ->
  exists s, computeMQVector N (computePhaseVector N (zlen ys)) ys = Ok s /\ slotOf ys s.
Proof.
  intros Hlen. unfold computeMQVector. set (len := zlen ys) in *.
  assert (Hmq : forall i, In i (zrange 0 len) ->
    mqAt N (computePhaseVector N len) ys i =
    Ok ((fun i =>
        (computeM N (tdiv N (tofZ N i) (tofZ N len)) (tdiv N (tofZ N (i + 1)) (tofZ N len))
                 (at_ ys i) (at_ ys ((i + 1) mod len)),
         computeQ N (tdiv N (tofZ N i) (tofZ N len)) (tdiv N (tofZ N (i + 1)) (tofZ N len))
                 (at_ ys i) (at_ ys ((i + 1) mod len)))) i)).
  { intros i Hi. apply In_zrange in Hi. unfold mqAt. fold len.
    rewrite Z.rem_mod_nonneg by lia.
    assert (Hm := Z.mod_pos_bound (i + 1) len ltac:(lia)).
    rewrite (znth_at ys i) by (fold len; lia).
    rewrite (znth_at ys ((i + 1) mod len)) by (fold len; lia).
    rewrite !znth_phaseVector by lia. reflexivity. }
  rewrite (mapr_map _ _ _ _ _ Hmq). cbn [bind]. rewrite !map_map. cbn [fst snd].
  set (m := map _ (zrange 0 len)). set (q := map _ (zrange 0 len)).
  assert (Lm : zlen m = len) by (unfold m; rewrite zlen_map, zlen_zrange; lia).
  assert (Lq : zlen q = len) by (unfold q; rewrite zlen_map, zlen_zrange; lia).
  assert (Hd : forall v, zlen v = len -> forall i, In i (zrange 0 len) ->
    diffAt N v i = Ok ((fun i => tsub N (at_ v ((i + 1) mod len)) (at_ v i)) i)).
  { intros v Hv i Hi. apply In_zrange in Hi. unfold diffAt. rewrite Hv.
    rewrite Z.rem_mod_nonneg by lia.
    assert (Hm := Z.mod_pos_bound (i + 1) len ltac:(lia)).
    rewrite !znth_at by lia. reflexivity. }
  rewrite (mapr_map _ _ _ _ _ (Hd m Lm)), (mapr_map _ _ _ _ _ (Hd q Lq)). cbn [bind].
  set (qd := map _ (zrange 0 len)). set (md := map _ (zrange 0 len)).
  assert (Lmd : zlen md = len) by (unfold md; rewrite zlen_map, zlen_zrange; lia).
  assert (Lqd : zlen qd = len) by (unfold qd; rewrite zlen_map, zlen_zrange; lia).
  rewrite (znth_at qd (len - 1)) by lia. rewrite (znth_at m 0) by lia. cbn [bind].
  rewrite zset_ok by lia. cbn [bind]. eexists; split; [reflexivity|].
  assert (Mat : forall f j, 0 <= j < len -> at_ (map f (zrange 0 len)) j = f j).
  { intros f j Hj. apply at_znth. rewrite znth_map, znth_zrange by lia. reflexivity. }
  constructor; cbn [s_m s_q s_md s_qd]; fold len.
  - constructor; cbn [s_m s_q s_md s_qd]; auto. now rewrite zlen_nset.
  - intros j Hj. unfold m. now rewrite Mat.
  - intros j Hj. unfold q. now rewrite Mat.
  - intros j Hj. unfold md at 1. now rewrite Mat.
  - intros j Hj. apply at_znth. rewrite znth_nset by lia.
    destruct (Z.eqb_spec j (len - 1)); [lia|]. rewrite znth_at by lia. f_equal.
    unfold qd. rewrite Mat by lia. now rewrite (Z.mod_small (j + 1)) by lia.
  - apply at_znth. rewrite znth_nset by lia. rewrite Z.eqb_refl. f_equal. f_equal.
    unfold qd. rewrite Mat by lia. replace (len - 1 + 1) with len by lia.
    now rewrite Z.mod_same by lia.
Qed.

(** contents of table entry [k] (length 2^(K-k)) *)
Definition slotAt (K k : Z) (s : Slot N) : Prop :=
  exists ys, zlen ys = 2 ^ (K - k) /\
    computeMQVector N (computePhaseVector N (2 ^ (K - k))) ys = Ok s.

Record WTok (K nw : Z) (w : WT N) : Prop := {
  wo_K : 2 <= K <= 18;
  wo_nw : 1 <= nw /\ nw * 2 ^ K <= int_max;
  wo_slots : zlen (wt_slots w) = nw;
  wo_num : forall i ws, znth (wt_slots w) i = Ok ws -> zlen ws = K - 1;
  wo_slot : forall i ws k s, znth (wt_slots w) i = Ok ws -> znth ws k = Ok s -> slotAt K k s;
  wo_phn : zlen (wt_ph w) = K - 1;
  wo_ph : forall k, 0 <= k < K - 1 -> znth (wt_ph w) k = Ok (computePhaseVector N (2 ^ (K - k)));
  wo_scale : zlen (cf_scale (wt_cf w)) = K - 1
}.

Lemma slotAt_of K k s : 0 <= k <= K -> slotAt K k s -> exists ys, zlen ys = 2 ^ (K - k) /\ slotOf ys s.
Proof.
  intros Hk (ys & H1 & H2). exists ys; split; [assumption|].
  assert (0 < 2 ^ (K - k)) by (apply pow2_pos; lia).
  destruct (computeMQVector_ok ys) as (s' & H3 & H4); [lia|].
  rewrite H1 in H3. rewrite H2 in H3. inversion H3; subst. assumption.
Qed.

Lemma wt_slot_ok K nw w i k : WTok K nw w -> 0 <= i < nw -> 0 <= k < K - 1 ->
  exists s ys, wt_slot N w i k = Ok s /\ slotOf ys s /\ zlen ys = 2 ^ (K - k).
Proof.
  intros H Hi Hk. unfold wt_slot.
  destruct (znth_ok _ (wt_slots w) i) as [ws Hws]; [rewrite (wo_slots _ _ _ H); lia|].
  rewrite Hws. cbn [bind].
  destruct (znth_ok _ ws k) as [s Hs]; [rewrite (wo_num _ _ _ H _ _ Hws); lia|].
  rewrite Hs. destruct (slotAt_of K k s) as (ys & H1 & H2).
  - lia.
  - exact (wo_slot _ _ _ H _ _ _ _ Hws Hs).
  - eauto.
Qed.

Lemma wt_len_ok K nw w k : WTok K nw w -> 0 <= k < K - 1 ->
  wt_waveformLen N w k = Ok (2 ^ (K - k)).
Proof.
  intros H Hk. unfold wt_waveformLen, wt_m.
  destruct (wt_slot_ok K nw w 0 k H) as (s & ys & E & S & Ly); [assert (A := wo_nw _ _ _ H); lia|assumption|].
  rewrite E. cbn [bind]. f_equal. rewrite (so_m _ _ (sf_shape _ _ S)). assumption.
Qed.

End WT.
Arguments slotOf {N}. Arguments slotOk {N}. Arguments at_ {N}. Arguments WTok {N}. Arguments slotAt {N}.
