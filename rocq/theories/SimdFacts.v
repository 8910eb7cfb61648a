(** * SimdFacts: batched loops update exactly the lanes they should, any number system *)
From Coq Require Import ZArith List Bool Lia Arith.
From Verif Require Import Num Maths CrossFader Wavetable Filters Osc NumFacts.
Import ListNotations.

Section Simd.
Variable N : Num.
Variable cfg : Cfg.
Variable F : Filt N.
Notation B := (batch cfg).
Notation n := (kNumCoeffs N F).
Notation upper := (kUpper N cfg F).
Hypothesis HB : (1 <= B)%nat.

(** all four coefficient lists have the same length *)
Record filtOk : Prop := {
  fo_z : length (f_z F) = n; fo_p : length (f_zp2 F) = n; fo_e : length (f_ez F) = n }.
Hypothesis HF : filtOk.

Notation whole := (kWholeSize B n).
Notation part := (kPartialSize B n).

Lemma part_lt : (part < B)%nat.
Proof. unfold kPartialSize. apply Nat.mod_upper_bound. lia. Qed.
Lemma whole_eq : whole = (n / B * B)%nat.
Proof.
  unfold kWholeSize, kPartialSize. assert (H := Nat.div_mod n B ltac:(lia)). lia.
Qed.
Lemma whole_part : (whole + part = n)%nat.
Proof.
  rewrite whole_eq. unfold kPartialSize. assert (H := Nat.div_mod n B ltac:(lia)). lia.
Qed.
Lemma n_le_upper : (n <= upper)%nat.
Proof.
  unfold kUpper, kUpperNumCoeffs. assert (H := Nat.div_mod n B ltac:(lia)).
  assert (H1 := Nat.mod_upper_bound n B ltac:(lia)).
  destruct (Nat.eqb_spec (n / B) 0) as [E|E].
  - rewrite E in H. lia.
  - destruct (Nat.eqb_spec (n mod B) 0); nia.
Qed.
Lemma whole_le_upper : (whole <= upper)%nat.
Proof. assert (H := n_le_upper). assert (H1 := whole_part). lia. Qed.
Lemma partial_le_upper : (0 < part)%nat -> (whole + B <= upper)%nat.
Proof.
  intros Hp. rewrite whole_eq. unfold kUpper, kUpperNumCoeffs.
  unfold kPartialSize in Hp.
  destruct (Nat.eqb_spec (n / B) 0) as [E|E].
  - rewrite E. lia.
  - destruct (Nat.eqb_spec (n mod B) 0); lia.
Qed.

Lemma length_padded l : length l = n -> length (padded N cfg F l) = upper.
Proof.
  intros H. unfold padded. rewrite app_length, repeat_length. assert (A := n_le_upper). lia.
Qed.
Lemma nth_padded l x d : length l = n -> (x < n)%nat -> nth_error (padded N cfg F l) x = Some (nth x l d).
Proof.
  intros H Hx. unfold padded. rewrite nth_error_app1 by lia.
  apply nth_error_nth'. lia.
Qed.
Lemma len_z : length (z_array N cfg F) = upper.
Proof. apply length_padded, fo_z, HF. Qed.
Lemma len_ez : length (exp_z_array N cfg F) = upper.
Proof. apply length_padded, fo_e, HF. Qed.

Notation C := (C N).
Definition zAt (x : nat) : C := nth x (z_array N cfg F) (c0 N).
Definition ezAt (x : nat) : C := nth x (exp_z_array N cfg F) (c0 N).

Lemma zAt_F x : (x < n)%nat -> zAt x = nth x (f_z F) (c0 N).
Proof.
  intros H. unfold zAt, z_array.
  assert (E := nth_padded (f_z F) x (c0 N) (fo_z HF) H).
  apply (nth_error_nth _ _ (c0 N)) in E. exact E.
Qed.
Lemma ezAt_F x : (x < n)%nat -> ezAt x = nth x (f_ez F) (c0 N).
Proof.
  intros H. unfold ezAt, exp_z_array.
  assert (E := nth_padded (f_ez F) x (c0 N) (fo_e HF) H).
  apply (nth_error_nth _ _ (c0 N)) in E. exact E.
Qed.

(** [arr'] is [arr] with [u x] applied to elements lo <= x < hi *)
Definition Upd (lo hi : nat) (u : nat -> C -> C) (arr arr' : list C) : Prop :=
  length arr' = length arr /\
  forall x v, nth_error arr x = Some v ->
    nth_error arr' x = Some (if (lo <=? x)%nat && (x <? hi)%nat then u x v else v).

Lemma Upd_refl lo u arr : Upd lo lo u arr arr.
Proof.
  split; [reflexivity|]. intros x v H. rewrite H.
  destruct (Nat.leb_spec lo x), (Nat.ltb_spec x lo); simpl; try reflexivity; lia.
Qed.
Lemma Upd_trans a b c u arr1 arr2 arr3 : (a <= b <= c)%nat ->
  Upd a b u arr1 arr2 -> Upd b c u arr2 arr3 -> Upd a c u arr1 arr3.
Proof.
  intros Hab [L1 H1] [L2 H2]. split; [congruence|]. intros x v H.
  rewrite (H2 x _ (H1 x v H)).
  destruct (Nat.leb_spec a x), (Nat.ltb_spec x b), (Nat.leb_spec b x), (Nat.ltb_spec x c);
    simpl; try reflexivity; lia.
Qed.

Lemma nth_error_ext_some A (l : list A) x : (x < length l)%nat -> exists v, nth_error l x = Some v.
Proof.
  intros H. destruct (nth_error l x) eqn:E; [eauto|]. apply nth_error_None in E. lia.
Qed.
Lemma nth_error_firstn A (l : list A) k x : (x < k)%nat -> nth_error (firstn k l) x = nth_error l x.
Proof.
  revert l x; induction k as [|k IH]; intros l x H; [lia|].
  destruct l as [|a l]; [reflexivity|]. destruct x as [|x]; [reflexivity|]. simpl. apply IH. lia.
Qed.
Lemma nth_error_skipn A (l : list A) k x : nth_error (skipn k l) x = nth_error l (k + x).
Proof.
  revert l; induction k as [|k IH]; intros l; [reflexivity|].
  destruct l as [|a l]; [now destruct x|]. simpl. apply IH.
Qed.

Lemma length_map2 X Y W (f : X -> Y -> W) l m : length (map2 f l m) = Nat.min (length l) (length m).
Proof. revert m; induction l as [|a l IH]; intros [|b m]; simpl; auto. Qed.
Lemma nth_error_map2 X Y W (f : X -> Y -> W) l m x a b :
  nth_error l x = Some a -> nth_error m x = Some b -> nth_error (map2 f l m) x = Some (f a b).
Proof.
  revert m x; induction l as [|c l IH]; intros [|d m] [|x] H1 H2; simpl in *; try discriminate.
  - congruence.
  - now apply IH.
Qed.

Lemma load_ok a i : (i + B <= length a)%nat ->
  exists v, load N cfg a i = Ok v /\ length v = B /\
    forall x, (x < B)%nat -> nth_error v x = nth_error a (i + x).
Proof.
  intros H. unfold load. destruct (Nat.leb_spec (i + B) (length a)); [|lia].
  eexists; split; [reflexivity|]. split.
  - rewrite firstn_length, skipn_length. lia.
  - intros x Hx. rewrite nth_error_firstn by assumption. apply nth_error_skipn.
Qed.

Lemma store_upd arr i v u : length v = B -> (i + B <= length arr)%nat ->
  (forall x w, (x < B)%nat -> nth_error arr (i + x) = Some w -> nth_error v x = Some (u (i + x)%nat w)) ->
  exists arr', store N arr i v = Ok arr' /\ Upd i (i + B) u arr arr'.
Proof.
  intros Hv Hi H. unfold store. rewrite Hv.
  destruct (Nat.leb_spec (i + B) (length arr)); [|lia].
  eexists; split; [reflexivity|]. split.
  - rewrite !app_length, firstn_length, skipn_length, Hv. lia.
  - intros x w Hx.
    assert (Hlx : (x < length arr)%nat) by (apply nth_error_Some; congruence).
    destruct (Nat.leb_spec i x), (Nat.ltb_spec x (i + B)); simpl.
    + rewrite nth_error_app2; rewrite firstn_length; [|lia].
      rewrite Nat.min_l by lia.
      rewrite nth_error_app1 by lia.
      assert (E : x = (i + (x - i))%nat) by lia.
      rewrite (H (x - i)%nat w); [now rewrite <- E | lia | now rewrite <- E].
    + rewrite nth_error_app2; rewrite firstn_length; [|lia].
      rewrite Nat.min_l by lia.
      rewrite nth_error_app2 by lia. rewrite Hv, nth_error_skipn.
      replace (i + B + (x - i - B))%nat with x by lia. assumption.
    + rewrite nth_error_app1 by (rewrite firstn_length; lia).
      rewrite nth_error_firstn by lia. assumption.
    + lia.
Qed.

Lemma nth_error_zarr x : (x < upper)%nat -> nth_error (z_array N cfg F) x = Some (zAt x).
Proof. intros H. apply nth_error_nth'. rewrite len_z. assumption. Qed.
Lemma nth_error_ezarr x : (x < upper)%nat -> nth_error (exp_z_array N cfg F) x = Some (ezAt x).
Proof. intros H. apply nth_error_nth'. rewrite len_ez. assumption. Qed.

Lemma i0_batch_upd a b c d arr i : length arr = upper -> (i + B <= upper)%nat ->
  exists arr', i0_batch N cfg F a b c d arr i = Ok arr' /\
    Upd i (i + B) (fun x _ => i0_lane N a b c d (ezAt x) (zAt x)) arr arr'.
Proof.
  intros Ha Hi. unfold i0_batch.
  destruct (load_ok (exp_z_array N cfg F) i) as (ve & E1 & E2 & E3); [now rewrite len_ez|].
  destruct (load_ok (z_array N cfg F) i) as (vz & Z1 & Z2 & Z3); [now rewrite len_z|].
  rewrite E1, Z1. cbn [bind].
  apply store_upd.
  - rewrite length_map2. lia.
  - lia.
  - intros x w Hx _. apply nth_error_map2.
    + rewrite E3 by assumption. apply nth_error_ezarr. lia.
    + rewrite Z3 by assumption. apply nth_error_zarr. lia.
Qed.

Lemma sum_batch_upd fwd a pd ph md qd arr i : length arr = upper -> (i + B <= upper)%nat ->
  exists arr', sum_batch N cfg F fwd a pd ph md qd arr i = Ok arr' /\
    Upd i (i + B) (fun x v => sum_lane_upd N fwd a pd ph md qd (zAt x) v) arr arr'.
Proof.
  intros Ha Hi. unfold sum_batch.
  destruct (load_ok (z_array N cfg F) i) as (vz & Z1 & Z2 & Z3); [now rewrite len_z|].
  destruct (load_ok arr i) as (va & A1 & A2 & A3); [now rewrite Ha|].
  rewrite Z1, A1. cbn [bind].
  apply store_upd.
  - rewrite length_map2. lia.
  - lia.
  - intros x w Hx Hw. apply nth_error_map2.
    + rewrite Z3 by assumption. apply nth_error_zarr. lia.
    + rewrite A3 by assumption. assumption.
Qed.

Lemma zset_upd arr (i : nat) y u : (i < length arr)%nat ->
  (forall w, nth_error arr i = Some w -> y = u i w) ->
  exists arr', zset arr (Z.of_nat i) y = Ok arr' /\ Upd i (i + 1) u arr arr'.
Proof.
  intros Hi H. rewrite zset_ok by (unfold zlen; lia). rewrite Nat2Z.id.
  eexists; split; [reflexivity|]. split; [apply length_nset|].
  intros x v Hx. rewrite nth_error_nset, Hx.
  destruct (Nat.eqb_spec x i) as [->|Hne].
  - destruct (Nat.leb_spec i i), (Nat.ltb_spec i (i + 1)); simpl; try lia. f_equal. auto.
  - destruct (Nat.leb_spec i x), (Nat.ltb_spec x (i + 1)); simpl; try lia; reflexivity.
Qed.

Lemma i0_one_upd mp b mn d pd arr i : length arr = upper -> (i < upper)%nat ->
  exists arr', i0_one N cfg F mp b mn d pd arr i = Ok arr' /\
    Upd i (i + 1) (fun x _ => i0_scalar N mp b mn d pd (ezAt x) (zAt x)) arr arr'.
Proof.
  intros Ha Hi. unfold i0_one. rewrite !znth_of_nat.
  rewrite nth_error_ezarr, nth_error_zarr by assumption. cbn [bind].
  apply zset_upd; [lia|]. reflexivity.
Qed.
Lemma sum_one_upd fwd a pd ph md qd arr i : length arr = upper -> (i < upper)%nat ->
  exists arr', sum_one N cfg F fwd a pd ph md qd arr i = Ok arr' /\
    Upd i (i + 1) (fun x v => sum_scalar_upd N fwd a pd ph md qd (zAt x) v) arr arr'.
Proof.
  intros Ha Hi. unfold sum_one. rewrite !znth_of_nat.
  rewrite nth_error_zarr by assumption. cbn [bind].
  destruct (nth_error_ext_some _ arr i) as [w Hw]; [lia|]. rewrite Hw. cbn [bind].
  apply zset_upd; [lia|]. intros w' Hw'. congruence.
Qed.

(** a chain of adjacent updates *)
Lemma fold_upd (f : list C -> nat -> res (list C)) (st : nat) (u : nat -> C -> C) cnt base :
  (base + cnt * st <= upper)%nat ->
  (forall arr i, length arr = upper -> (i + st <= upper)%nat ->
     exists arr', f arr i = Ok arr' /\ Upd i (i + st) u arr arr') ->
  forall arr, length arr = upper ->
  exists arr', foldr f (map (fun k => (base + k * st)%nat) (seq 0 cnt)) arr = Ok arr' /\
    Upd base (base + cnt * st) u arr arr'.
Proof.
  intros Hc Hf arr Ha.
  induction cnt as [|cnt IH].
  - exists arr. split; [reflexivity|]. replace (base + 0 * st)%nat with base by lia. apply Upd_refl.
  - rewrite seq_S, map_app, foldr_app. change (0 + cnt)%nat with cnt.
    destruct IH as (a1 & E1 & U1); [lia|]. rewrite E1. cbn [bind map foldr].
    destruct (Hf a1 (base + cnt * st)%nat) as (a2 & E2 & U2).
    + destruct U1 as [L _]. congruence.
    + lia.
    + rewrite E2. cbn [bind]. exists a2; split; [reflexivity|].
      replace (base + S cnt * st)%nat with (base + cnt * st + st)%nat by lia.
      eapply Upd_trans; [|exact U1|exact U2]. lia.
Qed.

Lemma fold_upd1 (f : list C -> nat -> res (list C)) (u : nat -> C -> C) cnt base :
  (base + cnt <= upper)%nat ->
  (forall arr i, length arr = upper -> (i < upper)%nat ->
     exists arr', f arr i = Ok arr' /\ Upd i (i + 1) u arr arr') ->
  forall arr, length arr = upper ->
  exists arr', foldr f (seq base cnt) arr = Ok arr' /\ Upd base (base + cnt) u arr arr'.
Proof.
  intros Hc Hf arr Ha.
  destruct (fold_upd f 1 u cnt base) with (arr := arr) as (a & E & U); auto.
  - lia.
  - intros arr0 i H0 Hi. apply Hf; auto. lia.
  - exists a. replace (base + cnt * 1)%nat with (base + cnt)%nat in U by lia.
    split; [|assumption]. rewrite <- E. f_equal.
    clear. revert base; induction cnt as [|cnt IH]; intros base; [reflexivity|].
    simpl. f_equal; [lia|]. rewrite IH, <- seq_shift, map_map.
    apply map_ext. intros; lia.
Qed.

(** element [x] < n is computed by a SIMD lane *)
Definition laneOf (x : nat) : bool := (x <? whole)%nat || usePartialBatch B n.

(** effect of a batched loop on the first n elements *)
Definition OrdUpd (uL uS : nat -> C -> C) (arr arr' : list C) : Prop :=
  length arr' = length arr /\
  forall x v, (x < n)%nat -> nth_error arr x = Some v ->
    nth_error arr' x = Some (if laneOf x then uL x v else uS x v).

Lemma orders_upd (fb f1 : list C -> nat -> res (list C)) (uL uS : nat -> C -> C) arr :
  length arr = upper ->
  (forall arr i, length arr = upper -> (i + B <= upper)%nat ->
     exists arr', fb arr i = Ok arr' /\ Upd i (i + B) uL arr arr') ->
  (forall arr i, length arr = upper -> (i < upper)%nat ->
     exists arr', f1 arr i = Ok arr' /\ Upd i (i + 1) uS arr arr') ->
  exists arr',
    (let! arr1 := foldr fb (wholeStarts B n) arr in
     if usePartialBatch B n then fb arr1 whole else foldr f1 (seq whole part) arr1) = Ok arr' /\
    OrdUpd uL uS arr arr'.
Proof.
  intros Ha Hb H1.
  assert (Hw := whole_eq). assert (Hwp := whole_part). assert (Hnu := n_le_upper).
  assert (Hq : (whole / B = n / B)%nat) by (rewrite Hw; apply Nat.div_mul; lia).
  destruct (fold_upd fb B uL (n / B) 0) with (arr := arr) as (a1 & E1 & U1); auto; [lia|].
  unfold wholeStarts. rewrite Hq. 
  change (map (fun k : nat => (k * B)%nat)) with (map (fun k : nat => (0 + k * B)%nat)).
  rewrite E1. cbn [bind].
  assert (La : length a1 = upper) by (destruct U1; congruence).
  replace (0 + n / B * B)%nat with whole in U1 by lia.
  unfold OrdUpd, laneOf. destruct (usePartialBatch B n) eqn:Ep.
  - assert (Hp : (0 < part)%nat).
    { unfold usePartialBatch, kBatchThreshold in Ep. apply Nat.ltb_lt in Ep. lia. }
    destruct (Hb a1 whole La (partial_le_upper Hp)) as (a2 & E2 & U2).
    exists a2; split; [assumption|].
    assert (U := Upd_trans 0 whole (whole + B) uL _ _ _ ltac:(lia) U1 U2).
    destruct U as [L U]. split; [assumption|]. intros x v Hx Hv. rewrite (U x v Hv).
    assert (Hpl := part_lt).
    destruct (Nat.leb_spec 0 x), (Nat.ltb_spec x (whole + B)); simpl; try lia.
    now rewrite orb_true_r.
  - destruct (fold_upd1 f1 uS part whole) with (arr := a1) as (a2 & E2 & U2); auto; [lia|].
    exists a2; split; [assumption|].
    destruct U1 as [L1 U1], U2 as [L2 U2]. split; [congruence|].
    intros x v Hx Hv. rewrite (U2 x _ (U1 x v Hv)).
    destruct (Nat.leb_spec 0 x), (Nat.ltb_spec x whole), (Nat.leb_spec whole x),
             (Nat.ltb_spec x (whole + part)); simpl; try lia; reflexivity.
Qed.

Lemma sum_orders_upd fwd a pd ph md qd arr : length arr = upper ->
  exists arr', sum_orders N cfg F fwd a pd ph md qd arr = Ok arr' /\
    OrdUpd (fun x v => sum_lane_upd N fwd a pd ph md qd (zAt x) v)
           (fun x v => sum_scalar_upd N fwd a pd ph md qd (zAt x) v) arr arr'.
Proof.
  intros Ha. apply orders_upd; auto.
  - intros; now apply sum_batch_upd.
  - intros; now apply sum_one_upd.
Qed.

Lemma i0_orders_upd a c mp b mn d pd arr : length arr = upper ->
  exists arr',
    (let! arr1 := foldr (i0_batch N cfg F a b c d) (wholeStarts B n) arr in
     if usePartialBatch B n then i0_batch N cfg F a b c d arr1 whole
     else foldr (i0_one N cfg F mp b mn d pd) (seq whole part) arr1) = Ok arr' /\
    OrdUpd (fun x _ => i0_lane N a b c d (ezAt x) (zAt x))
           (fun x _ => i0_scalar N mp b mn d pd (ezAt x) (zAt x)) arr arr'.
Proof.
  intros Ha. apply orders_upd; auto.
  - intros; now apply i0_batch_upd.
  - intros; now apply i0_one_upd.
Qed.

End Simd.
