(** * PSimd: the batch width does not matter (lemmas behind C31).

    Any number system whose SIMD lane formulas agree with the scalar ones; instantiated with
    exact arithmetic in Prop_Simd. *)
From Coq Require Import ZArith List Bool Lia Arith.
From Verif Require Import Num Maths CrossFader Wavetable Filters Osc NumFacts SimdFacts.
Import ListNotations.

(** same fault, or related results *)
Definition rres {A B} (P : A -> B -> Prop) (x : res A) (y : res B) : Prop :=
  match x, y with Ok a, Ok b => P a b | Fault f, Fault g => f = g | _, _ => False end.
Lemma rres_bind {A B A' B'} (P : A -> B -> Prop) (Q : A' -> B' -> Prop) r1 r2 k1 k2 : rres P r1 r2 ->
  (forall x y, P x y -> rres Q (k1 x) (k2 y)) -> rres Q (bind r1 k1) (bind r2 k2).
Proof. destruct r1, r2; cbn; intros H K; try contradiction; auto. Qed.
Lemma rres_same {A A' B'} (Q : A' -> B' -> Prop) (r : res A) k1 k2 :
  (forall x, rres Q (k1 x) (k2 x)) -> rres Q (bind r k1) (bind r k2).
Proof. destruct r; cbn; auto. Qed.
Lemma rres_foldr {A B X} (P : A -> B -> Prop) f1 f2 (xs : list X) :
  (forall a b x, P a b -> rres P (f1 a x) (f2 b x)) ->
  forall a b, P a b -> rres P (foldr f1 xs a) (foldr f2 xs b).
Proof.
  intros H. induction xs as [|x xs IH]; intros a b Hab; cbn [foldr]; [exact Hab|].
  eapply rres_bind; [now apply H|]. intros; now apply IH.
Qed.
Lemma rres_eq {A} (x y : res A) : rres eq x y -> x = y.
Proof. destruct x, y; cbn; intros H; try contradiction; congruence. Qed.

Section Width.
Variable N : Num.
Variable src : Resampler N.
Variables cfg1 cfg2 : Cfg.
Variable F : Filt N.
Hypothesis Hdbg : dbg cfg1 = dbg cfg2.
Hypothesis HB1 : (1 <= batch cfg1)%nat.
Hypothesis HB2 : (1 <= batch cfg2)%nat.
Hypothesis HF : filtOk N F.
Hypothesis Hi0 : forall mp b mn d pd ez z,
  i0_lane N (tmul N mp pd) b (tmul N mn pd) d ez z = i0_scalar N mp b mn d pd ez z.
Hypothesis Hsum : forall fwd a pd ph md qd z s,
  sum_lane_upd N fwd a pd ph md qd z s = sum_scalar_upd N fwd a pd ph md qd z s.
Notation n := (kNumCoeffs N F).

(** arrays of the two widths holding the same coefficients *)
Definition front (a1 a2 : list (C N)) : Prop :=
  length a1 = kUpper N cfg1 F /\ length a2 = kUpper N cfg2 F /\
  forall x, (x < n)%nat -> nth_error a1 x = nth_error a2 x.

Lemma front_zero : front (zeroArr N cfg1 F) (zeroArr N cfg2 F).
Proof.
  unfold zeroArr. repeat split; try apply repeat_length. intros x Hx.
  assert (H1 := n_le_upper N cfg1 F HB1). assert (H2 := n_le_upper N cfg2 F HB2).
  rewrite !nth_error_repeat by lia. reflexivity.
Qed.

(** one loop over the orders, any of the two kinds of update *)
Lemma front_upd (u1L u1S u2L u2S : nat -> C N -> C N) a1 a2 b1 b2 : front a1 a2 ->
  OrdUpd N cfg1 F u1L u1S a1 b1 -> OrdUpd N cfg2 F u2L u2S a2 b2 ->
  (forall x v, (x < n)%nat -> u1L x v = u1S x v /\ u2L x v = u1S x v /\ u2S x v = u1S x v) ->
  front b1 b2.
Proof.
  intros (L1 & L2 & H) [M1 U1] [M2 U2] Hu. split; [congruence|]. split; [congruence|]. intros x Hx.
  destruct (nth_error a1 x) as [v|] eqn:E.
  2:{ apply nth_error_None in E. assert (K := n_le_upper N cfg1 F HB1). lia. }
  rewrite (U1 x v Hx E). rewrite (U2 x v Hx) by (rewrite <- H; assumption).
  destruct (Hu x v Hx) as (-> & -> & ->). destruct (laneOf _ _ _ _), (laneOf _ _ _ _); reflexivity.
Qed.

Lemma zAt_same x : (x < n)%nat -> zAt N cfg1 F x = zAt N cfg2 F x.
Proof. intros H. rewrite !zAt_F; auto. Qed.
Lemma ezAt_same x : (x < n)%nat -> ezAt N cfg1 F x = ezAt N cfg2 F x.
Proof. intros H. rewrite !ezAt_F; auto. Qed.

Lemma computeI0_same w wf a1 a2 mi ip inx d p q : front a1 a2 ->
  rres front (computeI0 N cfg1 F w wf a1 mi ip inx d p q) (computeI0 N cfg2 F w wf a2 mi ip inx d p q).
Proof.
  intros H. unfold computeI0. do 6 (apply rres_same; intros ?). cbv zeta.
  generalize (tmad N 1 x1 p x2), (tmad N 2 x3 q x4). intros B' D'.
  destruct (i0_orders_upd N cfg1 F HB1 HF (tmul N x1 d) (tmul N x3 d) x1 B' x3 D' d a1 (proj1 H)) as (b1 & -> & U1).
  destruct (i0_orders_upd N cfg2 F HB2 HF (tmul N x1 d) (tmul N x3 d) x1 B' x3 D' d a2 (proj1 (proj2 H))) as (b2 & -> & U2).
  cbn [rres]. eapply front_upd; [exact H|exact U1|exact U2|]. intros x' v Hx. cbn beta.
  rewrite !Hi0, zAt_same, ezAt_same by assumption. auto.
Qed.

Lemma sum_orders_same fwd a pd ph md qd a1 a2 : front a1 a2 ->
  rres front (sum_orders N cfg1 F fwd a pd ph md qd a1) (sum_orders N cfg2 F fwd a pd ph md qd a2).
Proof.
  intros H.
  destruct (sum_orders_upd N cfg1 F HB1 HF fwd a pd ph md qd a1 (proj1 H)) as (b1 & -> & U1).
  destruct (sum_orders_upd N cfg2 F HB2 HF fwd a pd ph md qd a2 (proj1 (proj2 H))) as (b2 & -> & U2).
  cbn [rres]. eapply front_upd; [exact H|exact U1|exact U2|]. intros x' v Hx. cbn beta.
  rewrite !Hsum, zAt_same by assumption. auto.
Qed.

Lemma isumFwd_same w wf a1 a2 mi jm jx d p : front a1 a2 ->
  rres front (computeISumFwd N cfg1 F w wf a1 mi jm jx d p) (computeISumFwd N cfg2 F w wf a2 mi jm jx d p).
Proof.
  intros H. unfold computeISumFwd. do 5 (apply rres_same; intros ?). apply rres_foldr; [|exact H].
  intros b1 b2 i Hb. unfold sumFwd_iter. rewrite Hdbg. do 4 (apply rres_same; intros ?). now apply sum_orders_same.
Qed.
Lemma isumBwd_same w wf a1 a2 mi j jm jx d p : front a1 a2 ->
  rres front (computeISumBwd N cfg1 F w wf a1 mi j jm jx d p) (computeISumBwd N cfg2 F w wf a2 mi j jm jx d p).
Proof.
  intros H. unfold computeISumBwd. rewrite Hdbg. do 6 (apply rres_same; intros ?). apply rres_foldr; [|exact H].
  intros b1 b2 i Hb. unfold sumBwd_iter. rewrite Hdbg. do 4 (apply rres_same; intros ?). now apply sum_orders_same.
Qed.
Lemma fwdI_same w wf pr a1 a2 mi jm jx d p : front a1 a2 ->
  rres front (computeFwdI N cfg1 F w wf pr a1 mi jm jx d p) (computeFwdI N cfg2 F w wf pr a2 mi jm jx d p).
Proof.
  intros H. unfold computeFwdI. eapply rres_bind; [now apply computeI0_same|]. intros. now apply isumFwd_same.
Qed.
Lemma bwdI_same w wf pr a1 a2 mi j jm jx d p : front a1 a2 ->
  rres front (computeBwdI N cfg1 F w wf pr a1 mi j jm jx d p) (computeBwdI N cfg2 F w wf pr a2 mi j jm jx d p).
Proof.
  intros H. unfold computeBwdI. rewrite Hdbg. apply rres_same. intros _.
  eapply rres_bind; [now apply computeI0_same|]. intros. now apply isumBwd_same.
Qed.

Lemma nth_error_map2_eq {X Y W} (f : X -> Y -> W) l m x : nth_error (map2 f l m) x =
  match nth_error l x, nth_error m x with Some a, Some b => Some (f a b) | _, _ => None end.
Proof.
  revert m x. induction l as [|a l IH]; intros [|b m] [|x]; cbn; auto.
  - now destruct (nth_error l x).
Qed.
Lemma crossfade_nth cfg a up g gu x : (x < n)%nat -> length a = kUpper N cfg F -> (n <= kUpper N cfg F)%nat ->
  nth_error (crossfadeArr N cfg F a up g gu) x =
  match nth_error a x, nth_error up x with
  | Some u, Some v => Some (caddx N 30 u g v gu) | _, _ => None end \/
  (length up < n)%nat.
Proof.
  intros Hx La Hn. unfold crossfadeArr. destruct (usePartialBatch _ _); [left; apply nth_error_map2_eq|].
  destruct (Nat.lt_ge_cases (length up) n) as [Hu|Hu]; [now right|left].
  rewrite nth_error_app1 by (rewrite length_map2, !firstn_length; lia).
  rewrite nth_error_map2_eq, !(nth_error_firstn cfg1 HB1) by assumption. reflexivity.
Qed.
Lemma crossfade_len cfg a up g gu : length a = kUpper N cfg F -> length up = kUpper N cfg F -> (n <= kUpper N cfg F)%nat ->
  length (crossfadeArr N cfg F a up g gu) = kUpper N cfg F.
Proof.
  intros La Lu Hn. unfold crossfadeArr. destruct (usePartialBatch _ _); rewrite ?app_length, length_map2, ?firstn_length, ?skipn_length; lia.
Qed.
Lemma crossfade_same a1 a2 u1 u2 g gu : front a1 a2 -> front u1 u2 ->
  front (crossfadeArr N cfg1 F a1 u1 g gu) (crossfadeArr N cfg2 F a2 u2 g gu).
Proof.
  intros (A1 & A2 & HA) (U1 & U2 & HU).
  assert (H1 := n_le_upper N cfg1 F HB1). assert (H2 := n_le_upper N cfg2 F HB2).
  split; [now apply crossfade_len|]. split; [now apply crossfade_len|]. intros x Hx.
  destruct (crossfade_nth cfg1 a1 u1 g gu x Hx A1 H1) as [->|]; [|lia].
  destruct (crossfade_nth cfg2 a2 u2 g gu x Hx A2 H2) as [->|]; [|lia].
  now rewrite HA, HU.
Qed.

(** the filter memory has [n] elements: padding is never read *)
Lemma yLoop_nth : forall y r p e i x, nth_error (yLoop N y r p e i) x =
  match nth_error y x, nth_error r x, nth_error p x, nth_error e x, nth_error i x with
  | Some y, Some r, Some p, Some e, Some i => Some (yStep N y r p e i) | _, _, _, _, _ => None end.
Proof.
  induction y as [|y0 y IH]; intros [|r0 r] [|p0 p] [|e0 e] [|i0 i] [|x]; cbn [yLoop nth_error]; try reflexivity;
    rewrite ?IH; repeat match goal with |- context [nth_error ?l x] => destruct (nth_error l x) end; reflexivity.
Qed.
Lemma list_nth_ext {A} : forall l m : list A, (forall x, nth_error l x = nth_error m x) -> l = m.
Proof.
  induction l as [|a l IH]; intros [|b m] H; [reflexivity|specialize (H 0%nat); discriminate H|specialize (H 0%nat); discriminate H|].
  assert (H0 := H 0%nat). cbn in H0. injection H0 as ->. f_equal. apply IH. intros x. exact (H (S x)).
Qed.
Lemma padded_same l x : length l = n -> (x < n)%nat ->
  nth_error (padded N cfg1 F l) x = nth_error (padded N cfg2 F l) x.
Proof. intros Hl Hx. rewrite (nth_padded N cfg1 F HB1 l x (c0 N)), (nth_padded N cfg2 F HB2 l x (c0 N)) by assumption. reflexivity. Qed.
Lemma yLoop_same y i1 i2 : (length y <= n)%nat -> front i1 i2 ->
  yLoop N y (r_array N cfg1 F) (z_pow2_array N cfg1 F) (exp_z_array N cfg1 F) i1 =
  yLoop N y (r_array N cfg2 F) (z_pow2_array N cfg2 F) (exp_z_array N cfg2 F) i2.
Proof.
  intros Ly (_ & _ & H). apply list_nth_ext. intros x. rewrite !yLoop_nth.
  destruct (nth_error y x) eqn:E; [|reflexivity].
  assert (Hx : (x < n)%nat). { assert (x < length y)%nat; [|lia]. apply nth_error_Some. congruence. }
  unfold r_array, z_pow2_array, exp_z_array. destruct HF as [H1 H2 H3].
  rewrite !(padded_same _ x) by (assumption || reflexivity). now rewrite (H x Hx).
Qed.
Lemma yLoop_len : forall y r p e i, (length (yLoop N y r p e i) <= length y)%nat.
Proof. induction y as [|y0 y IH]; intros [|? r] [|? p] [|? e] [|? i]; cbn; try lia. specialize (IH r p e i). lia. Qed.

Definition small (o : Osc N) : Prop := (length (o_y o) <= n)%nat.
Definition both {X} (x y : Osc N * X) : Prop := x = y /\ small (fst y).

Lemma finish_same o x p d i1 i2 : small o -> front i1 i2 ->
  both (finish N cfg1 F o x p d i1) (finish N cfg2 F o x p d i2).
Proof.
  intros Ho Hi. unfold finish. rewrite (yLoop_same _ i1 i2 Ho Hi). split; [reflexivity|]. unfold small. cbn.
  assert (H := yLoop_len (o_y o) (r_array N cfg2 F) (z_pow2_array N cfg2 F) (exp_z_array N cfg2 F) i2). unfold small in Ho. lia.
Qed.
Lemma fwd_same o w p d : small o -> rres both (processSampleFwd N cfg1 F o w p d) (processSampleFwd N cfg2 F o w p d).
Proof.
  intros Ho. unfold processSampleFwd. replace (idxFwd N cfg1 o w p d) with (idxFwd N cfg2 o w p d) by (unfold idxFwd; now rewrite Hdbg).
  apply rres_same. intros x. eapply rres_bind; [apply fwdI_same, front_zero|]. intros a1 a2 Ha.
  eapply (rres_bind front).
  - destruct (negb _); [|exact Ha]. eapply rres_bind; [apply fwdI_same, front_zero|]. intros u1 u2 Hu. now apply crossfade_same.
  - intros i1 i2 Hi. now apply finish_same.
Qed.
Lemma bwd_same o w p d : small o -> rres both (processSampleBwd N cfg1 F o w p d) (processSampleBwd N cfg2 F o w p d).
Proof.
  intros Ho. unfold processSampleBwd. replace (idxBwd N cfg1 o w p d) with (idxBwd N cfg2 o w p d) by (unfold idxBwd; now rewrite Hdbg).
  apply rres_same. intros x. eapply rres_bind; [apply bwdI_same, front_zero|]. intros a1 a2 Ha.
  eapply (rres_bind front).
  - destruct (negb _); [|exact Ha]. eapply rres_bind; [apply bwdI_same, front_zero|]. intros u1 u2 Hu. now apply crossfade_same.
  - intros i1 i2 Hi. now apply finish_same.
Qed.
Lemma one_same dir o p : small o -> rres both (processOne N cfg1 F dir o p) (processOne N cfg2 F dir o p).
Proof.
  intros Ho. unfold processOne. rewrite Hdbg. destruct (o_wt o) as [w|]; [|reflexivity]. destruct dir; cbv zeta.
  - apply rres_same. intros _. now apply fwd_same.
  - destruct (tle _ _ _); [now apply fwd_same|now apply bwd_same].
Qed.
Lemma loop_same dir ps : forall o out, small o ->
  rres both (processLoop N cfg1 F dir o ps out) (processLoop N cfg2 F dir o ps out).
Proof.
  induction ps as [|p ps IH]; intros o out Ho; cbn [processLoop]; [now split|].
  destruct out as [|y out]; [now split|].
  eapply rres_bind; [now apply one_same|]. intros [o1 y1] [o2 y2] [E H]. injection E as -> ->. cbn [fst] in H.
  eapply rres_bind; [now apply IH|]. intros [o3 y3] [o4 y4] [E H']. injection E as -> ->. now split.
Qed.
Lemma reset_same o p d : resetInternals N cfg1 F o p d = resetInternals N cfg2 F o p d.
Proof. unfold resetInternals. now rewrite Hdbg. Qed.
Lemma reset_small cfg o p d o' : resetInternals N cfg F o p d = Ok o' -> small o'.
Proof.
  unfold resetInternals. destruct (assert_ _ _); cbn [bind]; [|discriminate]. destruct (o_wt o); [|discriminate].
  destruct (reduceT _ _ _ _); cbn [bind]; [|discriminate].
  destruct (wt_findMipMapIndices _ _ _ _) as [[w' [[[mi g] mu] gu]]|]; cbn [bind]; [|discriminate].
  destruct (wt_waveformLen _ _ _); cbn [bind]; [|discriminate].
  destruct (if tle N (t0 N) d then _ else _); cbn [bind]; [|discriminate].
  injection 1 as <-. unfold small. cbn. rewrite repeat_length. lia.
Qed.
Lemma apply_same o op : small o -> rres both (Osc.apply N src cfg1 F o op) (Osc.apply N src cfg2 F o op).
Proof.
  intros Ho. destruct op as [[w|] p d|[w|] p d|p d|k|sr|dir ps]; cbn [Osc.apply osc_init osc_swap bind]; try now split.
  - rewrite reset_same. destruct (resetInternals N cfg2 F (set_wt N o (Some w)) p d) eqn:E; cbn; [|reflexivity]. split; [reflexivity|].
    apply (reset_small _ _ _ _ _ E).
  - rewrite reset_same. destruct (resetInternals N cfg2 F (set_wt N o (Some w)) p d) eqn:E; cbn; [|reflexivity]. split; [reflexivity|].
    apply (reset_small _ _ _ _ _ E).
  - rewrite reset_same. destruct (resetInternals N cfg2 F o p d) eqn:E; cbn; [|reflexivity]. split; [reflexivity|].
    apply (reset_small _ _ _ _ _ E).
  - unfold setWaveform. rewrite Hdbg. destruct (assert_ _ _); cbn; [|reflexivity]. now split.
  - unfold osc_updateSamplerate. rewrite Hdbg. destruct (assert_ _ _); cbn [bind]; [|reflexivity].
    destruct (o_wt o); [|reflexivity]. destruct (wt_updateSamplerate _ _ _ _ _ _); cbn; [|reflexivity]. now split.
  - unfold process. rewrite Hdbg. apply rres_same. intros _. apply rres_same. intros _. now apply loop_same.
Qed.
Lemma run_same ops : forall o, small o -> Osc.run N src cfg1 F o ops = Osc.run N src cfg2 F o ops.
Proof.
  intros o Ho. apply rres_eq. revert o Ho.
  induction ops as [|op ops IH]; intros o Ho; cbn [Osc.run]; [reflexivity|].
  eapply rres_bind; [now apply apply_same|]. intros [o1 y1] [o2 y2] [E H]. injection E as -> ->. cbn [fst] in H.
  eapply rres_bind; [now apply IH|]. intros a b ->. destruct b. reflexivity.
Qed.
End Width.
