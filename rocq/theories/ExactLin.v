(** * ExactLin: the whole library is linear in the samples (lemmas behind C30).

    A three-way logical relation, function by function: all decisions (indices, gains,
    faults) are the same, all sample-dependent values are linear combinations. *)
From Coq Require Import ZArith List Bool Reals Lia Lra Arith.
From Flocq Require Import Core.
From Verif Require Import Num Maths CrossFader Wavetable Filters Osc NumFacts SpecC RNum.
From Coquelicot Require Import Coquelicot.
From Verif Require Import SpecE SpecX.
Import ListNotations.
Local Open Scope R_scope.

(** ** Plumbing *)
Inductive F3 {A} (P : A -> A -> A -> Prop) : list A -> list A -> list A -> Prop :=
| F3_nil : F3 P [] [] []
| F3_cons x y z l m n : P x y z -> F3 P l m n -> F3 P (x :: l) (y :: m) (z :: n).
Definition R3 {A} (P : A -> A -> A -> Prop) (r1 r2 r3 : res A) : Prop :=
  match r1, r2, r3 with
  | Ok x, Ok y, Ok z => P x y z
  | Fault f, Fault g, Fault h => f = g /\ g = h
  | _, _, _ => False
  end.
Definition same3 {A} (x y z : A) : Prop := x = y /\ y = z.

Lemma bind3 {A B} (P : A -> A -> A -> Prop) (Q : B -> B -> B -> Prop) r1 r2 r3 k1 k2 k3 : R3 P r1 r2 r3 ->
  (forall x y z, P x y z -> R3 Q (k1 x) (k2 y) (k3 z)) -> R3 Q (bind r1 k1) (bind r2 k2) (bind r3 k3).
Proof.
  destruct r1, r2, r3; cbn; intros H K; try contradiction; auto.
Qed.
Lemma bind_same {A B} (Q : B -> B -> B -> Prop) (r : res A) k1 k2 k3 :
  (forall x, R3 Q (k1 x) (k2 x) (k3 x)) -> R3 Q (bind r k1) (bind r k2) (bind r k3).
Proof. destruct r; cbn; auto. Qed.

Section Lists.
Context {A : Type}.
Variable P : A -> A -> A -> Prop.
Lemma F3_length l m n : F3 P l m n -> length l = length n /\ length m = length n.
Proof. induction 1; cbn; lia. Qed.
Lemma F3_zlen l m n : F3 P l m n -> zlen l = zlen n /\ zlen m = zlen n.
Proof. intros H. apply F3_length in H. unfold zlen. lia. Qed.
Lemma F3_app l m n l' m' n' : F3 P l m n -> F3 P l' m' n' -> F3 P (l ++ l') (m ++ m') (n ++ n').
Proof. intros H. induction H; intros; cbn; [assumption|]. constructor; auto. Qed.
Lemma F3_firstn k : forall l m n, F3 P l m n -> F3 P (firstn k l) (firstn k m) (firstn k n).
Proof. induction k; intros l m n H; [constructor|]. inversion H; subst; cbn; constructor; auto. Qed.
Lemma F3_skipn k : forall l m n, F3 P l m n -> F3 P (skipn k l) (skipn k m) (skipn k n).
Proof. induction k; intros l m n H; [assumption|]. inversion H; subst; cbn; [constructor|auto]. Qed.
Lemma F3_repeat x y z k : P x y z -> F3 P (repeat x k) (repeat y k) (repeat z k).
Proof. intros H. induction k; cbn; constructor; auto. Qed.
Lemma F3_znth l m n i : F3 P l m n -> R3 P (znth l i) (znth m i) (znth n i).
Proof.
  intros H. unfold znth. destruct (i <? 0)%Z; [cbn; auto|]. generalize (Z.to_nat i) as k. clear i.
  induction H; intros [|k]; cbn; auto; try apply IHF3.
Qed.
Lemma F3_nset l m n i x y z : F3 P l m n -> P x y z -> F3 P (nset l i x) (nset m i y) (nset n i z).
Proof. intros H Hx. revert i. induction H; intros [|i]; cbn; constructor; auto. Qed.
Lemma F3_zset l m n i x y z : F3 P l m n -> P x y z -> R3 (F3 P) (zset l i x) (zset m i y) (zset n i z).
Proof.
  intros H Hx. unfold zset. destruct (F3_zlen _ _ _ H) as [-> ->].
  destruct ((0 <=? i) && (i <? zlen n))%Z; cbn; [|auto]. now apply F3_nset.
Qed.
Lemma mapr3 {X} (f1 f2 f3 : X -> res A) xs : (forall x, R3 P (f1 x) (f2 x) (f3 x)) ->
  R3 (F3 P) (mapr f1 xs) (mapr f2 xs) (mapr f3 xs).
Proof.
  intros H. induction xs as [|x xs IH]; cbn [mapr]; [constructor|].
  eapply bind3; [apply H|]. intros. eapply bind3; [exact IH|]. intros. cbn. constructor; auto.
Qed.
Lemma foldr3 {X} (f1 f2 f3 : A -> X -> res A) xs : (forall s1 s2 s3 x, P s1 s2 s3 -> R3 P (f1 s1 x) (f2 s2 x) (f3 s3 x)) ->
  forall s1 s2 s3, P s1 s2 s3 -> R3 P (foldr f1 xs s1) (foldr f2 xs s2) (foldr f3 xs s3).
Proof.
  intros H. induction xs as [|x xs IH]; intros s1 s2 s3 Hs; cbn [foldr]; [exact Hs|].
  eapply bind3; [now apply H|]. intros. now apply IH.
Qed.
End Lists.

Lemma F3_map {A B} (P : A -> A -> A -> Prop) (Q : B -> B -> B -> Prop) (f g h : A -> B) l m n :
  (forall x y z, P x y z -> Q (f x) (g y) (h z)) -> F3 P l m n -> F3 Q (List.map f l) (List.map g m) (List.map h n).
Proof. intros H. induction 1; cbn; constructor; auto. Qed.
Lemma F3_concat {A} (P : A -> A -> A -> Prop) l m n : F3 (F3 P) l m n -> F3 P (concat l) (concat m) (concat n).
Proof. induction 1; cbn; [constructor|]. now apply F3_app. Qed.
Lemma F3_map2 {X A B} (P : A -> A -> A -> Prop) (Q : B -> B -> B -> Prop) (f g h : X -> A -> B) :
  (forall e x y z, P x y z -> Q (f e x) (g e y) (h e z)) ->
  forall es l m n, F3 P l m n -> F3 Q (map2 f es l) (map2 g es m) (map2 h es n).
Proof.
  intros H. induction es as [|e es IH]; intros l m n Hl; cbn; [constructor|]. inversion Hl; subst; constructor; auto.
Qed.

Section Lin.
Variable src : Resampler RNum.
Variable cfg : Cfg.
Variable F : Filt RNum.
Variables a b : R.
Hypothesis Hsrc : linearResampler src.

Definition lr (x y z : R) : Prop := z = a * x + b * y.
Definition lc (x y z : R * R) : Prop := lr (fst x) (fst y) (fst z) /\ lr (snd x) (snd y) (snd z).
Notation L3 := (F3 lc).
Notation D3 := (F3 lr).

Lemma lr0 : lr 0 0 0. Proof. unfold lr. ring. Qed.
Lemma lc0 : lc (c0 RNum) (c0 RNum) (c0 RNum). Proof. split; apply lr0. Qed.

Lemma lincomb_D3 : forall xs ys, length xs = length ys -> D3 xs ys (lincomb a b xs ys).
Proof. induction xs as [|x xs IH]; intros [|y ys] H; try discriminate; cbn; constructor; [reflexivity|]. apply IH. now injection H. Qed.
Lemma D3_lincomb xs ys zs : D3 xs ys zs -> length xs = length ys /\ zs = lincomb a b xs ys.
Proof.
  induction 1 as [|x y z l m n Hx _ [IH1 IH2]]; cbn; [auto|]. split; [congruence|]. unfold lr in Hx. rewrite Hx. cbn. f_equal. exact IH2.
Qed.

(** ** Tables *)
Definition ls (s1 s2 s3 : Slot RNum) : Prop :=
  D3 (s_m s1) (s_m s2) (s_m s3) /\ D3 (s_q s1) (s_q s2) (s_q s3) /\
  D3 (s_md s1) (s_md s2) (s_md s3) /\ D3 (s_qd s1) (s_qd s2) (s_qd s3).
Definition lt (w1 w2 w3 : WT RNum) : Prop :=
  F3 (F3 ls) (wt_slots w1) (wt_slots w2) (wt_slots w3) /\
  same3 (wt_ph w1) (wt_ph w2) (wt_ph w3) /\ same3 (wt_cf w1) (wt_cf w2) (wt_cf w3).

Lemma diffAt3 v1 v2 v3 i : D3 v1 v2 v3 -> R3 lr (diffAt RNum v1 i) (diffAt RNum v2 i) (diffAt RNum v3 i).
Proof.
  intros H. unfold diffAt. destruct (F3_zlen _ _ _ _ H) as [E1 E2].
  change (zlen (A := T RNum)) with (zlen (A := R)). rewrite E1, E2.
  eapply bind3; [apply (F3_znth lr); exact H|]. intros x y z Hx.
  eapply bind3; [apply (F3_znth lr); exact H|]. intros x' y' z' Hx'.
  cbn. unfold lr in *. rewrite Hx, Hx'. ring.
Qed.

Lemma mq3 ph l1 l2 l3 : D3 l1 l2 l3 -> R3 ls (computeMQVector RNum ph l1) (computeMQVector RNum ph l2) (computeMQVector RNum ph l3).
Proof.
  intros H. unfold computeMQVector. destruct (F3_zlen _ _ _ _ H) as [E1 E2].
  change (zlen (A := T RNum)) with (zlen (A := R)). rewrite E1, E2. set (len := zlen (A := R) l3).
  eapply (bind3 (F3 (fun p1 p2 p3 => lr (fst p1) (fst p2) (fst p3) /\ lr (snd p1) (snd p2) (snd p3)))).
  { apply mapr3. intros i. unfold mqAt. change (zlen (A := T RNum)) with (zlen (A := R)). rewrite E1, E2.
    eapply bind3; [apply (F3_znth lr); exact H|]. intros x y z Hx.
    eapply bind3; [apply (F3_znth lr); exact H|]. intros x' y' z' Hx'.
    apply bind_same. intros x0. apply bind_same. intros x1.
    cbn. unfold lr in *. rewrite Hx, Hx'. unfold Rdiv. split; ring. }
  intros q1 q2 q3 Hq.
  assert (HM : D3 (List.map fst q1) (List.map fst q2) (List.map fst q3)) by (eapply F3_map; [|exact Hq]; intros x y z HH; apply HH).
  assert (HQ : D3 (List.map snd q1) (List.map snd q2) (List.map snd q3)) by (eapply F3_map; [|exact Hq]; intros x y z HH; apply HH).
  eapply (bind3 D3); [apply mapr3; intros i; now apply diffAt3|]. intros md1 md2 md3 HMD.
  eapply (bind3 D3); [apply mapr3; intros i; now apply diffAt3|]. intros qd1 qd2 qd3 HQD.
  eapply (bind3 lr); [now apply F3_znth|]. intros u1 u2 u3 Hu.
  eapply (bind3 lr); [now apply F3_znth|]. intros v1 v2 v3 Hv.
  eapply (bind3 D3); [apply F3_zset; [exact HQD|]|].
  { cbn. unfold lr in *. rewrite Hu, Hv. ring. }
  intros r1 r2 r3 Hr. cbn. repeat split; assumption.
Qed.

Lemma down3 l1 l2 l3 ratio : D3 l1 l2 l3 ->
  R3 D3 (downsampleWaveform RNum src l1 ratio) (downsampleWaveform RNum src l2 ratio) (downsampleWaveform RNum src l3 ratio).
Proof.
  intros H. unfold downsampleWaveform. destruct (F3_zlen _ _ _ _ H) as [E1 E2].
  change (zlen (A := T RNum)) with (zlen (A := R)). rewrite E1, E2. set (len := zlen (A := R) l3).
  apply bind_same. intros it. apply bind_same. intros ot.
  assert (H5 : D3 (concat (repeat l1 5)) (concat (repeat l2 5)) (concat (repeat l3 5))).
  { apply F3_concat. now apply F3_repeat. }
  destruct (D3_lincomb _ _ _ H5) as [Hl E5]. change (T RNum) with R. rewrite E5.
  destruct (Hsrc a b _ _ ratio ot Hl) as (X1 & X2 & X3 & X4 & X5 & X6 & X7 & X8).
  rewrite X1, X2, X3, X4, X5, X6, X8.
  assert (HD := lincomb_D3 _ _ X7).
  destruct (negb _); [constructor|]. destruct (_ || _)%bool; [constructor|]. cbn [R3].
  apply F3_firstn, F3_skipn, F3_firstn, F3_app; [exact HD|]. apply F3_repeat. exact lr0.
Qed.

Definition lst (x y z : list (Slot RNum) * list (list R)) : Prop :=
  F3 ls (fst x) (fst y) (fst z) /\ F3 D3 (snd x) (snd y) (snd z).

Lemma step3 phs og1 og2 og3 ni s1 s2 s3 k : D3 og1 og2 og3 -> lst s1 s2 s3 ->
  R3 lst (mipmapStep RNum src phs og1 ni s1 k) (mipmapStep RNum src phs og2 ni s2 k) (mipmapStep RNum src phs og3 ni s3 k).
Proof.
  intros Ho [H1 H2]. destruct s1 as [a1 b1], s2 as [a2 b2], s3 as [a3 b3]. cbn [fst snd] in *. unfold mipmapStep.
  destruct (k <=? kMaxLibSamplerate)%Z.
  - apply bind_same. intros ratio. eapply bind3; [now apply down3|]. intros d1 d2 d3 Hd.
    destruct (F3_zlen _ _ _ _ Hd) as [E1 E2]. change (zlen (A := T RNum)) with (zlen (A := R)). rewrite E1, E2.
    destruct (zlen (A := R) d3 =? 0)%Z; [cbn; auto|].
    eapply (bind3 (F3 D3)).
    { destruct (k <=? ni)%Z; [|exact H2]. now apply F3_zset. }
    intros i1 i2 i3 Hi. apply bind_same. intros ph. eapply bind3; [now apply mq3|]. intros t1 t2 t3 Ht.
    cbn. split; cbn; [|assumption]. apply F3_app; [assumption|]. repeat constructor; apply Ht.
  - eapply (bind3 D3); [now apply F3_znth|]. intros w1 w2 w3 Hw. eapply bind3; [now apply down3|]. intros d1 d2 d3 Hd.
    destruct (F3_zlen _ _ _ _ Hd) as [E1 E2]. change (zlen (A := T RNum)) with (zlen (A := R)). rewrite E1, E2.
    destruct (zlen (A := R) d3 =? 0)%Z; [cbn; auto|].
    apply bind_same. intros ph. eapply bind3; [now apply mq3|]. intros t1 t2 t3 Ht.
    cbn. split; cbn; [|assumption]. apply F3_app; [assumption|]. repeat constructor; apply Ht.
Qed.

Lemma waveform3 dbg nm phs og1 og2 og3 : D3 og1 og2 og3 ->
  R3 (F3 ls) (buildWaveform RNum src dbg nm phs og1) (buildWaveform RNum src dbg nm phs og2) (buildWaveform RNum src dbg nm phs og3).
Proof.
  intros Ho. unfold buildWaveform. apply bind_same. intros _. apply bind_same. intros _. apply bind_same. intros ph0.
  eapply bind3; [now apply mq3|]. intros s1 s2 s3 Hs.
  eapply (bind3 lst).
  { apply foldr3; [intros; now apply step3|]. split; cbn [fst snd].
    - repeat constructor; apply Hs.
    - apply F3_repeat. constructor. }
  intros [x1 y1] [x2 y2] [x3 y3] [Hx _]. exact Hx.
Qed.

Lemma construct3 dbg l1 l2 l3 nw sr n len : D3 l1 l2 l3 ->
  R3 lt (wt_construct RNum src dbg l1 nw sr n len) (wt_construct RNum src dbg l2 nw sr n len) (wt_construct RNum src dbg l3 nw sr n len).
Proof.
  intros H. unfold wt_construct. destruct (F3_zlen _ _ _ _ H) as [E1 E2].
  change (zlen (A := T RNum)) with (zlen (A := R)). rewrite E1, E2.
  apply bind_same. intros cf. apply bind_same. intros tot. apply bind_same. intros _. apply bind_same. intros phs.
  eapply (bind3 (F3 (F3 ls))).
  { apply mapr3. intros w. apply bind_same. intros off.
    eapply (bind3 D3); [|intros; now apply waveform3].
    unfold subspan. change (zlen (A := T RNum)) with (zlen (A := R)). rewrite E1, E2.
    destruct (_ && _)%bool; cbn; [|auto]. now apply F3_firstn, F3_skipn. }
  intros s1 s2 s3 Hs. cbn. repeat split. exact Hs.
Qed.

Definition lo {A} (P : A -> A -> A -> Prop) (x y z : option A) : Prop :=
  match x, y, z with Some x, Some y, Some z => P x y z | None, None, None => True | _, _, _ => False end.

Lemma build3 dbg l1 l2 l3 nw sr fade : D3 l1 l2 l3 ->
  R3 (lo lt) (wt_build RNum src dbg l1 nw sr fade) (wt_build RNum src dbg l2 nw sr fade) (wt_build RNum src dbg l3 nw sr fade).
Proof.
  intros H. unfold wt_build. destruct (F3_zlen _ _ _ _ H) as [E1 E2].
  change (zlen (A := T RNum)) with (zlen (A := R)). rewrite E1, E2.
  destruct (_ =? 0)%Z; [exact I|]. destruct (nw <=? 0)%Z; [exact I|]. destruct (tle _ _ _); [exact I|].
  destruct (negb _); [exact I|]. apply bind_same. intros [|]; cbn [negb]; [|exact I].
  apply bind_same. intros n. assert (C := construct3 dbg l1 l2 l3 nw sr n (Z.quot (wrap_int (zlen (A := R) l3)) nw) H).
  unfold R3 in C.
  destruct (wt_construct RNum src dbg l1 _ _ _ _) as [w1|f1], (wt_construct RNum src dbg l2 _ _ _ _) as [w2|f2],
    (wt_construct RNum src dbg l3 _ _ _ _) as [w3|f3]; try contradiction; [exact C|].
  destruct C as [<- <-]. destruct f1; cbn; auto.
Qed.

Lemma slot3 w1 w2 w3 i k : lt w1 w2 w3 -> R3 ls (wt_slot RNum w1 i k) (wt_slot RNum w2 i k) (wt_slot RNum w3 i k).
Proof.
  intros (H & _). unfold wt_slot. eapply bind3; [apply F3_znth; exact H|]. intros s1 s2 s3 Hs. now apply F3_znth.
Qed.
Lemma m3 w1 w2 w3 i k : lt w1 w2 w3 -> R3 D3 (wt_m RNum w1 i k) (wt_m RNum w2 i k) (wt_m RNum w3 i k).
Proof. intros H. unfold wt_m. eapply bind3; [now apply slot3|]. intros s1 s2 s3 Hs. cbn. apply Hs. Qed.
Lemma q3 w1 w2 w3 i k : lt w1 w2 w3 -> R3 D3 (wt_q RNum w1 i k) (wt_q RNum w2 i k) (wt_q RNum w3 i k).
Proof. intros H. unfold wt_q. eapply bind3; [now apply slot3|]. intros s1 s2 s3 Hs. cbn. apply Hs. Qed.
Lemma md3 w1 w2 w3 i k : lt w1 w2 w3 -> R3 D3 (wt_mDiff RNum w1 i k) (wt_mDiff RNum w2 i k) (wt_mDiff RNum w3 i k).
Proof. intros H. unfold wt_mDiff. eapply bind3; [now apply slot3|]. intros s1 s2 s3 Hs. cbn. apply Hs. Qed.
Lemma qd3 w1 w2 w3 i k : lt w1 w2 w3 -> R3 D3 (wt_qDiff RNum w1 i k) (wt_qDiff RNum w2 i k) (wt_qDiff RNum w3 i k).
Proof. intros H. unfold wt_qDiff. eapply bind3; [now apply slot3|]. intros s1 s2 s3 Hs. cbn. apply Hs. Qed.
Lemma R3_same {A} (r1 r2 r3 : res A) : R3 same3 r1 r2 r3 -> r1 = r2 /\ r2 = r3.
Proof. destruct r1, r2, r3; cbn; try contradiction; intros [<- <-]; auto. Qed.
Lemma len3 w1 w2 w3 k : lt w1 w2 w3 -> wt_waveformLen RNum w1 k = wt_waveformLen RNum w3 k /\ wt_waveformLen RNum w2 k = wt_waveformLen RNum w3 k.
Proof.
  intros H. assert (X : R3 same3 (wt_waveformLen RNum w1 k) (wt_waveformLen RNum w2 k) (wt_waveformLen RNum w3 k)).
  { unfold wt_waveformLen. eapply bind3; [now apply m3|]. intros x y z Hx. cbn.
    destruct (F3_zlen _ _ _ _ Hx) as [E1 E2]. split; [now rewrite E1, E2|assumption]. }
  apply R3_same in X. destruct X as [-> ->]. auto.
Qed.
Lemma ph3 w1 w2 w3 : lt w1 w2 w3 -> wt_ph w1 = wt_ph w3 /\ wt_ph w2 = wt_ph w3.
Proof. intros (_ & [-> ->] & _). auto. Qed.

Lemma find3 w1 w2 w3 d dbg : lt w1 w2 w3 ->
  R3 (fun p1 p2 p3 => lt (fst p1) (fst p2) (fst p3) /\ same3 (snd p1) (snd p2) (snd p3))
    (wt_findMipMapIndices RNum dbg w1 d) (wt_findMipMapIndices RNum dbg w2 d) (wt_findMipMapIndices RNum dbg w3 d).
Proof.
  intros (H1 & [E1 E2] & [C1 C2]). unfold wt_findMipMapIndices. rewrite C1, C2. apply bind_same. intros [cf mm]. cbn.
  split; [|split; reflexivity]. repeat split; auto.
Qed.

Lemma rebuildLoop3 : forall m1 m2 m3, D3 m1 m2 m3 -> forall q1 q2 q3 x, D3 q1 q2 q3 ->
  D3 (rebuildLoop RNum m1 q1 x) (rebuildLoop RNum m2 q2 x) (rebuildLoop RNum m3 q3 x).
Proof.
  induction 1 as [|x y z l m n Hx _ IH]; intros q1 q2 q3 xs Hq; cbn; [constructor|].
  inversion Hq as [|x' y' z' l' m' n' Hx' Hq']; subst; [constructor|]. destruct xs; [constructor|].
  constructor; [|now apply IH]. unfold lr in *. rewrite Hx, Hx'. ring.
Qed.

Lemma update3 w1 w2 w3 sr fade dbg : lt w1 w2 w3 ->
  R3 lt (wt_updateSamplerate RNum src dbg w1 sr fade) (wt_updateSamplerate RNum src dbg w2 sr fade) (wt_updateSamplerate RNum src dbg w3 sr fade).
Proof.
  intros H. unfold wt_updateSamplerate.
  assert (En : wt_numWaveforms RNum w1 = wt_numWaveforms RNum w3 /\ wt_numWaveforms RNum w2 = wt_numWaveforms RNum w3).
  { unfold wt_numWaveforms. exact (F3_zlen _ _ _ _ (proj1 H)). }
  destruct En as [En1 En2]. rewrite En1, En2.
  eapply (bind3 D3).
  { unfold rebuildWaveforms. rewrite En1, En2. destruct (ph3 _ _ _ H) as [P1 P2]. unfold wt_phases. rewrite P1, P2.
    destruct (len3 _ _ _ 0 H) as [L1 L2]. rewrite L1, L2.
    apply bind_same. intros _. apply bind_same. intros sz. apply bind_same. intros _.
    eapply (bind3 (F3 D3)).
    - apply mapr3. intros k. eapply bind3; [now apply m3|]. intros x1 x2 x3 Hx. eapply bind3; [now apply q3|]. intros y1 y2 y3 Hy.
      apply bind_same. intros xs. cbn. now apply rebuildLoop3.
    - intros p1 p2 p3 Hp. cbn. now apply F3_concat. }
  intros o1 o2 o3 Ho. eapply bind3; [now apply build3|]. intros [v1|] [v2|] [v3|] Hv; cbn in *; try contradiction; auto.
Qed.

(** ** One sample *)
Lemma load3 l1 l2 l3 i : L3 l1 l2 l3 -> R3 L3 (load RNum cfg l1 i) (load RNum cfg l2 i) (load RNum cfg l3 i).
Proof.
  intros H. unfold load. destruct (F3_length _ _ _ _ H) as [E1 E2].
  change (Num.C RNum) with (R * R)%type. rewrite E1, E2. destruct (_ <=? _)%nat; cbn; [|auto]. now apply F3_firstn, F3_skipn.
Qed.
Lemma store3 l1 l2 l3 i v1 v2 v3 : L3 l1 l2 l3 -> L3 v1 v2 v3 -> R3 L3 (store RNum l1 i v1) (store RNum l2 i v2) (store RNum l3 i v3).
Proof.
  intros H Hv. unfold store. destruct (F3_length _ _ _ _ H) as [E1 E2]. destruct (F3_length _ _ _ _ Hv) as [V1 V2].
  change (Num.C RNum) with (R * R)%type. rewrite E1, E2, V1, V2. destruct (_ <=? _)%nat; cbn; [|auto].
  apply F3_app; [now apply F3_firstn|]. apply F3_app; [assumption|now apply F3_skipn].
Qed.

Lemma i0_lane3 a1 b1 c1 d1 a2 b2 c2 d2 a3 b3 c3 d3 pd ez z : lr a1 a2 a3 -> lr b1 b2 b3 -> lr c1 c2 c3 -> lr d1 d2 d3 ->
  lc (i0_lane RNum (tmul RNum a1 pd) b1 (tmul RNum c1 pd) d1 ez z) (i0_lane RNum (tmul RNum a2 pd) b2 (tmul RNum c2 pd) d2 ez z)
     (i0_lane RNum (tmul RNum a3 pd) b3 (tmul RNum c3 pd) d3 ez z) /\
  lc (i0_scalar RNum a1 b1 c1 d1 pd ez z) (i0_scalar RNum a2 b2 c2 d2 pd ez z) (i0_scalar RNum a3 b3 c3 d3 pd ez z).
Proof.
  unfold lr. intros -> -> -> ->. destruct ez as [e1 e2], z as [z1 z2].
  repeat split; cbn; unfold lr; ring.
Qed.
Lemma map2_3 {X Y} (f g h : X -> Y -> R * R) : (forall x y, lc (f x y) (g x y) (h x y)) ->
  forall xs ys, L3 (map2 f xs ys) (map2 g xs ys) (map2 h xs ys).
Proof. intros H. induction xs as [|x xs IH]; intros [|y ys]; cbn; constructor; auto. Qed.

Lemma computeI0_3 w1 w2 w3 wf r1 r2 r3 mi ip inx d p q : lt w1 w2 w3 -> L3 r1 r2 r3 ->
  R3 L3 (computeI0 RNum cfg F w1 wf r1 mi ip inx d p q) (computeI0 RNum cfg F w2 wf r2 mi ip inx d p q)
     (computeI0 RNum cfg F w3 wf r3 mi ip inx d p q).
Proof.
  intros HT Hr. unfold computeI0.
  eapply bind3; [now apply m3|]. intros ms1 ms2 ms3 Hm. eapply bind3; [now apply q3|]. intros qs1 qs2 qs3 Hq.
  eapply bind3; [apply (F3_znth lr); exact Hm|]. intros mp1 mp2 mp3 Hmp.
  eapply bind3; [apply (F3_znth lr); exact Hq|]. intros qp1 qp2 qp3 Hqp.
  eapply bind3; [apply (F3_znth lr); exact Hm|]. intros mn1 mn2 mn3 Hmn.
  eapply bind3; [apply (F3_znth lr); exact Hq|]. intros qn1 qn2 qn3 Hqn.
  cbv zeta.
  assert (Hb : lr (tmad RNum 1 mp1 p qp1) (tmad RNum 1 mp2 p qp2) (tmad RNum 1 mp3 p qp3))
    by (unfold lr in *; cbn; rewrite Hmp, Hqp; ring).
  assert (Hd : lr (tmad RNum 2 mn1 q qn1) (tmad RNum 2 mn2 q qn2) (tmad RNum 2 mn3 q qn3))
    by (unfold lr in *; cbn; rewrite Hmn, Hqn; ring).
  revert Hb Hd. generalize (tmad RNum 1 mp1 p qp1), (tmad RNum 1 mp2 p qp2), (tmad RNum 1 mp3 p qp3),
    (tmad RNum 2 mn1 q qn1), (tmad RNum 2 mn2 q qn2), (tmad RNum 2 mn3 q qn3).
  intros pb1 pb2 pb3 pd1 pd2 pd3 Hb Hd.
  assert (Batch : forall s1 s2 s3 i, L3 s1 s2 s3 -> R3 L3 (i0_batch RNum cfg F (tmul RNum mp1 d) pb1 (tmul RNum mn1 d) pd1 s1 i)
     (i0_batch RNum cfg F (tmul RNum mp2 d) pb2 (tmul RNum mn2 d) pd2 s2 i) (i0_batch RNum cfg F (tmul RNum mp3 d) pb3 (tmul RNum mn3 d) pd3 s3 i)).
  { intros s1 s2 s3 i Hs. unfold i0_batch. apply bind_same. intros ez. apply bind_same. intros z.
    apply store3; [assumption|]. apply map2_3. intros x y. exact (proj1 (i0_lane3 mp1 pb1 mn1 pd1 mp2 pb2 mn2 pd2 mp3 pb3 mn3 pd3 d x y Hmp Hb Hmn Hd)). }
  eapply (bind3 L3); [apply foldr3; [exact Batch|exact Hr]|]. intros s1 s2 s3 Hs.
  destruct (usePartialBatch _ _); [now apply Batch|].
  apply foldr3; [|exact Hs]. intros t1 t2 t3 i Ht. unfold i0_one. apply bind_same. intros ez. apply bind_same. intros z.
  apply F3_zset; [assumption|]. exact (proj2 (i0_lane3 mp1 pb1 mn1 pd1 mp2 pb2 mn2 pd2 mp3 pb3 mn3 pd3 d ez z Hmp Hb Hmn Hd)).
Qed.

Lemma sum_lane3 fwd pa pd ph m1 m2 m3 q1 q2 q3 z i1 i2 i3 : lr m1 m2 m3 -> lr q1 q2 q3 -> lc i1 i2 i3 ->
  lc (sum_lane_upd RNum fwd pa pd ph m1 q1 z i1) (sum_lane_upd RNum fwd pa pd ph m2 q2 z i2) (sum_lane_upd RNum fwd pa pd ph m3 q3 z i3) /\
  lc (sum_scalar_upd RNum fwd pa pd ph m1 q1 z i1) (sum_scalar_upd RNum fwd pa pd ph m2 q2 z i2) (sum_scalar_upd RNum fwd pa pd ph m3 q3 z i3).
Proof.
  destruct z as [z1 z2], i1 as [x1 y1], i2 as [x2 y2], i3 as [x3 y3].
  unfold lc, lr. cbn [fst snd]. intros -> -> [-> ->].
  unfold sum_lane_upd, sum_scalar_upd, sum_lane. destruct fwd; (repeat split);
    cbn -[exp cos sin]; unfold Rcexp; cbn -[exp cos sin]; ring.
Qed.

Lemma sum_orders3 fwd pa pd ph m1 m2 m3 q1 q2 q3 r1 r2 r3 : lr m1 m2 m3 -> lr q1 q2 q3 -> L3 r1 r2 r3 ->
  R3 L3 (sum_orders RNum cfg F fwd pa pd ph m1 q1 r1) (sum_orders RNum cfg F fwd pa pd ph m2 q2 r2)
    (sum_orders RNum cfg F fwd pa pd ph m3 q3 r3).
Proof.
  intros Hm Hq Hr. unfold sum_orders.
  assert (Batch : forall s1 s2 s3 i, L3 s1 s2 s3 -> R3 L3 (sum_batch RNum cfg F fwd pa pd ph m1 q1 s1 i)
     (sum_batch RNum cfg F fwd pa pd ph m2 q2 s2 i) (sum_batch RNum cfg F fwd pa pd ph m3 q3 s3 i)).
  { intros s1 s2 s3 i Hs. unfold sum_batch. apply bind_same. intros z. eapply bind3; [apply load3; exact Hs|]. intros u1 u2 u3 Hu.
    apply store3; [assumption|]. eapply (F3_map2 lc lc); [|exact Hu]. intros e x y t Hx. now apply sum_lane3. }
  eapply (bind3 L3); [apply foldr3; [exact Batch|exact Hr]|]. intros s1 s2 s3 Hs.
  destruct (usePartialBatch _ _); [now apply Batch|].
  apply foldr3; [|exact Hs]. intros t1 t2 t3 i Ht. unfold sum_one. apply bind_same. intros z.
  eapply (bind3 lc); [now apply F3_znth|]. intros u1 u2 u3 Hu. apply F3_zset; [assumption|]. now apply sum_lane3.
Qed.

Lemma fwdI3 w1 w2 w3 wf pr r1 r2 r3 mi jm jx d p : lt w1 w2 w3 -> L3 r1 r2 r3 ->
  R3 L3 (computeFwdI RNum cfg F w1 wf pr r1 mi jm jx d p) (computeFwdI RNum cfg F w2 wf pr r2 mi jm jx d p)
    (computeFwdI RNum cfg F w3 wf pr r3 mi jm jx d p).
Proof.
  intros HT Hr. unfold computeFwdI. eapply bind3; [now apply computeI0_3|]. intros s1 s2 s3 Hs.
  unfold computeISumFwd. destruct (len3 _ _ _ mi HT) as [-> ->]. apply bind_same. intros len. apply bind_same. intros bs.
  eapply bind3; [now apply md3|]. intros md1 md2 md3' Hm. eapply bind3; [now apply qd3|]. intros qd1 qd2 qd3' Hq.
  unfold wt_phases. destruct (ph3 _ _ _ HT) as [-> ->]. apply bind_same. intros ph.
  apply foldr3; [|exact Hs]. intros t1 t2 t3 i Ht. unfold sumFwd_iter. apply bind_same. intros ir. apply bind_same. intros pp.
  eapply bind3; [apply (F3_znth lr); exact Hm|]. intros u1 u2 u3 Hu.
  eapply bind3; [apply (F3_znth lr); exact Hq|]. intros v1 v2 v3 Hv. now apply sum_orders3.
Qed.
Lemma bwdI3 w1 w2 w3 wf pr r1 r2 r3 mi j jm jx d p : lt w1 w2 w3 -> L3 r1 r2 r3 ->
  R3 L3 (computeBwdI RNum cfg F w1 wf pr r1 mi j jm jx d p) (computeBwdI RNum cfg F w2 wf pr r2 mi j jm jx d p)
    (computeBwdI RNum cfg F w3 wf pr r3 mi j jm jx d p).
Proof.
  intros HT Hr. unfold computeBwdI. apply bind_same. intros _. eapply bind3; [now apply computeI0_3|]. intros s1 s2 s3 Hs.
  unfold computeISumBwd. apply bind_same. intros _.
  destruct (len3 _ _ _ mi HT) as [-> ->]. apply bind_same. intros len. apply bind_same. intros bs.
  eapply bind3; [now apply md3|]. intros md1 md2 md3' Hm. eapply bind3; [now apply qd3|]. intros qd1 qd2 qd3' Hq.
  unfold wt_phases. destruct (ph3 _ _ _ HT) as [-> ->]. apply bind_same. intros ph.
  apply foldr3; [|exact Hs]. intros t1 t2 t3 i Ht. unfold sumBwd_iter. apply bind_same. intros ir. apply bind_same. intros pp.
  eapply bind3; [apply (F3_znth lr); exact Hm|]. intros u1 u2 u3 Hu.
  eapply bind3; [apply (F3_znth lr); exact Hq|]. intros v1 v2 v3 Hv. now apply sum_orders3.
Qed.

Lemma map2_mix3 g gu : forall l1 l2 l3, L3 l1 l2 l3 -> forall m1 m2 m3, L3 m1 m2 m3 ->
  let mix := fun x y => caddx RNum 30 x g y gu in
  L3 (map2 mix l1 m1) (map2 mix l2 m2) (map2 mix l3 m3).
Proof.
  induction 1 as [|x y z l m n Hx _ IH]; intros m1 m2 m3' Hm mix; cbn; [constructor|].
  inversion Hm as [|x' y' z' l' m' n' Hx' Hm']; subst; [constructor|]. constructor; [|now apply IH].
  destruct Hx as [Hx1 Hx2], Hx' as [Hy1 Hy2]. unfold lc, lr in *. cbn. rewrite Hx1, Hx2, Hy1, Hy2. split; ring.
Qed.
Lemma crossfade3 l1 l2 l3 m1 m2 m3' g gu : L3 l1 l2 l3 -> L3 m1 m2 m3' ->
  L3 (crossfadeArr RNum cfg F l1 m1 g gu) (crossfadeArr RNum cfg F l2 m2 g gu) (crossfadeArr RNum cfg F l3 m3' g gu).
Proof.
  intros Hl Hm. unfold crossfadeArr. destruct (usePartialBatch _ _); [now apply map2_mix3|].
  apply F3_app; [apply map2_mix3; now apply F3_firstn|now apply F3_skipn].
Qed.

Lemma yLoop3 : forall y1 y2 y3, L3 y1 y2 y3 -> forall r p e i1 i2 i3, L3 i1 i2 i3 ->
  L3 (yLoop RNum y1 r p e i1) (yLoop RNum y2 r p e i2) (yLoop RNum y3 r p e i3).
Proof.
  induction 1 as [|x y z l m n Hx _ IH]; intros r p e i1 i2 i3 Hi; cbn [yLoop]; [constructor|].
  destruct r as [|r0 r]; [constructor|]. destruct p as [|p0 p]; [constructor|]. destruct e as [|e0 e]; [constructor|].
  inversion Hi as [|x' y' z' l' m' n' Hx' Hi']; subst; [constructor|]. constructor; [|now apply IH].
  destruct x as [x1 x2], y as [y1 y2], z as [z1 z2], x' as [u1 u2], y' as [v1 v2], z' as [t1 t2].
  destruct Hx as [Hx1 Hx2], Hx' as [Hy1 Hy2]. unfold lc, lr in *. cbn [fst snd] in *. rewrite Hx1, Hx2, Hy1, Hy2.
  destruct r0, p0, e0. unfold yStep. cbn. unfold Rdiv. split; ring.
Qed.
Lemma yOut3 y1 y2 y3 : L3 y1 y2 y3 -> lr (yOut RNum y1) (yOut RNum y2) (yOut RNum y3).
Proof.
  intros H. unfold yOut. cbn [torder RNum]. rewrite !addsUp_never.
  assert (G : forall c1 c2 c3 : R * R, lc c1 c2 c3 ->
     lc (fold_left (cadd RNum) y1 c1) (fold_left (cadd RNum) y2 c2) (fold_left (cadd RNum) y3 c3)).
  { induction H as [|x y z l m n Hx _ IH]; intros c1 c2 c3 A; cbn [fold_left]; [exact A|]. apply IH.
    destruct A as [A1 A2], Hx as [Hx1 Hx2]. unfold lc, lr in *. cbn. rewrite A1, A2, Hx1, Hx2. split; ring. }
  exact (proj1 (G _ _ _ lc0)).
Qed.

(** oscillators *)
Definition lO (o1 o2 o3 : Osc RNum) : Prop :=
  lo lt (o_wt o1) (o_wt o2) (o_wt o3) /\ L3 (o_y o1) (o_y o2) (o_y o3) /\
  same3 (o_phase o1) (o_phase o2) (o_phase o3) /\ same3 (o_phred o1) (o_phred o2) (o_phred o3) /\
  same3 (o_pd o1) (o_pd o2) (o_pd o3) /\ same3 (o_mm o1) (o_mm o2) (o_mm o3) /\ same3 (o_j o1) (o_j o2) (o_j o3) /\
  same3 (o_pj o1) (o_pj o2) (o_pj o3) /\ same3 (o_wf o1) (o_wf o2) (o_wf o3).

Definition lI (x y z : Idx RNum) : Prop :=
  lt (ix_wt _ x) (ix_wt _ y) (ix_wt _ z) /\
  exists v1 v2 w mi g mu gu ph len j pj jm jr jx,
    x = mkIdx _ v1 mi g mu gu ph len j pj jm jr jx /\
    y = mkIdx _ v2 mi g mu gu ph len j pj jm jr jx /\
    z = mkIdx _ w mi g mu gu ph len j pj jm jr jx.

Lemma idx3 o1 o2 o3 w1 w2 w3 p d : lO o1 o2 o3 -> lt w1 w2 w3 ->
  R3 lI (idxFwd RNum cfg o1 w1 p d) (idxFwd RNum cfg o2 w2 p d) (idxFwd RNum cfg o3 w3 p d) /\
  R3 lI (idxBwd RNum cfg o1 w1 p d) (idxBwd RNum cfg o2 w2 p d) (idxBwd RNum cfg o3 w3 p d).
Proof.
  intros (_ & _ & _ & [P1 P2] & [D1 D2] & [M1 M2] & [J1 J2] & _ & _) HT. unfold idxFwd, idxBwd.
  rewrite P1, P2, D1, D2, M1, M2, J1, J2. split.
  - apply bind_same. intros _. eapply bind3; [now apply find3|].
    intros [v1 [[[a1 b1] c1] e1]] [v2 [[[a2 b2] c2] e2]] [v3 [[[a3 b3] c3] e3]] [HV [X1 X2]]. cbn [fst snd] in *.
    injection X1 as -> -> -> ->. injection X2 as -> -> -> ->.
    unfold wt_phases. destruct (ph3 _ _ _ HV) as [-> ->]. destruct (len3 _ _ _ a3 HV) as [-> ->].
    repeat (apply bind_same; intros ?). split; [exact HV|]. do 14 eexists. repeat split; reflexivity.
  - apply bind_same. intros _. eapply bind3; [now apply find3|].
    intros [v1 [[[a1 b1] c1] e1]] [v2 [[[a2 b2] c2] e2]] [v3 [[[a3 b3] c3] e3]] [HV [X1 X2]]. cbn [fst snd] in *.
    injection X1 as -> -> -> ->. injection X2 as -> -> -> ->.
    unfold wt_phases. destruct (ph3 _ _ _ HV) as [-> ->]. destruct (len3 _ _ _ a3 HV) as [-> ->].
    repeat (apply bind_same; intros ?). split; [exact HV|]. do 14 eexists. repeat split; reflexivity.
Qed.

Definition lOut (x y z : Osc RNum * R) : Prop := lO (fst x) (fst y) (fst z) /\ lr (snd x) (snd y) (snd z).

Lemma finish3 o1 o2 o3 x1 x2 x3 p d i1 i2 i3 : lO o1 o2 o3 -> lI x1 x2 x3 -> L3 i1 i2 i3 ->
  lOut (finish RNum cfg F o1 x1 p d i1) (finish RNum cfg F o2 x2 p d i2) (finish RNum cfg F o3 x3 p d i3).
Proof.
  intros (_ & Y & _ & _ & _ & _ & _ & _ & WF) (HV & v1 & v2 & w & mi & g & mu & gu & ph & len & j & pj & jm & jr & jx & -> & -> & ->) HI.
  unfold finish. cbn [ix_wt ix_phred ix_mi ix_j ix_pj].
  assert (HY := yLoop3 _ _ _ Y (r_array RNum cfg F) (z_pow2_array RNum cfg F) (exp_z_array RNum cfg F) _ _ _ HI).
  split; cbn [fst snd]; [|now apply yOut3]. repeat split; auto; cbn; try apply WF; try apply HV.
Qed.

Lemma sample3 o1 o2 o3 w1 w2 w3 p d : lO o1 o2 o3 -> lt w1 w2 w3 ->
  R3 lOut (processSampleFwd RNum cfg F o1 w1 p d) (processSampleFwd RNum cfg F o2 w2 p d) (processSampleFwd RNum cfg F o3 w3 p d) /\
  R3 lOut (processSampleBwd RNum cfg F o1 w1 p d) (processSampleBwd RNum cfg F o2 w2 p d) (processSampleBwd RNum cfg F o3 w3 p d).
Proof.
  intros HO HT. assert (HO' := HO). destruct HO as (_ & Y & _ & [P1 P2] & _ & _ & _ & _ & [W1 W2]).
  destruct (idx3 o1 o2 o3 w1 w2 w3 p d HO' HT) as [IF IB].
  assert (HZ : L3 (zeroArr RNum cfg F) (zeroArr RNum cfg F) (zeroArr RNum cfg F)) by (apply F3_repeat; apply lc0).
  unfold processSampleFwd, processSampleBwd. rewrite P1, P2, W1, W2. split.
  - eapply bind3; [exact IF|]. intros x1 x2 x3 HI. assert (HI' := HI).
    destruct HI as (HV & v1 & v2 & w & mi & g & mu & gu & ph & len & j & pj & jm & jr & jx & -> & -> & ->).
    cbn [ix_wt ix_mi ix_w ix_mu ix_wu ix_phred ix_len ix_j ix_pj ix_jmin ix_jmin_red ix_jmax_p_red] in *.
    eapply bind3; [now apply fwdI3|]. intros a1 a2 a3 HA.
    eapply (bind3 L3).
    { destruct (negb _); [|exact HA]. eapply bind3; [now apply fwdI3|]. intros u1 u2 u3 HU. now apply crossfade3. }
    intros i1 i2 i3 HI. cbn [R3]. apply finish3; [exact HO'|exact HI'|exact HI].
  - eapply bind3; [exact IB|]. intros x1 x2 x3 HI. assert (HI' := HI).
    destruct HI as (HV & v1 & v2 & w & mi & g & mu & gu & ph & len & j & pj & jm & jr & jx & -> & -> & ->).
    cbn [ix_wt ix_mi ix_w ix_mu ix_wu ix_phred ix_len ix_j ix_pj ix_jmin ix_jmin_red ix_jmax_p_red] in *.
    eapply bind3; [now apply bwdI3|]. intros a1 a2 a3 HA.
    eapply (bind3 L3).
    { destruct (negb _); [|exact HA]. eapply bind3; [now apply bwdI3|]. intros u1 u2 u3 HU. now apply crossfade3. }
    intros i1 i2 i3 HI. cbn [R3]. now apply finish3.
Qed.

Lemma one3 dir o1 o2 o3 p : lO o1 o2 o3 ->
  R3 lOut (processOne RNum cfg F dir o1 p) (processOne RNum cfg F dir o2 p) (processOne RNum cfg F dir o3 p).
Proof.
  intros HO. assert (HO' := HO). destruct HO as (W & _ & [P1 P2] & _). unfold processOne. rewrite P1, P2.
  destruct (o_wt o1) as [w1|], (o_wt o2) as [w2|], (o_wt o3) as [w3|]; cbn in W; try contradiction; [|cbn; auto].
  destruct dir.
  - apply bind_same. intros _. now apply sample3.
  - destruct (tle _ _ _); now apply sample3.
Qed.

Definition lOuts (x y z : Osc RNum * list R) : Prop := lO (fst x) (fst y) (fst z) /\ D3 (snd x) (snd y) (snd z).
Lemma zero_D3 (l : list R) : (forall x, In x l -> x = 0) -> D3 l l l.
Proof. induction l as [|x l IH]; intros H; constructor; [rewrite (H x (or_introl eq_refl)); apply lr0|]. apply IH. intros; apply H; now right. Qed.
Lemma loop3 dir ps : forall o1 o2 o3 out, lO o1 o2 o3 -> (forall x, In x out -> x = 0) ->
  R3 lOuts (processLoop RNum cfg F dir o1 ps out) (processLoop RNum cfg F dir o2 ps out) (processLoop RNum cfg F dir o3 ps out).
Proof.
  induction ps as [|p ps IH]; intros o1 o2 o3 out HO Hz; cbn [processLoop].
  - split; [assumption|now apply zero_D3].
  - destruct out as [|x out]; [split; [assumption|constructor]|].
    eapply bind3; [now apply one3|]. intros [q1 y1] [q2 y2] [q3' y3] [HQ HY]. cbn [fst snd] in *.
    eapply bind3; [apply IH; [exact HQ|]|].
    + intros z Hz'. apply Hz. now right.
    + intros [r1 z1] [r2 z2] [r3 z3] [HR HZ]. split; [exact HR|]. constructor; assumption.
Qed.

Lemma reset3 o1 o2 o3 p d : lO o1 o2 o3 ->
  R3 lO (resetInternals RNum cfg F o1 p d) (resetInternals RNum cfg F o2 p d) (resetInternals RNum cfg F o3 p d).
Proof.
  intros HO. assert (HO' := HO). destruct HO as (W & _ & _ & _ & _ & _ & _ & PJ & WF). unfold resetInternals.
  destruct (o_wt o1) as [w1|], (o_wt o2) as [w2|], (o_wt o3) as [w3|]; cbn in W; try contradiction.
  2:{ apply bind_same. intros _. cbn. auto. }
  cbn [is_some]. apply bind_same. intros _. apply bind_same. intros ph.
  eapply bind3; [now apply find3|].
  intros [v1 [[[a1 b1] c1] e1]] [v2 [[[a2 b2] c2] e2]] [v3 [[[a3 b3] c3] e3]] [HV [X1 X2]]. cbn [fst snd] in *.
  injection X1 as -> -> -> ->. injection X2 as -> -> -> ->.
  destruct (len3 _ _ _ a3 HV) as [-> ->]. apply bind_same. intros len. apply bind_same. intros j. cbn [R3].
  repeat split; cbn; try apply HV; try apply PJ; try apply WF. apply F3_repeat. apply lc0.
Qed.

Lemma set_wt3 o1 o2 o3 w1 w2 w3 : lO o1 o2 o3 -> lo lt w1 w2 w3 -> lO (set_wt RNum o1 w1) (set_wt RNum o2 w2) (set_wt RNum o3 w3).
Proof. intros (W & Y & H1 & H2 & H3 & H4 & H5 & H6 & H7) H. repeat split; cbn; auto; try apply H1; try apply H2; try apply H3; try apply H4; try apply H5; try apply H6; try apply H7. Qed.
Lemma set_wf3 o1 o2 o3 k : lO o1 o2 o3 -> lO (set_wf RNum o1 k) (set_wf RNum o2 k) (set_wf RNum o3 k).
Proof. intros (W & Y & H1 & H2 & H3 & H4 & H5 & H6 & H7). repeat split; cbn; auto; try apply H1; try apply H2; try apply H3; try apply H4; try apply H5; try apply H6. Qed.

Lemma load_op3 o1 o2 o3 w1 w2 w3 p d : lO o1 o2 o3 -> lt w1 w2 w3 ->
  R3 lO (let! x := resetInternals RNum cfg F (set_wt RNum o1 (Some w1)) p d in Ok (set_wf RNum x 0))
        (let! x := resetInternals RNum cfg F (set_wt RNum o2 (Some w2)) p d in Ok (set_wf RNum x 0))
        (let! x := resetInternals RNum cfg F (set_wt RNum o3 (Some w3)) p d in Ok (set_wf RNum x 0)).
Proof.
  intros HO HT. eapply bind3; [apply reset3; now apply set_wt3|]. intros x1 x2 x3 HX. cbn. now apply set_wf3.
Qed.

Definition isLoad (op : Op RNum) : Prop :=
  match op with OpInit (Some _) _ _ | OpSwap (Some _) _ _ => True | _ => False end.
Lemma apply3 o1 o2 o3 op : lO o1 o2 o3 -> ~ isLoad op ->
  R3 lOuts (Osc.apply RNum src cfg F o1 op) (Osc.apply RNum src cfg F o2 op) (Osc.apply RNum src cfg F o3 op).
Proof.
  intros HO HL. assert (W : lo lt (o_wt o1) (o_wt o2) (o_wt o3)) by apply HO.
  assert (Es : is_some (o_wt o1) = is_some (o_wt o3) /\ is_some (o_wt o2) = is_some (o_wt o3)).
  { destruct (o_wt o1), (o_wt o2), (o_wt o3); cbn in *; try contradiction; auto. }
  destruct Es as [Es1 Es2].
  destruct op as [[w|] p d|[w|] p d|p d|k|sr|dir ps]; cbn [Osc.apply osc_init osc_swap bind]; cbn [isLoad] in HL; try (now elim HL).
  - split; [exact HO|constructor].
  - split; [exact HO|constructor].
  - eapply bind3; [now apply reset3|]. intros x1 x2 x3 HX. split; [exact HX|constructor].
  - unfold setWaveform. rewrite Es1, Es2. destruct (assert_ _ _); cbn [bind]; [|cbn; auto].
    split; [now apply set_wf3|constructor].
  - unfold osc_updateSamplerate. rewrite Es1, Es2. destruct (assert_ _ _); cbn [bind]; [|cbn; auto].
    destruct (o_wt o1) as [w1|], (o_wt o2) as [w2|], (o_wt o3) as [w3|]; cbn in W; try contradiction; [|cbn; auto].
    eapply (bind3 lO).
    + eapply bind3; [now apply update3|]. intros v1 v2 v3 HV. cbn. apply set_wt3; [exact HO|exact HV].
    + intros x1 x2 x3 HX. split; [exact HX|constructor].
  - unfold process. rewrite Es1, Es2. apply bind_same. intros _. apply bind_same. intros _.
    apply loop3; [exact HO|]. intros x Hx. apply in_map_iff in Hx. destruct Hx as (? & <- & _). reflexivity.
Qed.

Lemma linTables_lt w1 w2 w3 : linTables src (dbg cfg) a b w1 w2 w3 -> lt w1 w2 w3.
Proof.
  intros (xs & ys & nw & sr & fade & Hl & E1 & E2 & E3).
  assert (Bd := build3 (dbg cfg) xs ys _ nw sr fade (lincomb_D3 xs ys Hl)).
  rewrite E1, E2 in Bd. unfold R3 in Bd. change (T RNum) with R in *. rewrite E3 in Bd. exact Bd.
Qed.

Lemma run3 l1 l2 l3 : linScripts src (dbg cfg) a b l1 l2 l3 -> forall o1 o2 o3, lO o1 o2 o3 ->
  R3 lOuts (Osc.run RNum src cfg F o1 l1) (Osc.run RNum src cfg F o2 l2) (Osc.run RNum src cfg F o3 l3).
Proof.
  assert (Join : forall r1 r2 r3 (k1 k2 k3 : Osc RNum -> res (Osc RNum * list R)), R3 lOuts r1 r2 r3 ->
    (forall o1 o2 o3, lO o1 o2 o3 -> R3 lOuts (k1 o1) (k2 o2) (k3 o3)) ->
    R3 lOuts (let! (o, ys) := r1 in let! (o', zs) := k1 o in Ok (o', ys ++ zs))
             (let! (o, ys) := r2 in let! (o', zs) := k2 o in Ok (o', ys ++ zs))
             (let! (o, ys) := r3 in let! (o', zs) := k3 o in Ok (o', ys ++ zs))).
  { intros r1 r2 r3 k1 k2 k3 HR HK. eapply bind3; [exact HR|]. intros [x1 y1] [x2 y2] [x3 y3] [HX HY]. cbn [fst snd] in *.
    eapply bind3; [now apply HK|]. intros [u1 v1] [u2 v2] [u3 v3] [HU HV]. cbn [fst snd] in *.
    split; [exact HU|]. cbn [snd]. now apply F3_app. }
  induction 1 as [|w1 w2 w3 p d l1 l2 l3 HT HL IH|w1 w2 w3 p d l1 l2 l3 HT HL IH|op l1 l2 l3 Hop HL IH]; intros o1 o2 o3 HO; cbn [Osc.run].
  - split; [exact HO|constructor].
  - apply Join; [|exact IH]. cbn [Osc.apply osc_init].
    assert (X := load_op3 o1 o2 o3 w1 w2 w3 p d HO (linTables_lt _ _ _ HT)). unfold R3 in X.
    destruct (resetInternals RNum cfg F (set_wt RNum o1 _) p d), (resetInternals RNum cfg F (set_wt RNum o2 _) p d),
      (resetInternals RNum cfg F (set_wt RNum o3 _) p d); cbn in *; try contradiction; auto. split; [exact X|constructor].
  - apply Join; [|exact IH]. cbn [Osc.apply osc_swap].
    assert (X := load_op3 o1 o2 o3 w1 w2 w3 p d HO (linTables_lt _ _ _ HT)). unfold R3 in X.
    destruct (resetInternals RNum cfg F (set_wt RNum o1 _) p d), (resetInternals RNum cfg F (set_wt RNum o2 _) p d),
      (resetInternals RNum cfg F (set_wt RNum o3 _) p d); cbn in *; try contradiction; auto. split; [exact X|constructor].
  - apply Join; [|exact IH]. apply apply3; [exact HO|]. destruct op as [[?|] ? ?|[?|] ? ?| | | |]; cbn; auto.
Qed.

Lemma new3 : lO (osc_new RNum F) (osc_new RNum F) (osc_new RNum F).
Proof. repeat split. cbn. apply F3_repeat. apply lc0. Qed.
End Lin.
