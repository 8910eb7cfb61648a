(** * Rel: the whole library preserves any relation between samples that its arithmetic
    preserves (lemmas behind C60).

    A logical relation, function by function: all decisions (indices, gains, faults) are the
    same in both runs, all sample-dependent values are related. *)
From Coq Require Import ZArith List Bool Lia Arith.
From Verif Require Import Num Maths CrossFader Wavetable Filters Osc NumFacts SpecS.
Import ListNotations.
Local Open Scope Z_scope.

(** ** Plumbing *)
Definition R2 {A} (P : A -> A -> Prop) (r1 r2 : res A) : Prop :=
  match r1, r2 with
  | Ok x, Ok y => P x y
  | Fault f, Fault g => f = g
  | _, _ => False
  end.
Lemma bind2 {A B} (P : A -> A -> Prop) (Q : B -> B -> Prop) r1 r2 k1 k2 : R2 P r1 r2 ->
  (forall x y, P x y -> R2 Q (k1 x) (k2 y)) -> R2 Q (bind r1 k1) (bind r2 k2).
Proof. destruct r1, r2; cbn; intros H K; try contradiction; auto. Qed.
Lemma bind_eq2 {A B} (Q : B -> B -> Prop) (r : res A) k1 k2 :
  (forall x, R2 Q (k1 x) (k2 x)) -> R2 Q (bind r k1) (bind r k2).
Proof. destruct r; cbn; auto. Qed.

Section Lists.
Context {A : Type}.
Variable P : A -> A -> Prop.
Lemma F2_length l m : Forall2 P l m -> length l = length m.
Proof. induction 1; cbn; lia. Qed.
Lemma F2_zlen l m : Forall2 P l m -> zlen l = zlen m.
Proof. intros H. apply F2_length in H. unfold zlen. lia. Qed.
Lemma F2_firstn k : forall l m, Forall2 P l m -> Forall2 P (firstn k l) (firstn k m).
Proof. induction k; intros l m H; [constructor|]. inversion H; subst; cbn; constructor; auto. Qed.
Lemma F2_skipn k : forall l m, Forall2 P l m -> Forall2 P (skipn k l) (skipn k m).
Proof. induction k; intros l m H; [assumption|]. inversion H; subst; cbn; [constructor|auto]. Qed.
Lemma F2_repeat x y k : P x y -> Forall2 P (repeat x k) (repeat y k).
Proof. intros H. induction k; cbn; constructor; auto. Qed.
Lemma F2_znth l m i : Forall2 P l m -> R2 P (znth l i) (znth m i).
Proof.
  intros H. unfold znth. destruct (i <? 0)%Z; [reflexivity|]. generalize (Z.to_nat i) as k. clear i.
  induction H; intros [|k]; cbn; auto; try apply IHForall2.
Qed.
Lemma F2_nth l m d d' i : Forall2 P l m -> P d d' -> P (nth i l d) (nth i m d').
Proof. intros H Hd. revert i. induction H; intros [|i]; cbn; auto. Qed.
Lemma F2_nset l m i x y : Forall2 P l m -> P x y -> Forall2 P (nset l i x) (nset m i y).
Proof. intros H Hx. revert i. induction H; intros [|i]; cbn; constructor; auto. Qed.
Lemma F2_zset l m i x y : Forall2 P l m -> P x y -> R2 (Forall2 P) (zset l i x) (zset m i y).
Proof.
  intros H Hx. unfold zset. rewrite (F2_zlen _ _ H).
  destruct ((0 <=? i) && (i <? zlen m))%Z; cbn; [|auto]. now apply F2_nset.
Qed.
Lemma mapr2 {X} (f1 f2 : X -> res A) xs : (forall x, R2 P (f1 x) (f2 x)) ->
  R2 (Forall2 P) (mapr f1 xs) (mapr f2 xs).
Proof.
  intros H. induction xs as [|x xs IH]; cbn [mapr]; [constructor|].
  eapply bind2; [apply H|]. intros. eapply bind2; [exact IH|]. intros. cbn. constructor; auto.
Qed.
Lemma foldr2 {X} (f1 f2 : A -> X -> res A) xs : (forall s1 s2 x, P s1 s2 -> R2 P (f1 s1 x) (f2 s2 x)) ->
  forall s1 s2, P s1 s2 -> R2 P (foldr f1 xs s1) (foldr f2 xs s2).
Proof.
  intros H. induction xs as [|x xs IH]; intros s1 s2 Hs; cbn [foldr]; [exact Hs|].
  eapply bind2; [now apply H|]. intros. now apply IH.
Qed.
End Lists.
Lemma F2_map {A B} (P : A -> A -> Prop) (Q : B -> B -> Prop) (f g : A -> B) l m :
  (forall x y, P x y -> Q (f x) (g y)) -> Forall2 P l m -> Forall2 Q (map f l) (map g m).
Proof. intros H. induction 1; cbn; constructor; auto. Qed.
Lemma F2_concat {A} (P : A -> A -> Prop) l m : Forall2 (Forall2 P) l m -> Forall2 P (concat l) (concat m).
Proof. induction 1; cbn; [constructor|]. now apply Forall2_app. Qed.
Lemma F2_map2 {X A B} (P : A -> A -> Prop) (Q : B -> B -> Prop) (f g : X -> A -> B) :
  (forall e x y, P x y -> Q (f e x) (g e y)) ->
  forall es l m, Forall2 P l m -> Forall2 Q (map2 f es l) (map2 g es m).
Proof.
  intros H. induction es as [|e es IH]; intros l m Hl; cbn; [constructor|]. inversion Hl; subst; constructor; auto.
Qed.

(** ** What the arithmetic must preserve *)
Record Preserved (N : Num) (rr : T N -> T N -> Prop) (dd : D N -> D N -> Prop) : Prop := {
  pr_0 : rr (t0 N) (t0 N);
  pr_add a a' b b' : rr a a' -> rr b b' -> rr (tadd N a b) (tadd N a' b');
  pr_sub a a' b b' : rr a a' -> rr b b' -> rr (tsub N a b) (tsub N a' b');
  pr_mulr a a' c : rr a a' -> rr (tmul N a c) (tmul N a' c);
  pr_mull a a' c : rr a a' -> rr (tmul N c a) (tmul N c a');
  pr_div a a' c : rr a a' -> rr (tdiv N a c) (tdiv N a' c);
  pr_quo s a a' c : rr a a' -> rr (tquo N s a c) (tquo N s a' c);
  pr_opp a a' : rr a a' -> rr (topp N a) (topp N a');
  pr_fmar a a' c b b' : rr a a' -> rr b b' -> rr (tfma N a c b) (tfma N a' c b');
  pr_fmal a a' c b b' : rr a a' -> rr b b' -> rr (tfma N c a b) (tfma N c a' b');
  pr_xfma a a' c b b' : rr a a' -> rr b b' -> rr (txfma N c a b) (txfma N c a' b');
  pr_xfms a a' c b b' : rr a a' -> rr b b' -> rr (txfms N c a b) (txfms N c a' b');
  pr_t2d a a' : rr a a' -> dd (t2d N a) (t2d N a');
  pr_d2t a a' : dd a a' -> rr (d2t N a) (d2t N a');
  pr_dsub a a' b b' : dd a a' -> dd b b' -> dd (dsub N a b) (dsub N a' b');
  pr_dopp a a' : dd a a' -> dd (dopp N a) (dopp N a');
  pr_dmulr a a' c : dd a a' -> dd (dmul N a c) (dmul N a' c);
  pr_dmull a a' c : dd a a' -> dd (dmul N c a) (dmul N c a');
  pr_ddiv a a' c : dd a a' -> dd (ddiv N a c) (ddiv N a' c);
  pr_dfmar a a' c b b' : dd a a' -> dd b b' -> dd (dfma N a c b) (dfma N a' c b');
  pr_dfmal a a' c b b' : dd a a' -> dd b b' -> dd (dfma N c a b) (dfma N c a' b')
}.

Section Rel.
Variable N : Num.
Variable rr : T N -> T N -> Prop.
Variable dd : D N -> D N -> Prop.
Hypothesis H : Preserved N rr dd.
Notation p0 := (pr_0 N rr dd H).

(** products with one related factor *)
Definition pp (a b a' b' : T N) : Prop := rr a a' /\ b = b' \/ a = a' /\ rr b b'.
Lemma pp_mul a b a' b' : pp a b a' b' -> rr (tmul N a b) (tmul N a' b').
Proof. intros [[X ->]|[-> X]]; [now apply (pr_mulr _ _ _ H)|now apply (pr_mull _ _ _ H)]. Qed.
Lemma pp_fma a b a' b' c c' : pp a b a' b' -> rr c c' -> rr (tfma N a b c) (tfma N a' b' c').
Proof. intros [[X ->]|[-> X]] Y; [now apply (pr_fmar _ _ _ H)|now apply (pr_fmal _ _ _ H)]. Qed.
Lemma pp_opp a b a' b' : pp a b a' b' -> pp (topp N a) b (topp N a') b'.
Proof. intros [[X ->]|[-> X]]; [left; split; [now apply (pr_opp _ _ _ H)|reflexivity]|right; auto]. Qed.

Lemma tmad2 s a b a' b' c c' : pp a b a' b' -> rr c c' -> rr (tmad N s a b c) (tmad N s a' b' c').
Proof.
  intros X Y. unfold tmad. destruct (_ =? 0); [apply (pr_add _ _ _ H); [now apply pp_mul|exact Y]|now apply pp_fma].
Qed.
Lemma tnmad2 s a b a' b' c c' : pp a b a' b' -> rr c c' -> rr (tnmad N s a b c) (tnmad N s a' b' c').
Proof.
  intros X Y. unfold tnmad. destruct (_ =? 0); [apply (pr_sub _ _ _ H); [exact Y|now apply pp_mul]|].
  apply pp_fma; [now apply pp_opp|exact Y].
Qed.
Lemma tdotp2 s a b a' b' c d c' d' : pp a b a' b' -> pp c d c' d' -> rr (tdotp N s a b c d) (tdotp N s a' b' c' d').
Proof.
  intros X Y. unfold tdotp. destruct (_ =? 0); [apply (pr_add _ _ _ H); now apply pp_mul|].
  destruct (_ =? 1); apply pp_fma; auto; now apply pp_mul.
Qed.
Lemma tdotm2 s a b a' b' c d c' d' : pp a b a' b' -> pp c d c' d' -> rr (tdotm N s a b c d) (tdotm N s a' b' c' d').
Proof.
  intros X Y. unfold tdotm. destruct (_ =? 0); [apply (pr_sub _ _ _ H); now apply pp_mul|].
  destruct (_ =? 1); apply pp_fma; auto; try (now apply pp_opp); [apply (pr_opp _ _ _ H)|]; now apply pp_mul.
Qed.

Definition rc (x y : C N) : Prop := rr (fst x) (fst y) /\ rr (snd x) (snd y).
Lemma rc0 : rc (c0 N) (c0 N). Proof. split; exact p0. Qed.
Lemma cbc2 a a' : rr a a' -> rc (cbc N a) (cbc N a'). Proof. intros X. split; [exact X|exact p0]. Qed.
Lemma cadd2 x x' y y' : rc x x' -> rc y y' -> rc (cadd N x y) (cadd N x' y').
Proof. intros [X1 X2] [Y1 Y2]. split; now apply (pr_add _ _ _ H). Qed.
Lemma csub2 x x' y y' : rc x x' -> rc y y' -> rc (csub N x y) (csub N x' y').
Proof. intros [X1 X2] [Y1 Y2]. split; now apply (pr_sub _ _ _ H). Qed.
Lemma cmul2 s c y y' : rc y y' -> rc (cmul N s c y) (cmul N s c y').
Proof. intros [Y1 Y2]. split; [apply tdotm2|apply tdotp2]; right; auto. Qed.
Lemma cdiv2 s x x' c : rc x x' -> rc (cdiv N s x c) (cdiv N s x' c).
Proof. intros [X1 X2]. split; cbn [fst snd cdiv]; apply (pr_quo _ _ _ H); [apply tdotp2|apply tdotm2]; left; auto. Qed.
Lemma cxmul2 c y y' : rc y y' -> rc (cxmul N c y) (cxmul N c y').
Proof. intros [Y1 Y2]. split; cbn [fst snd cxmul]; [apply (pr_xfms _ _ _ H)|apply (pr_xfma _ _ _ H)]; auto; now apply (pr_mull _ _ _ H). Qed.
Lemma cfma2 c y y' z z' : rc y y' -> rc z z' -> rc (cfma N c y z) (cfma N c y' z').
Proof.
  intros [Y1 Y2] [Z1 Z2].
  split; cbn [fst snd cfma]; repeat (apply (pr_xfms _ _ _ H) || apply (pr_xfma _ _ _ H)); auto.
Qed.
Lemma cfms2 c y y' z z' : rc y y' -> rc z z' -> rc (cfms N c y z) (cfms N c y' z').
Proof.
  intros [Y1 Y2] [Z1 Z2].
  split; cbn [fst snd cfms]; repeat (apply (pr_xfms _ _ _ H) || apply (pr_xfma _ _ _ H)); auto.
Qed.
Lemma cfnma2 c y y' z z' : rc y y' -> rc z z' -> rc (cfnma N c y z) (cfnma N c y' z').
Proof.
  intros [Y1 Y2] [Z1 Z2].
  split; cbn [fst snd cfnma]; apply (pr_opp _ _ _ H); repeat (apply (pr_xfms _ _ _ H) || apply (pr_xfma _ _ _ H)); auto.
Qed.
Notation L2 := (Forall2 rc).
Notation D2 := (Forall2 rr).

(** ** Tables *)
Definition rs (s1 s2 : Slot N) : Prop :=
  D2 (s_m s1) (s_m s2) /\ D2 (s_q s1) (s_q s2) /\ D2 (s_md s1) (s_md s2) /\ D2 (s_qd s1) (s_qd s2).
Definition rt (w1 w2 : WT N) : Prop :=
  Forall2 (Forall2 rs) (wt_slots w1) (wt_slots w2) /\ wt_ph w1 = wt_ph w2 /\ wt_cf w1 = wt_cf w2.

Lemma computeM2 x0 x1 a a' b b' : rr a a' -> rr b b' -> rr (computeM N x0 x1 a b) (computeM N x0 x1 a' b').
Proof.
  intros A B. unfold computeM. apply (pr_d2t _ _ _ H), (pr_ddiv _ _ _ H), (pr_dsub _ _ _ H); now apply (pr_t2d _ _ _ H).
Qed.
Lemma computeQ2 x0 x1 a a' b b' : rr a a' -> rr b b' -> rr (computeQ N x0 x1 a b) (computeQ N x0 x1 a' b').
Proof.
  intros A B. unfold computeQ. apply (pr_d2t _ _ _ H), (pr_ddiv _ _ _ H).
  assert (A' := pr_t2d _ _ _ H _ _ A). assert (B' := pr_t2d _ _ _ H _ _ B).
  assert (D := pr_dsub _ _ _ H _ _ _ _ B' A').
  unfold ddotm. destruct (_ =? 0); [|destruct (_ =? 1)].
  - apply (pr_dsub _ _ _ H); [now apply (pr_dmulr _ _ _ H)|now apply (pr_dmull _ _ _ H)].
  - apply (pr_dfmar _ _ _ H); [exact A'|]. now apply (pr_dopp _ _ _ H), (pr_dmull _ _ _ H).
  - apply (pr_dfmal _ _ _ H); [exact D|]. now apply (pr_dmulr _ _ _ H).
Qed.

Lemma diffAt2 v1 v2 i : D2 v1 v2 -> R2 rr (diffAt N v1 i) (diffAt N v2 i).
Proof.
  intros V. unfold diffAt. rewrite (F2_zlen _ _ _ V).
  eapply bind2; [apply F2_znth; exact V|]. intros x y Hx.
  eapply bind2; [apply F2_znth; exact V|]. intros x' y' Hx'. now apply (pr_sub _ _ _ H).
Qed.

Lemma mq2 ph l1 l2 : D2 l1 l2 -> R2 rs (computeMQVector N ph l1) (computeMQVector N ph l2).
Proof.
  intros V. unfold computeMQVector. rewrite (F2_zlen _ _ _ V).
  eapply (bind2 (Forall2 (fun p1 p2 => rr (fst p1) (fst p2) /\ rr (snd p1) (snd p2)))).
  { apply mapr2. intros i. unfold mqAt. rewrite (F2_zlen _ _ _ V).
    eapply bind2; [apply F2_znth; exact V|]. intros x y Hx.
    eapply bind2; [apply F2_znth; exact V|]. intros x' y' Hx'.
    apply bind_eq2. intros x0. apply bind_eq2. intros x1. split; [now apply computeM2|now apply computeQ2]. }
  intros q1 q2 Hq.
  assert (HM : D2 (map fst q1) (map fst q2)) by (eapply F2_map; [|exact Hq]; intros x y HH; apply HH).
  assert (HQ : D2 (map snd q1) (map snd q2)) by (eapply F2_map; [|exact Hq]; intros x y HH; apply HH).
  eapply (bind2 D2); [apply mapr2; intros i; now apply diffAt2|]. intros md1 md2 HMD.
  eapply (bind2 D2); [apply mapr2; intros i; now apply diffAt2|]. intros qd1 qd2 HQD.
  eapply (bind2 rr); [now apply F2_znth|]. intros u1 u2 Hu.
  eapply (bind2 rr); [now apply F2_znth|]. intros v1 v2 Hv.
  eapply (bind2 D2); [apply F2_zset; [exact HQD|]|].
  { now apply (pr_sub _ _ _ H). }
  intros r1 r2 Hr. cbn. repeat split; assumption.
Qed.

Variable src : Resampler N.
Hypothesis Hsrc : evenHanded N src rr.

Lemma down2 l1 l2 ratio : D2 l1 l2 -> R2 D2 (downsampleWaveform N src l1 ratio) (downsampleWaveform N src l2 ratio).
Proof.
  intros V. unfold downsampleWaveform. rewrite (F2_zlen _ _ _ V).
  apply bind_eq2. intros it. apply bind_eq2. intros ot.
  assert (H5 : D2 (concat (repeat l1 5)) (concat (repeat l2 5))).
  { apply F2_concat. now apply F2_repeat. }
  destruct (Hsrc _ _ ratio ot H5) as (X1 & X2 & X3 & X4).
  rewrite X1, X2, X3.
  destruct (negb _); [constructor|]. destruct (_ || _)%bool; [constructor|]. cbn [R2].
  apply F2_firstn, F2_skipn, F2_firstn, Forall2_app; [exact X4|]. apply F2_repeat. exact p0.
Qed.

Definition rst (x y : list (Slot N) * list (list (T N))) : Prop :=
  Forall2 rs (fst x) (fst y) /\ Forall2 D2 (snd x) (snd y).

Lemma step2 phs og1 og2 ni s1 s2 k : D2 og1 og2 -> rst s1 s2 ->
  R2 rst (mipmapStep N src phs og1 ni s1 k) (mipmapStep N src phs og2 ni s2 k).
Proof.
  intros Ho [H1 H2]. destruct s1 as [a1 b1], s2 as [a2 b2]. cbn [fst snd] in *. unfold mipmapStep.
  destruct (k <=? kMaxLibSamplerate)%Z.
  - apply bind_eq2. intros ratio. eapply bind2; [now apply down2|]. intros d1 d2 Hd.
    rewrite (F2_zlen _ _ _ Hd).
    destruct (zlen d2 =? 0)%Z; [reflexivity|].
    eapply (bind2 (Forall2 D2)).
    { destruct (k <=? ni)%Z; [|exact H2]. now apply F2_zset. }
    intros i1 i2 Hi. apply bind_eq2. intros ph. eapply bind2; [now apply mq2|]. intros t1 t2 Ht.
    cbn. split; cbn; [|assumption]. apply Forall2_app; [assumption|]. repeat constructor; apply Ht.
  - eapply (bind2 D2); [now apply F2_znth|]. intros w1 w2 Hw. eapply bind2; [now apply down2|]. intros d1 d2 Hd.
    rewrite (F2_zlen _ _ _ Hd).
    destruct (zlen d2 =? 0)%Z; [reflexivity|].
    apply bind_eq2. intros ph. eapply bind2; [now apply mq2|]. intros t1 t2 Ht.
    cbn. split; cbn; [|assumption]. apply Forall2_app; [assumption|]. repeat constructor; apply Ht.
Qed.

Lemma waveform2 dbg nm phs og1 og2 : D2 og1 og2 ->
  R2 (Forall2 rs) (buildWaveform N src dbg nm phs og1) (buildWaveform N src dbg nm phs og2).
Proof.
  intros Ho. unfold buildWaveform. apply bind_eq2. intros _. apply bind_eq2. intros _. apply bind_eq2. intros ph0.
  eapply bind2; [now apply mq2|]. intros s1 s2 Hs.
  eapply (bind2 rst).
  { apply foldr2; [intros; now apply step2|]. split; cbn [fst snd].
    - repeat constructor; apply Hs.
    - apply F2_repeat. constructor. }
  intros [x1 y1] [x2 y2] [Hx _]. exact Hx.
Qed.

Lemma construct2 dbg l1 l2 nw sr n len : D2 l1 l2 ->
  R2 rt (wt_construct N src dbg l1 nw sr n len) (wt_construct N src dbg l2 nw sr n len).
Proof.
  intros V. unfold wt_construct. rewrite (F2_zlen _ _ _ V).
  apply bind_eq2. intros cf. apply bind_eq2. intros tot. apply bind_eq2. intros _. apply bind_eq2. intros phs.
  eapply (bind2 (Forall2 (Forall2 rs))).
  { apply mapr2. intros w. apply bind_eq2. intros off.
    eapply (bind2 D2); [|intros; now apply waveform2].
    unfold subspan. rewrite (F2_zlen _ _ _ V).
    destruct (_ && _)%bool; cbn; [|auto]. now apply F2_firstn, F2_skipn. }
  intros s1 s2 Hs. cbn. repeat split. exact Hs.
Qed.

Definition ro {A} (P : A -> A -> Prop) (x y : option A) : Prop :=
  match x, y with Some x, Some y => P x y | None, None => True | _, _ => False end.

Lemma build2 dbg l1 l2 nw sr fade : D2 l1 l2 ->
  R2 (ro rt) (wt_build N src dbg l1 nw sr fade) (wt_build N src dbg l2 nw sr fade).
Proof.
  intros V. unfold wt_build. rewrite (F2_zlen _ _ _ V).
  destruct (_ =? 0)%Z; [exact I|]. destruct (nw <=? 0)%Z; [exact I|]. destruct (tle _ _ _); [exact I|].
  destruct (negb _); [exact I|]. apply bind_eq2. intros [|]; cbn [negb]; [|exact I].
  apply bind_eq2. intros n. assert (Q := construct2 dbg l1 l2 nw sr n (Z.quot (wrap_int (zlen l2)) nw) V).
  unfold R2 in Q.
  destruct (wt_construct N src dbg l1 _ _ _ _) as [w1|f1], (wt_construct N src dbg l2 _ _ _ _) as [w2|f2]; try contradiction; [exact Q|].
  subst f2. destruct f1; cbn; auto.
Qed.

Lemma slot2 w1 w2 i k : rt w1 w2 -> R2 rs (wt_slot N w1 i k) (wt_slot N w2 i k).
Proof.
  intros (V & _). unfold wt_slot. eapply bind2; [apply F2_znth; exact V|]. intros s1 s2 Hs. now apply F2_znth.
Qed.
Lemma m2 w1 w2 i k : rt w1 w2 -> R2 D2 (wt_m N w1 i k) (wt_m N w2 i k).
Proof. intros V. unfold wt_m. eapply bind2; [now apply slot2|]. intros s1 s2 Hs. cbn. apply Hs. Qed.
Lemma q2 w1 w2 i k : rt w1 w2 -> R2 D2 (wt_q N w1 i k) (wt_q N w2 i k).
Proof. intros V. unfold wt_q. eapply bind2; [now apply slot2|]. intros s1 s2 Hs. cbn. apply Hs. Qed.
Lemma md2 w1 w2 i k : rt w1 w2 -> R2 D2 (wt_mDiff N w1 i k) (wt_mDiff N w2 i k).
Proof. intros V. unfold wt_mDiff. eapply bind2; [now apply slot2|]. intros s1 s2 Hs. cbn. apply Hs. Qed.
Lemma qd2 w1 w2 i k : rt w1 w2 -> R2 D2 (wt_qDiff N w1 i k) (wt_qDiff N w2 i k).
Proof. intros V. unfold wt_qDiff. eapply bind2; [now apply slot2|]. intros s1 s2 Hs. cbn. apply Hs. Qed.
Lemma R2_eq {A} (r1 r2 : res A) : R2 eq r1 r2 -> r1 = r2.
Proof. destruct r1, r2; cbn; try contradiction; intros <-; auto. Qed.
Lemma len2 w1 w2 k : rt w1 w2 -> wt_waveformLen N w1 k = wt_waveformLen N w2 k.
Proof.
  intros V. apply R2_eq. unfold wt_waveformLen. eapply bind2; [now apply m2|]. intros x y Hx. cbn.
  exact (F2_zlen _ _ _ Hx).
Qed.
Lemma ph2 w1 w2 : rt w1 w2 -> wt_ph w1 = wt_ph w2.
Proof. intros (_ & -> & _). auto. Qed.

Lemma find2 w1 w2 d dbg : rt w1 w2 ->
  R2 (fun p1 p2 => rt (fst p1) (fst p2) /\ snd p1 = snd p2)
    (wt_findMipMapIndices N dbg w1 d) (wt_findMipMapIndices N dbg w2 d).
Proof.
  intros (H1 & E1 & C1). unfold wt_findMipMapIndices. rewrite C1. apply bind_eq2. intros [cf mm]. cbn.
  split; [|reflexivity]. repeat split; auto.
Qed.

Lemma rebuildLoop2 : forall m1 m2, D2 m1 m2 -> forall q1 q2 x, D2 q1 q2 ->
  D2 (rebuildLoop N m1 q1 x) (rebuildLoop N m2 q2 x).
Proof.
  induction 1 as [|x y l m Hx _ IH]; intros q1 q2 xs Hq; cbn [rebuildLoop]; [constructor|].
  inversion Hq as [|x' y' l' m' Hx' Hq']; subst; [constructor|]. destruct xs; [constructor|].
  constructor; [|now apply IH]. apply tmad2; [left; auto|assumption].
Qed.

Lemma update2 w1 w2 sr fade dbg : rt w1 w2 ->
  R2 rt (wt_updateSamplerate N src dbg w1 sr fade) (wt_updateSamplerate N src dbg w2 sr fade).
Proof.
  intros V. unfold wt_updateSamplerate.
  assert (En : wt_numWaveforms N w1 = wt_numWaveforms N w2).
  { unfold wt_numWaveforms. exact (F2_zlen _ _ _ (proj1 V)). }
  rewrite En.
  eapply (bind2 D2).
  { unfold rebuildWaveforms. rewrite En. unfold wt_phases. rewrite (ph2 _ _ V), (len2 _ _ 0 V).
    apply bind_eq2. intros _. apply bind_eq2. intros sz. apply bind_eq2. intros _.
    eapply (bind2 (Forall2 D2)).
    - apply mapr2. intros k. eapply bind2; [now apply m2|]. intros x1 x2 Hx. eapply bind2; [now apply q2|]. intros y1 y2 Hy.
      apply bind_eq2. intros xs. cbn. now apply rebuildLoop2.
    - intros p1 p2 Hp. cbn. now apply F2_concat. }
  intros o1 o2 Ho. eapply bind2; [now apply build2|]. intros [v1|] [v2|] Hv; cbn in *; try contradiction; auto.
Qed.

(** ** One sample *)
Variable cfg : Cfg.
Variable F : Filt N.

Lemma load2 l1 l2 i : L2 l1 l2 -> R2 L2 (load N cfg l1 i) (load N cfg l2 i).
Proof.
  intros V. unfold load. rewrite (F2_length _ _ _ V). destruct (_ <=? _)%nat; cbn; [|auto]. now apply F2_firstn, F2_skipn.
Qed.
Lemma store2 l1 l2 i v1 v2 : L2 l1 l2 -> L2 v1 v2 -> R2 L2 (store N l1 i v1) (store N l2 i v2).
Proof.
  intros V Hv. unfold store. rewrite (F2_length _ _ _ V), (F2_length _ _ _ Hv). destruct (_ <=? _)%nat; cbn; [|auto].
  apply Forall2_app; [now apply F2_firstn|]. apply Forall2_app; [assumption|now apply F2_skipn].
Qed.

Lemma i0_lane2 a b c d a' b' c' d' ez z : rr a a' -> rr b b' -> rr c c' -> rr d d' ->
  rc (i0_lane N a b c d ez z) (i0_lane N a' b' c' d' ez z).
Proof.
  intros A B Cc Dd. unfold i0_lane. apply cfnma2; [now apply cbc2|]. apply cfms2; [|now apply cbc2].
  apply cfma2; now apply cbc2.
Qed.
Lemma i0_scalar2 mp b mn d mp' b' mn' d' pd ez z : rr mp mp' -> rr b b' -> rr mn mn' -> rr d d' ->
  rc (i0_scalar N mp b mn d pd ez z) (i0_scalar N mp' b' mn' d' pd ez z).
Proof.
  intros A B Cc Dd. unfold i0_scalar.
  assert (E1 : rc (caddpx N 10 mp pd z b) (caddpx N 10 mp' pd z b')).
  { split; cbn [fst snd caddpx]; [apply tdotp2; [right|left]; auto|now apply (pr_mull _ _ _ H)]. }
  assert (E2 := cmul2 11 ez _ _ E1).
  assert (E3 : rc (csubp N 13 (cmul N 11 ez (caddpx N 10 mp pd z b)) mn pd) (csubp N 13 (cmul N 11 ez (caddpx N 10 mp' pd z b')) mn' pd)).
  { split; [apply tnmad2; [left; auto|apply E2]|apply E2]. }
  split; (apply tnmad2; [right; auto|apply E3]).
Qed.
Lemma map2_2 {X Y} (f g : X -> Y -> C N) : (forall x y, rc (f x y) (g x y)) ->
  forall xs ys, L2 (map2 f xs ys) (map2 g xs ys).
Proof. intros Q. induction xs as [|x xs IH]; intros [|y ys]; cbn; constructor; auto. Qed.

Lemma computeI0_2 w1 w2 wf r1 r2 mi ip inx d p q : rt w1 w2 -> L2 r1 r2 ->
  R2 L2 (computeI0 N cfg F w1 wf r1 mi ip inx d p q) (computeI0 N cfg F w2 wf r2 mi ip inx d p q).
Proof.
  intros HT Hr. unfold computeI0.
  eapply bind2; [now apply m2|]. intros ms1 ms2 Hm. eapply bind2; [now apply q2|]. intros qs1 qs2 Hq.
  eapply bind2; [apply F2_znth; exact Hm|]. intros mp1 mp2 Hmp.
  eapply bind2; [apply F2_znth; exact Hq|]. intros qp1 qp2 Hqp.
  eapply bind2; [apply F2_znth; exact Hm|]. intros mn1 mn2 Hmn.
  eapply bind2; [apply F2_znth; exact Hq|]. intros qn1 qn2 Hqn.
  cbv zeta.
  assert (Ha := pr_mulr _ _ _ H _ _ d Hmp). assert (Hc := pr_mulr _ _ _ H _ _ d Hmn).
  assert (Hb : rr (tmad N 1 mp1 p qp1) (tmad N 1 mp2 p qp2)) by (apply tmad2; [left; auto|assumption]).
  assert (Hd : rr (tmad N 2 mn1 q qn1) (tmad N 2 mn2 q qn2)) by (apply tmad2; [left; auto|assumption]).
  revert Hb Hd. generalize (tmad N 1 mp1 p qp1), (tmad N 1 mp2 p qp2), (tmad N 2 mn1 q qn1), (tmad N 2 mn2 q qn2).
  intros pb1 pb2 pd1 pd2 Hb Hd.
  assert (Batch : forall s1 s2 i, L2 s1 s2 -> R2 L2 (i0_batch N cfg F (tmul N mp1 d) pb1 (tmul N mn1 d) pd1 s1 i)
     (i0_batch N cfg F (tmul N mp2 d) pb2 (tmul N mn2 d) pd2 s2 i)).
  { intros s1 s2 i Hs. unfold i0_batch. apply bind_eq2. intros ez. apply bind_eq2. intros z.
    apply store2; [assumption|]. apply map2_2. intros x y. now apply i0_lane2. }
  eapply (bind2 L2); [apply foldr2; [exact Batch|exact Hr]|]. intros s1 s2 Hs.
  destruct (usePartialBatch _ _); [now apply Batch|].
  apply foldr2; [|exact Hs]. intros t1 t2 i Ht. unfold i0_one. apply bind_eq2. intros ez. apply bind_eq2. intros z.
  apply F2_zset; [assumption|]. now apply i0_scalar2.
Qed.

Lemma sum_lane2 fwd pa pd ph m m' q q' z i i' : rr m m' -> rr q q' -> rc i i' ->
  rc (sum_lane_upd N fwd pa pd ph m q z i) (sum_lane_upd N fwd pa pd ph m' q' z i').
Proof.
  intros Hm Hq Hi. unfold sum_lane_upd, sum_lane.
  assert (E := cfma2 z _ _ _ _ (cbc2 _ _ Hq) (cxmul2 (cfma N z (cbc N ph) (cbc N pd)) _ _ (cbc2 _ _ Hm))).
  destruct fwd; [now apply cfma2|now apply cfnma2].
Qed.
Lemma caddx2r s x y a b a' b' : rr a a' -> rr b b' -> rc (caddx N s x a y b) (caddx N s x a' y b').
Proof. intros A B. split; apply tdotp2; right; auto. Qed.
Lemma caddx2l s x y x' y' a b : rc x x' -> rc y y' -> rc (caddx N s x a y b) (caddx N s x' a y' b).
Proof. intros [A1 A2] [B1 B2]. split; apply tdotp2; left; auto. Qed.
Lemma sum_scalar2 fwd pa pd ph m m' q q' z i i' : rr m m' -> rr q q' -> rc i i' ->
  rc (sum_scalar_upd N fwd pa pd ph m q z i) (sum_scalar_upd N fwd pa pd ph m' q' z i').
Proof.
  intros Hm Hq Hi. unfold sum_scalar_upd.
  assert (E := cmul2 23 (tcexp N (cscale N z pa)) _ _ (caddx2r 21 z (caddfx N 20 pd z ph) _ _ _ _ Hq Hm)).
  destruct fwd; [now apply cadd2|now apply csub2].
Qed.

Lemma sum_orders2 fwd pa pd ph m m' q q' r1 r2 : rr m m' -> rr q q' -> L2 r1 r2 ->
  R2 L2 (sum_orders N cfg F fwd pa pd ph m q r1) (sum_orders N cfg F fwd pa pd ph m' q' r2).
Proof.
  intros Hm Hq Hr. unfold sum_orders.
  assert (Batch : forall s1 s2 i, L2 s1 s2 -> R2 L2 (sum_batch N cfg F fwd pa pd ph m q s1 i)
     (sum_batch N cfg F fwd pa pd ph m' q' s2 i)).
  { intros s1 s2 i Hs. unfold sum_batch. apply bind_eq2. intros z. eapply bind2; [apply load2; exact Hs|]. intros u1 u2 Hu.
    apply store2; [assumption|]. eapply (F2_map2 rc rc); [|exact Hu]. intros e x y Hx. now apply sum_lane2. }
  eapply (bind2 L2); [apply foldr2; [exact Batch|exact Hr]|]. intros s1 s2 Hs.
  destruct (usePartialBatch _ _); [now apply Batch|].
  apply foldr2; [|exact Hs]. intros t1 t2 i Ht. unfold sum_one. apply bind_eq2. intros z.
  eapply (bind2 rc); [now apply F2_znth|]. intros u1 u2 Hu. apply F2_zset; [assumption|]. now apply sum_scalar2.
Qed.

Lemma fwdI2 w1 w2 wf pr r1 r2 mi jm jx d p : rt w1 w2 -> L2 r1 r2 ->
  R2 L2 (computeFwdI N cfg F w1 wf pr r1 mi jm jx d p) (computeFwdI N cfg F w2 wf pr r2 mi jm jx d p).
Proof.
  intros HT Hr. unfold computeFwdI. eapply bind2; [now apply computeI0_2|]. intros s1 s2 Hs.
  unfold computeISumFwd. rewrite (len2 _ _ mi HT). apply bind_eq2. intros len. apply bind_eq2. intros bs.
  eapply bind2; [now apply md2|]. intros md1 md2' Hm. eapply bind2; [now apply qd2|]. intros qd1 qd2' Hq.
  unfold wt_phases. rewrite (ph2 _ _ HT). apply bind_eq2. intros ph.
  apply foldr2; [|exact Hs]. intros t1 t2 i Ht. unfold sumFwd_iter. apply bind_eq2. intros ir. apply bind_eq2. intros pp'.
  eapply bind2; [apply F2_znth; exact Hm|]. intros u1 u2 Hu.
  eapply bind2; [apply F2_znth; exact Hq|]. intros v1 v2 Hv. now apply sum_orders2.
Qed.
Lemma bwdI2 w1 w2 wf pr r1 r2 mi j jm jx d p : rt w1 w2 -> L2 r1 r2 ->
  R2 L2 (computeBwdI N cfg F w1 wf pr r1 mi j jm jx d p) (computeBwdI N cfg F w2 wf pr r2 mi j jm jx d p).
Proof.
  intros HT Hr. unfold computeBwdI. apply bind_eq2. intros _. eapply bind2; [now apply computeI0_2|]. intros s1 s2 Hs.
  unfold computeISumBwd. apply bind_eq2. intros _.
  rewrite (len2 _ _ mi HT). apply bind_eq2. intros len. apply bind_eq2. intros bs.
  eapply bind2; [now apply md2|]. intros md1 md2' Hm. eapply bind2; [now apply qd2|]. intros qd1 qd2' Hq.
  unfold wt_phases. rewrite (ph2 _ _ HT). apply bind_eq2. intros ph.
  apply foldr2; [|exact Hs]. intros t1 t2 i Ht. unfold sumBwd_iter. apply bind_eq2. intros ir. apply bind_eq2. intros pp'.
  eapply bind2; [apply F2_znth; exact Hm|]. intros u1 u2 Hu.
  eapply bind2; [apply F2_znth; exact Hq|]. intros v1 v2 Hv. now apply sum_orders2.
Qed.

Lemma map2_mix2 g gu : forall l1 l2, L2 l1 l2 -> forall m1 m2, L2 m1 m2 ->
  let mix := fun x y => caddx N 30 x g y gu in
  L2 (map2 mix l1 m1) (map2 mix l2 m2).
Proof.
  induction 1 as [|x y l m Hx _ IH]; intros m1 m2' Hm mix; cbn [map2]; [constructor|].
  inversion Hm as [|x' y' l' m' Hx' Hm']; subst; [constructor|]. constructor; [|now apply IH].
  now apply caddx2l.
Qed.
Lemma crossfade2 l1 l2 m1 m2' g gu : L2 l1 l2 -> L2 m1 m2' ->
  L2 (crossfadeArr N cfg F l1 m1 g gu) (crossfadeArr N cfg F l2 m2' g gu).
Proof.
  intros Hl Hm. unfold crossfadeArr. destruct (usePartialBatch _ _); [now apply map2_mix2|].
  apply Forall2_app; [apply map2_mix2; now apply F2_firstn|now apply F2_skipn].
Qed.

Lemma yLoop2 : forall y1 y2, L2 y1 y2 -> forall r p e i1 i2, L2 i1 i2 ->
  L2 (yLoop N y1 r p e i1) (yLoop N y2 r p e i2).
Proof.
  induction 1 as [|x y l m Hx _ IH]; intros r p e i1 i2 Hi; cbn [yLoop]; [constructor|].
  destruct r as [|r0 r]; [constructor|]. destruct p as [|q0 p]; [constructor|]. destruct e as [|e0 e]; [constructor|].
  inversion Hi as [|x' y' l' m' Hx' Hi']; subst; [constructor|]. constructor; [|now apply IH].
  unfold yStep. apply cadd2; apply cmul2; [assumption|now apply cdiv2].
Qed.
Lemma yOut2 y1 y2 : L2 y1 y2 -> rr (yOut N y1) (yOut N y2).
Proof.
  intros V. unfold yOut. rewrite (F2_length _ _ _ V). destruct (addsUp _ _).
  - assert (M : D2 (map fst y1) (map fst y2)) by (eapply F2_map; [|exact V]; intros x y X; apply X).
    generalize (torder N (length y2)). intros t. induction t as [i|a IHa b IHb]; cbn [treeSum].
    + apply F2_nth; [exact M|exact p0].
    + now apply (pr_add _ _ _ H).
  - assert (G : forall c c', rc c c' -> rc (fold_left (cadd N) y1 c) (fold_left (cadd N) y2 c')).
    { induction V as [|x y l m Hx _ IH]; intros c c' A; cbn [fold_left]; [exact A|]. apply IH. now apply cadd2. }
    exact (proj1 (G _ _ rc0)).
Qed.

(** ** Oscillators *)
Definition rO (o1 o2 : Osc N) : Prop :=
  ro rt (o_wt o1) (o_wt o2) /\ L2 (o_y o1) (o_y o2) /\
  o_phase o1 = o_phase o2 /\ o_phred o1 = o_phred o2 /\ o_pd o1 = o_pd o2 /\ o_mm o1 = o_mm o2 /\
  o_j o1 = o_j o2 /\ o_pj o1 = o_pj o2 /\ o_wf o1 = o_wf o2.

Definition rI (x y : Idx N) : Prop :=
  rt (ix_wt _ x) (ix_wt _ y) /\
  exists v1 v2 mi g mu gu ph len j pj jm jr jx,
    x = mkIdx _ v1 mi g mu gu ph len j pj jm jr jx /\
    y = mkIdx _ v2 mi g mu gu ph len j pj jm jr jx.

Lemma idx2 o1 o2 w1 w2 p d : rO o1 o2 -> rt w1 w2 ->
  R2 rI (idxFwd N cfg o1 w1 p d) (idxFwd N cfg o2 w2 p d) /\
  R2 rI (idxBwd N cfg o1 w1 p d) (idxBwd N cfg o2 w2 p d).
Proof.
  intros (_ & _ & _ & P1 & D1 & M1 & J1 & _ & _) HT. unfold idxFwd, idxBwd.
  rewrite P1, D1, M1, J1. split.
  - apply bind_eq2. intros _. eapply bind2; [now apply find2|].
    intros [v1 [[[a1 b1] c1] e1]] [v2 [[[a2 b2] c2] e2]] [HV X1]. cbn [fst snd] in *.
    injection X1 as -> -> -> ->.
    unfold wt_phases. rewrite (ph2 _ _ HV), (len2 _ _ a2 HV).
    repeat (apply bind_eq2; intros ?). split; [exact HV|]. do 13 eexists. repeat split; reflexivity.
  - apply bind_eq2. intros _. eapply bind2; [now apply find2|].
    intros [v1 [[[a1 b1] c1] e1]] [v2 [[[a2 b2] c2] e2]] [HV X1]. cbn [fst snd] in *.
    injection X1 as -> -> -> ->.
    unfold wt_phases. rewrite (ph2 _ _ HV), (len2 _ _ a2 HV).
    repeat (apply bind_eq2; intros ?). split; [exact HV|]. do 13 eexists. repeat split; reflexivity.
Qed.

Definition rOut (x y : Osc N * T N) : Prop := rO (fst x) (fst y) /\ rr (snd x) (snd y).

Lemma finish2 o1 o2 x1 x2 p d i1 i2 : rO o1 o2 -> rI x1 x2 -> L2 i1 i2 ->
  rOut (finish N cfg F o1 x1 p d i1) (finish N cfg F o2 x2 p d i2).
Proof.
  intros (_ & Y & _ & _ & _ & _ & _ & _ & WF) (HV & v1 & v2 & mi & g & mu & gu & ph & len & j & pj & jm & jr & jx & -> & ->) HI.
  unfold finish. cbn [ix_wt ix_phred ix_mi ix_j ix_pj].
  assert (HY := yLoop2 _ _ Y (r_array N cfg F) (z_pow2_array N cfg F) (exp_z_array N cfg F) _ _ HI).
  split; cbn [fst snd]; [|now apply yOut2]. repeat split; auto; cbn; try apply WF; try apply HV.
Qed.

Lemma sample2 o1 o2 w1 w2 p d : rO o1 o2 -> rt w1 w2 ->
  R2 rOut (processSampleFwd N cfg F o1 w1 p d) (processSampleFwd N cfg F o2 w2 p d) /\
  R2 rOut (processSampleBwd N cfg F o1 w1 p d) (processSampleBwd N cfg F o2 w2 p d).
Proof.
  intros HO HT. assert (HO' := HO). destruct HO as (_ & Y & _ & P1 & _ & _ & _ & _ & W1).
  destruct (idx2 o1 o2 w1 w2 p d HO' HT) as [IF IB].
  assert (HZ : L2 (zeroArr N cfg F) (zeroArr N cfg F)) by (apply F2_repeat; apply rc0).
  unfold processSampleFwd, processSampleBwd. rewrite P1, W1. split.
  - eapply bind2; [exact IF|]. intros x1 x2 HI. assert (HI' := HI).
    destruct HI as (HV & v1 & v2 & mi & g & mu & gu & ph & len & j & pj & jm & jr & jx & -> & ->).
    cbn [ix_wt ix_mi ix_w ix_mu ix_wu ix_phred ix_len ix_j ix_pj ix_jmin ix_jmin_red ix_jmax_p_red] in *.
    eapply bind2; [now apply fwdI2|]. intros a1 a2 HA.
    eapply (bind2 L2).
    { destruct (negb _); [|exact HA]. eapply bind2; [now apply fwdI2|]. intros u1 u2 HU. now apply crossfade2. }
    intros i1 i2 HI. cbn [R2]. apply finish2; [exact HO'|exact HI'|exact HI].
  - eapply bind2; [exact IB|]. intros x1 x2 HI. assert (HI' := HI).
    destruct HI as (HV & v1 & v2 & mi & g & mu & gu & ph & len & j & pj & jm & jr & jx & -> & ->).
    cbn [ix_wt ix_mi ix_w ix_mu ix_wu ix_phred ix_len ix_j ix_pj ix_jmin ix_jmin_red ix_jmax_p_red] in *.
    eapply bind2; [now apply bwdI2|]. intros a1 a2 HA.
    eapply (bind2 L2).
    { destruct (negb _); [|exact HA]. eapply bind2; [now apply bwdI2|]. intros u1 u2 HU. now apply crossfade2. }
    intros i1 i2 HI. cbn [R2]. now apply finish2.
Qed.

Lemma one2 dir o1 o2 p : rO o1 o2 ->
  R2 rOut (processOne N cfg F dir o1 p) (processOne N cfg F dir o2 p).
Proof.
  intros HO. assert (HO' := HO). destruct HO as (W & _ & P1 & _). unfold processOne. rewrite P1.
  destruct (o_wt o1) as [w1|], (o_wt o2) as [w2|]; cbn in W; try contradiction; [|reflexivity].
  destruct dir.
  - apply bind_eq2. intros _. now apply sample2.
  - destruct (tle _ _ _); now apply sample2.
Qed.

Definition rOuts (x y : Osc N * list (T N)) : Prop := rO (fst x) (fst y) /\ D2 (snd x) (snd y).
Lemma zero_D2 (l : list (T N)) : (forall x, In x l -> x = t0 N) -> D2 l l.
Proof. induction l as [|x l IH]; intros V; constructor; [rewrite (V x (or_introl eq_refl)); apply p0|]. apply IH. intros; apply V; now right. Qed.
Lemma loop2 dir ps : forall o1 o2 out, rO o1 o2 -> (forall x, In x out -> x = t0 N) ->
  R2 rOuts (processLoop N cfg F dir o1 ps out) (processLoop N cfg F dir o2 ps out).
Proof.
  induction ps as [|p ps IH]; intros o1 o2 out HO Hz; cbn [processLoop].
  - split; [assumption|now apply zero_D2].
  - destruct out as [|x out]; [split; [assumption|constructor]|].
    eapply bind2; [now apply one2|]. intros [u1 y1] [u2 y2] [HQ HY]. cbn [fst snd] in *.
    eapply bind2; [apply IH; [exact HQ|]|].
    + intros z Hz'. apply Hz. now right.
    + intros [r1 z1] [r2 z2] [HR HZ]. split; [exact HR|]. constructor; assumption.
Qed.

Lemma reset2 o1 o2 p d : rO o1 o2 -> R2 rO (resetInternals N cfg F o1 p d) (resetInternals N cfg F o2 p d).
Proof.
  intros HO. assert (HO' := HO). destruct HO as (W & _ & _ & _ & _ & _ & _ & PJ & WF). unfold resetInternals.
  destruct (o_wt o1) as [w1|], (o_wt o2) as [w2|]; cbn in W; try contradiction.
  2:{ apply bind_eq2. intros _. reflexivity. }
  cbn [is_some]. apply bind_eq2. intros _. apply bind_eq2. intros ph.
  eapply bind2; [now apply find2|].
  intros [v1 [[[a1 b1] c1] e1]] [v2 [[[a2 b2] c2] e2]] [HV X1]. cbn [fst snd] in *.
  injection X1 as -> -> -> ->.
  rewrite (len2 _ _ a2 HV). apply bind_eq2. intros len. apply bind_eq2. intros j. cbn [R2].
  repeat split; cbn; try apply HV; try apply PJ; try apply WF. apply F2_repeat. apply rc0.
Qed.

Lemma set_wt2 o1 o2 w1 w2 : rO o1 o2 -> ro rt w1 w2 -> rO (set_wt N o1 w1) (set_wt N o2 w2).
Proof. intros (W & Y & H1 & H2 & H3 & H4 & H5 & H6 & H7) V. repeat split; cbn; auto. Qed.
Lemma set_wf2 o1 o2 k : rO o1 o2 -> rO (set_wf N o1 k) (set_wf N o2 k).
Proof. intros (W & Y & H1 & H2 & H3 & H4 & H5 & H6 & H7). repeat split; cbn; auto. Qed.

Lemma load_op2 o1 o2 w1 w2 p d : rO o1 o2 -> rt w1 w2 ->
  R2 rO (let! x := resetInternals N cfg F (set_wt N o1 (Some w1)) p d in Ok (set_wf N x 0))
        (let! x := resetInternals N cfg F (set_wt N o2 (Some w2)) p d in Ok (set_wf N x 0)).
Proof.
  intros HO HT. eapply bind2; [apply reset2; now apply set_wt2|]. intros x1 x2 HX. cbn. now apply set_wf2.
Qed.

Definition loading (op : Op N) : Prop :=
  match op with OpInit _ (Some _) _ _ | OpSwap _ (Some _) _ _ => True | _ => False end.
Lemma apply2 o1 o2 op : rO o1 o2 -> ~ loading op ->
  R2 rOuts (Osc.apply N src cfg F o1 op) (Osc.apply N src cfg F o2 op).
Proof.
  intros HO HL. assert (W : ro rt (o_wt o1) (o_wt o2)) by apply HO.
  assert (Es : is_some (o_wt o1) = is_some (o_wt o2)).
  { destruct (o_wt o1), (o_wt o2); cbn in *; try contradiction; auto. }
  destruct op as [[w|] p d|[w|] p d|p d|k|sr|dir ps]; cbn [Osc.apply osc_init osc_swap bind]; cbn [loading] in HL; try (now elim HL).
  - split; [exact HO|constructor].
  - split; [exact HO|constructor].
  - eapply bind2; [now apply reset2|]. intros x1 x2 HX. split; [exact HX|constructor].
  - unfold setWaveform. rewrite Es. destruct (assert_ _ _); cbn [bind]; [|reflexivity].
    split; [now apply set_wf2|constructor].
  - unfold osc_updateSamplerate. rewrite Es. destruct (assert_ _ _); cbn [bind]; [|reflexivity].
    destruct (o_wt o1) as [w1|], (o_wt o2) as [w2|]; cbn in W; try contradiction; [|reflexivity].
    eapply (bind2 rO).
    + eapply bind2; [now apply update2|]. intros v1 v2 HV. cbn. apply set_wt2; [exact HO|exact HV].
    + intros x1 x2 HX. split; [exact HX|constructor].
  - unfold process. rewrite Es. apply bind_eq2. intros _. apply bind_eq2. intros _.
    apply loop2; [exact HO|]. intros x Hx. apply in_map_iff in Hx. destruct Hx as (? & <- & _). reflexivity.
Qed.

Lemma relTables_rt w1 w2 : relTables N src (dbg cfg) rr w1 w2 -> rt w1 w2.
Proof.
  intros (xs & ys & nw & sr & fade & Hl & E1 & E2).
  assert (Bd := build2 (dbg cfg) xs ys nw sr fade Hl).
  rewrite E1, E2 in Bd. exact Bd.
Qed.

Lemma run2 l1 l2 : relScripts N src (dbg cfg) rr l1 l2 -> forall o1 o2, rO o1 o2 ->
  R2 rOuts (Osc.run N src cfg F o1 l1) (Osc.run N src cfg F o2 l2).
Proof.
  assert (Join : forall r1 r2 (k1 k2 : Osc N -> res (Osc N * list (T N))), R2 rOuts r1 r2 ->
    (forall o1 o2, rO o1 o2 -> R2 rOuts (k1 o1) (k2 o2)) ->
    R2 rOuts (let! (o, ys) := r1 in let! (o', zs) := k1 o in Ok (o', ys ++ zs))
             (let! (o, ys) := r2 in let! (o', zs) := k2 o in Ok (o', ys ++ zs))).
  { intros r1 r2 k1 k2 HR HK. eapply bind2; [exact HR|]. intros [x1 y1] [x2 y2] [HX HY]. cbn [fst snd] in *.
    eapply bind2; [now apply HK|]. intros [u1 v1] [u2 v2] [HU HV]. cbn [fst snd] in *.
    split; [exact HU|]. cbn [snd]. now apply Forall2_app. }
  induction 1 as [|w1 w2 p d l1 l2 HT HL IH|w1 w2 p d l1 l2 HT HL IH|op l1 l2 Hop HL IH]; intros o1 o2 HO; cbn [Osc.run].
  - split; [exact HO|constructor].
  - apply Join; [|exact IH]. cbn [Osc.apply osc_init].
    assert (X := load_op2 o1 o2 w1 w2 p d HO (relTables_rt _ _ HT)). unfold R2 in X.
    destruct (resetInternals N cfg F (set_wt N o1 _) p d), (resetInternals N cfg F (set_wt N o2 _) p d);
      cbn in *; try contradiction; auto. split; [exact X|constructor].
  - apply Join; [|exact IH]. cbn [Osc.apply osc_swap].
    assert (X := load_op2 o1 o2 w1 w2 p d HO (relTables_rt _ _ HT)). unfold R2 in X.
    destruct (resetInternals N cfg F (set_wt N o1 _) p d), (resetInternals N cfg F (set_wt N o2 _) p d);
      cbn in *; try contradiction; auto. split; [exact X|constructor].
  - apply Join; [|exact IH]. apply apply2; [exact HO|]. destruct op as [[?|] ? ?|[?|] ? ?| | | |]; cbn; auto.
Qed.

Lemma new2 : rO (osc_new N F) (osc_new N F).
Proof. repeat split. cbn. apply F2_repeat. apply rc0. Qed.
End Rel.
