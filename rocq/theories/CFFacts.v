(** * CFFacts: the cross-fader as a state machine, any number system *)
From Coq Require Import ZArith List Bool Lia.
From Verif Require Import Num Maths CrossFader NumFacts.
Import ListNotations.
Local Open Scope Z_scope.

Section CF.
Variable N : Num.

Lemma findLoop_range d s i : s <> [] -> i <= findLoop N d s i < i + zlen s.
Proof.
  revert i; induction s as [|a s IH]; intros i Hs; [congruence|].
  cbn [findLoop]. rewrite zlen_cons. destruct s as [|b s].
  - rewrite zlen_nil. lia.
  - pose proof (zlen_nonneg _ (b :: s)). destruct (tlt N d a); [lia|].
    assert (H1 := IH (i + 1) ltac:(discriminate)). lia.
Qed.

(** [findLoop] picks the first entry whose limit exceeds d; the last entry has none *)
Lemma findLoop_spec d s i r : s <> [] -> findLoop N d s i = r <->
  (i <= r < i + zlen s /\
   (forall k x, 0 <= k < r - i -> znth s k = Ok x -> tlt N d x = false) /\
   (r < i + zlen s - 1 -> forall x, znth s (r - i) = Ok x -> tlt N d x = true)).
Proof.
  revert i; induction s as [|a s IH]; intros i Hs; [congruence|].
  cbn [findLoop]. rewrite zlen_cons. destruct s as [|b s].
  - rewrite zlen_nil. split.
    + intros <-. split; [lia|]. split; [intros; lia | intros; lia].
    + intros [H _]. lia.
  - assert (Hb : (b :: s) <> []) by discriminate.
    pose proof (zlen_nonneg _ s). assert (Hz := zlen_cons _ b s).
    destruct (tlt N d a) eqn:E.
    + split.
      * intros <-. split; [lia|]. split; [intros; lia|].
        intros _ x Hx. replace (i - i) with 0 in Hx by lia. rewrite znth_cons_0 in Hx.
        now inversion Hx; subst.
      * intros (H1 & H2 & _). destruct (Z.eq_dec i r) as [|Hn]; [assumption|].
        assert (C := H2 0 a ltac:(lia) eq_refl). congruence.
    + rewrite (IH (i + 1) Hb). split.
      * intros (H1 & H2 & H3). split; [lia|]. split.
        -- intros k x Hk Hx. destruct (Z.eq_dec k 0) as [->|Hk0].
           ++ rewrite znth_cons_0 in Hx. now inversion Hx; subst.
           ++ rewrite znth_cons_S in Hx by lia. apply (H2 (k - 1)); [lia|assumption].
        -- intros Hr x Hx. apply H3; [lia|].
           rewrite znth_cons_S in Hx by lia. replace (r - (i + 1)) with (r - i - 1) by lia. exact Hx.
      * intros (H1 & H2 & H3).
        assert (i <> r).
        { intros ->. assert (C := H3 ltac:(lia) a). replace (r - r) with 0 in C by lia.
          rewrite C in E by reflexivity. discriminate. }
        split; [lia|]. split.
        -- intros k x Hk Hx. apply (H2 (k + 1)); [lia|]. rewrite znth_cons_S by lia.
           now replace (k + 1 - 1) with k by lia.
        -- intros Hr x Hx. apply H3; [lia|]. rewrite znth_cons_S by lia.
           replace (r - i - 1) with (r - (i + 1)) by lia. exact Hx.
Qed.

(** state of the cross-fader in any history: a fade length of at least one sample, at least
    one entry, both indices in range, equal when idle and adjacent while fading *)
Record CFok (c : CF N) : Prop := {
  cfo_n : 1 <= cf_num c <= int_max;
  cfo_left : 0 <= cf_left c <= cf_num c;
  cfo_prev : 0 <= cf_prev c < zlen (cf_scale c);
  cfo_next : 0 <= cf_next c < zlen (cf_scale c);
  cfo_idle : cf_left c = 0 -> cf_prev c = cf_next c;
  cfo_fade : 0 < cf_left c -> Z.abs (cf_prev c - cf_next c) = 1
}.

(** entry requested by a step size *)
Definition req (c : CF N) (d : T N) : Z := findLoop N d (cf_scale c) 0.

Lemma req_range c d : CFok c -> 0 <= req c d < zlen (cf_scale c).
Proof.
  intros H. unfold req. assert (A := findLoop_range d (cf_scale c) 0).
  assert (cf_scale c <> []).
  { intros E. assert (B := cfo_prev c H). rewrite E, zlen_nil in B. lia. }
  specialize (A H0). lia.
Qed.

(** the transition of newIndices on (left, prev, next), n the fade length, r the request *)
Definition cfStep (n : Z) (s : Z * Z * Z) (r : Z) : Z * Z * Z :=
  let '(l, p, x) := s in
  if l =? 0 then
    if r =? x then (l, p, x) else (n, (if p <? r then r - 1 else r + 1), r)
  else
    let '(p1, x1) := if negb (r =? x) && negb (r =? p)
                     then ((if p <? r then r - 1 else r + 1), r) else (p, x) in
    (l - 1, (if l - 1 =? 0 then x1 else p1), x1).

Definition cfState (c : CF N) : Z * Z * Z := (cf_left c, cf_prev c, cf_next c).
Definition cfWith (c : CF N) (s : Z * Z * Z) : CF N :=
  let '(l, p, x) := s in mkCF (cf_num c) (cf_scale c) l p x.
(** what newIndices returns, from the state after the transition; [idle]: the request met an
    idle cross-fader already there *)
Definition cfOut (c : CF N) (r : Z) : MMI N :=
  if (cf_left c =? 0) && (r =? cf_next c)
  then (r, t1 N, r + 1, t0 N)
  else fadeTuple N (cfWith c (cfStep (cf_num c) (cfState c) r)).

Lemma newIndices_eq dbg c d : CFok c -> (dbg = true -> tlt N (t0 N) d = true) ->
  newIndices N dbg c d =
    Ok (cfWith c (cfStep (cf_num c) (cfState c) (req c d)), cfOut c (req c d)).
Proof.
  intros H Hd. assert (Hr := req_range c d H). destruct H as [Hn Hl Hp Hx Hi Hf].
  unfold newIndices, findMipMapIndex.
  rewrite assert_ok by assumption. cbn [bind].
  fold (req c d). set (r := req c d) in *. unfold cfOut, cfStep, cfState, cfWith.
  destruct (Z.eqb_spec (cf_left c) 0) as [E|NE]; cbn [negb andb].
  - destruct (Z.eqb_spec r (cf_next c)) as [Er|Er].
    + rewrite assert_ok by (intros _; apply Z.eqb_eq; auto). cbn [bind].
      destruct c as [cn cs cl cp cx]; reflexivity.
    + reflexivity.
  - rewrite assert_ok by (intros _; apply negb_true_iff, Z.eqb_neq; specialize (Hf ltac:(lia)); lia).
    cbn [bind].
    destruct (negb (r =? cf_next c) && negb (r =? cf_prev c)) eqn:E.
    + cbn [updateIndices cf_left]. rewrite chk_ok by (unfold int_min; lia). cbn [bind].
      unfold updateIndices, set_left, set_prev; cbn [cf_left cf_prev cf_next cf_num cf_scale].
      destruct (cf_left c - 1 =? 0); reflexivity.
    + rewrite chk_ok by (unfold int_min; lia). cbn [bind].
      unfold set_left, set_prev; cbn [cf_left cf_prev cf_next cf_num cf_scale].
      destruct (cf_left c - 1 =? 0); reflexivity.
Qed.

Definition cfInv (n num : Z) (s : Z * Z * Z) : Prop :=
  let '(l, p, x) := s in
  0 <= l <= n /\ 0 <= p < num /\ 0 <= x < num /\ (l = 0 -> p = x) /\ (0 < l -> Z.abs (p - x) = 1).

Lemma cfStep_inv n num s r : 1 <= n -> 0 <= r < num -> cfInv n num s -> cfInv n num (cfStep n s r).
Proof.
  destruct s as [[l p] x]. unfold cfInv, cfStep. intros Hn Hr (H1 & H2 & H3 & H4 & H5).
  destruct (Z.eqb_spec l 0) as [E|NE].
  - destruct (Z.eqb_spec r x) as [Er|Er]; [now repeat split; auto; lia|].
    destruct (Z.ltb_spec p r); repeat split; lia.
  - specialize (H5 ltac:(lia)).
    destruct (Z.eqb_spec r x) as [Er|Er], (Z.eqb_spec r p) as [Ep|Ep]; cbn [negb andb].
    + destruct (Z.eqb_spec (l - 1) 0); repeat split; lia.
    + destruct (Z.eqb_spec (l - 1) 0); repeat split; lia.
    + destruct (Z.eqb_spec (l - 1) 0); repeat split; lia.
    + destruct (Z.eqb_spec (l - 1) 0), (Z.ltb_spec p r); repeat split; lia.
Qed.

Lemma CFok_inv c : CFok c <->
  1 <= cf_num c <= int_max /\ cfInv (cf_num c) (zlen (cf_scale c)) (cfState c).
Proof.
  unfold cfInv, cfState. split.
  - intros [A B C D E F]; repeat split; auto; lia.
  - intros (A & B & C & D & E & F). constructor; auto.
Qed.

(** one call: total, keeps the invariant, returns valid adjacent entries *)
Theorem newIndices_ok dbg c d : CFok c -> (dbg = true -> tlt N (t0 N) d = true) ->
  exists c' mi g mu gu,
    newIndices N dbg c d = Ok (c', (mi, g, mu, gu)) /\ CFok c' /\
    cf_num c' = cf_num c /\ cf_scale c' = cf_scale c /\
    0 <= mi < zlen (cf_scale c) /\
    (mu = mi + 1 \/ (mu = mi /\ cf_left c' = 0)) /\
    (mu < zlen (cf_scale c) \/ gu = t0 N).
Proof.
  intros H Hd. assert (Hr := req_range c d H).
  assert (Hi := proj1 (CFok_inv c) H). destruct Hi as [Hn Hi].
  assert (Hs := cfStep_inv (cf_num c) _ (cfState c) (req c d) ltac:(lia) Hr Hi).
  rewrite newIndices_eq by assumption.
  destruct (cfStep (cf_num c) (cfState c) (req c d)) as [[l p] x] eqn:E.
  cbn [cfWith]. unfold cfOut. rewrite E.
  destruct ((cf_left c =? 0) && (req c d =? cf_next c)) eqn:Ei.
  - apply andb_prop in Ei. destruct Ei as [E1 E2]. apply Z.eqb_eq in E1, E2.
    do 5 eexists. split; [reflexivity|]. split; [apply CFok_inv; split; assumption|].
    cbn [cf_num cf_scale cf_left]. repeat split; try lia. right; reflexivity.
  - unfold fadeTuple; cbn [cfWith cf_prev cf_next].
    unfold cfInv in Hs. destruct Hs as (A & B & C & D & F).
    destruct (Z.ltb_spec p x).
    + do 5 eexists. split; [reflexivity|]. split.
      { apply CFok_inv; split; [assumption|]. unfold cfInv, cfState; cbn. auto. }
      cbn [cf_num cf_scale cf_left]. repeat split; try lia.
    + do 5 eexists. split; [reflexivity|]. split.
      { apply CFok_inv; split; [assumption|]. unfold cfInv, cfState; cbn. auto. }
      cbn [cf_num cf_scale cf_left]. repeat split; try lia.
Qed.

(** the constructor's cross-fader *)
Lemma cf_make_ok dbg n len sr c : 1 <= n <= int_max ->
  cf_make N dbg n len sr = Ok c -> zlen (cf_scale c) <> 0 -> CFok c /\ cf_num c = n /\ cf_left c = 0.
Proof.
  unfold cf_make, findMipMapIndex. intros Hn H Hz.
  apply bind_ok in H. destruct H as (scale & Hs & H).
  apply bind_ok in H. destruct H as (i & Hi & H).
  apply bind_ok in Hi. destruct Hi as (u & _ & Hi). inversion Hi; subst i; clear Hi.
  inversion H; subst c; clear H. cbn [cf_scale] in Hz.
  assert (scale <> []) by (intros ->; rewrite zlen_nil in Hz; lia).
  assert (R := findLoop_range (tfrac N 1 10) scale 0 H).
  split; [|split; reflexivity].
  constructor; cbn [cf_num cf_scale cf_left cf_prev cf_next]; lia.
Qed.

(** histories of requests *)
Fixpoint cfRun (n : Z) (s : Z * Z * Z) (rs : list Z) : Z * Z * Z :=
  match rs with [] => s | r :: t => cfRun n (cfStep n s r) t end.

(** repeated request [r]: number of calls until settled *)
Definition cfWait (n : Z) (s : Z * Z * Z) (r : Z) : Z :=
  let '(l, p, x) := s in
  if l =? 0 then (if r =? x then 0 else n + 1)
  else if r =? x then l else if r =? p then l + n + 1 else l.

Lemma cfWait_bound n num s r : cfInv n num s -> 1 <= n -> 0 <= cfWait n s r <= 2 * n + 1.
Proof.
  destruct s as [[l p] x]. unfold cfInv, cfWait. intros (H1 & _) Hn.
  destruct (l =? 0), (r =? x), (r =? p); lia.
Qed.

Lemma cfWait_step n num s r : cfInv n num s -> 1 <= n -> 0 <= r < num ->
  cfWait n (cfStep n s r) r = Z.max 0 (cfWait n s r - 1).
Proof.
  destruct s as [[l p] x]. unfold cfInv. intros (H1 & H2 & H3 & H4 & H5) Hn Hr.
  unfold cfStep.
  destruct (Z.eqb_spec l 0) as [E|NE].
  - unfold cfWait at 2. subst l; cbn [Z.eqb].
    destruct (Z.eqb_spec r x) as [Er|Er].
    + unfold cfWait; cbn [Z.eqb]. subst r. rewrite Z.eqb_refl. reflexivity.
    + unfold cfWait. destruct (Z.eqb_spec n 0); [lia|]. rewrite Z.eqb_refl. lia.
  - specialize (H5 ltac:(lia)). unfold cfWait at 2.
    destruct (Z.eqb_spec l 0); [lia|].
    destruct (Z.eqb_spec r x) as [Er|Er], (Z.eqb_spec r p) as [Ep|Ep]; cbn [negb andb].
    + lia.
    + unfold cfWait. destruct (Z.eqb_spec (l - 1) 0); subst r; rewrite Z.eqb_refl; lia.
    + unfold cfWait. destruct (Z.eqb_spec (l - 1) 0).
      * destruct (Z.eqb_spec r x); [lia|]. lia.
      * destruct (Z.eqb_spec r x); [lia|]. destruct (Z.eqb_spec r p); [lia|congruence].
    + unfold cfWait. destruct (Z.eqb_spec (l - 1) 0); rewrite Z.eqb_refl; lia.
Qed.

Lemma cfWait_0 n num s r : cfInv n num s -> 1 <= n -> cfWait n s r = 0 -> s = (0, r, r).
Proof.
  destruct s as [[l p] x]. unfold cfInv, cfWait. intros (H1 & H2 & H3 & H4 & H5) Hn.
  destruct (Z.eqb_spec l 0).
  - destruct (Z.eqb_spec r x); [|lia]. intros _. subst. now rewrite H4.
  - destruct (r =? x), (r =? p); lia.
Qed.

Lemma cfRun_inv n num s rs : 1 <= n -> (forall r, In r rs -> 0 <= r < num) ->
  cfInv n num s -> cfInv n num (cfRun n s rs).
Proof.
  intros Hn. revert s; induction rs as [|r rs IH]; intros s Hr Hs; [assumption|].
  cbn [cfRun]. apply IH; [intros; apply Hr; now right|].
  apply cfStep_inv; auto. apply Hr; now left.
Qed.

Lemma cfRun_const n num s r k : cfInv n num s -> 1 <= n -> 0 <= r < num ->
  cfWait n (cfRun n s (repeat r k)) r = Z.max 0 (cfWait n s r - Z.of_nat k).
Proof.
  intros Hs Hn Hr. revert s Hs; induction k as [|k IH]; intros s Hs.
  - cbn [repeat cfRun]. assert (A := cfWait_bound n num s r Hs Hn). lia.
  - cbn [repeat cfRun]. rewrite IH by (now apply cfStep_inv).
    rewrite (cfWait_step n num) by assumption. lia.
Qed.

Lemma cfRun_settles n num s r k : cfInv n num s -> 1 <= n -> 0 <= r < num ->
  2 * n + 1 <= Z.of_nat k -> cfRun n s (repeat r k) = (0, r, r).
Proof.
  intros Hs Hn Hr Hk. apply (cfWait_0 n num).
  - apply cfRun_inv; auto. intros x Hx. apply repeat_spec in Hx. now subst.
  - assumption.
  - rewrite (cfRun_const n num) by assumption.
    assert (A := cfWait_bound n num s r Hs Hn). lia.
Qed.

End CF.
