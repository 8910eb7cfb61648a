(** * NumFacts: lemmas about outcomes, indexing and loops *)
From Coq Require Import ZArith List Bool Lia Permutation.
From Verif Require Import Num.
Import ListNotations.
Local Open Scope Z_scope.

Lemma bind_ok A B (x : res A) (k : A -> res B) (b : B) :
  bind x k = Ok b -> exists a, x = Ok a /\ k a = Ok b.
Proof. destruct x; simpl; intros H; [eauto | discriminate]. Qed.

Lemma zlen_nonneg A (l : list A) : 0 <= zlen l.
Proof. unfold zlen; lia. Qed.
Lemma zlen_nil A : zlen (@nil A) = 0.
Proof. reflexivity. Qed.
Lemma zlen_cons A (a : A) l : zlen (a :: l) = zlen l + 1.
Proof. unfold zlen; simpl length; lia. Qed.
Lemma zlen_app A (l m : list A) : zlen (l ++ m) = zlen l + zlen m.
Proof. unfold zlen; rewrite app_length; lia. Qed.
Lemma zlen_map A B (f : A -> B) l : zlen (map f l) = zlen l.
Proof. unfold zlen; rewrite map_length; reflexivity. Qed.
Lemma zlen_repeat A (a : A) n : zlen (repeat a n) = Z.of_nat n.
Proof. unfold zlen; rewrite repeat_length; reflexivity. Qed.
Lemma zlen_firstn A n (l : list A) : zlen (firstn n l) = Z.min (Z.of_nat n) (zlen l).
Proof. unfold zlen; rewrite firstn_length; lia. Qed.
Lemma zlen_skipn A n (l : list A) : zlen (skipn n l) = Z.max 0 (zlen l - Z.of_nat n).
Proof. unfold zlen; rewrite skipn_length; lia. Qed.
Lemma zlen_0 A (l : list A) : zlen l = 0 -> l = [].
Proof. destruct l; [reflexivity | rewrite zlen_cons; pose proof (zlen_nonneg A l); lia]. Qed.

Lemma znth_ok A (l : list A) i : 0 <= i < zlen l -> exists a, znth l i = Ok a.
Proof.
  unfold znth, zlen; intros H. destruct (Z.ltb_spec i 0); [lia|].
  destruct (nth_error l (Z.to_nat i)) eqn:E; [eauto|].
  apply nth_error_None in E; lia.
Qed.
Lemma znth_range A (l : list A) i a : znth l i = Ok a -> 0 <= i < zlen l.
Proof.
  unfold znth, zlen. destruct (Z.ltb_spec i 0); [discriminate|].
  destruct (nth_error l (Z.to_nat i)) eqn:E; [|discriminate].
  intros _. assert (nth_error l (Z.to_nat i) <> None) as Hn by congruence.
  apply nth_error_Some in Hn. lia.
Qed.
Lemma znth_fault A (l : list A) i : ~ (0 <= i < zlen l) -> znth l i = Fault OutOfBounds.
Proof.
  unfold znth, zlen; intros H. destruct (Z.ltb_spec i 0); [reflexivity|].
  destruct (nth_error l (Z.to_nat i)) eqn:E; [|reflexivity].
  assert (nth_error l (Z.to_nat i) <> None) as Hn by congruence.
  apply nth_error_Some in Hn. lia.
Qed.
Lemma znth_nth A (l : list A) i d : 0 <= i < zlen l -> znth l i = Ok (nth (Z.to_nat i) l d).
Proof.
  unfold znth, zlen; intros H. destruct (Z.ltb_spec i 0); [lia|].
  rewrite (nth_error_nth' l d) by lia. reflexivity.
Qed.
Lemma znth_of_nat A (l : list A) (i : nat) :
  znth l (Z.of_nat i) = match nth_error l i with Some a => Ok a | None => Fault OutOfBounds end.
Proof. unfold znth. destruct (Z.ltb_spec (Z.of_nat i) 0); [lia|]. now rewrite Nat2Z.id. Qed.
Lemma znth_map A B (f : A -> B) l i :
  znth (map f l) i = let! a := znth l i in Ok (f a).
Proof.
  unfold znth. destruct (i <? 0); [reflexivity|].
  rewrite nth_error_map. now destruct (nth_error l (Z.to_nat i)).
Qed.
Lemma znth_In A (l : list A) i a : znth l i = Ok a -> In a l.
Proof.
  unfold znth. destruct (i <? 0); [discriminate|].
  destruct (nth_error l (Z.to_nat i)) eqn:E; [|discriminate].
  intros H; inversion H; subst. eapply nth_error_In; eauto.
Qed.
Lemma znth_cons_0 A (a : A) l : znth (a :: l) 0 = Ok a.
Proof. reflexivity. Qed.
Lemma znth_cons_S A (a : A) l i : 0 < i -> znth (a :: l) i = znth l (i - 1).
Proof.
  intros H. unfold znth. destruct (Z.ltb_spec i 0); [lia|].
  destruct (Z.ltb_spec (i - 1) 0); [lia|].
  replace (Z.to_nat i) with (S (Z.to_nat (i - 1))) by lia. reflexivity.
Qed.
Lemma znth_app_l A (l m : list A) i : i < zlen l -> znth (l ++ m) i = znth l i.
Proof.
  intros H. unfold znth. destruct (Z.ltb_spec i 0); [reflexivity|].
  rewrite nth_error_app1; [reflexivity|]. unfold zlen in H; lia.
Qed.
Lemma znth_app_r A (l m : list A) i : zlen l <= i -> znth (l ++ m) i = znth m (i - zlen l).
Proof.
  intros H. pose proof (zlen_nonneg _ l). unfold znth.
  destruct (Z.ltb_spec i 0); [lia|]. destruct (Z.ltb_spec (i - zlen l) 0); [lia|].
  rewrite nth_error_app2 by (unfold zlen in H; lia).
  unfold zlen. f_equal. now replace (Z.to_nat i - length l)%nat with (Z.to_nat (i - Z.of_nat (length l))) by lia.
Qed.
Lemma list_ext_znth A (l m : list A) :
  zlen l = zlen m -> (forall i, 0 <= i < zlen l -> znth l i = znth m i) -> l = m.
Proof.
  revert m; induction l as [|a l IH]; intros [|b m] Hl H.
  - reflexivity.
  - rewrite zlen_nil, zlen_cons in Hl. pose proof (zlen_nonneg _ m); lia.
  - rewrite zlen_nil, zlen_cons in Hl. pose proof (zlen_nonneg _ l); lia.
  - rewrite !zlen_cons in Hl. pose proof (zlen_nonneg _ l).
    f_equal.
    + assert (Hz := H 0). rewrite zlen_cons, !znth_cons_0 in Hz.
      assert (Ok a = Ok b) as E by (apply Hz; lia). now inversion E.
    + apply IH; [lia|]. intros i Hi.
      assert (Hi1 := H (i + 1)). rewrite !znth_cons_S in Hi1 by lia.
      rewrite zlen_cons in Hi1.
      replace (i + 1 - 1) with i in Hi1 by lia. apply Hi1; lia.
Qed.

Lemma length_nset A (l : list A) i a : length (nset l i a) = length l.
Proof. revert i; induction l as [|x l IH]; intros [|i]; simpl; auto. Qed.
Lemma nth_error_nset A (l : list A) i a k :
  nth_error (nset l i a) k =
  if Nat.eqb k i then (match nth_error l k with Some _ => Some a | None => None end)
  else nth_error l k.
Proof.
  revert i k; induction l as [|x l IH]; intros [|i] [|k]; simpl; auto.
  now destruct (Nat.eqb k i).
Qed.
Lemma zset_ok A (l : list A) i a : 0 <= i < zlen l -> zset l i a = Ok (nset l (Z.to_nat i) a).
Proof.
  intros H; unfold zset.
  destruct (Z.leb_spec 0 i), (Z.ltb_spec i (zlen l)); simpl; try lia; reflexivity.
Qed.
Lemma zlen_nset A (l : list A) i a : zlen (nset l i a) = zlen l.
Proof. unfold zlen; now rewrite length_nset. Qed.
Lemma znth_nset A (l : list A) i a k :
  0 <= i < zlen l -> znth (nset l (Z.to_nat i) a) k = if k =? i then Ok a else znth l k.
Proof.
  intros Hi. unfold znth. destruct (Z.ltb_spec k 0).
  - destruct (Z.eqb_spec k i); [lia | reflexivity].
  - rewrite nth_error_nset.
    destruct (Nat.eqb_spec (Z.to_nat k) (Z.to_nat i)), (Z.eqb_spec k i); try lia; auto.
    subst k. destruct (nth_error l (Z.to_nat i)) eqn:E; [reflexivity|].
    apply nth_error_None in E. unfold zlen in Hi; lia.
Qed.

Lemma zlen_zseq a n : zlen (zseq a n) = Z.of_nat n.
Proof. revert a; induction n as [|n IH]; intros a; [reflexivity|].
  cbn [zseq]. rewrite zlen_cons, IH. lia. Qed.
Lemma zlen_zrange a b : zlen (zrange a b) = Z.max 0 (b - a).
Proof. unfold zrange; rewrite zlen_zseq; lia. Qed.
Lemma In_zseq a n x : In x (zseq a n) <-> a <= x < a + Z.of_nat n.
Proof.
  revert a; induction n as [|n IH]; intros a; cbn [zseq In]; [lia|].
  rewrite IH. lia.
Qed.
Lemma In_zrange a b x : In x (zrange a b) <-> a <= x < b.
Proof. unfold zrange; rewrite In_zseq; lia. Qed.
Lemma znth_zseq a n i : 0 <= i < Z.of_nat n -> znth (zseq a n) i = Ok (a + i).
Proof.
  revert a i; induction n as [|n IH]; intros a i Hi; [lia|].
  cbn [zseq]. destruct (Z.eq_dec i 0) as [->|Hn].
  - rewrite znth_cons_0. f_equal; lia.
  - rewrite znth_cons_S by lia. rewrite IH by lia. f_equal; lia.
Qed.
Lemma znth_zrange a b i : 0 <= i < b - a -> znth (zrange a b) i = Ok (a + i).
Proof. intros H. unfold zrange. apply znth_zseq. lia. Qed.
Lemma zrange_nil a b : b <= a -> zrange a b = [].
Proof. intros H; unfold zrange. now replace (Z.to_nat (b - a)) with 0%nat by lia. Qed.
Lemma zrange_cons a b : a < b -> zrange a b = a :: zrange (a + 1) b.
Proof.
  intros H; unfold zrange. replace (Z.to_nat (b - a)) with (S (Z.to_nat (b - (a + 1)))) by lia.
  reflexivity.
Qed.
Lemma zseq_app a n m : zseq a (n + m) = zseq a n ++ zseq (a + Z.of_nat n) m.
Proof.
  revert a; induction n as [|n IH]; intros a; cbn [zseq plus].
  - replace (a + Z.of_nat 0) with a by lia. reflexivity.
  - rewrite IH. cbn [app]. do 3 f_equal. lia.
Qed.
Lemma zrange_app a b c : a <= b -> b <= c -> zrange a c = zrange a b ++ zrange b c.
Proof.
  intros H1 H2; unfold zrange.
  replace (Z.to_nat (c - a)) with (Z.to_nat (b - a) + Z.to_nat (c - b))%nat by lia.
  rewrite zseq_app. do 2 f_equal. lia.
Qed.

Lemma mapr_total A B (f : A -> res B) (P : A -> B -> Prop) l :
  (forall a, In a l -> exists b, f a = Ok b /\ P a b) ->
  exists bs, mapr f l = Ok bs /\ Forall2 P l bs.
Proof.
  induction l as [|a l IH]; intros H; simpl.
  - eexists; split; [reflexivity | constructor].
  - destruct (H a (or_introl eq_refl)) as (b & Hb & Pb). rewrite Hb; simpl.
    destruct IH as (bs & Hbs & F); [intros; apply H; now right|].
    rewrite Hbs; simpl. eexists; split; [reflexivity | now constructor].
Qed.
Lemma mapr_ok_inv A B (f : A -> res B) l bs :
  mapr f l = Ok bs -> Forall2 (fun a b => f a = Ok b) l bs.
Proof.
  revert bs; induction l as [|a l IH]; simpl; intros bs H.
  - inversion H; constructor.
  - apply bind_ok in H. destruct H as (b & Hb & H).
    apply bind_ok in H. destruct H as (bs' & Hbs & H). inversion H; subst.
    constructor; auto.
Qed.
Lemma mapr_map A B (f : A -> res B) (g : A -> B) l :
  (forall a, In a l -> f a = Ok (g a)) -> mapr f l = Ok (map g l).
Proof.
  induction l as [|a l IH]; intros H; simpl; [reflexivity|].
  rewrite (H a (or_introl eq_refl)); simpl. rewrite IH; [reflexivity|].
  intros; apply H; now right.
Qed.
Lemma zlen_Forall2 A B (P : A -> B -> Prop) l m : Forall2 P l m -> zlen l = zlen m.
Proof. induction 1; [reflexivity|]. rewrite !zlen_cons. lia. Qed.
Lemma Forall2_znth A B (P : A -> B -> Prop) l m i b :
  Forall2 P l m -> znth m i = Ok b -> exists a, znth l i = Ok a /\ P a b.
Proof.
  intros F; revert i; induction F as [|x y l m Hxy F IH]; intros i H.
  - apply znth_range in H. rewrite zlen_nil in H. lia.
  - destruct (Z.eq_dec i 0) as [->|Hn].
    + rewrite znth_cons_0 in H. inversion H; subst. exists x; split; [apply znth_cons_0 | assumption].
    + assert (Hr := znth_range _ _ _ _ H). rewrite zlen_cons in Hr.
      rewrite znth_cons_S in H by lia. rewrite znth_cons_S by lia. now apply IH.
Qed.
Lemma mapr_zrange_znth B (f : Z -> res B) a b bs i x :
  mapr f (zrange a b) = Ok bs -> znth bs i = Ok x -> f (a + i) = Ok x.
Proof.
  intros H Hx. apply mapr_ok_inv in H.
  assert (Hl := zlen_Forall2 _ _ _ _ _ H). rewrite zlen_zrange in Hl.
  assert (Hr := znth_range _ _ _ _ Hx).
  destruct (Forall2_znth _ _ _ _ _ _ _ H Hx) as (k & Hk & E).
  rewrite znth_zrange in Hk by lia. now inversion Hk; subst.
Qed.
Lemma mapr_zlen A B (f : A -> res B) l bs : mapr f l = Ok bs -> zlen bs = zlen l.
Proof. intros H. apply mapr_ok_inv in H. symmetry. eapply zlen_Forall2; eauto. Qed.
Lemma mapr_ext A B (f g : A -> res B) l :
  (forall a, In a l -> f a = g a) -> mapr f l = mapr g l.
Proof.
  induction l as [|a l IH]; intros H; simpl; [reflexivity|].
  rewrite (H a (or_introl eq_refl)), IH; [reflexivity|]. intros; apply H; now right.
Qed.

Lemma foldr_inv A S (f : S -> A -> res S) (P : S -> Prop) l s :
  P s -> (forall a s, In a l -> P s -> exists s', f s a = Ok s' /\ P s') ->
  exists s', foldr f l s = Ok s' /\ P s'.
Proof.
  revert s; induction l as [|a l IH]; intros s Hs H; simpl; [eauto|].
  destruct (H a s (or_introl eq_refl) Hs) as (s1 & E & P1). rewrite E; simpl.
  apply IH; auto. intros; apply H; auto. now right.
Qed.
Lemma foldr_app A S (f : S -> A -> res S) l m s :
  foldr f (l ++ m) s = bind (foldr f l s) (foldr f m).
Proof.
  revert s; induction l as [|a l IH]; intros s; simpl; [reflexivity|].
  destruct (f s a); simpl; auto.
Qed.
Lemma foldr_ext A S (f g : S -> A -> res S) l s :
  (forall a s, In a l -> f s a = g s a) -> foldr f l s = foldr g l s.
Proof.
  revert s; induction l as [|a l IH]; intros s H; simpl; [reflexivity|].
  rewrite (H a s (or_introl eq_refl)). destruct (g s a); simpl; auto.
  apply IH; intros; apply H; now right.
Qed.

Lemma chk_ok z : int_min <= z <= int_max -> chk z = Ok z.
Proof.
  intros H; unfold chk, in_int.
  destruct (Z.leb_spec int_min z), (Z.leb_spec z int_max); simpl; try lia; reflexivity.
Qed.
Lemma chk_inv z v : chk z = Ok v -> v = z /\ int_min <= z <= int_max.
Proof.
  unfold chk, in_int.
  destruct (Z.leb_spec int_min z), (Z.leb_spec z int_max); simpl; intros E; inversion E; lia.
Qed.
Lemma in_int_true z : int_min <= z <= int_max -> in_int z = true.
Proof.
  intros H; unfold in_int.
  destruct (Z.leb_spec int_min z), (Z.leb_spec z int_max); simpl; try lia; reflexivity.
Qed.
Lemma ishr_ok x k : 0 <= k <= 31 -> ishr x k = Ok (x / 2 ^ k).
Proof.
  intros H; unfold ishr.
  destruct (Z.leb_spec 0 k), (Z.leb_spec k 31); simpl; try lia.
  now rewrite Z.shiftr_div_pow2 by lia.
Qed.
Lemma ishl_ok x k : 0 <= k <= 31 -> 0 <= x -> x * 2 ^ k <= int_max -> ishl x k = Ok (x * 2 ^ k).
Proof.
  intros H Hx Hm; unfold ishl. rewrite Z.shiftl_mul_pow2 by lia.
  rewrite in_int_true.
  - destruct (Z.leb_spec 0 k), (Z.leb_spec k 31), (Z.leb_spec 0 x); simpl; try lia; reflexivity.
  - split; [|assumption]. unfold int_min. assert (0 <= x * 2 ^ k) by (apply Z.mul_nonneg_nonneg; lia). lia.
Qed.
Lemma assert_ok dbg b : (dbg = true -> b = true) -> assert_ dbg b = Ok tt.
Proof. unfold assert_; destruct dbg, b; simpl; intros H; try reflexivity. now discriminate H. Qed.
Lemma assert_inv dbg b u : assert_ dbg b = Ok u -> dbg = true -> b = true.
Proof. unfold assert_; intros H ->. destruct b; [reflexivity|discriminate]. Qed.
Lemma wrap_int_id z : int_min <= z <= int_max -> wrap_int z = z.
Proof.
  unfold wrap_int, int_min, int_max; intros H.
  rewrite Z.mod_small; lia.
Qed.

(** ** Orders of summation *)
Lemma addsUp_perm t n : addsUp t n = true -> Permutation (seq 0 n) (leaves t).
Proof.
  unfold addsUp. rewrite andb_true_iff, Nat.eqb_eq, forallb_forall. intros [L H].
  apply NoDup_Permutation_bis; [apply seq_NoDup|rewrite seq_length; lia|].
  intros i Hi. specialize (H i Hi). apply existsb_exists in H. destruct H as (k & Hk & E).
  apply Nat.eqb_eq in E. now subst.
Qed.
Lemma addsUp_never n : addsUp (SLeaf 1) n = false.
Proof. destruct n as [|[|n]]; reflexivity. Qed.
