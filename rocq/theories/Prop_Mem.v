(** * Prop_Mem: property C57 -- the two spans of process: overlapping, in place, of different sizes *)
From Coq Require Import ZArith List Bool Lia Arith.
From Flocq Require Import Core IEEE754.BinarySingleNaN.
From Verif Require Import Num Maths CrossFader Wavetable Filters Osc NumFacts B32 Demo Mem SpecI Prop_Build.
Import ListNotations.
Local Open Scope Z_scope.

(** ** lists *)
Section Lists.
Context {A : Type}.
Implicit Types l : list A.
Lemma skip_skip l : forall i j, skipn i (skipn j l) = skipn (j + i) l.
Proof.
  induction l as [|h t IH]; intros i [|j]; cbn [skipn Nat.add]; auto. now destruct i.
Qed.
Lemma nset_split l : forall i a, (i < length l)%nat -> nset l i a = firstn i l ++ a :: skipn (S i) l.
Proof.
  induction l as [|h t IH]; intros [|i] a H; cbn [length] in H; try lia; [reflexivity|].
  cbn [nset firstn app]. rewrite IH by lia. reflexivity.
Qed.
Lemma nset_len l : forall i a, length (nset l i a) = length l.
Proof. induction l as [|h t IH]; intros [|i] a; cbn [nset length]; auto. Qed.
Lemma nset_skip l i a k : (i < k)%nat -> skipn k (nset l i a) = skipn k l.
Proof.
  revert i k. induction l as [|h t IH]; intros [|i] [|k] H; cbn [nset skipn]; auto; try lia. apply IH. lia.
Qed.
Lemma nset_first l i a k : (k <= i)%nat -> firstn k (nset l i a) = firstn k l.
Proof.
  revert i k. induction l as [|h t IH]; intros [|i] [|k] H; cbn [nset firstn]; auto; try lia. f_equal. apply IH. lia.
Qed.
Lemma zset_ok l i a : (i < length l)%nat -> zset l (Z.of_nat i) a = Ok (nset l i a).
Proof.
  intros H. unfold zset, zlen.
  destruct (Z.leb_spec 0 (Z.of_nat i)); [|lia].
  destruct (Z.ltb_spec (Z.of_nat i) (Z.of_nat (length l))); [|lia]. cbn [andb]. now rewrite Nat2Z.id.
Qed.
Lemma cut l : forall i, (i < length l)%nat -> exists a, znth l (Z.of_nat i) = Ok a /\
  skipn i l = a :: skipn (S i) l.
Proof.
  intros i H. unfold znth. destruct (Z.ltb_spec (Z.of_nat i) 0) as [L|_]; [lia|]. rewrite Nat2Z.id.
  revert i H. induction l as [|h t IH]; intros [|i] H; cbn [length] in H; try lia; [exists h; auto|].
  cbn [nth_error skipn]. apply IH. lia.
Qed.
Lemma first_skip l n k i a : (i + n <= k)%nat -> firstn n (skipn i (nset l k a)) = firstn n (skipn i l).
Proof.
  intros H. rewrite !firstn_skipn_comm. f_equal. apply nset_first. lia.
Qed.
End Lists.

Section Spans.
Variable N : Num.
Variable cfg : Cfg.
Variable F : Filt N.
Notation processLoop := (processLoop N cfg F).
Notation memLoop := (memLoop N cfg F).

(** ** the loop *)
Lemma memLoop_lists dir n : forall o mem a b, (a + n <= length mem)%nat -> (b + n <= length mem)%nat ->
  (b <= a \/ a + n <= b)%nat ->
  memLoop dir o mem a b n =
  match processLoop dir o (firstn n (skipn a mem)) (firstn n (skipn b mem)) with
  | Ok (o', ys) => Ok (o', firstn b mem ++ ys ++ skipn (b + n) mem)
  | Fault f => Fault f
  end.
Proof.
  induction n as [|n IH]; intros o mem a b Ha Hb Hs.
  - cbn [Mem.memLoop firstn Osc.processLoop app]. rewrite Nat.add_0_r. now rewrite firstn_skipn.
  - cbn [Mem.memLoop]. destruct (cut mem a ltac:(lia)) as (p & Ep & Sp). destruct (cut mem b ltac:(lia)) as (q & _ & Sq).
    rewrite Ep, Sp, Sq. cbn [bind firstn Osc.processLoop].
    destruct (processOne N cfg F dir o p) as [[o1 y]|f]; [|reflexivity]. cbn [bind].
    rewrite zset_ok by lia. cbn [bind]. rewrite IH; rewrite ?nset_len; try lia.
    rewrite (nset_skip mem b y (S b)) by lia.
    replace (firstn n (skipn (S a) (nset mem b y))) with (firstn n (skipn (S a) mem))
      by (symmetry; destruct Hs; [now rewrite nset_skip by lia | apply first_skip; lia]).
    destruct (processLoop dir o1 (firstn n (skipn (S a) mem)) (firstn n (skipn (S b) mem))) as [[o2 ys]|f];
      cbn [bind]; [|reflexivity].
    do 2 f_equal. rewrite (nset_skip mem b y) by lia. rewrite nset_split by lia.
    replace (firstn (S b) (firstn b mem ++ y :: skipn (S b) mem)) with (firstn b mem ++ [y]).
    + rewrite <- app_assoc. cbn [app]. replace (b + S n)%nat with (S b + n)%nat by lia. reflexivity.
    + rewrite firstn_app, firstn_length, Nat.min_l by lia. replace (S b - b)%nat with 1%nat by lia.
      rewrite firstn_firstn, Nat.min_r by lia. reflexivity.
Qed.

(** ** different sizes *)
Lemma processLoop_min dir ps : forall o out,
  processLoop dir o ps out =
  match processLoop dir o (firstn (Nat.min (length ps) (length out)) ps) (firstn (Nat.min (length ps) (length out)) out) with
  | Ok (o', ys) => Ok (o', ys ++ skipn (Nat.min (length ps) (length out)) out)
  | Fault f => Fault f
  end.
Proof.
  induction ps as [|p ps IH]; intros o out; [reflexivity|]. destruct out as [|q out]; [reflexivity|].
  cbn [length Nat.min firstn skipn Osc.processLoop].
  destruct (processOne N cfg F dir o p) as [[o1 y]|f]; [|reflexivity]. cbn [bind].
  rewrite (IH o1 out). destruct (processLoop dir o1 _ (firstn _ out)) as [[o2 ys]|f]; reflexivity.
Qed.

(** ** overlap *)
Lemma processLoop_out dir ps : forall o out out', length out = length ps -> length out' = length ps ->
  processLoop dir o ps out = processLoop dir o ps out'.
Proof.
  induction ps as [|p ps IH]; intros o [|q out] [|q' out'] E E'; cbn [length] in *; try lia; [reflexivity|].
  cbn [Osc.processLoop]. destruct (processOne N cfg F dir o p) as [[o1 y]|f]; [|reflexivity]. cbn [bind].
  now rewrite (IH o1 out out') by lia.
Qed.
Lemma memLoop_keeps dir n : forall o mem a b o' mem', (b + n <= length mem)%nat ->
  memLoop dir o mem a b n = Ok (o', mem') ->
  firstn b mem' = firstn b mem /\ skipn (b + n) mem' = skipn (b + n) mem /\ length mem' = length mem.
Proof.
  induction n as [|n IH]; intros o mem a b o' mem' Hb H.
  - cbn [Mem.memLoop] in H. inversion H; subst. auto.
  - cbn [Mem.memLoop] in H. apply bind_ok in H. destruct H as (p & _ & H).
    apply bind_ok in H. destruct H as ([o1 y] & _ & H). rewrite zset_ok in H by lia. cbn [bind] in H.
    apply IH in H; [|rewrite nset_len; lia]. rewrite nset_len in H. destruct H as (E1 & E2 & E3).
    repeat split; [| |assumption].
    + assert (X := f_equal (firstn b) E1). rewrite !firstn_firstn, !Nat.min_l in X by lia.
      rewrite X. apply nset_first. lia.
    + replace (b + S n)%nat with (S b + n)%nat by lia. rewrite E2. apply nset_skip. lia.
Qed.
Lemma memLoop_back dir n : forall o mem a b o' mem', (a < b)%nat -> (b + n <= length mem)%nat ->
  memLoop dir o mem a b n = Ok (o', mem') ->
  processLoop dir o (firstn n (skipn a mem')) (firstn n (skipn b mem)) = Ok (o', firstn n (skipn b mem')).
Proof.
  induction n as [|n IH]; intros o mem a b o' mem' Hab Hb H.
  - cbn [Mem.memLoop] in H. inversion H; subst. reflexivity.
  - cbn [Mem.memLoop] in H. destruct (cut mem a ltac:(lia)) as (p & Ep & Sp). rewrite Ep in H. cbn [bind] in H.
    apply bind_ok in H. destruct H as ([o1 y] & Eo & H). rewrite zset_ok in H by lia. cbn [bind] in H.
    assert (K := H). apply memLoop_keeps in K; [|rewrite nset_len; lia]. destruct K as (K1 & _ & K3). rewrite nset_len in K3.
    apply IH in H; [|lia|rewrite nset_len; lia].
    destruct (cut mem' a ltac:(lia)) as (p' & _ & Sp'). destruct (cut mem' b ltac:(lia)) as (y' & _ & Sy').
    destruct (cut mem b ltac:(lia)) as (q & _ & Sq).
    assert (Xa : p' = p).
    { assert (X := f_equal (fun l => skipn a (firstn (S a) l)) K1). cbn beta in X.
      rewrite !firstn_firstn, !Nat.min_l in X by lia. rewrite nset_first in X by lia.
      rewrite !skipn_firstn_comm in X. replace (S a - a)%nat with 1%nat in X by lia.
      rewrite Sp, Sp' in X. cbn [firstn] in X. congruence. }
    assert (Xb : y' = y).
    { assert (X := f_equal (skipn b) K1). rewrite !skipn_firstn_comm in X. replace (S b - b)%nat with 1%nat in X by lia.
      rewrite Sy', nset_split in X by lia. rewrite skipn_app, firstn_length, Nat.min_l, Nat.sub_diag in X by lia.
      rewrite (skipn_all2 (n := b) (firstn b mem)) in X by (rewrite firstn_length; lia). cbn [app skipn firstn] in X. congruence. }
    subst p' y'. rewrite Sp', Sy', Sq. cbn [firstn Osc.processLoop]. rewrite Eo. cbn [bind].
    rewrite (nset_skip mem b y (S b)) in H by lia. rewrite H. reflexivity.
Qed.
End Spans.

(** ** C57 *)
(** spans of different sizes: a debug build stops; a release build processes the first phases, as
    many as both spans have, and leaves the rest of the output alone *)
Theorem C57_sizes : forall N cfg F dir o (ps out : list (T N)),
  let n := Nat.min (length ps) (length out) in
  (dbg cfg = true -> length ps <> length out -> process N cfg F dir o ps out = Fault AssertFail) /\
  (dbg cfg = false -> process N cfg F dir o ps out =
     match process N cfg F dir o (firstn n ps) (firstn n out) with
     | Ok (o', ys) => Ok (o', ys ++ skipn n out)
     | Fault f => Fault f
     end).
Proof.
  intros N cfg F dir o ps out n. unfold process, assert_. split; intros D.
  - intros L. rewrite D. destruct (is_some (o_wt o)); cbn [negb andb bind]; [|reflexivity].
    unfold zlen. destruct (Z.eqb_spec (Z.of_nat (length ps)) (Z.of_nat (length out))); [lia|reflexivity].
  - rewrite D. cbn [andb bind]. apply processLoop_min.
Qed.
Print Assumptions C57_sizes.

(** two windows of one memory, of any sizes, where no phase is overwritten before it is read (in
    particular: disjoint windows, and processing in place): the outcome is that of separate
    buffers, and nothing outside the output window changes *)
Theorem C57_windows : forall N cfg F dir o (mem : list (T N)) phases output,
  inside mem phases -> inside mem output -> harmless phases output ->
  processMem N cfg F dir o mem phases output =
  match process N cfg F dir o (seen mem phases) (seen mem output) with
  | Ok (o', ys) => Ok (o', shown mem output ys)
  | Fault f => Fault f
  end.
Proof.
  intros N cfg F dir o mem [a la] [b lb]. unfold inside, harmless, processMem, process, seen, shown.
  cbn [wn_at wn_len]. intros Ha Hb Hs. unfold zlen.
  rewrite !firstn_length, !skipn_length, (Nat.min_l la (_ - _)), (Nat.min_l lb (_ - _)) by lia.
  destruct (assert_ _ (is_some _)); [|reflexivity]. cbn [bind].
  destruct (assert_ _ (Z.of_nat la =? _)); [|reflexivity]. cbn [bind].
  rewrite memLoop_lists by lia. rewrite (processLoop_min N cfg F dir (firstn la (skipn a mem))).
  rewrite !firstn_length, !skipn_length, (Nat.min_l la (_ - _)), (Nat.min_l lb (_ - _)) by lia.
  set (n := Nat.min la lb). rewrite !firstn_firstn. rewrite (Nat.min_l n la), (Nat.min_l n lb) by (unfold n; lia).
  destruct (processLoop N cfg F dir o _ _) as [[o' ys]|f]; [|reflexivity]. do 3 f_equal. rewrite <- app_assoc. f_equal.
  assert (Hn : (n <= lb)%nat) by (unfold n; lia). clearbody n.
  rewrite <- (firstn_skipn (lb - n) (skipn (b + n) mem)). f_equal.
  - rewrite skipn_firstn_comm, skip_skip. reflexivity.
  - rewrite skip_skip. f_equal. lia.
Qed.
Print Assumptions C57_windows.

(** the remaining overlap, an output window that starts inside the phase window: what is played is
    the phase window as it is found afterwards, samples written over phases included *)
Theorem C57_overlap : forall N cfg F dir o (mem : list (T N)) phases output o' mem',
  inside mem phases -> inside mem output -> wn_len phases = wn_len output ->
  (wn_at phases < wn_at output)%nat ->
  processMem N cfg F dir o mem phases output = Ok (o', mem') ->
  process N cfg F dir o (seen mem' phases) (seen mem output) = Ok (o', seen mem' output) /\
  mem' = shown mem output (seen mem' output).
Proof.
  intros N cfg F dir o mem [a la] [b lb] o' mem'. unfold inside, processMem, process, seen, shown.
  cbn [wn_at wn_len]. intros Ha Hb E Hs H. subst lb. rewrite Nat.min_id in H.
  apply bind_ok in H. destruct H as ([] & A1 & H). apply bind_ok in H. destruct H as ([] & A2 & H).
  destruct (memLoop_keeps N cfg F _ _ _ _ _ _ _ _ Hb H) as (K1 & K2 & K3).
  apply memLoop_back in H; [|assumption|lia]. unfold zlen. rewrite !firstn_length, !skipn_length, !Nat.min_l by lia.
  rewrite A1, A2. cbn [bind]. split; [exact H|]. rewrite <- K1, <- K2.
  rewrite <- (firstn_skipn b mem') at 1. f_equal. rewrite <- (firstn_skipn la (skipn b mem')) at 1. f_equal.
  rewrite skip_skip. reflexivity.
Qed.
Print Assumptions C57_overlap.

(** *** concrete cases: a silent waveform of 8 samples in binary32 behind a filter of one pole,
    phases 1/8, 1/4 played in a memory of four floats *)
Definition onePole : Filt FN :=
  mkFilt [(fl 1 1, fl 0 1)] [(fl (-1) 1, fl 0 1)] [(fl 1 1, fl 0 1)] [(fl 1 4, fl 0 1)].
Definition quietTable (dbg : bool) : option (WT FN) :=
  match wt_build FN (demo_src FN) dbg (repeat (f32_ofZ 0) 8) 1 sr48 (defaultFade FN) with
  | Ok r => r | Fault _ => None end.
Definition quiet (dbg : bool) : option (Osc FN) :=
  match osc_init FN (mkCfg dbg 1) onePole (osc_new FN onePole) (quietTable dbg) (fl 0 1) (fl 4 10) with
  | Ok (o, _) => Some o | Fault _ => None end.
Definition played (dbg : bool) (mem : list f32) (phases output : Window) : option (f32 * list f32) :=
  match quiet dbg with
  | Some o =>
      match processMem FN (mkCfg dbg 1) onePole kBidirectionnal o mem phases output with
      | Ok (o', mem') => Some (prevPhase FN o', mem') | Fault _ => None end
  | None => None end.
Definition sameFloats (l m : list f32) : bool :=
  (length l =? length m)%nat && forallb (fun xy => teq FN (fst xy) (snd xy)) (combine l m).
Definition endsWith (r : option (f32 * list f32)) (p : f32) (mem : list f32) : bool :=
  match r with Some (q, m) => teq FN p q && sameFloats m mem | None => false end.

(** in place; output window just before the phases, overlapping them; disjoint windows: after
    playing, the last phase is 1/4 and only the output window changed *)
Example C57_case :
  let mem := [fl 1 1; fl 1 8; fl 1 4; fl 3 1; fl 5 1] : list f32 in let ph := mkWindow 1 2 in
  (inside mem ph /\ harmless ph (mkWindow 1 2) /\ harmless ph (mkWindow 0 2) /\ harmless ph (mkWindow 3 2)) /\
  endsWith (played true mem ph (mkWindow 1 2)) (fl 1 4) [fl 1 1; fl 0 1; fl 0 1; fl 3 1; fl 5 1] = true /\
  endsWith (played true mem ph (mkWindow 0 2)) (fl 1 4) [fl 0 1; fl 0 1; fl 1 4; fl 3 1; fl 5 1] = true /\
  endsWith (played true mem ph (mkWindow 3 2)) (fl 1 4) [fl 1 1; fl 1 8; fl 1 4; fl 0 1; fl 0 1] = true.
Proof.
  cbv zeta. split.
  - unfold inside, harmless. cbn [wn_at wn_len length]. repeat split; lia.
  - repeat split; vm_compute; reflexivity.
Qed.

(** an output window starting one float after the phases does not: the second phase played is the
    first sample, 0, and the oscillator stands there instead of at 1/4 *)
Example C57_one_behind : let mem := [fl 1 1; fl 1 8; fl 1 4; fl 3 1; fl 5 1] : list f32 in
  endsWith (played true mem (mkWindow 1 2) (mkWindow 2 2)) (fl 0 1) [fl 1 1; fl 1 8; fl 0 1; fl 0 1; fl 5 1] = true.
Proof. vm_compute. reflexivity. Qed.

(** three phases, an output of two: stopped in debug; in release two samples, the third phase is
    not used *)
Example C57_sizes_case : let mem := [fl 1 8; fl 1 4; fl 3 8; fl 7 1; fl 7 1; fl 7 1] : list f32 in
  played true mem (mkWindow 0 3) (mkWindow 3 2) = None /\
  endsWith (played false mem (mkWindow 0 3) (mkWindow 3 2)) (fl 1 4) [fl 1 8; fl 1 4; fl 3 8; fl 0 1; fl 0 1; fl 7 1] = true.
Proof. split; vm_compute; reflexivity. Qed.
