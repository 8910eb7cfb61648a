(** * OscRun: one processed sample and whole blocks -- totality, the invariant, and the value
    of every order *)
From Coq Require Import ZArith List Bool Reals Lia Lra Arith.
From Flocq Require Import Core.
From Verif Require Import Num Maths CrossFader Wavetable Filters Osc NumFacts Laws CFFacts WTFacts SimdFacts OscFacts OscStep.
Import ListNotations.
Local Open Scope Z_scope.

Section OscRun.
Variable N : Num.
Variable cfg : Cfg.
Variable F : Filt N.
Notation dbg := (dbg cfg).
Notation B := (batch cfg).
Notation n := (kNumCoeffs N F).
Notation upper := (kUpper N cfg F).

(** ** Values: what the loops compute, order by order *)
Definition i0Val (x : nat) (mp b mn d pd : T N) : C N :=
  if laneOf N cfg F x then i0_lane N (tmul N mp pd) b (tmul N mn pd) d (ezAt N cfg F x) (zAt N cfg F x)
  else i0_scalar N mp b mn d pd (ezAt N cfg F x) (zAt N cfg F x).

Definition fwdVal (s : Slot N) (len : Z) (prev pd phred : T N) (jmin jmax : Z) (x : nat) : C N :=
  let pb := tadd N prev (tofZ N (b2z (teq N prev (t0 N)))) in
  fold_left (sumU N cfg F true (barF N phred jmax) len s pd x) (boundaries len jmin jmax)
    (i0Val x (at_ (s_m s) jmin) (tmad N 1 (at_ (s_m s) jmin) pb (at_ (s_q s) jmin))
             (at_ (s_m s) jmax) (tmad N 2 (at_ (s_m s) jmax) phred (at_ (s_q s) jmax)) pd).

Definition bwdVal (s : Slot N) (len : Z) (prev pd phred : T N) (jm jmin jmax : Z) (x : nat) : C N :=
  let qb := tadd N phred (tofZ N (b2z (teq N phred (t0 N)))) in
  let off := if negb (jm =? 0) && (jmax <? jmin) then tofZ N (-1) else t0 N in
  fold_left (sumU N cfg F false (barB N phred off jmax) len s pd x) (boundaries len jmin jmax)
    (i0Val x (at_ (s_m s) jmax) (tmad N 1 (at_ (s_m s) jmax) prev (at_ (s_q s) jmax))
             (at_ (s_m s) jmin) (tmad N 2 (at_ (s_m s) jmin) qb (at_ (s_q s) jmin)) pd).

Definition mixVal (a up : C N) (g gu : T N) : C N := caddx N 30 a g up gu.

Lemma length_yLoop y : forall r p e i, (length y <= length r)%nat -> (length y <= length p)%nat ->
  (length y <= length e)%nat -> (length y <= length i)%nat ->
  length (yLoop N y r p e i) = length y.
Proof.
  induction y as [|y1 y IH]; intros [|r1 r] [|p1 p] [|e1 e] [|i1 i]; cbn; intros; try lia.
  rewrite IH; lia.
Qed.
Lemma nth_yLoop y : forall r p e i x a b c d f,
  nth_error y x = Some a -> nth_error r x = Some b -> nth_error p x = Some c ->
  nth_error e x = Some d -> nth_error i x = Some f ->
  nth_error (yLoop N y r p e i) x = Some (yStep N a b c d f).
Proof.
  induction y as [|y1 y IH]; intros [|r1 r] [|p1 p] [|e1 e] [|i1 i] [|x]; cbn; intros; try discriminate.
  - congruence.
  - now apply IH.
Qed.

Section Simd.
Hypothesis HB : (1 <= B)%nat.
Hypothesis HF : filtOk N F.

Lemma length_crossfade a up g gu : length a = upper -> length up = upper ->
  length (crossfadeArr N cfg F a up g gu) = upper.
Proof.
  intros Ha Hu. unfold crossfadeArr. assert (A := n_le_upper N cfg F HB).
  destruct (usePartialBatch B n).
  - rewrite length_map2. lia.
  - rewrite app_length, length_map2, !firstn_length, skipn_length. lia.
Qed.
Lemma nth_crossfade a up g gu x v v' : length a = upper -> length up = upper -> (x < n)%nat ->
  nth_error a x = Some v -> nth_error up x = Some v' ->
  nth_error (crossfadeArr N cfg F a up g gu) x = Some (mixVal v v' g gu).
Proof.
  intros Ha Hu Hx Hv Hv'. unfold crossfadeArr.
  change (fun x y : C N => caddx N 30 x g y gu) with (fun x y => mixVal x y g gu).
  assert (A := n_le_upper N cfg F HB).
  destruct (usePartialBatch B n).
  - apply (nth_error_map2 _ _ _ (fun x y => mixVal x y g gu)); assumption.
  - rewrite nth_error_app1 by (rewrite length_map2, !firstn_length; lia).
    apply (nth_error_map2 _ _ _ (fun x y => mixVal x y g gu)); rewrite (nth_error_firstn cfg); auto.
Qed.

Lemma nth_zeroArr x : (x < n)%nat -> nth_error (zeroArr N cfg F) x = Some (c0 N).
Proof.
  intros H. unfold zeroArr. assert (A := n_le_upper N cfg F HB).
  rewrite nth_error_nth' with (d := c0 N) by (rewrite repeat_length; lia).
  f_equal. apply nth_repeat.
Qed.
Lemma length_zeroArr : length (zeroArr N cfg F) = upper.
Proof. apply repeat_length. Qed.
End Simd.

(** ** One sample *)
Section Steps.
Variable L : Laws N.
Notation fin := (fin N L).
Notation val := (val N L).
Notation OscOk := (OscOk N L F).
Notation pos := (pos N L).
Notation trap := (trap N L).
Notation goodMove := (goodMove N L).
Hypothesis HB : (1 <= B)%nat.
Hypothesis HF : filtOk N F.

Section Sample.
Variables (K nw : Z) (o : Osc N) (w : WT N).
Hypothesis HO : OscOk K nw o w.
Notation P := (o_phred o).

(** the new y of order x *)
Definition yVal (iv : nat -> C N) (x : nat) : C N :=
  yStep N (nth x (o_y o) (c0 N)) (nth x (f_r F) (c0 N)) (nth x (f_zp2 F) (c0 N))
        (nth x (f_ez F) (c0 N)) (iv x).

(** everything one sample does: the new oscillator [o'], its table [w'] and the output *)
Record Stepped (d phase pd : T N) (iv : nat -> C N) (o' : Osc N) (out : T N) : Prop := {
  sp_ok : OscOk K nw o' (wtNext N w d);
  sp_phase : o_phase o' = phase;
  sp_pd : o_pd o' = pd;
  sp_mm : o_mm o' = miOf N w d;
  sp_wf : o_wf o' = o_wf o;
  sp_y : forall x, (x < n)%nat -> nth_error (o_y o') x = Some (yVal iv x);
  sp_out : out = yOut N (o_y o')
}.

Lemma finish_ok x phase d pd icpx iv :
  IdxOk N K w phase d x -> okPhase N L phase -> fin pd ->
  (dbg = true -> tlt N (t0 N) d = true) ->
  length icpx = upper ->
  (forall k, (k < n)%nat -> nth_error icpx k = Some (iv k)) ->
  ((0 <= val pd)%R -> ix_j N x = Zfloor (pos K (miOf N w d) phase)) ->
  ((val pd < 0)%R -> ix_j N x = Zceil (pos K (miOf N w d) phase)) ->
  exists o' out, finish N cfg F o x phase pd icpx = (o', out) /\ Stepped d phase pd iv o' out.
Proof.
  intros [X1 X2 X3 X4 X5 X6 X7 X8 X9] Hph Hpd Hdb Hl Hiv Hjf Hjb.
  unfold finish. do 2 eexists. split; [reflexivity|].
  destruct (wtNext_ok N cfg K nw w d (oo_W _ _ _ _ _ _ _ HO) (oo_cf _ _ _ _ _ _ _ HO) Hdb)
    as (_ & W1 & C1 & _ & _ & M1 & _ & _).
  assert (Hy := oo_y _ _ _ _ _ _ _ HO).
  assert (Hlr : length (r_array N cfg F) = upper) by (apply length_padded; [assumption|reflexivity]).
  assert (Hlp : length (z_pow2_array N cfg F) = upper) by (apply length_padded; [assumption|apply HF]).
  assert (Hle : length (exp_z_array N cfg F) = upper) by (apply length_padded; [assumption|apply HF]).
  assert (A := n_le_upper N cfg F HB).
  constructor; cbn; auto.
  - constructor; cbn; auto.
    + now rewrite X1.
    + apply (oo_wf _ _ _ _ _ _ _ HO).
    + now rewrite X6.
    + now rewrite X2.
    + rewrite length_yLoop; lia.
    + rewrite X2, X6. exact Hjf.
    + rewrite X2, X6. exact Hjb.
  - intros k Hk. unfold yVal. apply nth_yLoop.
    + apply nth_error_nth'. lia.
    + apply (nth_padded N cfg F HB); [reflexivity|assumption].
    + apply (nth_padded N cfg F HB); [apply HF|assumption].
    + apply (nth_padded N cfg F HB); [apply HF|assumption].
    + now apply Hiv.
Qed.

Definition slot (k : Z) : Slot N :=
  match wt_slot N w (o_wf o) k with Ok s => s | Fault _ => mkSlot [] [] [] [] end.
Lemma slot_ok k : 0 <= k < K - 1 ->
  wt_slot N w (o_wf o) k = Ok (slot k) /\ slotOk (2 ^ (K - k)) (slot k) /\
  exists ys, zlen ys = 2 ^ (K - k) /\ slotOf ys (slot k).
Proof.
  intros Hk. destruct (wt_slot_shape N K nw w (oo_W _ _ _ _ _ _ _ HO) (o_wf o) k
    (oo_wf _ _ _ _ _ _ _ HO) Hk) as (s & ys & A & S & D & E).
  unfold slot. rewrite A. repeat split; try apply E. exists ys; auto.
Qed.

(** value of I for order x: lower entry, mixed with the upper one when its gain is not 0 *)
Definition ivF (phase pd : T N) (jmin jmax : Z) (x : nat) : C N :=
  let mi := miOf N w pd in let mu := muOf N w pd in
  let a := fwdVal (slot mi) (2 ^ (K - mi)) P pd phase jmin jmax x in
  if teq N (guOf N w pd) (t0 N) then a
  else mixVal a (fwdVal (slot mu) (2 ^ (K - mu)) P pd phase (jmin / 2) (jmax / 2) x)
              (gOf N w pd) (guOf N w pd).
Definition ivB (phase pd : T N) (jm jmin jmax : Z) (x : nat) : C N :=
  let d := tabs N pd in
  let mi := miOf N w d in let mu := muOf N w d in
  let a := bwdVal (slot mi) (2 ^ (K - mi)) P pd phase jm jmin jmax x in
  if teq N (guOf N w d) (t0 N) then a
  else mixVal a (bwdVal (slot mu) (2 ^ (K - mu)) P pd phase jm (jmin / 2) (jmax / 2) x)
              (gOf N w d) (guOf N w d).

Lemma teq_zero_refl : teq N (t0 N) (t0 N) = true.
Proof.
  destruct (zero_spec N L) as [Z1 Z2]. rewrite (eq_spec N L _ _ Z1 Z1).
  now apply Req_bool_true.
Qed.

Lemma half_idx mi mu j : (mu = mi + 1 \/ mu = mi) -> 0 <= mi -> mu < K - 1 -> 0 <= j < 2 ^ (K - mi) ->
  0 <= j / 2 < 2 ^ (K - mu).
Proof.
  intros Hmu H0 H1 Hj. split; [apply Z.div_pos; lia|].
  destruct Hmu as [->| ->].
  - rewrite (len_half K mi) in Hj by lia. apply Z.div_lt_upper_bound; lia.
  - apply Z.le_lt_trans with j; [apply Z.div_le_upper_bound; lia|lia].
Qed.

Lemma processSampleFwd_ix phase pd :
  okPhase N L phase -> fin pd -> (0 <= val pd)%R ->
  (dbg = true -> (0 < val pd <= /2)%R) ->
  ~ (trap o /\ miOf N w pd < o_mm o) ->
  exists o' out jmin, let mi := miOf N w pd in
    let jmax := Zfloor (pos K mi phase) in
    processSampleFwd N cfg F o w phase pd = Ok (o', out) /\
    Stepped pd phase pd (ivF phase pd jmin jmax) o' out /\
    0 <= jmin < 2 ^ (K - mi) /\
    (playable (val P) -> goodMove o mi \/ (val (o_pd o) = 0%R /\ o_mm o <= mi) ->
     if Req_bool (val P) 0 then jmin = 2 ^ (K - mi) - 1
     else startAt N L K o jmin mi) /\
    (val P = 0%R -> jmin = 2 ^ (K - mi) - 1) /\
    (exists x, idxFwd N cfg o w phase pd = Ok x /\ jmin = ix_jmin_red N x).
Proof.
  intros Hph Hf Hpd Hdb Ht.
  destruct (idxFwd_ok N L cfg F K nw o w HO phase pd Hph Hf Hpd Hdb Ht) as (x & Ex & Xok & Xj & Xmax & Xst & Xst2).
  destruct (zero_spec N L) as [Z1 Z2].
  assert (Hd0 : dbg = true -> tlt N (t0 N) pd = true).
  { intros D. rewrite (lt_spec N L _ _ Z1 Hf), Z2. apply Rlt_bool_true. apply Hdb, D. }
  destruct (wtNext_ok N cfg K nw w pd (oo_W _ _ _ _ _ _ _ HO) (oo_cf _ _ _ _ _ _ _ HO) Hd0)
    as (_ & W1 & C1 & _ & _ & M1 & M2 & M3).
  set (mi := miOf N w pd) in *. set (mu := muOf N w pd) in *.
  assert (Xok' := Xok). destruct Xok' as [X1 X2 X3 X4 X5 X6 X7 X8 X9]. fold mi in X2, X7, X8, X9. fold mu in X4.
  unfold processSampleFwd. rewrite Ex. cbn [bind]. rewrite X1, X2, X3, X4, X5, X6.
  destruct (slot_ok mi M1) as (S1 & S2 & _).
  destruct (computeFwdI_ok N cfg F HB HF K nw (wtNext N w pd) W1 (o_wf o) mi (slot mi) P pd phase
              (ix_jmin_red N x) (ix_jmax_p_red N x) (zeroArr N cfg F))
    as (a & Ea & La & Va); auto.
  { apply (oo_wf _ _ _ _ _ _ _ HO). }
  { apply length_zeroArr. }
  rewrite Ea. cbn [bind].
  assert (Hicpx : exists icpx,
    (if negb (teq N (guOf N w pd) (t0 N)) then
       let! up := computeFwdI N cfg F (wtNext N w pd) (o_wf o) P (zeroArr N cfg F) mu
                              (Z.quot (ix_jmin_red N x) 2) (Z.quot (ix_jmax_p_red N x) 2)
                              pd phase in
       Ok (crossfadeArr N cfg F a up (gOf N w pd) (guOf N w pd))
     else Ok a) = Ok icpx /\ length icpx = upper /\
     forall k, (k < n)%nat -> nth_error icpx k = Some (ivF phase pd (ix_jmin_red N x) (ix_jmax_p_red N x) k)).
  { destruct (teq N (guOf N w pd) (t0 N)) eqn:Eg; cbn [negb].
    - exists a. split; [reflexivity|]. split; [assumption|]. intros k Hk.
      unfold ivF. fold mi mu. rewrite Eg. rewrite (Va k _ Hk (nth_zeroArr HB k Hk)). reflexivity.
    - assert (M4 : mu < K - 1).
      { destruct M3 as [M3|M3]; [assumption|]. rewrite M3, teq_zero_refl in Eg. discriminate. }
      rewrite !Z.quot_div_nonneg by lia.
      destruct (slot_ok mu ltac:(lia)) as (U1 & U2 & _).
      destruct (computeFwdI_ok N cfg F HB HF K nw (wtNext N w pd) W1 (o_wf o) mu (slot mu) P pd phase
              (ix_jmin_red N x / 2) (ix_jmax_p_red N x / 2) (zeroArr N cfg F))
        as (u & Eu & Lu & Vu); auto.
      { apply (oo_wf _ _ _ _ _ _ _ HO). }
      { lia. }
      { apply (half_idx mi mu); auto; lia. }
      { apply (half_idx mi mu); auto; lia. }
      { apply length_zeroArr. }
      rewrite Eu. cbn [bind]. eexists. split; [reflexivity|]. split; [now apply length_crossfade|].
      intros k Hk. unfold ivF. fold mi mu. rewrite Eg.
      apply (nth_crossfade HB); auto.
      + rewrite (Va k _ Hk (nth_zeroArr HB k Hk)). reflexivity.
      + rewrite (Vu k _ Hk (nth_zeroArr HB k Hk)). reflexivity. }
  destruct Hicpx as (icpx & Ei & Li & Vi). rewrite Ei. cbn [bind].
  destruct (finish_ok x phase pd pd icpx _ Xok Hph Hf Hd0 Li Vi) as (o' & out & Eo & St).
  { intros _. fold mi. exact Xj. }
  { intros; lra. }
  exists o', out, (ix_jmin_red N x). rewrite Eo. split; [reflexivity|].
  split; [|split; [assumption|split; [exact Xst|split; [exact Xst2|exists x; auto]]]].
  rewrite <- Xmax. exact St.
Qed.
Lemma processSampleFwd_ok phase pd :
  okPhase N L phase -> fin pd -> (0 <= val pd)%R ->
  (dbg = true -> (0 < val pd <= /2)%R) ->
  ~ (trap o /\ miOf N w pd < o_mm o) ->
  exists o' out jmin, let mi := miOf N w pd in
    let jmax := Zfloor (pos K mi phase) in
    processSampleFwd N cfg F o w phase pd = Ok (o', out) /\
    Stepped pd phase pd (ivF phase pd jmin jmax) o' out /\
    0 <= jmin < 2 ^ (K - mi) /\
    (playable (val P) -> goodMove o mi \/ (val (o_pd o) = 0%R /\ o_mm o <= mi) ->
     if Req_bool (val P) 0 then jmin = 2 ^ (K - mi) - 1
     else startAt N L K o jmin mi) /\
    (val P = 0%R -> jmin = 2 ^ (K - mi) - 1).
Proof.
  intros H1 H2 H3 H4 H5. destruct (processSampleFwd_ix phase pd H1 H2 H3 H4 H5) as (o' & out & j & A & B & C & D & E & _).
  exists o', out, j. cbv zeta in *. auto.
Qed.

Lemma processSampleBwd_ix phase pd :
  okPhase N L phase -> fin pd -> (val pd < 0)%R ->
  (dbg = true -> (-/2 <= val pd)%R) ->
  ~ (trap o /\ miOf N w (tabs N pd) < o_mm o) ->
  exists o' out jmax, let mi := miOf N w (tabs N pd) in
    let jm := Zceil (pos K mi phase) in
    processSampleBwd N cfg F o w phase pd = Ok (o', out) /\
    Stepped (tabs N pd) phase pd (ivB phase pd jm ((jm - 1) mod 2 ^ (K - mi)) jmax) o' out /\
    0 <= jmax < 2 ^ (K - mi) /\
    (playable (val P) -> goodMove o mi -> startAt N L K o jmax mi) /\
    (exists x, idxBwd N cfg o w phase pd = Ok x /\ jmax = ix_jmax_p_red N x).
Proof.
  intros Hph Hf Hpd Hdb Ht.
  destruct (idxBwd_ok N L cfg F K nw o w HO phase pd Hph Hf) as (x & Ex & Xok & Xj & Xm & Xmin & Xst); auto.
  destruct (zero_spec N L) as [Z1 Z2]. destruct (abs_spec N L pd Hf) as [Ha1 Ha2].
  set (d := tabs N pd) in *.
  assert (Hd0 : dbg = true -> tlt N (t0 N) d = true).
  { intros D. rewrite (lt_spec N L _ _ Z1 Ha1), Z2, Ha2. apply Rlt_bool_true. apply Rabs_pos_lt. lra. }
  destruct (wtNext_ok N cfg K nw w d (oo_W _ _ _ _ _ _ _ HO) (oo_cf _ _ _ _ _ _ _ HO) Hd0)
    as (_ & W1 & C1 & _ & _ & M1 & M2 & M3).
  set (mi := miOf N w d) in *. set (mu := muOf N w d) in *.
  assert (Xok' := Xok). destruct Xok' as [X1 X2 X3 X4 X5 X6 X7 X8 X9]. fold mi in X2, X7, X8, X9. fold mu in X4.
  unfold processSampleBwd. rewrite Ex. cbn [bind]. rewrite X1, X2, X3, X4, X5, X6.
  destruct (slot_ok mi M1) as (S1 & S2 & _).
  assert (Hneg : dbg = true -> tlt N pd (t0 N) = true).
  { intros _. rewrite (lt_spec N L _ _ Hf Z1), Z2. now apply Rlt_bool_true. }
  destruct (computeBwdI_ok N cfg F HB HF K nw (wtNext N w d) W1 (o_wf o) mi (slot mi) P pd phase
              (ix_jmin N x) (ix_jmin_red N x) (ix_jmax_p_red N x) (zeroArr N cfg F))
    as (a & Ea & La & Va); auto.
  { apply (oo_wf _ _ _ _ _ _ _ HO). }
  { apply length_zeroArr. }
  rewrite Ea. cbn [bind].
  assert (Hicpx : exists icpx,
    (if negb (teq N (guOf N w d) (t0 N)) then
       let! up := computeBwdI N cfg F (wtNext N w d) (o_wf o) P (zeroArr N cfg F) mu (ix_jmin N x)
                              (Z.quot (ix_jmin_red N x) 2) (Z.quot (ix_jmax_p_red N x) 2)
                              pd phase in
       Ok (crossfadeArr N cfg F a up (gOf N w d) (guOf N w d))
     else Ok a) = Ok icpx /\ length icpx = upper /\
     forall k, (k < n)%nat -> nth_error icpx k =
       Some (ivB phase pd (ix_jmin N x) (ix_jmin_red N x) (ix_jmax_p_red N x) k)).
  { destruct (teq N (guOf N w d) (t0 N)) eqn:Eg; cbn [negb].
    - exists a. split; [reflexivity|]. split; [assumption|]. intros k Hk.
      unfold ivB. fold d. fold mi mu. rewrite Eg. rewrite (Va k _ Hk (nth_zeroArr HB k Hk)). reflexivity.
    - assert (M4 : mu < K - 1).
      { destruct M3 as [M3|M3]; [assumption|]. rewrite M3, teq_zero_refl in Eg. discriminate. }
      rewrite !Z.quot_div_nonneg by lia.
      destruct (slot_ok mu ltac:(lia)) as (U1 & U2 & _).
      destruct (computeBwdI_ok N cfg F HB HF K nw (wtNext N w d) W1 (o_wf o) mu (slot mu) P pd phase
              (ix_jmin N x) (ix_jmin_red N x / 2) (ix_jmax_p_red N x / 2) (zeroArr N cfg F))
        as (u & Eu & Lu & Vu); auto.
      { apply (oo_wf _ _ _ _ _ _ _ HO). }
      { lia. }
      { apply (half_idx mi mu); auto; lia. }
      { apply (half_idx mi mu); auto; lia. }
      { apply length_zeroArr. }
      rewrite Eu. cbn [bind]. eexists. split; [reflexivity|]. split; [now apply length_crossfade|].
      intros k Hk. unfold ivB. fold d. fold mi mu. rewrite Eg.
      apply (nth_crossfade HB); auto.
      + rewrite (Va k _ Hk (nth_zeroArr HB k Hk)). reflexivity.
      + rewrite (Vu k _ Hk (nth_zeroArr HB k Hk)). reflexivity. }
  destruct Hicpx as (icpx & Ei & Li & Vi). rewrite Ei. cbn [bind].
  destruct (finish_ok x phase d pd icpx _ Xok Hph Hf Hd0 Li Vi) as (o' & out & Eo & St).
  { intros; lra. }
  { intros _. fold mi. exact Xj. }
  exists o', out, (ix_jmax_p_red N x). rewrite Eo. split; [reflexivity|].
  split; [|split; [assumption|split; [exact Xst|exists x; auto]]]. rewrite <- Xmin, <- Xm. exact St.
Qed.
Lemma processSampleBwd_ok phase pd :
  okPhase N L phase -> fin pd -> (val pd < 0)%R ->
  (dbg = true -> (-/2 <= val pd)%R) ->
  ~ (trap o /\ miOf N w (tabs N pd) < o_mm o) ->
  exists o' out jmax, let mi := miOf N w (tabs N pd) in
    let jm := Zceil (pos K mi phase) in
    processSampleBwd N cfg F o w phase pd = Ok (o', out) /\
    Stepped (tabs N pd) phase pd (ivB phase pd jm ((jm - 1) mod 2 ^ (K - mi)) jmax) o' out /\
    0 <= jmax < 2 ^ (K - mi) /\
    (playable (val P) -> goodMove o mi -> startAt N L K o jmax mi).
Proof.
  intros H1 H2 H3 H4 H5. destruct (processSampleBwd_ix phase pd H1 H2 H3 H4 H5) as (o' & out & j & A & B & C & D & _).
  exists o', out, j. cbv zeta in *. auto.
Qed.

(** the fault of the trap *)
Lemma idxFwd_trap phase pd :
  okPhase N L phase -> fin pd -> (0 <= val pd)%R -> (dbg = true -> (0 < val pd <= /2)%R) ->
  trap o -> miOf N w pd < o_mm o ->
  processSampleFwd N cfg F o w phase pd = Fault OutOfBounds.
Proof.
  intros Hph Hf Hpd Hdb Ht Hlt. assert (HK := K_range N L F K nw o w HO).
  destruct (zero_spec N L) as [Z1 Z2].
  destruct (half_spec N L 1 ltac:(lia)) as [Hh1 Hh2].
  destruct (wtNext_ok N cfg K nw w pd (oo_W _ _ _ _ _ _ _ HO) (oo_cf _ _ _ _ _ _ _ HO))
    as (E1 & W1 & C1 & _ & _ & M1 & _ & _).
  { intros D. rewrite (lt_spec N L _ _ Z1 Hf), Z2. apply Rlt_bool_true. apply Hdb, D. }
  unfold processSampleFwd, idxFwd. rewrite assert_ok.
  2:{ intros D. specialize (Hdb D).
      rewrite (lt_spec N L _ _ Z1 Hf), Z2, (le_spec N L _ _ Hf Hh1), Hh2.
      rewrite Rlt_bool_true, Rle_bool_true by lra. reflexivity. }
  cbn [bind]. rewrite E1. cbn [bind]. rewrite mmiOf_eta. cbn [bind].
  unfold wt_phases. rewrite (wo_ph _ _ _ _ W1 _ M1). cbn [bind].
  rewrite (reduce_phase N L dbg phase Hph). cbn [bind].
  rewrite (wt_len_ok N K nw _ _ W1 M1). cbn [bind].
  rewrite (adjustJ_trap N L F K nw o w HO); auto.
Qed.

Lemma idxBwd_trap phase pd :
  okPhase N L phase -> fin pd -> (val pd < 0)%R -> (dbg = true -> (-/2 <= val pd)%R) ->
  trap o -> miOf N w (tabs N pd) < o_mm o ->
  processSampleBwd N cfg F o w phase pd = Fault OutOfBounds.
Proof.
  intros Hph Hf Hpd Hdb Ht Hlt. assert (HK := K_range N L F K nw o w HO).
  destruct (zero_spec N L) as [Z1 Z2].
  destruct (half_spec N L (-1) ltac:(lia)) as [Hh1 Hh2].
  destruct (abs_spec N L pd Hf) as [Ha1 Ha2].
  destruct (wtNext_ok N cfg K nw w (tabs N pd) (oo_W _ _ _ _ _ _ _ HO) (oo_cf _ _ _ _ _ _ _ HO))
    as (E1 & W1 & C1 & _ & _ & M1 & _ & _).
  { intros D. rewrite (lt_spec N L _ _ Z1 Ha1), Z2, Ha2. apply Rlt_bool_true. apply Rabs_pos_lt. lra. }
  unfold processSampleBwd, idxBwd. rewrite assert_ok.
  2:{ intros D. specialize (Hdb D).
      rewrite (lt_spec N L _ _ Hf Z1), Z2, (le_spec N L _ _ Hh1 Hf), Hh2.
      rewrite Rlt_bool_true, Rle_bool_true by lra. reflexivity. }
  cbn [bind]. rewrite E1. cbn [bind]. rewrite mmiOf_eta. cbn [bind].
  unfold wt_phases. rewrite (wo_ph _ _ _ _ W1 _ M1). cbn [bind].
  rewrite (reduce_phase N L dbg phase Hph). cbn [bind].
  rewrite (wt_len_ok N K nw _ _ W1 M1). cbn [bind].
  rewrite (adjustJ_trap N L F K nw o w HO); auto.
Qed.

(** ** The dispatcher *)
Definition stepOf (dir : Direction) (phase prev : T N) : T N :=
  match dir with kForward => stepFwd N phase prev | kBidirectionnal => stepBi N phase prev end.

(** steps the API admits: in a debug build every step is non-zero and at most half a cycle *)
Definition admitted (dir : Direction) (pd : T N) : Prop :=
  dbg = true -> val pd <> 0%R /\ (val pd <= /2)%R.

Lemma step_facts dir phase : okPhase N L phase ->
  fin (stepOf dir phase (o_phase o)) /\
  (dir = kForward -> (0 <= val (stepOf dir phase (o_phase o)))%R) /\
  (dir = kBidirectionnal -> (-/2 <= val (stepOf dir phase (o_phase o)) <= /2)%R).
Proof.
  intros [H1 H2]. rewrite (oo_phase _ _ _ _ _ _ _ HO).
  destruct (oo_phred _ _ _ _ _ _ _ HO) as [P1 P2]. destruct dir; cbn [stepOf].
  - destruct (fwd_spec N L _ _ H1 P1 H2 P2) as (A & B1). split; [assumption|]. split; [lra|discriminate].
  - destruct (bi_spec N L _ _ H1 P1 H2 P2) as (A & B1 & _). split; [assumption|]. split; [discriminate|]. lra.
Qed.

Theorem processOne_ok dir phase : okPhase N L phase ->
  let pd := stepOf dir phase (o_phase o) in
  admitted dir pd ->
  let d := if Rle_bool 0 (val pd) then pd else tabs N pd in
  let mi := miOf N w d in
  if Rle_bool (val (o_pd o)) 0 && (o_j o =? 0) && (mi <? o_mm o)
  then processOne N cfg F dir o phase = Fault OutOfBounds
  else exists o' out iv, processOne N cfg F dir o phase = Ok (o', out) /\
         Stepped d phase pd iv o' out.
Proof.
  intros Hph pd Had d mi.
  destruct (step_facts dir phase Hph) as (Hf & Hfw & Hbi). fold pd in Hf, Hfw, Hbi.
  destruct (zero_spec N L) as [Z1 Z2].
  assert (Hd1 : dbg = true -> (0 <= val pd)%R -> (0 < val pd <= /2)%R).
  { intros D H. destruct (Had D). lra. }
  assert (Hsel : processOne N cfg F dir o phase =
     if Rle_bool 0 (val pd) then processSampleFwd N cfg F o w phase pd
     else processSampleBwd N cfg F o w phase pd).
  { unfold processOne. rewrite (oo_wt _ _ _ _ _ _ _ HO). destruct dir; cbn [stepOf] in pd; fold pd.
    - specialize (Hfw eq_refl). rewrite assert_ok.
      + rewrite Rle_bool_true by lra. reflexivity.
      + intros D. specialize (Hd1 D Hfw). destruct (half_spec N L 1 ltac:(lia)) as [Hh1 Hh2].
        rewrite (lt_spec N L _ _ Z1 Hf), Z2, (le_spec N L _ _ Hf Hh1), Hh2.
        rewrite Rlt_bool_true, Rle_bool_true by lra. reflexivity.
    - rewrite (le_spec N L _ _ Z1 Hf), Z2. reflexivity. }
  rewrite Hsel.
  assert (Htr : (Rle_bool (val (o_pd o)) 0 && (o_j o =? 0) && (mi <? o_mm o) = true) <->
                (trap o /\ mi < o_mm o)).
  { unfold OscFacts.trap. rewrite !andb_true_iff, Z.eqb_eq, Z.ltb_lt.
    split; intros [[H1 H2] H3]; repeat split; auto.
    - destruct (Rle_bool_spec (val (o_pd o)) 0); [assumption|discriminate].
    - now apply Rle_bool_true. }
  destruct (Rle_bool (val (o_pd o)) 0 && (o_j o =? 0) && (mi <? o_mm o)) eqn:Eb.
  - destruct (proj1 Htr eq_refl) as [T1 T2]. unfold mi, d in T2. subst d mi.
    destruct (Rle_bool_spec 0 (val pd)) as [H|H].
    + now apply idxFwd_trap; auto.
    + apply idxBwd_trap; auto. destruct dir; [specialize (Hfw eq_refl); lra|]. intros; now apply Hbi.
  - assert (Hnt : ~ (trap o /\ mi < o_mm o)).
    { intros H. apply Htr in H. discriminate. }
    subst d mi. destruct (Rle_bool_spec 0 (val pd)) as [H|H].
    + destruct (processSampleFwd_ok phase pd Hph Hf H ltac:(auto) Hnt) as (o' & out & jm & E & S & _).
      eauto 6.
    + destruct (processSampleBwd_ok phase pd Hph Hf H) as (o' & out & jm & E & S & _); auto.
      { destruct dir; [specialize (Hfw eq_refl); lra|]. intros; now apply Hbi. }
      eauto 6.
Qed.

End Sample.
End Steps.
End OscRun.
