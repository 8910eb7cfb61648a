(** * PTone: sequences of tones *)
From Coq Require Import ZArith List Bool Reals Lia Lra Arith.
From Flocq Require Import Core IEEE754.BinarySingleNaN.
From Verif Require Import Num Maths CrossFader Wavetable Filters Osc Spec SpecC SpecT NumFacts Laws CFFacts
  WTFacts BuildFacts SimdFacts OscFacts OscStep OscRun OscHist CFHist B32 B32Facts B32Laws
  SpecF SpecO SpecW PCross PHist SpecP SpecA PWide PAcc.
Import ListNotations.
Local Open Scope Z_scope.

Definition lowS (s : Z * Z * Z) : Z := let '(_, p, x) := s in Z.min p x.
Definition nextS (s : Z * Z * Z) : Z := let '(_, _, x) := s in x.
Definition leftS (s : Z * Z * Z) : Z := let '(l, _, _) := s in l.
Definition prevS (s : Z * Z * Z) : Z := let '(_, p, _) := s in p.

Lemma mi_low N c r : CFok N c -> fst (fst (fst (cfOut N c r))) = lowS (cfStep (cf_num c) (cfState N c) r).
Proof.
  intros H. unfold cfOut. destruct H as [Hn Hl Hp Hx Hi Hf]. unfold cfState.
  destruct (Z.eqb_spec (cf_left c) 0) as [E|NE]; destruct (Z.eqb_spec r (cf_next c)) as [Er|Er]; cbn [andb].
  - unfold cfStep. rewrite E. cbn [Z.eqb]. rewrite (proj2 (Z.eqb_eq _ _) Er). cbn. specialize (Hi E). lia.
  - destruct (cfStep _ _ _) as [[l p] x]. unfold fadeTuple. cbn [cfWith cf_prev cf_next].
    destruct (Z.ltb_spec p x); cbn; lia.
  - destruct (cfStep _ _ _) as [[l p] x]. unfold fadeTuple. cbn [cfWith cf_prev cf_next].
    destruct (Z.ltb_spec p x); cbn; lia.
  - destruct (cfStep _ _ _) as [[l p] x]. unfold fadeTuple. cbn [cfWith cf_prev cf_next].
    destruct (Z.ltb_spec p x); cbn; lia.
Qed.

(** asking again for the entry being faded to *)
Lemma step_same n num s r : cfInv n num s -> nextS s = r ->
  nextS (cfStep n s r) = r /\ lowS s <= lowS (cfStep n s r) /\ leftS (cfStep n s r) = Z.max 0 (leftS s - 1).
Proof.
  destruct s as [[l p] x]. cbn. intros (H1 & H2 & H3 & H4 & H5) ->. rewrite Z.eqb_refl.
  destruct (Z.eqb_spec l 0) as [E|E]; cbn; [lia|].
  destruct (Z.eqb_spec (l - 1) 0); cbn; lia.
Qed.

(** asking for an entry other than the one being faded from *)
Lemma step_to n num s r : cfInv n num s -> leftS s = 0 \/ r <> prevS s ->
  nextS (cfStep n s r) = r.
Proof.
  destruct s as [[l p] x]. cbn. intros (H1 & H2 & H3 & H4 & H5) Hr.
  destruct (Z.eqb_spec l 0) as [E|E]; cbn.
  - destruct (Z.eqb_spec r x); cbn; lia.
  - destruct (Z.eqb_spec r x); destruct (Z.eqb_spec r p); cbn; try lia; destruct (Z.eqb_spec (l - 1) 0); cbn; lia.
Qed.

Section Tone.
Variable lm : Libm.
Hypothesis Hlog : log2_exact lm.
Variable src : Resampler (B32 lm).
Variable cfg : Cfg.
Variable F : Filt (B32 lm).
Notation N := (B32 lm).
Notation L := (B32_Laws lm Hlog).
Hypothesis HB : (1 <= batch cfg)%nat.
Hypothesis HF : filterShape N F.
Notation dbg := (dbg cfg).
Notation nrm := (nrm N).
Notation reach := (reachable N src dbg (rate32 lm)).
Variables K n : Z.
Hypothesis Hn : 1 <= n.

(** a usable oscillator whose table was built with base length 2^K and fade [n] *)
Definition Q (o : Osc N) (w : WT N) : Prop :=
  reach K n w /\ exists nw, OscOk N L F K nw (nrm o) w.
(** ... fading to, or on, entry [r] *)
Definition quiet (r : Z) (o : Osc N) (w : WT N) : Prop :=
  Q o w /\ nextS (cfState N (wt_cf w)) = r /\ o_mm o <= lowS (cfState N (wt_cf w)).

Lemma Q_inv o w : Q o w -> cfInv n (zlen (cf_scale (wt_cf w))) (cfState N (wt_cf w)) /\ cf_num (wt_cf w) = n /\ CFok N (wt_cf w).
Proof.
  intros (Hr & nw & HO). destruct (reach_ok lm Hlog src dbg K n w Hr) as (_ & _ & _ & En & _ & HC). specialize (HC Hn).
  assert (A := proj1 (CFok_inv N (wt_cf w)) HC). rewrite En in A. tauto.
Qed.

Lemma next_reach w (d : f32) : reach K n w -> fin32 d = true -> (0 < B2R d)%R -> reach K n (wtNext N w d).
Proof.
  intros Hr Hf Hd. destruct (reach_ok lm Hlog src dbg K n w Hr) as (_ & (nw & HW) & _ & _ & _ & HC).
  destruct (wtNext_ok N cfg K nw w d HW (HC Hn)) as (E & _).
  - intros _. now apply tlt0.
  - eapply r_ask; [exact Hr|exact E].
Qed.

Lemma next_state w (d : f32) r : reach K n w -> fin32 d = true -> entryFor K (B2R d) r ->
  cfState N (wt_cf (wtNext N w d)) = cfStep n (cfState N (wt_cf w)) r /\
  miOf N w d = lowS (cfStep n (cfState N (wt_cf w)) r).
Proof.
  intros Hr Hf He. destruct (reach_ok lm Hlog src dbg K n w Hr) as (_ & _ & _ & En & _ & HC).
  assert (Er := req32 lm Hlog src dbg K n w d r Hr Hf He).
  split.
  - unfold wtNext. cbn [wt_cf]. rewrite cfWith_state, En. unfold N in *. now rewrite Er.
  - unfold miOf, mmiOf. rewrite Er, (mi_low N (wt_cf w) r (HC Hn)). now rewrite En.
Qed.

(** one sample whose step asks for the entry being faded to *)
Lemma quiet_one r o w (p q : f32) : quiet r o w ->
  stepPreW N L cfg false kBidirectionnal (o_phase o) p q ->
  B2R (step32 lm kBidirectionnal (o_phase o) p) <> 0%R -> entryFor K (Rabs (B2R (step32 lm kBidirectionnal (o_phase o) p))) r ->
  exists o' out w', processOne N cfg F kBidirectionnal o p = Ok (o', out) /\ quiet r o' w' /\ o_phase o' = p /\
    leftS (cfState N (wt_cf w')) = Z.max 0 (leftS (cfState N (wt_cf w)) - 1).
Proof.
  intros (HQ & Hx & Hm) HP H0 He. destruct (Q_inv o w HQ) as (Hi & En & HC). destruct HQ as (Hre & nw & HO).
  assert (A := oneW_ok N L cfg F HB (HF' lm F HF) false K nw o w kBidirectionnal p q HO HP). cbv zeta in A.
  destruct HP as (_ & Hf & _). cbn [stepOf] in A, Hf. cbn [step32] in H0, He.
  set (pd := stepBi N p (o_phase o)) in *. change (val N L pd) with (B2R (pd : f32)) in A. change (fin N L pd) with (fin32 (pd : f32) = true) in Hf.
  set (d := if Rle_bool 0 (B2R (pd : f32)) then pd else tabs N pd) in A.
  assert (Hd : fin32 (d : f32) = true /\ B2R (d : f32) = Rabs (B2R (pd : f32))).
  { unfold d. destruct (Rle_bool_spec 0 (B2R (pd : f32))) as [H|H].
    - split; [exact Hf|]. now rewrite Rabs_pos_eq.
    - destruct (abs_spec N L pd Hf) as [A1 A2]. split; [exact A1|exact A2]. }
  destruct Hd as [Fd Vd]. rewrite <- Vd in He.
  assert (Hp : (0 < B2R (d : f32))%R) by (rewrite Vd; now apply Rabs_pos_lt).
  destruct (next_state w d r Hre Fd He) as [Ns Nm].
  destruct (step_same n _ _ r Hi Hx) as (S1 & S2 & S3).
  assert (Em : (miOf N w d <? o_mm o) = false) by (apply Z.ltb_ge; rewrite Nm; lia).
  rewrite Em, andb_false_r in A. destruct A as (o' & out & iv & E & S).
  exists (set_ph N o' p), out, (wtNext N w d). split; [exact E|].
  assert (HO' := sp_ok _ _ _ _ _ _ _ _ _ _ _ _ _ S).
  split; [|split; [reflexivity|rewrite Ns; exact S3]].
  split; [split; [now apply next_reach|]|].
  - exists nw. rewrite nrm_set, (nrm_ok N L F _ _ _ _ HO'). exact HO'.
  - rewrite Ns. split; [exact S1|]. cbn [set_ph o_mm]. rewrite (sp_mm _ _ _ _ _ _ _ _ _ _ _ _ _ S), Nm. lia.
Qed.

(** a block of such samples *)
Fixpoint steady (r : Z) (prev : f32) (ps : list f32) : Prop :=
  match ps with
  | [] => True
  | p :: t => (exists q, stepPreW N L cfg false kBidirectionnal prev p q) /\
      B2R (step32 lm kBidirectionnal prev p) <> 0%R /\ entryFor K (Rabs (B2R (step32 lm kBidirectionnal prev p))) r /\
      steady r p t
  end.

Lemma quiet_loop r ps : forall o w out, quiet r o w -> steady r (o_phase o) ps -> length out = length ps ->
  exists o' ys w', processLoop N cfg F kBidirectionnal o ps out = Ok (o', ys) /\ length ys = length ps /\ quiet r o' w' /\
    leftS (cfState N (wt_cf w')) = Z.max 0 (leftS (cfState N (wt_cf w)) - Z.of_nat (length ps)).
Proof.
  induction ps as [|p ps IH]; intros o w out HQ Hs Hl.
  - exists o, out, w. split; [destruct out; reflexivity|]. split; [exact Hl|]. split; [exact HQ|].
    destruct (Q_inv o w (proj1 HQ)) as (Hi & _ & _). destruct (cfState N (wt_cf w)) as [[l pp] x]. unfold cfInv, leftS in *. cbn [length]. lia.
  - destruct out as [|z out]; [discriminate|]. destruct Hs as ((q & H1) & H2 & H3 & H4).
    destruct (quiet_one r o w p q HQ H1 H2 H3) as (o1 & y & w1 & E1 & Q1 & P1 & L1).
    destruct (IH o1 w1 out Q1) as (o2 & ys & w2 & E2 & Ly & Q2 & L2); [rewrite P1; exact H4|exact (eq_add_S _ _ Hl)|].
    exists o2, (y :: ys), w2. cbn [processLoop]. rewrite E1. cbn [bind]. rewrite E2. cbn [bind].
    split; [reflexivity|]. split; [exact (f_equal S Ly)|]. split; [exact Q2|]. rewrite L2, L1. cbn [length]. lia.
Qed.

(** a reset asking for an entry other than the one being faded from *)
Lemma reset_mm o (p d : f32) o' w w' m : resetInternals N cfg F o p d = Ok o' -> o_wt o = Some w ->
  wt_findMipMapIndices N dbg w (tabs N d) = Ok (w', m) -> o_mm o' = fst (fst (fst m)).
Proof.
  unfold resetInternals. intros H E E2. rewrite E in H. apply bind_ok in H. destruct H as ([] & _ & H).
  apply bind_ok in H. destruct H as (pr & _ & H). rewrite E2 in H. cbn [bind] in H. destruct m as [[[a b] c] e].
  apply bind_ok in H. destruct H as (len & _ & H). apply bind_ok in H. destruct H as (j & _ & H). inversion H. reflexivity.
Qed.

Lemma quiet_reset r o w (p q d : f32) : Q o w -> initPreW N L cfg false p q d -> B2R d <> 0%R ->
  entryFor K (Rabs (B2R d)) r -> leftS (cfState N (wt_cf w)) = 0 \/ r <> prevS (cfState N (wt_cf w)) ->
  exists o' w', resetInternals N cfg F o p d = Ok o' /\ quiet r o' w' /\ o_phase o' = p /\ leftS (cfState N (wt_cf w')) <= n.
Proof.
  intros HQ Hi H0 He Hr. destruct (Q_inv o w HQ) as (Hc & En & HC). destruct HQ as (Hre & nw & HO).
  assert (Hp := initPreW_pre _ _ _ _ _ _ _ Hi). destruct Hi as ([Hred Hq] & Hf & _).
  destruct (abs_spec N L d Hf) as [Fa Va]. change (val N L (tabs N d)) with (B2R (tabs N d : f32)) in Va.
  change (val N L d) with (B2R d) in Va. rewrite <- Va in He.
  assert (Hpos : (0 < B2R (tabs N d : f32))%R) by (rewrite Va; now apply Rabs_pos_lt).
  destruct (next_state w (tabs N d) r Hre Fa He) as [Ns Nm].
  destruct (resetInternals_fine N L cfg F HB false K nw (nrm o) w q d) as (o' & w' & E & H1 & _ & _ & _ & _ & _ & Ew); auto; try apply HO.
  rewrite (reset_wide N cfg F o p q d (o_phred o) Hred). fold (PWide.nrm N o). rewrite E. cbn [bind].
  exists (set_ph N o' p), w'. split; [reflexivity|]. subst w'.
  destruct (wtNext_ok N cfg K nw w (tabs N d) (oo_W _ _ _ _ _ _ _ HO) HC) as (Ef & _ & C1 & _).
  { intros _. now apply tlt0. }
  assert (Emm := reset_mm (nrm o) q d o' w _ _ E (oo_wt _ _ _ _ _ _ _ HO) Ef). change (o_mm o' = miOf N w (tabs N d)) in Emm.
  split; [|split; [reflexivity|]].
  - split; [split; [now apply next_reach|]|].
    + exists nw. rewrite nrm_set, (nrm_ok N L F _ _ _ _ H1). exact H1.
    + rewrite Ns. split; [eapply step_to; eassumption|]. cbn [set_ph o_mm]. rewrite Emm, Nm. lia.
  - assert (R1 : reach K n (wtNext N w (tabs N d))) by (now apply next_reach).
    destruct (Q_inv (set_ph N o' p) (wtNext N w (tabs N d))) as (Hi' & _ & _).
    { split; [exact R1|]. exists nw. rewrite nrm_set, (nrm_ok N L F _ _ _ _ H1). exact H1. }
    destruct (cfState N (wt_cf (wtNext N w (tabs N d)))) as [[l pp] x]. unfold cfInv, leftS in *. lia.
Qed.

(** ** accumulators give steady blocks *)
Lemma wide_of_01 (p : f32) : phase01 p -> phaseWide p.
Proof. intros [Hf Hp]. split; [exact Hf|]. split; [lra|right; lra]. Qed.
Lemma wide_of_neg (p : f32) : fin32 p = true -> (-1 < B2R p <= 0)%R -> (B2R p = 0 \/ B2R p <= - e23)%R -> phaseWide p.
Proof.
  intros Hf Hp Hg. split; [exact Hf|]. split; [lra|].
  assert (P := e23_pos). assert (E : (/ IZR (2 ^ 25) = e23 / 4)%R) by (rewrite <- e25_e; reflexivity). rewrite E.
  destruct Hg; [right|left]; lra.
Qed.

Lemma near_entry r (a d : R) : (Rabs (d - a) <= 3 / 4 * e23)%R ->
  entryFor K (a - e23) r -> entryFor K (a + e23) r -> entryFor K d r.
Proof.
  intros H (A1 & A2 & A3) (B1 & B2 & B3). apply Rabs_le_inv in H. assert (P := e23_pos).
  split; [exact A1|]. split; [destruct B2; [left; assumption|right; lra]|destruct A3; [left; assumption|right; lra]].
Qed.

Lemma acc_steady_fwd r (s : f32) m : octaveStep K r s -> (0 < B2R s)%R ->
  forall p : f32, phase01 p -> steady r p (accum p (repeat s m)).
Proof.
  intros (Fs & Hr & E1 & E2) Hs. rewrite <- e23_def in *. assert (P := e23_pos).
  rewrite Rabs_pos_eq in Hr, E1, E2 by lra.
  induction m as [|m IH]; intros p Hp; [exact I|]. cbn [repeat accum]. fold (fadd p s).
  destruct (acc_fwd lm p s kBidirectionnal Hp (conj Fs Hr)) as (Hq & _ & _ & Ff & Hd & Hn1).
  set (q := fmod1 (fadd p s)) in *. cbn [steady]. split; [|split; [|split]].
  - apply (okStepW_pre lm Hlog cfg HB false kBidirectionnal p q (wide_of_01 p Hp)).
    split; [now apply wide_of_01|]. split; [discriminate|]. split; [intros _; lra|discriminate].
  - lra.
  - rewrite Rabs_pos_eq by lra. eapply near_entry; [exact Hn1|exact E1|exact E2].
  - apply IH. exact Hq.
Qed.

Lemma acc_steady_bwd r (s : f32) m : octaveStep K r s -> (B2R s < 0)%R ->
  forall p : f32, fin32 p = true -> (-1 < B2R p <= 0)%R -> (B2R p = 0 \/ B2R p <= - e23)%R -> steady r p (accum p (repeat s m)).
Proof.
  intros (Fs & Hr & E1 & E2) Hs. rewrite <- e23_def in *. assert (P := e23_pos).
  rewrite Rabs_left in Hr, E1, E2 by lra.
  induction m as [|m IH]; intros p Fp Hp Hg; [exact I|]. cbn [repeat accum]. fold (fadd p s).
  destruct (acc_bwd lm p s Fp Hp Fs Hr) as (Fq & Hq & Gq & _ & Ff & Hd & Hn1).
  set (q := fmod1 (fadd p s)) in *. cbn [steady]. split; [|split; [|split]].
  - apply (okStepW_pre lm Hlog cfg HB false kBidirectionnal p q (wide_of_neg p Fp Hp Hg)).
    split; [now apply wide_of_neg|]. split; [discriminate|]. split; [intros _; lra|discriminate].
  - lra.
  - rewrite Rabs_left by lra. eapply near_entry; [|exact E1|exact E2].
    replace (- B2R (step32 lm kBidirectionnal p q) - - B2R s)%R with (- (B2R (step32 lm kBidirectionnal p q) - B2R s))%R by lra.
    rewrite Rabs_Ropp. exact Hn1.
  - now apply IH.
Qed.

Lemma acc_steady r (s : f32) m : octaveStep K r s -> steady r (f32_ofZ 0) (accum (f32_ofZ 0) (repeat s m)).
Proof.
  intros H. assert (H' := H). destruct H' as (_ & Hr & _). destruct (ofZ32 0 ltac:(lia)) as [Z1 Z2].
  assert (P : (0 < / IZR (2 ^ 23))%R) by (rewrite <- e23_def; apply e23_pos).
  destruct (Rlt_or_le 0 (B2R s)) as [Hs|Hs].
  - apply acc_steady_fwd; auto. split; [exact Z1|rewrite Z2; lra].
  - assert (B2R s <> 0)%R by (intros E; rewrite E, Rabs_R0 in Hr; lra).
    apply acc_steady_bwd; auto; rewrite ?Z2; lra.
Qed.

Lemma accum_length ss : forall p, length (accum p ss) = length ss.
Proof. induction ss as [|s ss IH]; intros p; cbn; [reflexivity|now rewrite IH]. Qed.

(** one tone *)
Lemma tone_ok r o w (s : f32) (m : nat) : Q o w -> octaveStep K r s -> n <= Z.of_nat m ->
  leftS (cfState N (wt_cf w)) = 0 \/ r <> prevS (cfState N (wt_cf w)) ->
  exists o' w' ys, run N src cfg F o (tone lm (s, m)) = Ok (o', ys) /\ length ys = m /\ Q o' w' /\ leftS (cfState N (wt_cf w')) = 0.
Proof.
  intros HQ Hs Hm Hr. assert (Hs' := Hs). destruct Hs' as (Fs & Hb & E1 & E2). destruct (ofZ32 0 ltac:(lia)) as [Z1 Z2].
  assert (P := e23_pos). rewrite <- e23_def in *.
  assert (H0 : B2R s <> 0%R) by (intros E; rewrite E, Rabs_R0 in Hb; lra).
  assert (He : entryFor K (Rabs (B2R s)) r) by (eapply near_entry; [|exact E1|exact E2]; rewrite Rminus_diag_eq by reflexivity; rewrite Rabs_R0; lra).
  assert (W0 : phaseWide (f32_ofZ 0)) by (apply wide_of_01; split; [exact Z1|rewrite Z2; lra]).
  destruct (okInitW_pre lm Hlog cfg HB false (f32_ofZ 0) s) as (q & Hq).
  { split; [exact W0|]. split; [exact Fs|]. split; [intros _; exact H0|discriminate]. }
  destruct (quiet_reset r o w (f32_ofZ 0) q s HQ Hq H0 He Hr) as (o1 & w1 & R1 & Q1 & P1 & L1).
  set (ps := accum (f32_ofZ 0) (repeat s m)).
  assert (Lp : length ps = m) by (unfold ps; rewrite accum_length; apply repeat_length).
  destruct (quiet_loop r ps o1 w1 (map (fun _ : T N => t0 N) (ps : list (T N))) Q1) as (o2 & ys & w2 & R2 & Ly & Q2 & L2).
  { rewrite P1. apply acc_steady. exact Hs. }
  { apply map_length. }
  exists o2, w2, ys. split; [|split; [congruence|split; [apply Q2|rewrite L2; lia]]].
  unfold tone. cbn [run apply]. rewrite R1. cbn [bind]. fold ps.
  assert (Ew : o_wt o1 = Some w1) by (destruct Q1 as [(_ & nw & HO) _]; exact (oo_wt _ _ _ _ _ _ _ HO)).
  unfold process. rewrite Ew. rewrite assert_ok by reflexivity. cbn [bind].
  rewrite assert_ok by (intros _; apply Z.eqb_eq; unfold zlen; rewrite map_length; reflexivity). cbn [bind].
  rewrite R2. cbn [bind]. rewrite app_nil_r. reflexivity.
Qed.

Lemma runapp a : forall o b, run N src cfg F o (a ++ b) =
  let! (o1, ys) := run N src cfg F o a in let! (o2, zs) := run N src cfg F o1 b in Ok (o2, ys ++ zs).
Proof.
  induction a as [|op a IH]; intros o b; cbn [app run bind].
  - destruct (run N src cfg F o b) as [[o2 zs]|]; reflexivity.
  - destruct (apply N src cfg F o op) as [[o1 ys]|]; cbn [bind]; [|reflexivity]. rewrite IH.
    destruct (run N src cfg F o1 a) as [[o2 zs]|]; cbn [bind]; [|reflexivity].
    destruct (run N src cfg F o2 b) as [[o3 us]|]; cbn [bind]; [|reflexivity]. now rewrite app_assoc.
Qed.

Definition okTone (t : f32 * nat) : Prop := (exists r, octaveStep K r (fst t)) /\ n <= Z.of_nat (snd t).
Definition total (ts : list (f32 * nat)) : nat := list_sum (map snd ts).

Lemma tones_ok ts : forall o w, Q o w -> Forall okTone ts -> leftS (cfState N (wt_cf w)) = 0 ->
  exists o' ys, run N src cfg F o (flat_map (tone lm) ts) = Ok (o', ys) /\ length ys = total ts.
Proof.
  induction ts as [|[s m] ts IH]; intros o w HQ Ht Hl.
  - exists o, []. split; reflexivity.
  - inversion_clear Ht as [|? ? [[r Hr] Hm] Ht']. cbn [fst snd] in *.
    destruct (tone_ok r o w s m HQ Hr Hm (or_introl Hl)) as (o1 & w1 & ys & E & Ly & Q1 & L1).
    destruct (IH o1 w1 Q1 Ht' L1) as (o2 & zs & E2 & Lz).
    exists o2, (ys ++ zs). cbn [flat_map]. rewrite runapp, E. cbn [bind]. rewrite E2. cbn [bind].
    split; [reflexivity|]. rewrite app_length, Ly, Lz. reflexivity.
Qed.

Lemma tones_first ts s m r : forall o w, Q o w -> octaveStep K r s -> n <= Z.of_nat m -> Forall okTone ts ->
  leftS (cfState N (wt_cf w)) = 0 \/ r <> prevS (cfState N (wt_cf w)) ->
  exists o' ys, run N src cfg F o (flat_map (tone lm) ((s, m) :: ts)) = Ok (o', ys) /\ length ys = total ((s, m) :: ts).
Proof.
  intros o w HQ Hr Hm Ht Hl.
  destruct (tone_ok r o w s m HQ Hr Hm Hl) as (o1 & w1 & ys & E & Ly & Q1 & L1).
  destruct (tones_ok ts o1 w1 Q1 Ht L1) as (o2 & zs & E2 & Lz).
  exists o2, (ys ++ zs). cbn [flat_map]. rewrite runapp, E. cbn [bind]. rewrite E2. cbn [bind].
  split; [reflexivity|]. rewrite app_length, Ly, Lz. reflexivity.
Qed.

(** init with the default state *)
Lemma init_state w : builtTable lm src dbg K n w ->
  exists o w', osc_init N cfg F (osc_new N F) (Some w) (f32_ofZ 0) (tfrac N 4 10) = Ok (o, 0) /\ Q o w' /\
    (leftS (cfState N (wt_cf w')) = 0 \/ prevS (cfState N (wt_cf w')) = K - 3).
Proof.
  intros HT. assert (HT' := HT). destruct HT' as (wfs & nw0 & sr & fade & HK & Hnw & Hlen & Hmax & Hr & Hc & Hb).
  assert (Hre : reach K n w) by (eapply r_build; eassumption).
  destruct (reach_ok lm Hlog src dbg K n w Hre) as (HK' & (nw & HW) & HS & En & _ & HC). specialize (HC Hn).
  destruct (ofZ32 0 ltac:(lia)) as [Z1 Z2].
  set (d := tfrac N 4 10). assert (Fd : fin32 (d : f32) = true) by reflexivity.
  assert (Vd : (/ 4 < B2R (d : f32) < / 2)%R) by (vm_compute; lra).
  assert (Va : tabs N d = d) by reflexivity.
  destruct (resetInternals_fine N L cfg F HB false K nw (set_wt N (osc_new N F) (Some w)) w (f32_ofZ 0) d)
    as (o' & w' & E & H1 & _ & _ & _ & _ & _ & Ew); auto.
  { cbn. assert (A := wo_nw _ _ _ _ HW). lia. }
  { split; [split; [exact Z1|change (0 <= B2R (f32_ofZ 0) < 1)%R; rewrite Z2; lra]|].
    split; [exact Fd|]. split; [intros _; change (B2R (d : f32) <> 0%R); lra|discriminate]. }
  rewrite Va in Ew. subst w'.
  assert (He : entryFor K (B2R (d : f32)) (K - 2)).
  { split; [lia|]. split; [left; reflexivity|right].
    replace (2 ^ K) with (2 ^ (K - 2) * 4) by (change 4 with (2 ^ 2); rewrite <- Z.pow_add_r by lia; f_equal; lia).
    rewrite mult_IZR. assert (P : (0 < IZR (2 ^ (K - 2)))%R) by (apply IZR_lt; apply Z.pow_pos_nonneg; lia).
    replace (IZR (2 ^ (K - 2)) / (IZR (2 ^ (K - 2)) * 4))%R with (/ 4)%R by (field; lra). lra. }
  destruct (next_state w d (K - 2) Hre Fd He) as [Ns Nm].
  exists (set_wf N o' 0), (wtNext N w d). split.
  { unfold osc_init. rewrite E. reflexivity. }
  split.
  - split; [apply next_reach; [exact Hre|exact Fd|lra]|]. exists nw.
    change (nrm (set_wf N o' 0)) with (set_wf N (nrm o') 0). rewrite (nrm_ok N L F _ _ _ _ H1).
    apply (OscOk_set_wf N L F); [exact H1|]. assert (A := wo_nw _ _ _ _ HW). lia.
  - assert (A : entryFor K (B2R (tfrac N 1 10 : f32)) (req N (wt_cf w) (tfrac N 1 10))).
    { exact (req_entry N L K (wt_cf w) (tfrac N 1 10) ltac:(lia) HS eq_refl). }
    rewrite Ns. destruct (built_state lm Hlog src dbg K n w (req N (wt_cf w) (tfrac N 1 10)) HT) as (Es & _ & _); [exact A|].
    rewrite Es. set (i0 := req N (wt_cf w) (tfrac N 1 10)). cbn.
    assert (Hi : 0 <= i0 <= K - 2) by apply A.
    destruct (Z.eqb_spec (K - 2) i0); cbn; [left; reflexivity|right]. destruct (Z.ltb_spec i0 (K - 2)); lia.
Qed.
End Tone.
