(** * Prop_Conv: property C32 -- half the poles suffice: the output is the convolution of the
    moving waveform with the impulse response of the full-order filter (exact arithmetic) *)
From Coq Require Import ZArith List Bool Reals Lia Lra Arith.
From Flocq Require Import Core.
From Verif Require Import Num CrossFader Wavetable Filters Osc Spec SpecC SpecT RNum Demo.
From Coquelicot Require Import Coquelicot.
From Verif Require Import SpecE SpecX SpecV ExactMath ExactSig ExactLaws PExact ConvFacts.
From Verif Require Import Prop_Exact.
Import ListNotations.
Local Open Scope R_scope.

Section H.
Variable src : Resampler RNum.
Variable dbg : bool.
Variable F : Filt RNum.
Hypothesis HF : exactFilter F.

Definition after (xs : list (R -> R)) : list C :=
  fold_left (fun mem x => allPoles F x mem) xs (repeat (RtoC 0) (length (f_r F))).
Definition outs (xs0 xs : list (R -> R)) : list R :=
  List.map (fun n => filtered F (xs0 ++ xs) (length xs0 + S n)) (seq 0 (length xs)).

Lemma outs_cons xs0 x xs : List.Forall (fun x : R -> R => cont x) xs0 -> cont x ->
  outs xs0 (x :: xs) = audible (after (xs0 ++ [x])) :: outs (xs0 ++ [x]) xs.
Proof.
  intros H0 Hx. unfold outs. cbn [length seq List.map]. f_equal.
  - replace (length xs0 + 1)%nat with (length (xs0 ++ [x])) by (rewrite app_length; cbn; lia).
    replace (xs0 ++ x :: xs) with ((xs0 ++ [x]) ++ xs) by (rewrite <- app_assoc; reflexivity).
    assert (HC : List.Forall (fun x : R -> R => cont x) (xs0 ++ [x])) by (apply Forall_app; split; [exact H0|apply List.Forall_cons; [exact Hx|constructor]]).
    rewrite filtered_front by (try assumption; apply HF).
    unfold after. rewrite audible_conv by (try assumption; apply HF). reflexivity.
  - rewrite <- seq_shift, List.map_map. apply map_ext. intros n.
    rewrite <- app_assoc. cbn [app]. f_equal. rewrite app_length. cbn. lia.
Qed.
Lemma outs_app xs0 xs ys : List.Forall (fun x : R -> R => cont x) xs0 -> List.Forall (fun x : R -> R => cont x) xs ->
  outs xs0 (xs ++ ys) = outs xs0 xs ++ outs (xs0 ++ xs) ys.
Proof.
  intros H0 H. revert xs0 H0. induction H as [|x xs Hx H IH]; intros xs0 H0.
  - cbn. now rewrite app_nil_r.
  - cbn [app]. rewrite !outs_cons by assumption. cbn [app]. f_equal.
    rewrite IH by (apply Forall_app; split; [exact H0|apply List.Forall_cons; [exact Hx|constructor]]).
    f_equal. now rewrite <- app_assoc.
Qed.

Lemma block_reads dir st ps st' ys : block src dbg F dir st ps st' ys ->
  forall xs0, List.Forall (fun x : R -> R => cont x) xs0 -> id_mem st = after xs0 ->
  exists xs, blockReads src dbg F dir st ps st' xs /\ List.Forall (fun x : R -> R => cont x) xs /\
    id_mem st' = after (xs0 ++ xs) /\ ys = outs xs0 xs.
Proof.
  induction 1 as [st|st p st1 y ps st2 ys Hs Hb IH]; intros xs0 H0 Hm.
  - exists []. rewrite app_nil_r. repeat split; try assumption; constructor.
  - assert (Hs' := Hs). destruct Hs as [d w' m g mu gu mem Hsh Hd Hd0 Hdr Hf Htr Hmem].
    set (x := mixed src st (id_phase st) d (m, g, mu, gu)) in *.
    assert (Hx : cont x) by (intros u; apply mixed_cont).
    destruct (IH (xs0 ++ [x])) as (xs & R & HC & M & Y).
    + apply Forall_app. split; [exact H0|apply List.Forall_cons; [exact Hx|constructor]].
    + cbn [id_mem]. unfold after. rewrite fold_left_app. fold (after xs0). rewrite Hmem, Hm. reflexivity.
    + exists (x :: xs). split; [|split; [|split]].
      * eapply br_cons; [exact Hs'| |exact R]. exists w', (m, g, mu, gu). rewrite <- Hd. split; [exact Hf|reflexivity].
      * apply List.Forall_cons; assumption.
      * rewrite M. f_equal. now rewrite <- app_assoc.
      * rewrite outs_cons by assumption. rewrite Y. f_equal. f_equal. rewrite Hmem, Hm.
        unfold after. rewrite fold_left_app. reflexivity.
Qed.

Lemma history_reads so ops so' ys : plays src dbg F so ops so' ys ->
  forall st xs0, so = Some st -> List.Forall keepsPlaying ops ->
  List.Forall (fun x : R -> R => cont x) xs0 -> id_mem st = after xs0 ->
  exists xs, historyReads src dbg F st ops xs /\ List.Forall (fun x : R -> R => cont x) xs /\ ys = outs xs0 xs.
Proof.
  induction 1 as [so|so op rest so' ys Hop Hp IH|so op w p d K nw wfs st1 rest so' ys Hop HW HT Hf Hp IH
                 |st p d st1 rest so' ys Hf Hp IH|st k rest so' ys Hk Hp IH|st sr w' rest so' ys H1 H2 Hu Hp IH
                 |st dir ps st1 ys rest so' zs Hb Hp IH]; intros st0 xs0 E HK H0 Hm.
  - exists []. repeat split; constructor.
  - inversion_clear HK as [|? ? _ HK']. destruct (IH _ _ E HK' H0 Hm) as (xs & R & HC & Y).
    exists xs. split; [now apply hr_null|]. split; assumption.
  - inversion_clear HK as [|? ? HK1 HK']. destruct Hop as [-> | ->]; contradiction.
  - inversion_clear HK as [|? ? HK1 HK']. contradiction.
  - injection E as <-. inversion_clear HK as [|? ? _ HK'].
    destruct (IH _ xs0 eq_refl HK' H0 Hm) as (xs & R & HC & Y). exists xs. split; [now apply hr_select|]. split; assumption.
  - injection E as <-. inversion_clear HK as [|? ? _ HK'].
    destruct (IH _ xs0 eq_refl HK' H0 Hm) as (xs & R & HC & Y). exists xs. split; [eapply hr_rate; eassumption|]. split; assumption.
  - injection E as <-. inversion_clear HK as [|? ? _ HK'].
    destruct (block_reads _ _ _ _ _ Hb xs0 H0 Hm) as (xs1 & R1 & HC1 & M1 & Y1).
    destruct (IH _ (xs0 ++ xs1) eq_refl HK') as (xs & R & HC & Y); [apply Forall_app; auto|exact M1|].
    exists (xs1 ++ xs). split; [eapply hr_process; eassumption|]. split; [apply Forall_app; auto|].
    rewrite Y1, Y. symmetry. now apply outs_app.
Qed.

Lemma cleared so ops op so' ys : plays src dbg F so (ops ++ [op]) so' ys -> clears op ->
  exists st, so' = Some st /\ id_mem st = after [].
Proof.
  remember (ops ++ [op]) as l eqn:El. intros H. revert ops El.
  induction H as [so|so op' rest so' ys Hop Hp IH|so op' w p d K nw wfs st1 rest so' ys Hop HW HT Hf Hp IH
                 |st p d st1 rest so' ys Hf Hp IH|st k rest so' ys Hk Hp IH|st sr w' rest so' ys H1 H2 Hu Hp IH
                 |st dir ps st1 ys rest so' zs Hb Hp IH]; intros ops El Hc.
  - destruct ops; discriminate.
  - destruct ops as [|o ops]; cbn in El; injection El as -> ->; [|now apply (IH ops)].
    destruct Hop as (p & d & [-> | ->]); contradiction.
  - destruct ops as [|o ops]; cbn in El; injection El as -> ->; [|now apply (IH ops)].
    inversion Hp; subst. exists st1. split; [reflexivity|]. destruct Hf. reflexivity.
  - destruct ops as [|o ops]; cbn in El.
    + injection El as <- ->. inversion Hp; subst. exists st1. split; [reflexivity|]. destruct Hf. reflexivity.
    + injection El as <- ->. now apply (IH ops).
  - destruct ops as [|o ops]; cbn in El.
    + injection El as <- ->. contradiction.
    + injection El as <- ->. now apply (IH ops).
  - destruct ops as [|o ops]; cbn in El.
    + injection El as <- ->. contradiction.
    + injection El as <- ->. now apply (IH ops).
  - destruct ops as [|o ops]; cbn in El.
    + injection El as <- ->. contradiction.
    + injection El as <- ->. now apply (IH ops).
Qed.
End H.

(** ** C32.  After a call that clears the filter (init, swap or reset), for as long as only
    phases are played (and waveforms selected, sample rates changed), the n-th sample the
    library returns is
       integral over t in [0,n] of h(n - t) x(t)
    where x is the waveform read along the phases and h is the impulse response of the
    filter of full order, conjugate poles included. *)
Theorem C32_convolution : forall src cfg F ops0 op st ys0 ops st' ys,
  (1 <= batch cfg)%nat -> exactFilter F ->
  plays src (dbg cfg) F None (ops0 ++ [op]) (Some st) ys0 -> clears op ->
  plays src (dbg cfg) F (Some st) ops st' ys -> List.Forall keepsPlaying ops ->
  exists xs, historyReads src (dbg cfg) F st ops xs /\ length xs = length ys /\
    (forall n, (n < length ys)%nat -> nth n ys 0 = filtered F xs (S n)) /\
    outputs RNum (Osc.run RNum src cfg F (osc_new RNum F) ((ops0 ++ [op]) ++ ops)) = Ok (ys0 ++ ys).
Proof.
  intros src cfg F ops0 op st ys0 ops st' ys HB HF H0 Hc H Hk.
  destruct (cleared _ _ _ _ _ _ _ _ H0 Hc) as (st1 & E & M). injection E as <-.
  destruct (history_reads src (dbg cfg) F HF _ _ _ _ H st [] eq_refl Hk ltac:(constructor) M) as (xs & HR & HC & Y).
  exists xs. split; [exact HR|]. split; [rewrite Y; unfold outs; now rewrite map_length, seq_length|]. split.
  - intros n Hn. rewrite Y in *. unfold outs in *. rewrite map_length, seq_length in Hn.
    rewrite (nth_indep _ 0 (filtered F ([] ++ xs) (length (@nil (R -> R)) + S 0))) by (now rewrite map_length, seq_length).
    rewrite (map_nth (fun n => filtered F ([] ++ xs) (length (@nil (R -> R)) + S n)) (seq 0 (length xs)) 0%nat).
    rewrite seq_nth by assumption. reflexivity.
  - eapply plays_outputs; [assumption|assumption|]. eapply plays_app; eassumption.
Qed.
Print Assumptions C32_convolution.

(** The full-order filter is real: its impulse response has no imaginary part, and is twice
    the real part of the sum over the poles the library keeps. *)
Theorem C32_real_filter : forall F t,
  snd (impulse F t) = 0 /\
  fst (impulse F t) = 2 * fold_right Rplus 0 (List.map (fun e : C * C => fst (fst e * cexp (RtoC t * snd e))%C) (combine (f_r F) (f_z F))).
Proof.
  intros F t. rewrite impulse_half. split; [reflexivity|]. cbn [RtoC fst].
  generalize (combine (f_r F) (f_z F)). intros l. induction l as [|e l IH]; cbn [List.map fold_right]; [ring|].
  rewrite IH. unfold kern. generalize (cexp (RtoC t * snd e)%C). intros k. destruct e as [[r1 r2] z]. cbn. ring.
Qed.
Print Assumptions C32_real_filter.

(** ** The hypotheses are met: the history of ex_forward, after its init call *)
Example ex_conv : forall dbg, exists w st st' ys,
  wt_build RNum (demo_src RNum) dbg demoWave 1 1 1 = Ok (Some w) /\
  plays (demo_src RNum) dbg (filt RNum kType2) None ([] ++ [OpInit RNum (Some w) 0 (1/8)]) (Some st) [] /\
  clears (OpInit RNum (Some w) 0 (1/8)) /\
  plays (demo_src RNum) dbg (filt RNum kType2) (Some st)
    [OpProcess RNum kForward [1/8; 2/8; 5/8; 7/8; 1/8; 2/8]] st' ys /\ length ys = 6%nat /\
  List.Forall keepsPlaying [OpProcess RNum kForward [1/8; 2/8; 5/8; 7/8; 1/8; 2/8]].
Proof.
  intros dbg. destruct (ex_forward dbg) as (w & st' & ys & Ew & H & L).
  inversion H as [| |? ? w0 p d K nw wfs st1 rest so' ys' Hop HW HT Hf Hp| | | |]; subst.
  { match goal with h : exists _ _, _ |- _ => destruct h as (? & ? & [E|E]); discriminate E end. }
  assert (E : OpInit RNum (Some w) 0 (1/8) = OpInit RNum (Some w0) p d) by (destruct Hop as [E|E]; [exact E|discriminate E]).
  injection E as E1 E2 E3. subst w0 p d.
  exists w, st1, (Some st'), ys. split; [exact Ew|]. split.
  - eapply pl_load; [left; reflexivity|exact HW|exact HT|exact Hf|apply pl_end].
  - split; [exact I|]. split; [exact Hp|]. split; [exact L|]. apply List.Forall_cons; [exact I|constructor].
Qed.
