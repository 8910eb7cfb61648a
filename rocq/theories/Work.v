(** * Work: the oscillator of Osc.v, counting the iterations of its boundary loops

    The same code as Osc.v (adwt/adwt.cpp), with a counter in the two loops whose length
    depends on the signal: the loops over segment boundaries of computeISumFwd and
    computeISumBwd.  Every other loop of a sample has a length fixed by the filter.  Each
    sample comes with two counts: the iterations spent on the lower mipmap entry and on the
    upper one.  [erase_run] shows that forgetting the counts gives back Osc.v exactly. *)
From Coq Require Import ZArith List Bool Arith Lia.
From Verif Require Import Num Maths CrossFader Wavetable Filters Osc NumFacts.
Import ListNotations.
Local Open Scope Z_scope.

(** a loop body with a counter *)
Definition tick {S I} (f : S -> I -> res S) (sc : S * Z) (i : I) : res (S * Z) :=
  let! s := f (fst sc) i in Ok (s, snd sc + 1).

Section Work.
Variable N : Num.
Variable src : Resampler N.
Variable cfg : Cfg.
Variable F : Filt N.
Notation dbg := (dbg cfg).

(** Oscillator::computeISumFwd -- adwt/adwt.cpp:161-246 *)
Definition computeISumFwdW (w : WT N) (wf : Z) (arr : list (C N)) (mipmap_idx : Z)
           (jmin_red jmax_p_red : Z) (phase_diff phase_red : T N) : res (list (C N) * Z) :=
  let! waveform_len := wt_waveformLen N w mipmap_idx in
  let! born_sup := bornSup waveform_len jmin_red jmax_p_red in
  let! md := wt_mDiff N w wf mipmap_idx in
  let! qd := wt_qDiff N w wf mipmap_idx in
  let! ph := wt_phases N w mipmap_idx in
  foldr (tick (sumFwd_iter N cfg F ph md qd waveform_len jmax_p_red phase_diff phase_red))
        (zrange jmin_red born_sup) (arr, 0).

(** Oscillator::computeISumBwd -- adwt/adwt.cpp:248-334 *)
Definition computeISumBwdW (w : WT N) (wf : Z) (arr : list (C N)) (mipmap_idx : Z)
           (jmin jmin_red jmax_p_red : Z) (phase_diff phase_red : T N) : res (list (C N) * Z) :=
  let! _ := assert_ dbg (tlt N phase_diff (t0 N)) in
  let! waveform_len := wt_waveformLen N w mipmap_idx in
  let! born_sup := bornSup waveform_len jmin_red jmax_p_red in
  let cycle_offset := if negb (jmin =? 0) && (jmax_p_red <? jmin_red)
                      then tofZ N (-1) else t0 N in
  let! md := wt_mDiff N w wf mipmap_idx in
  let! qd := wt_qDiff N w wf mipmap_idx in
  let! ph := wt_phases N w mipmap_idx in
  foldr (tick (sumBwd_iter N cfg F ph md qd waveform_len jmax_p_red cycle_offset phase_diff phase_red))
        (zrange jmin_red born_sup) (arr, 0).

(** Oscillator::computeBwdI -- adwt/adwt.cpp:336-353 *)
Definition computeBwdIW (w : WT N) (wf : Z) (prev_phase_red : T N) (arr : list (C N))
           (mipmap_idx : Z) (jmin jmin_red jmax_p_red : Z) (phase_diff phase_red : T N)
  : res (list (C N) * Z) :=
  let! _ := assert_ dbg (tlt N phase_diff (t0 N)) in
  let phase_red_bar := tadd N phase_red (tofZ N (b2z (teq N phase_red (t0 N)))) in
  let! arr1 := computeI0 N cfg F w wf arr mipmap_idx jmax_p_red jmin_red phase_diff
                         prev_phase_red phase_red_bar in
  computeISumBwdW w wf arr1 mipmap_idx jmin jmin_red jmax_p_red phase_diff phase_red.

(** Oscillator::computeFwdI -- adwt/adwt.cpp:355-369 *)
Definition computeFwdIW (w : WT N) (wf : Z) (prev_phase_red : T N) (arr : list (C N))
           (mipmap_idx : Z) (jmin_red jmax_p_red : Z) (phase_diff phase_red : T N)
  : res (list (C N) * Z) :=
  let prev_phase_red_bar :=
    tadd N prev_phase_red (tofZ N (b2z (teq N prev_phase_red (t0 N)))) in
  let! arr1 := computeI0 N cfg F w wf arr mipmap_idx jmin_red jmax_p_red phase_diff
                         prev_phase_red_bar phase_red in
  computeISumFwdW w wf arr1 mipmap_idx jmin_red jmax_p_red phase_diff phase_red.

(** a sample and the boundary-loop iterations on the lower and on the upper entry *)
Notation cost := (Z * Z)%type.

(** Oscillator::processSampleFwd -- adwt/adwt.cpp:409-501 *)
Definition processSampleFwdW (o : Osc N) (w : WT N) (phase phase_diff : T N)
  : res (Osc N * T N * cost) :=
  let! x := idxFwd N cfg o w phase phase_diff in
  let! (a, c) := computeFwdIW (ix_wt N x) (o_wf o) (o_phred o) (zeroArr N cfg F) (ix_mi N x)
                        (ix_jmin_red N x) (ix_jmax_p_red N x) phase_diff (ix_phred N x) in
  let! (icpx, cu) :=
    (if negb (teq N (ix_wu N x) (t0 N)) then
       let! (up, cu) := computeFwdIW (ix_wt N x) (o_wf o) (o_phred o) (zeroArr N cfg F) (ix_mu N x)
                              (Z.quot (ix_jmin_red N x) 2) (Z.quot (ix_jmax_p_red N x) 2)
                              phase_diff (ix_phred N x) in
       Ok (crossfadeArr N cfg F a up (ix_w N x) (ix_wu N x), cu)
     else Ok (a, 0)) in
  Ok (finish N cfg F o x phase phase_diff icpx, (c, cu)).

(** Oscillator::processSampleBwd -- adwt/adwt.cpp:503-607 *)
Definition processSampleBwdW (o : Osc N) (w : WT N) (phase phase_diff : T N)
  : res (Osc N * T N * cost) :=
  let! x := idxBwd N cfg o w phase phase_diff in
  let! (a, c) := computeBwdIW (ix_wt N x) (o_wf o) (o_phred o) (zeroArr N cfg F) (ix_mi N x) (ix_jmin N x)
                        (ix_jmin_red N x) (ix_jmax_p_red N x) phase_diff (ix_phred N x) in
  let! (icpx, cu) :=
    (if negb (teq N (ix_wu N x) (t0 N)) then
       let! (up, cu) := computeBwdIW (ix_wt N x) (o_wf o) (o_phred o) (zeroArr N cfg F) (ix_mu N x) (ix_jmin N x)
                              (Z.quot (ix_jmin_red N x) 2) (Z.quot (ix_jmax_p_red N x) 2)
                              phase_diff (ix_phred N x) in
       Ok (crossfadeArr N cfg F a up (ix_w N x) (ix_wu N x), cu)
     else Ok (a, 0)) in
  Ok (finish N cfg F o x phase phase_diff icpx, (c, cu)).

(** one iteration of the sample loops -- adwt/adwt.cpp:376-384 and 392-406 *)
Definition processOneW (dir : Direction) (o : Osc N) (phase : T N) : res (Osc N * T N * cost) :=
  match o_wt o with
  | None => Fault NullDeref
  | Some w =>
    match dir with
    | kForward =>
        let pd := stepFwd N phase (o_phase o) in
        let! _ := assert_ dbg (tlt N (t0 N) pd && tle N pd (tfrac N 1 2)) in
        processSampleFwdW o w phase pd
    | kBidirectionnal =>
        let pd := stepBi N phase (o_phase o) in
        if tle N (t0 N) pd then processSampleFwdW o w phase pd
        else processSampleBwdW o w phase pd
    end
  end.

(** the sample loop -- adwt/adwt.cpp:371-407; the output span has the size of the phases *)
Fixpoint processLoopW (dir : Direction) (o : Osc N) (phases : list (T N))
  : res (Osc N * list (T N * cost)) :=
  match phases with
  | [] => Ok (o, [])
  | p :: ps =>
      let! (o1, y, c) := processOneW dir o p in
      let! (o2, ys) := processLoopW dir o1 ps in
      Ok (o2, (y, c) :: ys)
  end.

(** Oscillator::process -- adwt/adwt.hpp:149-156 *)
Definition processW (dir : Direction) (o : Osc N) (phases : list (T N))
  : res (Osc N * list (T N * cost)) :=
  let! _ := assert_ dbg (is_some (o_wt o)) in
  processLoopW dir o phases.

(** one call, and a history of calls (as [apply] and [run] of Osc.v) *)
Definition applyW (o : Osc N) (op : Op N) : res (Osc N * list (T N * cost)) :=
  match op with
  | OpProcess _ dir ps => processW dir o ps
  | _ => let! (o', _) := apply N src cfg F o op in Ok (o', [])
  end.
Fixpoint runW (o : Osc N) (ops : list (Op N)) : res (Osc N * list (T N * cost)) :=
  match ops with
  | [] => Ok (o, [])
  | op :: rest =>
      let! (o1, ys) := applyW o op in
      let! (o2, zs) := runW o1 rest in
      Ok (o2, ys ++ zs)
  end.

(** ** Forgetting the counts *)
Definition drop {A B} (r : res (A * B)) : res A := let! (a, _) := r in Ok a.

Lemma foldr_tick S I (f : S -> I -> res S) l : forall s c,
  foldr (tick f) l (s, c) = let! s' := foldr f l s in Ok (s', c + zlen l).
Proof.
  induction l as [|i l IH]; intros s c; cbn [foldr].
  - cbn [bind]. rewrite zlen_nil. now rewrite Z.add_0_r.
  - unfold tick at 1. cbn [fst snd]. destruct (f s i) as [s'|e]; cbn [bind]; [|reflexivity].
    rewrite IH. rewrite zlen_cons. destruct (foldr f l s'); cbn [bind]; [|reflexivity].
    do 2 f_equal. lia.
Qed.

(** the count is the length of the loop's range *)
Definition countOf (w : WT N) (mi jmin_red jmax_p_red : Z) : res Z :=
  let! len := wt_waveformLen N w mi in
  let! sup := bornSup len jmin_red jmax_p_red in Ok (zlen (zrange jmin_red sup)).

Lemma fwd_count w wf P arr mi a b pd p :
  computeFwdIW w wf P arr mi a b pd p =
  let! r := computeFwdI N cfg F w wf P arr mi a b pd p in
  let! c := countOf w mi a b in Ok (r, c).
Proof.
  unfold computeFwdIW, computeFwdI, computeISumFwdW, computeISumFwd, countOf.
  destruct (computeI0 _ _ _ _ _ _ _ _ _ _ _ _) as [r|e]; cbn [bind]; [|reflexivity].
  destruct (wt_waveformLen _ _ _); cbn [bind]; [|reflexivity].
  destruct (bornSup _ _ _); cbn [bind]; [|reflexivity].
  destruct (wt_mDiff _ _ _ _); cbn [bind]; [|reflexivity].
  destruct (wt_qDiff _ _ _ _); cbn [bind]; [|reflexivity].
  destruct (wt_phases _ _ _); cbn [bind]; [|reflexivity].
  apply foldr_tick.
Qed.

Lemma bwd_count w wf P arr mi jm a b pd p :
  computeBwdIW w wf P arr mi jm a b pd p =
  let! r := computeBwdI N cfg F w wf P arr mi jm a b pd p in
  let! c := countOf w mi a b in Ok (r, c).
Proof.
  unfold computeBwdIW, computeBwdI, computeISumBwdW, computeISumBwd, countOf.
  destruct (assert_ _ _); cbn [bind]; [|reflexivity].
  destruct (computeI0 _ _ _ _ _ _ _ _ _ _ _ _) as [r|e]; cbn [bind]; [|reflexivity].
  destruct (wt_waveformLen _ _ _); cbn [bind]; [|reflexivity].
  destruct (bornSup _ _ _); cbn [bind]; [|reflexivity].
  destruct (wt_mDiff _ _ _ _); cbn [bind]; [|reflexivity].
  destruct (wt_qDiff _ _ _ _); cbn [bind]; [|reflexivity].
  destruct (wt_phases _ _ _); cbn [bind]; [|reflexivity].
  apply foldr_tick.
Qed.

(** a computation that succeeds counts *)
Lemma fwd_counts w wf P arr mi a b pd p r :
  computeFwdI N cfg F w wf P arr mi a b pd p = Ok r -> exists c, countOf w mi a b = Ok c.
Proof.
  unfold computeFwdI, computeISumFwd, countOf. intros E.
  apply bind_ok in E. destruct E as (r1 & _ & E). apply bind_ok in E. destruct E as (len & -> & E).
  apply bind_ok in E. destruct E as (sup & E1 & E). cbn [bind]. rewrite E1. cbn [bind]. eauto.
Qed.
Lemma bwd_counts w wf P arr mi jm a b pd p r :
  computeBwdI N cfg F w wf P arr mi jm a b pd p = Ok r -> exists c, countOf w mi a b = Ok c.
Proof.
  unfold computeBwdI, computeISumBwd, countOf. intros E.
  apply bind_ok in E. destruct E as (u & _ & E). apply bind_ok in E. destruct E as (r1 & _ & E).
  apply bind_ok in E. destruct E as (u' & _ & E). apply bind_ok in E. destruct E as (len & -> & E).
  apply bind_ok in E. destruct E as (sup & E1 & E). cbn [bind]. rewrite E1. cbn [bind]. eauto.
Qed.

Lemma erase_fwdI w wf P arr mi a b pd p :
  drop (computeFwdIW w wf P arr mi a b pd p) = computeFwdI N cfg F w wf P arr mi a b pd p.
Proof.
  rewrite fwd_count. destruct (computeFwdI _ _ _ _ _ _ _ _ _ _ _) as [r|e] eqn:E; cbn [bind drop]; [|reflexivity].
  destruct (fwd_counts _ _ _ _ _ _ _ _ _ _ E) as (c & ->). reflexivity.
Qed.
Lemma erase_bwdI w wf P arr mi jm a b pd p :
  drop (computeBwdIW w wf P arr mi jm a b pd p) = computeBwdI N cfg F w wf P arr mi jm a b pd p.
Proof.
  rewrite bwd_count. destruct (computeBwdI _ _ _ _ _ _ _ _ _ _ _ _) as [r|e] eqn:E; cbn [bind drop]; [|reflexivity].
  destruct (bwd_counts _ _ _ _ _ _ _ _ _ _ _ E) as (c & ->). reflexivity.
Qed.

Lemma erase_fwd o w p pd : drop (processSampleFwdW o w p pd) = processSampleFwd N cfg F o w p pd.
Proof.
  unfold processSampleFwdW, processSampleFwd, drop.
  destruct (idxFwd _ _ _ _ _ _) as [x|e]; cbn [bind]; [|reflexivity].
  rewrite <- erase_fwdI. destruct (computeFwdIW _ _ _ _ (ix_mi N x) _ _ _ _) as [[a c]|e]; cbn [bind drop]; [|reflexivity].
  destruct (negb _); cbn [bind]; [|reflexivity].
  rewrite <- erase_fwdI. destruct (computeFwdIW _ _ _ _ _ _ _ _ _) as [[u cu]|e]; cbn [bind drop]; reflexivity.
Qed.
Lemma erase_bwd o w p pd : drop (processSampleBwdW o w p pd) = processSampleBwd N cfg F o w p pd.
Proof.
  unfold processSampleBwdW, processSampleBwd, drop.
  destruct (idxBwd _ _ _ _ _ _) as [x|e]; cbn [bind]; [|reflexivity].
  rewrite <- erase_bwdI. destruct (computeBwdIW _ _ _ _ (ix_mi N x) _ _ _ _ _) as [[a c]|e]; cbn [bind drop]; [|reflexivity].
  destruct (negb _); cbn [bind]; [|reflexivity].
  rewrite <- erase_bwdI. destruct (computeBwdIW _ _ _ _ _ _ _ _ _ _) as [[u cu]|e]; cbn [bind drop]; reflexivity.
Qed.
Lemma erase_one dir o p : drop (processOneW dir o p) = processOne N cfg F dir o p.
Proof.
  unfold processOneW, processOne. destruct (o_wt o) as [w|]; [|reflexivity].
  destruct dir; cbv zeta.
  - destruct (assert_ _ _); cbn [bind]; [|reflexivity]. apply erase_fwd.
  - destruct (tle N _ _); [apply erase_fwd|apply erase_bwd].
Qed.

(** the samples without their costs *)
Definition samples (r : res (Osc N * list (T N * cost))) : res (Osc N * list (T N)) :=
  let! (o, l) := r in Ok (o, map fst l).

Lemma erase_loop dir ps : forall o,
  samples (processLoopW dir o ps) = processLoop N cfg F dir o ps (map (fun _ => t0 N) ps).
Proof.
  induction ps as [|p ps IH]; intros o; [reflexivity|]. cbn [processLoopW processLoop map].
  rewrite <- erase_one. destruct (processOneW dir o p) as [[[o1 y] c]|e]; cbn [bind drop]; [|reflexivity].
  rewrite <- IH. destruct (processLoopW dir o1 ps) as [[o2 l]|e]; cbn [bind samples]; reflexivity.
Qed.

Lemma erase_apply o op : samples (applyW o op) = apply N src cfg F o op.
Proof.
  assert (E : forall r : res (Osc N * list (T N)), (forall o' l, r = Ok (o', l) -> l = []) ->
     samples (let! (o', _) := r in Ok (o', [])) = r).
  { intros [[o' l]|e] H; cbn [bind samples map]; [|reflexivity]. now rewrite (H o' l eq_refl). }
  destruct op as [wd p d|wd p d|p d|k|sr|dir ps]; cbn [applyW apply]; try apply E.
  - intros o' l H. apply bind_ok in H. destruct H as ([o1 s] & _ & H). inversion H. reflexivity.
  - intros o' l H. apply bind_ok in H. destruct H as ([o1 s] & _ & H). inversion H. reflexivity.
  - intros o' l H. apply bind_ok in H. destruct H as (o1 & _ & H). inversion H. reflexivity.
  - intros o' l H. apply bind_ok in H. destruct H as (o1 & _ & H). inversion H. reflexivity.
  - intros o' l H. apply bind_ok in H. destruct H as (o1 & _ & H). inversion H. reflexivity.
  - unfold processW, process. destruct (assert_ _ (is_some _)); cbn [bind samples]; [|reflexivity].
    rewrite assert_ok by (intros _; rewrite zlen_map; apply Z.eqb_refl). cbn [bind].
    apply erase_loop.
Qed.

(** counting changes nothing: the histories of Osc.v *)
Theorem erase_run ops : forall o, samples (runW o ops) = run N src cfg F o ops.
Proof.
  induction ops as [|op ops IH]; intros o; [reflexivity|]. cbn [runW run].
  rewrite <- erase_apply. destruct (applyW o op) as [[o1 l]|e]; cbn [bind samples]; [|reflexivity].
  rewrite <- IH. destruct (runW o1 ops) as [[o2 m]|e]; cbn [bind samples]; [|reflexivity].
  now rewrite map_app.
Qed.
End Work.
