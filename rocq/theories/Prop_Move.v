(** * Prop_Move: properties C42, C43 -- the direction of the phase axis and the place of its
    wrap-around do not matter (exact arithmetic) *)
From Coq Require Import ZArith List Bool Reals Lia Lra Arith.
From Flocq Require Import Core.
From Verif Require Import Num Maths CrossFader Wavetable Filters Osc Spec SpecC SpecT NumFacts Laws CFFacts
  WTFacts BuildFacts OscHist CFHist PTables RNum RLaws Demo.
From Coquelicot Require Import Coquelicot.
From Verif Require Import SpecE SpecM ExactMath ExactStep ExactRun ExactHist ExactCover ExactLaws PExact PClick ExactMove.
Import ListNotations.
Local Open Scope R_scope.

(** ** C43: the wrap-around point is not special.  Two histories that differ only by a shift
    [s] of the phase axis, on tables whose audible entries differ by the same shift, return
    the same samples. *)
Theorem C43_rotation : forall src cfg F s K M q ops ops' st ys st' ys',
  (1 <= batch cfg)%nat -> exactFilter F -> (1 <= M)%Z ->
  movedOps src (dbg cfg) false s K M q ops ops' ->
  plays src (dbg cfg) F None ops st ys -> plays src (dbg cfg) F None ops' st' ys' ->
  outputs RNum (Osc.run RNum src cfg F (osc_new RNum F) ops') =
  outputs RNum (Osc.run RNum src cfg F (osc_new RNum F) ops) /\
  outputs RNum (Osc.run RNum src cfg F (osc_new RNum F) ops) = Ok ys.
Proof.
  intros src cfg F s K M q ops ops' st ys st' ys' HB HF HM Hm P P'.
  rewrite (plays_outputs _ _ _ _ _ _ HB HF P), (plays_outputs _ _ _ _ _ _ HB HF P').
  rewrite (twin_plays src (dbg cfg) F HF false s K M HM ops ops' q Hm None None st st' ys ys' I P P').
  split; reflexivity.
Qed.
Print Assumptions C43_rotation.

(** tables whose audible entries are rotated by h samples of the base table (hence by h/2^k
    samples of entry k) are such tables, with s = h/2^K *)
Theorem C43_rotated_tables : forall src dbg K M wfs wfs' nw sr fade w w' h,
  wellFormed RNum wfs nw K -> wellFormed RNum wfs' nw K -> 0 < sr -> 1 <= fade * sr < IZR int_max ->
  wt_build RNum src dbg wfs nw sr fade = Ok (Some w) -> wt_build RNum src dbg wfs' nw sr fade = Ok (Some w') ->
  (forall i k, (0 <= i < nw)%Z -> (0 <= k <= M)%Z -> (k <= K - 2)%Z ->
     exists hk, (h = hk * 2 ^ k)%Z /\
     rotated hk (mipmap RNum src (waveform RNum wfs (2 ^ K) i) k) (mipmap RNum src (waveform RNum wfs' (2 ^ K) i) k)) ->
  movedTables src dbg false (IZR h / IZR (2 ^ K)) K M w w'.
Proof.
  intros src dbg K M wfs wfs' nw sr fade w w' h HW HW' Hs Hf Hb Hb' Hrot.
  exists wfs, wfs', nw, sr, fade. do 6 (split; [assumption|]). intros i k t Hi Hk Hk2.
  assert (HT := t_build src dbg wfs nw sr fade w Hs Hf Hb).
  destruct (table_ok src dbg _ _ _ _ HW HT) as (Ct & _).
  destruct (slot_of RNum src _ _ _ _ i k Ct ltac:(lia) ltac:(lia)) as (_ & _ & _ & Ls & _).
  destruct (Hrot i k Hi Hk Hk2) as (hk & Eh & Hr). cbn [sg].
  assert (HKp := IZR_pow2_pos (K - k) ltac:(lia)). assert (Hkp := IZR_pow2_pos k ltac:(lia)).
  assert (E : IZR h / IZR (2 ^ K) = IZR hk / IZR (2 ^ (K - k))).
  { rewrite Eh, mult_IZR. replace K with (K - k + k)%Z at 1 by lia. rewrite Z.pow_add_r, mult_IZR by lia.
    field. split; lra. }
  rewrite E. set (ya := mipmap RNum src (waveform RNum wfs (2 ^ K) i) k) in *.
  change (T RNum) with R in *. rewrite <- Ls. apply rotated_wave; [rewrite Ls; assert (A := Laws.pow2_pos (K - k)); lia|exact Hr].
Qed.
Print Assumptions C43_rotated_tables.

(** ** C42: a mirrored waveform played backward is the waveform played forward.  Two histories
    related by turning the phase axis over (p becomes s - p, steps change sign, forward
    blocks become bidirectional ones), on tables whose audible entries are mirrored, return
    the same samples. *)
Theorem C42_mirror : forall src cfg F s K M q ops ops' st ys st' ys',
  (1 <= batch cfg)%nat -> exactFilter F -> (1 <= M)%Z ->
  movedOps src (dbg cfg) true s K M q ops ops' ->
  plays src (dbg cfg) F None ops st ys -> plays src (dbg cfg) F None ops' st' ys' ->
  outputs RNum (Osc.run RNum src cfg F (osc_new RNum F) ops') =
  outputs RNum (Osc.run RNum src cfg F (osc_new RNum F) ops) /\
  outputs RNum (Osc.run RNum src cfg F (osc_new RNum F) ops) = Ok ys.
Proof.
  intros src cfg F s K M q ops ops' st ys st' ys' HB HF HM Hm P P'.
  rewrite (plays_outputs _ _ _ _ _ _ HB HF P), (plays_outputs _ _ _ _ _ _ HB HF P').
  rewrite (twin_plays src (dbg cfg) F HF true s K M HM ops ops' q Hm None None st st' ys ys' I P P').
  split; reflexivity.
Qed.
Print Assumptions C42_mirror.

Theorem C42_mirrored_tables : forall src dbg K M wfs wfs' nw sr fade w w' h,
  wellFormed RNum wfs nw K -> wellFormed RNum wfs' nw K -> 0 < sr -> 1 <= fade * sr < IZR int_max ->
  wt_build RNum src dbg wfs nw sr fade = Ok (Some w) -> wt_build RNum src dbg wfs' nw sr fade = Ok (Some w') ->
  (forall i k, (0 <= i < nw)%Z -> (0 <= k <= M)%Z -> (k <= K - 2)%Z ->
     exists hk, (h = hk * 2 ^ k)%Z /\
     mirrored hk (mipmap RNum src (waveform RNum wfs (2 ^ K) i) k) (mipmap RNum src (waveform RNum wfs' (2 ^ K) i) k)) ->
  movedTables src dbg true (IZR h / IZR (2 ^ K)) K M w w'.
Proof.
  intros src dbg K M wfs wfs' nw sr fade w w' h HW HW' Hs Hf Hb Hb' Hrot.
  exists wfs, wfs', nw, sr, fade. do 6 (split; [assumption|]). intros i k t Hi Hk Hk2.
  assert (HT := t_build src dbg wfs nw sr fade w Hs Hf Hb).
  destruct (table_ok src dbg _ _ _ _ HW HT) as (Ct & _).
  destruct (slot_of RNum src _ _ _ _ i k Ct ltac:(lia) ltac:(lia)) as (_ & _ & _ & Ls & _).
  destruct (Hrot i k Hi Hk Hk2) as (hk & Eh & Hr). cbn [sg].
  assert (HKp := IZR_pow2_pos (K - k) ltac:(lia)). assert (Hkp := IZR_pow2_pos k ltac:(lia)).
  assert (E : IZR h / IZR (2 ^ K) = IZR hk / IZR (2 ^ (K - k))).
  { rewrite Eh, mult_IZR. replace K with (K - k + k)%Z at 1 by lia. rewrite Z.pow_add_r, mult_IZR by lia.
    field. split; lra. }
  rewrite E. set (ya := mipmap RNum src (waveform RNum wfs (2 ^ K) i) k) in *.
  change (T RNum) with R in *. rewrite <- Ls. apply mirrored_wave; [rewrite Ls; assert (A := Laws.pow2_pos (K - k)); lia|exact Hr].
Qed.
Print Assumptions C42_mirrored_tables.

(** ** Concrete cases *)
Lemma moved_is turn s p x k : sg turn * p + s = x + IZR k -> 0 <= x < 1 -> moved turn s p = x.
Proof.
  intros E H. unfold moved. rewrite E.
  replace (Zfloor (x + IZR k)) with k; [ring|]. symmetry. apply Zfloor_imp. rewrite plus_IZR. lra.
Qed.
Lemma rotated_is h ys ys' : (1 <= zlen ys)%Z -> zlen ys' = zlen ys ->
  (forall j, (0 <= j < zlen ys)%Z -> cyc ys' (j + h) = cyc ys j) -> rotated h ys ys'.
Proof.
  intros Hl El H. split; [exact El|]. intros j. assert (Hl' : (1 <= zlen ys')%Z) by lia.
  rewrite <- (cyc_mod ys Hl j), <- (H (j mod zlen ys)%Z) by (apply Z.mod_pos_bound; lia).
  rewrite <- (cyc_mod ys' Hl' (j + h)), <- (cyc_mod ys' Hl' (j mod zlen ys + h)), El.
  f_equal. rewrite Z.add_mod_idemp_l by lia. reflexivity.
Qed.
Lemma mirrored_is h ys ys' : (1 <= zlen ys)%Z -> zlen ys' = zlen ys ->
  (forall j, (0 <= j < zlen ys)%Z -> cyc ys' (h - j) = cyc ys j) -> mirrored h ys ys'.
Proof.
  intros Hl El H. split; [exact El|]. intros j. assert (Hl' : (1 <= zlen ys')%Z) by lia.
  rewrite <- (cyc_mod ys Hl j), <- (H (j mod zlen ys)%Z) by (apply Z.mod_pos_bound; lia).
  rewrite <- (cyc_mod ys' Hl' (h - j)), <- (cyc_mod ys' Hl' (h - j mod zlen ys)), El.
  f_equal. rewrite Zminus_mod_idemp_r. reflexivity.
Qed.

Definition waveA : list R := [0; 1; 3; 2; 5; 1; 4; 7].
(** rotated by two samples, and mirrored around sample 0 *)
Definition waveR : list R := [4; 7; 0; 1; 3; 2; 5; 1].
Definition waveM : list R := [0; 7; 4; 1; 5; 2; 3; 1].

Lemma built8 dbg (wfs : list R) : length wfs = 8%nat -> wellFormed RNum wfs 1 3 /\
  exists w, wt_build RNum (demo_src RNum) dbg wfs 1 1 1 = Ok (Some w).
Proof.
  intros H. assert (E : zlen wfs = (1 * 2 ^ 3)%Z) by (unfold zlen; rewrite H; reflexivity).
  assert (HW : wellFormed RNum wfs 1 3) by (split; [lia|]; split; [lia|]; split; [exact E|unfold int_max; lia]).
  split; [exact HW|]. destruct HW as (H1 & H2 & H3 & H4).
  destruct (wt_build_ok RNum (demo_src RNum) dbg LR wfs 1 1 1 3 1) as (w & Ew & _);
    [lia|lia|exact H3|unfold int_max; lia|unfold t0; cbn; apply Rle_bool_false; lra|exact demo_cast|exact demo_resampler|].
  now exists w.
Qed.
Ltac eight j := match goal with H : (0 <= j < ?n)%Z |- _ =>
  change n with 8%Z in H || change n with 4%Z in H;
  assert (j = 0 \/ j = 1 \/ j = 2 \/ j = 3 \/ j = 4 \/ j = 5 \/ j = 6 \/ j = 7)%Z as C by lia;
  repeat (destruct C as [-> | C]); [..|rewrite C in *]; try reflexivity; lia end.

Ltac steps := cbn [stepsOf last]; unfold stepBetween, t0, t1, tfrac; cbn [tsub tadd tlt tofZ tdiv RNum].
Ltac rcase := match goal with
  | |- context [Rlt_bool ?a ?b] =>
      first [rewrite (Rlt_bool_true a b) by lra | rewrite (Rlt_bool_false a b) by lra] end.
Ltac listeq := repeat (apply (f_equal2 (@cons R)); [field|]); reflexivity.
Lemma dyadic8 i : (0 <= i < 8)%Z -> sharp (IZR i / 8).
Proof. intros H. apply (sharp_dyadic 3 i); lia. Qed.
Ltac sharps := repeat (apply List.Forall_cons; [apply dyadic8; lia|]); constructor.
Ltac ent := split; [lia|]; split; (solve [left; reflexivity | right; cbn; lra]).
Lemma some_inj {A} (a b : A) : Some a = Some b -> a = b.
Proof. congruence. Qed.
Ltac some := repeat match goal with H : Some _ = Some _ |- _ => apply some_inj in H; subst end; try lia.

Lemma fade1 : 1 <= 1 * 1 < IZR int_max.
Proof. split; [lra|]. rewrite Rmult_1_l. apply IZR_lt. reflexivity. Qed.

(** a forward history through a rise and a drop on the waveform, and the same on the rotated
    waveform from phase 1/4: where one wraps around the other does not *)
Example ex_rotation : forall dbg, exists w w' st ys st' ys',
  let ops := [OpInit RNum (Some w) (0/8) (1/8); OpProcess RNum kForward [1/8; 2/8; 5/8; 7/8; 1/8; 2/8]] in
  let ops' := [OpInit RNum (Some w') (2/8) (1 * (1/8)); OpProcess RNum kForward [3/8; 4/8; 7/8; 1/8; 3/8; 4/8]] in
  wt_build RNum (demo_src RNum) dbg waveA 1 1 1 = Ok (Some w) /\
  wt_build RNum (demo_src RNum) dbg waveR 1 1 1 = Ok (Some w') /\
  movedOps (demo_src RNum) dbg false (IZR 2 / IZR (2 ^ 3)) 3 1 0 ops ops' /\
  plays (demo_src RNum) dbg (filt RNum kType2) None ops st ys /\
  plays (demo_src RNum) dbg (filt RNum kType2) None ops' st' ys' /\ length ys = 6%nat.
Proof.
  intros dbg. destruct (built8 dbg waveA eq_refl) as (HW & w & Ew). destruct (built8 dbg waveR eq_refl) as (HW' & w' & Ew').
  assert (G : forall wfs w p ps, wellFormed RNum wfs 1 3 -> wt_build RNum (demo_src RNum) dbg wfs 1 1 1 = Ok (Some w) ->
     sharp p -> List.Forall sharp ps -> stepsOf kForward p ps = [1/8; 1/8; 3/8; 2/8; 2/8; 1/8] ->
     exists st ys, plays (demo_src RNum) dbg (filt RNum kType2) None
       [OpInit RNum (Some w) p (1/8); OpProcess RNum kForward ps] (Some st) ys).
  { clear. intros wfs w p ps HW Ew Hp Hps Es.
    destruct (readme_plays (demo_src RNum) dbg (filt RNum kType2) wfs 1 3 w 1 1 1 p (1/8) 0
      ps [0; 1; 1; 1; 0]%Z) as (st & ys & H); auto; try lra; try exact fade1; try exact demo_cast.
    - ent.
    - rewrite Es. repeat constructor; lra.
    - rewrite Es. cbn [Z.to_nat Pos.to_nat Pos.iter_op repeat app]. repeat (apply Forall2_cons; [ent|]); constructor.
    - split.
      + intros i a b H1 H2. destruct i as [|[|[|[|[|[|i]]]]]]; cbn in H1, H2; try discriminate; some.
      + intros i j a b c e Hij H1 H2 Hab H3 H4 Hce.
        assert (j < 5)%nat by (destruct (Nat.lt_ge_cases j 5); [assumption|]; do 5 (destruct j as [|j]; [lia|]); cbn in H4; destruct j; discriminate).
        destruct i as [|[|[|[|[|i]]]]]; [| | | | |lia]; cbn in H1, H2; some; try congruence;
        destruct j as [|[|[|[|[|j]]]]]; try lia; cbn in H3, H4; some; congruence.
    - now exists st, ys. }
  destruct (G waveA w (0/8) [1/8; 2/8; 5/8; 7/8; 1/8; 2/8] HW Ew) as (st & ys & H); [apply (dyadic8 0); lia|sharps|steps; repeat rcase; listeq|].
  destruct (G waveR w' (2/8) [3/8; 4/8; 7/8; 1/8; 3/8; 4/8] HW' Ew') as (st' & ys' & H'); [apply (dyadic8 2); lia|sharps|steps; repeat rcase; listeq|].
  exists w, w', (Some st), ys, (Some st'), ys'. cbv zeta. split; [exact Ew|]. split; [exact Ew'|].
  assert (Hl := plays_length _ _ _ _ _ _ _ H).
  split; [|split; [exact H|split; [rewrite Rmult_1_l; exact H'|rewrite Hl; reflexivity]]].
  assert (Ms : forall p x k, p + 2/8 = x + IZR k -> 0 <= x < 1 -> x = moved false (IZR 2 / IZR (2 ^ 3)) p).
  { intros p x k E Hx. symmetry. apply (moved_is _ _ _ _ k); [|exact Hx]. cbn [sg]. change (2 ^ 3)%Z with 8%Z. lra. }
  replace (OpInit RNum (Some w') (2/8) (1 * (1/8))) with (OpInit RNum (Some w') (moved false (IZR 2 / IZR (2 ^ 3)) (0/8)) (sg false * (1/8)))
    by (f_equal; symmetry; apply (Ms _ _ 0%Z); lra).
  apply mo_init; [|right; lia|].
  - eapply C43_rotated_tables with (1 := HW) (2 := HW') (5 := Ew) (6 := Ew'); [lra|exact fade1|].
    intros i k Hi Hk Hk2. assert (i = 0%Z) by lia. subst i. assert (k = 0 \/ k = 1)%Z as [-> | ->] by lia.
    + exists 2%Z. split; [reflexivity|]. apply rotated_is; [apply Z.leb_le; reflexivity|reflexivity|]. intros j Hj. eight j.
    + exists 1%Z. split; [reflexivity|]. apply rotated_is; [apply Z.leb_le; reflexivity|reflexivity|]. intros j Hj. eight j.
  - replace [3/8; 4/8; 7/8; 1/8; 3/8; 4/8] with (List.map (moved false (IZR 2 / IZR (2 ^ 3))) [1/8; 2/8; 5/8; 7/8; 1/8; 2/8]).
    + apply mo_process; [reflexivity| |left; reflexivity|constructor].
      apply List.Forall_forall. intros d _. right. lia.
    + cbn [List.map]. repeat (apply (f_equal2 (@cons R)); [symmetry; (apply (Ms _ _ 0%Z); lra) || (apply (Ms _ _ 1%Z); lra)|]). reflexivity.
Qed.

(** a settled oscillator going forward, then back and forth, and its mirror image *)
Example ex_mirror : forall dbg, exists w w' st ys st' ys',
  let ops := [OpInit RNum (Some w) (0/8) (1/8); OpProcess RNum kForward [1/8; 2/8; 3/8];
              OpProcess RNum kBidirectionnal [2/8; 1/8; 0/8; 7/8]] in
  let ops' := [OpInit RNum (Some w') (0/8) (-1 * (1/8)); OpProcess RNum kBidirectionnal [7/8; 6/8; 5/8];
              OpProcess RNum kBidirectionnal [6/8; 7/8; 0/8; 1/8]] in
  wt_build RNum (demo_src RNum) dbg waveA 1 1 1 = Ok (Some w) /\
  wt_build RNum (demo_src RNum) dbg waveM 1 1 1 = Ok (Some w') /\
  movedOps (demo_src RNum) dbg true (IZR 0 / IZR (2 ^ 3)) 3 1 0 ops ops' /\
  plays (demo_src RNum) dbg (filt RNum kType2) None ops st ys /\
  plays (demo_src RNum) dbg (filt RNum kType2) None ops' st' ys' /\ length ys = 7%nat.
Proof.
  intros dbg. destruct (built8 dbg waveA eq_refl) as (HW & w & Ew). destruct (built8 dbg waveM eq_refl) as (HW' & w' & Ew').
  assert (G : forall wfs w p d dir ps ps2, wellFormed RNum wfs 1 3 -> wt_build RNum (demo_src RNum) dbg wfs 1 1 1 = Ok (Some w) ->
     sharp p -> Rabs d = 1/8 -> List.Forall sharp ps -> List.Forall sharp ps2 ->
     List.Forall (fun s => Rabs s = 1/8) (stepsOf dir p ps) ->
     List.Forall (fun s => Rabs s = 1/8) (stepsOf kBidirectionnal (last ps p) ps2) ->
     exists st ys, plays (demo_src RNum) dbg (filt RNum kType2) None
       [OpInit RNum (Some w) p d; OpProcess RNum dir ps; OpProcess RNum kBidirectionnal ps2] (Some st) ys).
  { clear. intros wfs w p d dir ps ps2 HW Ew Hp Hd Hps Hps2 H1 H2.
    destruct (built_state (demo_src RNum) dbg wfs 3 w 1 1 HW ltac:(lia) ltac:(lra) ltac:(lra) Ew) as (HT & En & Es).
    assert (He : entryFor 3 (1/8) 0) by ent.
    destruct (find_R (demo_src RNum) dbg wfs 1 3 w (1/8) 0 HW HT ltac:(lra) He) as (w1 & Ef & Es1 & _ & HT1 & _).
    rewrite Es in Ef, Es1. cbn [outS cfStep Z.eqb andb] in Ef, Es1.
    assert (G : forall dir0 (st : Ideal) (ps : list R), wellFormed RNum (id_wfs st) (id_nw st) (id_K st) ->
       table (demo_src RNum) dbg (id_wfs st) (id_nw st) (id_tab st) -> id_K st = 3%Z ->
       cfState RNum (wt_cf (id_tab st)) = (0, 0, 0)%Z -> id_entry st = 0%Z -> id_step st <> 0 ->
       List.Forall sharp ps -> List.Forall (fun s => Rabs s = 1/8) (stepsOf dir0 (id_phase st) ps) ->
       exists st' ys, block (demo_src RNum) dbg (filt RNum kType2) dir0 st ps st' ys /\
        wellFormed RNum (id_wfs st') (id_nw st') (id_K st') /\
        table (demo_src RNum) dbg (id_wfs st') (id_nw st') (id_tab st') /\ id_K st' = 3%Z /\
        cfState RNum (wt_cf (id_tab st')) = (0, 0, 0)%Z /\ id_entry st' = 0%Z /\ id_step st' <> 0 /\
        id_phase st' = last ps (id_phase st)).
    { clear -He. intros dir st ps. revert st. induction ps as [|p ps IH]; intros st HW HT HK Es Ee Hd0 Hps H1.
      - exists st, []. split; [constructor|]. auto 10.
      - cbn [stepsOf] in H1. inversion_clear H1 as [|? ? Hda Hdb]. inversion_clear Hps as [|? ? Ha Hb].
        set (d := stepBetween RNum dir (id_phase st) p) in *. change (T RNum) with R in *.
        assert (Hdn : d <> 0) by (intros N; rewrite N, Rabs_R0 in Hda; lra).
        assert (Hdr : - / 2 <= d <= / 2) by (apply Rabs_le_between; lra).
        assert (He3 : entryFor (id_K st) (1/8) 0) by (rewrite HK; exact He).
        destruct (find_R (demo_src RNum) dbg _ _ _ _ (1/8) 0 HW HT ltac:(lra) He3) as (w1 & Ef & Es1 & _ & HT1 & _).
        rewrite Es in Ef, Es1. cbn [outS cfStep Z.eqb andb] in Ef, Es1.
        assert (S := sample_ (demo_src RNum) dbg (filt RNum kType2) dir st p d w1 0 1 (0 + 1) 0 _ Ha eq_refl Hdn Hdr
           ltac:(rewrite Hda; exact Ef) ltac:(unfold traceable; rewrite Ee; destruct (Rtotal_order (id_step st) 0) as [N|[N|N]];
             [right; split; [exact N|left; reflexivity]|contradiction|left; split; [exact N|lia]]) eq_refl).
        match type of S with sample _ _ _ _ _ _ ?s1 ?y => destruct (IH s1) as (st' & ys & B & R); auto;
          exists st', (y :: ys) end.
        split; [econstructor; [exact S|exact B]|].
        destruct R as (R1 & R2 & R3 & R4 & R5 & R6 & R7). do 6 (split; [assumption|]).
        rewrite R7. cbn [id_phase]. destruct ps as [|p2 ps]; [reflexivity|].
        cbn [last]. clear. revert p2; induction ps as [|p3 ps IH]; intros; [reflexivity|]. cbn [last] in *. apply IH. }
    set (st0 := mkIdeal 3 1 wfs w1 0 p d 0 (repeat (RtoC 0) (length (f_r (filt RNum kType2))))).
    assert (Hd0 : d <> 0) by (intros N; rewrite N, Rabs_R0 in Hd; lra).
    destruct (G dir st0 ps) as (st1 & y1 & B1 & A1 & A2 & A3 & A4 & A5 & A6 & A7); auto.
    destruct (G kBidirectionnal st1 ps2) as (st2 & y2 & B2 & _); auto.
    { rewrite A7. exact H2. }
    exists st2, (y1 ++ y2 ++ []). eapply pl_load; [left; reflexivity|exact HW|exact HT| |].
    - apply (fresh_ dbg (filt RNum kType2) 3 1 wfs w 0 p d w1 0 1 (0 + 1) 0); [exact Hp|exact Hd0|]. rewrite Hd. exact Ef.
    - eapply pl_process; [exact B1|]. eapply pl_process; [exact B2|]. constructor. }
  assert (Ea : Rabs (1/8) = 1/8) by (apply Rabs_pos_eq; lra).
  assert (Eb : Rabs (-(1/8)) = 1/8) by (rewrite Rabs_Ropp; exact Ea).
  assert (Fa : forall l : list R, List.Forall (fun x => x = 1/8 \/ x = -(1/8)) l -> List.Forall (fun s => Rabs s = 1/8) l).
  { intros l. apply List.Forall_impl. intros x [-> | ->]; assumption. }
  destruct (G waveA w (0/8) (1/8) kForward [1/8; 2/8; 3/8] [2/8; 1/8; 0/8; 7/8] HW Ew) as (st & ys & H);
    [apply (dyadic8 0); lia|exact Ea|sharps|sharps|apply Fa; steps; repeat rcase; repeat (constructor; [lra|]); constructor|
     apply Fa; steps; repeat rcase; repeat (constructor; [lra|]); constructor|].
  destruct (G waveM w' (0/8) (-1 * (1/8)) kBidirectionnal [7/8; 6/8; 5/8] [6/8; 7/8; 0/8; 1/8] HW' Ew') as (st' & ys' & H');
    [apply (dyadic8 0); lia|replace (-1 * (1/8)) with (-(1/8)) by ring; exact Eb|sharps|sharps|apply Fa; steps; repeat rcase; repeat (constructor; [lra|]); constructor|
     apply Fa; steps; repeat rcase; repeat (constructor; [lra|]); constructor|].
  exists w, w', (Some st), ys, (Some st'), ys'. cbv zeta. split; [exact Ew|]. split; [exact Ew'|].
  assert (Hl := plays_length _ _ _ _ _ _ _ H).
  split; [|split; [exact H|split; [exact H'|rewrite Hl; reflexivity]]].
  assert (Ms : forall p x k, - p = x + IZR k -> 0 <= x < 1 -> x = moved true (IZR 0 / IZR (2 ^ 3)) p).
  { intros p x k E Hx. symmetry. apply (moved_is _ _ _ _ k); [|exact Hx]. cbn [sg]. change (2 ^ 3)%Z with 8%Z. lra. }
  replace (OpInit RNum (Some w') (0/8) (-1 * (1/8))) with (OpInit RNum (Some w') (moved true (IZR 0 / IZR (2 ^ 3)) (0/8)) (sg true * (1/8)))
    by (f_equal; symmetry; apply (Ms _ _ 0%Z); lra).
  apply mo_init; [|right; lia|].
  - eapply C42_mirrored_tables with (1 := HW) (2 := HW') (5 := Ew) (6 := Ew'); [lra|exact fade1|].
    intros i k Hi Hk Hk2. assert (i = 0%Z) by lia. subst i. assert (k = 0 \/ k = 1)%Z as [-> | ->] by lia.
    + exists 0%Z. split; [reflexivity|]. apply mirrored_is; [apply Z.leb_le; reflexivity|reflexivity|]. intros j Hj. eight j.
    + exists 0%Z. split; [reflexivity|]. apply mirrored_is; [apply Z.leb_le; reflexivity|reflexivity|]. intros j Hj. eight j.
  - assert (Hne : forall l : list R, List.Forall (fun s => Rabs s = 1/8) l -> List.Forall (fun s => Rabs s <> /2) l).
    { intros l. apply List.Forall_impl. intros x ->. lra. }
    replace [7/8; 6/8; 5/8] with (List.map (moved true (IZR 0 / IZR (2 ^ 3))) [1/8; 2/8; 3/8]).
    2:{ cbn [List.map]. repeat (apply (f_equal2 (@cons R)); [symmetry; (apply (Ms _ _ 0%Z); lra) || (apply (Ms _ _ (-1)%Z); lra)|]). reflexivity. }
    replace [6/8; 7/8; 0/8; 1/8] with (List.map (moved true (IZR 0 / IZR (2 ^ 3))) [2/8; 1/8; 0/8; 7/8]).
    2:{ cbn [List.map]. repeat (apply (f_equal2 (@cons R)); [symmetry; (apply (Ms _ _ 0%Z); lra) || (apply (Ms _ _ (-1)%Z); lra)|]). reflexivity. }
    apply mo_process; [reflexivity|apply List.Forall_forall; intros d _; right; lia| |].
    + right. apply Hne, Fa. steps; repeat rcase; repeat (constructor; [lra|]); constructor.
    + apply mo_process; [reflexivity|apply List.Forall_forall; intros d _; right; lia| |constructor].
      right. apply Hne, Fa. steps; repeat rcase; repeat (constructor; [lra|]); constructor.
Qed.
