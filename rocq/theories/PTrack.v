(** * PTrack: the binary32 oscillator follows the ideal of SpecR *)
From Coq Require Import ZArith List Bool Reals Lia Lra Arith.
From Flocq Require Import Core IEEE754.BinarySingleNaN.
From Verif Require Import Num Maths CrossFader Wavetable Filters Osc Spec SpecC SpecT NumFacts Laws CFFacts
  WTFacts BuildFacts SimdFacts OscFacts OscStep OscRun OscHist CFHist PTables PRebuild RNum RLaws B32 B32Facts B32Laws
  SpecF SpecO SpecW PCross PHist PWork.
From Coquelicot Require Import Coquelicot.
From Verif Require Import SpecE SpecR ExactMath ExactStep ExactRun ExactSig ExactMove PExact PApx PSlope PTerm PVal PFwd PCoef PPole PSum.
Import ListNotations.
Local Open Scope R_scope.

Lemma decay_le a : 0 < a -> decay a <= 1.
Proof.
  intros Ha. unfold decay. apply Rmult_le_reg_r with a; [exact Ha|].
  unfold Rdiv. rewrite Rmult_assoc, Rinv_l, Rmult_1_r, Rmult_1_l by lra. assert (X := exp_ineq1_le (- a)). lra.
Qed.

Lemma response_small z x B : fst z < 0 -> 0 <= B -> (forall u, continuous x u) ->
  (forall u, 0 <= u <= 1 -> Rabs (x u) <= B) -> Cmod (response z x) <= B.
Proof.
  intros Hz HB Hc Hx. eapply Rle_trans; [apply (response_bound z x B Hz Hc Hx)|].
  rewrite <- (Rmult_1_l B) at 2. apply Rmult_le_compat_r; [exact HB|]. apply decay_le. lra.
Qed.

Lemma S_range c : (-64 <= c <= 64)%Z -> / 1000000000000000000000 <= bpow radix2 c <= 1000000000000000000000.
Proof.
  intros Hc. assert (A : bpow radix2 (-64) <= bpow radix2 c <= bpow radix2 64) by (split; apply bpow_le; lia).
  assert (B1 : bpow radix2 64 = 18446744073709551616) by reflexivity.
  assert (B2 : bpow radix2 (-64) = / 18446744073709551616) by reflexivity.
  rewrite B1, B2 in A. split; [|lra]. eapply Rle_trans; [|apply A]. apply Rinv_le; lra.
Qed.

Section Poles.
Variable lm : Libm.
Hypothesis Hex : expAccurate lm.
Hypothesis Hlog : log2_exact lm.
Variable cfg : Cfg.
Hypothesis HB : (1 <= batch cfg)%nat.
Variable f : FilterType.
Notation N := (B32 lm).
Notation F := (filt N f).
Notation FR := (filt RNum f).
Notation n := (numCoeffs f).

Lemma shape32 : filtOk N F.
Proof. destruct f; constructor; reflexivity. Qed.
Lemma kn : kNumCoeffs N F = n. Proof. destruct f; reflexivity. Qed.
Lemma knR : kNumCoeffs RNum FR = n. Proof. destruct f; reflexivity. Qed.

Lemma zp2_at x : (x < n)%nat -> nth x (f_zp2 F) (c0 N) = cmul N 50 (nth x (f_z F) (c0 N)) (nth x (f_z F) (c0 N)).
Proof.
  intros Hx. destruct (poles_len f) as (_ & L2 & _).
  destruct (nth_error (zLit f) x) as [zc|] eqn:E2; [|apply nth_error_None in E2; lia].
  unfold filt. cbn [f_z f_zp2]. unfold zPow2, zCoeffs. rewrite List.map_map.
  rewrite !(nth_map_some _ _ _ _ _ _ _ E2). reflexivity.
Qed.

Lemma poleAt x : (x < n)%nat -> exists zl zh ρ r2 m e b, nth_error (poleErr f) x = Some (m, e, b) /\
  poleOk (zAt N cfg F x) (nth x (f_r F) (c0 N)) (ezAt N cfg F x) (zAt RNum cfg FR x) (nth x (f_r FR) (c0 RNum)) zl zh ρ r2 /\
  errOk zl zh ρ r2 m e b /\ nth x (f_zp2 F) (c0 N) = cmul N 50 (zAt N cfg F x) (zAt N cfg F x) /\
  nth x (f_ez F) (c0 N) = ezAt N cfg F x.
Proof.
  intros Hx. destruct (pole_at lm Hex f x Hx) as (zl & zh & rho & r2 & E & P).
  destruct (err_at f x zl zh rho r2 E) as (m & e & b & E1 & E2).
  rewrite (zAt_F N cfg F HB shape32) by (rewrite kn; exact Hx). rewrite (ezAt_F N cfg F HB shape32) by (rewrite kn; exact Hx).
  rewrite (zAt_F RNum cfg FR HB (HFk FR (shipped_exact f))) by (rewrite knR; exact Hx).
  do 7 eexists. split; [exact E1|]. split; [exact P|]. split; [exact E2|]. split; [now apply zp2_at|reflexivity].
Qed.

Section One.
Variable x : nat.
Hypothesis Hx : (x < n)%nat.
Variable c : BinInt.Z.
Hypothesis Hc : (-64 <= c <= 64)%Z.
Notation S := (bpow radix2 c).
Notation u := (eps * S).
Notation zN := (zAt N cfg F x : f32 * f32).
Notation Z := (zAt RNum cfg FR x : C).
Notation ζ := (Cmod Z).

Lemma zctx : ezAt RNum cfg FR x = cexp Z /\ 2.6 <= ζ <= 4.52 /\ cnear zN Z (1.2 * eps * ζ) /\ v32 (fst zN) <= 0 /\ fst Z < 0 /\
  cnear (ezAt N cfg F x) (cexp Z) (6.1 * eps + 0.92 * eps * ζ) /\ Cmod (cexp Z) <= 0.75.
Proof.
  destruct (poleAt x Hx) as (zl & zh & ρ & r2 & m & e & b & _ & P & _).
  destruct (zAt_nz cfg FR HB (shipped_exact f) x ltac:(rewrite knR; exact Hx)) as (_ & Zez & _).
  assert (R1 := po_rho _ _ _ _ _ _ _ _ _ P). assert (R2 := po_rho1 _ _ _ _ _ _ _ _ _ P).
  assert (NZ := po_nz _ _ _ _ _ _ _ _ _ P).
  assert (Z1 : 2.6 <= ζ <= 4.52) by (destruct P; lra).
  split; [exact Zez|]. split; [exact Z1|]. split; [|split; [|split; [|split; [|lra]]]].
  - eapply cnear_le; [exact NZ|]. unfold eps. lra.
  - rewrite cexp_mod in R1. assert (E := exp_ineq1_le (fst Z)).
    destruct NZ as [_ D]. assert (D1 := cmod_fst (cv zN - Z)%C). change (fst (cv zN - Z)%C) with (v32 (fst zN) - fst Z) in D1.
    assert (D2 := Rle_abs (v32 (fst zN) - fst Z)). unfold eps in *. lra.
  - apply (po_neg _ _ _ _ _ _ _ _ _ P).
  - apply (po_ne _ _ _ _ _ _ _ _ _ P).
Qed.

Lemma disp_unique (q p d d' : R) k k' : q + d = p + IZR k -> q + d' = p + IZR k' -> Rabs d < / 2 -> Rabs d' < / 2 -> d = d'.
Proof.
  intros E1 E2 H1 H2. apply Rabs_def2 in H1, H2.
  assert (D : d - d' = IZR (k - k')) by (rewrite minus_IZR; lra).
  assert (k - k' = 0)%Z; [|rewrite H in D; lra].
  assert (-1 < IZR (k - k') < 1) by lra.
  assert (-1 < k - k' < 1)%Z; [|lia]. split; apply lt_IZR; lra.
Qed.

Lemma int_small (sig : R -> R) I B : is_int Z sig 0 1 I -> 0 <= B -> (forall u, continuous sig u) ->
  (forall u, 0 <= u <= 1 -> Rabs (sig u) <= B) -> Cmod I <= B.
Proof.
  intros HI HB0 Hcn Hb. rewrite <- (response_int _ _ _ HI). destruct zctx as (_ & _ & _ & _ & Hn & _).
  now apply response_small.
Qed.

Section Ent.
Variables (K : BinInt.Z) (ys : list (T N)) (s : Slot N).
Hypothesis HK : (2 <= K <= 18)%Z.
Hypothesis Ly : zlen ys = (2 ^ K)%Z.
Hypothesis HS : slotOf ys s.
Hypothesis Ht : tame c ys.
Notation ysR := (List.map v32 ys).
Notation len := (2 ^ K)%Z.

Lemma tame_y : forall y : f32, In y ys -> fin32 y = true /\ Rabs (v32 y) <= S.
Proof. apply Ht. Qed.
Lemma tame_d : forall j, Rabs (cyc ysR (j + 1) - cyc ysR j) * IZR (2 ^ K) <= S.
Proof. intros j. rewrite <- Ly. apply Ht. Qed.

Lemma wave_small t : Rabs (wave ysR t) <= S.
Proof.
  apply wave_bound.
  - assert (E : zlen ysR = (2 ^ K)%Z) by (etransitivity; [unfold zlen; apply f_equal; apply map_length|exact Ly]).
    rewrite E. apply Z.pow_pos_nonneg; lia.
  - intros y Hy. apply in_map_iff in Hy. destruct Hy as (y0 & <- & H0). apply tame_y. exact H0.
Qed.

Lemma one_int (q d : R) I : is_int Z (fun u => wave ysR (q + d * u)) 0 1 I -> Cmod I <= S.
Proof.
  intros HI. apply (int_small _ _ _ HI).
  - apply bpow_ge_0.
  - intros u. apply wave_path_cont.
  - intros u _. apply wave_small.
Qed.

Lemma fwd_one dir (q p : f32) jmin jmax d k : plainPhase q -> plainPhase p ->
  let pd := step32 lm dir q p in
  0 < v32 pd < / 2 -> (0 <= jmin < len)%Z ->
  (if Req_bool (v32 q) 0 then jmin = (len - 1)%Z else IZR jmin <= v32 q * IZR len <= IZR jmin + 1) ->
  jmax = Zfloor (v32 p * IZR len) -> (loopLen len jmin jmax <= 4)%Z ->
  v32 q + d = v32 p + IZR k -> Rabs d < / 2 ->
  exists I, is_int Z (fun u => wave ysR (v32 q + d * u)) 0 1 I /\
    cnear (fwdVal N cfg F s len q pd p jmin jmax x) (Z * Z * I)%C (errI ζ c) /\ Cmod I <= S.
Proof.
  intros Hq Hp pd H1 H2 H3 H4 H5 H6 H7. destruct zctx as (C1 & C2 & C3 & C4 & C5 & C6 & C7).
  destruct (fwd_near lm Hex Hlog cfg F FR HB x ζ C1 (Rle_refl _) ltac:(lra) C3 C4 ltac:(lra) C6 C7 c K ys s Hc HK Ly HS tame_y tame_d
     dir q p jmin jmax Hq Hp H1 H2 H3 H4 H5) as (d' & k' & I & E & Hd & HI & Hn & _).
  apply proj1 in Hq, Hp.
  assert (d' = d) by (apply (disp_unique (v32 q) (v32 p) d' d k' k); auto; rewrite Rabs_pos_eq; lra). subst d'.
  exists I. split; [exact HI|]. split; [exact Hn|]. now apply one_int in HI.
Qed.

Lemma bwd_one dir (q p : f32) jm jmin jmax d k : plainPhase q -> plainPhase p ->
  let pd := step32 lm dir q p in
  - / 2 < v32 pd < 0 ->
  (0 <= jmax < len)%Z -> IZR jmax <= v32 q * IZR len <= IZR jmax + 1 ->
  (0 <= jmin < len)%Z ->
  (if Req_bool (v32 p) 0 then jmin = (len - 1)%Z else IZR jmin <= v32 p * IZR len <= IZR jmin + 1) ->
  ((jm =? 0)%Z = Req_bool (v32 p) 0) -> (loopLen len jmin jmax <= 4)%Z ->
  v32 q + d = v32 p + IZR k -> Rabs d < / 2 ->
  exists I, is_int Z (fun u => wave ysR (v32 q + d * u)) 0 1 I /\
    cnear (bwdVal N cfg F s len q pd p jm jmin jmax x) (Z * Z * I)%C (errI ζ c) /\ Cmod I <= S.
Proof.
  intros Hq Hp pd H1 H2 H3 H4 H5 H5' H5'' H6 H7. destruct zctx as (C1 & C2 & C3 & C4 & C5 & C6 & C7).
  destruct (bwd_near lm Hex Hlog cfg F FR HB x ζ C1 (Rle_refl _) ltac:(lra) C3 C4 ltac:(lra) C6 C7 c K ys s Hc HK Ly HS tame_y tame_d
     dir q p jm jmin jmax Hq Hp H1 H2 H3 H4 H5 H5' H5'') as (d' & k' & I & E & Hd & HI & Hn & _).
  apply proj1 in Hq, Hp.
  assert (d' = d) by (apply (disp_unique (v32 q) (v32 p) d' d k' k); auto; rewrite Rabs_left; lra). subst d'.
  exists I. split; [exact HI|]. split; [exact Hn|]. now apply one_int in HI.
Qed.
End Ent.

(** mixing two entries *)
Lemma single_near (a : f32 * f32) (I : C) m : cnear a (Z * Z * I)%C (errI ζ c) -> Cmod I <= S ->
  1.0001 * (117.8 + 184 * ζ + 0.93 * (ζ * ζ)) + 2.1 * (ζ * ζ) <= m * (ζ * ζ) ->
  cnear a (Z * Z * I)%C (m * (ζ * ζ * u)) /\ Cmod I <= 1.0001 * S.
Proof.
  intros Na HS Hm. assert (SR := S_range c Hc). assert (u0 : 0 < u) by (unfold eps; lra).
  destruct zctx as (_ & C2 & _). split; [|lra].
  eapply cnear_le; [exact Na|]. unfold errI.
  apply (Rmult_le_compat_r u) in Hm; [|lra].
  assert (0 <= ζ * ζ * u) by (apply Rmult_le_pos; nra). assert (0 <= ζ * u) by nra. lra.
Qed.

Lemma both_near (a up : f32 * f32) (I J : C) (x1 x2 : R -> R) (g gu : f32) m : convex32 g gu ->
  is_int Z x1 0 1 I -> is_int Z x2 0 1 J ->
  cnear a (Z * Z * I)%C (errI ζ c) -> cnear up (Z * Z * J)%C (errI ζ c) -> Cmod I <= S -> Cmod J <= S ->
  1.0001 * (117.8 + 184 * ζ + 0.93 * (ζ * ζ)) + 2.1 * (ζ * ζ) <= m * (ζ * ζ) ->
  exists I', is_int Z (fun u => v32 g * x1 u + v32 gu * x2 u) 0 1 I' /\
    cnear (mixVal N a up g gu) (Z * Z * I')%C (m * (ζ * ζ * u)) /\ Cmod I' <= 1.0001 * S.
Proof.
  intros Hg HI HJ Na Nu HSI HSJ Hm. assert (SR := S_range c Hc). assert (u0 : 0 < u) by (unfold eps; lra).
  destruct zctx as (_ & C2 & _).
  assert (Zq : 0 <= ζ * ζ) by nra.
  exists (RtoC (v32 g) * I + RtoC (v32 gu) * J)%C. split; [now apply is_int_lin|].
  assert (Hzz : Cmod (Z * Z)%C = ζ * ζ) by apply Cmod_mult.
  assert (M : forall W : C, Cmod W <= S -> Cmod (Z * Z * W)%C <= ζ * ζ * S).
  { intros W HW. rewrite Cmod_mult, Hzz. now apply Rmult_le_compat_l. }
  assert (E0 : 0 <= errI ζ c <= 2000 * u).
  { unfold errI. assert (0 <= ζ * u <= 4.52 * u) by (split; [apply Rmult_le_pos; lra|apply Rmult_le_compat_r; lra]).
    assert (0 <= ζ * ζ * u <= 20.5 * u) by (split; [apply Rmult_le_pos; lra|apply Rmult_le_compat_r; nra]). lra. }
  assert (G := gains_sum g gu Hg). assert (Hg' := Hg). destruct Hg' as (_ & _ & G1 & G2 & _ & _).
  change (B2R g) with (v32 g) in *. change (B2R gu) with (v32 gu) in *.
  split.
  - assert (P := mix_near lm ζ S SR C2 a up g gu _ _ (errI ζ c) Hg Na Nu E0 (M _ HSI) (M _ HSJ)).
    replace (Z * Z * (RtoC (v32 g) * I + RtoC (v32 gu) * J))%C with
      (Z * Z * I * RtoC (v32 g) + Z * Z * J * RtoC (v32 gu))%C by ring.
    eapply cnear_le; [exact P|]. unfold errI.
    apply (Rmult_le_compat_r u) in Hm; [|lra]. lra.
  - eapply Rle_trans; [apply Cmod_triangle|]. rewrite !Cmod_mult, !Cmod_R, !Rabs_pos_eq by lra.
    assert (v32 g * Cmod I <= v32 g * S) by (apply Rmult_le_compat_l; lra).
    assert (v32 gu * Cmod J <= v32 gu * S) by (apply Rmult_le_compat_l; lra).
    assert ((v32 g + v32 gu) * S <= (1 + 1.01 * eps) * S) by (apply Rmult_le_compat_r; lra).
    unfold eps in *. lra.
Qed.
End One.
End Poles.

(** ** Tables *)
Section Tables.
Variable lm : Libm.
Hypothesis Hlog : log2_exact lm.
Variable src : Resampler (B32 lm).
Variable dbg : bool.
Notation N := (B32 lm).
Notation L := (B32_Laws lm Hlog).

Lemma table32_ok K nw wfs w : table32 lm src dbg K nw wfs w ->
  wellFormed N wfs nw K /\ Contents N src K nw wfs w /\ exists n, reachable N src dbg (rate32 lm) K n w /\ (1 <= n)%Z.
Proof.
  induction 1 as [wfs sr fade n w HW Hs Hn H1 H|wfs w d w' m H IH E|wfs w sr fade n w' wfs' H IH Hs Hn H1 Er E].
  - assert (HW' := HW). destruct HW' as (HK & Hnw & Hl & Hm).
    split; [exact HW|]. split; [now destruct (wt_build_some N src dbg L wfs nw sr fade K w HK Hnw Hl Hm H)|].
    exists n. split; [|exact H1]. eapply r_build; eassumption.
  - destruct IH as (I1 & I2 & n & I3 & I4). split; [exact I1|]. split; [eapply find_contents; eassumption|].
    exists n. split; [eapply r_ask; eassumption|exact I4].
  - destruct IH as ((HK & Hnw & Hl & Hm) & I2 & n0 & I3 & I4).
    assert (WT := Contents_WTok N src K nw wfs w Hnw Hm I2).
    destruct (rebuild_ok N dbg K nw w WT) as (og' & Er' & Lr & _). rewrite Er' in Er. injection Er as ->.
    assert (HW : wellFormed N wfs' nw K) by (unfold wellFormed; auto).
    split; [exact HW|]. split.
    + assert (E' := E). unfold wt_updateSamplerate in E'. rewrite Er' in E'. cbn [bind] in E'.
      unfold wt_numWaveforms in E'. rewrite (ct_nw _ _ _ _ _ _ I2) in E'.
      destruct (wt_build N src dbg wfs' nw sr fade) as [[w2|]|] eqn:Eb; try discriminate.
      cbn [bind] in E'. injection E' as <-.
      now destruct (wt_build_some N src dbg L wfs' nw sr fade K w2 HK Hnw Lr Hm Eb).
    + exists n. split; [|exact H1]. eapply r_resample; eassumption.
Qed.

(** the lower entry is never more than one octave below the requested one, nor above the
    one after it *)
Lemma low_near n num s r : (1 <= n)%Z -> (0 <= r < num)%Z -> cfInv n num s ->
  (r - 1 <= fst (fst (fst (outS N n s r))) <= r + 1)%Z.
Proof.
  intros Hn Hr Hs. rewrite (outS_low_any lm (mkCfg dbg 1) (le_n 1) n num s r Hn Hr Hs).
  destruct s as [[l p] y]. destruct Hs as (A & B & D & E & G). unfold cfStep.
  destruct (Z.eqb_spec l 0) as [H0|H0].
  - destruct (Z.eqb_spec r y) as [H1|H1]; [lia|]. destruct (Z.ltb_spec p r); lia.
  - destruct (Z.eqb_spec r y) as [H1|H1], (Z.eqb_spec r p) as [H2|H2]; cbn [negb andb];
      destruct (Z.eqb_spec (l - 1) 0) as [H3|H3]; try destruct (Z.ltb_spec p r); lia.
Qed.
End Tables.

Lemma babs_pos (d : f32) : fin32 d = true -> 0 < v32 d -> @Babs 24 128 d = d.
Proof.
  destruct d as [s|s| |s m e H]; cbn [B2R]; intros Hf Hd; try discriminate; [lra|].
  destruct s; [|reflexivity]. exfalso. unfold v32 in Hd. cbn [B2R] in Hd.
  assert (A : F2R (Defs.Float radix2 (cond_Zopp true (Zpos m)) e) < 0) by (apply F2R_lt_0; reflexivity). lra.
Qed.
Lemma babs_val (d : f32) : fin32 d = true -> fin32 (@Babs 24 128 d) = true /\ v32 (@Babs 24 128 d) = Rabs (v32 d).
Proof. intros H. split; [rewrite <- H; apply is_finite_Babs|apply B2R_Babs]. Qed.

Section Run.
Variable lm : Libm.
Hypothesis Hex : expAccurate lm.
Hypothesis Hlog : log2_exact lm.
Variable src : Resampler (B32 lm).
Variable cfg : Cfg.
Hypothesis HB : (1 <= batch cfg)%nat.
Variable f : FilterType.
Variable c : Z.
Hypothesis Hc : (-64 <= c <= 64)%Z.
Notation N := (B32 lm).
Notation L := (B32_Laws lm Hlog).
Notation F := (filt N f).
Notation FR := (filt RNum f).
Notation n := (numCoeffs f).
Notation dbg := (Osc.dbg cfg).
Notation S := (bpow radix2 c).
Notation u := (eps * S).

Record tracks (st : Ideal32 lm) (o : Osc N) : Prop := {
  tk_ok : OscOk N L F (i_K lm st) (i_nw lm st) o (i_tab lm st);
  tk_phase : o_phase o = i_phase lm st;
  tk_pd : o_pd o = i_step lm st;
  tk_mm : o_mm o = i_entry lm st;
  tk_wf : o_wf o = i_wf lm st;
  tk_len : length (i_mem lm st) = n;
  tk_y : forall k y Y d, nth_error (o_y o) k = Some y -> nth_error (i_mem lm st) k = Some Y ->
           nth_error (poleErr f) k = Some d -> memOk S y Y d;
  tk_tab : table32 lm src dbg (i_K lm st) (i_nw lm st) (i_wfs lm st) (i_tab lm st);
  tk_tame : tameAll lm src c (i_wfs lm st) (i_nw lm st) (i_K lm st);
  tk_plain : plainPhase (i_phase lm st)
}.

Lemma mem_near (o : Osc N) (sig : R -> R) (iv : nat -> Num.C N) (y' : list (Num.C N)) (mem : list C) :
  length (o_y o) = n -> length y' = n -> length mem = n ->
  (forall k y Y d, nth_error (o_y o) k = Some y -> nth_error mem k = Some Y ->
           nth_error (poleErr f) k = Some d -> memOk S y Y d) ->
  (forall x m e b, (x < n)%nat -> nth_error (poleErr f) x = Some (m, e, b) ->
     (forall zl zh ρ r2, errOk zl zh ρ r2 m e b -> zl <= Cmod (zAt RNum cfg FR x : C) ->
     exists I, is_int (zAt RNum cfg FR x) sig 0 1 I /\
     cnear (iv x) (zAt RNum cfg FR x * zAt RNum cfg FR x * I)%C
       (m * (Cmod (zAt RNum cfg FR x : C) * Cmod (zAt RNum cfg FR x : C) * u)) /\ Cmod I <= 1.0001 * S)) ->
  (forall x, (x < n)%nat -> nth_error y' x = Some (yVal N F o iv x)) ->
  forall k y Y d, nth_error y' k = Some y -> nth_error (allPoles FR sig mem) k = Some Y ->
           nth_error (poleErr f) k = Some d -> memOk S y Y d.
Proof.
  intros Lo Ly' Lm Hm Hi Hv k y Y d E1 E2 E3.
  assert (Hk : (k < n)%nat) by (rewrite <- Ly'; apply nth_error_Some; congruence).
  destruct (poleAt lm Hex cfg HB f k Hk) as (zl & zh & ρ & r2 & m & e & b & E4 & P & R & Ez & Ee).
  rewrite E4 in E3. injection E3 as <-.
  destruct (Hi k m e b Hk E4 zl zh ρ r2 R (po_zl _ _ _ _ _ _ _ _ _ P)) as (I & HI & Ni & HSI).
  rewrite (Hv k Hk) in E1. injection E1 as <-.
  destruct (nth_error (o_y o) k) as [y0|] eqn:Ey; [|apply nth_error_None in Ey; lia].
  destruct (nth_error mem k) as [Y0|] eqn:EY; [|apply nth_error_None in EY; lia].
  destruct (Hm k y0 Y0 _ Ey EY E4) as [My HY]. cbn [fst snd] in My, HY.
  destruct (zAt_nz cfg FR HB (shipped_exact f) k ltac:(rewrite knR; exact Hk)) as (_ & _ & _ & _ & Z5).
  destruct (nth_error (f_r FR) k) as [rR|] eqn:Er.
  2:{ apply nth_error_None in Er. assert (A := knR f). unfold kNumCoeffs in A. rewrite A in Er. lia. }
  rewrite (allPoles_nth FR sig mem k rR (zAt RNum cfg FR k) Y0 Er Z5 EY) in E2. injection E2 as <-.
  unfold onePole. rewrite (response_int _ _ _ HI).
  assert (A := pole_step lm _ _ _ _ _ _ _ _ _ S P (S_range c Hc) (iv k) y0 I Y0 m e b Ni HSI (er_m0 _ _ _ _ _ _ _ R) My HY
    (er_e0 _ _ _ _ _ _ _ R) (er_b0 _ _ _ _ _ _ _ R) (er_b _ _ _ _ _ _ _ R) (er_e _ _ _ _ _ _ _ R)).
  cbv zeta in A. unfold yVal. rewrite Ez, Ee. rewrite (nth_error_nth _ _ _ Ey).
  assert (En := nth_error_nth _ _ (c0 RNum) Er). set (rr := nth k (f_r FR) (c0 RNum)) in *. clearbody rr. subst rR. exact A.
Qed.
End Run.
