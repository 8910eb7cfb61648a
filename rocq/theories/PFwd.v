(** * PFwd: one order of one sample in binary32 is close to the ideal integral *)
From Coq Require Import ZArith List Bool Reals Lia Lra.
From Flocq Require Import Core Sterbenz Mult_error IEEE754.BinarySingleNaN.
From Verif Require Import Num Maths Wavetable Filters Osc Spec B32 NumFacts Laws B32Facts B32Laws WTFacts BuildFacts SimdFacts
  OscFacts OscRun OscHist PErr PTables RNum RLaws SpecF SpecO SpecW PWork.
From Coquelicot Require Import Coquelicot.
From Verif Require Import SpecC SpecT SpecE ExactMath ExactStep PApx PSlope PTerm PAlpha PVal.
Import ListNotations.
Local Open Scope R_scope.

(** ** Where the boundaries are *)
Section Path.
Variable len : Z.
Hypothesis Hlen : (4 <= len)%Z.
Notation n := (IZR len).
Let Hn : 4 <= n. Proof. apply (IZR_le 4). exact Hlen. Qed.

Lemma path_fwd p0 p1 d k jmin jmax i :
  0 <= p0 < 1 -> 0 <= p1 < 1 -> 0 < d < /2 -> p0 + d = p1 + IZR k ->
  (0 <= jmin < len)%Z ->
  (if Req_bool p0 0 then jmin = (len - 1)%Z else IZR jmin <= p0 * n <= IZR jmin + 1) ->
  jmax = Zfloor (p1 * n) -> In i (boundaries len jmin jmax) ->
  let r := (i mod len)%Z in
  0 <= p1 + IZR (b2z (jmax <? r)%Z) - IZR (r + 1) / n <= d /\
  (b2z (jmax <? r)%Z = 1%Z -> k = 0%Z -> p0 = 0 /\ r = (len - 1)%Z).
Proof.
  intros Hp0 Hp1 Hpd Hk Hjm Hst Hjx Hin r.
  set (e := b2z (Req_bool p0 0)). set (pb := p0 + IZR e).
  assert (Hpb : 0 < pb <= 1 /\ IZR jmin <= pb * n <= IZR jmin + 1).
  { unfold pb, e. destruct (Req_bool_spec p0 0) as [->|H0]; cbn [b2z].
    - rewrite Hst, minus_IZR. split; lra.
    - rewrite Rplus_0_r. split; [lra|assumption]. }
  destruct Hpb as [Hpb Hjb].
  set (sZ := (k + e)%Z). assert (Hs : pb + d = p1 + IZR sZ) by (unfold pb, sZ; rewrite plus_IZR; lra).
  assert (Hs01 : (sZ = 0 \/ sZ = 1)%Z).
  { assert (-1 < IZR sZ < 2) by lra. destruct H as [A B]. apply lt_IZR in A. apply lt_IZR in B. lia. }
  assert (Fx := Zfloor_lb (p1 * n)). assert (Fy := Zfloor_ub (p1 * n)). rewrite <- Hjx in Fx, Fy.
  assert (Hjx0 : (0 <= jmax < len)%Z).
  { split; [apply (le_IZR 0)|apply lt_IZR].
    - rewrite Hjx. change 0 with (IZR 0). apply IZR_le. rewrite <- (Zfloor_IZR 0). apply Zfloor_le. nra.
    - nra. }
  assert (Hsb : sZ = b2z (jmax <? jmin)%Z).
  { destruct Hs01 as [E|E]; rewrite E in *; destruct (Z.ltb_spec jmax jmin) as [H|H]; cbn [b2z]; auto; exfalso.
    - assert (IZR jmin <= p1 * n) by nra.
      assert (jmin <= jmax)%Z; [|lia]. rewrite Hjx. apply Zfloor_lub. assumption.
    - assert (IZR jmax <= IZR jmin - 1) by nra. rewrite <- minus_IZR in H0. apply le_IZR in H0. lia. }
  unfold boundaries in Hin. rewrite <- Hsb, (Z.mul_comm len) in Hin. apply In_zrange in Hin.
  set (b := (jmax + sZ * len)%Z) in *.
  assert (Key : 0 <= p1 + IZR sZ - (IZR i + 1) / n <= d).
  { assert (B1 : IZR i + 1 <= (p1 + IZR sZ) * n).
    { assert (A : IZR i + 1 <= IZR b) by (rewrite <- plus_IZR; apply IZR_le; lia).
      unfold b in A. rewrite plus_IZR, mult_IZR in A. nra. }
    assert (B2 : pb * n <= IZR i + 1).
    { assert (A : IZR jmin <= IZR i) by (apply IZR_le; lia). lra. }
    assert (Q : (IZR i + 1) / n * n = IZR i + 1) by (field; lra).
    split; apply Rmult_le_reg_r with n; try lra; rewrite Rmult_minus_distr_r, Q; nra. }
  assert (Er : p1 + IZR (b2z (jmax <? r)%Z) - IZR (r + 1) / n = p1 + IZR sZ - (IZR i + 1) / n /\
     (b2z (jmax <? r)%Z = 1%Z -> sZ = 1%Z /\ r = i)).
  { unfold r. destruct (Z_lt_le_dec i len) as [Hl|Hl].
    - rewrite (Z.mod_small i len) by lia.
      assert (E0 : b2z (jmax <? i)%Z = sZ).
      { revert Hin. unfold b. rewrite Hsb. destruct (Z.ltb_spec jmax jmin), (Z.ltb_spec jmax i); cbn [b2z]; lia. }
      rewrite E0, plus_IZR. split; [reflexivity|auto].
    - assert (Es : sZ = 1%Z) by (unfold b in Hin; lia).
      assert (Em : (i mod len = i - len)%Z).
      { symmetry. apply (Z.mod_unique_pos i len 1); unfold b in Hin; lia. }
      rewrite Em.
      assert (E0 : b2z (jmax <? i - len)%Z = 0%Z).
      { destruct (Z.ltb_spec jmax (i - len)); [unfold b in Hin; lia|reflexivity]. }
      rewrite E0, Es, plus_IZR, minus_IZR. split; [field; lra|discriminate]. }
  destruct Er as [Er1 Er2]. split; [rewrite Er1; exact Key|].
  intros HB1 Hk0. destruct (Er2 HB1) as [Es Eri]. unfold sZ in Es. rewrite Hk0 in Es. cbn in Es.
  revert Es Hst. unfold e. destruct (Req_bool_spec p0 0) as [E0|E0]; cbn [b2z]; intros; [|lia].
  split; [exact E0|]. rewrite Eri. assert (i < len)%Z; [|lia].
  destruct (Z_lt_le_dec i len); [assumption|]. rewrite <- Eri. unfold r. apply Z.mod_pos_bound. lia.
Qed.

Lemma path_bwd p0 p1 d k jm jmin jmax i :
  0 <= p0 < 1 -> 0 <= p1 < 1 -> -/2 < d < 0 -> p0 + d = p1 + IZR k ->
  (0 <= jmax < len)%Z -> IZR jmax <= p0 * n <= IZR jmax + 1 ->
  (0 <= jmin < len)%Z ->
  (if Req_bool p1 0 then jmin = (len - 1)%Z else IZR jmin <= p1 * n <= IZR jmin + 1) ->
  ((jm =? 0)%Z = Req_bool p1 0) -> In i (boundaries len jmin jmax) ->
  let r := (i mod len)%Z in
  let off := if negb (jm =? 0)%Z && (jmax <? jmin)%Z then (-1)%Z else 0%Z in
  d <= p1 + IZR off + IZR (b2z (jmax <? r)%Z) - IZR (r + 1) / n <= 0 /\
  ((off = 0 /\ b2z (jmax <? r)%Z = 0)%Z \/ (p1 = 0 /\ off = 0%Z) \/ (off = (-1)%Z /\ / 2 <= p1)).
Proof.
  intros Hp0 Hp1 Hpd Hk Hjx Hst Hjm Hen Hz Hin r off.
  set (e := b2z (Req_bool p1 0)). set (qb := p1 + IZR e).
  assert (Hqb : 0 < qb <= 1 /\ IZR jmin <= qb * n <= IZR jmin + 1).
  { unfold qb, e. destruct (Req_bool_spec p1 0) as [->|H0]; cbn [b2z].
    - rewrite Hen, minus_IZR. split; lra.
    - rewrite Rplus_0_r. split; [lra|assumption]. }
  destruct Hqb as [Hqb Hjb].
  set (sZ := (e - k)%Z). assert (Hs : p0 + IZR sZ + d = qb) by (unfold qb, sZ; rewrite minus_IZR; lra).
  assert (Hs01 : (sZ = 0 \/ sZ = 1)%Z).
  { assert (-1 < IZR sZ < 2) by lra. destruct H as [A B]. apply lt_IZR in A. apply lt_IZR in B. lia. }
  assert (Hsb : sZ = b2z (jmax <? jmin)%Z).
  { destruct Hs01 as [E|E]; rewrite E in *; destruct (Z.ltb_spec jmax jmin) as [H|H]; cbn [b2z]; auto; exfalso.
    - assert (IZR jmin < IZR jmax + 1) by nra. rewrite <- plus_IZR in H0. apply lt_IZR in H0. lia.
    - assert (IZR jmax + 2 <= IZR jmin + 1) by nra. rewrite <- !plus_IZR in H0. apply le_IZR in H0. lia. }
  unfold boundaries in Hin. rewrite <- Hsb, (Z.mul_comm len) in Hin. apply In_zrange in Hin.
  set (a := (jmax + sZ * len)%Z) in *.
  assert (Key : d <= qb - (IZR i + 1) / n <= 0).
  { assert (B1 : IZR i + 1 <= (p0 + IZR sZ) * n).
    { assert (A : IZR i + 1 <= IZR a) by (rewrite <- plus_IZR; apply IZR_le; lia).
      unfold a in A. rewrite plus_IZR, mult_IZR in A. nra. }
    assert (B2 : qb * n <= IZR i + 1).
    { assert (A : IZR jmin <= IZR i) by (apply IZR_le; lia). lra. }
    assert (Q : (IZR i + 1) / n * n = IZR i + 1) by (field; lra).
    split; apply Rmult_le_reg_r with n; try lra; rewrite Rmult_minus_distr_r, Q; nra. }
  assert (Eoff : IZR off = if Req_bool p1 0 then 0 else - IZR sZ).
  { unfold off. rewrite Hz, Hsb. destruct (Req_bool p1 0), (jmax <? jmin)%Z; cbn; ring. }
  assert (Eoff2 : off = if Req_bool p1 0 then 0%Z else (- sZ)%Z).
  { unfold off. rewrite Hz, Hsb. destruct (Req_bool p1 0), (jmax <? jmin)%Z; reflexivity. }
  assert (Er : p1 + IZR off + IZR (b2z (jmax <? r)%Z) - IZR (r + 1) / n = qb - (IZR i + 1) / n /\
     (sZ = 0%Z -> b2z (jmax <? r)%Z = 0%Z)).
  { rewrite Eoff. unfold r. destruct (Z_lt_le_dec i len) as [Hl|Hl].
    - rewrite (Z.mod_small i len) by lia.
      assert (E0 : b2z (jmax <? i)%Z = sZ).
      { revert Hin. unfold a. rewrite Hsb. destruct (Z.ltb_spec jmax jmin), (Z.ltb_spec jmax i); cbn [b2z]; lia. }
      rewrite E0, plus_IZR. unfold qb, e. split; [|auto].
      destruct (Req_bool_spec p1 0) as [H1|H1]; cbn [b2z].
      + assert (sZ = 1)%Z.
        { destruct Hs01 as [Es|Es]; [|assumption]. exfalso. revert Hen Hst. unfold a in Hin. intros. lia. }
        rewrite H. ring.
      + ring.
    - assert (Es : sZ = 1%Z) by (unfold a in Hin; lia).
      assert (Em : (i mod len = i - len)%Z).
      { symmetry. apply (Z.mod_unique_pos i len 1); unfold a in Hin; lia. }
      rewrite Em.
      assert (E0 : b2z (jmax <? i - len)%Z = 0%Z).
      { destruct (Z.ltb_spec jmax (i - len)); [unfold a in Hin; lia|reflexivity]. }
      rewrite E0, Es, plus_IZR, minus_IZR. unfold qb, e. split; [|auto].
      destruct (Req_bool_spec p1 0) as [H1|H1]; cbn [b2z]; field; lra. }
  destruct Er as [Er1 Er2]. split; [rewrite Er1; exact Key|].
  rewrite Eoff2. destruct (Req_bool_spec p1 0) as [H1|H1]; [right; left; auto|].
  destruct Hs01 as [Es|Es]; [left; rewrite Es; split; [reflexivity|auto]|right; right]. rewrite Es. split; [reflexivity|].
  unfold qb, e in Hs. rewrite Es in Hs. cbn [b2z] in Hs. lra.
Qed.
End Path.

(** ** The fractions of the step at which the boundaries are crossed *)
Section Alphas.
Variable lm : Libm.
Notation N := (B32 lm).
Variable K : Z.
Hypothesis HK : (2 <= K <= 18)%Z.
Notation len := (2 ^ K)%Z.
Let Hlen : (4 <= len)%Z. Proof. apply (Z.pow_le_mono_r 2 2 K); lia. Qed.

Lemma grid_val r : (0 <= r < len)%Z -> fin32 (atGrid lm K r) = true /\ v32 (atGrid lm K r) = IZR (r + 1) / IZR len.
Proof. intros H. exact (b_grid lm (r + 1) K ltac:(lia) ltac:(lia)). Qed.
Lemma grid_01 r : (0 <= r < len)%Z -> 0 <= IZR (r + 1) / IZR len <= 1.
Proof.
  intros H. assert (0 < IZR len) by (apply IZR_lt; lia). split.
  - apply Rmult_le_pos; [apply IZR_le; lia|left; now apply Rinv_0_lt_compat].
  - apply Rmult_le_reg_r with (IZR len); [assumption|]. unfold Rdiv. rewrite Rmult_assoc, Rinv_l by lra.
    rewrite Rmult_1_l, Rmult_1_r. apply IZR_le. lia.
Qed.

Lemma add_exact (a b : f32) : fin32 a = true -> fin32 b = true -> -2 <= v32 a + v32 b <= 2 -> fmt32 (v32 a + v32 b) ->
  fin32 (tadd N a b) = true /\ v32 (tadd N a b) = v32 a + v32 b.
Proof.
  intros Fa Fb H Hf. destruct (add32 a b Fa Fb (small32_1 _ H)) as [A B].
  change (tadd N a b) with (@Bplus 24 128 p32 e32 mode_NE a b). split; [exact A|]. rewrite B. now apply rnd32_id.
Qed.

Definition fracs (sq : Z) (barN : Z -> f32) (barR : Z -> R) (pd : f32) (d : R) (is : list Z) : Prop :=
  forall i, In i is -> let r := (i mod len)%Z in
    let a := tquo N sq (tsub N (barN r) (atGrid lm K r)) pd in
    let be := (barR r - IZR (r + 1) / IZR len) / d in
    fin32 a = true /\ 0 <= v32 a <= 3 /\ 0 <= be /\ Rabs ((v32 a - be) * d) <= 4 * eps.

Lemma rnd_le_26 x pd : 0 <= x <= 2.5 * pd -> eps <= pd -> rnd32 x <= 2.6 * pd.
Proof.
  intros H1 H2. assert (E := rnd_err x). rewrite (Rabs_pos_eq x) in E by lra.
  apply Rabs_le_inv in E. assert (T : tau <= 0.01 * eps).
  { unfold tau. assert (bpow radix2 (-149) <= bpow radix2 (-40)) by (apply bpow_le; lia).
    replace (bpow radix2 (-40)) with (/ 1099511627776) in H by reflexivity. unfold eps. lra. }
  unfold eps in *. lra.
Qed.

Lemma alphas_fwd dir (q p : f32) jmin jmax : plainPhase q -> plainPhase p ->
  let pd := step32 lm dir q p in
  0 < v32 pd < / 2 ->
  (0 <= jmin < len)%Z ->
  (if Req_bool (v32 q) 0 then jmin = (len - 1)%Z else IZR jmin <= v32 q * IZR len <= IZR jmin + 1) ->
  jmax = Zfloor (v32 p * IZR len) ->
  exists d k, v32 q + d = v32 p + IZR k /\ 0 < d < / 2 /\ near pd d (0.5 * eps) /\
    fracs 70 (barF N p jmax) (barF RNum (v32 p) jmax) pd d (boundaries len jmin jmax).
Proof.
  intros Hq Hp pd Hpd Hjm Hst Hjx.
  assert (Big126 := fun N0 => plain_step lm dir q p Hq Hp N0). apply proj1 in Hq, Hp.
  assert (Habs : Rabs (v32 pd) < / 2) by (apply Rabs_def1; lra).
  destruct (step_near lm dir q p Hq Hp ltac:(fold pd; lra) Habs) as (k & D0 & D1 & D2 & D3 & _ & D4 & D5).
  fold pd in D2, D3, D4, D5. destruct (D3 (proj1 Hpd)) as [Dp Hk]. clear D3.
  assert (Fpd : fin32 pd = true) by (destruct (step_value lm dir q p Hq Hp) as [A _]; exact A).
  set (d := v32 p - v32 q + IZR k) in *.
  assert (Ek : v32 q + d = v32 p + IZR k) by (unfold d; ring).
  assert (Hd : 0 < d < / 2) by (split; [exact Dp|apply Rabs_def2 in D1; tauto]).
  exists d, k. split; [exact Ek|]. split; [exact Hd|]. split; [split; [exact Fpd|exact D2]|].
  intros i Hin r a be.
  destruct Hq as [Fq Hq]. destruct Hp as [Fp Hp]. change (B2R p) with (v32 p) in *. change (B2R q) with (v32 q) in *.
  destruct (path_fwd len Hlen (v32 q) (v32 p) d k jmin jmax i Hq Hp Hd Ek Hjm Hst Hjx Hin) as [P1 P2]. fold r in P1, P2.
  assert (Hr : (0 <= r < len)%Z) by (apply Z.mod_pos_bound; lia).
  destruct (grid_val r Hr) as [G1 G2]. assert (G3 := grid_01 r Hr).
  set (B := b2z (jmax <? r)%Z) in *.
  assert (HB : (B = 0 \/ B = 1)%Z) by (unfold B; destruct (jmax <? r)%Z; auto).
  destruct (ofZ32 B ltac:(lia)) as [O1 O2].
  set (t := atGrid lm K r) in *. set (X := IZR (r + 1) / IZR len) in *.
  assert (Bar : exists bar : f32, barF N p jmax r = bar /\ fin32 bar = true /\ v32 bar = rnd32 (v32 p + IZR B)).
  { destruct (add32 p (f32_ofZ B) Fp O1) as [A1 A2].
    - rewrite O2. apply small32_1. destruct HB as [-> | ->]; lra.
    - eexists. split; [reflexivity|]. split; [exact A1|]. rewrite <- O2. exact A2. }
  destruct Bar as (bar & Eb & Fb & Vb).
  assert (Ft : fmt32 (v32 t)) by apply fmt32_B2R.
  assert (Lo : v32 t <= v32 bar) by (rewrite Vb; apply rnd32_ge; [exact Ft|rewrite G2; lra]).
  assert (F2 : fmt32 2) by (apply (fmt32_Z 2); lia).
  assert (Up : v32 bar <= 2) by (rewrite Vb; apply rnd32_le; [exact F2|destruct HB as [-> | ->]; lra]).
  assert (Err : Rabs (v32 bar - (v32 p + IZR B)) <= eps).
  { rewrite Vb, eps_bpow. apply (rnd_below _ 1); [lia|]. change (bpow radix2 1) with 2.
    apply Rabs_def1; destruct HB as [-> | ->]; lra. }
  assert (Al : fin32 (tquo N 70 (tsub N bar t) pd) = true /\ 0 <= v32 (tquo N 70 (tsub N bar t) pd) <= 3 /\
     0 <= (v32 p + IZR B - X) / d /\ Rabs ((v32 (tquo N 70 (tsub N bar t) pd) - (v32 p + IZR B - X) / d) * d) <= 4 * eps).
  { apply (alpha_near lm 70 1); auto; try (rewrite ?Rmult_1_l; lra).
    - rewrite G2. replace (v32 bar - X - (v32 p + IZR B - X)) with (v32 bar - (v32 p + IZR B)) by ring. exact Err.
    - rewrite Rmult_1_l. assert (B126 := Big126 ltac:(fold pd; lra) Habs). fold pd in B126.
      rewrite Rabs_pos_eq in B126 by lra. exact B126.
    - rewrite !Rmult_1_l, G2.
      destruct (Z.eq_dec k 0) as [K0|K0].
      + destruct HB as [B0|B1].
        * assert (Eb2 : v32 bar = v32 p) by (rewrite Vb, B0, Rplus_0_r; apply rnd32_id, fmt32_B2R).
          rewrite B0, Rplus_0_r in P1. rewrite Eb2. assert (A := rnd_ord (v32 p - X) d ltac:(lra)).
          rewrite <- (D4 K0) in A. lra.
        * destruct (P2 B1 K0) as [Q0 R0].
          assert (X1 : X = 1). { unfold X. rewrite R0. replace (len - 1 + 1)%Z with len by lia. field. apply not_0_IZR. lia. }
          assert (Ed : d = v32 p) by (unfold d; rewrite Q0, K0; ring).
          assert (Epd : v32 pd = v32 p) by (rewrite (D4 K0), Ed; apply rnd32_id, fmt32_B2R).
          assert (Nr : Rabs (v32 bar - (v32 p + 1)) <= Rabs (1 - (v32 p + 1))).
          { rewrite Vb, B1. apply (round_N_pt radix2 (FLT_exp (-149) 24) (fun x => negb (BinInt.Z.even x)) (v32 p + 1)).
            apply (fmt32_Z 1). lia. }
          rewrite (Rabs_left1 (1 - _)) in Nr by lra. apply Rabs_le_inv in Nr.
          assert (F2p : fmt32 (2 * v32 p)).
          { rewrite Rmult_comm. change 2 with (bpow radix2 1). apply mult_bpow_pos_exact_FLT; [apply fmt32_B2R|lia]. }
          assert (rnd32 (v32 bar - X) <= 2 * v32 p) by (apply rnd32_le; [exact F2p|lra]). rewrite Epd. lra.
      + specialize (D5 K0). rewrite Rabs_pos_eq in D5 by lra. apply Rabs_le_inv in D2. apply Rabs_le_inv in Err.
        apply rnd_le_26; [|exact D5]. rewrite <- G2. split; [lra|]. rewrite G2. lra. }
  unfold a, be. rewrite Eb. exact Al.
Qed.

Lemma alphas_bwd dir (q p : f32) jm jmin jmax : plainPhase q -> plainPhase p ->
  let pd := step32 lm dir q p in
  - / 2 < v32 pd < 0 ->
  (0 <= jmax < len)%Z -> IZR jmax <= v32 q * IZR len <= IZR jmax + 1 ->
  (0 <= jmin < len)%Z ->
  (if Req_bool (v32 p) 0 then jmin = (len - 1)%Z else IZR jmin <= v32 p * IZR len <= IZR jmin + 1) ->
  ((jm =? 0)%Z = Req_bool (v32 p) 0) ->
  let offN := if negb (jm =? 0)%Z && (jmax <? jmin)%Z then tofZ N (-1) else t0 N in
  let offR := if negb (jm =? 0)%Z && (jmax <? jmin)%Z then tofZ RNum (-1) else t0 RNum in
  exists d k, v32 q + d = v32 p + IZR k /\ - / 2 < d < 0 /\ near pd d (0.5 * eps) /\
    fracs 71 (barB N p offN jmax) (barB RNum (v32 p) offR jmax) pd d (boundaries len jmin jmax).
Proof.
  intros Hq Hp pd Hpd Hjx Hst Hjm Hen Hz offN offR.
  assert (Big126 := fun N0 => plain_step lm dir q p Hq Hp N0). apply proj1 in Hq, Hp.
  assert (Habs : Rabs (v32 pd) < / 2) by (apply Rabs_def1; lra).
  destruct (step_near lm dir q p Hq Hp ltac:(fold pd; lra) Habs) as (k & D0 & D1 & D2 & _ & D3 & D4 & D5).
  fold pd in D2, D3, D4, D5. destruct (D3 (proj2 Hpd)) as [Dp Hk]. clear D3.
  assert (Fpd : fin32 pd = true) by (destruct (step_value lm dir q p Hq Hp) as [A _]; exact A).
  set (d := v32 p - v32 q + IZR k) in *.
  assert (Ek : v32 q + d = v32 p + IZR k) by (unfold d; ring).
  assert (Hd : - / 2 < d < 0) by (split; [apply Rabs_def2 in D1; tauto|exact Dp]).
  exists d, k. split; [exact Ek|]. split; [exact Hd|]. split; [split; [exact Fpd|exact D2]|].
  intros i Hin r a be.
  destruct Hq as [Fq Hq]. destruct Hp as [Fp Hp]. change (B2R p) with (v32 p) in *. change (B2R q) with (v32 q) in *.
  destruct (path_bwd len Hlen (v32 q) (v32 p) d k jm jmin jmax i Hq Hp Hd Ek Hjx Hst Hjm Hen Hz Hin) as [P1 P2]. fold r in P1, P2.
  assert (Hr : (0 <= r < len)%Z) by (apply Z.mod_pos_bound; lia).
  destruct (grid_val r Hr) as [G1 G2]. assert (G3 := grid_01 r Hr).
  set (off := if negb (jm =? 0)%Z && (jmax <? jmin)%Z then (-1)%Z else 0%Z) in *.
  assert (EoN : offN = f32_ofZ off) by (unfold offN, off; destruct (negb _ && _)%bool; reflexivity).
  assert (EoR : offR = IZR off) by (unfold offR, off; destruct (negb _ && _)%bool; reflexivity).
  set (B := b2z (jmax <? r)%Z) in *.
  assert (HB : (B = 0 \/ B = 1)%Z) by (unfold B; destruct (jmax <? r)%Z; auto).
  assert (Ho : (off = 0 \/ off = -1)%Z) by (unfold off; destruct (negb _ && _)%bool; auto).
  destruct (ofZ32 B ltac:(lia)) as [O1 O2]. destruct (ofZ32 off ltac:(lia)) as [O3 O4].
  set (t := atGrid lm K r) in *. set (X := IZR (r + 1) / IZR len) in *.
  assert (Bar : fin32 (barB N p offN jmax r) = true /\ v32 (barB N p offN jmax r) = v32 p + IZR off + IZR B).
  { unfold barB. rewrite EoN.
    assert (Fo : fmt32 (v32 p + IZR off) /\ fmt32 (v32 p + IZR off + IZR B)).
    { assert (Fp' : fmt32 (v32 p)) by apply fmt32_B2R.
      destruct P2 as [[E1 E2]|[[E1 E2]|[E1 E2]]].
      - rewrite E1, E2, !Rplus_0_r. auto.
      - rewrite E1, E2, !Rplus_0_l. split; [apply (fmt32_Z 0); lia|destruct HB as [-> | ->]; [apply (fmt32_Z 0)|apply (fmt32_Z 1)]; lia].
      - assert (F1 : fmt32 (v32 p + IZR off)).
        { rewrite E1. replace (v32 p + -1) with (v32 p - 1) by ring. apply sterbenz; auto with typeclass_instances.
          - apply (fmt32_Z 1). lia.
          - lra. }
        split; [exact F1|]. destruct HB as [-> | ->]; [rewrite Rplus_0_r; exact F1|].
        rewrite E1. replace (v32 p + -1 + 1) with (v32 p) by ring. exact Fp'. }
    destruct Fo as [Fo1 Fo2].
    assert (R1 : -1 <= IZR off <= 0) by (destruct Ho as [-> | ->]; lra).
    assert (R2 : 0 <= IZR B <= 1) by (destruct HB as [-> | ->]; lra).
    destruct (add_exact p (f32_ofZ off) Fp O3) as [A1 A2]; [rewrite O4; lra|rewrite O4; exact Fo1|]. rewrite O4 in A2.
    destruct (add_exact (tadd N p (f32_ofZ off)) (f32_ofZ B) A1 O1) as [A3 A4]; [rewrite O2, A2; lra|rewrite O2, A2; exact Fo2|].
    rewrite O2, A2 in A4. split; [exact A3|exact A4]. }
  destruct Bar as [Fb Vb]. set (bar := barB N p offN jmax r) in *.
  assert (Al : fin32 (tquo N 71 (tsub N bar t) pd) = true /\ 0 <= v32 (tquo N 71 (tsub N bar t) pd) <= 3 /\
     0 <= (v32 p + IZR off + IZR B - X) / d /\ Rabs ((v32 (tquo N 71 (tsub N bar t) pd) - (v32 p + IZR off + IZR B - X) / d) * d) <= 4 * eps).
  { apply (alpha_near lm 71 (-1)); auto; try (rewrite ?G2, ?Vb; lra).
    - rewrite G2, Vb, Rminus_eq_0, Rabs_R0. unfold eps. lra.
    - assert (B126 := Big126 ltac:(fold pd; lra) Habs). fold pd in B126.
      rewrite Rabs_left in B126 by lra. lra.
    - rewrite G2, Vb. set (n := v32 p + IZR off + IZR B - X) in *.
      destruct (Z.eq_dec k 0) as [K0|K0].
      + assert (A := rnd_ord d n ltac:(lra)). rewrite <- (D4 K0) in A. lra.
      + specialize (D5 K0). rewrite Rabs_left in D5 by lra. apply Rabs_le_inv in D2.
        assert (A := rnd_le_26 (- n) (- v32 pd) ltac:(lra) D5). rewrite rnd_opp in A. lra. }
  unfold a, be. unfold barB at 1. rewrite EoR. exact Al.
Qed.
End Alphas.

(** ** One order of one sample *)
Section Near.
Variable lm : Libm.
Hypothesis Hex : expAccurate lm.
Hypothesis Hlog : log2_exact lm.
Notation N := (B32 lm).
Variable cfg : Cfg.
Variable F : Filt N.
Variable FR : Filt RNum.
Hypothesis HB : (1 <= batch cfg)%nat.
Variable x : nat.
Notation zN := (zAt N cfg F x : f32 * f32).
Notation eN := (ezAt N cfg F x : f32 * f32).
Notation Z := (zAt RNum cfg FR x : C).
Variable ζ : R.
Hypothesis Hez : ezAt RNum cfg FR x = cexp Z.
Hypothesis Hζ : Cmod Z <= ζ.
Hypothesis Hζ5 : 0.1 <= ζ <= 4.6.
Hypothesis Nz : cnear zN Z (1.2 * eps * ζ).
Hypothesis Zneg : v32 (fst zN) <= 0.
Hypothesis ZnegR : fst Z <= 0.
Hypothesis NE : cnear eN (cexp Z) (6.1 * eps + 0.92 * eps * ζ).
Hypothesis HE : Cmod (cexp Z) <= 0.75.
Variables (c K : BinInt.Z) (ys : list (T N)) (s : Slot N).
Hypothesis Hc : (-64 <= c <= 64)%Z.
Hypothesis HK : (2 <= K <= 18)%Z.
Hypothesis Ly : zlen ys = (2 ^ K)%Z.
Hypothesis HS : slotOf ys s.
Notation ysR := (List.map v32 ys).
Notation S := (bpow radix2 c).
Hypothesis Hy : forall y : f32, In y ys -> fin32 y = true /\ Rabs (v32 y) <= S.
Hypothesis Hd : forall j, Rabs (cyc ysR (j + 1) - cyc ysR j) * IZR (2 ^ K) <= S.
Notation len := (2 ^ K)%Z.

Let LyR : @zlen (T RNum) ysR = (2 ^ K)%Z. Proof. unfold zlen in *. now rewrite map_length. Qed.
Let LyR2 : @zlen R ysR = (2 ^ K)%Z. Proof. exact LyR. Qed.
Let Hlen4 : (4 <= @zlen (T RNum) ysR)%Z. Proof. rewrite LyR. apply (Z.pow_le_mono_r 2 2 K); lia. Qed.
Let Hlen : (4 <= len)%Z. Proof. apply (Z.pow_le_mono_r 2 2 K); lia. Qed.

Lemma slot_R : exists sR, slotOf (N := RNum) ysR sR.
Proof.
  destruct (computeMQVector_ok RNum ysR) as (sR & _ & H); [|exists sR; exact H].
  rewrite LyR. lia.
Qed.

(** the number added when the start (end) phase is 0 *)
Lemma wrap_one (q : f32) : phase01 q ->
  let pb := tadd N q (tofZ N (b2z (teq N q (t0 N)))) in
  fin32 pb = true /\ v32 pb = v32 q + IZR (b2z (Req_bool (v32 q) 0)) /\ 0 < v32 pb <= 1.
Proof.
  intros [Fq Hq] pb. change (B2R q) with (v32 q) in *.
  destruct (ofZ32 0 ltac:(lia)) as [Z1 Z2].
  assert (E : teq N q (t0 N) = Req_bool (v32 q) 0).
  { rewrite <- Z2. exact (eq_spec N (B32_Laws lm Hlog) q (f32_ofZ 0) Fq Z1). }
  unfold pb. rewrite E. set (B := b2z (Req_bool (v32 q) 0)).
  assert (HB' : (B = 0 \/ B = 1)%Z) by (unfold B; destruct (Req_bool _ _); auto).
  assert (P : 0 < v32 q + IZR B <= 1 /\ fmt32 (v32 q + IZR B)).
  { assert (Fp' : fmt32 (v32 q)) by apply fmt32_B2R.
    unfold B. destruct (Req_bool_spec (v32 q) 0) as [H|H]; cbn [b2z].
    - rewrite H, Rplus_0_l. split; [lra|apply (fmt32_Z 1); lia].
    - rewrite Rplus_0_r. split; [lra|exact Fp']. }
  destruct P as [P1 P2]. destruct (ofZ32 B ltac:(lia)) as [O1 O2].
  destruct (add_exact lm q (f32_ofZ B) Fq O1) as [A1 A2]; [rewrite O2; lra|rewrite O2; exact P2|]. rewrite O2 in A2.
  split; [exact A1|split; [exact A2|]].
  change (0 < v32 (tadd N q (f32_ofZ B)) <= 1). rewrite A2. exact P1.
Qed.

Notation eI := (errI ζ c).
Notation bI := (bndI ζ c).

Lemma fwd_near dir (q p : f32) jmin jmax : plainPhase q -> plainPhase p ->
  let pd := step32 lm dir q p in
  0 < v32 pd < / 2 -> (0 <= jmin < len)%Z ->
  (if Req_bool (v32 q) 0 then jmin = (len - 1)%Z else IZR jmin <= v32 q * IZR len <= IZR jmin + 1) ->
  jmax = Zfloor (v32 p * IZR len) -> (loopLen len jmin jmax <= 4)%Z ->
  exists d k I, v32 q + d = v32 p + IZR k /\ 0 < d < / 2 /\
    is_int Z (fun u => wave ysR (v32 q + d * u)) 0 1 I /\
    cnear (fwdVal N cfg F s len q pd p jmin jmax x) (Z * Z * I)%C eI /\ Cmod (Z * Z * I)%C <= bI.
Proof.
  intros Hq Hp pd Hpd Hjm Hst Hjx HL.
  destruct (alphas_fwd lm K HK dir q p jmin jmax Hq Hp Hpd Hjm Hst Hjx) as (d & k & Ek & Hd0 & Npd & Fr). fold pd in Npd, Fr. apply proj1 in Hq, Hp.
  destruct slot_R as [sR HSR].
  destruct (wrap_one q Hq) as (W1 & W2 & W3).
  assert (Hq' := proj2 Hq). assert (Hp' := proj2 Hp). change (B2R p) with (v32 p) in *. change (B2R q) with (v32 q) in *.
  destruct (fwd_exact cfg FR HB x Hez ysR sR Hlen4 HSR (v32 q) (v32 p) d jmin jmax Hq' Hp' ltac:(lra) (ex_intro _ k Ek))
    as (I & I1 & I2).
  { rewrite LyR2. exact Hjm. }
  { rewrite LyR2. exact Hst. }
  { rewrite LyR2. exact Hjx. }
  exists d, k, I. split; [exact Ek|]. split; [exact Hd0|]. split; [exact I1|]. rewrite <- I2, LyR2.
  assert (Fx := Zfloor_lb (v32 p * IZR len)). assert (Fy := Zfloor_ub (v32 p * IZR len)). rewrite <- Hjx in Fx, Fy.
  assert (Hn : 0 < IZR len) by (apply IZR_lt; lia).
  assert (Hjx0 : (0 <= jmax < len)%Z).
  { split; [rewrite Hjx; apply (Zfloor_lub 0); nra|apply lt_IZR; nra]. }
  set (pb := tadd N q (tofZ N (b2z (teq N q (t0 N))))) in *.
  assert (Sp : IZR jmin <= v32 pb * IZR len <= IZR jmin + 1).
  { rewrite W2. revert Hst. destruct (Req_bool_spec (v32 q) 0) as [H|H]; cbn [b2z]; intros Hst.
    - rewrite H, Hst, minus_IZR. lra.
    - rewrite Rplus_0_r. exact Hst. }
  assert (W := whole_step lm Hex cfg F FR HB x ζ Hez Hζ Hζ5 Nz Zneg ZnegR NE HE c K ys s sR Hc HK Ly HS HSR Hy Hd pd d Npd
     ltac:(rewrite Rabs_pos_eq; lra) true (barF N p jmax) (barF RNum (v32 p) jmax) jmin jmax pb p jmin jmax Hjm Hjx0 Hjm Hjx0 HL
     W1 (proj1 Hp) ltac:(lra) ltac:(lra) Sp ltac:(lra) Fr).
  cbv zeta in W. unfold fwdVal. rewrite W2 in W. exact W.
Qed.

Lemma bwd_near dir (q p : f32) jm jmin jmax : plainPhase q -> plainPhase p ->
  let pd := step32 lm dir q p in
  - / 2 < v32 pd < 0 ->
  (0 <= jmax < len)%Z -> IZR jmax <= v32 q * IZR len <= IZR jmax + 1 ->
  (0 <= jmin < len)%Z ->
  (if Req_bool (v32 p) 0 then jmin = (len - 1)%Z else IZR jmin <= v32 p * IZR len <= IZR jmin + 1) ->
  ((jm =? 0)%Z = Req_bool (v32 p) 0) -> (loopLen len jmin jmax <= 4)%Z ->
  exists d k I, v32 q + d = v32 p + IZR k /\ - / 2 < d < 0 /\
    is_int Z (fun u => wave ysR (v32 q + d * u)) 0 1 I /\
    cnear (bwdVal N cfg F s len q pd p jm jmin jmax x) (Z * Z * I)%C eI /\ Cmod (Z * Z * I)%C <= bI.
Proof.
  intros Hq Hp pd Hpd Hjx Hst Hjm Hen Hz HL.
  destruct (alphas_bwd lm K HK dir q p jm jmin jmax Hq Hp Hpd Hjx Hst Hjm Hen Hz) as (d & k & Ek & Hd0 & Npd & Fr). fold pd in Npd, Fr. apply proj1 in Hq, Hp.
  destruct slot_R as [sR HSR].
  destruct (wrap_one p Hp) as (W1 & W2 & W3).
  assert (Hq' := proj2 Hq). assert (Hp' := proj2 Hp). change (B2R p) with (v32 p) in *. change (B2R q) with (v32 q) in *.
  destruct (bwd_exact cfg FR HB x Hez ysR sR Hlen4 HSR (v32 q) (v32 p) d jm jmin jmax Hq' Hp' ltac:(lra) (ex_intro _ k Ek))
    as (I & I1 & I2).
  { rewrite LyR2. exact Hjx. }
  { rewrite LyR2. exact Hst. }
  { rewrite LyR2. exact Hjm. }
  { rewrite LyR2. exact Hen. }
  { exact Hz. }
  exists d, k, I. split; [exact Ek|]. split; [exact Hd0|]. split; [exact I1|]. rewrite <- I2, LyR2.
  assert (Hn : 0 < IZR len) by (apply IZR_lt; lia).
  set (pb := tadd N p (tofZ N (b2z (teq N p (t0 N))))) in *.
  assert (Sp : IZR jmin <= v32 pb * IZR len <= IZR jmin + 1).
  { rewrite W2. revert Hen. destruct (Req_bool_spec (v32 p) 0) as [H|H]; cbn [b2z]; intros Hen.
    - rewrite H, Hen, minus_IZR. lra.
    - rewrite Rplus_0_r. exact Hen. }
  assert (W := whole_step lm Hex cfg F FR HB x ζ Hez Hζ Hζ5 Nz Zneg ZnegR NE HE c K ys s sR Hc HK Ly HS HSR Hy Hd pd d Npd
     ltac:(rewrite Rabs_left; lra) false _ _ jmax jmin q pb jmin jmax Hjx Hjm Hjm Hjx HL
     (proj1 Hq) W1 ltac:(lra) ltac:(lra) Hst Sp Fr).
  cbv zeta in W. unfold bwdVal. rewrite W2 in W. exact W.
Qed.
End Near.
