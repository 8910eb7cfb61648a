(** * Prop_CloseEx: the hypotheses of C50 and C51 are met

    An exponential correctly rounded in each component meets accurateExp; a triangle of 16
    samples plays forward over three octaves' worth of moves, then in both directions. *)
From Coq Require Import ZArith List Bool Reals Lia Lra Arith.
From Flocq Require Import Core IEEE754.BinarySingleNaN.
From Verif Require Import Num Maths CrossFader Wavetable Filters Osc Spec SpecC SpecT RNum B32 B32Facts B32Laws B32Pow Demo
  SpecF SpecO SpecW Prop_Build Prop_CrossFader.
From Coquelicot Require Import Coquelicot.
From Verif Require Import SpecE SpecR PApx PTerm Prop_Close.
Import ListNotations.
Local Open Scope R_scope.

(** the binary32 number nearest to [x] *)
Definition nearest32 (x : R) : f32 :=
  binary_normalize 24 128 p32 e32 mode_NE (ZnearestE (scaled_mantissa radix2 (FLT_exp (-149) 24) x))
    (Generic_fmt.cexp radix2 (FLT_exp (-149) 24) x) false.

Lemma nearest32_ok x : Rabs x <= 1 -> fin32 (nearest32 x) = true /\ v32 (nearest32 x) = rnd32 x.
Proof.
  intros Hx. unfold nearest32.
  assert (E : IZR (ZnearestE (scaled_mantissa radix2 (FLT_exp (-149) 24) x)) * bpow radix2 (Generic_fmt.cexp radix2 (FLT_exp (-149) 24) x)
              = rnd32 x) by reflexivity.
  assert (V : Valid_rnd ZnearestE) by apply valid_rnd_N.
  assert (X : Valid_exp (FLT_exp (-149) 24)) by (apply FLT_exp_valid; reflexivity).
  destruct (norm32 (ZnearestE (scaled_mantissa radix2 (FLT_exp (-149) 24) x)) (Generic_fmt.cexp radix2 (FLT_exp (-149) 24) x) false) as [A B].
  - rewrite E. apply small32_of_le with 0%Z; [lia|]. apply rnd32_abs_le; [lia|]. exact Hx.
  - split; [exact A|]. rewrite B, E. apply rnd32_id. apply generic_format_round; assumption.
Qed.

Definition niceExp (w : f32 * f32) : f32 * f32 :=
  let z := cexp (B2R (fst w), B2R (snd w)) in (nearest32 (fst z), nearest32 (snd z)).
(** sums from the last to the first *)
Fixpoint backwards (n : nat) : sumTree :=
  match n with O => SLeaf 0 | S n' => SPlus (SLeaf n) (backwards n') end.
Definition nice_libm : Libm :=
  mkLibm demo_log2 niceExp niceExp true (fun s => s mod 3)%Z (fun n => backwards (Nat.pred n)) (fun s => Z.odd s || (s =? 70)%Z || (s =? 80)%Z).

Lemma nice_log : log2_exact nice_libm.
Proof. exact demo_exact. Qed.

Lemma exp_3 n : exp (INR n) <= 3 ^ n.
Proof.
  induction n as [|n IH]; [cbn [INR pow]; rewrite exp_0; lra|].
  rewrite S_INR, exp_plus. cbn [pow]. rewrite Rmult_comm.
  apply Rmult_le_compat; [left; apply exp_pos|left; apply exp_pos|apply exp_le_3|exact IH].
Qed.

Lemma nice_exp : accurateExp nice_libm.
Proof.
  intros g Hg a b Fa Fb Ha Hb r.
  assert (Er : r = (nearest32 (exp (B2R a) * cos (B2R b)), nearest32 (exp (B2R a) * sin (B2R b)))).
  { unfold r. destruct Hg as [-> | ->]; reflexivity. }
  rewrite Er. cbn [fst snd]. unfold cexp. cbn [fst snd].
  set (x := exp (B2R a)). assert (Hx : 0 < x <= 1).
  { unfold x. split; [apply exp_pos|]. rewrite <- exp_0. destruct (Rle_lt_or_eq_dec _ _ (proj2 Ha)) as [H|H]; [left; now apply exp_increasing|rewrite H; lra]. }
  assert (Ht : tau <= / 16777216 * x).
  { unfold tau, x. 
    assert (E16 : exp 16 <= IZR (3 ^ 16)).
    { change (3 ^ 16)%Z with (3 ^ Z.of_nat 16)%Z. rewrite <- (pow_IZR 3 16). replace 16 with (INR 16) by (cbn [INR]; ring). apply exp_3. }
    assert (El : exp (-16) <= exp (B2R a)).
    { destruct (Rle_lt_or_eq_dec _ _ (proj1 Ha)) as [H|H]; [left; now apply exp_increasing|rewrite H; lra]. }
    change (-16) with (Ropp 16) in El || replace (-16) with (- (16)) in El by lra. rewrite exp_Ropp in El. assert (P := exp_pos 16).
    assert (Hi : / IZR (3 ^ 16) <= / exp 16) by (apply Rinv_le; assumption).
    apply Rle_trans with (/ 16777216 * / IZR (3 ^ 16)); [|lra].
    rewrite <- Rinv_mult. change (bpow radix2 (-149)) with (/ IZR (2 ^ 149)).
    apply Rinv_le; [|change 16777216 with (IZR (2 ^ 24)); rewrite <- mult_IZR; apply IZR_le; apply Z.leb_le; vm_compute; reflexivity].
    change 16777216 with (IZR (2 ^ 24)). rewrite <- mult_IZR. apply IZR_lt. vm_compute; reflexivity. }
  assert (One : forall t, -1 <= t <= 1 -> fin32 (nearest32 (x * t)) = true /\ Rabs (v32 (nearest32 (x * t)) - x * t) <= 2 * / 16777216 * x).
  { intros t Ht1.
    assert (Ab : Rabs (x * t) <= x).
    { rewrite Rabs_mult, (Rabs_pos_eq x) by lra. assert (Rabs t <= 1) by (apply Rabs_le; lra).
      rewrite <- (Rmult_1_r x) at 2. apply Rmult_le_compat_l; lra. }
    destruct (nearest32_ok (x * t) ltac:(lra)) as [A B]. split; [exact A|]. rewrite B.
    assert (D := rnd_err (x * t)). unfold eps in D. assert (/ 16777216 * Rabs (x * t) <= / 16777216 * x) by (apply Rmult_le_compat_l; lra). lra. }
  destruct (One (cos (B2R b)) (COS_bound _)) as [F1 D1]. destruct (One (sin (B2R b)) (SIN_bound _)) as [F2 D2].
  split; [exact F1|]. split; [exact F2|].
  eapply Rle_trans; [exact (cmod_max _ _ _ D1 D2)|].
  change (IZR (2 ^ 24)) with 16777216. lra.
Qed.

(** ** Tameness of a table of small integers *)
Definition smallWave (zs : list Z) (c : Z) : bool :=
  forallb (fun z => (Z.abs z <=? 2 ^ c)%Z && (Z.abs z <=? 2 ^ 24)%Z) zs &&
  forallb (fun i => (Z.abs (nth ((i + 1) mod length zs) zs 0%Z - nth i zs 0%Z) * zlen zs <=? 2 ^ c)%Z) (seq 0 (length zs)).

Lemma small_tame zs c : (0 <= c)%Z -> zs <> [] -> smallWave zs c = true -> tame c (List.map f32_ofZ zs).
Proof.
  intros Hc Hne H. unfold smallWave in H. apply andb_prop in H. destruct H as [H1 H2].
  rewrite forallb_forall in H1, H2.
  assert (Hz : forall z, In z zs -> (Z.abs z <= 2 ^ c /\ Z.abs z <= 2 ^ 24)%Z).
  { intros z Hin. specialize (H1 z Hin). apply andb_prop in H1. destruct H1. lia. }
  assert (V : List.map (@B2R 24 128) (List.map f32_ofZ zs) = List.map IZR zs).
  { rewrite map_map. apply map_ext_in. intros z Hin. apply ofZ32. apply Hz, Hin. }
  split.
  - intros y Hy. apply in_map_iff in Hy. destruct Hy as (z & <- & Hin).
    destruct (ofZ32 z ltac:(apply Hz, Hin)) as [F E]. split; [exact F|]. change (@B2R 24 128) with v32. rewrite E, <- abs_IZR, bpow_Z by exact Hc.
    apply IZR_le. apply Hz, Hin.
  - intros j. rewrite V. unfold zlen at 1. rewrite map_length.
    assert (Lp : (0 < zlen zs)%Z) by (unfold zlen; destruct zs; [contradiction|cbn [length]; lia]).
    assert (C : forall j, cyc (List.map IZR zs) j = IZR (nth (Z.to_nat (j mod zlen zs)) zs 0%Z)).
    { intros i. unfold cyc, elem. unfold zlen at 1. rewrite map_length. fold (zlen zs).
      change 0 with (IZR 0). now rewrite map_nth. }
    rewrite !C. set (i := Z.to_nat (j mod zlen zs)).
    assert (Hm := Z.mod_pos_bound j (zlen zs) Lp).
    assert (Hi : In i (seq 0 (length zs))) by (apply in_seq; unfold i, zlen in *; lia).
    specialize (H2 i Hi). apply Z.leb_le in H2.
    replace (Z.to_nat ((j + 1) mod zlen zs)) with ((i + 1) mod length zs)%nat.
    + rewrite <- minus_IZR, <- abs_IZR, <- mult_IZR, bpow_Z by exact Hc. apply IZR_le. exact H2.
    + apply Nat2Z.inj. rewrite Nat2Z.inj_mod, Nat2Z.inj_add, Z2Nat.id by (apply Z.mod_pos_bound; exact Lp).
      unfold i. rewrite Z2Nat.id by lia. fold (zlen zs). change (Z.of_nat 1) with 1%Z. apply Z.add_mod_idemp_l. lia.
Qed.

(** ** Concrete histories: a triangle of 16 samples (entries of 16, 8 and 4), fade of one sample *)
Notation NN := (B32 nice_libm).
Definition ramp : list Z := [0;1;2;3;4;3;2;1;0;-1;-2;-3;-4;-3;-2;-1]%Z.

Lemma ramp_tame : tameAll nice_libm (demo_src NN) 4 demo16 1 4.
Proof.
  assert (E : forall k, (0 <= k <= 2)%Z -> entry32 nice_libm (demo_src NN) demo16 4 0 k =
     List.map f32_ofZ (if (k =? 0)%Z then ramp else if (k =? 1)%Z then [0;2;4;2;0;-2;-4;-2]%Z else [0;4;0;-4]%Z)).
  { intros k Hk. assert (Hk' : k = 0%Z \/ k = 1%Z \/ k = 2%Z) by lia. destruct Hk' as [-> | [-> | ->]]; reflexivity. }
  intros i k Hi Hk. assert (i = 0%Z) by lia. subst i. rewrite E by lia.
  assert (Hk' : k = 0%Z \/ k = 1%Z \/ k = 2%Z) by lia.
  destruct Hk' as [-> | [-> | ->]]; apply small_tame; try lia; try discriminate; reflexivity.
Qed.

Lemma ramp_built : exists w, wt_build NN (demo_src NN) true demo16 1 sr48 (fl 1 40000) = Ok (Some w).
Proof.
  destruct (C02_build_shape nice_libm (demo_src NN) true demo16 1 sr48 (fl 1 40000) 4 1) as (w & E & _); auto; try lia.
  - exact nice_log.
  - intros inp ratio cap; repeat split.
  - unfold int_max. lia.
  - exact (proj1 (proj2 (proj2 (proj2 (proj2 C02_case))))).
  - exists w. exact E.
Qed.

Ltac real := vm_compute; lra.
Ltac plain := split; [split; [vm_compute; reflexivity|split; real]|first [left; real|right; real]].
Ltac instep := split; [real|split; [first [rewrite Rabs_pos_eq by real|rewrite Rabs_left by real]; real
  |split; [lia|split; [first [left; lia|right; first [rewrite Rabs_pos_eq by real|rewrite Rabs_left by real]; real]
    |first [left; lia|right; first [rewrite Rabs_pos_eq by real|rewrite Rabs_left by real]; real]]]]].

(** forward: octave 1, then 2 for two samples, then 1 again *)
Definition path : list f32 := [fl 1 8; fl 1 4; fl 3 8; fl 5 8; fl 7 8; fl 0 1; fl 1 8; fl 1 4].
Example C50_readme_case : forall f, exists w st Ys,
  accurateExp nice_libm /\ log2_exact nice_libm /\
  plays32 nice_libm (demo_src NN) true f 4 None [OpInit NN (Some w) (fl 0 1) (fl 1 8); OpProcess NN kForward path] (Some st) Ys /\
  length Ys = 8%nat.
Proof.
  intros f. destruct ramp_built as (w & Ew).
  destruct (C50_readme_histories nice_libm (demo_src NN) (mkCfg true 4) f 4 demo16 1 4 w sr48 (fl 1 40000) 1 (fl 0 1) (fl 1 8) 1
    path [1;1;2;2;1;1;1]%Z) as (st & Ys & o & ys & Hp & _ & Hl & Hw).
  - exact nice_exp.
  - exact nice_log.
  - cbn; lia.
  - lia.
  - repeat split; try lia; try reflexivity; unfold int_max; lia.
  - exact (CF_rate _).
  - vm_compute; reflexivity.
  - lia.
  - exact Ew.
  - exact ramp_tame.
  - reflexivity.
  - real.
  - split; [lia|]. split; [right; real|right; real].
  - unfold path. repeat (constructor; [plain|]). constructor.
  - unfold path. cbn [steps32 repeat Z.to_nat app]. repeat (constructor; [instep|]). constructor.
  - split.
    + intros i a b Ha Hb. do 8 (destruct i as [|i]; [cbn in Ha, Hb; inversion Ha; inversion Hb; subst; lia || (vm_compute; lia)|]).
      cbn in Hb. destruct i; discriminate.
    + intros i j a b c e Hij Ha Hb Hab Hc He Hce.
      do 8 (destruct i as [|i]; [cbn in Ha, Hb; inversion Ha; inversion Hb; subst; try lia;
        do 8 (destruct j as [|j]; [cbn in Hc, He; inversion Hc; inversion He; subst; lia|]); cbn in He; destruct j; discriminate|]).
      cbn in Hb. destruct i; discriminate.
  - exists w, st, Ys. split; [exact nice_exp|]. split; [exact nice_log|]. split; [exact Hp|].
    rewrite <- (f2_length Hw). exact Hl.
Qed.

(** octave 1 throughout, turning back and forth over phase 0 *)
Example C50_turning_case : forall f, exists w st Ys,
  plays32 nice_libm (demo_src NN) true f 4 None
    [OpInit NN (Some w) (fl 0 1) (fl 1 8); OpProcess NN kForward [fl 1 8; fl 1 4];
     OpProcess NN kBidirectionnal [fl 1 8; fl 15 16; fl 3 4; fl 29 32; fl 1 16]] (Some st) Ys /\
  length Ys = 7%nat.
Proof.
  intros f. destruct ramp_built as (w & Ew).
  destruct (C50_turning_histories nice_libm (demo_src NN) (mkCfg true 4) f 4 demo16 1 4 w sr48 (fl 1 40000) 1 (fl 0 1) (fl 1 8) 1
    [fl 1 8; fl 1 4] kBidirectionnal [fl 1 8; fl 15 16; fl 3 4; fl 29 32; fl 1 16]) as (st & Ys & o & ys & Hp & _ & Hl & Hw).
  - exact nice_exp.
  - exact nice_log.
  - cbn; lia.
  - lia.
  - repeat split; try lia; try reflexivity; unfold int_max; lia.
  - exact (CF_rate _).
  - vm_compute; reflexivity.
  - lia.
  - exact Ew.
  - exact ramp_tame.
  - reflexivity.
  - real.
  - split; [lia|]. split; [right; real|right; real].
  - cbn [app]. repeat (constructor; [plain|]). constructor.
  - cbn [length Z.of_nat]. lia.
  - cbn [steps32]. repeat (constructor; [instep|]). constructor.
  - cbn [steps32 last]. repeat (constructor; [instep|]). constructor.
  - exists w, st, Ys. split; [exact Hp|]. rewrite <- (f2_length Hw). exact Hl.
Qed.
