(** * Osc: adwt/adwt.hpp and adwt/adwt.cpp *)
From Coq Require Import ZArith List Bool Arith.
From Verif Require Import Num Maths CrossFader Wavetable Filters.
Import ListNotations.
Local Open Scope Z_scope.

(** A filter: four coefficient lists of equal length (its number of coefficients).
    The shipped filters are [filt N f] below; theorems range over arbitrary ones where
    nothing more is needed. *)
Record Filt (N : Num) : Type := mkFilt {
  f_r : list (C N); f_z : list (C N); f_zp2 : list (C N); f_ez : list (C N) }.
Arguments mkFilt {N}. Arguments f_r {N}. Arguments f_z {N}.
Arguments f_zp2 {N}. Arguments f_ez {N}.

(** Oscillator data members -- adwt/adwt.hpp:387-409 (the constant coefficient arrays are
    in [Filt]) *)
Record Osc (N : Num) : Type := mkOsc {
  o_wt : option (WT N);     (* wavetable_ ; None is nullptr *)
  o_y : list (C N);         (* prev_cpx_y_array_ *)
  o_phase : T N;            (* prev_phase_ *)
  o_phred : T N;            (* prev_phase_red_ *)
  o_pd : T N;               (* prev_phase_diff_ *)
  o_mm : Z;                 (* prev_mipmap_idx_ *)
  o_j : Z;                  (* j_red_ *)
  o_pj : Z;                 (* prev_j_red_ *)
  o_wf : Z                  (* crt_waveform_ *)
}.
Arguments mkOsc {N}. Arguments o_wt {N}. Arguments o_y {N}. Arguments o_phase {N}.
Arguments o_phred {N}. Arguments o_pd {N}. Arguments o_mm {N}. Arguments o_j {N}.
Arguments o_pj {N}. Arguments o_wf {N}.

(** build configuration: assertions on/off, and complex SIMD batch width
    (CpxBatch::size, 4 for SSE/NEON, 8 for AVX) *)
Record Cfg : Type := mkCfg { dbg : bool; batch : nat }.

(** ** SIMD geometry, natural-number arithmetic on compile-time constants *)
Section Geometry.
Variables B n : nat.   (* kBatchSize, kNumCoeffs *)

(** kPartialSize, kWholeSize -- adwt/adwt.hpp:234-235 *)
Definition kPartialSize : nat := (n mod B)%nat.
Definition kWholeSize : nat := (n - kPartialSize)%nat.
(** kBatchThreshold -- adwt/adwt.hpp:210 *)
Definition kBatchThreshold : nat := 1%nat.
(** computeUpperNumCoeffs -- adwt/adwt.hpp:216-229.  maths::floor(float(n)/float(B)) is
    modelled as the integer quotient (equal to the binary32 computation for all filter
    orders and batch widths in use: theorem [C31_upper_num_coeffs]). *)
Definition kUpperNumCoeffs : nat :=
  let kNumBatch := (n / B)%nat in
  if (kNumBatch =? 0)%nat then B
  else if (n mod B =? 0)%nat then (kNumBatch * B)%nat
  else ((kNumBatch + 1) * B)%nat.
(** iter::range<size_t>(0, kWholeSize, kBatchSize): start indices of the whole batches *)
Definition wholeStarts : list nat := map (fun k => (k * B)%nat) (seq 0 (kWholeSize / B)).
(** does the remainder use one SIMD batch? -- adwt/adwt.cpp:141,219,311 *)
Definition usePartialBatch : bool := (kBatchThreshold <? kPartialSize)%nat.
End Geometry.

Section Osc.
Variable N : Num.
Variable src : Resampler N.
Variable cfg : Cfg.
Variable F : Filt N.

Notation dbg := (dbg cfg).
Notation B := (batch cfg).

(** kNumCoeffs = numCoeffs<Ftype>() = r<Ftype>().size() -- adwt/adwt.hpp:231 *)
Definition kNumCoeffs : nat := length (f_r F).
Definition kUpper : nat := kUpperNumCoeffs B kNumCoeffs.

(** rArray, zArray, zPow2Array, expZArray -- adwt/adwt.hpp:353-383: value-initialised
    arrays of kUpperNumCoeffs elements with the coefficients copied in front *)
Definition padded (l : list (C N)) : list (C N) :=
  l ++ repeat (c0 N) (kUpper - length l).
Definition r_array : list (C N) := padded (f_r F).
Definition z_array : list (C N) := padded (f_z F).
Definition z_pow2_array : list (C N) := padded (f_zp2 F).
Definition exp_z_array : list (C N) := padded (f_ez F).

(** xs::load_aligned(&a[i]) reads batch elements; store_aligned writes them *)
Definition load (a : list (C N)) (i : nat) : res (list (C N)) :=
  if (i + B <=? length a)%nat then Ok (firstn B (skipn i a)) else Fault OutOfBounds.
Definition store (a : list (C N)) (i : nat) (v : list (C N)) : res (list (C N)) :=
  if (i + length v <=? length a)%nat
  then Ok (firstn i a ++ v ++ skipn (i + length v) a) else Fault OutOfBounds.

Fixpoint map2 {X Y W} (f : X -> Y -> W) (l : list X) (m : list Y) : list W :=
  match l, m with x :: l', y :: m' => f x y :: map2 f l' m' | _, _ => [] end.
Fixpoint map3 {X Y V W} (f : X -> Y -> V -> W) (l : list X) (m : list Y) (k : list V) : list W :=
  match l, m, k with x :: l', y :: m', v :: k' => f x y v :: map3 f l' m' k' | _, _, _ => [] end.

(** ** computeI0 -- adwt/adwt.cpp:95-159 *)
(** one SIMD lane -- adwt/adwt.cpp:128-135 and 142-149 *)
Definition i0_lane (a b c d : T N) (expz z : C N) : C N :=
  let tmp0 := cfma N z (cbc N b) (cbc N a) in
  let tmp1 := cfms N expz tmp0 (cbc N c) in
  cfnma N z (cbc N d) tmp1.
(** scalar version -- adwt/adwt.cpp:155-156: exp_z * (part_a + z * part_b) - part_c - z * part_d,
    with part_a = mp * pd and part_c = mn * pd (adwt/adwt.cpp:109-119), which the compiler may
    contract into these sums *)
Definition i0_scalar (mp b mn d pd : T N) (expz z : C N) : C N :=
  csubx N 14 (csubp N 13 (cmul N 11 expz (caddpx N 10 mp pd z b)) mn pd) z d.

(** one batch: load, compute, store *)
Definition i0_batch (a b c d : T N) (arr : list (C N)) (i : nat) : res (list (C N)) :=
  let! ez := load exp_z_array i in
  let! z := load z_array i in
  store arr i (map2 (i0_lane a b c d) ez z).

(** one scalar iteration *)
Definition i0_one (mp b mn d pd : T N) (arr : list (C N)) (i : nat) : res (list (C N)) :=
  let! ez := znth exp_z_array (Z.of_nat i) in
  let! z := znth z_array (Z.of_nat i) in
  zset arr (Z.of_nat i) (i0_scalar mp b mn d pd ez z).

Definition computeI0 (w : WT N) (wf : Z) (arr : list (C N)) (mipmap_idx : Z)
           (idx_prev_bound idx_next_bound : Z)
           (phase_diff prev_phase_red_bar phase_red_bar : T N) : res (list (C N)) :=
  let! m_span := wt_m N w wf mipmap_idx in
  let! q_span := wt_q N w wf mipmap_idx in
  let! mp := znth m_span idx_prev_bound in
  let! qp := znth q_span idx_prev_bound in
  let! mn := znth m_span idx_next_bound in
  let! qn := znth q_span idx_next_bound in
  let part_a := tmul N mp phase_diff in
  let part_b := tmad N 1 mp prev_phase_red_bar qp in
  let part_c := tmul N mn phase_diff in
  let part_d := tmad N 2 mn phase_red_bar qn in
  let! arr1 := foldr (i0_batch part_a part_b part_c part_d)
                     (wholeStarts B kNumCoeffs) arr in
  if usePartialBatch B kNumCoeffs
  then i0_batch part_a part_b part_c part_d arr1 (kWholeSize B kNumCoeffs)
  else foldr (i0_one mp part_b mn part_d phase_diff)
             (seq (kWholeSize B kNumCoeffs) (kPartialSize B kNumCoeffs)) arr1.

(** ** computeISumFwd / computeISumBwd -- adwt/adwt.cpp:161-246, 248-334 *)
(** the term of one segment boundary, one SIMD lane -- adwt/adwt.cpp:202-210, 291-299 *)
Definition sum_lane (a pd ph md qd : T N) (z : C N) : C N * C N :=
  let tmp0 := cfma N z (cbc N ph) (cbc N pd) in
  let tmp1 := cxmul N tmp0 (cbc N md) in
  let tmp2 := cfma N z (cbc N qd) tmp1 in
  let tmp3 := txexp N (cxmul N z (cbc N a)) in
  (tmp3, tmp2).
(** adwt/adwt.cpp:213 (fwd: fma, add) and 302 (bwd: fnma, subtract) *)
Definition sum_lane_upd (fwd : bool) (a pd ph md qd : T N) (z isum : C N) : C N :=
  let (t3, t2) := sum_lane a pd ph md qd z in
  if fwd then cfma N t3 t2 isum else cfnma N t3 t2 isum.
(** scalar version -- adwt/adwt.cpp:238-242 (+=) and 326-330 (-=) *)
Definition sum_scalar_upd (fwd : bool) (a pd ph md qd : T N) (z isum : C N) : C N :=
  let t := cmul N 23 (tcexp N (cscale N z a))
                  (caddx N 21 z qd (caddfx N 20 pd z ph) md) in
  if fwd then cadd N isum t else csub N isum t.

Definition sum_batch (fwd : bool) (a pd ph md qd : T N) (arr : list (C N)) (i : nat)
  : res (list (C N)) :=
  let! z := load z_array i in
  let! s := load arr i in
  store arr i (map2 (sum_lane_upd fwd a pd ph md qd) z s).
Definition sum_one (fwd : bool) (a pd ph md qd : T N) (arr : list (C N)) (i : nat)
  : res (list (C N)) :=
  let! z := znth z_array (Z.of_nat i) in
  let! s := znth arr (Z.of_nat i) in
  zset arr (Z.of_nat i) (sum_scalar_upd fwd a pd ph md qd z s).

(** all orders for one boundary -- adwt/adwt.cpp:197-244, 286-332 *)
Definition sum_orders (fwd : bool) (a pd ph md qd : T N) (arr : list (C N))
  : res (list (C N)) :=
  let! arr1 := foldr (sum_batch fwd a pd ph md qd) (wholeStarts B kNumCoeffs) arr in
  if usePartialBatch B kNumCoeffs
  then sum_batch fwd a pd ph md qd arr1 (kWholeSize B kNumCoeffs)
  else foldr (sum_one fwd a pd ph md qd)
             (seq (kWholeSize B kNumCoeffs) (kPartialSize B kNumCoeffs)) arr1.

(** one iteration of the boundary loop of computeISumFwd -- adwt/adwt.cpp:183-245 *)
Definition sumFwd_iter (ph md qd : list (T N)) (waveform_len jmax_p_red : Z)
           (phase_diff phase_red : T N) (arr : list (C N)) (i : Z) : res (list (C N)) :=
  let! i_red := reduceZ dbg i waveform_len in
  let phase_red_bar := tadd N phase_red (tofZ N (b2z (jmax_p_red <? i_red))) in
  let! p := znth ph (i_red + 1) in
  let! mdi := znth md i_red in
  let! qdi := znth qd i_red in
  let part_a := tquo N 70 (tsub N phase_red_bar p) phase_diff in
  sum_orders true part_a phase_diff p mdi qdi arr.

(** the range of the boundary loop -- adwt/adwt.cpp:167-168,183 and 255-256,272 *)
Definition bornSup (waveform_len jmin_red jmax_p_red : Z) : res Z :=
  chk (jmax_p_red + waveform_len * b2z (jmax_p_red <? jmin_red)).

(** Oscillator::computeISumFwd -- adwt/adwt.cpp:161-246 *)
Definition computeISumFwd (w : WT N) (wf : Z) (arr : list (C N)) (mipmap_idx : Z)
           (jmin_red jmax_p_red : Z) (phase_diff phase_red : T N) : res (list (C N)) :=
  let! waveform_len := wt_waveformLen N w mipmap_idx in
  let! born_sup := bornSup waveform_len jmin_red jmax_p_red in
  let! md := wt_mDiff N w wf mipmap_idx in
  let! qd := wt_qDiff N w wf mipmap_idx in
  let! ph := wt_phases N w mipmap_idx in
  foldr (sumFwd_iter ph md qd waveform_len jmax_p_red phase_diff phase_red)
        (zrange jmin_red born_sup) arr.

(** one iteration of the boundary loop of computeISumBwd -- adwt/adwt.cpp:272-333 *)
Definition sumBwd_iter (ph md qd : list (T N)) (waveform_len jmax_p_red : Z)
           (cycle_offset phase_diff phase_red : T N) (arr : list (C N)) (i : Z)
  : res (list (C N)) :=
  let! i_red := reduceZ dbg i waveform_len in
  let phase_red_bar := tadd N (tadd N phase_red cycle_offset)
                              (tofZ N (b2z (jmax_p_red <? i_red))) in
  let! p := znth ph (i_red + 1) in
  let! mdi := znth md i_red in
  let! qdi := znth qd i_red in
  let part_a := tquo N 71 (tsub N phase_red_bar p) phase_diff in
  sum_orders false part_a phase_diff p mdi qdi arr.

(** Oscillator::computeISumBwd -- adwt/adwt.cpp:248-334 *)
Definition computeISumBwd (w : WT N) (wf : Z) (arr : list (C N)) (mipmap_idx : Z)
           (jmin jmin_red jmax_p_red : Z) (phase_diff phase_red : T N) : res (list (C N)) :=
  let! _ := assert_ dbg (tlt N phase_diff (t0 N)) in
  let! waveform_len := wt_waveformLen N w mipmap_idx in
  let! born_sup := bornSup waveform_len jmin_red jmax_p_red in
  let cycle_offset := if negb (jmin =? 0) && (jmax_p_red <? jmin_red)
                      then tofZ N (-1) else t0 N in
  let! md := wt_mDiff N w wf mipmap_idx in
  let! qd := wt_qDiff N w wf mipmap_idx in
  let! ph := wt_phases N w mipmap_idx in
  foldr (sumBwd_iter ph md qd waveform_len jmax_p_red cycle_offset phase_diff phase_red)
        (zrange jmin_red born_sup) arr.

(** Oscillator::computeBwdI -- adwt/adwt.cpp:336-353 *)
Definition computeBwdI (w : WT N) (wf : Z) (prev_phase_red : T N) (arr : list (C N))
           (mipmap_idx : Z) (jmin jmin_red jmax_p_red : Z) (phase_diff phase_red : T N)
  : res (list (C N)) :=
  let! _ := assert_ dbg (tlt N phase_diff (t0 N)) in
  let phase_red_bar := tadd N phase_red (tofZ N (b2z (teq N phase_red (t0 N)))) in
  let! arr1 := computeI0 w wf arr mipmap_idx jmax_p_red jmin_red phase_diff
                         prev_phase_red phase_red_bar in
  computeISumBwd w wf arr1 mipmap_idx jmin jmin_red jmax_p_red phase_diff phase_red.

(** Oscillator::computeFwdI -- adwt/adwt.cpp:355-369 *)
Definition computeFwdI (w : WT N) (wf : Z) (prev_phase_red : T N) (arr : list (C N))
           (mipmap_idx : Z) (jmin_red jmax_p_red : Z) (phase_diff phase_red : T N)
  : res (list (C N)) :=
  let prev_phase_red_bar :=
    tadd N prev_phase_red (tofZ N (b2z (teq N prev_phase_red (t0 N)))) in
  let! arr1 := computeI0 w wf arr mipmap_idx jmin_red jmax_p_red phase_diff
                         prev_phase_red_bar phase_red in
  computeISumFwd w wf arr1 mipmap_idx jmin_red jmax_p_red phase_diff phase_red.

(** the crossfade loops -- adwt/adwt.cpp:469-479, 575-585 *)
Definition crossfadeArr (a up : list (C N)) (wgt wgt_up : T N) : list (C N) :=
  let mix := fun x y => caddx N 30 x wgt y wgt_up in
  if usePartialBatch B kNumCoeffs then map2 mix a up
  else map2 mix (firstn kNumCoeffs a) (firstn kNumCoeffs up) ++ skipn kNumCoeffs a.

(** formula (10), one order -- adwt/adwt.cpp:487, 593 *)
Definition yStep (y r zp2 ez i : C N) : C N :=
  cadd N (cmul N 40 ez y) (cmul N 42 (cscale N r (t2 N)) (cdiv N 44 i zp2)).
(** iter::zip over the seven arrays -- adwt/adwt.cpp:483-488, 589-594 *)
Fixpoint yLoop (y r zp2 ez i : list (C N)) : list (C N) :=
  match y, r, zp2, ez, i with
  | y1 :: y', r1 :: r', p1 :: p', e1 :: e', i1 :: i' =>
      yStep y1 r1 p1 e1 i1 :: yLoop y' r' p' e' i'
  | _, _, _, _, _ => []
  end.
(** std::accumulate(...).real() -- adwt/adwt.cpp:491-493, 597-599, in the order of the source
    or, since -ffast-math lets the compiler vectorise this loop, in any other *)
Definition yOut (y : list (C N)) : T N :=
  if addsUp (torder N (length y)) (length y)
  then treeSum (tadd N) (t0 N) (map fst y) (torder N (length y))
  else fst (fold_left (cadd N) y (c0 N)).

(** adjusting j_red_ when the mipmap entry changes -- adwt/adwt.cpp:422-435 and, verbatim,
    516-529 *)
Definition adjustJ (ph : list (T N)) (mipmap_idx prev_mipmap_idx j : Z)
           (prev_pd prev_phred : T N) : res Z :=
  if prev_mipmap_idx <? mipmap_idx then ishr j (mipmap_idx - prev_mipmap_idx)
  else if mipmap_idx <? prev_mipmap_idx then
    let! j' := ishl j (prev_mipmap_idx - mipmap_idx) in
    if tlt N (t0 N) prev_pd then
      let! p := znth ph (j' + 1) in chk (j' + b2z (tlt N p prev_phred))
    else
      let! p := znth ph (j' - 1) in chk (j' - b2z (tlt N prev_phred p))
  else Ok j.

(** all indices of one forward sample -- adwt/adwt.cpp:414-448: new table (cross-fader
    advanced), gains, (jmin_red, jmax_p_red), reduced phase, new j_red_, new prev_j_red_ *)
Record Idx : Type := mkIdx {
  ix_wt : WT N; ix_mi : Z; ix_w : T N; ix_mu : Z; ix_wu : T N;
  ix_phred : T N; ix_len : Z; ix_j : Z; ix_pj : Z; ix_jmin : Z;
  ix_jmin_red : Z; ix_jmax_p_red : Z }.

Definition idxFwd (o : Osc N) (w : WT N) (phase phase_diff : T N) : res Idx :=
  let! _ := assert_ dbg (tlt N (t0 N) phase_diff && tle N phase_diff (tfrac N 1 2)) in
  let! (w', (mi, wg, mu, wgu)) := wt_findMipMapIndices N dbg w phase_diff in
  let! ph := wt_phases N w' mi in
  let! phred := reduceT N dbg phase (t1 N) in
  let! len := wt_waveformLen N w' mi in
  let! j := adjustJ ph mi (o_mm o) (o_j o) (o_pd o) (o_phred o) in
  let! pj := (if tle N (t0 N) (o_pd o)
              then let! p := znth ph j in chk (j + msign N (tsub N (o_phred o) p))
              else Ok j) in
  let! j' := mfloor N (tmul N phred (tofZ N len)) in
  let! jm := chk (pj - 1) in
  let! jmin_red := reduceZ dbg jm len in
  let! jmax_p_red := reduceZ dbg j' len in
  Ok (mkIdx w' mi wg mu wgu phred len j' pj pj jmin_red jmax_p_red).

(** all indices of one backward sample -- adwt/adwt.cpp:506-554 *)
Definition idxBwd (o : Osc N) (w : WT N) (phase phase_diff : T N) : res Idx :=
  let! _ := assert_ dbg (tlt N phase_diff (t0 N) && tle N (tfrac N (-1) 2) phase_diff) in
  let! (w', (mi, wg, mu, wgu)) := wt_findMipMapIndices N dbg w (tabs N phase_diff) in
  let! ph := wt_phases N w' mi in
  let! phred := reduceT N dbg phase (t1 N) in
  let! len := wt_waveformLen N w' mi in
  let! j := adjustJ ph mi (o_mm o) (o_j o) (o_pd o) (o_phred o) in
  let! pj := (if tle N (o_pd o) (t0 N)
              then let! p := znth ph j in chk (j + msign N (tsub N (o_phred o) p))
              else Ok j) in
  let! j' := mceil N (tmul N phred (tofZ N len)) in
  let! jm := chk (j' - 1) in
  let! jmin_red := reduceZ dbg jm len in
  let! jmax_p_red := reduceZ dbg pj len in
  Ok (mkIdx w' mi wg mu wgu phred len j' pj j' jmin_red jmax_p_red).

(** value-initialised std::array<std::complex<float>, kUpperNumCoeffs> *)
Definition zeroArr : list (C N) := repeat (c0 N) kUpper.

(** common tail of both sample functions -- adwt/adwt.cpp:482-500, 588-606 *)
Definition finish (o : Osc N) (x : Idx) (phase phase_diff : T N) (icpx : list (C N))
  : Osc N * T N :=
  let y := yLoop (o_y o) r_array z_pow2_array exp_z_array icpx in
  (mkOsc (Some (ix_wt x)) y phase (ix_phred x) phase_diff (ix_mi x) (ix_j x) (ix_pj x)
         (o_wf o), yOut y).

(** Oscillator::processSampleFwd -- adwt/adwt.cpp:409-501 *)
Definition processSampleFwd (o : Osc N) (w : WT N) (phase phase_diff : T N)
  : res (Osc N * T N) :=
  let! x := idxFwd o w phase phase_diff in
  let! a := computeFwdI (ix_wt x) (o_wf o) (o_phred o) zeroArr (ix_mi x)
                        (ix_jmin_red x) (ix_jmax_p_red x) phase_diff (ix_phred x) in
  let! icpx :=
    (if negb (teq N (ix_wu x) (t0 N)) then
       let! up := computeFwdI (ix_wt x) (o_wf o) (o_phred o) zeroArr (ix_mu x)
                              (Z.quot (ix_jmin_red x) 2) (Z.quot (ix_jmax_p_red x) 2)
                              phase_diff (ix_phred x) in
       Ok (crossfadeArr a up (ix_w x) (ix_wu x))
     else Ok a) in
  Ok (finish o x phase phase_diff icpx).

(** Oscillator::processSampleBwd -- adwt/adwt.cpp:503-607 *)
Definition processSampleBwd (o : Osc N) (w : WT N) (phase phase_diff : T N)
  : res (Osc N * T N) :=
  let! x := idxBwd o w phase phase_diff in
  let! a := computeBwdI (ix_wt x) (o_wf o) (o_phred o) zeroArr (ix_mi x) (ix_jmin x)
                        (ix_jmin_red x) (ix_jmax_p_red x) phase_diff (ix_phred x) in
  let! icpx :=
    (if negb (teq N (ix_wu x) (t0 N)) then
       let! up := computeBwdI (ix_wt x) (o_wf o) (o_phred o) zeroArr (ix_mu x) (ix_jmin x)
                              (Z.quot (ix_jmin_red x) 2) (Z.quot (ix_jmax_p_red x) 2)
                              phase_diff (ix_phred x) in
       Ok (crossfadeArr a up (ix_w x) (ix_wu x))
     else Ok a) in
  Ok (finish o x phase phase_diff icpx).

(** enum class Direction -- adwt/direction.hpp:30 *)
Inductive Direction : Type := kForward | kBidirectionnal.

(** phase step of processFwd -- adwt/adwt.cpp:377-380 *)
Definition stepFwd (phase prev : T N) : T N :=
  let pd := tsub N phase prev in
  if tlt N pd (t0 N) then tadd N pd (t1 N) else pd.
(** phase step of processBi -- adwt/adwt.cpp:394-399 *)
Definition stepBi (phase prev : T N) : T N :=
  let pd := tsub N phase prev in
  if tlt N pd (tfrac N (-1) 2) then tadd N pd (t1 N)
  else if tlt N (tfrac N 1 2) pd then tsub N pd (t1 N)
  else pd.

(** one iteration of the sample loops -- adwt/adwt.cpp:376-384 and 392-406.
    The null pointer is dereferenced by the sample function. *)
Definition processOne (dir : Direction) (o : Osc N) (phase : T N) : res (Osc N * T N) :=
  match o_wt o with
  | None => Fault NullDeref
  | Some w =>
    match dir with
    | kForward =>
        let pd := stepFwd phase (o_phase o) in
        let! _ := assert_ dbg (tlt N (t0 N) pd && tle N pd (tfrac N 1 2)) in
        processSampleFwd o w phase pd
    | kBidirectionnal =>
        let pd := stepBi phase (o_phase o) in
        if tle N (t0 N) pd then processSampleFwd o w phase pd
        else processSampleBwd o w phase pd
    end
  end.

(** the loop: iter::zip(phases, output) stops at the shorter span; elements of [output]
    beyond it are untouched *)
Fixpoint processLoop (dir : Direction) (o : Osc N) (phases output : list (T N))
  : res (Osc N * list (T N)) :=
  match phases, output with
  | p :: ps, _ :: out =>
      let! (o1, y) := processOne dir o p in
      let! (o2, ys) := processLoop dir o1 ps out in
      Ok (o2, y :: ys)
  | _, _ => Ok (o, output)
  end.

Definition is_some {A} (o : option A) : bool := match o with Some _ => true | None => false end.

(** Oscillator::process -- adwt/adwt.hpp:149-156, processFwd / processBi --
    adwt/adwt.cpp:371-407 (asserts: 374-375, 390-391) *)
Definition process (dir : Direction) (o : Osc N) (phases output : list (T N))
  : res (Osc N * list (T N)) :=
  let! _ := assert_ dbg (is_some (o_wt o)) in
  let! _ := assert_ dbg (zlen phases =? zlen output) in
  processLoop dir o phases output.

(** Oscillator::Oscillator -- adwt/adwt.cpp:39-45, default member initialisers
    adwt/adwt.hpp:400-409 *)
Definition osc_new : Osc N :=
  mkOsc None (repeat (c0 N) kNumCoeffs) (t0 N) (t0 N) (t0 N) 0 0 0 0.

(** Oscillator::resetInternals -- adwt/adwt.cpp:73-90 *)
Definition resetInternals (o : Osc N) (init_phase init_phase_diff : T N) : res (Osc N) :=
  let! _ := assert_ dbg (is_some (o_wt o)) in
  match o_wt o with
  | None => Fault NullDeref
  | Some w =>
    let! phred := reduceT N dbg init_phase (t1 N) in
    let! (w', (mi, _, _, _)) := wt_findMipMapIndices N dbg w (tabs N init_phase_diff) in
    let! len := wt_waveformLen N w' mi in
    let! j := (if tle N (t0 N) init_phase_diff
               then mfloor N (tmul N phred (tofZ N len))
               else mceil N (tmul N phred (tofZ N len))) in
    Ok (mkOsc (Some w') (repeat (c0 N) kNumCoeffs) init_phase phred init_phase_diff
              mi j (o_pj o) (o_wf o))
  end.

Definition set_wt (o : Osc N) (w : option (WT N)) : Osc N :=
  mkOsc w (o_y o) (o_phase o) (o_phred o) (o_pd o) (o_mm o) (o_j o) (o_pj o) (o_wf o).
Definition set_wf (o : Osc N) (k : Z) : Osc N :=
  mkOsc (o_wt o) (o_y o) (o_phase o) (o_phred o) (o_pd o) (o_mm o) (o_j o) (o_pj o) k.

(** Oscillator::init -- adwt/adwt.cpp:48-58; returns the status code *)
Definition osc_init (o : Osc N) (wd : option (WT N)) (p d : T N) : res (Osc N * Z) :=
  match wd with
  | None => Ok (o, 1)
  | Some w =>
      let! o1 := resetInternals (set_wt o (Some w)) p d in
      Ok (set_wf o1 0, 0)
  end.

(** Oscillator::swapWavetable -- adwt/adwt.cpp:60-71; returns the old table *)
Definition osc_swap (o : Osc N) (wd : option (WT N)) (p d : T N)
  : res (Osc N * option (WT N)) :=
  match wd with
  | None => Ok (o, None)
  | Some w =>
      let! o1 := resetInternals (set_wt o (Some w)) p d in
      Ok (set_wf o1 0, o_wt o)
  end.

(** default init_state = (0.F, 0.4F) -- adwt/adwt.hpp:100,114 *)
Definition defaultInit : T N * T N := (t0 N, tfrac N 4 10).

(** Oscillator::updateSamplerate -- adwt/adwt.hpp:134-137 *)
Definition osc_updateSamplerate (o : Osc N) (samplerate : T N) : res (Osc N) :=
  let! _ := assert_ dbg (is_some (o_wt o)) in
  match o_wt o with
  | None => Fault NullDeref
  | Some w =>
      let! w' := wt_updateSamplerate N src dbg w samplerate (defaultFade N) in
      Ok (set_wt o (Some w'))
  end.

(** Oscillator::setWaveform -- adwt/adwt.hpp:178-181 *)
Definition setWaveform (o : Osc N) (k : Z) : res (Osc N) :=
  let! _ := assert_ dbg (is_some (o_wt o)) in
  Ok (set_wf o k).

(** getters -- adwt/adwt.hpp:162-196 *)
Definition osc_numWaveforms (o : Osc N) : res Z :=
  match o_wt o with None => Fault NullDeref | Some w => Ok (wt_numWaveforms N w) end.
Definition crtWaveform (o : Osc N) : Z := o_wf o.
Definition prevPhase (o : Osc N) : T N := o_phase o.
Definition prevPhaseDiff (o : Osc N) : T N := o_pd o.

(** ** Histories of API calls *)
Inductive Op : Type :=
| OpInit (wd : option (WT N)) (p d : T N)
| OpSwap (wd : option (WT N)) (p d : T N)
| OpReset (p d : T N)
| OpSetWaveform (k : Z)
| OpUpdateSamplerate (sr : T N)
| OpProcess (dir : Direction) (phases : list (T N)).

(** one call; process calls return their samples (the output span has the size of the
    phase span) *)
Definition apply (o : Osc N) (op : Op) : res (Osc N * list (T N)) :=
  match op with
  | OpInit wd p d => let! (o', _) := osc_init o wd p d in Ok (o', [])
  | OpSwap wd p d => let! (o', _) := osc_swap o wd p d in Ok (o', [])
  | OpReset p d => let! o' := resetInternals o p d in Ok (o', [])
  | OpSetWaveform k => let! o' := setWaveform o k in Ok (o', [])
  | OpUpdateSamplerate sr => let! o' := osc_updateSamplerate o sr in Ok (o', [])
  | OpProcess dir ps => process dir o ps (map (fun _ => t0 N) ps)
  end.

Fixpoint run (o : Osc N) (ops : list Op) : res (Osc N * list (T N)) :=
  match ops with
  | [] => Ok (o, [])
  | op :: rest =>
      let! (o1, ys) := apply o op in
      let! (o2, zs) := run o1 rest in
      Ok (o2, ys ++ zs)
  end.

End Osc.

(** The shipped filters -- adwt/adwt.cpp:609-613, adwt/adwt.hpp:353-383 *)
Definition filt (N : Num) (f : FilterType) : Filt N :=
  mkFilt (rCoeffs N f) (zCoeffs N f) (zPow2 N f) (zExp N f).
