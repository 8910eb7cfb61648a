(** * Wavetable: adwt/wavetable_data.hpp and adwt/wavetable_data.cpp *)
From Coq Require Import ZArith List Bool.
From Verif Require Import Num Maths CrossFader.
Import ListNotations.
Local Open Scope Z_scope.

(** One (waveform, mipmap) slot: the four vectors written by computeMQVector.
    adwt/wavetable_data.hpp:185-188 stores them as m_[w][k], q_[w][k], m_diff_[w][k],
    q_diff_[w][k]; the model keeps the four together. *)
Record Slot (N : Num) : Type := mkSlot {
  s_m : list (T N); s_q : list (T N); s_md : list (T N); s_qd : list (T N) }.
Arguments mkSlot {N}. Arguments s_m {N}. Arguments s_q {N}.
Arguments s_md {N}. Arguments s_qd {N}.

(** class WavetableData, data members -- adwt/wavetable_data.hpp:185-190 *)
Record WT (N : Num) : Type := mkWT {
  wt_slots : list (list (Slot N));   (* [w][k] *)
  wt_ph : list (list (T N));         (* phases_ *)
  wt_cf : CF N                       (* cross_fader_ *)
}.
Arguments mkWT {N}. Arguments wt_slots {N}. Arguments wt_ph {N}. Arguments wt_cf {N}.

(** Answer of libsamplerate's [src_simple]: error code, input_frames_used,
    output_frames_gen, and what it wrote to the output buffer. *)
Record SrcOut (N : Num) : Type := mkSrcOut {
  so_err : Z; so_used : Z; so_gen : Z; so_data : list (T N) }.
Arguments mkSrcOut {N}. Arguments so_err {N}. Arguments so_used {N}.
Arguments so_gen {N}. Arguments so_data {N}.

(** the resampler: input buffer, integer ratio (src_ratio = 1/ratio), capacity of the
    output buffer *)
Definition Resampler (N : Num) : Type := list (T N) -> Z -> Z -> SrcOut N.

Section Wavetable.
Variable N : Num.
Variable src : Resampler N.
Variable dbg : bool.

(** ** Accessors *)
(** WavetableData::numWaveforms -- adwt/wavetable_data.hpp:146-148 *)
Definition wt_numWaveforms (w : WT N) : Z := zlen (wt_slots w).
(** WavetableData::numMipMapTables -- adwt/wavetable_data.hpp:153-155 *)
Definition wt_numMipMapTables (w : WT N) : Z := cf_numMipMapTables N (wt_cf w).
(** m_[waveform][mipmap] and friends -- adwt/wavetable_data.hpp:101-134 *)
Definition wt_slot (w : WT N) (waveform mipmap : Z) : res (Slot N) :=
  let! ws := znth (wt_slots w) waveform in znth ws mipmap.
Definition wt_m (w : WT N) (waveform mipmap : Z) : res (list (T N)) :=
  let! s := wt_slot w waveform mipmap in Ok (s_m s).
Definition wt_q (w : WT N) (waveform mipmap : Z) : res (list (T N)) :=
  let! s := wt_slot w waveform mipmap in Ok (s_q s).
Definition wt_mDiff (w : WT N) (waveform mipmap : Z) : res (list (T N)) :=
  let! s := wt_slot w waveform mipmap in Ok (s_md s).
Definition wt_qDiff (w : WT N) (waveform mipmap : Z) : res (list (T N)) :=
  let! s := wt_slot w waveform mipmap in Ok (s_qd s).
(** WavetableData::phases -- adwt/wavetable_data.hpp:140-142 *)
Definition wt_phases (w : WT N) (mipmap : Z) : res (list (T N)) := znth (wt_ph w) mipmap.
(** WavetableData::waveformLen -- adwt/wavetable_data.hpp:159-161 *)
Definition wt_waveformLen (w : WT N) (mipmap : Z) : res Z :=
  let! m := wt_m w 0 mipmap in Ok (zlen m).
(** WavetableData::findMipMapIndices -- adwt/wavetable_data.hpp:166-169 *)
Definition wt_findMipMapIndices (w : WT N) (d : T N) : res (WT N * MMI N) :=
  let! (cf, mmi) := newIndices N dbg (wt_cf w) d in
  Ok (mkWT (wt_slots w) (wt_ph w) cf, mmi).

(** ** Table computation *)
(** computeM -- adwt/wavetable_data.cpp:43-45 (arguments promoted to double) *)
Definition computeM (x0 x1 y0 y1 : T N) : T N :=
  let x0 := t2d N x0 in let x1 := t2d N x1 in let y0 := t2d N y0 in let y1 := t2d N y1 in
  d2t N (ddiv N (dsub N y1 y0) (dsub N x1 x0)).

(** computeQ -- adwt/wavetable_data.cpp:47-49 *)
Definition computeQ (x0 x1 y0 y1 : T N) : T N :=
  let x0 := t2d N x0 in let x1 := t2d N x1 in let y0 := t2d N y0 in let y1 := t2d N y1 in
  d2t N (ddiv N (ddotm N 61 y0 (dsub N x1 x0) x0 (dsub N y1 y0))
                (dsub N x1 x0)).

(** the first loop of computeMQVector -- adwt/wavetable_data.cpp:179-187 *)
Definition mqAt (ph wf : list (T N)) (i : Z) : res (T N * T N) :=
  let len := zlen wf in
  let! y0 := znth wf i in
  let! y1 := znth wf (Z.rem (i + 1) len) in
  let! x0 := znth ph i in
  let! x1 := znth ph (i + 1) in
  Ok (computeM x0 x1 y0 y1, computeQ x0 x1 y0 y1).

(** one difference of the second loop -- adwt/wavetable_data.cpp:190-193 *)
Definition diffAt (v : list (T N)) (i : Z) : res (T N) :=
  let! b := znth v (Z.rem (i + 1) (zlen v)) in
  let! a := znth v i in
  Ok (tsub N b a).

(** WavetableData::computeMQVector -- adwt/wavetable_data.cpp:152-195.
    Simplification: returns the slot it fills (each slot is written exactly once, into
    pre-sized vectors); the asserts on those sizes (lines 154-162) hold by construction
    except [!phases_.empty()], which is modelled in [buildWaveform]. *)
Definition computeMQVector (ph wf : list (T N)) : res (Slot N) :=
  let len := zlen wf in
  let! mq := mapr (mqAt ph wf) (zrange 0 len) in
  let m := map fst mq in
  let q := map snd mq in
  let! md := mapr (diffAt m) (zrange 0 len) in
  let! qd := mapr (diffAt q) (zrange 0 len) in
  let! last := znth qd (len - 1) in            (* line 194: q_diff[len-1] -= m[0] *)
  let! m0 := znth m 0 in
  let! qd' := zset qd (len - 1) (tsub N last m0) in
  Ok (mkSlot m q md qd').

(** WavetableData::computePhaseVector -- adwt/wavetable_data.cpp:217-224 *)
Definition computePhaseVector (waveform_len : Z) : list (T N) :=
  map (fun i => tdiv N (tofZ N i) (tofZ N waveform_len)) (zrange 0 (waveform_len + 1)).

(** WavetableData::computePhaseVectors -- adwt/wavetable_data.cpp:197-215.
    Simplification: always called on an empty phases_ (only from the constructor), so
    only the growing branch with prev_num = 0 is modelled. *)
Definition computePhaseVectors (og_waveform_len num_mm_tables : Z) : res (list (list (T N))) :=
  mapr (fun mm_idx =>
          let! d := ishl 1 mm_idx in
          Ok (computePhaseVector (Z.quot og_waveform_len d)))
       (zrange 0 num_mm_tables).

(** WavetableData::downsampleWaveform -- adwt/wavetable_data.cpp:250-295.
    Returns the empty vector on failure.  The oracle's data is cut / zero-padded to the
    capacity of out_multiple: src_simple is trusted not to write past the buffer. *)
Definition downsampleWaveform (wf : list (T N)) (ratio : Z) : res (list (T N)) :=
  let in_size := zlen wf in
  let out_size := Z.quot in_size ratio in
  let! in_total := chk (in_size * 5) in
  let! out_total := chk (out_size * 5) in
  let in_multiple := concat (repeat wf 5) in
  let o := src in_multiple ratio out_total in
  let out_multiple := firstn (Z.to_nat out_total)
                             (so_data o ++ repeat (t0 N) (Z.to_nat out_total)) in
  if negb (so_err o =? 0) then Ok []
  else if negb (so_used o =? in_total) || negb (so_gen o =? out_total) then Ok []
  else Ok (firstn (Z.to_nat out_size) (skipn (Z.to_nat (out_size * 2)) out_multiple)).

(** libsamplerate's maximal ratio exponent -- adwt/wavetable_data.cpp:80 *)
Definition kMaxLibSamplerate : Z := 8.

(** body of the mipmap loop of the constructor for one mipmap index >= 1
    -- adwt/wavetable_data.cpp:87-111.  [st] = (slots so far, intermediate tables).
    Note line 97: std::move of a const vector copies, so ds_waveform stays usable. *)
Definition mipmapStep (phs : list (list (T N))) (og : list (T N)) (num_intermediate : Z)
           (st : list (Slot N) * list (list (T N))) (mipmap_idx : Z)
  : res (list (Slot N) * list (list (T N))) :=
  let (slots, inter) := st in
  if mipmap_idx <=? kMaxLibSamplerate then
    let! ratio := ishl 2 (mipmap_idx - 1) in
    let! ds := downsampleWaveform og ratio in
    if zlen ds =? 0 then Fault RuntimeError
    else
      let! inter' := (if mipmap_idx <=? num_intermediate
                      then zset inter (mipmap_idx - 1) ds else Ok inter) in
      let! ph := znth phs mipmap_idx in
      let! s := computeMQVector ph ds in
      Ok (slots ++ [s], inter')
  else
    let! srcw := znth inter (mipmap_idx - kMaxLibSamplerate - 1) in
    let! ds := downsampleWaveform srcw 256 in
    if zlen ds =? 0 then Fault RuntimeError
    else
      let! ph := znth phs mipmap_idx in
      let! s := computeMQVector ph ds in
      Ok (slots ++ [s], inter).

(** body of the waveform loop of the constructor -- adwt/wavetable_data.cpp:68-112 *)
Definition buildWaveform (num_mm : Z) (phs : list (list (T N))) (og : list (T N))
  : res (list (Slot N)) :=
  (* computeMQVector(og, w, 0): line 162 assert, then m_[w][0] and phases(0) *)
  let! _ := assert_ dbg (negb (zlen phs =? 0)) in
  let! _ := (if num_mm <=? 0 then Fault OutOfBounds else Ok tt) in
  let! ph0 := znth phs 0 in
  let! s0 := computeMQVector ph0 og in
  let num_intermediate := Z.max (num_mm - kMaxLibSamplerate - 1) 0 in
  let inter := repeat [] (Z.to_nat num_intermediate) in
  let! (slots, _) := foldr (mipmapStep phs og num_intermediate) (zrange 1 num_mm)
                           ([s0], inter) in
  Ok slots.

(** Span::subspan(offset, count): precondition offset + count <= size *)
Definition subspan (l : list (T N)) (off cnt : Z) : res (list (T N)) :=
  if (0 <=? off) && (0 <=? cnt) && (off + cnt <=? zlen l)
  then Ok (firstn (Z.to_nat cnt) (skipn (Z.to_nat off) l)) else Fault OutOfBounds.

(** WavetableData::WavetableData -- adwt/wavetable_data.cpp:52-113 *)
Definition wt_construct (waveforms : list (T N)) (num_waveforms : Z) (samplerate : T N)
           (crossfade_samples og_waveform_len : Z) : res (WT N) :=
  let! cf := cf_make N dbg crossfade_samples og_waveform_len samplerate in
  let! tot := chk (og_waveform_len * num_waveforms) in
  let! _ := assert_ dbg (tot =? zlen waveforms) in
  let num_mm := cf_numMipMapTables N cf in
  let! phs := computePhaseVectors og_waveform_len num_mm in
  let! slots := mapr (fun w =>
                        let! off := chk (w * og_waveform_len) in
                        let! og := subspan waveforms off og_waveform_len in
                        buildWaveform num_mm phs og)
                     (zrange 0 num_waveforms) in
  Ok (mkWT slots phs cf).

(** WavetableData::build -- adwt/wavetable_data.cpp:115-141.  [Ok None] is nullptr;
    std::runtime_error is caught (line 140), anything else escapes. *)
Definition wt_build (waveforms : list (T N)) (num_waveforms : Z) (samplerate : T N)
           (crossfade_duration_s : T N) : res (option (WT N)) :=
  if zlen waveforms =? 0 then Ok None
  else if num_waveforms <=? 0 then Ok None
  else if tle N samplerate (t0 N) then Ok None
  else if negb (Z.rem (zlen waveforms) num_waveforms =? 0) then Ok None
  else
    let waveform_len := Z.quot (wrap_int (zlen waveforms)) num_waveforms in
    let! pow2 := misPowerOfTwo N waveform_len in
    if negb pow2 then Ok None
    else
      let! crossfade_samples := tcast N (tmul N crossfade_duration_s samplerate) in
      match wt_construct waveforms num_waveforms samplerate crossfade_samples waveform_len with
      | Ok w => Ok (Some w)
      | Fault RuntimeError => Ok None
      | Fault f => Fault f
      end.

(** inner loop of rebuildWaveforms -- adwt/wavetable_data.cpp:241-244 (iter::zip stops at
    the shortest) *)
Fixpoint rebuildLoop (m q x : list (T N)) : list (T N) :=
  match m, q, x with
  | a :: m', b :: q', p :: x' => tmad N 60 a p b :: rebuildLoop m' q' x'
  | _, _, _ => []
  end.

(** WavetableData::rebuildWaveforms -- adwt/wavetable_data.cpp:226-248 *)
Definition rebuildWaveforms (w : WT N) : res (list (T N)) :=
  let! _ := assert_ dbg (negb (zlen (wt_ph w) =? 0)) in
  let n := wt_numWaveforms w in
  let! size := wt_waveformLen w 0 in
  let! _ := chk (n * size) in
  let! parts := mapr (fun k =>
                        let! m := wt_m w k 0 in
                        let! q := wt_q w k 0 in
                        let! x := wt_phases w 0 in
                        Ok (rebuildLoop m q x))
                     (zrange 0 n) in
  Ok (concat parts).

(** WavetableData::updateSamplerate -- adwt/wavetable_data.cpp:143-149 *)
Definition wt_updateSamplerate (w : WT N) (samplerate crossfade_duration_s : T N)
  : res (WT N) :=
  let! og := rebuildWaveforms w in
  let! nd := wt_build og (wt_numWaveforms w) samplerate crossfade_duration_s in
  match nd with
  | Some w' => Ok w'            (* std::swap( *this, *new_data ) *)
  | None => Fault NullDeref
  end.

(** default argument 0.005F of build / updateSamplerate -- wavetable_data.hpp:82,92 *)
Definition defaultFade : T N := tfrac N 5 1000.

End Wavetable.
