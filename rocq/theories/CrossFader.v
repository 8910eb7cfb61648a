(** * CrossFader: adwt/crossfading.hpp *)
From Coq Require Import ZArith List Bool.
From Verif Require Import Num Maths.
Import ListNotations.
Local Open Scope Z_scope.

(** class CrossFader, data members -- adwt/crossfading.hpp:126-130 *)
Record CF (N : Num) : Type := mkCF {
  cf_num : Z;                (* num_samples_ *)
  cf_scale : list (T N);     (* mipmap_scale_ *)
  cf_left : Z;               (* samples_left_ *)
  cf_prev : Z;               (* prev_idx_ *)
  cf_next : Z                (* next_idx_ *)
}.
Arguments mkCF {N}.
Arguments cf_num {N}. Arguments cf_scale {N}. Arguments cf_left {N}.
Arguments cf_prev {N}. Arguments cf_next {N}.

Section CrossFader.
Variable N : Num.

(** MipMapIndices -- adwt/crossfading.hpp:19: (lower idx, its gain, upper idx, its gain) *)
Definition MMI : Type := (Z * T N * Z * T N)%type.

(** CrossFader::computeNumMipMapTables -- adwt/crossfading.hpp:122-124 *)
Definition computeNumMipMapTables (waveform_len : Z) : res Z :=
  let! f := mfloor N (tlog2 N (tdiv N (tofZ N waveform_len) (tofZ N 4))) in
  chk (f + 1).

(** CrossFader::computeMipMapScale -- adwt/crossfading.hpp:108-120.
    [std::vector<float>(num)] with a negative [num] throws std::length_error.
    [static_cast<float>(std::pow(2.F, i))] is 2^i (exact for the i that occur).  The divisor
    stays the same in the loop (line 116): [tquo]. *)
Definition computeMipMapScale (waveform_len : Z) (samplerate : T N) : res (list (T N)) :=
  let start := tmul N (tdiv N samplerate (tofZ N waveform_len)) (t2 N) in
  let! num := computeNumMipMapTables waveform_len in
  if num <? 0 then Fault LengthError
  else Ok (map (fun i => tquo N 80 (tmul N start (tofZ N (2 ^ i))) samplerate)
               (zrange 0 num)).

(** the loop of CrossFader::findMipMapIndex -- adwt/crossfading.hpp:88-94: all entries of
    the scale but the last are compared *)
Fixpoint findLoop (d : T N) (scale : list (T N)) (i : Z) : Z :=
  match scale with
  | [] => i
  | s :: rest =>
      match rest with
      | [] => i
      | _ :: _ => if tlt N d s then i else findLoop d rest (i + 1)
      end
  end.

(** CrossFader::findMipMapIndex -- adwt/crossfading.hpp:85-97 *)
Definition findMipMapIndex (dbg : bool) (scale : list (T N)) (d : T N) : res Z :=
  let! _ := assert_ dbg (tlt N (t0 N) d) in
  Ok (findLoop d scale 0).

(** CrossFader::CrossFader -- adwt/crossfading.hpp:23-28 (init_phase_diff = 0.1F) *)
Definition cf_make (dbg : bool) (num_samples waveform_len : Z) (samplerate : T N)
  : res (CF N) :=
  let! scale := computeMipMapScale waveform_len samplerate in
  let! i := findMipMapIndex dbg scale (tfrac N 1 10) in
  Ok (mkCF num_samples scale 0 i i).

(** CrossFader::resetPhaseDiff -- adwt/crossfading.hpp:30-33 (called by nobody) *)
Definition cf_resetPhaseDiff (dbg : bool) (c : CF N) (d : T N) : res (CF N) :=
  let! i := findMipMapIndex dbg (cf_scale c) d in
  Ok (mkCF (cf_num c) (cf_scale c) (cf_left c) i i).

(** CrossFader::numMipMapTables -- adwt/crossfading.hpp:76-78 *)
Definition cf_numMipMapTables (c : CF N) : Z := zlen (cf_scale c).

(** CrossFader::computeFading -- adwt/crossfading.hpp:81-83 *)
Definition computeFading (c : CF N) : T N :=
  tdiv N (tofZ N (cf_left c)) (tofZ N (cf_num c)).

(** CrossFader::updateIndices -- adwt/crossfading.hpp:99-106.  The indices are bounded by
    the number of tables, so [+1]/[-1] are not range-checked. *)
Definition updateIndices (c : CF N) (new_idx : Z) : CF N :=
  mkCF (cf_num c) (cf_scale c) (cf_left c)
       (if cf_prev c <? new_idx then new_idx - 1 else new_idx + 1) new_idx.

Definition set_left (c : CF N) (l : Z) : CF N :=
  mkCF (cf_num c) (cf_scale c) l (cf_prev c) (cf_next c).
Definition set_prev (c : CF N) (p : Z) : CF N :=
  mkCF (cf_num c) (cf_scale c) (cf_left c) p (cf_next c).

(** tail of CrossFader::newIndices -- adwt/crossfading.hpp:69-73 *)
Definition fadeTuple (c : CF N) : MMI :=
  let fading := computeFading c in
  if cf_prev c <? cf_next c
  then (cf_prev c, fading, cf_next c, tsub N (t1 N) fading)
  else (cf_next c, tsub N (t1 N) fading, cf_prev c, fading).

(** CrossFader::newIndices -- adwt/crossfading.hpp:37-74 *)
Definition newIndices (dbg : bool) (c : CF N) (abs_phase_diff : T N) : res (CF N * MMI) :=
  let! new_idx := findMipMapIndex dbg (cf_scale c) abs_phase_diff in
  if negb (cf_left c =? 0) then
    (* already crossfading, lines 40-55 *)
    let! _ := assert_ dbg (negb (cf_prev c =? cf_next c)) in
    let c1 := if negb (new_idx =? cf_next c) && negb (new_idx =? cf_prev c)
              then updateIndices c new_idx else c in
    let! l := chk (cf_left c1 - 1) in
    let c2 := set_left c1 l in
    let c3 := if l =? 0 then set_prev c2 (cf_next c2) else c2 in
    Ok (c3, fadeTuple c3)
  else if new_idx =? cf_next c then
    (* no crossfading necessary, lines 58-62 *)
    let! _ := assert_ dbg (cf_prev c =? cf_next c) in
    Ok (c, (new_idx, t1 N, new_idx + 1, t0 N))
  else
    (* start crossfading, lines 64-67 *)
    let c1 := updateIndices (set_left c (cf_num c)) new_idx in
    Ok (c1, fadeTuple c1).

End CrossFader.
