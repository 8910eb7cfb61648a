(** * SpecE: the ideal the exact-arithmetic statements compare the oscillator with

    A periodic, linearly interpolated waveform, read at a phase that moves at constant speed
    between two samples, filtered by a continuous-time filter given by its poles and
    residues, and sampled.  Nothing here mentions how the library computes. *)
From Coq Require Import ZArith List Bool Reals.
From Flocq Require Import Core.
From Verif Require Import Num CrossFader Wavetable Osc Spec SpecC SpecT RNum.
From Coquelicot Require Import Coquelicot.
Import ListNotations.
Local Open Scope R_scope.

(** the periodic waveform through the samples [ys]: straight lines between consecutive
    samples, the last one joined to the first; one period per unit of phase *)
Definition wave (ys : list R) (t : R) : R :=
  let x := t * IZR (zlen ys) in
  let k := Zfloor x in
  cyc ys k + (x - IZR k) * (cyc ys (k + 1) - cyc ys k).

(** complex exponential *)
Definition cexp (z : C) : C := (exp (fst z) * cos (snd z), exp (fst z) * sin (snd z)).

(** what a one-pole filter with pole [z] makes of the signal [x] during one sample:
    the integral over u in [0,1] of exp(z(1-u)) x(u) *)
Definition response (z : C) (x : R -> R) : C :=
  (RInt (fun u => fst (cexp (RtoC (1 - u) * z)%C) * x u) 0 1,
   RInt (fun u => snd (cexp (RtoC (1 - u) * z)%C) * x u) 0 1).

(** one sample of one pole with residue [r] (2r: the pole stands for a conjugate pair) *)
Definition onePole (r z : C) (x : R -> R) (y : C) : C :=
  (cexp z * y + 2 * r * response z x)%C.

(** a filter in exact arithmetic: poles, residues, and the derived lists the code
    precomputes *)
Record exactFilter (F : Filt RNum) : Prop := {
  ef_z : length (f_z F) = length (f_r F);
  ef_zp2 : f_zp2 F = List.map (fun z : C => (z * z)%C) (f_z F);
  ef_ez : f_ez F = List.map cexp (f_z F);
  ef_nz : List.Forall (fun z : C => z <> RtoC 0) (f_z F)
}.

(** all poles at once *)
Definition allPoles (F : Filt RNum) (x : R -> R) (ys : list C) : list C :=
  List.map (fun e => onePole (fst (fst e)) (snd (fst e)) x (snd e))
      (combine (combine (f_r F) (f_z F)) ys).
(** the audible output: the real part of the sum *)
Definition audible (ys : list C) : R := fold_right Rplus 0 (List.map fst ys).

(** a phase in [0,1) that is on each grid point i/2^k (k <= 24) or at least 2^-126 away from
    it; every binary32 number of [0,1) that is not subnormal qualifies *)
Definition sharp (p : R) : Prop :=
  0 <= p < 1 /\
  forall k i, (0 <= k <= 24)%Z -> (0 <= i <= 2 ^ k)%Z ->
    p = IZR i / IZR (2 ^ k) \/ / IZR (2 ^ 126) <= Rabs (p - IZR i / IZR (2 ^ k)).

Section Ref.
Variable src : Resampler RNum.
Variable dbg : bool.
Variable F : Filt RNum.

(** tables in use that were built from the samples [wfs]: with a positive sample rate and a
    fade of at least one sample, then played and re-sampled any number of times *)
Inductive table (wfs : list R) (nw : Z) : WT RNum -> Prop :=
| t_build sr fade w :
    0 < sr -> 1 <= fade * sr < IZR int_max ->
    wt_build RNum src dbg wfs nw sr fade = Ok (Some w) -> table wfs nw w
| t_ask w d w' m :
    table wfs nw w -> 0 < d -> wt_findMipMapIndices RNum dbg w d = Ok (w', m) -> table wfs nw w'
| t_resample w sr fade w' :
    table wfs nw w -> 0 < sr -> 1 <= fade * sr < IZR int_max ->
    wt_updateSamplerate RNum src dbg w sr fade = Ok w' -> table wfs nw w'.

(** an ideal oscillator: the table (for its cross-fader) and the samples it was built from,
    the selected waveform, last phase, last step, last (lower) mipmap entry, filter memory *)
Record Ideal : Type := mkIdeal {
  id_K : Z; id_nw : Z; id_wfs : list R; id_tab : WT RNum;
  id_wf : Z; id_phase : R; id_step : R; id_entry : Z; id_mem : list C }.

(** samples of entry [k] of the selected waveform *)
Definition entry (st : Ideal) (k : Z) : list R :=
  mipmap RNum src (waveform RNum (id_wfs st) (2 ^ id_K st) (id_wf st)) k.

(** moves from entry [id_entry st] to entry [m] after which the library still knows where it
    is: after a forward step any rise and a drop of one octave; after a backward step the
    same entry, a drop of one octave (not from phase 0), or a rise when the grid position it
    remembers is also on the coarser grid *)
Definition traceable (st : Ideal) (m : Z) : Prop :=
  let m0 := id_entry st in
  (0 < id_step st /\ (m0 - 1 <= m)%Z) \/
  (id_step st < 0 /\
    (m = m0 \/ (m = m0 - 1)%Z /\ id_phase st <> 0 \/
     (m0 < m)%Z /\ (Zceil (id_phase st * IZR (2 ^ (id_K st - m0))) mod 2 ^ (m - m0) = 0)%Z)).

(** the signal of one sample: phase from [q], step [d], lower entry [m] with gain [g] and
    upper entry [mu] with gain [gu] *)
Definition mixed (st : Ideal) (q d : R) (mm : MMI RNum) (u : R) : R :=
  let '(m, g, mu, gu) := mm in
  g * wave (entry st m) (q + d * u) + gu * wave (entry st mu) (q + d * u).

(** one sample: the phase moves to [p] *)
Inductive sample (dir : Direction) (st : Ideal) (p : R) : Ideal -> R -> Prop :=
| sample_ d w' m g mu gu mem :
    sharp p ->
    d = stepBetween RNum dir (id_phase st) p -> d <> 0 -> -/2 <= d <= /2 ->
    wt_findMipMapIndices RNum dbg (id_tab st) (Rabs d) = Ok (w', (m, g, mu, gu)) ->
    traceable st m ->
    mem = allPoles F (mixed st (id_phase st) d (m, g, mu, gu)) (id_mem st) ->
    sample dir st p
      (mkIdeal (id_K st) (id_nw st) (id_wfs st) w' (id_wf st) p d m mem) (audible mem).

Inductive block (dir : Direction) : Ideal -> list R -> Ideal -> list R -> Prop :=
| block_nil st : block dir st [] st []
| block_cons st p st1 y ps st2 ys :
    sample dir st p st1 y -> block dir st1 ps st2 ys ->
    block dir st (p :: ps) st2 (y :: ys).

(** fresh memory at phase [p], expecting steps of about [d] *)
Inductive fresh (K nw : Z) (wfs : list R) (w : WT RNum) (wf : Z) (p d : R) : Ideal -> Prop :=
| fresh_ w' m g mu gu :
    sharp p -> d <> 0 -> wt_findMipMapIndices RNum dbg w (Rabs d) = Ok (w', (m, g, mu, gu)) ->
    fresh K nw wfs w wf p d
      (mkIdeal K nw wfs w' wf p d m (repeat (RtoC 0) (length (f_r F)))).

(** whole histories of calls *)
Inductive plays : option Ideal -> list (Op RNum) -> option Ideal -> list R -> Prop :=
| pl_end st : plays st [] st []
| pl_null st op rest st' ys :
    (exists p d, op = OpInit RNum None p d \/ op = OpSwap RNum None p d) ->
    plays st rest st' ys -> plays st (op :: rest) st' ys
| pl_load st op w p d K nw wfs st1 rest st' ys :
    op = OpInit RNum (Some w) p d \/ op = OpSwap RNum (Some w) p d ->
    wellFormed RNum wfs nw K -> table wfs nw w ->
    fresh K nw wfs w 0 p d st1 ->
    plays (Some st1) rest st' ys -> plays st (op :: rest) st' ys
| pl_reset st p d st1 rest st' ys :
    fresh (id_K st) (id_nw st) (id_wfs st) (id_tab st) (id_wf st) p d st1 ->
    plays (Some st1) rest st' ys -> plays (Some st) (OpReset RNum p d :: rest) st' ys
| pl_select st k rest st' ys :
    (0 <= k < id_nw st)%Z ->
    plays (Some (mkIdeal (id_K st) (id_nw st) (id_wfs st) (id_tab st) k (id_phase st)
                         (id_step st) (id_entry st) (id_mem st))) rest st' ys ->
    plays (Some st) (OpSetWaveform RNum k :: rest) st' ys
| pl_rate st sr w' rest st' ys :
    200 <= sr -> sr < IZR int_max ->
    wt_updateSamplerate RNum src dbg (id_tab st) sr (5 / 1000) = Ok w' ->
    plays (Some (mkIdeal (id_K st) (id_nw st) (id_wfs st) w' (id_wf st) (id_phase st)
                         (id_step st) (id_entry st) (id_mem st))) rest st' ys ->
    plays (Some st) (OpUpdateSamplerate RNum sr :: rest) st' ys
| pl_process st dir ps st1 ys rest st' zs :
    block dir st ps st1 ys ->
    plays (Some st1) rest st' zs ->
    plays (Some st) (OpProcess RNum dir ps :: rest) st' (ys ++ zs).
End Ref.

(** the successive steps of a block of phases [ps] played from phase [q] *)
Fixpoint stepsOf (dir : Direction) (q : R) (ps : list R) : list R :=
  match ps with
  | [] => []
  | p :: rest => stepBetween RNum dir q p :: stepsOf dir p rest
  end.
