(** * SpecZ32: standing still in binary32 (for C64)

    The ideal of SpecR, with samples whose step is 0 (as SpecZ extends SpecE). *)
From Coq Require Import ZArith List Bool Reals.
From Flocq Require Import Core IEEE754.BinarySingleNaN.
From Verif Require Import Num CrossFader Wavetable Filters Osc Spec SpecC SpecT RNum B32 SpecF SpecO SpecW.
From Coquelicot Require Import Coquelicot.
From Verif Require Import SpecE SpecR SpecZ.
Import ListNotations.
Local Open Scope R_scope.

Section Still.
Variable lm : Libm.
Variable src : Resampler (B32 lm).
Variable dbg : bool.
Variable f : FilterType.
Variable c : Z.
Notation N := (B32 lm).

(** one sample; the same as [SpecR.sample32] except that the step may be 0 *)
Inductive stay32 (dir : Direction) (st : Ideal32 lm) (p : f32) : Ideal32 lm -> R -> Prop :=
| stay32_ s d k w' m g mu gu mem :
    plainPhase p ->
    s = step32 lm dir (i_phase lm st) p -> Rabs (B2R s) < / 2 ->
    B2R (i_phase lm st) + d = B2R p + IZR k -> Rabs d < / 2 ->
    wt_findMipMapIndices N dbg (i_tab lm st) (tabs N s) = Ok (w', (m, g, mu, gu)) ->
    traceable32 lm st m \/ B2R (i_step lm st) = 0 /\ (i_entry lm st <= m)%Z ->
    (B2R s = 0 -> ~ onGrid (i_K lm st - m) (B2R p)) ->   (* standing on a grid point: left out *)
    (B2R s < 0 -> B2R (i_step lm st) <> 0) ->            (* going back right after standing: left out *)
    mem = allPoles (filt RNum f)
            (fun u => B2R g * curve lm src st m (B2R (i_phase lm st) + d * u)
                    + B2R gu * curve lm src st mu (B2R (i_phase lm st) + d * u)) (i_mem lm st) ->
    stay32 dir st p
      (mkI32 lm (i_K lm st) (i_nw lm st) (i_wfs lm st) w' (i_wf lm st) p s m mem) (audible mem).

Inductive stays32 (dir : Direction) : Ideal32 lm -> list f32 -> Ideal32 lm -> list R -> Prop :=
| stays32_nil st : stays32 dir st [] st []
| stays32_cons st p st1 y ps st2 ys :
    stay32 dir st p st1 y -> stays32 dir st1 ps st2 ys ->
    stays32 dir st (p :: ps) st2 (y :: ys).

(** whole histories of calls: those of [SpecR.plays32] and blocks that stand still *)
Inductive roams32 : option (Ideal32 lm) -> list (Op N) -> option (Ideal32 lm) -> list R -> Prop :=
| ro32_end st : roams32 st [] st []
| ro32_plays st ops st1 ys rest st2 zs :
    plays32 lm src dbg f c st ops st1 ys -> roams32 st1 rest st2 zs -> roams32 st (ops ++ rest) st2 (ys ++ zs)
| ro32_block st dir ps st1 ys rest st2 zs :
    stays32 dir st ps st1 ys -> roams32 (Some st1) rest st2 zs ->
    roams32 (Some st) (OpProcess N dir ps :: rest) st2 (ys ++ zs).
End Still.

(** a step of octave 0, or no step at all *)
Definition stepIn0 (K : Z) (s : f32) : Prop := B2R s = 0 \/ stepIn K 0 s.
(** the grid points where a block stands still: phase [p] comes after [q] with step 0 *)
Fixpoint standsOff32 (lm : Libm) (dir : Direction) (k : Z) (q : f32) (ps : list f32) : Prop :=
  match ps with
  | [] => True
  | p :: rest => (B2R (step32 lm dir q p) = 0 -> ~ onGrid k (B2R p)) /\ standsOff32 lm dir k p rest
  end.
