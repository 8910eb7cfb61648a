(** * SpecQ: vocabulary for C61 -- one program on two machines

    A machine is a math library, a choice of fused products, an order of summation (all in
    [Libm]), a SIMD width and a build mode ([Cfg]).  The program is a list of calls that holds
    samples, numbers and phases only. *)
From Coq Require Import ZArith List Bool Reals.
From Flocq Require Import Core IEEE754.BinarySingleNaN.
From Verif Require Import Num CrossFader Wavetable Filters Osc Spec SpecC SpecT RNum B32 SpecF SpecO SpecW.
From Coquelicot Require Import Coquelicot.
From Verif Require Import SpecE SpecR.
Import ListNotations.
Local Open Scope R_scope.

Inductive Call : Type :=
| CallLoad (swap : bool) (wfs : list f32) (nw : Z) (sr fade p d : f32)  (* build, then init / swapWavetable *)
| CallReset (p d : f32)
| CallSelect (k : Z)
| CallProcess (dir : Direction) (ps : list f32).

(** the calls as this machine executes them: its own build makes the tables *)
Inductive realised (lm : Libm) (src : Resampler (B32 lm)) (dbg : bool) : list Call -> list (Op (B32 lm)) -> Prop :=
| re_nil : realised lm src dbg [] []
| re_load (swap : bool) wfs nw sr fade p d w calls ops :
    wt_build (B32 lm) src dbg wfs nw sr fade = Ok (Some w) -> realised lm src dbg calls ops ->
    realised lm src dbg (CallLoad swap wfs nw sr fade p d :: calls)
      ((if swap then OpSwap (B32 lm) (Some w) p d else OpInit (B32 lm) (Some w) p d) :: ops)
| re_reset p d calls ops : realised lm src dbg calls ops ->
    realised lm src dbg (CallReset p d :: calls) (OpReset (B32 lm) p d :: ops)
| re_select k calls ops : realised lm src dbg calls ops ->
    realised lm src dbg (CallSelect k :: calls) (OpSetWaveform (B32 lm) k :: ops)
| re_process dir ps calls ops : realised lm src dbg calls ops ->
    realised lm src dbg (CallProcess dir ps :: calls) (OpProcess (B32 lm) dir ps :: ops).

(** both machines have the same resampler *)
Definition sameResampler (lm1 lm2 : Libm) (src1 : Resampler (B32 lm1)) (src2 : Resampler (B32 lm2)) : Prop :=
  forall (xs : list f32) ratio cap, (so_data (src1 xs ratio cap) : list f32) = so_data (src2 xs ratio cap).

(** the tables' sample rates may be used with this compiler (SpecF; it is so for the usual ones) *)
Definition ratesOk (lm : Libm) (calls : list Call) : Prop :=
  List.Forall (fun c => match c with CallLoad _ _ _ sr _ _ _ => quotientOk lm sr | _ => True end) calls.

(** the histories the ideal of SpecR describes, for calls *)
Inductive renders (lm : Libm) (src : Resampler (B32 lm)) (dbg : bool) (f : FilterType) (c : Z)
  : option (Ideal32 lm) -> list Call -> option (Ideal32 lm) -> list R -> Prop :=
| rd_end st : renders lm src dbg f c st [] st []
| rd_load st swap wfs nw sr fade p d K n w st1 rest st' ys :
    wellFormed (B32 lm) wfs nw K -> rate32 lm sr -> tcast (B32 lm) (tmul (B32 lm) fade sr) = Ok n -> (1 <= n)%Z ->
    wt_build (B32 lm) src dbg wfs nw sr fade = Ok (Some w) -> tameAll lm src c wfs nw K ->
    fresh32 lm dbg f K nw wfs w 0 p d st1 ->
    renders lm src dbg f c (Some st1) rest st' ys ->
    renders lm src dbg f c st (CallLoad swap wfs nw sr fade p d :: rest) st' ys
| rd_reset st p d st1 rest st' ys :
    fresh32 lm dbg f (i_K lm st) (i_nw lm st) (i_wfs lm st) (i_tab lm st) (i_wf lm st) p d st1 ->
    renders lm src dbg f c (Some st1) rest st' ys ->
    renders lm src dbg f c (Some st) (CallReset p d :: rest) st' ys
| rd_select st k rest st' ys :
    (0 <= k < i_nw lm st)%Z ->
    renders lm src dbg f c (Some (mkI32 lm (i_K lm st) (i_nw lm st) (i_wfs lm st) (i_tab lm st) k (i_phase lm st)
                         (i_step lm st) (i_entry lm st) (i_mem lm st))) rest st' ys ->
    renders lm src dbg f c (Some st) (CallSelect k :: rest) st' ys
| rd_process st dir ps st1 ys rest st' zs :
    block32 lm src dbg f dir st ps st1 ys ->
    renders lm src dbg f c (Some st1) rest st' zs ->
    renders lm src dbg f c (Some st) (CallProcess dir ps :: rest) st' (ys ++ zs).

(** two returned samples that sound alike *)
Definition alike (f : FilterType) (c : Z) (y1 y2 : f32) : Prop :=
  finite y1 /\ finite y2 /\ Rabs (B2R y1 - B2R y2) <= 2 * accuracy f * (bpow radix2 c / IZR (2 ^ 24)).
