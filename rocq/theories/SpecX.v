(** * SpecX: vocabulary for consequences of exactness *)
From Coq Require Import ZArith List Bool Reals.
From Flocq Require Import Core.
From Verif Require Import Num CrossFader Wavetable Osc Spec SpecC SpecT RNum.
From Coquelicot Require Import Coquelicot.
From Verif Require Import SpecE.
Import ListNotations.
Local Open Scope R_scope.

(** ** Bounds *)
Section Bounds.
Variable src : Resampler RNum.
Variable dbg : bool.

(** the table [w] was made from waveforms all of whose mipmap samples satisfy [P] *)
Definition samplesOf (P : R -> Prop) (w : WT RNum) : Prop :=
  exists wfs nw K, wellFormed RNum wfs nw K /\ table src dbg wfs nw w /\
    forall i k y, (0 <= i < nw)%Z -> (0 <= k <= K - 2)%Z ->
      In y (mipmap RNum src (waveform RNum wfs (2 ^ K) i) k) -> P y.

(** ... so are all tables the history loads *)
Definition loads (P : R -> Prop) (ops : list (Op RNum)) : Prop :=
  forall w p d, In (OpInit RNum (Some w) p d) ops \/ In (OpSwap RNum (Some w) p d) ops -> samplesOf P w.
End Bounds.

(** a stable filter: poles left of the imaginary axis *)
Definition stable (F : Filt RNum) : Prop := List.Forall (fun z : C => fst z < 0) (f_z F).

(** sum over the poles of 2|r| / |Re z| *)
Definition gainBound (F : Filt RNum) : R :=
  fold_right Rplus 0 (List.map (fun e : C * C => 2 * Cmod (fst e) / Rabs (fst (snd e))) (combine (f_r F) (f_z F))).

(** ** Constant waveforms *)
(** response of one pole to the constant 1, [n] samples after a reset: -(2r/z)(1 - exp(nz)) *)
Definition stepResponse (r z : C) (n : nat) : C :=
  (- (2 * r / z) * (1 - cexp (RtoC (INR n) * z)))%C.
Definition dcResponse (F : Filt RNum) (n : nat) : R :=
  fold_right Rplus 0 (List.map (fun e : C * C => fst (stepResponse (fst e) (snd e) n)) (combine (f_r F) (f_z F))).

(** the filter's gain at frequency 0: the real part of the sum of -2r/z *)
Definition dcGain (F : Filt RNum) : R :=
  fold_right Rplus 0 (List.map (fun e : C * C => fst (- (2 * fst e / snd e))%C) (combine (f_r F) (f_z F))).

(** calls that neither load a table nor reset *)
Definition keepsPlaying (op : Op RNum) : Prop :=
  match op with
  | OpInit (Some _) _ _ | OpSwap (Some _) _ _ | OpReset _ _ => False
  | _ => True
  end.

(** ** Linear combinations *)
Definition lincomb (a b : R) (xs ys : list R) : list R :=
  List.map (fun e => a * fst e + b * snd e) (combine xs ys).

(** a linear resampler: what it reports only depends on the sizes, what it writes is linear *)
Definition linearResampler (src : Resampler RNum) : Prop :=
  forall a b (xs ys : list R) ratio cap, length xs = length ys ->
    let ox := src xs ratio cap in let oy := src ys ratio cap in
    let oz := src (lincomb a b xs ys) ratio cap in
    so_err ox = so_err oy /\ so_err oz = so_err oy /\
    so_used ox = so_used oy /\ so_used oz = so_used oy /\
    so_gen ox = so_gen oy /\ so_gen oz = so_gen oy /\
    length (so_data ox) = length (so_data oy) /\
    so_data oz = lincomb a b (so_data ox) (so_data oy).

(** three scripts of calls that differ in the tables they load only: the first loads tables
    built from some samples, the second from others (as many), the third from the linear
    combination of the two *)
Section Lin.
Variable src : Resampler RNum.
Variable dbg : bool.
Variables a b : R.
Definition linTables (w1 w2 w3 : WT RNum) : Prop :=
  exists xs ys nw sr fade, length xs = length ys /\
    wt_build RNum src dbg xs nw sr fade = Ok (Some w1) /\
    wt_build RNum src dbg ys nw sr fade = Ok (Some w2) /\
    wt_build RNum src dbg (lincomb a b xs ys) nw sr fade = Ok (Some w3).
Inductive linScripts : list (Op RNum) -> list (Op RNum) -> list (Op RNum) -> Prop :=
| ls_nil : linScripts [] [] []
| ls_init w1 w2 w3 p d l1 l2 l3 : linTables w1 w2 w3 -> linScripts l1 l2 l3 ->
    linScripts (OpInit RNum (Some w1) p d :: l1) (OpInit RNum (Some w2) p d :: l2) (OpInit RNum (Some w3) p d :: l3)
| ls_swap w1 w2 w3 p d l1 l2 l3 : linTables w1 w2 w3 -> linScripts l1 l2 l3 ->
    linScripts (OpSwap RNum (Some w1) p d :: l1) (OpSwap RNum (Some w2) p d :: l2) (OpSwap RNum (Some w3) p d :: l3)
| ls_other op l1 l2 l3 :
    match op with OpInit (Some _) _ _ | OpSwap (Some _) _ _ => False | _ => True end ->
    linScripts l1 l2 l3 -> linScripts (op :: l1) (op :: l2) (op :: l3).
End Lin.
