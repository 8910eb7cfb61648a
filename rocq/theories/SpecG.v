(** * SpecG: frequency responses

    What "Butterworth, cut-off 0.45" and "Chebyshev type 2, 0.61" mean.  Frequencies are in
    cycles per sample (fractions of the sample rate). *)
From Coq Require Import ZArith List Bool Reals.
From Verif Require Import Num Osc RNum.
From Coquelicot Require Import Coquelicot.
From Verif Require Import SpecE SpecX SpecV.
Import ListNotations.
Local Open Scope R_scope.

(** transfer function of the filter of full order: sum over all poles of r / (s - z) *)
Definition transfer (F : Filt RNum) (s : C) : C :=
  fold_right Cplus (RtoC 0) (List.map (fun e : C * C => (fst e / (s - snd e))%C) (fullPoles F)).

(** exp (i th) *)
Definition turn (th : R) : C := (cos th, sin th).

(** the point of the imaginary axis for the frequency [nu] *)
Definition axis (nu : R) : C := (0, 2 * PI * nu).
(** gain at the frequency [nu] *)
Definition gainAt (F : Filt RNum) (nu : R) : R := Cmod (transfer F (axis nu)).

(** [n] samples of the pure tone cos (2 pi nu t + phi) *)
Definition tone (nu phi : R) (n : nat) : list (R -> R) :=
  List.map (fun k u => cos (2 * PI * nu * (INR k + u) + phi)) (seq 0 n).

(** squared gain of the Butterworth filter of order [n] with cut-off [c] *)
Definition butterworth (n : nat) (c nu : R) : R := / (1 + (nu / c) ^ (2 * n)).

(** Chebyshev polynomials of the first kind *)
Fixpoint chebT (n : nat) (x : R) : R :=
  match n with
  | O => 1
  | S m => match m with O => x | S k => 2 * x * chebT m x - chebT k x end
  end.
(** squared gain of the Chebyshev type 2 filter of order [n] whose stop band begins at [c]
    and lets through at most 1/[a] of the power (60 dB: a = 10^6) *)
Definition chebyshev2 (n : nat) (a c nu : R) : R :=
  chebT n (c / nu) ^ 2 / (chebT n (c / nu) ^ 2 + (a - 1)).
