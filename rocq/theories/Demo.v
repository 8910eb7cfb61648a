(** * Demo: concrete oracles, used only to exhibit concrete instances (satisfiability
    examples and refutation witnesses); no theorem assumes them. *)
From Coq Require Import ZArith List Bool.
From Flocq Require Import Core IEEE754.BinarySingleNaN.
From Verif Require Import Num Maths CrossFader Wavetable Filters Osc B32.
Import ListNotations.
Local Open Scope Z_scope.

(** a log2f that is exact on powers of two and returns k + 1/2 strictly between 2^k and
    2^(k+1); NaN for negative and NaN arguments *)
Definition demo_log2 (x : f32) : f32 :=
  match x with
  | B754_zero _ => B754_infinity true
  | B754_infinity false => B754_infinity false
  | B754_infinity true => B754_nan
  | B754_nan => B754_nan
  | B754_finite true _ _ _ => B754_nan
  | B754_finite false m e _ =>
      let k := Z.log2 (Zpos m) in
      if Zpos m =? 2 ^ k then f32_ofZ (k + e)
      else binary_normalize 24 128 p32 e32 mode_NE (2 * (k + e) + 1) (-1) false
  end.

(** a crude exponential: the constant 1/2 (its value is irrelevant to index behaviour) *)
Definition demo_exp (z : f32 * f32) : f32 * f32 :=
  (binary_normalize 24 128 p32 e32 mode_NE 1 (-1) false, f32_ofZ 0).

Definition demo_libm : Libm := mkLibm demo_log2 demo_exp demo_exp true (fun _ => 0%Z) (fun _ => SLeaf 1) (fun _ => false).

(** a resampler that keeps every [ratio]-th sample *)
Fixpoint decimate {A} (ratio k : nat) (l : list A) : list A :=
  match l with
  | [] => []
  | a :: t => match k with
              | O => a :: decimate ratio (ratio - 1) t
              | S k' => decimate ratio k' t
              end
  end.
Definition demo_src (N : Num) : Resampler N := fun wf ratio cap =>
  mkSrcOut 0 (zlen wf) cap (decimate (Z.to_nat ratio) 0 wf).

Definition FN : Num := B32 demo_libm.
Definition fl (n d : Z) : T FN := tfrac FN n d.
