(** * B32: the [Num] instance of the C++ types: IEEE-754 binary32 [float] and binary64
    [double], round-to-nearest-even, from Flocq's executable floats.

    Of -ffast-math (adwt/CMakeLists.txt:33), the contraction of scalar code into fused
    multiply-adds and the order of the sum over the poles are modelled (both arbitrary);
    other reassociations and flush-to-zero are not, nor are NaN payloads. *)
From Coq Require Import ZArith List Bool.
From Flocq Require Import Core IEEE754.BinarySingleNaN.
From Verif Require Import Num.
Local Open Scope Z_scope.

Definition f32 : Type := binary_float 24 128.
Definition f64 : Type := binary_float 53 1024.

Definition p32 : Prec_gt_0 24 := eq_refl.
Definition e32 : Prec_lt_emax 24 128 := eq_refl.
Definition p64 : Prec_gt_0 53 := eq_refl.
Definition e64 : Prec_lt_emax 53 1024 := eq_refl.

Definition f32_ofZ (z : Z) : f32 := binary_normalize 24 128 p32 e32 mode_NE z 0 false.
Definition f64_ofZ (z : Z) : f64 := binary_normalize 53 1024 p64 e64 mode_NE z 0 false.

(** conversions float -> double (exact) and double -> float (rounding) *)
Definition f32_to_f64 (x : f32) : f64 :=
  match x with
  | B754_zero s => B754_zero s
  | B754_infinity s => B754_infinity s
  | B754_nan => B754_nan
  | B754_finite s m e _ =>
      binary_normalize 53 1024 p64 e64 mode_NE (if s then Zneg m else Zpos m) e s
  end.
Definition f64_to_f32 (x : f64) : f32 :=
  match x with
  | B754_zero s => B754_zero s
  | B754_infinity s => B754_infinity s
  | B754_nan => B754_nan
  | B754_finite s m e _ =>
      binary_normalize 24 128 p32 e32 mode_NE (if s then Zneg m else Zpos m) e s
  end.

(** value of static_cast<int> before the range check; None for NaN and infinities *)
Definition f32_trunc (x : f32) : option Z :=
  if is_finite x then Some (Btrunc x) else None.

(** the C math library, xsimd and the compiler's contractions, arbitrary *)
Record Libm : Type := mkLibm {
  lm_log2 : f32 -> f32;                      (* log2f *)
  lm_cexp : f32 * f32 -> f32 * f32;          (* cexpf *)
  lm_xexp : f32 * f32 -> f32 * f32;          (* xsimd::exp *)
  lm_fused : bool;                           (* does the machine have a fused multiply-add? *)
  lm_contract : Z -> Z;                      (* which products the compiler fuses (see [Num.tfuse]) *)
  lm_order : nat -> sumTree;                 (* the order of a sum the compiler may reassociate
                                                (see [Num.torder]) *)
  lm_recip : Z -> bool                       (* which divisions are done with the reciprocal
                                                (see [Num.tquo]) *)
}.

(** xsimd's real fma and fms: the fused instruction where the machine has one, else a
    product and a sum *)
Definition f32_xfma (fused : bool) (x y z : f32) : f32 :=
  if fused then @Bfma 24 128 p32 e32 mode_NE x y z
  else @Bplus 24 128 p32 e32 mode_NE (@Bmult 24 128 p32 e32 mode_NE x y) z.
Definition f32_xfms (fused : bool) (x y z : f32) : f32 :=
  if fused then @Bfma 24 128 p32 e32 mode_NE x y (@Bopp 24 128 z)
  else @Bminus 24 128 p32 e32 mode_NE (@Bmult 24 128 p32 e32 mode_NE x y) z.

(** x / y, or x * (1 / y) *)
Definition f32_quo (recip : bool) (x y : f32) : f32 :=
  if recip then @Bmult 24 128 p32 e32 mode_NE x (@Bdiv 24 128 p32 e32 mode_NE (f32_ofZ 1) y)
  else @Bdiv 24 128 p32 e32 mode_NE x y.

Definition B32 (lm : Libm) : Num := {|
  T := f32;
  D := f64;
  tadd := @Bplus 24 128 p32 e32 mode_NE;
  tsub := @Bminus 24 128 p32 e32 mode_NE;
  tmul := @Bmult 24 128 p32 e32 mode_NE;
  tdiv := @Bdiv 24 128 p32 e32 mode_NE;
  tabs := @Babs 24 128;
  tlt := @Bltb 24 128;
  tle := @Bleb 24 128;
  teq := @Beqb 24 128;
  tofZ := f32_ofZ;
  ttrunc := f32_trunc;
  tsignbit := @Bsign 24 128;
  tminnorm := binary_normalize 24 128 p32 e32 mode_NE 1 (-126) false;
  tlog2 := lm_log2 lm;
  tcexp := lm_cexp lm;
  txexp := lm_xexp lm;
  txfma := f32_xfma (lm_fused lm);
  txfms := f32_xfms (lm_fused lm);
  topp := @Bopp 24 128;
  tfma := @Bfma 24 128 p32 e32 mode_NE;
  tfuse := lm_contract lm;
  torder := lm_order lm;
  tquo := fun s => f32_quo (lm_recip lm s);
  dsub := @Bminus 53 1024 p64 e64 mode_NE;
  dopp := @Bopp 53 1024;
  dfma := @Bfma 53 1024 p64 e64 mode_NE;
  dmul := @Bmult 53 1024 p64 e64 mode_NE;
  ddiv := @Bdiv 53 1024 p64 e64 mode_NE;
  dofZ := f64_ofZ;
  t2d := f32_to_f64;
  d2t := f64_to_f32
|}.
