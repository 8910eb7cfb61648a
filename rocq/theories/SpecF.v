(** * SpecF: small vocabulary of the binary32 statements *)
From Coq Require Import ZArith List Bool Reals.
From Flocq Require Import Core IEEE754.BinarySingleNaN.
From Verif Require Import Num CrossFader Wavetable Spec B32.
Import ListNotations.
Local Open Scope Z_scope.

(** IEEE binary32 operations, round to nearest even *)
Notation fadd := (@Bplus 24 128 p32 e32 mode_NE).
Notation fsub := (@Bminus 24 128 p32 e32 mode_NE).
Notation fmul := (@Bmult 24 128 p32 e32 mode_NE).
Notation fdiv := (@Bdiv 24 128 p32 e32 mode_NE).

(** rounding of a real number to binary32 *)
Definition toF32 (x : R) : R := round radix2 (FLT_exp (-149) 24) ZnearestE x.

(** The step limits of the mipmap entries are quotients by the sample rate.  If the compiler
    multiplies by the reciprocal instead, the rate must be one that its rounded reciprocal
    brings back to 1: all usual rates are ([Prop_CrossFader.C09_usual_rates]). *)
Definition quotientOk (lm : Libm) (sr : f32) : Prop :=
  lm_recip lm 80 = true -> toF32 (B2R sr * toF32 (1 / B2R sr)) = 1%R.

(** a sample rate that is positive, not close to the underflow threshold, and usable with this
    compiler *)
Definition rate32 (lm : Libm) (sr : f32) : Prop :=
  is_finite sr = true /\ (/ IZR (2 ^ 100) <= B2R sr)%R /\ quotientOk lm sr.

(** a pair of gains: both in [0,1], binary32 sum exactly 1 *)
Definition convex32 (g gu : f32) : Prop :=
  is_finite g = true /\ is_finite gu = true /\ (0 <= B2R g <= 1)%R /\ (0 <= B2R gu <= 1)%R /\
  is_finite (fadd g gu) = true /\ B2R (fadd g gu) = 1%R.

(** a positive finite phase step *)
Definition posStep (d : f32) : Prop := is_finite d = true /\ (0 < B2R d)%R.

(** a positive step of octave [r], for tables of base length 2^K *)
Definition inOctave (K r : Z) (d : f32) : Prop := is_finite d = true /\ (0 < B2R d)%R /\ entryFor K (B2R d) r.

Section Built.
Variable lm : Libm.
Variable src : Resampler (B32 lm).
Variable dbg : bool.

(** the table build returns for a well-formed request of base length 2^K and a fade of [n]
    samples *)
Definition builtTable (K n : Z) (w : WT (B32 lm)) : Prop :=
  exists (wfs : list (T (B32 lm))) nw (sr fade : f32),
  2 <= K <= 24 /\ 1 <= nw /\ zlen wfs = nw * 2 ^ K /\ nw * 2 ^ K <= int_max /\ rate32 lm sr /\
  tcast (B32 lm) (tmul (B32 lm) fade sr) = Ok n /\ wt_build (B32 lm) src dbg wfs nw sr fade = Ok (Some w).
End Built.
