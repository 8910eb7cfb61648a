(** * RNum: the [Num] instance of exact real arithmetic.

    [int] stays 32-bit; [float] and [double] are both the reals, [exp] and [log2] are
    exact, and [numeric_limits<float>::min()] keeps its binary32 value 2^-126. *)
From Coq Require Import ZArith List Bool Reals.
From Flocq Require Import Core.
From Verif Require Import Num.
Local Open Scope R_scope.

(** complex exponential *)
Definition Rcexp (z : R * R) : R * R := (exp (fst z) * cos (snd z), exp (fst z) * sin (snd z)).

Definition RNum : Num := {|
  T := R;
  D := R;
  tadd := Rplus;
  tsub := Rminus;
  tmul := Rmult;
  tdiv := Rdiv;
  tabs := Rabs;
  tlt := Rlt_bool;
  tle := Rle_bool;
  teq := Req_bool;
  tofZ := IZR;
  ttrunc := fun x => Some (Ztrunc x);
  tsignbit := fun x => Rlt_bool x 0;
  tminnorm := / 2 ^ 126;
  tlog2 := fun x => ln x / ln 2;
  tcexp := Rcexp;
  txexp := Rcexp;
  txfma := fun x y z => x * y + z;
  txfms := fun x y z => x * y - z;
  topp := Ropp;
  tfma := fun x y z => x * y + z;
  tfuse := fun _ => 0%Z;
  torder := fun _ => SLeaf 1;
  tquo := fun _ => Rdiv;
  dsub := Rminus;
  dopp := Ropp;
  dfma := fun x y z => x * y + z;
  dmul := Rmult;
  ddiv := Rdiv;
  dofZ := IZR;
  t2d := fun x => x;
  d2t := fun x => x
|}.
