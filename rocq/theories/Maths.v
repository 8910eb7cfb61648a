(** * Maths: adwt/maths.hpp *)
From Coq Require Import ZArith List Bool.
From Verif Require Import Num.
Import ListNotations.
Local Open Scope Z_scope.

Section Maths.
Variable N : Num.

(** maths::floor -- adwt/maths.hpp:35-38 *)
Definition mfloor (x : T N) : res Z :=
  let! iv := tcast N x in
  if tle N (tofZ N iv) x then Ok iv else chk (iv - 1).

(** maths::ceil -- adwt/maths.hpp:40-43 *)
Definition mceil (x : T N) : res Z :=
  let! iv := tcast N x in
  if tlt N (tofZ N iv) x then chk (iv + 1) else Ok iv.

(** maths::isOdd -- adwt/maths.hpp:45-47 ([%] truncates towards zero) *)
Definition misOdd (v : Z) : bool := Z.rem v 2 =? 1.

(** maths::isPowerOfTwo -- adwt/maths.hpp:49-55 *)
Definition misPowerOfTwo (v : Z) : res bool :=
  if v =? 0 then Ok false
  else
    let f := tofZ N v in
    let! c := mceil (tlog2 N f) in
    let! fl := mfloor (tlog2 N f) in
    Ok (c =? fl).

(** maths::sign -- adwt/maths.hpp:57-62 *)
Definition msign (x : T N) : Z :=
  if tlt N (tabs N x) (tminnorm N) then 0
  else if tsignbit N x then -1 else 1.

(** maths::reduce<int> -- adwt/maths.hpp:64-76 *)
Definition reduceZ (dbg : bool) (v t : Z) : res Z :=
  let! _ := assert_ dbg (0 <? t) in
  let! _ := assert_ dbg ((v <=? 2 * t) && (- t <=? v)) in
  if t <=? v then chk (v - t)
  else if v <? 0 then chk (v + t)
  else Ok v.

(** maths::reduce<float> -- adwt/maths.hpp:64-76.  [-threshold] is modelled as
    [0 - threshold] (only ever used with threshold 1). *)
Definition reduceT (dbg : bool) (v t : T N) : res (T N) :=
  let! _ := assert_ dbg (tlt N (t0 N) t) in
  let! _ := assert_ dbg (tle N v (tmul N (t2 N) t) && tle N (tsub N (t0 N) t) v) in
  if tle N t v then Ok (tsub N v t)
  else if tlt N v (t0 N) then Ok (tadd N v t)
  else Ok v.

End Maths.
