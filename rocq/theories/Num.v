(** * Num: outcomes, C++ [int] arithmetic, number systems, complex numbers

    Shared vocabulary of the model.  Nothing here is specific to one C++ function;
    each definition names the C++ construct it stands for. *)
From Coq Require Import ZArith List Bool Arith.
Import ListNotations.
Local Open Scope Z_scope.

(** ** Outcomes.  Undefined behaviour, failed assertions and escaping exceptions are
    outcomes of their own, never a normal-looking value. *)
Inductive fault : Type :=
| OutOfBounds      (* indexing a span / vector / array outside its elements *)
| NullDeref        (* dereferencing a null unique_ptr *)
| IntOverflow      (* signed int overflow *)
| BadShift         (* << or >> by a count outside [0,31], or of a negative int, or overflowing *)
| BadCast          (* float -> int conversion of NaN, infinity or an out-of-range value *)
| AssertFail       (* assert() in a debug build *)
| LengthError      (* std::length_error escaping *)
| RuntimeError.    (* std::runtime_error *)

Inductive res (A : Type) : Type :=
| Ok (a : A)
| Fault (f : fault).
Arguments Ok {A} a.
Arguments Fault {A} f.

Definition bind {A B} (x : res A) (k : A -> res B) : res B :=
  match x with Ok a => k a | Fault f => Fault f end.

Notation "'let!' x := e 'in' k" := (bind e (fun x => k))
  (at level 200, x pattern, e at level 100, k at level 200, right associativity).

(** [assert(b)]: active only when NDEBUG is not defined ([dbg = true]). *)
Definition assert_ (dbg b : bool) : res unit :=
  if dbg && negb b then Fault AssertFail else Ok tt.

Definition is_ok {A} (r : res A) : bool := match r with Ok _ => true | _ => false end.

(** ** 32-bit [int] *)
Definition int_min : Z := -2147483648.
Definition int_max : Z := 2147483647.
Definition in_int (z : Z) : bool := (int_min <=? z) && (z <=? int_max).
(** result of a signed operation whose mathematical value is [z] *)
Definition chk (z : Z) : res Z := if in_int z then Ok z else Fault IntOverflow.
(** [x << k] and [x >> k] on int (C++17 rules; [>>] only ever sees x >= 0 or is arithmetic) *)
Definition ishl (x k : Z) : res Z :=
  if (0 <=? k) && (k <=? 31) && (0 <=? x) then
    (if in_int (Z.shiftl x k) then Ok (Z.shiftl x k) else Fault BadShift)
  else Fault BadShift.
Definition ishr (x k : Z) : res Z :=
  if (0 <=? k) && (k <=? 31) then Ok (Z.shiftr x k) else Fault BadShift.
(** [static_cast<int>(size_t)]: modular *)
Definition wrap_int (z : Z) : Z := (z + 2147483648) mod 4294967296 - 2147483648.
(** [static_cast<int>(bool)] *)
Definition b2z (b : bool) : Z := if b then 1 else 0.

(** ** Indexing *)
Definition zlen {A} (l : list A) : Z := Z.of_nat (length l).
(** [v[i]] *)
Definition znth {A} (l : list A) (i : Z) : res A :=
  if i <? 0 then Fault OutOfBounds
  else match nth_error l (Z.to_nat i) with Some a => Ok a | None => Fault OutOfBounds end.
(** overwrite [v[i]] (functional update) *)
Fixpoint nset {A} (l : list A) (i : nat) (a : A) : list A :=
  match l, i with
  | [], _ => []
  | _ :: t, O => a :: t
  | h :: t, S i' => h :: nset t i' a
  end.
Definition zset {A} (l : list A) (i : Z) (a : A) : res (list A) :=
  if (0 <=? i) && (i <? zlen l) then Ok (nset l (Z.to_nat i) a) else Fault OutOfBounds.
(** [iter::range(a, b)]: a, a+1, ..., b-1; empty when b <= a *)
Fixpoint zseq (a : Z) (n : nat) : list Z :=
  match n with O => [] | S n' => a :: zseq (a + 1) n' end.
Definition zrange (a b : Z) : list Z := zseq a (Z.to_nat (b - a)).
(** a loop storing one result per element *)
Fixpoint mapr {A B} (f : A -> res B) (l : list A) : res (list B) :=
  match l with
  | [] => Ok []
  | a :: t => let! b := f a in let! bs := mapr f t in Ok (b :: bs)
  end.
(** a loop with an accumulator *)
Fixpoint foldr {A S} (f : S -> A -> res S) (l : list A) (s : S) : res S :=
  match l with
  | [] => Ok s
  | a :: t => let! s' := f s a in foldr f t s'
  end.

(** ** Orders of summation.  [SPlus (SPlus (SLeaf 0) (SLeaf 1)) (SLeaf 2)] is (x0 + x1) + x2. *)
Inductive sumTree : Type := SLeaf (i : nat) | SPlus (a b : sumTree).
Fixpoint leaves (t : sumTree) : list nat :=
  match t with SLeaf i => [i] | SPlus a b => leaves a ++ leaves b end.
(** does [t] add up x0, ..., x(n-1), each exactly once? *)
Definition addsUp (t : sumTree) (n : nat) : bool :=
  Nat.eqb (length (leaves t)) n && forallb (fun i => existsb (Nat.eqb i) (leaves t)) (seq 0 n).
Fixpoint treeSum {A} (add : A -> A -> A) (d : A) (l : list A) (t : sumTree) : A :=
  match t with
  | SLeaf i => nth i l d
  | SPlus a b => add (treeSum add d l a) (treeSum add d l b)
  end.

(** ** Number systems: the operations on [float] ([T]) and [double] ([D]) used by the code *)
Record Num : Type := {
  T : Type;
  D : Type;
  tadd : T -> T -> T;
  tsub : T -> T -> T;
  tmul : T -> T -> T;
  tdiv : T -> T -> T;
  tabs : T -> T;                 (* std::fabs *)
  tlt : T -> T -> bool;          (* x < y *)
  tle : T -> T -> bool;          (* x <= y *)
  teq : T -> T -> bool;          (* x == y *)
  tofZ : Z -> T;                 (* int -> float *)
  ttrunc : T -> option Z;        (* truncated integer value; None for NaN / infinity *)
  tsignbit : T -> bool;          (* std::signbit *)
  tminnorm : T;                  (* std::numeric_limits<float>::min() *)
  tlog2 : T -> T;                (* log2f, std::log2(float) *)
  tcexp : T * T -> T * T;        (* std::exp(std::complex<float>) *)
  txexp : T * T -> T * T;        (* xsimd::exp on one complex lane *)
  txfma : T -> T -> T -> T;      (* xsimd::fma on one real lane: x * y + z *)
  txfms : T -> T -> T -> T;      (* xsimd::fms on one real lane: x * y - z *)
  topp : T -> T;                 (* - x *)
  tfma : T -> T -> T -> T;       (* x * y + z rounded once *)
  tfuse : Z -> Z;                (* what the compiler does with the products of an expression:
                                    0 rounds them, 1 / 2 fuses the first / second one with
                                    the sum it is part of (-ffp-contract, -ffast-math) *)
  torder : nat -> sumTree;       (* the order in which the compiler adds up n floats when it may
                                    reassociate a sum (-ffast-math); a tree that does not add
                                    up exactly those n stands for the order of the source *)
  tquo : Z -> T -> T -> T;       (* x / y where the compiler may multiply by the reciprocal of y
                                    instead (-freciprocal-math, part of -ffast-math), because y
                                    stays the same in a loop or divides two numbers; numbered *)
  dsub : D -> D -> D;
  dopp : D -> D;
  dfma : D -> D -> D -> D;
  dmul : D -> D -> D;
  ddiv : D -> D -> D;
  dofZ : Z -> D;
  t2d : T -> D;                  (* float -> double *)
  d2t : D -> T                   (* double -> float *)
}.

Section Num.
Variable N : Num.

(** [static_cast<int>(float)] *)
Definition tcast (x : T N) : res Z :=
  match ttrunc N x with
  | Some v => if in_int v then Ok v else Fault BadCast
  | None => Fault BadCast
  end.

(** literals *)
Definition t0 : T N := tofZ N 0.
Definition t1 : T N := tofZ N 1.
Definition t2 : T N := tofZ N 2.
(** decimal float literal n/d (0.5F, 0.1F, 0.4F, 0.005F): one correctly rounded division *)
Definition tfrac (n d : Z) : T N := tdiv N (tofZ N n) (tofZ N d).
(** decimal double literal n/d converted to float (the coefficients of filter_type.hpp) *)
Definition tdlit (nd : Z * Z) : T N :=
  d2t N (ddiv N (dofZ N (fst nd)) (dofZ N (snd nd))).

(** ** Sums with products.  On a machine with a fused multiply-add the compiler may contract
    them (GCC does by default, and adwt/CMakeLists.txt:33 asks for -ffast-math): each such
    expression of the code has a number [s], and [tfuse s] is what the compiler chose for it. *)
(** x * y + z *)
Definition tmad (s : Z) (x y z : T N) : T N :=
  if tfuse N s =? 0 then tadd N (tmul N x y) z else tfma N x y z.
(** z - x * y *)
Definition tnmad (s : Z) (x y z : T N) : T N :=
  if tfuse N s =? 0 then tsub N z (tmul N x y) else tfma N (topp N x) y z.
(** a * b + c * d *)
Definition tdotp (s : Z) (a b c d : T N) : T N :=
  if tfuse N s =? 0 then tadd N (tmul N a b) (tmul N c d)
  else if tfuse N s =? 1 then tfma N a b (tmul N c d) else tfma N c d (tmul N a b).
(** a * b - c * d *)
Definition tdotm (s : Z) (a b c d : T N) : T N :=
  if tfuse N s =? 0 then tsub N (tmul N a b) (tmul N c d)
  else if tfuse N s =? 1 then tfma N a b (topp N (tmul N c d))
  else tfma N (topp N c) d (tmul N a b).
(** the same on doubles *)
Definition ddotm (s : Z) (a b c d : D N) : D N :=
  if tfuse N s =? 0 then dsub N (dmul N a b) (dmul N c d)
  else if tfuse N s =? 1 then dfma N a b (dopp N (dmul N c d))
  else dfma N (dopp N c) d (dmul N a b).

(** ** [std::complex<float>], with the textbook formulas.
    Simplification: libgcc's division is modelled by the textbook formula, and C99
    Annex G's recovery of infinities is left out; they agree in exact arithmetic.  The sums
    in the formulas may be contracted: [s], [s + 1], ... number them (and [s + 3] the two
    divisions of [cdiv]). *)
Definition C : Type := (T N * T N)%type.
Definition c0 : C := (t0, t0).
Definition cadd (x y : C) : C := (tadd N (fst x) (fst y), tadd N (snd x) (snd y)).
Definition csub (x y : C) : C := (tsub N (fst x) (fst y), tsub N (snd x) (snd y)).
Definition cmul (s : Z) (x y : C) : C :=
  (tdotm s (fst x) (fst y) (snd x) (snd y),
   tdotp (s + 1) (fst x) (snd y) (snd x) (fst y)).
Definition cdiv (s : Z) (x y : C) : C :=
  let den := tdotp s (fst y) (fst y) (snd y) (snd y) in
  (tquo N (s + 3) (tdotp (s + 1) (fst x) (fst y) (snd x) (snd y)) den,
   tquo N (s + 3) (tdotm (s + 2) (snd x) (fst y) (fst x) (snd y)) den).
(** complex * float, float * complex *)
Definition cscale (x : C) (s : T N) : C := (tmul N (fst x) s, tmul N (snd x) s).
(** float + complex * float: a + x * b *)
Definition caddfx (s : Z) (a : T N) (x : C) (b : T N) : C :=
  (tmad s (fst x) b a, tmul N (snd x) b).
(** float * float + complex * float: u * v + x * b *)
Definition caddpx (s : Z) (u v : T N) (x : C) (b : T N) : C :=
  (tdotp s (fst x) b u v, tmul N (snd x) b).
(** complex - float * float: z - u * v *)
Definition csubp (s : Z) (z : C) (u v : T N) : C := (tnmad s u v (fst z), snd z).
(** complex - complex * float: z - x * b *)
Definition csubx (s : Z) (z x : C) (b : T N) : C :=
  (tnmad s (fst x) b (fst z), tnmad (s + 1) (snd x) b (snd z)).
(** complex * float + complex * float: x * a + y * b *)
Definition caddx (s : Z) (x : C) (a : T N) (y : C) (b : T N) : C :=
  (tdotp s (fst x) a (fst y) b, tdotp (s + 1) (snd x) a (snd y) b).
(** [CpxBatch::broadcast(float)]: one lane *)
Definition cbc (s : T N) : C := (s, t0).
(** One lane of [xs::batch<std::complex<float>>], as xsimd 13.0.0 (cmake/xsimd.cmake:6)
    computes it from its real fma and fms, which are fused or not depending on the machine:
    product, xs::fma(x,y,z) = x*y+z, xs::fms = x*y-z, xs::fnma = -x*y+z *)
Definition cxmul (x y : C) : C :=
  (txfms N (fst x) (fst y) (tmul N (snd x) (snd y)),
   txfma N (fst x) (snd y) (tmul N (snd x) (fst y))).
Definition cfma (x y z : C) : C :=
  (txfms N (fst x) (fst y) (txfms N (snd x) (snd y) (fst z)),
   txfma N (fst x) (snd y) (txfma N (snd x) (fst y) (snd z))).
Definition cfms (x y z : C) : C :=
  (txfms N (fst x) (fst y) (txfma N (snd x) (snd y) (fst z)),
   txfma N (fst x) (snd y) (txfms N (snd x) (fst y) (snd z))).
Definition cfnma (x y z : C) : C :=
  (topp N (txfms N (fst x) (fst y) (txfma N (snd x) (snd y) (fst z))),
   topp N (txfma N (fst x) (snd y) (txfms N (snd x) (fst y) (snd z)))).

End Num.
