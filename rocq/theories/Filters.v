(** * Filters: adwt/filter_type.hpp *)
From Coq Require Import ZArith List Bool.
From Verif Require Import Num.
Import ListNotations.
Local Open Scope Z_scope.

(** enum class FilterType -- adwt/filter_type.hpp:77-84 *)
Inductive FilterType : Type := kType1 | kType2 | kType3 | kType4 | kType5.

(** A complex coefficient as two exact decimals (numerator, denominator) *)
Definition CLit : Type := ((Z * Z) * (Z * Z))%type.
Definition e8 : Z := 10 ^ 8.
Definition e7 : Z := 10 ^ 7.
Definition e22 : Z := 10 ^ 22.
Definition e11 : Z := 10 ^ 11.
Definition e9 : Z := 10 ^ 9.

(** r<Ftype>() -- adwt/filter_type.hpp:132-135,143-149,161-165,174-179,189-194 *)
Definition rLit (f : FilterType) : list CLit :=
  match f with
  | kType1 => [((0, 1), (-199929732, e8))]
  | kType2 => [((26281952, e8), (-41698263, e8));
               ((234161433, e8), (104896884, e8));
               ((-263431397, e8), (751745447, e8));
               ((-1667718259, e8), (-676247888, e8));
               ((1669636533, e8), (-2351135536, e8))]
  | kType3 => [((-130610392, e8), (54100596, e8));
               ((130610392, e8), (-315321379, e8))]
  | kType4 => [((-430788702, e8), (-810390177, e22));     (* -8.10390177e-14 *)
               ((57714742, e8), (999648661, e9));          (*  9.99648661e-01 *)
               ((373073959, e8), (-646183052, e8))]        (* -6.46183052e+00 *)
  | kType5 => [((5995431, e7), (-142710928, e11));         (* -1.42710928e-03 *)
               ((-10125199, e8), (287722419, e8));         (*  2.87722419e+00 *)
               ((-773846024, e8), (-156288290, e8));       (* -1.56288290e+00 *)
               ((723293555, e8), (-116751094, e7))]        (* -1.16751094e+01 *)
  end.

(** z<Ftype>() -- adwt/filter_type.hpp:137-140,151-157,167-171,181-186,196-201 *)
Definition zLit (f : FilterType) : list CLit :=
  match f with
  | kType1 => [((-199929732, e8), (199929732, e8))]
  | kType2 => [((-29931827, e8), (294764072, e8));
               ((-97441784, e8), (298286211, e8));
               ((-189003202, e8), (294796957, e8));
               ((-315580399, e8), (250801272, e8));
               ((-437780671, e8), (108149105, e8))]
  | kType3 => [((-108201191, e8), (261220784, e8));
               ((-261220784, e8), (108201191, e8))]
  | kType4 => [((-199929732, e8), (199929732, e8));
               ((-73179361, e8), (273109093, e8));
               ((-273109093, e8), (73179361, e8))]
  | kType5 => [((-37870934, e8), (257341531, e8));
               ((-123202254, e8), (249225066, e8));
               ((-230871469, e8), (208510777, e8));
               ((-331413228, e8), (89104016, e8))]
  end.

Section Filters.
Variable N : Num.

Definition clit (c : CLit) : C N := (tdlit N (fst c), tdlit N (snd c)).

Definition rCoeffs (f : FilterType) : list (C N) := map clit (rLit f).
Definition zCoeffs (f : FilterType) : list (C N) := map clit (zLit f).
(** numCoeffs -- adwt/filter_type.hpp:204-207 *)
Definition numCoeffs (f : FilterType) : nat := length (rLit f).
(** zPow2 -- adwt/filter_type.hpp:107-117 *)
Definition zPow2 (f : FilterType) : list (C N) := map (fun z => cmul N 50 z z) (zCoeffs f).
(** zExp -- adwt/filter_type.hpp:119-129 *)
Definition zExp (f : FilterType) : list (C N) := map (tcexp N) (zCoeffs f).

End Filters.
