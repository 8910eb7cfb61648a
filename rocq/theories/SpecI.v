(** * SpecI: windows of a memory (for C57) *)
From Coq Require Import List.
From Verif Require Import Mem.
Import ListNotations.

(** the elements a window shows *)
Definition seen {A} (mem : list A) (w : Window) : list A := firstn (wn_len w) (skipn (wn_at w) mem).

(** the memory with the elements of the window replaced by [l] *)
Definition shown {A} (mem : list A) (w : Window) (l : list A) : list A :=
  firstn (wn_at w) mem ++ l ++ skipn (wn_at w + wn_len w) mem.

(** the window lies inside the memory *)
Definition inside {A} (mem : list A) (w : Window) : Prop := wn_at w + wn_len w <= length mem.

(** no element of the phase window is overwritten before it is read: the output window starts at
    or before the phase window, or after its end *)
Definition harmless (phases output : Window) : Prop :=
  wn_at output <= wn_at phases \/ wn_at phases + wn_len phases <= wn_at output.
