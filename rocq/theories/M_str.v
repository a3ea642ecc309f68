(** Python string helpers used in several places. *)
From Coq Require Import DecimalString.
From Verif Require Import Base.
Open Scope string_scope.
Open Scope list_scope.
Open Scope nat_scope.

(** [str(n)] for a natural number: its decimal digits, without leading zeros. *)
Definition str_nat (n : nat) : string := NilZero.string_of_uint (Nat.to_uint n).

(** [s.zfill(w)] for a string of digits: pad with zeros on the left to width [w]. *)
Fixpoint repeat_char (c : ascii) (n : nat) : string :=
  match n with 0 => "" | S n' => String c (repeat_char c n') end.
Definition zfill (w : nat) (s : string) : string :=
  (repeat_char "0" (w - String.length s) ++ s)%string.
