(** Lemmas about decimal strings. *)
From Coq Require Import DecimalString Decimal DecimalNat DecimalFacts.
From Verif Require Import Base M_str.
Open Scope string_scope.
Open Scope list_scope.
Open Scope nat_scope.

Lemma to_uint_not_nil : forall n, Nat.to_uint n <> Nil.
Proof.
  intros n E. rewrite <- (Unsigned.of_to n), Unsigned.to_of in E.
  apply DecimalFacts.unorm_nonnil in E. exact E.
Qed.

Lemma str_nat_inj : forall n m, str_nat n = str_nat m -> n = m.
Proof.
  intros n m E. unfold str_nat in E. apply (f_equal NilZero.uint_of_string) in E.
  rewrite !NilZero.usu in E by apply to_uint_not_nil. injection E as E.
  apply (f_equal Nat.of_uint) in E. rewrite !Unsigned.of_to in E. exact E.
Qed.
