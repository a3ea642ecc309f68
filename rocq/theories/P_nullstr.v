(** Theorems about cleaning the strings that represent nulls (C57). *)
From Verif Require Import Base M_nullstr L_nullstr.
Open Scope string_scope.
Open Scope list_scope.
Open Scope nat_scope.

Section Theorems.
  Context {O : Type} (is_space : nat -> bool).
  Hypothesis newline_space : is_space newline = true.

  (** C57: in columns of objects (pandas) or strings, a value becomes a null exactly when it is a string that is blank or one of the markers; others are unchanged. *)
  Theorem C57_exact : forall (c : column O) new, Handled (col_lib c) (col_kind c) new ->
    exists c', fit_transform is_space c = Ok c' /\ transform is_space c = c' /\
      col_lib c' = col_lib c /\ col_kind c' = col_kind c /\ Forall2 (Cleaned is_space new) (col_values c) (col_values c').
  Proof using newline_space.
    intros c new H. exists (transform is_space c). split; [exact (fit_transform_ok is_space c new H)|]. split; [reflexivity|]. exact (transform_ok is_space newline_space c new H).
  Qed.
  (** C57: other columns are rejected when fitting, unchanged when transforming. *)
  Theorem C57_other : forall c : column O, (forall n, ~ Handled (col_lib c) (col_kind c) n) -> fit_transform is_space c = Err RejectColumn /\ transform is_space c = c.
  Proof using. intros c N. destruct (transform_other is_space c N). tauto. Qed.
  (** C57: cleaning twice is the same as once. *)
  Theorem C57_idempotent : forall c : column O, transform is_space (transform is_space c) = transform is_space c /\
    forall c', fit_transform is_space c = Ok c' -> fit_transform is_space c' = Ok c'.
  Proof using newline_space.
    intros c. pose proof (transform_twice is_space newline_space c) as T. split; [exact T|]. intros c' E.
    unfold fit_transform in E. destruct (accepted c) eqn:A; [|discriminate]. assert (E' : c' = transform is_space c) by (cbn in E; congruence). subst c'.
    apply handled_iff in A. destruct (transform_ok is_space newline_space c _ A) as (E1 & E2 & _).
    rewrite (fit_transform_ok is_space _ (new_null (col_lib c) (col_kind c))); [rewrite T; reflexivity|]. rewrite E1, E2. exact A.
  Qed.
End Theorems.

Print Assumptions C57_exact.
Print Assumptions C57_other.
Print Assumptions C57_idempotent.

(** ** Examples *)
Definition ex_space (c : nat) : bool := mem c [32; 9; 10; 160].
Definition ex_col : column bool :=
  {| col_lib := Pandas; col_kind := KObject; col_values := [VStr (text_of "one"); VStr (text_of "N/A"); VStr [32; 160; 10]; VOther true; VStr (text_of " N/A"); VNull NaN] |}.
Example ex_C57 : fit_transform ex_space ex_col = Ok {| col_lib := Pandas; col_kind := KObject;
    col_values := [VStr (text_of "one"); VNull PyNone; VNull PyNone; VOther true; VStr (text_of " N/A"); VNull NaN] |} /\
  Handled (col_lib ex_col) (col_kind ex_col) PyNone /\ ex_space newline = true.
Proof. split; [vm_compute; reflexivity|]. split; [constructor|reflexivity]. Qed.
Example ex_C57_other : fit_transform ex_space {| col_lib := Polars; col_kind := KObject; col_values := [VOther true] |} = Err RejectColumn.
Proof. apply C57_other. intros n H. inversion H. Qed.
