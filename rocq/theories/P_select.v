(** C06, C07, C08: selectors, SelectCols and DropCols. *)
From Verif Require Import Base M_names M_select L_select.
Open Scope string_scope.
Open Scope list_scope.
Open Scope nat_scope.

(** C06. A combined selector expands to the columns that satisfy the Boolean combination,
    in dataframe order. *)
Theorem C06_expand :
  forall (C : Type) (s : selector C) df, ~ is_cols s -> NoRaise s df ->
    exists sel, expand s df = Ok (column_names sel) /\
      FilterOf (fun p => denote s (fst p) (snd p)) df sel.
Proof. exact @expand_spec. Qed.
Print Assumptions C06_expand.

Definition C06_df : frame nat := [("a", 1); ("b", 2); ("c", 3); ("d", 4)].
Definition C06_even : selector nat := SFilter (fun _ c => Ok (Nat.even c)).
Example C06_expand_ex :
  NoRaise (SXor (SOr (SCols ["c"; "zzz"]) C06_even) (SInv (SCols ["b"]))) C06_df /\
  expand (SXor (SOr (SCols ["c"; "zzz"]) C06_even) (SInv (SCols ["b"]))) C06_df = Ok ["a"; "b"].
Proof. split; [|reflexivity]. intros n c _. simpl. eauto 8. Qed.

(** C06. Algebraic laws (they hold even when a predicate raises). *)
Theorem C06_de_morgan_or :
  forall (C : Type) (a b : selector C) df,
    expand (SInv (SOr a b)) df = expand (SAnd (SInv a) (SInv b)) df.
Proof. exact @law_de_morgan_or. Qed.
Print Assumptions C06_de_morgan_or.
Theorem C06_de_morgan_and :
  forall (C : Type) (a b : selector C) df,
    expand (SInv (SAnd a b)) df = expand (SOr (SInv a) (SInv b)) df.
Proof. exact @law_de_morgan_and. Qed.
Print Assumptions C06_de_morgan_and.
Theorem C06_sub :
  forall (C : Type) (a b : selector C) df, expand (SSub a b) df = expand (SAnd a (SInv b)) df.
Proof. exact @law_sub. Qed.
Print Assumptions C06_sub.
Theorem C06_xor :
  forall (C : Type) (a b : selector C) df,
    expand (SXor a b) df = expand (SSub (SOr a b) (SAnd a b)) df.
Proof. exact @law_xor. Qed.
Print Assumptions C06_xor.
Theorem C06_double_negation :
  forall (C : Type) (a : selector C) df,
    ~ is_cols a -> expand (SInv (SInv a)) df = expand a df.
Proof. exact @law_double_neg. Qed.
Print Assumptions C06_double_negation.
Example C06_laws_ex :
  expand (SInv (SOr (SCols ["a"]) C06_even)) C06_df = Ok ["c"] /\
  expand (SInv (SInv C06_even)) C06_df = Ok ["b"; "d"].
Proof. split; reflexivity. Qed.

(** C06. A selector and its complement partition the columns. *)
Theorem C06_partition :
  forall (C : Type) (a : selector C) df, ~ is_cols a -> NoRaise a df ->
    exists s1 s2, expand a df = Ok (column_names s1) /\ expand (SInv a) df = Ok (column_names s2) /\
      Permutation df (s1 ++ s2).
Proof. exact @law_partition. Qed.
Print Assumptions C06_partition.

(** C06. The index form selects the same columns as the name form. *)
Theorem C06_expand_index :
  forall (C : Type) (s : selector C) df i,
    match expand_default s df, expand_index_from s i df with
    | Ok names, Ok idx => map (fun k => nth_error (column_names df) (k - i)) idx = map Some names
                          /\ (forall k, In k idx -> i <= k)
    | Err e, Err e' => e = e'
    | _, _ => False
    end.
Proof. exact @expand_index_spec. Qed.
Print Assumptions C06_expand_index.
Example C06_expand_index_ex : expand_index C06_even C06_df = Ok [1; 3].
Proof. reflexivity. Qed.

(** C07. A list of names alone is strict and keeps its own order. *)
Theorem C07_cols_strict :
  forall (C : Type) l (df : frame C),
    (expand (SCols l) df = Ok l <-> forall n, In n l -> In n (column_names df)) /\
    (expand (SCols l) df = Err ValueError <-> exists n, In n l /\ ~ In n (column_names df)).
Proof. exact @expand_cols_spec. Qed.
Print Assumptions C07_cols_strict.

(** C07. Selecting by such a list returns these columns, with their data. *)
Theorem C07_select_cols :
  forall (C : Type) l (df : frame C), NoDup (column_names df) ->
    (forall n, In n l -> In n (column_names df)) ->
    exists out, select df (SCols l) = Ok out /\ column_names out = l /\
      (forall p, In p out -> In p df).
Proof. exact @select_cols_ok. Qed.
Print Assumptions C07_select_cols.
Example C07_select_cols_ex :
  select C06_df (SCols ["d"; "a"]) = Ok [("d", 4); ("a", 1)] /\
  select C06_df (SCols ["d"; "x"]) = Err ValueError.
Proof. split; reflexivity. Qed.

(** C07. Inside a combination missing names are ignored and nothing is raised. *)
Theorem C07_combined_lenient :
  forall (C : Type) (s : selector C) df, ~ is_cols s -> NoRaise s df -> NoDup (column_names df) ->
    exists out, select df s = Ok out /\ FilterOf (fun p => denote s (fst p) (snd p)) df out.
Proof. exact @select_spec. Qed.
Print Assumptions C07_combined_lenient.
Example C07_combined_lenient_ex :
  select C06_df (SOr (SCols ["d"; "x"]) (SCols ["a"])) = Ok [("a", 1); ("d", 4)].
Proof. reflexivity. Qed.

(** C08. Fitted with the same selector, SelectCols and DropCols partition the dataframe. *)
Theorem C08_select_drop_partition :
  forall (C : Type) (s : selector C) (df : frame C) cols, NoDup (column_names df) ->
    (forall l, s = SCols l -> NoDup l) -> selcols_fit s df = Ok cols ->
    exists kept dropped,
      selectcols_transform cols df = Ok kept /\ column_names kept = cols /\
      dropcols_transform cols df = Ok dropped /\
      FilterOf (fun p => ~ In (fst p) cols) df dropped /\
      Permutation df (kept ++ dropped).
Proof. exact @select_drop_partition. Qed.
Print Assumptions C08_select_drop_partition.
Example C08_select_drop_partition_ex :
  selcols_fit C06_even C06_df = Ok ["b"; "d"] /\
  selectcols_transform ["b"; "d"] C06_df = Ok [("b", 2); ("d", 4)] /\
  dropcols_transform ["b"; "d"] C06_df = Ok [("a", 1); ("c", 3)].
Proof. repeat split. Qed.

(** C08. On a later dataframe SelectCols returns the columns chosen at fit, or raises if one
    is missing. *)
Theorem C08_selectcols_later :
  forall (C : Type) cols (df2 : frame C), NoDup (column_names df2) ->
    ((forall n, In n cols -> In n (column_names df2)) ->
     exists out, selectcols_transform cols df2 = Ok out /\ column_names out = cols /\
       (forall p, In p out -> In p df2)) /\
    ((exists n, In n cols /\ ~ In n (column_names df2)) ->
     selectcols_transform cols df2 = Err ValueError).
Proof. exact @selectcols_later. Qed.
Print Assumptions C08_selectcols_later.

(** C08. On a later dataframe DropCols removes exactly the columns chosen at fit. *)
Theorem C08_dropcols_later :
  forall (C : Type) cols (df2 : frame C), NoDup (column_names df2) ->
    exists out, dropcols_transform cols df2 = Ok out /\
      FilterOf (fun p => ~ In (fst p) cols) df2 out.
Proof. exact @dropcols_later. Qed.
Print Assumptions C08_dropcols_later.
Example C08_later_ex :
  selectcols_transform ["b"; "d"] [("x", 0); ("d", 7); ("b", 8)] = Ok [("b", 8); ("d", 7)] /\
  dropcols_transform ["b"; "d"] [("x", 0); ("d", 7)] = Ok [("x", 0)].
Proof. split; reflexivity. Qed.
