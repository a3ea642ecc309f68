(** Model of [CheckInputDataFrame] (skrub/_check_input.py). *)
From Verif Require Import Base M_str M_names M_oncols.
Open Scope string_scope.
Open Scope list_scope.
Open Scope nat_scope.

Section CheckInput.
  (** [C]: column data; [O]: column names that are not strings, with [str]; [sparse]:
      whether a pandas column is sparse. *)
  Context {C O : Type} `{EqD O} (str : O -> string) (sparse : C -> bool).

  (** a column name: a string or something else *)
  Notation colname := (string + O)%type.
  #[local] Instance EqD_colname : EqD colname.
  Proof. intros x y. decide equality; apply eqd. Defined.

  (** What can be passed to [fit] and [transform]: a 2-d array (its columns), an array
      of another dimension, a dataframe of one of the two libraries (a polars LazyFrame counts
      as polars, [collect] does not change what is modelled here), anything else. *)
  Inductive input :=
  | Array2 (columns : list C)
  | ArrayOther
  | DataFrame (lib : library) (columns : list (colname * C))
  | NotDataFrame.

  (** skrub/_check_input.py:168-186 [_handle_array] and 67-72 [_check_is_dataframe] *)
  Definition as_dataframe (X : input) : res (library * list (colname * C)) :=
    match X with
    | Array2 columns =>
        Ok (Pandas, combine (map (fun i => inl (str_nat i)) (seq 0 (length columns))) columns)
    | ArrayOther => Err ValueError
    | DataFrame lib columns => Ok (lib, columns)
    | NotDataFrame => Err TypeError
    end.

  (** skrub/_check_input.py:20-29 [_column_names_to_strings] *)
  Definition name_str (n : colname) : string := match n with inl s => s | inr o => str o end.
  Definition column_names_to_strings (names : list colname) : list string := map name_str names.

  (** skrub/_check_input.py:32-40 [_deduplicated_column_names]; skrub/_utils.py:159-162
      [get_duplicates] is empty exactly when no name is repeated *)
  Fixpoint has_duplicates (names : list string) : bool :=
    match names with
    | [] => false
    | n :: names' => mem n names' || has_duplicates names'
    end.
  Definition deduplicated_column_names (draw : nat -> string) (names : list string) : list string :=
    if has_duplicates names then pick_column_names draw names [] else names.

  (** skrub/_check_input.py:43-44 *)
  Definition cleaned_column_names (draw : nat -> string) (names : list colname) : list string :=
    deduplicated_column_names draw (column_names_to_strings names).

  (** fitted attributes *)
  Record checked := {
    module_name_ : library;
    feature_names_in_ : list colname;
    feature_names_out_ : list string }.

  #[local] Instance EqD_library : EqD library.
  Proof. intros x y. decide equality. Defined.

  (** skrub/_check_input.py:52-64 [_check_not_pandas_sparse] *)
  Definition check_not_sparse (lib : library) (columns : list C) : res unit :=
    match lib with
    | Pandas => if existsb sparse columns then Err TypeError else Ok tt
    | Polars => Ok tt
    end.

  (** skrub/_check_input.py:123-138 [fit_transform] *)
  Definition ci_fit_transform (draw : nat -> string) (X : input) : res (checked * frame C) :=
    let! (lib, columns) := as_dataframe X in
    let names := map fst columns in
    let out_names := cleaned_column_names draw names in
    let! _ := check_not_sparse lib (map snd columns) in
    Ok ({| module_name_ := lib; feature_names_in_ := names; feature_names_out_ := out_names |},
        combine out_names (map snd columns)).

  (** skrub/_check_input.py:140-166 [transform]. (If the names differ and are not all strings,
      computing the message may raise a TypeError instead of the ValueError.) *)
  Definition ci_transform (f : checked) (X : input) : res (frame C) :=
    let! (lib, columns) := as_dataframe X in
    if negb (eqb_of lib (module_name_ f)) then Err TypeError
    else if negb (eqb_of (map fst columns) (feature_names_in_ f)) then Err ValueError
    else let! _ := check_not_sparse lib (map snd columns) in
         Ok (combine (feature_names_out_ f) (map snd columns)).
End CheckInput.
Arguments input C O : clear implicits.
Arguments checked O : clear implicits.
