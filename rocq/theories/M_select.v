(** Model of the column selectors (skrub/_selectors/_base.py) and of [SelectCols],
    [DropCols] (skrub/_select_cols.py). *)
From Verif Require Import Base M_names.
Open Scope string_scope.
Open Scope list_scope.
Open Scope nat_scope.

Section Selectors.
  (** type of column data *)
  Context {C : Type}.

  (** skrub/_selectors/_base.py:268-454. The predicate of a [Filter] sees the column (name
      and data) and may raise; a [NameFilter] is a [Filter] that only looks at the name. *)
  Inductive selector :=
  | SAll
  | SCols (columns : list string)
  | SInv (complement : selector)
  | SOr (left right : selector)
  | SAnd (left right : selector)
  | SSub (left right : selector)
  | SXor (left right : selector)
  | SFilter (predicate : string -> C -> res bool).

  (** Python's short-circuiting operators on values that may raise *)
  Definition py_or (a : res bool) (b : res bool) : res bool :=
    let! x := a in if x then Ok true else b.
  Definition py_and (a : res bool) (b : res bool) : res bool :=
    let! x := a in if x then b else Ok false.
  Definition py_not (a : res bool) : res bool := let! x := a in Ok (negb x).

  (** [_matches]: lines 269, 291, 311, 323, 335, 347, 359, 376, 449 *)
  Fixpoint matches (s : selector) (name : string) (c : C) : res bool :=
    match s with
    | SAll => Ok true
    | SCols columns => Ok (mem name columns)
    | SInv a => py_not (matches a name c)
    | SOr a b => py_or (matches a name c) (matches b name c)
    | SAnd a b => py_and (matches a name c) (matches b name c)
    | SSub a b => py_and (matches a name c) (py_not (matches b name c))
    | SXor a b => let! x := matches a name c in let! y := matches b name c in Ok (xorb x y)
    | SFilter p => p name c
    end.

  (** [Selector.expand], lines 225-231: names of the matching columns, in dataframe order.
      (The code reads each column by name, which is the column itself when names are
      distinct.) *)
  Fixpoint expand_default (s : selector) (df : frame C) : res (list string) :=
    match df with
    | [] => Ok []
    | (n, c) :: df' =>
        let! b := matches s n c in
        let! r := expand_default s df' in
        Ok (if b then n :: r else r)
    end.

  (** [expand]: [Cols] overrides it, lines 294-301 *)
  Definition expand (s : selector) (df : frame C) : res (list string) :=
    match s with
    | SCols columns =>
        match filter (fun k => negb (mem k (column_names df))) columns with
        | [] => Ok columns
        | _ => Err ValueError
        end
    | _ => expand_default s df
    end.

  (** [Selector.expand_index], lines 233-238 *)
  Fixpoint expand_index_from (s : selector) (i : nat) (df : frame C) : res (list nat) :=
    match df with
    | [] => Ok []
    | (n, c) :: df' =>
        let! b := matches s n c in
        let! r := expand_index_from s (S i) df' in
        Ok (if b then i :: r else r)
    end.
  Definition expand_index (s : selector) (df : frame C) := expand_index_from s 0 df.

  (** What a user can pass where a selector is expected. *)
  Inductive selarg := ASel (s : selector) | AStr (name : string) | AIter (names : list (option string))
                    | AOther.
  (** [make_selector], lines 134-157, with [_check_string_list], lines 276-284. In [AIter] a
      [None] element stands for an element that is not a string. *)
  Fixpoint all_strings (l : list (option string)) : option (list string) :=
    match l with
    | [] => Some []
    | Some x :: l' => option_map (cons x) (all_strings l')
    | None :: _ => None
    end.
  Definition make_selector (a : selarg) : res selector :=
    match a with
    | ASel s => Ok s
    | AStr n => Ok (SCols [n])
    | AIter l => match all_strings l with Some l' => Ok (SCols l') | None => Err ValueError end
    | AOther => Err ValueError
    end.

  (** [_select_col_names], lines 160-172: [df\[names\]]; a missing name is a KeyError *)
  Definition select_names (df : frame C) (names : list string) : res (frame C) :=
    mapM (fun n => match dget n df with Some c => Ok (n, c) | None => Err KeyError end) names.

  (** [select], lines 175-218 *)
  Definition select (df : frame C) (s : selector) : res (frame C) :=
    let! names := expand s df in select_names df names.

  (** [SelectCols] and [DropCols], skrub/_select_cols.py:43-61, 63-77, 116-150. The fitted
      state is [_columns]. *)
  Definition selcols_fit (cols : selector) (df : frame C) : res (list string) := expand cols df.
  Definition selectcols_transform (columns : list string) (df : frame C) : res (frame C) :=
    select df (SCols columns).
  Definition dropcols_transform (columns : list string) (df : frame C) : res (frame C) :=
    select df (SInv (SCols columns)).
End Selectors.
Arguments selector C : clear implicits.
Arguments selarg C : clear implicits.
