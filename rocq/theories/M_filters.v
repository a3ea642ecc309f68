(** The menu of column filters of a report, /repo/skrub/_reporting/_html.py, and what the page does with it,
    /repo/skrub/_reporting/_data/templates/report.js. *)
From Verif Require Import Base M_names M_select M_clean.
Open Scope string_scope.
Open Scope list_scope.
Open Scope nat_scope.

(** what the lists of columns of filters contain, once in JSON: numbers or strings *)
Inductive colref : Type := RIdx (i : nat) | RName (s : string).
#[global] Instance EqD_colref : EqD colref.
Proof. intros a b. decide equality; [apply Nat.eq_dec|apply string_dec]. Defined.
Record colfilter : Type := { display_name : string; fcolumns : list colref }.

Section Filters.
  Context {N TZ O K : Type}.
  Notation column := (@M_clean.column N TZ O K).
  Variable empty_is_string : bool.             (* see M_clean.v *)
  (** scores; [above x]: not [x <= _HIGH_ASSOCIATION_THRESHOLD] *)
  Context {num : Type}.
  Variable above : num -> bool.

  (** [sbd.has_nulls], _dataframe/_common.py 1089-1090 *)
  Definition has_nulls (c : column) : bool := existsb is_null (cells c).
  (** the selectors of the menu and their [repr], _html.py 91-99, /repo/skrub/_selectors/_selectors.py *)
  Definition of_pred (p : column -> bool) : selector column := SFilter (fun _ c => Ok (p c)).
  Definition selectors : list (string * selector column) :=
    flat_map (fun ns => [(fst ns ++ "()", of_pred (snd ns)); ("(~" ++ fst ns ++ "())", SInv (of_pred (snd ns)))]%string)
      [("has_nulls", has_nulls); ("numeric", is_numeric); ("string", is_string empty_is_string);
       ("categorical", is_categorical); ("any_date", is_any_date)].

  (** [_FILTER_NAMES], 18-32 *)
  Definition FILTER_NAMES : list (string * string) :=
    [("first_10", "First 10"); ("high_association", "High similarity"); ("all()", "All columns");
     ("has_nulls()", "With nulls"); ("(~has_nulls())", "Without nulls");
     ("numeric()", "Numeric"); ("(~numeric())", "Non-numeric");
     ("string()", "String"); ("(~string())", "Non-string");
     ("categorical()", "Categorical"); ("(~categorical())", "Non-categorical");
     ("any_date()", "Datetime"); ("(~any_date())", "Non-datetime")].
  Definition filter_name (k : string) : res string := match dget k FILTER_NAMES with Some n => Ok n | None => Err KeyError end.

  (** an item of [summary["top_associations"]]: [left_column_idx], [right_column_idx], [cramer_v] *)
  Record asso : Type := { left_idx : nat; right_idx : nat; score : num }.
  (** [_get_high_association_columns], 61-68: a set of positions *)
  Fixpoint high_association_columns (l : list asso) : list nat :=
    match l with
    | [] => []
    | a :: l' => if above (score a) then left_idx a :: right_idx a :: high_association_columns l' else []
    end.

  Definition add_filter (k : string) (cols : list nat) (d : dict string colfilter) : res (dict string colfilter) :=
    let! n := filter_name k in Ok (dset k {| display_name := n; fcolumns := map RIdx cols |} d).
  Fixpoint add_selectors (l : list (string * selector column)) (df : frame column) (d : dict string colfilter) : res (dict string colfilter) :=
    match l with
    | [] => Ok d
    | (k, s) :: l' =>
        let! cols := expand_index s df in
        let! d := add_filter k cols d in
        add_selectors l' df d
    end.
  (** [_get_column_filters], 71-109. [top]: the value of "top_associations" if the key is present *)
  Definition get_column_filters (df : frame column) (top : option (list asso)) : res (dict string colfilter) :=
    let n := length df in
    let! d := add_filter "all()" (seq 0 n) [] in
    let! d := if 10 <? n then add_filter "first_10" (seq 0 10) d else Ok d in
    let! d := match top with Some l => add_filter "high_association" (high_association_columns l) d | None => Ok d end in
    add_selectors selectors df d.

  (** [to_html], 131-141: [column_filters | {k: v for (k, v) in default_filters.items() if k not in column_filters}] *)
  Definition merge (custom default : dict string colfilter) : dict string colfilter :=
    custom ++ filter (fun kv => negb (mem (fst kv) (dkeys custom))) default.
  Definition report_filters (df : frame column) (top : option (list asso)) (custom : option (dict string colfilter)) : res (dict string colfilter) :=
    let! d := get_column_filters df top in
    Ok (merge (match custom with Some c => c | None => [] end) d).
  (** the entries of the menu, templates/column-filter.html 7-10 *)
  Definition menu (d : dict string colfilter) : list (string * string) := map (fun kv => (fst kv, display_name (snd kv))) d.

  (** [ColumnFilter.onSelectChange], [ColumnFilterMatchCount], [FilterableColumn] and [matchesColumnFilter], report.js 50-54, 148-163,
      190-194, 225-233: the positions of the columns that are not hidden once the entry [k] is selected, and the number of columns
      displayed. [acceptedColumns.has(Number(idx))]: a number is not equal to a string. *)
  Definition select_entry (d : dict string colfilter) (n_columns : nat) (k : string) : res (list nat * nat) :=
    match dget k d with
    | None => Err TypeError
    | Some f => Ok (filter (fun i => mem (RIdx i) (fcolumns f)) (seq 0 n_columns), length (nodup eqd (fcolumns f)))
    end.
  (** [RESET_COLUMN_FILTER], 165-168 *)
  Definition reset (d : dict string colfilter) (n_columns : nat) : res (list nat * nat) := select_entry d n_columns "all()".

  (** [_add_associations], /repo/skrub/_reporting/_summarize.py 119-134: [sbd.slice(associations, _N_TOP_ASSOCIATIONS)], and
      [summarize_dataframe] 111-115 with [TableReport._summary], _table_report.py 153-168 *)
  Definition N_TOP_ASSOCIATIONS : nat := 20.
  Definition top_associations (n_rows n_columns : nat) (max_association_columns : option Z) (associations : res (list asso)) : res (option (list asso)) :=
    if match max_association_columns with None => true | Some m => (m >=? Z.of_nat n_columns)%Z end
    then if (0 <? n_rows) && (0 <? n_columns)
         then let! l := associations in Ok (Some (firstn N_TOP_ASSOCIATIONS l))
         else Ok (Some [])
    else Ok None.
End Filters.
Arguments asso : clear implicits.
