(** Aggregation joins, /repo/skrub/_agg_joiner.py. *)
From Verif Require Import Base M_names M_oncols.
Open Scope string_scope.
Open Scope list_scope.
Open Scope nat_scope.

(** Lines 28-30 *)
Definition SUPPORTED_OPS : list string := ["count"; "mode"; "min"; "max"; "sum"; "median"; "mean"; "std"].
Definition NUM_ONLY_OPS : list string := ["sum"; "median"; "mean"; "std"].

Section Agg.
  (** Cells, with the null value and the test for nulls. *)
  Context {V : Type} `{EqD V}.
  Variable null : V.
  Variable isnull : V -> bool.
  Variable lib : library.
  (** [group_order]: in which order [groupby] returns the groups; [aggf]: the aggregation
      functions, on the values of a group in the order of the rows. *)
  Variable group_order : list (list V) -> list (list V).
  Variable aggf : string -> list V -> res V.

  (** Names must be distinct when a dataframe is made: the error differs. *)
  Definition duplicate_error : exn := match lib with Pandas => ValueError | Polars => DuplicateError end.

  Fixpoint has_dups (l : list string) : bool :=
    match l with [] => false | x :: l' => mem x l' || has_dups l' end.

  (** [itertools.product(cols_to_agg, operations)] *)
  Definition product (cols ops : list string) : list (string * string) :=
    flat_map (fun c => map (fun op => (c, op)) ops) cols.

  (** f"{col}_{operation}", lines 105 and 129 *)
  Definition output_key (p : string * string) : string := (fst p ++ "_" ++ snd p)%string.

  (** The aggregations to make, by name: lines 103-106 (a dict) and 117-131 (a list). *)
  Definition named_agg (cols ops : list string) : res (list (string * (string * string))) :=
    match lib with
    | Pandas => Ok (fold_left (fun d p => dset (output_key p) p d) (product cols ops) [])
    | Polars => Ok (map (fun p => (output_key p, p)) (product cols ops))
    end.

  (** The rows with their keys; pandas drops those with a null in the key ([dropna=True]). *)
  Definition keyed_rows (t : table V) (key : list string) : res (list (list V * list V)) :=
    let! rows := mapM (fun r => let! k := row_key (tcols t) key r in Ok (k, r)) (trows t) in
    Ok (match lib with
        | Pandas => filter (fun kr => negb (existsb isnull (fst kr))) rows
        | Polars => rows
        end).

  Definition group_keys (rows : list (list V * list V)) : list (list V) :=
    group_order (nodup (eqd (A := list V)) (map fst rows)).

  Definition agg_cell (t : table V) (rows : list (list V)) (p : string * string) : res V :=
    let! vs := mapM (fun r => match cell (tcols t) r (fst p) with Some v => Ok v | None => Err KeyError end) rows in
    aggf (snd p) vs.

  (** [perform_groupby], lines 96-134. Grouping by no column is refused, pandas refuses to
      aggregate nothing, and a result with two columns of the same name cannot be made. *)
  Definition perform_groupby (t : table V) (key cols ops : list string) : res (table V) :=
    let! named := named_agg cols ops in
    match key, lib, named with
    | [], _, _ => Err ValueError
    | _, Pandas, [] => Err TypeError
    | _, _, _ =>
      let! rows := keyed_rows t key in
      let! aggregated :=
        mapM (fun k =>
          let members := map snd (filter (fun kr => eqb_of (fst kr) k) rows) in
          let! vals := mapM (fun n => agg_cell t members (snd n)) named in
          Ok (k ++ vals)) (group_keys rows) in
      if has_dups (key ++ map fst named) then Err duplicate_error
      else Ok {| tcols := key ++ map fst named; trows := aggregated |}
    end.

  (** [aggregate], lines 33-88. [is_numeric]: by column of [table]. *)
  Definition aggregate (is_numeric : string -> bool) (t : table V) (key cols ops : list string) (suffix : string)
    : res (table V) :=
    let to_agg := filter (fun c => mem c key || mem c cols) (tcols t) in
    let to_check := filter (fun c => negb (mem c key)) to_agg in
    let not_numeric := filter (fun c => negb (is_numeric c)) to_check in
    let num_only := filter (fun op => mem op NUM_ONLY_OPS) ops in
    match not_numeric, num_only with
    | _ :: _, _ :: _ => Err AttributeError
    | _, _ =>
      let! agg := perform_groupby t key cols ops in
      let names := map (fun c => if mem c key then c else (c ++ suffix)%string) (tcols agg) in
      match lib with
      | Polars => if has_dups names then Err DuplicateError
                  else Ok {| tcols := names; trows := trows agg |}
      | Pandas => Ok {| tcols := names; trows := trows agg |}
      end
    end.

  (** [check_other_inputs], lines 137-168, for a suffix that is a string. *)
  Definition check_operations (operations : keyarg) : res (list string) :=
    match atleast_1d_or_none operations with
    | [] => Err ValueError
    | ops => if forallb (fun op => mem op SUPPORTED_OPS) ops then Ok ops else Err ValueError
    end.

  (** Whether keys match in a join: pandas matches nulls, polars does not. *)
  Definition keq (a b : list V) : bool :=
    eqb_of a b && match lib with Pandas => true | Polars => negb (existsb isnull a) end.

  (** ** AggJoiner *)
  Inductive aux_arg : Type := AuxX | AuxTable (t : table V) | AuxOther.

  Record agg_params : Type := mk_agg_params {
    p_aux_table : aux_arg; p_operations : keyarg;
    p_key : keyarg; p_main_key : keyarg; p_aux_key : keyarg; p_cols : keyarg; p_suffix : string
  }.
  Record agg_fitted : Type := mk_agg_fitted {
    f_features_in : list string;      (* self._main_check_input *)
    f_main_key : list string; f_aux_key : list string;
    f_aggregated : table V;           (* self.aggregated_aux_table_ *)
    f_outputs : list string           (* self.all_outputs_ *)
  }.

  (** [fit_transform], lines 277-337. The tables are dataframes with distinct string names, which
      [CheckInputDataFrame] leaves unchanged. [set_order]: the order of [list(set(...))]. *)
  Variable set_order : list string -> list string.
  Definition fit_transform (draw : nat -> string) (is_numeric : string -> bool) (p : agg_params) (X : table V)
    : res (agg_fitted * table V) :=
    let! aux := match p_aux_table p with
                | AuxX => Ok X
                | AuxTable t => Ok t
                | AuxOther => Err ValueError
                end in
    let! (mk, ak) := check_key (p_main_key p) (p_aux_key p) (p_key p) in
    let! _ := check_missing_columns (tcols X) mk in
    let! _ := check_missing_columns (tcols aux) ak in
    let cols := if is_none (p_cols p)
                then set_order (filter (fun c => negb (mem c ak)) (tcols aux))
                else atleast_1d_or_none (p_cols p) in
    let! _ := check_missing_columns (tcols aux) cols in
    let! ops := check_operations (p_operations p) in
    let! agg := aggregate is_numeric aux ak cols ops (p_suffix p) in
    let! result := left_join null keq draw X agg mk ak (fun c => c) in
    Ok (mk_agg_fitted (tcols X) mk ak agg (tcols result), result).

  (** [transform], lines 358-382. *)
  Definition rename_all (t : table V) (names : list string) : res (table V) :=
    if length names =? length (tcols t) then Ok {| tcols := names; trows := trows t |} else Err ValueError.
  Definition transform (draw : nat -> string) (f : agg_fitted) (X : table V) : res (table V) :=
    if negb (eqb_of (tcols X) (f_features_in f)) then Err ValueError
    else
      let! result := left_join null keq draw X (f_aggregated f) (f_main_key f) (f_aux_key f) (fun c => c) in
      rename_all result (f_outputs f).

  (** ** AggTarget *)

  (** [sbd.with_columns(y_, ...)] on one row: an existing column is replaced. *)
  Fixpoint set_cell (cols : list string) (row : list V) (c : string) (v : V) : list string * list V :=
    match cols, row with
    | k :: cols', x :: row' =>
        if eqd c k then (cols, v :: row')
        else let (cs, r) := set_cell cols' row' c v in (k :: cs, x :: r)
    | _, _ => ([c], [v])
    end.
  Definition set_cells (cols : list string) (row : list V) (new : list (string * V)) : list string * list V :=
    fold_left (fun cr cv => set_cell (fst cr) (snd cr) (fst cv) (snd cv)) new (cols, row).

  (** The target with the key columns of [X], lines 499-519. *)
  Definition target_table (X y : table V) (key : list string) : res (table V) :=
    if negb (length (trows y) =? length (trows X)) then Err ValueError
    else
      let! rows := mapM (fun xy =>
                     let! k := row_key (tcols X) key (fst xy) in
                     Ok (snd (set_cells (tcols y) (snd xy) (combine key k))))
                     (combine (trows X) (trows y)) in
      Ok {| tcols := tcols y ++ nodup eqd (filter (fun k => negb (mem k (tcols y))) key);
            trows := rows |}.

  Record target_params : Type := mk_target_params {
    t_main_key : keyarg; t_operations : keyarg; t_suffix : string
  }.

  (** [AggTarget.fit_transform], lines 471-543, for [y] a dataframe: a series or an array is first
      made into one. *)
  Definition target_fit_transform (draw : nat -> string) (is_numeric : string -> bool) (p : target_params) (X y : table V)
    : res (agg_fitted * table V) :=
    let mk := atleast_1d_or_none (t_main_key p) in
    let! _ := check_missing_columns (tcols X) mk in
    let! ops := check_operations (t_operations p) in
    let! yk := target_table X y mk in
    let! agg := aggregate is_numeric yk mk (tcols y) ops (t_suffix p) in
    let! result := left_join null keq draw X agg mk mk (fun c => c) in
    Ok (mk_agg_fitted (tcols X) mk mk agg (tcols result), result).
End Agg.
