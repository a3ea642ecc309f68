(** The whole sample table of a report of a pandas dataframe: /repo/skrub/_reporting/_sample_table.py 310-527 (and 120-188 for polars). Headers and slices are
    in [M_sampletable]. *)
From Verif Require Import Base M_sampletable.
From Coq Require Import ZArith.
Open Scope list_scope.
Open Scope nat_scope.

Section Grid.
  (** values of indexes, with their [==]; values of the dataframe *)
  Context {V D : Type}.
  Variable eqv : V -> V -> bool.

  Inductive role := ColumnValue | ColumnName | IndexName | IndexValue | Data | Padding | ColumnHead.
  Inductive content := Nothing | Label (v : V) | Datum (d : D).
  (** a cell: its position, its spans (1 if absent, as in the template), its value, its role, "column_idx" *)
  Record cell := mk_cell { ci : Z; cj : Z; rspan : nat; cspan : nat; shows : content; crole : role; column : option nat }.
  (** parts of the table: head, slices, ellipsis *)
  Inductive tpart := THead (rows : list (list cell)) | TBody (rows : list (list cell)) | TEllipsis.
  Record table := { parts : list tpart; start_i : Z; start_j : Z; stop_i : Z; stop_j : Z }.

  (** a dataframe: levels, items and names of levels for columns and rows; values *)
  Record frame := { col_levels : nat; col_items : list (list V); col_names : list (option V);
                    idx_levels : nat; idx_items : list (list V); idx_names : list (option V);
                    data : list (list D) }.
  Definition name_content (n : option V) : content := match n with Some v => Label v | None => Nothing end.
  Definition is_named (names : list (option V)) : bool := existsb (fun n => match n with Some _ => true | None => false end) names.
  (** [range(a, a + n)] *)
  Definition zrange (a : Z) (n : nat) : list Z := map (fun k => (a + Z.of_nat k)%Z) (seq 0 n).

  (** the row of a level of the columns, 374-397 *)
  Definition head_row (i : Z) (ths : list (option (th V))) : list cell :=
    flat_map (fun q => match snd q with
                       | None => []
                       | Some t => [mk_cell i (Z.of_nat (fst q)) (if (i =? -2)%Z then 2 else 1) (th_span t) (Label (th_value t)) ColumnValue
                                            (if (i =? -2)%Z then Some (fst q) else None)]
                       end) (combine (seq 0 (length ths)) ths).
  Definition head_rows (f : frame) (ths : list (list (option (th V)))) : list (list cell) :=
    map (fun q => head_row (fst q) (snd q)) (combine (zrange (- Z.of_nat (col_levels f) - 1) (col_levels f)) ths) ++ [[]].
  (** [l[0].insert(0, ...)] and the like; errors of indexes *)
  Definition at_first (g : list cell -> list cell) (rows : list (list cell)) : res (list (list cell)) :=
    match rows with [] => Err IndexError | r :: rows' => Ok (g r :: rows') end.
  (** 424-442: the names of column levels *)
  Fixpoint insert_names (i : Z) (sj : Z) (n_idx : nat) (names : list (option V)) (rows : list (list cell)) : list (list cell) :=
    match names, rows with
    | n :: names', r :: rows' =>
        if (i <? -1)%Z then
          (mk_cell i sj (if (i =? -2)%Z then 2 else 1) n_idx (name_content n) ColumnName None :: r) :: insert_names (i + 1) sj n_idx names' rows'
        else rows
    | _, _ => rows
    end.
  (** 446-477; [thead_rows[-2][0]["rowspan"] = 1] *)
  Definition index_names (f : frame) (i : Z) (span : nat) : list cell :=
    map (fun q => mk_cell i (fst q) span 1 (name_content (snd q)) IndexName None) (combine (zrange (- Z.of_nat (idx_levels f)) (idx_levels f)) (idx_names f)).
  Fixpoint under_columns (names : list cell) (rows : list (list cell)) : res (list (list cell)) :=
    match rows with
    | [[]; _] => Err IndexError
    | [c :: r; _] => Ok [mk_cell (ci c) (cj c) 1 (cspan c) (shows c) (crole c) (column c) :: r; names]
    | r :: rows' => let! rest := under_columns names rows' in Ok (r :: rest)
    | [] => Err IndexError
    end.
  (** 401-477 *)
  Definition corner (f : frame) (rows : list (list cell)) : res (list (list cell)) :=
    let si := (- Z.of_nat (col_levels f) - 1)%Z in
    let sj := (- Z.of_nat (idx_levels f))%Z in
    let has_idx := is_named (idx_names f) in
    let has_col := is_named (col_names f) in
    if negb has_idx && negb has_col then
      at_first (fun r => mk_cell si sj (S (col_levels f)) (idx_levels f) Nothing Padding None :: r) rows
    else
      let rows := if has_col then insert_names si sj (idx_levels f) (col_names f) rows else rows in
      if has_idx then
        if has_col then under_columns (index_names f (-1) 1) rows
        else at_first (fun r => index_names f si (S (col_levels f)) ++ r) rows
      else Ok rows.
  Definition table_head (f : frame) : res (list (list cell)) :=
    let! ths := horizontal_headers eqv (col_levels f) (col_items f) in
    corner f (head_rows f ths).

  (** 491-524 *)
  Definition index_cells (i : Z) (sj : Z) (ths : list (option (th V))) : list cell :=
    flat_map (fun q => match snd q with
                       | None => []
                       | Some t => [mk_cell i (sj + Z.of_nat (fst q))%Z (th_span t) 1 (Label (th_value t)) IndexValue None]
                       end) (combine (seq 0 (length ths)) ths).
  Definition data_cells (i : Z) (row : list D) : list cell :=
    map (fun q => mk_cell i (Z.of_nat (fst q)) 1 1 (Datum (snd q)) Data (Some (fst q))) (combine (seq 0 (length row)) row).
  Definition body_rows (f : frame) (start : Z) (rows : list (list V * list D)) : res (list (list cell)) :=
    let! ths := vertical_headers eqv (idx_levels f) (map fst rows) in
    (* [itertuples] gives nothing for a dataframe without columns *)
    let tuples := if length (col_items f) =? 0 then [] else map snd rows in
    Ok (map (fun q => index_cells (start + Z.of_nat (fst q)) (- Z.of_nat (idx_levels f)) (fst (snd q)) ++
                      data_cells (start + Z.of_nat (fst q)) (snd (snd q)))
            (combine (seq 0 (length rows)) (combine ths tuples))).
  Definition body_part (f : frame) (p : part (list V * list D)) : res tpart :=
    match p with
    | PRows rows start => let! r := body_rows f start rows in Ok (TBody r)
    | PEllipsis => Ok TEllipsis
    end.
  (** 342-366 *)
  Definition make_table (f : frame) (max_top max_bottom : Z) : res table :=
    let rows := combine (idx_items f) (data f) in
    let! head := table_head f in
    let! body := mapM (body_part f) (df_slices rows max_top max_bottom) in
    let sizes := pick_slice_sizes (length rows) max_top max_bottom in
    Ok {| parts := THead head :: body; start_i := - Z.of_nat (col_levels f) - 1; start_j := - Z.of_nat (idx_levels f);
          stop_i := fst (fst sizes) + snd (fst sizes); stop_j := Z.of_nat (length (col_items f)) |}.

  (** polars, 120-188 *)
  Definition make_table_polars (names : list V) (rows : list (list D)) (max_top max_bottom : Z) : table :=
    let head := map (fun q => mk_cell (-1) (Z.of_nat (fst q)) 1 1 (Label (snd q)) ColumnHead (Some (fst q))) (combine (seq 0 (length names)) names) in
    let body p := match p with
                  | PRows rs start => TBody (map (fun q => data_cells (start + Z.of_nat (fst q)) (snd q)) (combine (seq 0 (length rs)) rs))
                  | PEllipsis => TEllipsis
                  end in
    let sizes := pick_slice_sizes (length rows) max_top max_bottom in
    {| parts := THead [head] :: map body (df_slices rows max_top max_bottom); start_i := -1; start_j := 0;
       stop_i := fst (fst sizes) + snd (fst sizes); stop_j := Z.of_nat (length names) |}.
End Grid.
