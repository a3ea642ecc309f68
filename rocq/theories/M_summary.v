(** Summaries of columns in reports, /repo/skrub/_reporting/_summarize.py. *)
From Coq Require Import QArith Qabs.
From Verif Require Import Base M_matching.
Open Scope string_scope.
Open Scope list_scope.
Open Scope nat_scope.

Inductive lib : Type := Pandas | Polars.

Section Summary.
  (** values that are not null *)
  Context {V : Type} `{EqD V}.
  Inductive cell : Type := Null | NaN | Val (v : V).
  (** numbers (floats or not), dates, durations, categories (with the list of categories of pandas), other types *)
  Inductive kind : Type := KNumber (float : bool) | KDate | KDuration | KCategory (categories : list V) | KOther.
  Record column : Type := { clib : lib; ckind : kind; cells : list cell }.

  (** numbers as rationals; durations in seconds *)
  Variable num : V -> Q.
  Variable seconds : V -> Q.
  (** the order of dates *)
  Variable leb : V -> V -> bool.
  (** multiplication or division of floats by the length of a unit *)
  Inductive unit_ : Type := Microsecond | Millisecond | Second | Hour | Day | Year.
  Variable scale : unit_ -> Q -> Q.
  (** position of a quantile in a sorted list of some length, with [interpolation="nearest"] *)
  Variable qidx : lib -> Q -> nat -> nat.
  (** [sort_values(by="count", ascending=False)] *)
  Variable sort_counts : list (V * nat) -> list (V * nat).

  Definition is_float (k : kind) : bool := match k with KNumber b => b | _ => false end.
  (** [sbd.is_null], _dataframe/_common.py 1073-1086 *)
  Definition is_null (l : lib) (k : kind) (c : cell) : bool :=
    match c with
    | Null => true
    | NaN => match l with Pandas => true | Polars => is_float k end
    | Val _ => false
    end.
  Definition values (cs : list cell) : list V := flat_map (fun c => match c with Val v => [v] | _ => [] end) cs.

  Definition cell_eqb (a b : cell) : bool :=
    match a, b with
    | Null, Null | NaN, NaN => true
    | Val v, Val w => eqb_of v w
    | _, _ => false
    end.
  (** the distinct elements of a list *)
  Fixpoint distinct {A} (eqb : A -> A -> bool) (l : list A) : list A :=
    match l with
    | [] => []
    | a :: l' => if existsb (eqb a) l' then distinct eqb l' else a :: distinct eqb l'
    end.
  (** [sbd.n_unique], _dataframe/_common.py 1137-1151 *)
  Definition n_unique (col : column) : nat :=
    match clib col with
    | Pandas => length (distinct eqb_of (values (cells col)))
    | Polars =>
        let n := length (distinct cell_eqb (cells col)) in
        if existsb (cell_eqb Null) (cells col) then n - 1 else n
    end.
  (** [sbd.value_counts], _dataframe/_common.py 1012-1029. [Series.value_counts] of pandas lists all categories, those that
      do not occur with a count of 0. *)
  Definition count (v : V) (vs : list V) : nat := length (filter (eqb_of v) vs).
  Definition value_counts (col : column) : list (V * nat) :=
    let vs := values (cells col) in
    map (fun v => (v, count v vs))
        (match clib col, ckind col with
         | Pandas, KCategory cats => cats
         | _, _ => distinct eqb_of vs
         end).
  (** [top_k_value_counts], _reporting/_utils.py 32-37 *)
  Definition top_k_value_counts (col : column) (k : nat) : nat * list (V * nat) :=
    let counts := value_counts col in
    (length counts, firstn k (sort_counts counts)).

  (** [sbd.quantile], _dataframe/_common.py 1055-1067, and [quantiles], _reporting/_utils.py 40-41 *)
  Definition quantile (l : lib) (xs : list Q) (q : Q) : Q := nth (qidx l q (length xs)) (qsort xs) 0%Q.
  Definition QS : list Q := [0; 1 # 4; 1 # 2; 3 # 4; 1]%Q.
  Definition quantiles (l : lib) (xs : list Q) : list Q := map (quantile l xs) QS.
  Definition Qlt_bool (a b : Q) : bool := negb (Qle_bool b a).
  (** [duration_to_numeric], _reporting/_utils.py 120-136 *)
  Definition duration_unit (l : lib) (vs : list V) : unit_ :=
    let q := quantile l (map (fun v => Qabs (seconds v)) vs) (9 # 10) in
    if Qlt_bool q (1 # 1000) then Microsecond
    else if Qlt_bool q 1 then Millisecond
    else if Qlt_bool q 3600 then Second
    else if Qlt_bool q 86400 then Hour
    else if Qlt_bool q (86400 * (3652425 # 10000)) then Day
    else Year.

  Inductive level : Type := LOk | LWarning | LCritical.
  Record summary : Type := {
    null_count : nat; null_proportion : Q; nulls_level : level;
    unique : option nat; unique_proportion : option Q;
    counts : option (list (V * nat));
    value_is_constant : bool; constant_value : option cell;
    min_max : option (V * V);
    unit_of : option unit_; quantiles_of : option (list Q); inter_quartile_range : option Q;
    plot_names : list string }.

  (** [_add_nulls_summary], 175-184: [null_count / max(1, n_rows)], compared to 0.0 and 1.0 *)
  Definition proportion (n n_rows : nat) : Q := (Z.of_nat n # Pos.of_nat (Nat.max 1 n_rows)).
  Definition level_of (p : Q) : level := if Qeq_bool p 0 then LOk else if Qeq_bool p 1 then LCritical else LWarning.
  Definition count_nulls (col : column) : nat := length (filter (is_null (clib col) (ckind col)) (cells col)).

  (** [_add_value_counts], 187-217: number of values, counts, constant value, plots *)
  Definition add_value_counts (with_plots : bool) (col : column) : res (nat * list (V * nat) * option cell * list string) :=
    let (n, cs) := top_k_value_counts col 10 in
    if n =? 0 then Err AssertionError
    else if n =? 1
    then match cs with (v, _) :: _ => Ok (n, cs, Some (Val v), []) | [] => Err IndexError end
    else Ok (n, cs, None, if with_plots then ["value_counts_plot"] else []).

  (** smallest and largest dates *)
  Definition extremum (better : V -> V -> bool) (v : V) (vs : list V) : V := fold_left (fun m v => if better v m then v else m) vs v.

  (** [_summarize_column], 137-172, with [_add_numeric_summary], 243-277, and [_add_datetime_summary], 220-240 *)
  Definition summarize_column (n_rows : nat) (with_plots ordered : bool) (col : column) : res summary :=
    let nulls := count_nulls col in
    let p := proportion nulls n_rows in
    let vs := values (cells col) in
    if nulls =? n_rows
    then Ok {| null_count := nulls; null_proportion := p; nulls_level := level_of p; unique := None; unique_proportion := None;
               counts := None; value_is_constant := false; constant_value := None; min_max := None; unit_of := None;
               quantiles_of := None; inter_quartile_range := None; plot_names := [] |}
    else
      let u := n_unique col in
      match cells col with
      | [] => Err AssertionError
      | first :: _ =>
          match ckind col with
          | KCategory _ | KOther =>
              let! (n, cs, c, plots) := add_value_counts with_plots col in
              Ok {| null_count := nulls; null_proportion := p; nulls_level := level_of p; unique := Some n;
                    unique_proportion := Some (proportion n n_rows); counts := Some cs;
                    value_is_constant := match c with Some _ => true | None => false end; constant_value := c;
                    min_max := None; unit_of := None; quantiles_of := None; inter_quartile_range := None; plot_names := plots |}
          | KDate =>
              match vs with
              | [] => Err AttributeError             (* [min_date.isoformat] *)
              | v :: vs' =>
                  let lo := extremum (fun a b => negb (leb b a)) v vs' in
                  let hi := extremum (fun a b => negb (leb a b)) v vs' in
                  let const := eqb_of lo hi in
                  Ok {| null_count := nulls; null_proportion := p; nulls_level := level_of p; unique := Some u;
                        unique_proportion := Some (proportion u n_rows); counts := None;
                        value_is_constant := const; constant_value := if const then Some (Val lo) else None;
                        min_max := if const then None else Some (lo, hi); unit_of := None; quantiles_of := None;
                        inter_quartile_range := None; plot_names := if (const || negb with_plots)%bool then [] else ["histogram_plot"] |}
              end
          | KNumber _ | KDuration =>
              let unit := match ckind col with KDuration => Some (duration_unit (clib col) vs) | _ => None end in
              let xs := match unit with Some m => map (fun v => scale m (seconds v)) vs | None => map num vs end in
              let qs := quantiles (clib col) xs in
              let const := Qeq_bool (nth 0 qs 0%Q) (nth 4 qs 0%Q) in
              Ok {| null_count := nulls; null_proportion := p; nulls_level := level_of p; unique := Some u;
                    unique_proportion := Some (proportion u n_rows); counts := None;
                    value_is_constant := const; constant_value := if const then Some first else None;
                    min_max := None; unit_of := unit; quantiles_of := if const then None else Some qs;
                    inter_quartile_range := Some (nth 3 qs 0 - nth 1 qs 0)%Q;
                    plot_names := if (const || negb with_plots)%bool then [] else if ordered then ["line_plot"] else ["histogram_plot"] |}
          end
      end.

  (** [summarize_dataframe], 12-116: the summaries of the columns and the number of constant columns; with [order_by] the
      rows are reordered first. *)
  Definition reorder (rows : list nat) (col : column) : column :=
    {| clib := clib col; ckind := ckind col; cells := map (fun i => nth i (cells col) Null) rows |}.
  Definition summarize_dataframe (n_rows : nat) (order_by : option (list nat)) (with_plots : bool) (df : list column) : res (list summary * nat) :=
    let df := match order_by with Some rows => map (reorder rows) df | None => df end in
    let! cols := mapM (summarize_column n_rows with_plots (match order_by with Some _ => true | None => false end)) df in
    Ok (cols, length (filter value_is_constant cols)).
End Summary.
Arguments cell V : clear implicits.
Arguments kind V : clear implicits.
Arguments column V : clear implicits.
Arguments summary V : clear implicits.
