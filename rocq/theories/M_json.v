(** The JSON form of a report, [TableReport.json]: /repo/skrub/_reporting/_table_report.py 199-209, with the dictionaries built by
    /repo/skrub/_reporting/_summarize.py and the encoder of /repo/skrub/_reporting/_utils.py 106-117. *)
From Coq Require Import QArith.
From Verif Require Import Base M_summary.
Open Scope string_scope.
Open Scope list_scope.
Open Scope nat_scope.

Inductive flt : Type := Fin (q : Q) | FNaN | FInf (neg : bool).

(** Python objects. [NpInt], [NpFloat]: scalars of numpy that are not [int] or [float] (such as [np.int64], [np.float32]);
    [PyObj]: anything else (timestamps, durations, decimals, [np.bool_], [pd.NA], ...). All dictionaries have strings as keys, but for
    that of the quantiles, whose keys 0.0, 0.25, ... become strings in the JSON. *)
Inductive py : Type :=
| PyNone | PyBool (b : bool) | PyInt (z : Z) | PyFloat (f : flt) | PyStr (s : string)
| PyList (l : list py) | PyDict (d : list (string * py)) | NpInt (z : Z) | NpFloat (f : flt) | PyObj.

(** what is written: [JFloat FNaN] is the word [NaN], which JSON does not have; the same for infinities *)
Inductive json : Type :=
| JNull | JBool (b : bool) | JInt (z : Z) | JFloat (f : flt) | JStr (s : string) | JArr (l : list json) | JObj (d : list (string * json)).

(** [json.dumps(data, cls=JSONEncoder)]; tuples are written as lists *)
Fixpoint dumps (v : py) : res json :=
  match v with
  | PyNone => Ok JNull
  | PyBool b => Ok (JBool b)
  | PyInt z => Ok (JInt z)
  | PyFloat f => Ok (JFloat f)
  | PyStr s => Ok (JStr s)
  | PyList l =>
      let! js := (fix go l := match l with [] => Ok [] | a :: l' => let! j := dumps a in let! js := go l' in Ok (j :: js) end) l in
      Ok (JArr js)
  | PyDict d =>
      let! js := (fix go d := match d with [] => Ok [] | (k, a) :: d' => let! j := dumps a in let! js := go d' in Ok ((k, j) :: js) end) d in
      Ok (JObj js)
  | NpInt z => Ok (JInt z)                       (* _utils.py 111-112 *)
  | NpFloat f => Ok (JFloat f)                   (* 113-114 *)
  | PyObj => Err TypeError                       (* 115 *)
  end.

Section Report.
  Context {V : Type} `{EqD V}.
  (** see M_summary.v *)
  Variable num seconds : V -> Q.
  Variable leb : V -> V -> bool.
  Variable scale : unit_ -> Q -> Q.
  Variable qidx : lib -> Q -> nat -> nat.
  Variable sort_counts : list (V * nat) -> list (V * nat).
  (** the Python object for a value, for a null; the text of dates ([isoformat]) *)
  Variable obj : V -> py.
  Variable null_obj : lib -> kind V -> py.
  Variable iso : V -> string.
  (** mean and standard deviation, numbers of outliers, plots, name of the type of a column *)
  Variable mean_of std_of : column V -> flt.
  Variable outliers : column V -> Z * Z.
  Variable plot : string -> column V -> string.
  Variable dtype_name : column V -> string.

  (** counts are scalars of numpy for pandas ([sum] of booleans) *)
  Definition count_obj (l : lib) (n : nat) : py := match l with Pandas => NpInt (Z.of_nat n) | Polars => PyInt (Z.of_nat n) end.
  Definition cell_obj (col : column V) (c : cell V) : py :=
    match c with
    | Null => null_obj (clib col) (ckind col)
    | NaN => PyFloat FNaN
    | Val v => match ckind col with KDate => PyStr (iso v) | _ => obj v end
    end.
  Definition level_name (l : level) : string := match l with LOk => "ok" | LWarning => "warning" | LCritical => "critical" end.
  Definition unit_name (u : unit_) : string :=
    match u with
    | Microsecond => "microsecond" | Millisecond => "millisecond" | Second => "second" | Hour => "hour" | Day => "day" | Year => "year"
    end.
  Definition opt {A} (o : option A) (f : A -> list (string * py)) : list (string * py) := match o with Some a => f a | None => [] end.
  Definition frac (q : Q) : py := PyFloat (Fin q).

  (** the dictionary of a column, _summarize.py 137-277; the order of the keys is that of the code. A column without values has the
      first keys and "plot_names" only. *)
  Definition column_dict (position : nat) (name : py) (col : column V) (s : summary V) : list (string * py) :=
    [("position", PyInt (Z.of_nat position)); ("idx", PyInt (Z.of_nat position)); ("name", name); ("dtype", PyStr (dtype_name col));
     ("value_is_constant", PyBool (value_is_constant s)); ("null_count", count_obj (clib col) (null_count s));
     ("null_proportion", frac (null_proportion s)); ("nulls_level", PyStr (level_name (nulls_level s)))] ++
    opt (unique s) (fun u => [("n_unique", PyInt (Z.of_nat u))]) ++
    opt (unique_proportion s) (fun q => [("unique_proportion", frac q)]) ++
    opt (counts s) (fun cs => [("value_counts", PyList (map (fun vn => PyList [obj (fst vn); PyInt (Z.of_nat (snd vn))]) cs));
                               ("most_frequent_values", PyList (map (fun vn => obj (fst vn)) cs))]) ++
    opt (unique s) (fun _ => [("is_duration", PyBool (match ckind col with KDuration => true | _ => false end))]) ++
    opt (inter_quartile_range s) (fun q =>
      [("duration_unit", match unit_of s with Some u => PyStr (unit_name u) | None => PyNone end);
       ("standard_deviation", PyFloat (std_of col)); ("mean", PyFloat (mean_of col)); ("inter_quartile_range", frac q)]) ++
    opt (constant_value s) (fun c => [("constant_value", cell_obj col c)]) ++
    opt (quantiles_of s) (fun qs => [("quantiles", PyDict (combine ["0.0"; "0.25"; "0.5"; "0.75"; "1.0"] (map frac qs)))]) ++
    opt (min_max s) (fun lh => [("min", PyStr (iso (fst lh))); ("max", PyStr (iso (snd lh)))]) ++
    flat_map (fun p => (p, PyStr (plot p col)) :: (if string_dec p "histogram_plot"
                         then [("n_low_outliers", NpInt (fst (outliers col))); ("n_high_outliers", NpInt (snd (outliers col)))] else [])) (plot_names s) ++
    [("plot_names", PyList (map PyStr (plot_names s)))].

  Fixpoint column_dicts (position : nat) (df : list (py * column V)) (ss : list (summary V)) : list py :=
    match df, ss with
    | nc :: df', s :: ss' => PyDict (column_dict position (fst nc) (snd nc) s) :: column_dicts (S position) df' ss'
    | _, _ => []
    end.

  (** the associations of a report, 119-134; [pearson_corr] is NaN (pandas) or null (polars) for columns that are not numbers *)
  Record association : Type := { left_name : string; left_pos : nat; right_name : string; right_pos : nat; cramer_v : flt; pearson : option flt }.
  Definition association_dict (l : lib) (a : association) : py :=
    PyDict [("left_column_name", PyStr (left_name a)); ("left_column_idx", PyInt (Z.of_nat (left_pos a)));
            ("right_column_name", PyStr (right_name a)); ("right_column_idx", PyInt (Z.of_nat (right_pos a)));
            ("cramer_v", PyFloat (cramer_v a));
            ("pearson_corr", match pearson a with Some f => PyFloat f | None => match l with Pandas => PyFloat FNaN | Polars => PyNone end end)].

  Definition lib_name (l : lib) : string := match l with Pandas => "pandas" | Polars => "polars" end.
  (** arguments of the report; [sort_rows]: the order of the rows given by the column [order_by] *)
  Record options : Type := { title : option py; order_by : option (py * list nat); with_plots : bool; top : option (list association) }.

  (** [summarize_dataframe], 12-116, and [TableReport.json]: without the dataframe and the sample table *)
  Definition report_dict (l : lib) (n_rows : nat) (df : list (py * column V)) (o : options) : res (list (string * py)) :=
    let sorted := match order_by o with Some (_, rows) => map (fun nc => (fst nc, reorder rows (snd nc))) df | None => df end in
    let! (ss, n_constant) := summarize_dataframe num seconds leb scale qidx sort_counts n_rows (option_map snd (order_by o)) (with_plots o) (map snd df) in
    Ok ([("dataframe_module", PyStr (lib_name l)); ("n_rows", PyInt (Z.of_nat n_rows)); ("n_columns", PyInt (Z.of_nat (length df)));
         ("columns", PyList (column_dicts 0 sorted ss)); ("dataframe_is_empty", PyBool ((n_rows =? 0) || (length df =? 0)));
         ("plots_skipped", PyBool (negb (with_plots o))); ("associations_skipped", PyBool (match top o with Some _ => false | None => true end))] ++
        opt (title o) (fun t => [("title", t)]) ++ opt (order_by o) (fun b => [("order_by", fst b)]) ++
        [("n_constant_columns", PyInt (Z.of_nat n_constant))] ++
        opt (top o) (fun t => [("top_associations", PyList (map (association_dict l) t))])).
  Definition report_json (l : lib) (n_rows : nat) (df : list (py * column V)) (o : options) : res json :=
    let! d := report_dict l n_rows df o in dumps (PyDict d).
End Report.
Arguments options : clear implicits.
