(** Tables and plots of the results of a hyper-parameter search, /repo/skrub/_expressions/_estimator.py lines 659-792 and
    /repo/skrub/_expressions/_parallel_coord.py. *)
From Coq Require Import QArith Qabs.
From Verif Require Import Base M_names M_grid.
Open Scope string_scope.
Open Scope list_scope.
Open Scope nat_scope.

Section Results.
  (** outcomes of choices, what pandas makes of them, and their [str] *)
  Context {O : Type}.
  Inductive okind : Type := ONone | ONaN | ONumber (q : Q) | OOther.
  Variable okind_of : O -> okind.
  Variable ostr : O -> string.
  Variable numstr : Q -> string.

  (** the attributes of choices that are used here; the values of parameters; what is displayed for them *)
  Inductive choice : Type := Enum (outcomes : list O) (outcome_names : option (list string)) | Numeric (log : bool).
  Inductive param : Type := PIdx (i : nat) | PNum (q : Q).
  Inductive cell : Type := CName (s : string) | COut (o : O) | CNum (q : Q).

  Definition item {A} (l : list A) (i : nat) : res A := match nth_error l i with Some a => Ok a | None => Err IndexError end.
  Definition lookup {K A} `{EqD K} (k : K) (d : dict K A) : res A := match dget k d with Some a => Ok a | None => Err KeyError end.

  (** lines 691-698 *)
  Definition value_of (c : choice) (p : param) : res cell :=
    match c, p with
    | Enum _ (Some names), PIdx i => let! s := item names i in Ok (CName s)
    | Enum outs None, PIdx i => let! o := item outs i in Ok (COut o)
    | Enum _ _, PNum _ => Err TypeError
    | Numeric _, PNum q => Ok (CNum q)
    | Numeric _, PIdx i => Ok (CNum (inject_Z (Z.of_nat i)))
    end.
  Definition is_log (c : choice) : bool := match c with Numeric b => b | Enum _ _ => false end.
  Definition add_log (c : choice) (name : string) (logs : list string) : list string :=
    if (is_log c && negb (mem name logs))%bool then name :: logs else logs.

  (** lines 687-703: the row of a candidate, and the columns with a logarithmic scale *)
  Fixpoint fill_row (choices : dict nat choice) (names : dict nat string) (params : list (string * param)) (row : dict string cell) (logs : list string)
    : res (dict string cell * list string) :=
    match params with
    | [] => Ok (row, logs)
    | (pid, p) :: params' =>
        let! k := param_id pid in
        let! c := lookup k choices in
        let! name := lookup k names in
        let! v := value_of c p in
        fill_row choices names params' (dset name v row) (add_log c name logs)
    end.
  Fixpoint fill_rows (choices : dict nat choice) (names : dict nat string) (cands : list (list (string * param))) (logs : list string)
    : res (list (dict string cell) * list string) :=
    match cands with
    | [] => Ok ([], logs)
    | params :: cands' =>
        let! (row, logs) := fill_row choices names params [] logs in
        let! (rows, logs) := fill_rows choices names cands' logs in
        Ok (row :: rows, logs)
    end.

  (** scores (or durations), NaN is [None]; missing values of choices are [None] *)
  Inductive tcell : Type := TScore (x : option Q) | TChoice (v : option cell).
  Definition table := list (string * list tcell).

  (** [metric_names.pop(metric_names.index(refit))] *)
  Fixpoint pop_item (r : string) (l : list string) : option (list string) :=
    match l with
    | [] => None
    | s :: l' => if eqb_of s r then Some l' else option_map (cons s) (pop_item r l')
    end.
  (** lines 709-716; [scorers]: the keys of [scorer_] if it is a dict; [refit]: if it is a string *)
  Definition metric_names (scorers : option (list string)) (refit : option string) : res (list string) :=
    match scorers with
    | None => Ok ["score"]
    | Some ms =>
        match refit with
        | None => Ok ms
        | Some r => match pop_item r ms with Some ms' => Ok (r :: ms') | None => Err ValueError end
        end
    end.
  Definition prefixed (p : string) (ms : list string) : list string := map (fun n => (p ++ n)%string) ms.
  (** lines 717-726 *)
  Definition other_keys (ms : list string) : list string :=
    prefixed "std_test_" ms ++ ["mean_fit_time"; "std_fit_time"; "mean_score_time"; "std_score_time"]
      ++ prefixed "mean_train_" ms ++ prefixed "std_train_" ms.
  Definition result_keys (ms : list string) : list string := prefixed "mean_test_" ms ++ other_keys ms.

  (** [DataFrame.insert] *)
  Definition check_insert (n : nat) (name : string) (xs : list tcell) (t : table) : res unit :=
    if mem name (map fst t) then Err ValueError else if length xs =? n then Ok tt else Err ValueError.
  (** lines 733-734: [for k in keys\[::-1\]: table.insert(0, k, cv_results_\[k\])] *)
  Definition cv_dict := dict string (list (option Q)).
  Fixpoint insert_front (n : nat) (cv : cv_dict) (keys : list string) (t : table) : res table :=
    match keys with
    | [] => Ok t
    | k :: keys' =>
        let! t := insert_front n cv keys' t in
        let! xs := lookup k cv in
        let! _ := check_insert n k (map TScore xs) t in
        Ok ((k, map TScore xs) :: t)
    end.
  (** lines 735-738 *)
  Fixpoint insert_back (n : nat) (cv : cv_dict) (keys : list string) (t : table) : res table :=
    match keys with
    | [] => Ok t
    | k :: keys' =>
        match dget k cv with
        | None => insert_back n cv keys' t
        | Some xs =>
            let! _ := check_insert n k (map TScore xs) t in
            insert_back n cv keys' (t ++ [(k, map TScore xs)])
        end
    end.

  (** [sort_values(..., ascending=False, kind="stable")], lines 739-741: larger scores first, NaN last *)
  Definition precedes (a b : option Q) : bool :=
    match a, b with
    | Some x, Some y => negb (Qle_bool x y)
    | Some _, None => true
    | None, _ => false
    end.
  Definition score_at (col : list tcell) (i : nat) : option Q := match nth_error col i with Some (TScore x) => x | _ => None end.
  Fixpoint insert_row (col : list tcell) (i : nat) (l : list nat) : list nat :=
    match l with
    | [] => [i]
    | j :: l' => if precedes (score_at col j) (score_at col i) then j :: insert_row col i l' else i :: l
    end.
  Definition sorted_rows (n : nat) (t : table) : list nat :=
    match t with
    | [] => seq 0 n
    | (_, col) :: _ => fold_right (insert_row col) [] (seq 0 n)
    end.
  Definition take_rows (rows : list nat) (t : table) : table :=
    map (fun c => (fst c, flat_map (fun i => match nth_error (snd c) i with Some x => [x] | None => [] end) rows)) t.

  (** [_get_cv_results_table], lines 681-742 *)
  Definition cv_table (draw : nat -> string) (choices : dict nat choice) (names : dict nat string) (scorers : option (list string)) (refit : option string)
      (cands : list (list (string * param))) (cv : cv_dict) (detailed : bool) : res (table * list string) :=
    let n := length cands in
    let! (rows, logs) := fill_rows choices names cands [] in
    let columns := map snd names in
    let! ms := metric_names scorers refit in
    let new_names := pick_column_names draw columns (result_keys ms) in
    let t := map (fun on => (snd on, map (fun row => TChoice (dget (fst on) row)) rows)) (combine columns new_names) in
    let! logs := mapM (fun c => lookup c (combine columns new_names)) logs in
    let! t := insert_front n cv (prefixed "mean_test_" ms) t in
    let! t := (if detailed then insert_back n cv (other_keys ms) t else Ok t) in
    Ok (take_rows (sorted_rows n t) t, logs).

  (** ** Plots: _parallel_coord.py *)

  (** numbers, and missing values, of a column *)
  Definition is_null (x : tcell) : bool :=
    match x with
    | TScore None | TChoice None => true
    | TChoice (Some (COut o)) => match okind_of o with ONone | ONaN => true | _ => false end
    | _ => false
    end.
  Definition number (x : tcell) : option Q :=
    match x with
    | TScore x => x
    | TChoice (Some (CNum q)) => Some q
    | TChoice (Some (COut o)) => match okind_of o with ONumber q => Some q | _ => None end
    | _ => None
    end.
  (** [str(value)] of those that are not null *)
  Definition text (x : tcell) : option string :=
    match x with
    | TChoice (Some (CName s)) => Some s
    | TChoice (Some (COut o)) => if is_null x then None else Some (ostr o)
    | TChoice (Some (CNum q)) | TScore (Some q) => Some (numstr q)
    | _ => None
    end.
  (** The type pandas infers: numbers, if there are only numbers and nulls and not only [None]. *)
  Definition is_nan (x : tcell) : bool :=
    match x with
    | TScore None | TChoice None => true
    | TChoice (Some (COut o)) => match okind_of o with ONaN => true | _ => false end
    | _ => false
    end.
  Definition has_number (x : tcell) : bool := match number x with Some _ => true | None => false end.
  Definition is_score (x : tcell) : bool := match x with TScore _ => true | TChoice _ => false end.
  Definition numeric_dtype (col : list tcell) : bool :=
    (forallb (fun x => is_null x || has_number x) col && existsb (fun x => is_nan x || has_number x || is_score x) col)%bool.

  (** the logarithm; the formats of tick labels *)
  Variable ln : Q -> Q.
  Variable fmt : bool -> Q -> string.
  (** [OrdinalEncoder.categories_]: the sorted distinct texts *)
  Variable categories : list string -> list string.

  (** [None] is NaN *)
  Record dim : Type := { label : string; dim_values : list (option Q); ticks : list (option Q * string) }.

  Fixpoint position (s : string) (l : list string) (i : nat) : option nat :=
    match l with
    | [] => None
    | s' :: l' => if eqb_of s' s then Some i else position s l' (S i)
    end.
  Definition qnat (n : nat) : Q := inject_Z (Z.of_nat n).
  Definition some {A} (l : list (option A)) : list A := flat_map (fun x => match x with Some a => [a] | None => [] end) l.
  (** [_prepare_obj_column], 72-91. The encoder refuses columns without a value. *)
  Definition prepare_obj (name : string) (col : list tcell) : res dim :=
    let texts := some (map text col) in
    match texts with
    | [] => Err ValueError
    | _ :: _ =>
        let cats := categories texts in
        let vals := map (fun x => match text x with None => Some (- (1))%Q | Some s => option_map qnat (position s cats 0) end) col in
        let tks := map (fun it => (Some (qnat (fst it)), snd it)) (combine (seq 0 (length cats)) cats) in
        Ok {| label := name; dim_values := vals; ticks := if existsb is_null col then (Some (- (1))%Q, "Null") :: tks else tks |}
    end.

  Definition qmin (a b : Q) : Q := if Qle_bool a b then a else b.
  Definition qmax (a b : Q) : Q := if Qle_bool a b then b else a.
  Definition min_max (l : list Q) : option (Q * Q) :=
    match l with [] => None | a :: l' => Some (fold_left qmin l' a, fold_left qmax l' a) end.
  (** [np.linspace(a, b, 10)] *)
  Definition linspace10 (a b : Q) : list Q := map (fun i => a + qnat i * ((b - a) / 9))%Q (seq 0 10).
  (** [_prepare_numeric_column], 94-114. The label of a tick is a function of its position and of the scale. *)
  Definition prepare_num (name : string) (log : bool) (col : list tcell) : dim :=
    let vals := map (fun x => option_map (if log then ln else fun q => q) (number x)) col in
    match min_max (some vals) with
    | None => {| label := name; dim_values := map (fun _ => None) col; ticks := repeat (None, "nan") 11 |}
    | Some (a, b) =>
        let tks := map (fun v => (Some v, fmt log v)) (linspace10 a b) in
        let low := (a - (b - a) / 10)%Q in
        if existsb (fun x => match number x with None => true | Some _ => false end) col
        then {| label := name; dim_values := map (fun v => match v with Some q => Some q | None => Some low end) vals; ticks := (Some low, "NaN") :: tks |}
        else {| label := name; dim_values := vals; ticks := tks |}
    end.
  (** [_prepare_column], 58-69 *)
  Definition plain_label (name : string) : string :=
    if eqb_of name "mean_test_score" then "score" else if eqb_of name "mean_fit_time" then "fit time"
    else if eqb_of name "mean_score_time" then "score time" else name.
  Definition prepare_column (numeric log : bool) (name : string) (col : list tcell) : res dim :=
    if negb numeric then prepare_obj name col
    else if (log || existsb is_null col)%bool then Ok (prepare_num name log col)
    else Ok {| label := plain_label name; dim_values := map number col; ticks := [] |}.
  (** [_add_jitter], 48-55: uniform draws between [-eps] and [eps] are [eps * noise row] *)
  Definition add_jitter (noise : nat -> Q) (d : dim) : dim :=
    let eps := match existsb (fun v => match v with None => true | Some _ => false end) (dim_values d), min_max (some (dim_values d)) with
               | false, Some (a, b) => Some ((b - a) / 200)%Q
               | _, _ => None
               end in
    {| label := label d;
       dim_values := map (fun iv => match snd iv, eps with Some v, Some e => Some (v + e * noise (fst iv))%Q | _, _ => None end)
                       (combine (seq 0 (length (dim_values d))) (dim_values d));
       ticks := ticks d |}.
  Definition jittered (noise : nat -> Q) (d : dim) : dim := if eqb_of (label d) "score" then d else add_jitter noise d.

  (** [plot_results], 763-792, and [get_parallel_coord_data], 27-45. The types of the columns are those before the rows are
      filtered. *)
  Definition hidden : list string := ["std_test_score"; "std_fit_time"; "std_score_time"; "mean_train_score"; "std_train_score"].
  Definition plot_results (noise : nat -> nat -> Q) (min_score : option Q) (t : table) (logs : list string) : res (list dim) :=
    let t := filter (fun c => negb (mem (fst c) hidden)) t in
    let n := match t with [] => 0 | (_, col) :: _ => length col end in
    let! rows := match min_score with
                 | None => Ok (seq 0 n)
                 | Some m =>
                     let! col := lookup "mean_test_score" t in
                     Ok (filter (fun i => match score_at col i with Some x => Qle_bool m x | None => false end) (seq 0 n))
                 end in
    match rows with
    | [] => Err ValueError
    | _ :: _ =>
        let! dims := mapM (fun c => prepare_column (numeric_dtype (snd c)) (mem (fst c) logs) (fst c)
                                      (flat_map (fun i => match nth_error (snd c) i with Some x => [x] | None => [] end) rows)) t in
        let! _ := lookup "mean_test_score" t in
        Ok (map (fun jd => jittered (noise (fst jd)) (snd jd)) (combine (seq 0 (length dims)) dims))
    end.
End Results.
