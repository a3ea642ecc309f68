(** Interpolation joins, /repo/skrub/_interpolation_joiner.py. *)
From Verif Require Import Base M_names M_select M_oncols.
Open Scope string_scope.
Open Scope list_scope.
Open Scope nat_scope.

Section Interp.
  (** Cells; a column is the list of its cells. The [dtype] predicates see the name and the cells. *)
  Context {V : Type}.
  Variable null : V.
  Variable isnull : V -> bool.
  Variable lib : library.
  Variables numeric is_string categorical : string -> list V -> bool.
  Variable set_order : list string -> list string.     (* order of a Python set *)

  (** The vectorizer: state after fit, one vector per row. *)
  Context {A VS : Type}.
  Variable vec_fit : frame (list V) -> res (VS * list A).
  Variable vec_transform : VS -> frame (list V) -> res (list A).

  (** The two estimators: [multi_output] tag, [clone(estimator).fit] on vectors and target columns, [predict] giving
      the columns of the predictions. *)
  Inductive est : Type := Regressor | Classifier.
  Context {Mdl : Type}.
  Variable multi_output : est -> bool.
  Variable efit : est -> list A -> list (list V) -> res Mdl.
  Variable epredict : Mdl -> list A -> res (list (list V)).

  Inductive policy : Type := PRaise | PWarn | PPass.

  Record interp_params : Type := mk_interp_params {
    i_aux : frame (list V); i_key : keyarg; i_main_key : keyarg; i_aux_key : keyarg;
    i_suffix : string; i_policy : policy
  }.

  (** [s.has_nulls()], [s.numeric()], [s.string() | s.categorical()], /repo/skrub/_selectors/_selectors.py *)
  Definition sel_has_nulls : selector (list V) := SFilter (fun _ c => Ok (existsb isnull c)).
  Definition sel_numeric : selector (list V) := SFilter (fun n c => Ok (numeric n c)).
  Definition sel_class : selector (list V) :=
    SOr (SFilter (fun n c => Ok (is_string n c))) (SFilter (fun n c => Ok (categorical n c))).

  (** [sbd.shape(table) == (0, 0)]: a polars dataframe without columns has no rows, a pandas one keeps its index
      ([nrows]). *)
  Definition shape_00 (nrows : nat) (table : frame (list V)) : bool :=
    match table, lib with
    | [], Polars => true
    | [], Pandas => nrows =? 0
    | _ :: _, _ => false
    end.

  (** [_get_assignments_for_estimator], lines 377-402. *)
  Definition assignments_for (nrows : nat) (table : frame (list V)) (e : est) : res (list (list string * est)) :=
    if shape_00 nrows table then Ok []
    else if negb (multi_output e) then Ok (map (fun c => ([c], e)) (column_names table))
    else
      let! with_nulls := expand sel_has_nulls table in
      let without := set_order (filter (fun c => negb (mem c with_nulls)) (column_names table)) in
      Ok (map (fun c => ([c], e)) with_nulls ++ match without with [] => [] | _ => [(without, e)] end).

  (** [_get_estimator_assignments], lines 347-374. *)
  Definition nrows_of (t : frame (list V)) : nat := match t with [] => 0 | (_, c) :: _ => length c end.
  Definition assignments (aux : frame (list V)) (ak : list string) : res (list (list string * est)) :=
    let n := nrows_of aux in
    let! aux' := select aux (SInv (SCols ak)) in
    let! rtable := select aux' sel_numeric in
    let! a1 := assignments_for n rtable Regressor in
    let! ctable := select aux' sel_class in
    let! a2 := assignments_for n ctable Classifier in
    Ok (a1 ++ a2).

  (** [_fit], lines 409-435. [l\[~discarded\]]: *)
  Definition keep_rows {B} (discarded : list bool) (l : list B) : list B :=
    map snd (filter (fun p => negb (fst p)) (combine discarded l)).
  Fixpoint or_rows (a b : list bool) : list bool :=
    match a, b with x :: a', y :: b' => (x || y) :: or_rows a' b' | _, _ => [] end.
  (** [np.array(null_values).any(axis=0)], for at least one column *)
  Fixpoint any_null (cols : list (list V)) : list bool :=
    match cols with
    | [] => []
    | [c] => map isnull c
    | c :: cols' => or_rows (map isnull c) (any_null cols')
    end.
  (** Columns, estimator or [None], and the exception if it failed. *)
  Definition fit_one (raise : bool) (key_values : list A) (target : frame (list V)) (e : est)
    : res (list string * option Mdl) :=
    let discarded := any_null (map snd target) in
    let kv := keep_rows discarded key_values in
    let Y := map (keep_rows discarded) (map snd target) in
    match efit e kv Y with
    | Ok m => Ok (column_names target, Some m)
    | Err x => if raise then Err x else Ok (column_names target, None)
    end.

  Record interp_fitted : Type := mk_interp_fitted {
    f_params : interp_params; f_main_key : list string; f_aux_key : list string; f_vec : VS;
    f_estimators : list (list string * Mdl);
    f_warned : list string       (* the failed columns of the warning; [] if no warning *)
  }.

  Definition is_raise (p : policy) : bool := match p with PRaise => true | _ => false end.
  Definition is_pass (p : policy) : bool := match p with PPass => true | _ => false end.

  (** [_check_fit_results], lines 255-269. *)
  Definition successful (rs : list (list string * option Mdl)) : list (list string * Mdl) :=
    flat_map (fun r => match snd r with Some m => [(fst r, m)] | None => [] end) rs.
  Definition failed_columns (rs : list (list string * option Mdl)) : list string :=
    flat_map (fun r => match snd r with Some _ => [] | None => fst r end) rs.

  (** [fit], lines 203-253; [X] is [None] or a dataframe. *)
  Definition fit (p : interp_params) (X : option (frame (list V))) : res interp_fitted :=
    let! (mk, ak) := check_key (i_main_key p) (i_aux_key p) (i_key p) in
    let! _ := check_missing_columns (column_names (i_aux p)) ak in
    let! _ := match X with None => Ok tt | Some t => check_missing_columns (column_names t) mk end in
    let! keytab := select (i_aux p) (SCols ak) in
    let! (vs, kv) := vec_fit keytab in
    let! assigns := assignments (i_aux p) ak in
    let! rs := mapM (fun a => let! target := select (i_aux p) (SCols (fst a)) in
                              fit_one (is_raise (i_policy p)) kv target (snd a)) assigns in
    Ok (mk_interp_fitted p mk ak vs (successful rs) (if is_pass (i_policy p) then [] else failed_columns rs)).

  (** [_predict], lines 438-462: columns and predictions, or [None] if it failed. *)
  Definition predict_one (raise : bool) (key_values : list A) (columns : list string) (m : Mdl)
    : res (list string * option (frame (list V))) :=
    match epredict m key_values with
    | Err x => if raise then Err x else Ok (columns, None)
    | Ok Y => Ok (columns, Some (match columns with
                                 | [c] => [(c, concat Y)]
                                 | _ => combine columns Y
                                 end))
    end.

  (** [_check_prediction_results], lines 320-345: the dataframe of a failed prediction has the columns of the
      auxiliary table, filled with nulls. *)
  Definition null_frame (aux : frame (list V)) (nrows : nat) (columns : list string) : res (frame (list V)) :=
    mapM (fun c => match dget c aux with Some _ => Ok (c, repeat null nrows) | None => Err KeyError end) columns.
  Definition checked (aux : frame (list V)) (nrows : nat) (r : list string * option (frame (list V))) : res (frame (list V)) :=
    match snd r with Some df => Ok df | None => null_frame aux nrows (fst r) end.

  (** [transform], lines 271-318: the joined table, and the columns of the warning. *)
  Definition transform (draw : nat -> string) (f : interp_fitted) (X : frame (list V)) : res (frame (list V) * list string) :=
    let p := f_params f in
    let! _ := check_missing_columns (column_names X) (f_main_key f) in
    let! keytab := select X (SCols (f_main_key f)) in
    let! kv := vec_transform (f_vec f) (set_column_names keytab (f_aux_key f)) in
    let! rs := mapM (fun cm => predict_one (is_raise (i_policy p)) kv (fst cm) (snd cm)) (f_estimators f) in
    let! preds := mapM (checked (i_aux p) (length kv)) rs in
    let failed := flat_map (fun r => match snd r with Some _ => [] | None => fst r end) rs in
    let renamed := map (fun df => set_column_names df (map (fun c => (c ++ i_suffix p)%string) (column_names df))) preds in
    let! out := concat_horizontal draw (X :: renamed) in
    Ok (out, if is_pass (i_policy p) then [] else failed).
End Interp.
