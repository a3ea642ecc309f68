(** Model of [OnEachColumn] (skrub/_on_each_column.py) and [OnSubFrame]
    (skrub/_on_subframe.py). *)
From Verif Require Import Base M_names M_select.
Open Scope string_scope.
Open Scope list_scope.
Open Scope nat_scope.

Section OnCols.
  (** [C]: column data; [St]: state of a fitted transformer. *)
  Context {C St : Type}.

  (** skrub/_dataframe/_common.py:254-265 [make_dataframe_like] on a list of columns. pandas
      builds a dictionary, so a repeated name overwrites the earlier column; polars raises
      on a repeated name. *)
  Inductive library := Pandas | Polars.
  Definition make_dataframe_like (lib : library) (cols : list (string * C)) : res (frame C) :=
    match lib with
    | Pandas => Ok (fold_left (fun d p => dset (fst p) (snd p) d) cols [])
    | Polars => if (length (nodup eqd (map fst cols)) =? length cols)%nat then Ok cols
                else Err DuplicateError
    end.

  (** What cloning, configuring and fitting a transformer on one input can give:
      [RejectColumn], any other exception, an output of the wrong type (rejected by
      [check_output], skrub/_utils.py:265-328), or output columns and a fitted state. *)
  Inductive outcome :=
  | Rejected
  | Raised (e : exn)
  | WrongType
  | Fitted (outs : list (string * C)) (st : St).

  (** skrub/_on_each_column.py:534-553 [_fit_transform_column]; [ft] is
      [clone(transformer).fit_transform(column, y)]. *)
  Definition fit_transform_column (ft : string -> C -> outcome) (columns : list string)
    (allow_reject : bool) (p : string * C) : res (string * list (string * C) * option St) :=
    let '(n, c) := p in
    if negb (mem n columns) then Ok (n, [p], None)
    else match ft n c with
         | Rejected => if allow_reject then Ok (n, [p], None) else Err ValueError
         | Raised _ => Err ValueError
         | WrongType => Err TypeError
         | Fitted outs st => Ok (n, outs, Some st)
         end.

  (** skrub/_on_each_column.py:578-579 [_rename_columns] *)
  Definition rename_columns (cols : list (string * C)) (names : list string) : list (string * C) :=
    map (fun '((_, c), name) => (name, c)) (combine cols names).

  (** Fitted attributes of [OnEachColumn]. *)
  Record fitted := {
    transformers_ : dict string St;
    input_to_outputs_ : dict string (list string);
    output_to_input_ : dict string string;
    all_inputs_ : list string;
    all_outputs_ : list string }.
  Definition used_inputs_ (f : fitted) := dkeys (transformers_ f).
  Definition created_outputs_ (f : fitted) := concat (map snd (input_to_outputs_ f)).

  (** Loop state of [_process_fit_transform_results]; [ctr] counts the names picked. *)
  Record loop := {
    l_transformers : dict string St;
    l_i2o : dict string (list string);
    l_o2i : dict string string;
    l_cols : list (string * C);
    l_forbidden : list string;
    ctr : nat }.

  (** skrub/_on_each_column.py:492-513, one iteration *)
  Definition process_step (draw : nat -> string) (rename : string -> string) (keep_original : bool)
    (X : frame C) (s : loop) (r : string * list (string * C) * option St) : res loop :=
    let '(input_name, output_cols, transformer) := r in
    match transformer with
    | None => Ok {| l_transformers := l_transformers s; l_i2o := l_i2o s; l_o2i := l_o2i s;
                    l_cols := l_cols s ++ output_cols;
                    l_forbidden := l_forbidden s; ctr := ctr s |}
    | Some st =>
        let suggested := map rename (map fst output_cols) in
        let forbidden := if keep_original then l_forbidden s
                         else remove eqd input_name (l_forbidden s) in
        let output_names := pick_from draw (ctr s) suggested forbidden in
        let output_cols' := rename_columns output_cols output_names in
        let! original := (if keep_original
                          then match dget input_name X with
                               | Some c => Ok [(input_name, c)]
                               | None => Err KeyError
                               end
                          else Ok []) in
        Ok {| l_transformers := dset input_name st (l_transformers s);
              l_i2o := dset input_name output_names (l_i2o s);
              l_o2i := fold_left (fun d o => dset o input_name d) output_names (l_o2i s);
              l_cols := l_cols s ++ original ++ output_cols';
              l_forbidden := l_forbidden s ++ output_names;
              ctr := ctr s + length suggested |}
    end.
  Fixpoint process (draw : nat -> string) (rename : string -> string) (keep_original : bool)
    (X : frame C) (s : loop) (rs : list (string * list (string * C) * option St)) : res loop :=
    match rs with
    | [] => Ok s
    | r :: rs' => let! s' := process_step draw rename keep_original X s r in
                  process draw rename keep_original X s' rs'
    end.

  (** skrub/_on_each_column.py:445-461 and 484-520 [fit_transform] *)
  Definition oec_fit_transform (lib : library) (draw : nat -> string)
    (ft : string -> C -> outcome) (cols : selector C) (allow_reject keep_original : bool)
    (rename : string -> string) (X : frame C) : res (fitted * frame C) :=
    let! columns := expand cols X in
    let! results := mapM (fit_transform_column ft columns allow_reject) X in
    let! s := process draw rename keep_original X
                {| l_transformers := []; l_i2o := []; l_o2i := []; l_cols := [];
                   l_forbidden := column_names X; ctr := 0 |} results in
    let! out := make_dataframe_like lib (l_cols s) in
    Ok ({| transformers_ := l_transformers s; input_to_outputs_ := l_i2o s;
           output_to_input_ := l_o2i s; all_inputs_ := column_names X;
           all_outputs_ := map fst (l_cols s) |}, out).

  (** skrub/_on_each_column.py:556-571 [_transform_column] and 463-482 [transform]; [tr] is
      [transform] of a fitted transformer. *)
  Definition transform_column (tr : St -> string -> C -> res (list (string * C)))
    (transformers : dict string St) (keep_original : bool) (p : string * C)
    : res (list (string * C)) :=
    match dget (fst p) transformers with
    | None => Ok [p]
    | Some st => match tr st (fst p) (snd p) with
                 | Err _ => Err ValueError
                 | Ok outs => Ok ((if keep_original then [p] else []) ++ outs)
                 end
    end.
  Definition oec_transform (lib : library) (tr : St -> string -> C -> res (list (string * C)))
    (keep_original : bool) (f : fitted) (X : frame C) : res (frame C) :=
    let! outputs := mapM (transform_column tr (transformers_ f) keep_original) X in
    make_dataframe_like lib (rename_columns (concat outputs) (all_outputs_ f)).

  (** ** [OnSubFrame] *)
  Record sub_fitted := {
    sf_columns : list string;
    sf_state : option St;
    sf_all_inputs : list string;
    sf_output_names : list string;
    sf_all_outputs : list string }.

  (** [sbd.set_column_names] raises if the number of names is wrong *)
  Definition set_column_names_checked (df : frame C) (names : list string) : res (frame C) :=
    if (length df =? length names)%nat then Ok (set_column_names df names) else Err ValueError.

  Definition passthrough_of (keep_original : bool) (columns : list string) (X : frame C)
    : res (frame C) :=
    if keep_original then Ok X else select X (SInv (SCols columns)).

  (** skrub/_on_subframe.py:144-183 [fit_transform]; [ft] acts on the sub-dataframe, its
      exceptions (including [RejectColumn]) are not caught. [draw1] is used to pick the names,
      [draw2] in [concat_horizontal]. *)
  Definition osf_fit_transform (draw1 draw2 : nat -> string) (ft : frame C -> outcome)
    (cols : selector C) (keep_original : bool) (rename : string -> string) (X : frame C)
    : res (sub_fitted * frame C) :=
    let! columns := expand cols X in
    let! to_transform := select X (SCols columns) in
    let! passthrough := passthrough_of keep_original columns X in
    let passthrough_names := column_names passthrough in
    match columns with
    | [] => Ok ({| sf_columns := columns; sf_state := None; sf_all_inputs := column_names X;
                   sf_output_names := []; sf_all_outputs := passthrough_names |}, passthrough)
    | _ =>
        match ft to_transform with
        | Rejected => Err RejectColumn
        | Raised e => Err e
        | WrongType => Err TypeError
        | Fitted transformed st =>
            let names := pick_column_names draw1 (map rename (column_names transformed))
                           passthrough_names in
            let! transformed' := set_column_names_checked transformed names in
            let! result := concat_horizontal draw2 [passthrough; transformed'] in
            Ok ({| sf_columns := columns; sf_state := Some st; sf_all_inputs := column_names X;
                   sf_output_names := names; sf_all_outputs := passthrough_names ++ names |},
                result)
        end
    end.

  (** skrub/_on_subframe.py:185-204 [transform] *)
  Definition osf_transform (draw : nat -> string) (tr : St -> frame C -> res (frame C))
    (keep_original : bool) (f : sub_fitted) (X : frame C) : res (frame C) :=
    let! to_transform := select X (SCols (sf_columns f)) in
    let! passthrough := passthrough_of keep_original (sf_columns f) X in
    match sf_columns f, sf_state f with
    | [], _ => Ok passthrough
    | _, None => Err AttributeError
    | _, Some st =>
        let! transformed := tr st to_transform in
        let! transformed' := set_column_names_checked transformed (sf_output_names f) in
        concat_horizontal draw [passthrough; transformed']
    end.
End OnCols.
Arguments outcome C St : clear implicits.
Arguments fitted St : clear implicits.
Arguments loop C St : clear implicits.
Arguments sub_fitted St : clear implicits.
