(** Model of [TableVectorizer] (skrub/_table_vectorizer.py). *)
From Verif Require Import Base M_str M_names M_select M_oncols M_checkinput.
Open Scope string_scope.
Open Scope list_scope.
Open Scope nat_scope.

Section TV.
  (** [C]: column data; [St]: fitted single-column transformers; [O]: names that are not
      strings. *)
  Context {C St O : Type}.

  (** A transformer, as what cloning and fitting it on a column gives. *)
  Definition transformer := string -> C -> outcome C St.

  (** skrub/_table_vectorizer.py:103-113 [_check_transformer]; [passthrough_st] and [drop_st]
      are the (stateless) fitted [PassThrough] (lines 32-37) and [Drop] (skrub/_select_cols.py). *)
  Variables passthrough_st drop_st : St.
  Inductive transformer_arg := TName (s : string) | TObj (t : transformer).
  Definition check_transformer (a : transformer_arg) : res transformer :=
    match a with
    | TObj t => Ok t
    | TName s =>
        if eqb_of s "passthrough" then Ok (fun n c => Fitted [(n, c)] passthrough_st)
        else if eqb_of s "drop" then Ok (fun n c => Fitted [] drop_st)
        else Err ValueError
    end.

  (** An element of [specific_transformers]: not a pair with an iterable, or a pair with
      a list of names ([None] stands for a name that is not a string). *)
  Inductive config := BadConfig | Config (t : transformer_arg) (cols : list (option string)).

  (** skrub/_table_vectorizer.py:740-764 [_check_specific_columns]. [seen] is
      [specific_columns], extended once all the columns of a pair have been checked. *)
  Fixpoint check_cols (seen : list string) (cols : list (option string)) : res (list string) :=
    match cols with
    | [] => Ok []
    | None :: _ => Err ValueError
    | Some c :: cols' =>
        if mem c seen then Err ValueError
        else let! r := check_cols seen cols' in Ok (c :: r)
    end.
  (** keys of a dictionary after inserting [l]: first occurrences *)
  Definition update_keys (seen l : list string) : list string :=
    fold_left (fun d c => if mem c d then d else d ++ [c]) l seen.
  Fixpoint check_specific_columns (seen : list string) (cs : list config)
    : res (list string * list (transformer_arg * list string)) :=
    match cs with
    | [] => Ok (seen, [])
    | BadConfig :: _ => Err ValueError
    | Config t cols :: cs' =>
        let! l := check_cols seen cols in
        let! (seen', r) := check_specific_columns (update_keys seen l) cs' in
        Ok (seen', (t, l) :: r)
    end.

  (** skrub/_table_vectorizer.py:72-100 [_created_by] *)
  Definition created_by (fs : list (fitted St)) : selector C :=
    SFilter (fun n _ => Ok (existsb (fun f => mem n (created_outputs_ f)) fs)).

  (** One step of the pipeline; its selector may refer to the earlier steps of its group. All
      are [OnEachColumn] with [keep_original=False] and [rename_columns="{}"]
      (lines 767-777 [add_step]). *)
  Record step := {
    s_ft : transformer;
    s_cols : list (fitted St) -> selector C;
    s_reject : bool }.

  (** [Pipeline.fit_transform] on consecutive steps; [draws k] are the random strings drawn by
      the k-th step. *)
  Fixpoint run_steps (lib : library) (draws : nat -> nat -> string) (k : nat) (steps : list step)
    (done : list (fitted St)) (X : frame C) : res (list (fitted St) * frame C) :=
    match steps with
    | [] => Ok (done, X)
    | s :: steps' =>
        let! (f, X') := oec_fit_transform lib (draws k) (s_ft s) (s_cols s done) (s_reject s)
                          false (fun n => n) X in
        run_steps lib draws (S k) steps' (done ++ [f]) X'
    end.

  (** Parameters. [preprocessors]: CleanNullStrings, DropIfTooManyNulls, ToDatetime, ToFloat32,
      CleanCategories, ToStr (lines 783-794); [to_float32]: the postprocessor;
      [is_numeric], [is_any_date], [low_card], [is_categorical]: the selectors [s.numeric()],
      [s.any_date()], [s.cardinality_below(threshold)], [s.categorical()], taken not to raise. *)
  Record params := {
    preprocessors : list transformer;
    numeric : transformer_arg;
    datetime : transformer_arg;
    low_cardinality : transformer_arg;
    high_cardinality : transformer_arg;
    specific_transformers : list config;
    to_float32 : transformer;
    is_numeric : C -> bool;
    is_any_date : C -> bool;
    low_card : C -> bool;
    is_categorical : C -> bool }.
  (** the encoders, in order (lines 799-816); [s.all()] accepts every column *)
  Definition encoders (p : params) : list (string * (C -> bool) * transformer_arg) :=
    [("numeric", is_numeric p, numeric p);
     ("datetime", is_any_date p, datetime p);
     ("low_cardinality", low_card p, low_cardinality p);
     ("high_cardinality", fun _ => true, high_cardinality p)].

  Definition all_but (specific : list string) : selector C := SSub SAll (SCols specific).
  Definition pre_step (specific : list string) (t : transformer) : step :=
    {| s_ft := t; s_cols := fun _ => all_but specific; s_reject := true |}.
  Definition encoder_step (specific : list string) (sel : C -> bool) (t : transformer) : step :=
    {| s_ft := t;
       s_cols := fun done => SAnd (all_but specific) (SSub (SFilter (fun _ c => Ok (sel c))) (created_by done));
       s_reject := false |}.
  Definition specific_step (t : transformer) (cols : list string) : step :=
    {| s_ft := t; s_cols := fun _ => SCols cols; s_reject := false |}.
  Definition post_step (p : params) (specs : list (fitted St)) : step :=
    {| s_ft := to_float32 p;
       s_cols := fun _ => SSub (SSub SAll (created_by specs))
                            (SFilter (fun _ c => Ok (is_categorical p c)));
       s_reject := true |}.

  (** Fitted attributes. A processing step is a fitted transformer, or a dictionary of
      post-processors (lines 844-851). *)
  Record fitted_tv := {
    tv_check : checked O;
    tv_pre : list (fitted St);
    tv_enc : list (fitted St);
    tv_spec : list (fitted St);
    tv_post : fitted St;
    tv_all_outputs : list string;
    tv_input_to_outputs : dict string (list string);
    tv_steps : dict string (list (St + dict string St));
    tv_transformers : dict string St;
    tv_kind_to_columns : dict string (list string);
    tv_column_to_kind : dict string string;
    tv_output_to_input : dict string string }.

  (** skrub/_table_vectorizer.py:831-854 [_store_processing_steps] *)
  Definition append_step (to_steps : dict string (list (St + dict string St))) (col : string)
    (s : St + dict string St) : res (dict string (list (St + dict string St))) :=
    match dget col to_steps with
    | None => Err KeyError
    | Some l => Ok (dset col (l ++ [s]) to_steps)
    end.
  Fixpoint foldM {A B} (f : A -> B -> res A) (a : A) (l : list B) : res A :=
    match l with [] => Ok a | b :: l' => let! a' := f a b in foldM f a' l' end.
  Definition store_pre to_steps (f : fitted St) :=
    foldM (fun d ct => append_step d (fst ct) (inl (snd ct))) to_steps (transformers_ f).
  Definition encoder_state : Type :=
    (dict string (list (St + dict string St)) * dict string (list string) * dict string St)%type.
  Definition store_encoder (s : encoder_state) (f : fitted St) : res encoder_state :=
    foldM (fun '(steps, outs, trs) '(col, t) =>
             let! steps' := append_step steps col (inl t) in
             let! os := match dget col (input_to_outputs_ f) with
                        | Some os => Ok os | None => Err KeyError end in
             Ok (steps', dset col os outs, dset col t trs)) s (transformers_ f).
  (** dict comprehension of lines 845-849 *)
  Definition post_proc (post : fitted St) (outputs : list string) : dict string St :=
    fold_left (fun d c => match dget c (transformers_ post) with
                          | Some t => dset c t d | None => d end) outputs [].
  Definition store_post (post : fitted St) to_steps (co : string * list string) :=
    match post_proc post (snd co) with
    | [] => Ok to_steps
    | d => append_step to_steps (fst co) (inr d)
    end.

  (** skrub/_table_vectorizer.py:693-722 [fit_transform] *)
  Definition tv_fit_transform (str : O -> string) (sparse : C -> bool) (draw0 : nat -> string)
    (draws : nat -> nat -> string) (p : params) (X : input C O) : res (fitted_tv * frame C) :=
    let! (specific, configs) := check_specific_columns [] (specific_transformers p) in
    let! encs := mapM (fun '(_, sel, a) => let! t := check_transformer a in
                                           Ok (encoder_step specific sel t)) (encoders p) in
    let! specs := mapM (fun '(a, cols) => let! t := check_transformer a in
                                          Ok (specific_step t cols)) configs in
    let! (ci, X1) := ci_fit_transform str sparse draw0 X in
    let lib := module_name_ ci in
    let npre := length (preprocessors p) in
    let nenc := npre + length encs in
    let nspec := nenc + length specs in
    let! (fpre, X2) := run_steps lib draws 0 (map (pre_step specific) (preprocessors p)) [] X1 in
    let! (fenc, X3) := run_steps lib draws npre encs [] X2 in
    let! (fspec, X4) := run_steps lib draws nenc specs [] X3 in
    let! (fpost, X5) := oec_fit_transform lib (draws nspec) (to_float32 p)
                          (s_cols (post_step p fspec) []) true false (fun n => n) X4 in
    (* _store_processing_steps *)
    let input_names := feature_names_out_ ci in
    let outs0 := fold_left (fun d c => dset c [c] d) input_names [] in
    let steps0 := fold_left (fun d c => dset c [] d) input_names [] in
    let! steps1 := foldM store_pre steps0 fpre in
    let! (steps2, outs, trs) := foldM store_encoder (steps1, outs0, []) (fenc ++ fspec) in
    let! steps3 := foldM (store_post fpost) steps2 outs in
    (* _store_column_kinds, lines 856-863 *)
    let kinds := fold_left (fun d kf => dset (fst kf) (used_inputs_ (snd kf)) d)
                   (combine (map (fun e => fst (fst e)) (encoders p)) fenc) [] in
    let kinds := dset "specific" specific kinds in
    let col_kind := fold_left (fun d kc => fold_left (fun d' c => dset c (fst kc) d') (snd kc) d) kinds [] in
    (* _store_output_to_input, lines 865-870 *)
    let o2i := fold_left (fun d io => fold_left (fun d' o => dset o (fst io) d') (snd io) d) outs [] in
    Ok ({| tv_check := ci; tv_pre := fpre; tv_enc := fenc; tv_spec := fspec; tv_post := fpost;
           tv_all_outputs := column_names X5; tv_input_to_outputs := outs; tv_steps := steps3;
           tv_transformers := trs; tv_kind_to_columns := kinds; tv_column_to_kind := col_kind;
           tv_output_to_input := o2i |}, X5).

  (** skrub/_table_vectorizer.py:724-738 [transform]; [tr] is [transform] of a fitted
      single-column transformer *)
  Definition transform_steps (lib : library) (tr : St -> string -> C -> res (list (string * C)))
    (fs : list (fitted St)) (X : frame C) : res (frame C) :=
    foldM (fun X f => oec_transform lib tr false f X) X fs.
  Definition tv_transform `{EqD O} (sparse : C -> bool)
    (tr : St -> string -> C -> res (list (string * C))) (tv : fitted_tv) (X : input C O)
    : res (frame C) :=
    let! X1 := ci_transform sparse (tv_check tv) X in
    transform_steps (module_name_ (tv_check tv)) tr
      (tv_pre tv ++ tv_enc tv ++ tv_spec tv ++ [tv_post tv]) X1.
End TV.
Arguments transformer C St : clear implicits.
Arguments transformer_arg C St : clear implicits.
Arguments config C St : clear implicits.
Arguments params C St : clear implicits.
Arguments step C St : clear implicits.
Arguments fitted_tv St O : clear implicits.
