(** The TableVectorizer with its own preprocessing (M_tablevec.v with the steps of M_clean.v), and [tabular_learner]: /repo/skrub/_tabular_learner.py.
    The encoders of columns other than ToCategorical, SimpleImputer, StandardScaler and the last estimator are described by what they take and give. *)
From Coq Require Import QArith.
From Verif Require Import Base M_names M_select M_oncols M_checkinput M_tablevec M_nullstr M_dropnulls M_todt M_clean.
Open Scope string_scope.
Open Scope list_scope.
Open Scope nat_scope.

Section Tabular.
  Context {N TZ Name F O K : Type} `{EqD N} `{EqD F} `{EqD O}.
  (** names of columns that are not strings; fitted encoders; fitted scaling of a column *)
  Context {L E S : Type} `{EqD L}.
  Notation cell := (M_clean.cell N O).
  Notation dtype := (M_clean.dtype N TZ O K).
  Notation column := (M_clean.column N TZ O K).
  Notation dcell := (@M_todt.cell text cell).
  Variable is_space : nat -> bool.
  Variable fl : Q -> Q.
  Variable UTC : TZ.
  Variable tz_name : TZ -> option Name.
  Variable zone_of : Name -> option TZ.
  Variable parse : lib -> F -> dcell -> option Z.
  Variable infer : list dcell -> dcell -> option Z.
  Variable has_offset : F -> bool.
  Variable default_resolution : lib -> Z.
  Variable guess : bool -> text -> option F.
  Variable pick : nat -> nat -> list nat.
  Variable round : N -> N.
  Variable of_bool : bool -> N.
  Variable num : lib -> dtype -> cell -> option (option N).
  Variable ticks : dtype -> Z -> N.
  Variable NaT_value : N.
  Variable castable castable_str nested : dtype -> bool.
  Variable str : lib -> dtype -> cell -> text.
  Variable empty_is_string : bool.
  Variable hashable : cell -> bool.
  Variable sort_cats : list cell -> list cell.
  Notation fit_step := (fit_step is_space fl UTC parse infer has_offset default_resolution guess pick round of_bool num ticks NaT_value castable castable_str nested str empty_is_string sort_cats).
  Notation transform_step := (transform_step is_space UTC tz_name zone_of parse infer has_offset default_resolution round of_bool num ticks NaT_value castable castable_str nested str empty_is_string hashable sort_cats).
  Notation to_categorical := (to_categorical castable_str nested str empty_is_string hashable sort_cats).

  (** ** Transformers of one column *)
  (** the encoders that [tabular_learner] and the defaults of the TableVectorizer use, _table_vectorizer.py 40-48 and _tabular_learner.py 202-218. *)
  Inductive encoder : Type := OneHot | Ordinal | ToCategorical | Gap | MinHash | Datetime (spline : bool).
  (** fitted transformers *)
  Inductive state : Type := SPre (st : M_clean.fitted TZ F) | SPass | SDrop | SCat | SEnc (e : E).
  (** fitting the encoders, except ToCategorical, on a column with a name; applying the result *)
  Variable enc_fit : encoder -> string -> column -> outcome column E.
  Variable enc_transform : E -> string -> column -> res (list (string * column)).

  (** a step of the preprocessing, as a transformer of OnEachColumn *)
  Definition pre (s : M_clean.step) : transformer column state := fun n c =>
    match fit_step s c with
    | Ok (Some c', st) => Fitted [(n, c')] (SPre st)
    | Ok (None, st) => Fitted [] (SPre st)
    | Err RejectColumn => Rejected
    | Err e => Raised e
    end.
  (** [ToCategorical.fit_transform], _to_categorical.py 138-160 *)
  Definition to_cat_fit (c : column) : res column :=
    if is_categorical c then Ok c else if negb (is_string empty_is_string c) then Err RejectColumn else to_categorical c.
  (** [ToCategorical.transform], 162-177 *)
  Definition to_cat_transform (c : column) : res column := if is_categorical c then Ok c else to_categorical c.
  Definition encode (e : encoder) : transformer column state := fun n c =>
    match e with
    | ToCategorical =>
        match to_cat_fit c with Ok c' => Fitted [(n, c')] SCat | Err RejectColumn => Rejected | Err x => Raised x end
    | _ => match enc_fit e n c with
           | Rejected => Rejected
           | Raised x => Raised x
           | WrongType => WrongType
           | Fitted outs st => Fitted outs (SEnc st)
           end
    end.
  (** [PassThrough], _table_vectorizer.py 32-37 *)
  Definition pass_through : transformer column state := fun n c => Fitted [(n, c)] SPass.
  (** [transform] of a fitted transformer *)
  Definition apply (st : state) (n : string) (c : column) : res (list (string * column)) :=
    match st with
    | SPre st => let! o := transform_step st c in Ok (match o with Some c' => [(n, c')] | None => [] end)
    | SPass => Ok [(n, c)]
    | SDrop => Ok []
    | SCat => let! c' := to_cat_transform c in Ok [(n, c')]
    | SEnc e => enc_transform e n c
    end.

  (** ** The TableVectorizer *)
  (** [low_card]: [s.cardinality_below(cardinality_threshold)], _selectors/_selectors.py *)
  Variable low_card : column -> bool.
  (** the encoders that can be set: _table_vectorizer.py 646-657, with [numeric=PassThrough()] and no [specific_transformers]; [drop_null_fraction] *)
  Record vectorizer : Type := { v_low : encoder; v_high : encoder; v_date : encoder; v_nulls : threshold }.
  Definition tv_params (v : vectorizer) : params column state :=
    {| M_tablevec.preprocessors := map pre (M_clean.preprocessors (v_nulls v) true);
       numeric := M_tablevec.TObj pass_through;
       datetime := M_tablevec.TObj (encode (v_date v));
       low_cardinality := M_tablevec.TObj (encode (v_low v));
       high_cardinality := M_tablevec.TObj (encode (v_high v));
       specific_transformers := [];
       M_tablevec.to_float32 := pre ToFloat32;
       M_tablevec.is_numeric := M_clean.is_numeric;
       M_tablevec.is_any_date := M_clean.is_any_date;
       M_tablevec.low_card := low_card;
       M_tablevec.is_categorical := M_clean.is_categorical |}.
  (** [str] of names; sparse columns; the random strings, see M_tablevec.v *)
  Variable name_str : L -> string.
  Variable sparse : column -> bool.
  Variable draw0 : nat -> string.
  Variable draws : nat -> nat -> string.
  Notation fitted_tv := (fitted_tv state L).
  Definition vec_fit (v : vectorizer) (X : input column L) : res (fitted_tv * frame column) :=
    tv_fit_transform SPass SDrop name_str sparse draw0 draws (tv_params v) X.
  Definition vec_transform (tv : fitted_tv) (X : input column L) : res (frame column) := tv_transform sparse apply tv X.

  (** ** [tabular_learner] *)
  (** An estimator: whether it is one of the classes of lines 15-18 (HistGradientBoosting), of lines 19-24 (also RandomForest); whether its
      [categorical_features] is "from_dtype"; its tags [allow_nan] and [positive_only]. *)
  Record estimator : Type := { is_hgbt : bool; is_forest : bool; from_dtype : bool; allow_nan : bool; positive_only : bool }.
  Definition is_tree_ensemble (e : estimator) : bool := is_hgbt e || is_forest e.
  (** the argument: a string, a class of estimators, an estimator, something else *)
  Inductive argument : Type := AString (s : string) | AClass | AEstimator (e : estimator) | AOther.
  Inductive pstep : Type := Vectorizer (v : vectorizer) | Imputer | Scaler | Final (e : estimator).
  (** HistGradientBoostingClassifier and HistGradientBoostingRegressor accept NaN; [new]: scikit-learn is at least 1.4, lines 170-173 *)
  Definition hgbt (new : bool) : estimator := {| is_hgbt := true; is_forest := false; from_dtype := new; allow_nan := true; positive_only := false |}.
  (** lines 202-225 *)
  Definition pipeline_of (e : estimator) : list pstep :=
    let default := {| v_low := OneHot; v_high := Gap; v_date := Datetime false; v_nulls := M_dropnulls.TNum 1 |} in
    let v := if is_hgbt e && from_dtype e
             then {| v_low := ToCategorical; v_high := MinHash; v_date := v_date default; v_nulls := v_nulls default |}
             else if is_tree_ensemble e
             then {| v_low := Ordinal; v_high := MinHash; v_date := v_date default; v_nulls := v_nulls default |}
             else {| v_low := v_low default; v_high := v_high default; v_date := Datetime true; v_nulls := v_nulls default |} in
    [Vectorizer v] ++ (if negb (allow_nan e) then [Imputer] else []) ++ (if negb (is_tree_ensemble e) then [Scaler] else []) ++ [Final e].
  (** [tabular_learner], 28-225 *)
  Definition tabular_learner (new : bool) (a : argument) : res (list pstep) :=
    match a with
    | AString s =>
        if mem s ["classifier"; "classification"] then Ok (pipeline_of (hgbt new))
        else if mem s ["regressor"; "regression"] then Ok (pipeline_of (hgbt new))
        else Err ValueError
    | AClass => Err TypeError
    | AOther => Err TypeError
    | AEstimator e => Ok (pipeline_of e)
    end.

  (** ** SimpleImputer(add_indicator=True) and StandardScaler of scikit-learn, on tables of numbers given by columns; [None]: NaN *)
  Definition numbers : Type := list (list (option N)).
  (** a step gets the result of the one before it: a dataframe or an array *)
  Inductive data : Type := Frame (X : frame column) | Array (X : numbers).
  (** [check_array]: columns that are not numbers are refused *)
  Definition cell_number (c : cell) : res (option N) := match c with CNum x => Ok (Some x) | CNull _ => Ok None | _ => Err ValueError end.
  Definition column_numbers (c : column) : res (list (option N)) := if is_numeric c then mapM cell_number (cells c) else Err ValueError.
  Definition as_array (d : data) : res numbers := match d with Frame X => mapM (fun p => column_numbers (snd p)) X | Array X => Ok X end.
  (** so are infinite numbers, a table without columns and one without rows *)
  Variable finite : N -> bool.
  Definition infinite_entry (x : option N) : bool := match x with Some v => negb (finite v) | None => false end.
  Definition check_array (d : data) : res numbers :=
    let! X := as_array d in
    if existsb (existsb infinite_entry) X then Err ValueError
    else match X with [] => Err ValueError | [] :: _ => Err ValueError | _ => Ok X end.
  (** mean of a column; floats 0 and 1 *)
  Variable mean : list N -> N.
  Variables zero one : N.
  Definition missing (x : option N) : bool := match x with None => true | Some _ => false end.
  Definition present (l : list (option N)) : list N := concat (map (fun x => match x with Some v => [v] | None => [] end) l).
  (** the mean of each column, if it has a number; whether it has a missing entry *)
  Definition imputer : Type := list (option N * bool).
  Definition imp_fit (X : numbers) : imputer := map (fun l => (match present l with [] => None | v => Some (mean v) end, existsb missing l)) X.
  (** columns without mean are dropped; the columns of indicators follow *)
  Definition fill (s : option N * bool) (l : list (option N)) : numbers :=
    match fst s with None => [] | Some m => [map (fun x => Some (match x with Some v => v | None => m end)) l] end.
  Definition indicator (s : option N * bool) (l : list (option N)) : numbers :=
    if snd s then [map (fun x => Some (if missing x then one else zero)) l] else [].
  Definition imp_transform (im : imputer) (d : data) : res numbers :=
    let! X := check_array d in
    if negb (length X =? length im) then Err ValueError
    else Ok (concat (map (fun p => fill (fst p) (snd p)) (combine im X)) ++ concat (map (fun p => indicator (fst p) (snd p)) (combine im X))).
  Variable scale_fit : list (option N) -> S.
  Variable scale : S -> N -> N.
  Definition scaler_transform (ss : list S) (d : data) : res numbers :=
    let! X := check_array d in
    if negb (length X =? length ss) then Err ValueError
    else Ok (map (fun p => map (option_map (scale (fst p))) (snd p)) (combine ss X)).

  (** ** The pipeline: what the last estimator gets when it is fitted, and when it predicts *)
  Inductive fitted_step : Type := FVectorizer (tv : fitted_tv) | FImputer (im : imputer) | FScaler (ss : list S).
  (** the table that the user gives, or the result of a step *)
  Inductive stage : Type := Input (X : input column L) | Data (d : data).
  Definition as_input (s : stage) : res (input column L) :=
    match s with Input X => Ok X | Data (Frame X) => Err TypeError | Data (Array _) => Err TypeError end.
  Definition as_data (s : stage) : res data := match s with Data d => Ok d | Input _ => Err TypeError end.
  (** [Pipeline.fit]; the vectorizer comes first and only there *)
  Fixpoint fit_pipeline (ps : list pstep) (s : stage) : res (list fitted_step * (estimator * data)) :=
    match ps with
    | [] => Err ValueError
    | Final e :: _ => let! d := as_data s in Ok ([], (e, d))
    | Vectorizer v :: ps =>
        let! X := as_input s in
        let! r := vec_fit v X in
        let! q := fit_pipeline ps (Data (Frame (snd r))) in
        Ok (FVectorizer (fst r) :: fst q, snd q)
    | Imputer :: ps =>
        let! d := as_data s in
        let! X := check_array d in
        let im := imp_fit X in
        let! Y := imp_transform im d in
        let! q := fit_pipeline ps (Data (Array Y)) in
        Ok (FImputer im :: fst q, snd q)
    | Scaler :: ps =>
        let! d := as_data s in
        let! X := check_array d in
        let ss := map scale_fit X in
        let! Y := scaler_transform ss d in
        let! q := fit_pipeline ps (Data (Array Y)) in
        Ok (FScaler ss :: fst q, snd q)
    end.
  (** [Pipeline.predict] *)
  Fixpoint run_pipeline (fs : list fitted_step) (s : stage) : res data :=
    match fs with
    | [] => as_data s
    | FVectorizer tv :: fs =>
        let! X := as_input s in
        let! Y := vec_transform tv X in
        run_pipeline fs (Data (Frame Y))
    | FImputer im :: fs =>
        let! d := as_data s in
        let! Y := imp_transform im d in
        run_pipeline fs (Data (Array Y))
    | FScaler ss :: fs =>
        let! d := as_data s in
        let! Y := scaler_transform ss d in
        run_pipeline fs (Data (Array Y))
    end.
  Definition learner_fit (new : bool) (a : argument) (X : input column L) : res (list fitted_step * (estimator * data)) :=
    let! ps := tabular_learner new a in fit_pipeline ps (Input X).
End Tabular.
Arguments state TZ F E : clear implicits.
Arguments data N TZ O K : clear implicits.
Arguments numbers N : clear implicits.
