(** Conversion of columns by the Cleaner and by the first steps of the TableVectorizer: /repo/skrub/_to_float32.py, _to_str.py, _clean_categories.py and
    _table_vectorizer.py. The models of CleanNullStrings, DropIfTooManyNulls and ToDatetime are those of M_nullstr.v, M_dropnulls.v and M_todt.v. *)
From Coq Require Import QArith.
From Verif Require Import Base M_nullstr M_dropnulls M_todt.
Open Scope string_scope.
Open Scope list_scope.
Open Scope nat_scope.

Notation Pandas := M_todt.Pandas.
Notation Polars := M_todt.Polars.
Notation lib := M_todt.lib.

Section Clean.
  (** numbers; time zones and their names; formats of datetimes; other Python objects; other types of columns (pandas periods and intervals, polars lists, structs, ...) *)
  Context {N TZ Name F O K : Type} `{EqD N} `{EqD F} `{EqD O}.

  (** Entries. Nulls are [None] (also for polars), [pd.NA] and NaN (also NaT). *)
  Inductive cell : Type := CNull (n : null) | CNum (x : N) | CBool (b : bool) | CStr (s : text) | CTime (t : Z) | CDur (t : Z) | COther (o : O).
  Global Instance cell_eqd : EqD cell.
  Proof. intros a b. decide equality; try apply eqd; try apply Z.eq_dec; try apply Bool.bool_dec; try apply (list_eq_dec Nat.eq_dec). decide equality. Defined.

  (** [categories.dtype] matters in so far as it is an extension type ([cats_ext]). Categories of polars are strings. *)
  Record categories : Type := { cats : list cell; cats_ext : bool; ordered : bool }.
  (** [TNum true]: 32-bit floats (of numpy, polars); [TNum false]: other numbers. *)
  Inductive dtype : Type := TStr | TObj | TBool | TNum (f32 : bool) | TTime (d : dtime TZ) | TDur | TCat (c : categories) | TOther (k : K).
  Record column : Type := { clib : lib; cdtype : dtype; cells : list cell }.

  (** ** What is not modelled *)
  (** characters matched by [\s]; rounding of a fraction to a float *)
  Variable is_space : nat -> bool.
  Variable fl : Q -> Q.
  (** see M_todt.v *)
  Variable UTC : TZ.
  Variable tz_name : TZ -> option Name.
  Variable zone_of : Name -> option TZ.
  Notation dcell := (@M_todt.cell text cell).
  Variable parse : lib -> F -> dcell -> option Z.
  Variable infer : list dcell -> dcell -> option Z.
  Variable has_offset : F -> bool.
  Variable default_resolution : lib -> Z.
  Variable guess : bool -> text -> option F.
  Variable pick : nat -> nat -> list nat.
  (** the nearest 32-bit float; the floats that represent booleans *)
  Variable round : N -> N.
  Variable of_bool : bool -> N.
  (** an entry read as a number, [None]: impossible, [Some None]: NaN. For pandas, what [pd.to_numeric] does with objects; for polars, [cast]. *)
  Variable num : lib -> dtype -> cell -> option (option N).
  (** integers that represent datetimes and durations, and the one that represents NaT, as 32-bit floats *)
  Variable ticks : dtype -> Z -> N.
  Variable NaT_value : N.
  (** types that polars can convert to floats; to strings; those for which it calls [str] *)
  Variable castable castable_str nested : dtype -> bool.
  (** text of an entry: [astype("str")], [cast(pl.String)], [str] *)
  Variable str : lib -> dtype -> cell -> text.
  (** [pd.api.types.is_string_dtype] of a column of objects without any entry, which depends on the version of pandas *)
  Variable empty_is_string : bool.
  (** [astype("category")]: entries that can be hashed; order of the categories *)
  Variable hashable : cell -> bool.
  Variable sort_cats : list cell -> list cell.

  Definition is_null (c : cell) : bool := match c with CNull _ => true | _ => false end.
  Definition is_str (c : cell) : bool := match c with CStr _ => true | _ => false end.
  Definition set_cells (c : column) (t : dtype) (l : list cell) : column := {| clib := clib c; cdtype := t; cells := l |}.

  (** ** Queries and conversions, _dataframe/_common.py *)
  (** [is_numeric], 637-655: booleans are not numbers *)
  Definition is_numeric (c : column) : bool := match cdtype c with TNum _ => true | _ => false end.
  (** [pd.api.types.is_numeric_dtype]: booleans are numbers *)
  Definition is_numeric_dtype (t : dtype) : bool := match t with TNum _ | TBool => true | _ => false end.
  (** [is_any_date], 779-791; [is_categorical], 836-848; [is_pandas_object], 774-775 *)
  Definition is_any_date (c : column) : bool := match cdtype c with TTime _ => true | _ => false end.
  Definition is_categorical (c : column) : bool := match cdtype c with TCat _ => true | _ => false end.
  Definition is_pandas_object (c : column) : bool := match clib c, cdtype c with Pandas, TObj => true | _, _ => false end.
  (** [pandas.api.types.is_string_dtype] of objects *)
  Definition all_strings (l : list cell) : bool := match l with [] => empty_is_string | _ => forallb is_str l end.
  (** [is_string], 706-726 *)
  Definition is_string (c : column) : bool :=
    match cdtype c, clib c with
    | TStr, _ => true
    | TObj, Pandas => all_strings (filter (fun x => negb (is_null x)) (cells c))
    | _, _ => false
    end.

  (** [pd.to_numeric(col, errors="raise" if strict else "coerce")]. Datetimes and durations: their integer representation. Nulls are NaN. *)
  Definition read (l : lib) (t : dtype) (c : cell) : cell :=
    match c with
    | CNull n => CNull (match l with Pandas => NaN | Polars => n end)
    | _ => match num l t c with
           | Some (Some x) => CNum x
           | Some None => CNull NaN
           | None => CNull (match l with Pandas => NaN | Polars => PyNone end)
           end
    end.
  Definition unreadable (l : lib) (t : dtype) (c : cell) : bool :=
    negb (is_null c) && match num l t c with None => true | Some _ => false end.
  Definition as_ticks (t : dtype) (c : cell) : cell :=
    match c with CTime z | CDur z => CNum (ticks t z) | CNull _ => CNum NaT_value | _ => c end.
  (** [astype(np.float32)] of numbers and booleans *)
  Definition as_float32 (l : lib) (c : cell) : cell :=
    match c with CNum x => CNum (round x) | CBool b => CNum (of_bool b) | CNull n => CNull (match l with Pandas => NaN | Polars => n end) | _ => c end.
  (** [to_float32], 685-703. The rounding of what [num] and [ticks] give is part of them. *)
  Definition to_float32 (c : column) (strict : bool) : res column :=
    match cdtype c, clib c with
    | TNum true, _ => Ok c
    | TNum false, l => Ok (set_cells c (TNum true) (map (as_float32 l) (cells c)))
    | TBool, Pandas => Ok (set_cells c (TNum true) (map (as_float32 Pandas) (cells c)))
    | TTime _, Pandas | TDur, Pandas => Ok (set_cells c (TNum true) (map (as_ticks (cdtype c)) (cells c)))
    | t, Pandas =>
        if strict && existsb (unreadable Pandas t) (cells c) then Err ValueError
        else Ok (set_cells c (TNum true) (map (read Pandas t) (cells c)))
    | t, Polars =>
        if negb (castable t) then Err (UserError 0)
        else if strict && existsb (unreadable Polars t) (cells c) then Err (UserError 0)
        else Ok (set_cells c (TNum true) (map (read Polars t) (cells c)))
    end.

  (** one entry in [to_string]: nulls of pandas become NaN; those of polars are kept, NaN is a number *)
  Definition as_str (l : lib) (t : dtype) (c : cell) : cell :=
    match l, c with
    | Pandas, CNull _ => CNull NaN
    | Polars, CNull NaN => CStr (text_of "NaN")
    | Polars, CNull n => CNull n
    | _, _ => CStr (str l t c)
    end.
  (** [to_string], 729-757 *)
  Definition to_string (c : column) : res column :=
    match clib c with
    | Pandas =>
        if negb (is_pandas_object c && is_string c) then Ok (set_cells c TObj (map (as_str Pandas (cdtype c)) (cells c)))
        else if negb (existsb is_null (cells c)) then Ok c
        else Ok (set_cells c TObj (map (fun x => match x with CNull _ => CNull NaN | _ => x end) (cells c)))
    | Polars =>
        match cdtype c with
        | TStr => Ok c
        | t => if nested t || castable_str t then Ok (set_cells c TStr (map (as_str Polars t) (cells c)))
               else Err (UserError 0)
        end
    end.

  (** the categories that [astype("category")] finds *)
  Definition find_cats (l : list cell) : list cell := nodup eqd (filter (fun x => negb (is_null x)) l).
  (** [to_categorical], 851-866 *)
  Definition nan_nulls (c : cell) : cell := match c with CNull _ => CNull NaN | _ => c end.
  Definition to_categorical (c : column) : res column :=
    match cdtype c, clib c with
    | TCat _, _ => Ok c
    | t, Pandas =>
        if forallb hashable (cells c)
        then Ok (set_cells c (TCat {| cats := sort_cats (find_cats (cells c)); cats_ext := match t with TStr => true | _ => false end; ordered := false |}) (map nan_nulls (cells c)))
        else Err TypeError
    | _, Polars =>
        let! c := to_string c in
        Ok (set_cells c (TCat {| cats := find_cats (cells c); cats_ext := false; ordered := false |}) (cells c))
    end.

  (** ** The converters *)
  (** [_with_string_categories], _clean_categories.py 11-36 *)
  Definition cat_str (c : cell) : cell := as_str Pandas TObj c.
  Definition with_string_categories (c : column) : res column :=
    match clib c with
    | Polars => Ok c
    | Pandas =>
        match cdtype c with
        | TCat k =>
            if all_strings (cats k) && negb (cats_ext k) then Ok c
            else
              let names := map cat_str (cats k) in
              if length (nodup eqd names) =? length names
              then Ok (set_cells c (TCat {| cats := names; cats_ext := false; ordered := ordered k |}) (map cat_str (cells c)))
              else
                let l := map cat_str (cells c) in
                Ok (set_cells c (TCat {| cats := sort_cats (find_cats l); cats_ext := false; ordered := false |}) l)
        | _ => Err AttributeError
        end
    end.
  (** [CleanCategories], _clean_categories.py 196-204 *)
  Definition cats_fit (c : column) : res column := if negb (is_categorical c) then Err RejectColumn else with_string_categories c.
  Definition cats_transform (c : column) : res column := let! c := to_categorical c in with_string_categories c.
  (** [ToFloat32], _to_float32.py 170-186 *)
  Definition float_fit (c : column) : res column :=
    if is_any_date c || is_categorical c then Err RejectColumn
    else match to_float32 c true with Ok out => Ok out | Err _ => Err RejectColumn end.
  Definition float_transform (c : column) : res column := to_float32 c false.
  (** [ToStr], _to_str.py 176-190 *)
  Definition str_fit (c : column) : res column :=
    if is_numeric c || is_any_date c || is_categorical c then Err RejectColumn else to_string c.
  Definition str_transform (c : column) : res column := to_string c.

  (** columns as M_nullstr.v and M_todt.v see them *)
  Definition ns_cell (c : cell) : value cell := match c with CNull n => VNull n | CStr s => VStr s | _ => VOther c end.
  Definition of_ns (v : value cell) : cell := match v with VNull n => CNull n | VStr s => CStr s | VOther c => c end.
  Definition ns_lib (l : lib) : M_nullstr.lib := match l with Pandas => M_nullstr.Pandas | Polars => M_nullstr.Polars end.
  Definition ns_col (c : column) : M_nullstr.column cell :=
    {| col_lib := ns_lib (clib c); col_kind := match cdtype c with TObj => KObject | TStr => KString | _ => KOther end; col_values := map ns_cell (cells c) |}.
  Definition from_ns (c : column) (out : M_nullstr.column cell) : column := set_cells c (cdtype c) (map of_ns (col_values out)).
  Definition nulls_fit (c : column) : res column := let! out := M_nullstr.fit_transform is_space (ns_col c) in Ok (from_ns c out).
  Definition nulls_transform (c : column) : res column := Ok (from_ns c (M_nullstr.transform is_space (ns_col c))).

  Definition dt_cell (c : cell) : dcell := match c with CNull _ => M_todt.CNull | CStr s => M_todt.CStr s | CTime t => M_todt.CTime t | _ => M_todt.COther c end.
  (** nulls of datetime columns: NaT for pandas *)
  Definition no_time (l : lib) : null := match l with Pandas => NaN | Polars => PyNone end.
  Definition of_dt (l : lib) (c : dcell) : cell := match c with M_todt.CNull => CNull (no_time l) | M_todt.CStr s => CStr s | M_todt.CTime t => CTime t | M_todt.COther c => c end.
  Definition dt_col (c : column) : M_todt.column TZ text cell :=
    {| M_todt.clib := clib c; M_todt.cdtype := match cdtype c with TStr => DStr | TObj => DObj | TTime d => DTime d | _ => DOther end; M_todt.cells := map dt_cell (cells c) |}.
  Definition from_dt (c : column) (out : M_todt.column TZ text cell) : res column :=
    match M_todt.cdtype out with DTime d => Ok (set_cells c (TTime d) (map (of_dt (clib c)) (M_todt.cells out))) | _ => Err TypeError end.
  Definition date_fit (c : column) : res (column * M_todt.state TZ F) :=
    match M_todt.fit_transform UTC parse infer has_offset default_resolution guess pick None unfitted (dt_col c) with
    | (st, Ok out) => let! out := from_dt c out in Ok (out, st)
    | (_, Err e) => Err e
    end.
  Definition date_transform (st : M_todt.state TZ F) (c : column) : res column :=
    let! out := M_todt.transform UTC tz_name zone_of parse infer has_offset default_resolution st (dt_col c) in from_dt c out.

  (** ** The steps *)
  Inductive step : Type := CleanNullStrings | DropIfTooManyNulls (t : threshold) | ToDatetime | ToFloat32 | CleanCategories | ToStr.
  (** fitted transformers *)
  Inductive fitted : Type := FNulls | FDrop (drop : bool) | FDate (st : M_todt.state TZ F) | FFloat | FCats | FStr.
  Definition keep (st : fitted) (r : res column) : res (option column * fitted) := let! c := r in Ok (Some c, st).
  (** [fit_transform] of a step on one column; [None]: the column is dropped *)
  Definition fit_step (s : step) (c : column) : res (option column * fitted) :=
    match s with
    | CleanNullStrings => keep FNulls (nulls_fit c)
    | DropIfTooManyNulls t =>
        match M_dropnulls.fit_transform is_null fl t None (cells c) with
        | (Some d, Ok o) => Ok (match o with None => None | Some l => Some (set_cells c (cdtype c) l) end, FDrop d)
        | (None, Ok _) => Err AttributeError
        | (_, Err e) => Err e
        end
    | ToDatetime => let! p := date_fit c in Ok (Some (fst p), FDate (snd p))
    | ToFloat32 => keep FFloat (float_fit c)
    | CleanCategories => keep FCats (cats_fit c)
    | ToStr => keep FStr (str_fit c)
    end.
  Definition transform_step (st : fitted) (c : column) : res (option column) :=
    let some r := (let! c := r in Ok (Some c)) in
    match st with
    | FNulls => some (nulls_transform c)
    | FDrop d => let! o := M_dropnulls.transform (Some d) (cells c) in Ok (match o with None => None | Some l => Some (set_cells c (cdtype c) l) end)
    | FDate st => some (date_transform st c)
    | FFloat => some (float_transform c)
    | FCats => some (cats_transform c)
    | FStr => some (str_transform c)
    end.

  (** [_get_preprocessors], _table_vectorizer.py 116-143: [Cleaner] (without ToFloat32); [TableVectorizer._make_pipeline], 781-794 (with it) *)
  Definition preprocessors (drop_null_fraction : threshold) (add_tofloat32 : bool) : list step :=
    [CleanNullStrings; DropIfTooManyNulls drop_null_fraction; ToDatetime] ++ (if add_tofloat32 then [ToFloat32] else []) ++ [CleanCategories; ToStr].

  (** ** Tables: one [OnEachColumn(step, allow_reject=True)] after the other, _on_each_column.py 445-482. Names of columns are distinct and do not change, see M_oncols.v. *)
  Definition table := list (string * column).
  Definition attempt {A} (r : res A) : res (option A) := match r with Ok a => Ok (Some a) | Err RejectColumn => Ok None | Err _ => Err ValueError end.
  Fixpoint fit_columns (s : step) (X : table) : res (dict string fitted * table) :=
    match X with
    | [] => Ok ([], [])
    | (n, c) :: X =>
        let! o := attempt (fit_step s c) in
        let! r := fit_columns s X in
        match o with
        | None => Ok (fst r, (n, c) :: snd r)
        | Some (None, st) => Ok ((n, st) :: fst r, snd r)
        | Some (Some c', st) => Ok ((n, st) :: fst r, (n, c') :: snd r)
        end
    end.
  Fixpoint transform_columns (ts : dict string fitted) (X : table) : res table :=
    match X with
    | [] => Ok []
    | (n, c) :: X =>
        match dget n ts with
        | None => let! X := transform_columns ts X in Ok ((n, c) :: X)
        | Some st =>
            match transform_step st c with
            | Err _ => Err ValueError
            | Ok o => let! X := transform_columns ts X in Ok (match o with None => X | Some c' => (n, c') :: X end)
            end
        end
    end.
  Fixpoint fit_steps (ss : list step) (X : table) : res (list (dict string fitted) * table) :=
    match ss with
    | [] => Ok ([], X)
    | s :: ss => let! r := fit_columns s X in let! r' := fit_steps ss (snd r) in Ok (fst r :: fst r', snd r')
    end.
  Fixpoint transform_steps (tss : list (dict string fitted)) (X : table) : res table :=
    match tss with
    | [] => Ok X
    | ts :: tss => let! X := transform_columns ts X in transform_steps tss X
    end.
  (** [all_processing_steps_], _table_vectorizer.py 285-289 and 832-839 *)
  Definition append_step (d : dict string (list fitted)) (p : string * fitted) : res (dict string (list fitted)) :=
    match dget (fst p) d with Some l => Ok (dset (fst p) (l ++ [snd p]) d) | None => Err KeyError end.
  Fixpoint append_steps (ps : list (string * fitted)) (d : dict string (list fitted)) : res (dict string (list fitted)) :=
    match ps with [] => Ok d | p :: ps => let! d := append_step d p in append_steps ps d end.
  Fixpoint store_steps (tss : list (dict string fitted)) (d : dict string (list fitted)) : res (dict string (list fitted)) :=
    match tss with [] => Ok d | ts :: tss => let! d := append_steps ts d in store_steps tss d end.
  Definition all_processing_steps (input_names : list string) (tss : list (dict string fitted)) : res (dict string (list fitted)) :=
    store_steps tss (map (fun n => (n, [])) input_names).

  (** [Cleaner.fit_transform], _table_vectorizer.py 259-290, after the check of the input: fitted steps, description and output; [transform], 292-305 *)
  Record cleaner : Type := { pipeline : list (dict string fitted); steps_of : dict string (list fitted) }.
  Definition clean_fit (t : threshold) (float32 : bool) (X : table) : res (cleaner * table) :=
    let! r := fit_steps (preprocessors t float32) X in
    let! d := all_processing_steps (map fst X) (fst r) in
    Ok ({| pipeline := fst r; steps_of := d |}, snd r).
  Definition clean_transform (c : cleaner) (X : table) : res table := transform_steps (pipeline c) X.
End Clean.
Arguments cell N O : clear implicits.
Arguments column N TZ O K : clear implicits.
Arguments dtype N TZ O K : clear implicits.
Arguments fitted TZ F : clear implicits.
Arguments cleaner TZ F : clear implicits.
Arguments table N TZ O K : clear implicits.
Arguments categories N O : clear implicits.
