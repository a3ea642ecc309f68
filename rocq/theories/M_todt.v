(** Parsing datetimes, /repo/skrub/_to_datetime.py. *)
From Verif Require Import Base.
Open Scope list_scope.
Open Scope nat_scope.

Inductive lib : Type := Pandas | Polars.
Definition SAMPLE_SIZE : nat := 30.

Section ToDatetime.
  (** time zones and their names, strings, formats, other objects *)
  Context {TZ Name S F O : Type} `{EqD F}.
  Variable UTC : TZ.
  (** [tz.zone], [tz.key] or [tz.tzname(None)], _to_datetime.py 25-34; some zones have no name *)
  Variable tz_name : TZ -> option Name.
  (** the zone with a given name, if there is one *)
  Variable zone_of : Name -> option TZ.

  (** datetime types: resolution in nanoseconds (a day for polars dates) and time zone *)
  Record dtime : Type := { resolution : Z; zone : option TZ }.
  Inductive dtype : Type := DTime (d : dtime) | DStr | DObj | DOther.
  (** entries; datetimes are nanoseconds since 1970 in UTC, or in no zone *)
  Inductive cell : Type := CNull | CTime (t : Z) | CStr (s : S) | COther (o : O).
  Record column : Type := { clib : lib; cdtype : dtype; cells : list cell }.

  (** parsing one entry that is not null with a format: [pd.to_datetime(format=...)], [str.to_datetime] of polars *)
  Variable parse : lib -> F -> cell -> option Z.
  (** [pd.to_datetime(column, format=None)] on one entry *)
  Variable infer : list cell -> cell -> option Z.
  (** ["%z" in format] *)
  Variable has_offset : F -> bool.
  (** resolution of the datetimes that result from strings *)
  Variable default_resolution : lib -> Z.
  (** [pd_guess_datetime_format(string, dayfirst)] *)
  Variable guess : bool -> S -> option F.
  (** positions that are sampled: number of rows, size of the sample *)
  Variable pick : nat -> nat -> list nat.

  Definition is_null (c : cell) : bool := match c with CNull => true | _ => false end.
  Definition to_res (r t : Z) : Z := (t / r * r)%Z.

  (** [sbd.to_datetime], _dataframe/_common.py 794-817. *)
  Definition parsed (p : cell -> option Z) (r : Z) (c : cell) : cell :=
    if is_null c then CNull else match p c with Some t => CTime (to_res r t) | None => CNull end.
  Definition parse_all (l : lib) (p : cell -> option Z) (utc strict : bool) (cs : list cell) : res column :=
    if (strict && existsb (fun c => negb (is_null c) && match p c with None => true | Some _ => false end) cs)%bool
    then Err ValueError
    else Ok {| clib := l; cdtype := DTime {| resolution := default_resolution l; zone := if utc then Some UTC else None |};
               cells := map (parsed p (default_resolution l)) cs |}.
  Definition to_datetime (col : column) (format : option F) (strict : bool) : res column :=
    match cdtype col, clib col with
    | DTime _, _ => Ok col
    | _, Pandas =>
        match format with
        | None => parse_all Pandas (infer (cells col)) true strict (cells col)
        | Some f => parse_all Pandas (parse Pandas f) (has_offset f) strict (cells col)
        end
    | _, Polars =>
        match format, cdtype col with
        | None, _ => Err AttributeError                (* [None.replace] *)
        | Some f, DStr => parse_all Polars (parse Polars f) (has_offset f) strict (cells col)
        | Some _, _ => Err (UserError 0)               (* polars: [.str] on a column that has no strings *)
        end
    end.

  Definition is_localized (d : dtime) : bool :=
    match zone d with None => false | Some z => match tz_name z with Some _ => true | None => false end end.
  Definition time_zone (d : dtime) : option Name := match zone d with None => None | Some z => tz_name z end.
  Definition with_zone (col : column) (d : dtime) (z : option TZ) : column :=
    {| clib := clib col; cdtype := DTime {| resolution := resolution d; zone := z |}; cells := cells col |}.
  Definition get_zone (n : Name) : res TZ := match zone_of n with Some z => Ok z | None => Err (UserError 1) end.
  (** [_convert_time_zone], 48-79. Only the type of the column changes: the datetimes are in UTC, and those without a
      zone become UTC. (polars dates are first converted to datetimes; the final [cast] gives the resolution.) *)
  Definition convert_time_zone (col : column) (tz : option Name) : res column :=
    match cdtype col with
    | DTime d =>
        if is_localized d then
          match tz with
          | None => Ok (with_zone col d None)
          | Some n => let! z := get_zone n in Ok (with_zone col d (Some z))
          end
        else
          match tz with
          | None => Ok col
          | Some n => match zone d with
                      | Some _ => Err TypeError          (* [tz_localize]: already aware of a time zone *)
                      | None => let! z := get_zone n in Ok (with_zone col d (Some z))
                      end
          end
    | _ => Err AttributeError
    end.

  (** [sbd.cast] between datetime types, _dataframe/_common.py 576-594; pandas does not convert between types with and without zone *)
  Definition cast (col : column) (d' : dtime) : res column :=
    match cdtype col with
    | DTime d =>
        match zone d, zone d' with
        | None, Some _ | Some _, None => Err TypeError
        | _, _ => Ok {| clib := clib col; cdtype := DTime d';
                        cells := map (fun c => match c with CTime t => CTime (to_res (resolution d') t) | _ => c end) (cells col) |}
        end
    | _ => Err TypeError
    end.

  (** fitted attributes: [format_] (which may be [None]), [output_dtype_] with [output_time_zone_] *)
  Record state : Type := { format_ : option (option F); output_ : option dtime }.
  Definition unfitted : state := {| format_ := None; output_ := None |}.

  (** the values of [.unique()] when there is exactly one and it is not [None] *)
  Definition unique_format (l : list (option F)) : option F :=
    match l with
    | Some f :: l' => if forallb (fun g => eqb_of g (Some f)) l' then Some f else None
    | _ => None
    end.
  (** [_guess_datetime_format], 439-465. *)
  Definition guess_datetime_format (l : list S) : option F :=
    match unique_format (map (guess false) l) with
    | Some f => Some f
    | None => unique_format (map (guess true) l)
    end.
  (** [_get_datetime_format], 426-436. [sbd.is_string(sample)] for pandas objects: all entries are strings *)
  Fixpoint strings_of (l : list cell) : option (list S) :=
    match l with
    | [] => Some []
    | CStr s :: l' => match strings_of l' with Some r => Some (s :: r) | None => None end
    | _ => None
    end.
  Definition sampled (cs : list cell) : list cell :=
    let not_null := filter (fun c => negb (is_null c)) cs in
    map (fun i => nth i not_null CNull) (pick (length not_null) (Nat.min SAMPLE_SIZE (length not_null))).
  Definition get_datetime_format (format : option F) (cs : list cell) : option F :=
    match format with
    | Some f => Some f
    | None => match strings_of (sampled cs) with Some l => guess_datetime_format l | None => None end
    end.

  (** [fit_transform], 356-402. The new state comes with the result, also when an exception is raised. *)
  Definition fit_transform (format : option F) (st : state) (col : column) : state * res column :=
    match cdtype col, clib col with
    | DTime d, _ => ({| format_ := Some None; output_ := Some d |}, Ok col)
    | DStr, _ | DObj, Pandas =>
        match get_datetime_format format (cells col) with
        | None => (st, Err RejectColumn)
        | Some f =>
            let st := {| format_ := Some (Some f); output_ := output_ st |} in
            match to_datetime col (Some f) true with
            | Err _ => (st, Err RejectColumn)
            | Ok out =>
                match cdtype out with
                | DTime d => ({| format_ := Some (Some f); output_ := Some d |}, Ok out)
                | _ => (st, Err AttributeError)
                end
            end
        end
    | _, _ => (st, Err RejectColumn)
    end.

  (** [transform], 404-424. *)
  Definition transform (st : state) (col : column) : res column :=
    match format_ st with
    | None => Err NotFittedError
    | Some f =>
        let! col := to_datetime col f false in
        match output_ st with
        | None => Err AttributeError
        | Some d =>
            let! col := convert_time_zone col (time_zone d) in
            cast col d
        end
    end.

  (** the function [to_datetime] on a column, 500-507 *)
  Definition to_datetime_column (format : option F) (col : column) : res column :=
    match snd (fit_transform format unfitted col) with
    | Ok out => Ok out
    | Err RejectColumn => Ok col
    | Err e => Err e
    end.
End ToDatetime.
Arguments column TZ S O : clear implicits.
Arguments dtime TZ : clear implicits.
Arguments state TZ F : clear implicits.
