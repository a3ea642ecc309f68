(** DatetimeEncoder, /repo/skrub/_datetime_encoder.py. *)
From Verif Require Import Base M_names M_str.
Open Scope string_scope.
Open Scope list_scope.
Open Scope nat_scope.

(** Lines 20-29. *)
Definition TIME_LEVELS : list string := ["year"; "month"; "day"; "hour"; "minute"; "second"; "microsecond"; "nanosecond"].
(** Lines 31-37. *)
Definition DEFAULT_ENCODING_PERIODS : list (string * nat) := [("day_of_year", 366); ("month", 12); ("day", 30); ("hour", 24); ("weekday", 7)].
(** Lines 38-44. *)
Definition DEFAULT_ENCODING_SPLINES : list (string * nat) := [("day_of_year", 12); ("month", 12); ("day", 4); ("hour", 12); ("weekday", 7)].

(** [l.index(x)] *)
Fixpoint index_of (x : string) (l : list string) : res nat :=
  match l with
  | [] => Err ValueError
  | y :: l' => if eqb_of x y then Ok 0 else let! i := index_of x l' in Ok (S i)
  end.

(** The name of a column: pandas allows any object, with its [str]. *)
Inductive pname := PStr (s : string) | POther (shown : string).
Definition shown (n : pname) : string := match n with PStr s | POther s => s end.
(** [name + "_" + s]: names that are not strings are not concatenated. *)
Definition name_plus (n : pname) (s : string) : res string :=
  match n with PStr m => Ok (m ++ "_" ++ s)%string | POther _ => Err TypeError end.

(** The constructor, 312-324. *)
Record params := { resolution : option string; add_weekday : bool; add_total_seconds : bool; add_day_of_year : bool; periodic_encoding : option string }.

Inductive kind := Circular | Spline (n_splines : nat).
(** A fitted [_CircularEncoder] or [_SplineEncoder], 472-642. *)
Record encoder := { ekind : kind; eperiod : nat; eoutputs : list string }.

Section Encoder.
  (** Datetimes and floats. *)
  Context {T F : Type}.
  (** [_get_dt_feature], 63-92, on a value that is not null; polars dates have no hour: not modelled. *)
  Variable get_dt_feature : string -> T -> F.
  (** [col.dt.date == col], 52-60. *)
  Variable midnight : T -> bool.
  (** [np.sin(x / period * 2 * np.pi)] (component 0), [np.cos] (component 1), and the functions of [SplineTransformer]
      for a period and a number of splines: 518-529, 555-565, 602-605. *)
  Variable circular : nat -> nat -> F -> F.
  Variable spline : nat -> nat -> nat -> F -> F.
  (** The 0 of [_fill_nulls], 444-449. *)
  Variable zero : F.

  (** A column: its name, whether its type is a date or a datetime, its values. *)
  Record column := { cname : pname; cdate : bool; cdata : list (option T) }.
  Definition is_date (c : column) : bool := forallb (fun v => match v with Some t => midnight t | None => true end) (cdata c).
  Definition fill_nulls (c : list (option F)) : list F := map (fun v => match v with Some x => x | None => zero end) c.
  Definition get_feature (c : column) (f : string) : list (option F) := map (option_map (get_dt_feature f)) (cdata c).

  (** [_check_params], 451-461. *)
  Definition check_params (p : params) : res unit :=
    let! _ := match resolution p with
              | Some r => if mem r TIME_LEVELS then Ok tt else Err ValueError
              | None => Ok tt
              end in
    match periodic_encoding p with
    | Some e => if mem e ["circular"; "spline"] then Ok tt else Err ValueError
    | None => Ok tt
    end.

  (** [fit_transform] of an encoder on a column: the names; [SplineTransformer] refuses empty columns. *)
  Definition n_components (k : kind) : nat := match k with Circular => 2 | Spline n => n end.
  Definition tag (k : kind) : string := match k with Circular => "circular" | Spline _ => "spline" end.
  Definition check_rows {A} (k : kind) (l : list A) : res unit :=
    match k, l with Spline _, [] => Err ValueError | _, _ => Ok tt end.
  Definition fit_encoder (k : kind) (period : nat) (name : string) (X : list F) : res encoder :=
    let! _ := check_rows k X in
    Ok {| ekind := k; eperiod := period; eoutputs := map (fun i => (name ++ "_" ++ tag k ++ "_" ++ str_nat i)%string) (seq 0 (n_components k)) |}.
  (** Their [transform] and [_post_process], 531-553, 616-642: the names are those of the fit. *)
  Definition component (e : encoder) (i : nat) : F -> F :=
    match ekind e with Circular => circular (eperiod e) i | Spline n => spline (eperiod e) n i end.
  Definition transform_encoder (e : encoder) (X : list F) : res (frame (list (option F))) :=
    let! _ := check_rows (ekind e) X in
    Ok (combine (eoutputs e) (map (fun i => map (fun x => Some (component e i x)) X) (seq 0 (n_components (ekind e))))).

  (** The fitted attributes. *)
  Record state := { extracted_features : list string; periodic_encoders : list (string * encoder); all_outputs : list string }.

  (** [transform], 400-442. [draw] gives the random names of [concat_horizontal]. *)
  Fixpoint transform_features (st : state) (c : column) (features : list string)
    : res (frame (list (option F)) * list (frame (list (option F)))) :=
    match features with
    | [] => Ok ([], [])
    | f :: features' =>
        match dget f (periodic_encoders st) with
        | None =>
            let! (all_extracted, new_features) := transform_features st c features' in
            Ok (((shown (cname c) ++ "_" ++ f)%string, get_feature c f) :: all_extracted, new_features)
        | Some e =>
            let! transformed := transform_encoder e (fill_nulls (get_feature c f)) in
            let! (all_extracted, new_features) := transform_features st c features' in
            Ok (all_extracted, transformed :: new_features)
        end
    end.
  (** [where_row(X_out, not_nulls, null_mask)]. *)
  Definition where_row (c : column) (X : frame (list (option F))) : frame (list (option F)) :=
    map (fun nc => (fst nc, map (fun vx => match fst vx with Some _ => snd vx | None => None end) (combine (cdata c) (snd nc)))) X.
  Definition transform (draw : nat -> string) (st : state) (c : column) : res (frame (list (option F))) :=
    let! (all_extracted, new_features) := transform_features st c (extracted_features st) in
    let! X_out := concat_horizontal draw (all_extracted :: new_features) in
    Ok (where_row c X_out).

  (** The encoders made at lines 372-381. *)
  Definition make_kind (periodic : string) (f : string) : res (kind * nat) :=
    match dget f DEFAULT_ENCODING_PERIODS, dget f DEFAULT_ENCODING_SPLINES with
    | Some period, Some n => Ok (if eqb_of periodic "circular" then Circular else Spline n, period)
    | _, _ => Err KeyError
    end.
  Fixpoint make_encoders (periodic : string) (levels : list string) (d : list (string * (kind * nat))) : res (list (string * (kind * nat))) :=
    match levels with
    | [] => Ok d
    | f :: levels' => let! k := make_kind periodic f in make_encoders periodic levels' (dset f k d)
    end.
  (** Lines 388-394. *)
  Definition fit_encoders (c : column) (d : list (string * (kind * nat))) : res (list (string * encoder)) :=
    mapM (fun fk => let '(f, (k, period)) := fk in
            let! name := name_plus (cname c) f in
            let! e := fit_encoder k period name (fill_nulls (get_feature c f)) in
            Ok (f, e)) d.

  (** [fit_transform], 326-398. *)
  Definition fit (p : params) (c : column) : res state :=
    let! _ := check_params p in
    if negb (cdate c) then Err RejectColumn else
    (** 348-354: [idx_level] is not defined when the resolution is [None] *)
    let! idx_level := match resolution p with
                      | None => Ok None
                      | Some r =>
                          let! i := index_of r TIME_LEVELS in
                          if is_date c then let! j := index_of "day" TIME_LEVELS in Ok (Some (Nat.min i j)) else Ok (Some i)
                      end in
    let extracted := (match idx_level with None => [] | Some i => firstn (i + 1) TIME_LEVELS end
                       ++ (if add_total_seconds p then ["total_seconds"] else [])
                       ++ (if add_weekday p then ["weekday"] else [])
                       ++ (if add_day_of_year p then ["day_of_year"] else []))%list in
    let name := shown (cname c) in
    match periodic_encoding p with
    | Some periodic =>
        let! i := match idx_level with Some i => Ok i | None => Err UnboundLocalError end in
        (** [list(keys)[1 : idx_level + 1]] *)
        let encoding_levels := (firstn i (skipn 1 (dkeys DEFAULT_ENCODING_PERIODS))
                                 ++ (if add_weekday p then ["weekday"] else [])
                                 ++ (if add_day_of_year p then ["day_of_year"] else []))%list in
        let! kinds := make_encoders periodic encoding_levels [] in
        let! encoders := fit_encoders c kinds in
        Ok {| extracted_features := extracted; periodic_encoders := encoders;
              all_outputs := (map (fun f => (name ++ "_" ++ f)%string) (filter (fun f => negb (mem f encoding_levels)) extracted)
                                ++ flat_map (fun fe => eoutputs (snd fe)) encoders)%list |}
    | None =>
        Ok {| extracted_features := extracted; periodic_encoders := []; all_outputs := map (fun f => (name ++ "_" ++ f)%string) extracted |}
    end.
  Definition fit_transform (draw : nat -> string) (p : params) (c : column) : res (state * frame (list (option F))) :=
    let! st := fit p c in
    let! out := transform draw st c in
    Ok (st, out).
End Encoder.
