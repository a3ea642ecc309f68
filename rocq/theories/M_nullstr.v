(** Cleaning strings that represent nulls, /repo/skrub/_clean_null_strings.py. *)
From Verif Require Import Base.
Open Scope string_scope.
Open Scope list_scope.
Open Scope nat_scope.

(** strings: lists of code points *)
Definition text := list nat.
Fixpoint text_of (s : string) : text := match s with EmptyString => [] | String c s => nat_of_ascii c :: text_of s end.

(** [STR_NA_VALUES], 8-29. *)
Definition STR_NA_VALUES : list text :=
  map text_of ["null"; ""; "1.#QNAN"; "#NA"; "nan"; "#N/A N/A"; "-1.#QNAN"; "<NA>"; "-1.#IND"; "-nan"; "n/a"; "-NaN"; "1.#IND"; "NULL"; "NA"; "N/A"; "#N/A"; "NaN"; "?"; "..."].

(** dataframe libraries, and what matters of the type of a column: pandas or polars "object", strings ([StringDtype], polars [String]), anything else *)
Inductive lib : Type := Pandas | Polars.
Inductive kind : Type := KObject | KString | KOther.

Section Clean.
  (** values that are neither null nor strings *)
  Context {O : Type}.
  Inductive null : Type := PyNone | PdNA | NaN.
  Inductive value : Type := VNull (n : null) | VStr (s : text) | VOther (o : O).
  Record column : Type := { col_lib : lib; col_kind : kind; col_values : list value }.

  (** the characters that match [\s]; they include the newline *)
  Variable is_space : nat -> bool.
  Definition newline : nat := 10.

  (** number of characters matched by a greedy [\s*] *)
  Fixpoint spaces (s : text) : nat := match s with c :: s' => if is_space c then S (spaces s') else 0 | [] => 0 end.
  (** [$]: at the end; for the module [re] of Python also before a final newline *)
  Definition at_end (l : lib) (rest : text) : bool :=
    match rest, l with
    | [], _ => true
    | [c], Pandas => c =? newline
    | _, _ => false
    end.
  (** a match of [^\s*$] at the start: the longest run of spaces first, then shorter ones *)
  Definition match_blank (l : lib) (s : text) : option nat :=
    find (fun k => at_end l (skipn k s)) (rev (seq 0 (S (spaces s)))).
  (** [replace(r"^\s*$", "")]; there is no match elsewhere than at the start *)
  Definition sub_blank (l : lib) (s : text) : text :=
    match match_blank l s with Some k => skipn k s | None => s end.

  (** [_trim_whitespace_only], 32-45. *)
  Definition trim_whitespace_only (c : column) : column :=
    {| col_lib := col_lib c; col_kind := col_kind c;
       col_values := map (fun v => match v with VStr s => VStr (sub_blank (col_lib c) s) | _ => v end) (col_values c) |}.

  (** [sbd.null_value_for], _dataframe/_common.py 284-297. *)
  Definition null_value_for (c : column) : null :=
    match col_lib c, col_kind c with Pandas, KString => PdNA | _, _ => PyNone end.
  (** [sbd.replace] with a list of strings, _dataframe/_common.py 1266-1277. *)
  Definition replace (c : column) (old : list text) (new : null) : column :=
    {| col_lib := col_lib c; col_kind := col_kind c;
       col_values := map (fun v => match v with VStr s => if mem s old then VNull new else v | _ => v end) (col_values c) |}.

  (** [sbd.is_pandas_object(column) or sbd.is_string(column)] *)
  Definition accepted (c : column) : bool :=
    match col_lib c, col_kind c with
    | Pandas, KObject => true
    | _, KString => true
    | _, _ => false
    end.

  (** [CleanNullStrings.transform], 241-246. *)
  Definition transform (c : column) : column :=
    if negb (accepted c) then c
    else let c := trim_whitespace_only c in replace c STR_NA_VALUES (null_value_for c).
  (** [CleanNullStrings.fit_transform], 235-239. *)
  Definition fit_transform (c : column) : res column :=
    if negb (accepted c) then Err RejectColumn else Ok (transform c).
End Clean.
Arguments value O : clear implicits.
Arguments column O : clear implicits.
