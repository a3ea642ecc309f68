(** Selectors by type and by values, /repo/skrub/_selectors/_selectors.py, and the predicates on columns they use, /repo/skrub/_dataframe/_common.py. *)
From Verif Require Import Base.
Open Scope list_scope.
Open Scope nat_scope.

(** kinds of values *)
Inductive kind := KBool | KInt | KFloat | KStr | KDate | KDatetime | KDuration | KDecimal | KOther.
#[global] Instance EqD_kind : EqD kind. Proof. intros x y. decide equality. Defined.

Section Types.
  Context {X Y : Type} {EX : EqD X} {EY : EqD Y}.
  (** [CNull]: null, None, NA, NaT; [CNaN]: the float nan; else a value of a kind *)
  Inductive cell := CNull | CNaN | CVal (k : kind) (x : X).
  (** Types of columns of pandas; [PCat]: with the categories; [PArrow]: backed by pyarrow; [POther]: periods, intervals... *)
  Inductive arrow := ABool | AInt | AFloat | ADecimal | AString | ATimestamp | ADate | ADuration | AOther.
  Inductive pdtype := PBool | PBoolean | PInt | PIntNA | PFloat | PFloatNA | PComplex | PObj | PString | PCat (cats : list cell) | PDatetime | PTimedelta | PArrow (a : arrow) | POther.
  (** Types of columns of polars; [LNested]: lists, arrays and structs *)
  Inductive ldtype := LBool | LInt | LFloat | LDecimal | LString | LCat | LEnum | LDate | LDatetime | LTime | LDuration | LObject | LNested | LNull | LBinary.
  Inductive column := Pandas (t : pdtype) (cells : list cell) | Polars (t : ldtype) (cells : list cell).

  (** [pd.api.types.is_string_dtype] of a column of objects without any entry, which depends on the version of pandas *)
  Variable empty_is_string : bool.
  (** equality of Python objects and of values in columns: same key *)
  Variable key : cell -> Y.
  (** whether the distinct values of such a column can be counted *)
  Variable countable : column -> bool.

  Definition is_kind (k : kind) (c : cell) : bool := match c with CVal k' _ => eqb_of k k' | _ => false end.

  (** * Nulls *)
  (** pandas: [isna]: NaN is not null in nullable float columns and those backed by pyarrow *)
  Definition isna (t : pdtype) (c : cell) : bool :=
    match c, t with CNull, _ => true | CNaN, PFloatNA => false | CNaN, PArrow _ => false | CNaN, _ => true | CVal _ _, _ => false end.
  (** [_is_null_polars], 1083-1086 *)
  Definition polars_null (t : ldtype) (c : cell) : bool := match c, t with CNull, _ => true | CNaN, LFloat => true | _, _ => false end.
  Definition is_null (c : column) : list bool := match c with Pandas t l => map (isna t) l | Polars t l => map (polars_null t) l end.
  (** [has_nulls], 1089-1090 *)
  Definition has_nulls (c : column) : bool := existsb (fun b => b) (is_null c).

  (** * Types *)
  (** pandas: the type inferred from the entries that are not null, if they have the same kind *)
  Definition all_kind (k : kind) (l : list cell) : bool :=
    match l with [] => false | _ => forallb (is_kind k) l end.
  (** pandas: [is_bool_dtype]: also categories that are Booleans *)
  Definition is_bool_dtype (t : pdtype) : bool :=
    match t with PBool | PBoolean | PArrow ABool => true | PCat cats => all_kind KBool cats | _ => false end.
  (** [is_bool], 620-633: objects are those that [convert_dtypes] converts *)
  Definition is_bool (c : column) : bool :=
    match c with
    | Pandas PObj l => all_kind KBool (filter (fun x => negb (isna PObj x)) l)
    | Pandas t _ => is_bool_dtype t
    | Polars t _ => match t with LBool => true | _ => false end
    end.
  (** pandas: [is_numeric_dtype]: Booleans are numbers *)
  Definition is_numeric_dtype (t : pdtype) : bool :=
    match t with PBool | PBoolean | PInt | PIntNA | PFloat | PFloatNA | PComplex | PArrow ABool | PArrow AInt | PArrow AFloat | PArrow ADecimal => true | _ => false end.
  (** [is_numeric], 637-651 *)
  Definition is_numeric (c : column) : bool :=
    match c with
    | Pandas t _ => is_numeric_dtype t && negb (is_bool_dtype t)
    | Polars t _ => match t with LInt | LFloat | LDecimal => true | _ => false end
    end.
  (** [is_integer], 655-666 *)
  Definition is_integer (c : column) : bool :=
    match c with
    | Pandas t _ => match t with PInt | PIntNA | PArrow AInt => true | _ => false end
    | Polars t _ => match t with LInt => true | _ => false end
    end.
  (** [is_float], 670-681 *)
  Definition is_float (c : column) : bool :=
    match c with
    | Pandas t _ => match t with PFloat | PFloatNA | PArrow AFloat => true | _ => false end
    | Polars t _ => match t with LFloat => true | _ => false end
    end.
  (** [is_string], 706-725 *)
  Definition is_string (c : column) : bool :=
    match c with
    | Pandas PString _ => true
    | Pandas PObj l => match filter (fun x => negb (isna PObj x)) l with [] => empty_is_string | l' => forallb (is_kind KStr) l' end
    | Pandas _ _ => false
    | Polars t _ => match t with LString => true | _ => false end
    end.
  (** [is_any_date], 779-790 *)
  Definition is_any_date (c : column) : bool :=
    match c with
    | Pandas t _ => match t with PDatetime | PArrow ATimestamp => true | _ => false end
    | Polars t _ => match t with LDate | LDatetime => true | _ => false end
    end.
  (** [is_categorical], 836-847 *)
  Definition is_categorical (c : column) : bool :=
    match c with
    | Pandas t _ => match t with PCat _ => true | _ => false end
    | Polars t _ => match t with LCat | LEnum => true | _ => false end
    end.

  (** * Values *)
  Definition distinct (l : list cell) : nat := length (nodup eqd (map key l)).
  (** [n_unique], 1140-1154: polars counts null as a value, then takes it out *)
  Definition n_unique (c : column) : res nat :=
    if countable c then
      match c with
      | Pandas t l => Ok (distinct (filter (fun x => negb (isna t x)) l))
      | Polars _ l =>
          let n := distinct l in
          Ok (if existsb (fun x => match x with CNull => true | _ => false end) l then n - 1 else n)
      end
    else Err TypeError.
  (** [_cardinality_below], _selectors.py 447-452 *)
  Definition cardinality_below (threshold : nat) (c : column) : bool :=
    match n_unique c with Ok n => n <? threshold | Err _ => false end.

  (** * The same data in the two libraries *)
  (** what [pd.DataFrame] and [pl.DataFrame] make of values of a kind and nulls: integers with nulls become floats in pandas (with values [to_float]) *)
  Variable to_float : X -> X.
  Definition some_null (l : list cell) : bool := existsb (fun c => match c with CNull => true | _ => false end) l.
  Definition default_pandas (k : kind) (l : list cell) : column :=
    match k with
    | KBool => if some_null l then Pandas PObj l else Pandas PBool l
    | KInt => if some_null l then Pandas PFloat (map (fun c => match c with CVal _ x => CVal KFloat (to_float x) | _ => c end) l) else Pandas PInt l
    | KFloat => Pandas PFloat l
    | KStr | KDate | KDecimal | KOther => Pandas PObj l
    | KDatetime => Pandas PDatetime l
    | KDuration => Pandas PTimedelta l
    end.
  (** [convert_dtypes] *)
  Definition nullable_pandas (k : kind) (l : list cell) : column :=
    match k with
    | KBool => Pandas PBoolean l
    | KInt => Pandas PIntNA l
    | KFloat => Pandas PFloatNA l
    | KStr => Pandas PString l
    | KDate | KDecimal | KOther => Pandas PObj l
    | KDatetime => Pandas PDatetime l
    | KDuration => Pandas PTimedelta l
    end.
  (** [convert_dtypes(dtype_backend='pyarrow')], or a file read with it *)
  Definition arrow_pandas (k : kind) (l : list cell) : column :=
    Pandas (PArrow match k with KBool => ABool | KInt => AInt | KFloat => AFloat | KStr => AString | KDate => ADate | KDatetime => ATimestamp | KDuration => ADuration | KDecimal => ADecimal | KOther => AOther end) l.
  Definition polars (k : kind) (l : list cell) : column :=
    Polars match k with KBool => LBool | KInt => LInt | KFloat => LFloat | KStr => LString | KDate => LDate | KDatetime => LDatetime | KDuration => LDuration | KDecimal => LDecimal | KOther => LObject end l.
End Types.
Arguments cell : clear implicits.
Arguments pdtype : clear implicits.
Arguments column : clear implicits.
