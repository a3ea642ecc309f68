(** Operations specialized for dataframe libraries: [dispatch], /repo/skrub/_dispatch.py 131-244, with
    [functools.singledispatch] of the standard library (registry, cache of implementations, lookup in the method resolution
    order). Then what transformers may return: [set_output], [check_output], /repo/skrub/_utils.py 242-328, as used by
    /repo/skrub/_on_subframe.py 140-204 and /repo/skrub/_on_each_column.py 440-571. *)
From Verif Require Import Base.
From Coq Require Import List.
Import ListNotations.
Open Scope string_scope.
Open Scope list_scope.
Open Scope nat_scope.

Section Dispatch.
  (** classes and implementations *)
  Context {C I : Type} `{EqD C}.
  (** [cls.__mro__]; no abstract classes are registered, so this is where [singledispatch] looks for implementations *)
  Variable mro : C -> list C.
  Variable object : C.
  (** [_load_dataframe_module_info], 146-181: the types of each module; whether a module can be imported *)
  Variable module_types : string -> option (dict string (list C)).
  Variable installed : string -> bool.
  (** the order in which the elements of a set of types come *)
  Variable set_order : list C -> list C.

  (** the state of a generic function: the registry and the cache of [singledispatch] *)
  Record generic : Type := mk_generic { g_registry : dict C I; g_cache : dict C I }.
  Definition new_generic (default : I) : generic := mk_generic [(object, default)] [].

  (** [singledispatch.register]: the cache is cleared *)
  Definition register (g : generic) (c : C) (f : I) : generic := mk_generic (dset c f (g_registry g)) [].

  Inductive load_error : Type := LImport | LKey.
  Definition load_info (name : string) : dict string (list C) + load_error :=
    match module_types name with
    | None => inr LKey
    | Some ts => if installed name then inl ts else inr LImport
    end.

  Inductive argument_type : Type := AllTypes | OneType (name : string) | Types (names : list string).

  (** [specialize(module_name, argument_type)(impl)], 201-239 *)
  Definition specialize (g : generic) (module_name : string) (a : argument_type) (impl : I) : generic * res unit :=
    match load_info module_name with
    | inr LKey => (g, Err KeyError)
    | inr LImport => (g, Ok tt)
    | inl types =>
        let names := match a with AllTypes => dkeys types | OneType n => [n] | Types ns => ns end in
        match mapM (fun n => match dget n types with Some cs => Ok cs | None => Err KeyError end) names with
        | Err e => (g, Err e)
        | Ok css => (fold_left (fun g c => register g c impl) (set_order (concat css)) g, Ok tt)
        end
    end.

  (** [_find_impl]: the first class of the resolution order that is in the registry *)
  Fixpoint find_impl (registry : dict C I) (l : list C) : option I :=
    match l with
    | [] => None
    | t :: l' => match dget t registry with Some f => Some f | None => find_impl registry l' end
    end.

  (** [singledispatch.dispatch] *)
  Definition dispatch (g : generic) (c : C) : generic * option I :=
    match dget c (g_cache g) with
    | Some f => (g, Some f)
    | None =>
        match (match dget c (g_registry g) with Some f => Some f | None => find_impl (g_registry g) (mro c) end) with
        | Some f => (mk_generic (g_registry g) (dset c f (g_cache g)), Some f)
        | None => (g, None)
        end
    end.

  (** The function returned by [singledispatch]: the class of the first positional argument, if any; the implementation called. *)
  Definition call (g : generic) (first : option C) : generic * res I :=
    match first with
    | None => (g, Err TypeError)
    | Some c => match dispatch g c with (g', Some f) => (g', Ok f) | (g', None) => (g', Err TypeError) end
    end.

  Inductive op : Type :=
  | Specialize (module_name : string) (a : argument_type) (impl : I)
  | Call (first : option C).
  Definition step (g : generic) (o : op) : generic :=
    match o with Specialize m a f => fst (specialize g m a f) | Call c => fst (call g c) end.
  Definition run (g : generic) (ops : list op) : generic := fold_left step ops g.
End Dispatch.
Arguments generic C I : clear implicits.
Arguments op C I : clear implicits.

(** ** Outputs of transformers *)
Inductive lib : Type := LPandas | LPolars.
#[global] Instance EqD_lib : EqD lib.
Proof. intros x y. decide equality. Defined.
Inductive kind : Type := KFrame | KLazy | KColumn.

(** What a transformer returns: dataframes and columns (with their columns' contents), sequences (lists, tuples, strings:
    [isinstance(obj, Sequence)]), other objects such as arrays. *)
Section Outputs.
  Context {D : Type}.
  Inductive value : Type :=
  | VData (l : lib) (k : kind) (content : D)
  | VSeq (l : list value)
  | VOther.

  Definition is_dataframe (v : value) : bool := match v with VData _ (KFrame | KLazy) _ => true | _ => false end.
  Definition is_column (v : value) : bool := match v with VData _ KColumn _ => true | _ => false end.
  (** [is_column_list], _dataframe/_common.py 349-356 *)
  Definition is_column_list (v : value) : bool :=
    match v with VSeq [] => true | VSeq (x :: _) => is_column x | _ => false end.
  (** [dataframe_module_name], _common.py 119-132; NotImplementedError *)
  Definition module_name (v : value) : res lib := match v with VData l _ _ => Ok l | _ => Err RuntimeError end.

  Variable old_sklearn : bool.   (* scikit-learn < 1.4 *)
  Variable from_pandas : D -> D. (* [pl.from_pandas] *)

  (** a transformer: whether it has [set_output] *)
  Definition has_module (target : lib) (v : value) : bool := match module_name v with Ok l => eqb_of l target | Err _ => false end.
  (** [check_output], 265-328; [input]: the library of the input *)
  Definition check_output (has_set_output : bool) (input : lib) (v : value) (allow_column_list : bool) : res value :=
    match v with
    | VData LPandas ((KFrame | KLazy) as k) d =>
        if eqb_of input LPolars && has_set_output && old_sklearn then Ok (VData LPolars KFrame (from_pandas d))
        else if has_module input v then Ok v else Err TypeError
    | _ =>
        if is_dataframe v && has_module input v then Ok v
        else if allow_column_list && is_column v && has_module input v then Ok v
        else if allow_column_list && is_column_list v &&
                match v with VSeq (x :: _) => has_module input x | _ => true end then Ok v
        else Err TypeError
    end.

  (** [set_output], 242-262: the container asked for *)
  Definition asked_container (input : lib) : lib :=
    match input with LPolars => if old_sklearn then LPandas else LPolars | LPandas => LPandas end.

  (** ** [OnSubFrame] *)
  (** [concat_horizontal(passthrough, transformed)], _common.py 327-346, with [set_column_names] before it: names and contents
      are not modelled here. The implementation is that of the library of [passthrough]: [reset_index] is a method of pandas
      dataframes only; [pl.concat] takes dataframes of polars of the same kind. *)
  Variable concat2 : D -> D -> D.
  Definition concat_horizontal (p t : value) : res value :=
    match p, t with
    | VData LPandas KFrame a, VData LPandas KFrame b => Ok (VData LPandas KFrame (concat2 a b))
    | VData LPandas KFrame _, _ => Err AttributeError
    | VData LPolars KFrame a, VData LPolars KFrame b => Ok (VData LPolars KFrame (concat2 a b))
    | VData LPolars KLazy a, VData LPolars KLazy b => Ok (VData LPolars KLazy (concat2 a b))
    | _, _ => Err TypeError
    end.

  (** lines 153-171 of _on_subframe.py: [passthrough] and the output of the transformer, when columns are selected *)
  Definition subframe_fit (has_set_output : bool) (input : lib) (passthrough : D) (output : res value) : res value :=
    let! out := output in
    let! out := check_output has_set_output input out false in
    concat_horizontal (VData input KFrame passthrough) out.
  (** lines 186-204: [set_column_names] fails for objects that are not dataframes *)
  Definition subframe_transform (input : lib) (passthrough : D) (output : res value) : res value :=
    let! out := output in
    if is_dataframe out then concat_horizontal (VData input KFrame passthrough) out else Err RuntimeError.

  (** ** [OnEachColumn] *)
  (** columns of a dataframe; [pd.DataFrame] or [pl.DataFrame] of columns, where columns of the other library are converted or
      refused *)
  Variable columns_of : D -> list D.
  Variable make_frame : lib -> list (lib * D) -> res D.
  Definition to_column_list (v : value) : res (list value) :=
    match v with
    | VData _ KColumn _ => Ok [v]
    | VData l KFrame d => Ok (map (VData l KColumn) (columns_of d))
    | VData _ KLazy _ => Err AttributeError  (* a lazy frame has no columns by position *)
    | VSeq l => if is_column_list v then Ok l else Err TypeError
    | VOther => Err TypeError
    end.
  Definition as_column (v : value) : res (lib * D) := match v with VData l KColumn d => Ok (l, d) | _ => Err RuntimeError end.
  (** [_fit_transform_column], 535-553, for the column [column] and what its transformer returned or raised, if the column is
      selected; whether there is a transformer for the column *)
  Definition column_fit (allow_reject has_set_output : bool) (input : lib) (column : D) (output : res value)
    : res (list value * bool) :=
    match output with
    | Err RejectColumn => if allow_reject then Ok ([VData input KColumn column], false) else Err ValueError
    | Err _ => Err ValueError
    | Ok out =>
        let! out := check_output has_set_output input out true in
        let! cols := to_column_list out in
        Ok (cols, true)
    end.
  (** [_transform_column], 556-571 *)
  Definition column_transform (output : res value) : res (list value) :=
    match output with Err _ => Err ValueError | Ok out => to_column_list out end.
  (** the original column comes first if it is kept, 503-504 and 477-478 *)
  Definition with_original (keep_original transformed : bool) (input : lib) (column : D) (cols : list value) : list value :=
    if transformed && keep_original then VData input KColumn column :: cols else cols.
  (** the dataframe made of all the columns, 480-482 and 519-521: [_rename_columns], [make_dataframe_like], [copy_index] *)
  Definition assemble (input : lib) (cols : list value) : res value :=
    let! ds := mapM as_column cols in
    let! d := make_frame input ds in
    Ok (VData input KFrame d).
  (** [fit_transform], 446-462 and 484-521: for each column its contents and, if it is selected, whether its transformer has
      [set_output] and what it returned *)
  Definition columns_fit (keep_original allow_reject : bool) (input : lib) (columns : list (D * option (bool * res value)))
    : res value :=
    let! cols := mapM (fun c : D * option (bool * res value) =>
        match snd c with
        | None => Ok [VData input KColumn (fst c)]
        | Some (has_set_output, output) =>
            let! r := column_fit allow_reject has_set_output input (fst c) output in
            Ok (with_original keep_original (snd r) input (fst c) (fst r))
        end) columns in
    assemble input (concat cols).
  (** [transform], 464-482: [n_outputs] is the number of names in [all_outputs_]; [zip] in [_rename_columns] stops there *)
  Definition columns_transform (keep_original : bool) (input : lib) (n_outputs : nat) (columns : list (D * option (res value)))
    : res value :=
    let! cols := mapM (fun c : D * option (res value) =>
        match snd c with
        | None => Ok [VData input KColumn (fst c)]
        | Some output =>
            let! r := column_transform output in
            Ok (with_original keep_original true input (fst c) r)
        end) columns in
    assemble input (firstn n_outputs (concat cols)).
End Outputs.
Arguments value D : clear implicits.
