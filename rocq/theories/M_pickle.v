(** Saving and loading pipelines: [_CloudPickle] (_expressions/_utils.py lines 38-54),
    [_CloudPickleExpr] and [ExprEstimator] (_expressions/_estimator.py lines 61-84),
    [_check_can_be_pickled] and [get_estimator] (_expressions/_skrub_namespace.py lines 46-58,
    1114-1119).

    [__getstate__] replaces the expression by [cloudpickle.dumps(expr)], [__setstate__] by
    [cloudpickle.loads]; the mark [_is_fitted] is kept as it is. What the pickle module does is
    part of the model: objects are written depth first, each once, the first time they are met. *)
From Verif Require Import Base M_traverse M_expr M_clone M_estimator.
Open Scope string_scope.
Open Scope list_scope.
Open Scope nat_scope.

(** Exceptions of the pickle module and of the interpreter. *)
Definition RecursionError : exn := UserError 20.
Definition PicklingError : exn := UserError 21.

(** The same node, with other identities for the objects it refers to. *)
Definition impl_map (f : oid -> oid) (i : impl) : impl :=
  match i with
  | IVar v => IVar (option_map f v)
  | IValue v => IValue (f v)
  | IIfElse c t e => IIfElse (f c) (f t) (f e)
  | IMatch q t d => IMatch (f q) (f t) (option_map f d)
  | IFreeze t => IFreeze (f t)
  | IApply x e y c h a u => IApply (f x) (f e) (f y) (f c) (f h) (f a) u
  | IApplied t => IApplied (f t)
  | IConcat a b => IConcat (f a) (f b)
  | IOp op fs => IOp op (map (fun nf => (fst nf, f (snd nf))) fs)
  end.

Section Pickle.
  Context {V K F : Type} `{EqD K}.
  Notation heap := (heap V K).
  Notation obj := (obj V K).
  Notation st := (st V F).

  Definition obj_map (f : oid -> oid) (g : V -> V) (ob : obj) : obj :=
    match ob with
    | OExpr i name isX isY => OExpr (impl_map f i) name isX isY
    | OMap ty items => OMap ty (map (fun kv => (fst kv, f (snd kv))) items)
    | OSeq ty items => OSeq ty (map f items)
    | OSlice a b c => OSlice (f a) (f b) (f c)
    | OChoice name outs chosen => OChoice name (f outs) chosen
    | ONumChoice name d chosen => ONumChoice name (g d) (option_map g chosen)
    | OChoiceMatch c m => OChoiceMatch (f c) (f m)
    | OEstimator cls p => OEstimator cls (f p)
    | OValue v => OValue (g v)
    end.

  (** Plain values and what steps have fitted: whether [cloudpickle] can write them, and what is
      read. *)
  Variable picklable : V -> bool.
  Variable picklable_fit : F -> bool.
  Variable reload : V -> V.
  Variable reload_fit : F -> F.

  (** The values inside an object. *)
  Definition obj_values (ob : obj) : list V :=
    match ob with
    | OValue v => [v]
    | ONumChoice _ d (Some c) => [d; c]
    | ONumChoice _ d None => [d]
    | _ => []
    end.
  (** An object and, for a node, what it has fitted. Dictionary keys, names and classes are taken
      to be picklable; [results] and [errors] are empty between two calls (C26). *)
  Definition writable (h : heap) (s : st) (o : oid) : bool :=
    forallb picklable (obj_values (h o)) &&
    match fitted s o with
    | Some (Frozen v) => picklable v
    | Some (FittedWith f) => picklable_fit f
    | None => true
    end.

  (** [Pickler.save]: one level of recursion by nested object (in CPython, at least one);
      [levels] are left. [memo]: the objects written already, in order. *)
  Fixpoint save_list (save_one : oid -> list oid -> res (list oid)) (cs : list oid) (memo : list oid) : res (list oid) :=
    match cs with
    | [] => Ok memo
    | c :: cs' => let! memo1 := save_one c memo in save_list save_one cs' memo1
    end.
  Section Save.
    Variable h : heap.
    Variable s : st.
    Fixpoint save (levels : nat) (o : oid) (memo : list oid) : res (list oid) :=
      match levels with
      | 0 => Err RecursionError
      | S d =>
          if mem o memo then Ok memo
          else if writable h s o then save_list (save d) (children (h o)) (memo ++ [o])
          else Err PicklingError
      end.
  End Save.

  (** Position of an object in the file. *)
  Fixpoint position (o : oid) (memo : list oid) : nat :=
    match memo with
    | [] => 0
    | x :: memo' => if eqd o x then 0 else S (position o memo')
    end.

  Definition reload_attr (a : fit_attr V F) : fit_attr V F :=
    match a with Frozen v => Frozen (reload v) | FittedWith f => FittedWith (reload_fit f) end.

  (** [Unpickler]: the objects of the file become new objects, numbered from [size] on. *)
  Definition load_heap (h : heap) (size : nat) (memo : list oid) : heap :=
    extend h size (map (fun o => obj_map (fun c => size + position c memo) reload (h o)) memo).
  Definition loaded_from (size : nat) (memo : list oid) (n : oid) : option oid :=
    if n <? size then None else nth_error memo (n - size).
  Definition load_st (s : st) (size : nat) (memo : list oid) : st :=
    mk_st (fun n m => match loaded_from size memo n with Some o => option_map reload (results s o m) | None => results s n m end)
          (fun n m => match loaded_from size memo n with Some o => errors s o m | None => errors s n m end)
          (fun n => match loaded_from size memo n with Some o => option_map reload_attr (fitted s o) | None => fitted s n end)
          (trace s).

  (** [pickle.loads(pickle.dumps(estimator))] for an estimator of root [root] and mark [flag]: the
      memory, its number of objects, the attributes of the nodes, the new estimator. *)
  Record loaded : Type := mk_loaded { l_heap : heap; l_size : nat; l_st : st; l_memo : list oid; l_est : oid * bool }.
  Definition save_and_load (levels : nat) (h : heap) (size : nat) (s : st) (root : oid) (flag : bool) : res loaded :=
    let! memo := save h s levels root [] in
    Ok (mk_loaded (load_heap h size memo) (size + length memo) (load_st s size memo) memo
          (size + position root memo, flag)).

  (** [get_estimator(fitted=False)], lines 1114-1117, for an expression whose nodes have the
      attributes [s]: the estimator has a copy of the expression without the data of previews. *)
  Variable copy : V -> res V.
  Variables new_seq new_map new_estimator : string -> res unit.
  Definition get_estimator (levels : nat) (h : heap) (size : nat) (root : oid)
    : res (heap * nat * world V F) :=
    let! (h1, size1, root1) := clone copy new_seq new_map new_estimator h size root true in
    let w := fresh root1 in
    match save_and_load levels h1 size1 (w_st w) root1 false with
    | Ok _ => Ok (h1, size1, w)
    | Err _ => Err PicklingError
    end.
End Pickle.
Arguments loaded V K F : clear implicits.
