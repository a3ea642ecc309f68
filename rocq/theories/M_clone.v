(** Cloning expressions, /repo/skrub/_expressions/_evaluation.py lines 408-447. *)
From Verif Require Import Base M_traverse M_expr.
Open Scope string_scope.
Open Scope list_scope.
Open Scope nat_scope.

(** [impl.__replace__( **evaluated_attributes )] (_expressions.py lines 179-187), then
    line 438: a variable loses its value if [drop] ([drop_preview_data]). [vs]: the new
    attributes, in the order of [fields]. Lists of another length do not occur. *)
Definition replace_fields (drop : bool) (i : impl) (vs : list oid) : res impl :=
  match i, vs with
  | IVar None, [] => Ok (IVar None)
  | IVar (Some _), [v] => Ok (IVar (if drop then None else Some v))
  | IValue _, [v] => Ok (IValue v)
  | IIfElse _ _ _, [c; t; f] => Ok (IIfElse c t f)
  | IMatch _ _ None, [q; t] => Ok (IMatch q t None)
  | IMatch _ _ (Some _), [q; t; d] => Ok (IMatch q t (Some d))
  | IFreeze _, [t] => Ok (IFreeze t)
  | IApply _ _ _ _ _ _ u, [x; e; y; c; h; a] => Ok (IApply x e y c h a u)
  | IApplied _, [t] => Ok (IApplied t)
  | IConcat _ _, [f; o] => Ok (IConcat f o)
  | IOp op fs, _ =>
      if length fs =? length vs then Ok (IOp op (combine (map fst fs) vs)) else Err TypeError
  | _, _ => Err TypeError
  end.

Section Clone.
  Context {V K : Type} `{EqD K}.
  Notation heap := (heap V K).
  Notation obj := (obj V K).

  (** External behaviour: [skl_clone(value, safe=False)] or [copy.deepcopy] (lines 426-431);
      the constructors of the classes of sequences and mappings, given a list or a dict (lines
      154, 171); [skl_clone(estimator).set_params(...)] (lines 127-129). *)
  Variable copy : V -> res V.
  Variables new_seq new_map new_estimator : string -> res unit.

  (** The copy of an object, given the copies of its [children]. *)
  Definition rebuild (drop : bool) (ob : obj) (vs : list oid) : res obj :=
    match ob, vs with
    | OExpr i name isX isY, _ =>
        let! i' := replace_fields drop i vs in Ok (OExpr i' name isX isY)
    | OMap ty items, _ =>
        let! _ := new_map ty in
        if length items =? length vs then Ok (OMap ty (combine (map fst items) vs))
        else Err TypeError
    | OSeq ty items, _ => let! _ := new_seq ty in Ok (OSeq ty vs)
    | OSlice _ _ _, [a; b; c] => Ok (OSlice a b c)
    | OChoice name _ chosen, [outcomes] => Ok (OChoice name outcomes chosen)
    | ONumChoice name default chosen, [] => Ok (ONumChoice name default chosen)
    | OChoiceMatch _ _, [c; m] => Ok (OChoiceMatch c m)
    | OEstimator cls _, [p] => let! _ := new_estimator cls in Ok (OEstimator cls p)
    | OValue v, [] => let! v' := copy v in Ok (OValue v')
    | _, _ => Err TypeError
    end.

  (** New objects in the order of their creation, and [self._replace]. The identity of a
      new object is its position after the [size] existing ones. *)
  Record clone_st : Type := mk_cst { c_objs : list obj; c_memo : dict oid oid }.

  Section Handler.
    Variable h : heap.
    Variable size : nat.
    Variable drop : bool.
    Notation g := (gen oid clone_st).

    Definition alloc (o : oid) (memoize : bool) (vs : list oid) : g :=
      match rebuild drop (h o) vs with
      | Err ex => GRaise ex
      | Ok ob =>
          GGet (fun s =>
            let n := size + length (c_objs s) in
            GPut (mk_cst (c_objs s ++ [ob])
                    (if memoize then dset o n (c_memo s) else c_memo s)) (GRet n))
      end.

    Definition clone_handler (o : oid) : g :=
      match h o with
      | OExpr _ _ _ _ =>
          (* handle_expr visits the attributes before compute_result (line 433) looks at
             the memo *)
          yield_all (children (h o)) (fun vs =>
            GGet (fun s =>
              match dget o (c_memo s) with
              | Some n => GRet n
              | None => alloc o true vs
              end))
      | OChoice _ _ _ | ONumChoice _ _ _ =>
          (* lines 417-424 *)
          GGet (fun s =>
            match dget o (c_memo s) with
            | Some n => GRet n
            | None => yield_all (children (h o)) (fun vs => alloc o true vs)
            end)
      | _ => yield_all (children (h o)) (fun vs => alloc o false vs)
      end.
  End Handler.

  (** The memory after cloning. *)
  Definition extend (h : heap) (size : nat) (objs : list obj) : heap :=
    fun o => if o <? size then h o
             else match nth_error objs (o - size) with Some ob => ob | None => h o end.

  (** [clone(expr, drop_preview_data=drop)], lines 446-447 ([replace] is not used in skrub):
      the memory, its number of objects and the clone. *)
  Definition clone (h : heap) (size : nat) (root : oid) (drop : bool)
    : res (heap * nat * oid) :=
    let (s, r) := visit (clone_handler h size drop) size [] root (mk_cst [] []) in
    let! n := to_res r in
    Ok (extend h size (c_objs s), size + length (c_objs s), n).
End Clone.
Arguments clone_st V K : clear implicits.
