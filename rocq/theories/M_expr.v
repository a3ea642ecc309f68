(** Expression graphs and their evaluation, /repo/skrub/_expressions/_evaluation.py and
    the [compute] methods of /repo/skrub/_expressions/_expressions.py.

    Python objects live in a heap indexed by their identity. What external code does
    (operators, user functions, estimators, truth values, hashing, rebuilding a container)
    is a parameter. *)
From Verif Require Import Base M_traverse.
Open Scope string_scope.
Open Scope list_scope.
Open Scope nat_scope.

(** The classes deriving from [ExprImpl], with the fields that hold other objects
    ([_fields] of _expressions.py lines 672-1466). Fields that always hold a plain string,
    bool or [NULL] are stored directly: the traversal would only return them unchanged
    ([handle_value], _evaluation.py line 141). *)
Inductive impl : Type :=
| IVar (value : option oid)                       (* line 672; None: NULL *)
| IValue (value : oid)                            (* line 874 *)
| IIfElse (cond value_if_true value_if_false : oid) (* line 935 *)
| IMatch (query targets : oid) (default : option oid) (* line 945; None: NULL *)
| IFreeze (target : oid)                          (* line 955 *)
| IApply (X estimator y cols how allow_reject : oid) (unsupervised : bool) (* line 979 *)
| IApplied (target : oid)                         (* line 1068 *)
| IConcat (first others : oid)                    (* line 1399 *)
| IOp (op : string) (fields : list (string * oid)). (* GetAttr, GetItem, Call, CallMethod,
     BinOp, UnaryOp, EvalMode: lines 1077-1192, 1441-1469; [op] names the class (and the
     operator), constants such as an attribute name are objects of the heap *)

(** [_fields] and the attributes they hold. *)
Definition fields (i : impl) : list (string * oid) :=
  match i with
  | IVar None => []
  | IVar (Some v) => [("value", v)]
  | IValue v => [("value", v)]
  | IIfElse c t f => [("condition", c); ("value_if_true", t); ("value_if_false", f)]
  | IMatch q t None => [("query", q); ("targets", t)]
  | IMatch q t (Some d) => [("query", q); ("targets", t); ("default", d)]
  | IFreeze t => [("target", t)]
  | IApply x e y c h a _ =>
      [("X", x); ("estimator", e); ("y", y); ("cols", c); ("how", h); ("allow_reject", a)]
  | IApplied t => [("target", t)]
  | IConcat f o => [("first", f); ("others", o)]
  | IOp _ fs => fs
  end.

(** Python's [sub in s] for strings. *)
Definition str_in (sub s : string) : bool :=
  match String.index 0 sub s with Some _ => true | None => false end.

(** [mode == "preview" or "fit" in mode] (_expressions.py lines 959, 964, 986, 1427) *)
Definition fit_mode (mode : string) : bool := eqb_of mode "preview" || str_in "fit" mode.

(** [fields_required_for_eval] (_expressions.py lines 212, 958, 985) *)
Definition fields_for_eval (i : impl) (mode : string) : list (string * oid) :=
  match i with
  | IFreeze _ => if fit_mode mode then fields i else []
  | IApply x e y c h a unsup =>
      if fit_mode mode then
        if negb unsup then fields i
        else filter (fun f => negb (eqb_of (fst f) "y")) (fields i)
      else if eqb_of mode "score" then [("X", x); ("y", y)]
      else [("X", x)]
  | _ => fields i
  end.

Section Expr.
  (** [V]: evaluated Python values; [K]: dictionary keys up to hash and equality; [F]:
      the attributes that [Apply] ([estimator_], [_all_outputs]) and [ConcatHorizontal]
      ([all_outputs_]) store when they are fitted. *)
  Context {V K F : Type} `{EqD K}.

  (** Attributes stored by a node when it is fitted. *)
  Inductive fit_attr : Type :=
  | Frozen (value_ : V)        (* FreezeAfterFit, _expressions.py line 965 *)
  | FittedWith (f : F).
  Definition fitted_with (a : option fit_attr) : option F :=
    match a with Some (FittedWith f) => Some f | _ => None end.

  (** Python objects that the traversal distinguishes (_evaluation.py lines 87-104). *)
  Inductive obj : Type :=
  | OExpr (i : impl) (name : option string) (is_X is_y : bool)
  | OMap (ty : string) (items : list (K * oid))         (* dict; ty: its class *)
  | OSeq (ty : string) (items : list oid)               (* list, tuple, set, frozenset *)
  | OSlice (start stop step : oid)
  | OChoice (name : option string) (outcomes : oid) (chosen_outcome_idx : option nat)
  | ONumChoice (name : option string) (default : V) (chosen_outcome : option V)
      (* BaseNumericChoice; its outcome is a number, returned unchanged by handle_value *)
  | OChoiceMatch (choice outcome_mapping : oid)          (* _choosing.Match *)
  | OEstimator (cls : string) (params : oid)
      (* a scikit-learn estimator: its class, and get_params(), a dict *)
  | OValue (v : V).

  Definition heap := oid -> obj.

  (** Objects yielded by the base class handlers, in order (lines 112-176). *)
  Definition children (ob : obj) : list oid :=
    match ob with
    | OExpr i _ _ _ => map snd (fields i)
    | OMap _ items => map snd items
    | OSeq _ items => items
    | OSlice a b c => [a; b; c]
    | OChoice _ outcomes _ => [outcomes]
    | ONumChoice _ _ _ => []
    | OChoiceMatch c m => [c; m]
    | OEstimator _ p => [p]
    | OValue _ => []
    end.

  Definition is_expr (ob : obj) : bool :=
    match ob with OExpr _ _ _ _ => true | _ => false end.

  (** *** External behaviour *)
  Record externals := {
    (* truth value, line 231; raises e.g. for a dataframe *)
    truthy : V -> res bool;
    (* hash(query), lines 241, 265; raises TypeError for an unhashable value *)
    key_of : V -> res K;
    (* type(seq)(new_seq), line 154 *)
    mk_seq : string -> list V -> res V;
    (* type(mapping)(new_mapping), line 171 *)
    mk_map : string -> list (K * V) -> res V;
    (* slice(...), line 174 *)
    mk_slice : V -> V -> V -> V;
    (* clone + set_params, lines 127-129: an estimator of that class with these parameters *)
    mk_estimator : string -> V -> res V;
    (* compute of the stateless nodes: class and operator, mode, evaluated fields *)
    op_sem : string -> string -> list (string * V) -> res V;
    (* Apply.compute in fit modes: evaluated fields, unsupervised *)
    apply_fit : list (string * V) -> bool -> res (V * F);
    (* what a failed Apply.compute leaves in the fitted attributes *)
    apply_failed : list (string * V) -> bool -> option F -> option F;
    (* Apply.compute in other modes: mode, fitted attributes *)
    apply_use : string -> option F -> list (string * V) -> res V;
    (* ConcatHorizontal.compute in fit modes / other modes *)
    concat_fit : list (string * V) -> res (V * F);
    concat_use : option F -> list (string * V) -> res V;
    (* the estimator stored by Apply as a value *)
    applied : F -> V;
    (* sys.version >= 3.11: exceptions have add_note, line 281 *)
    has_add_note : bool
  }.
  Variable ext : externals.

  (** Attributes of the nodes: [results], [errors] (_expressions.py line 165), fitted
      attributes. [trace] is not in the code: it records which nodes were computed, the
      latest first. *)
  Record st : Type := mk_st {
    results : oid -> string -> option V;
    errors : oid -> string -> option exn;
    fitted : oid -> option fit_attr;
    trace : list oid
  }.

  Definition upd {A} (f : oid -> A) (o : oid) (a : A) : oid -> A :=
    fun o' => if eqd o' o then a else f o'.
  Definition upd2 {A} (f : oid -> string -> A) (o : oid) (m : string) (a : A)
    : oid -> string -> A :=
    fun o' m' => if eqd o' o then if eqd m' m then a else f o' m' else f o' m'.

  Definition set_result (s : st) (o : oid) (m : string) (v : option V) : st :=
    mk_st (upd2 (results s) o m v) (errors s) (fitted s) (trace s).
  Definition set_error (s : st) (o : oid) (m : string) (e : option exn) : st :=
    mk_st (results s) (upd2 (errors s) o m e) (fitted s) (trace s).
  Definition set_fitted (s : st) (o : oid) (f : option fit_attr) : st :=
    mk_st (results s) (errors s) (upd (fitted s) o f) (trace s).
  Definition log (s : st) (o : oid) : st :=
    mk_st (results s) (errors s) (fitted s) (o :: trace s).

  (** *** Environments and fetching, lines 179-208 *)
  Definition env := dict string V.
  Definition X_NAME := "_skrub_X".
  Definition Y_NAME := "_skrub_y".
  Definition is_var (i : impl) : bool := match i with IVar _ => true | _ => false end.

  (** The part of [_fetch] that reads the environment, lines 195-207. *)
  Definition fetch_env (e : env) (i : impl) (name : option string) (is_X is_y : bool)
    : option V :=
    match (if is_X then dget X_NAME e else None) with
    | Some v => Some v
    | None =>
      match (if is_y then dget Y_NAME e else None) with
      | Some v => Some v
      | None =>
        if is_var i then None
        else match name with Some n => dget n e | None => None end
      end
    end.

  Definition fetch (e : env) (mode : string) (s : st) (o : oid) (i : impl)
    (name : option string) (is_X is_y : bool) : option V :=
    match fetch_env e i name is_X is_y with
    | Some v => Some v
    | None => results s o mode
    end.

  (** *** [compute] methods *)

  (** [UninitializedVariable], a subclass of [KeyError], _expressions.py line 117. *)
  Definition UninitializedVariable : exn := UserError 2.

  (** [Var.compute], _expressions.py lines 675-687. *)
  Definition compute_var (e : env) (mode : string) (name : option string)
    (value : option V) : res V :=
    if eqb_of mode "preview" then
      match e with
      | _ :: _ => Err AssertionError
      | [] => match value with Some v => Ok v | None => Err UninitializedVariable end
      end
    else
      match (match name with Some n => dget n e | None => None end) with
      | Some v => Ok v
      | None =>
          let! use := match dget "_skrub_use_var_values" e with
                      | Some b => truthy ext b
                      | None => Ok false
                      end in
          match value with
          | Some v => if use then Ok v else Err UninitializedVariable
          | None => Err UninitializedVariable
          end
      end.

  (** The value of the node and, if it is set, the new value of its fitted attributes.
      [fit]: the fitted attributes of the nodes. *)
  Definition compute (e : env) (mode : string) (h : heap) (fit : oid -> option fit_attr)
    (o : oid) (i : impl) (name : option string) (args : list (string * V))
    : res (V * option fit_attr) :=
    match i with
    | IVar _ =>
        let! v := compute_var e mode name (dget "value" args) in Ok (v, None)
    | IValue _ =>
        match dget "value" args with Some v => Ok (v, None) | None => Err AttributeError end
    | IIfElse _ _ _ | IMatch _ _ _ => Err RuntimeError (* NotImplementedError, line 196;
         never called, these nodes have their own handlers *)
    | IFreeze _ =>
        if fit_mode mode then
          match dget "target" args with
          | Some v => Ok (v, Some (Frozen v))
          | None => Err AttributeError
          end
        else match fit o with
             | Some (Frozen v) => Ok (v, None)
             | _ => Err AttributeError
             end
    | IApply _ _ _ _ _ _ unsup =>
        if fit_mode mode then
          let! (v, f) := apply_fit ext args unsup in Ok (v, Some (FittedWith f))
        else let! v := apply_use ext mode (fitted_with (fit o)) args in Ok (v, None)
    | IApplied t =>
        match h t with
        | OExpr (IApply _ _ _ _ _ _ _) _ _ _ =>
            match fitted_with (fit t) with
            | Some f => Ok (applied ext f, None)
            | None => Err AttributeError
            end
        | _ => Err AttributeError
        end
    | IConcat _ _ =>
        if fit_mode mode then
          let! (v, f) := concat_fit ext args in Ok (v, Some (FittedWith f))
        else let! v := concat_use ext (fitted_with (fit o)) args in Ok (v, None)
    | IOp op _ => let! v := op_sem ext op mode args in Ok (v, None)
    end.

  (** What a failing [compute] leaves in the fitted attributes of the node. *)
  Definition fitted_on_error (mode : string) (i : impl) (args : list (string * V))
    (f : option fit_attr) : option fit_attr :=
    match i with
    | IApply _ _ _ _ _ _ unsup =>
        if fit_mode mode then
          option_map FittedWith (apply_failed ext args unsup (fitted_with f))
        else f
    | _ => f
    end.

  (** [compute_result], lines 267-288: the error is remembered; before Python 3.11 the
      exception is replaced by a [RuntimeError] outside of preview mode. *)
  Definition shown_error (mode : string) (e : exn) : exn :=
    if eqb_of mode "preview" then e
    else if has_add_note ext then e else RuntimeError.

  Notation g := (gen V st).

  Definition compute_result (h : heap) (e : env) (mode : string) (o : oid) (i : impl)
    (name : option string) (args : list (string * V)) (k : V -> g) : g :=
    GGet (fun s =>
      match compute e mode h (fitted s) o i name args with
      | Ok (v, None) => k v
      | Ok (v, Some f) => GPut (set_fitted s o (Some f)) (k v)
      | Err ex =>
          GPut (set_error (set_fitted s o (fitted_on_error mode i args (fitted s o)))
                  o mode (Some ex))
               (GRaise (shown_error mode ex))
      end).

  (** Outcomes of a [Choice], _choosing.py lines 155-162. *)
  Definition nth_outcome (h : heap) (outcomes : oid) (idx : nat) : res oid :=
    match h outcomes with
    | OSeq _ items => match nth_error items idx with Some o => Ok o | None => Err IndexError end
    | _ => Err TypeError
    end.
  Definition default_or {A} (d : A) (x : option A) : A :=
    match x with Some a => a | None => d end.

  (** [mapping\[key\]] for a dict of the heap. *)
  Definition map_lookup (h : heap) (m : oid) (key : K) : res (option oid) :=
    match h m with
    | OMap _ items => Ok (dget key items)
    | _ => Err TypeError
    end.

  Definition yield_res (r : res oid) (k : V -> g) : g :=
    match r with Ok t => GYield t k | Err e => GRaise e end.

  Definition name_in_env (e : env) (name : option string) : option V :=
    match name with Some n => dget n e | None => None end.

  (** Base class handlers of containers and estimators, lines 125-130, 145-174, as
      inherited by the evaluator. *)
  Definition eval_container (o : oid) (ob : obj) : g :=
    match ob with
    | OMap ty items =>
        yield_all (map snd items) (fun vs => gen_of (mk_map ext ty (combine (map fst items) vs)))
    | OSeq ty items => yield_all items (fun vs => gen_of (mk_seq ext ty vs))
    | OSlice a b c =>
        GYield a (fun x => GYield b (fun y => GYield c (fun z => GRet (mk_slice ext x y z))))
    | OEstimator cls p => GYield p (fun ps => gen_of (mk_estimator ext cls ps))
    | OValue v => GRet v
    | _ => GRaise TypeError
    end.

  (** [_Evaluator.handle_choice], lines 255-261 (mode "preview" always uses the default). *)
  Definition eval_choice (h : heap) (e : env) (mode : string) (ob : obj) : g :=
    match ob with
    | OChoice name outcomes chosen =>
        match name_in_env e name with
        | Some v => GRet v
        | None =>
            if eqb_of mode "preview" then yield_res (nth_outcome h outcomes 0) GRet
            else yield_res (nth_outcome h outcomes (default_or 0 chosen)) GRet
        end
    | ONumChoice name default chosen =>
        match name_in_env e name with
        | Some v => GRet v
        | None =>
            if eqb_of mode "preview" then GRet default
            else GRet (default_or default chosen)
        end
    | _ => GRaise TypeError
    end.

  (** [_Evaluator.handle_choice_match], lines 263-265. *)
  Definition eval_choice_match (h : heap) (choice mapping : oid) : g :=
    GYield choice (fun outcome =>
      match (let! key := key_of ext outcome in map_lookup h mapping key) with
      | Ok (Some t) => GYield t GRet
      | Ok None => GRaise KeyError
      | Err ex => GRaise ex
      end).

  (** The body of [_Evaluator.handle_expr] when nothing could be fetched: lines 217-224,
      229-252. *)
  Definition eval_impl (h : heap) (e : env) (mode : string) (o : oid) (i : impl)
    (name : option string) (k : V -> g) : g :=
    match i with
    | IIfElse c t f =>
        GYield c (fun cv =>
          match truthy ext cv with
          | Ok true => GYield t k
          | Ok false => GYield f k
          | Err ex => GRaise ex
          end)
    | IMatch q targets default =>
        GYield q (fun qv =>
          match (let! key := key_of ext qv in map_lookup h targets key) with
          | Ok (Some t) => GYield t k
          | Ok None =>
              match default with
              | Some d => GYield d k
              | None => GRaise KeyError
              end
          | Err ex => GRaise ex
          end)
    | _ =>
        let fs := fields_for_eval i mode in
        yield_all (map snd fs) (fun vs =>
          compute_result h e mode o i name (combine (map fst fs) vs) k)
    end.

  (** [_Evaluator.handle_expr], lines 214-227. [callback] is what the callbacks do. *)
  Definition eval_handler (h : heap) (e : env) (mode : string)
    (callback : st -> st * outcome unit) (o : oid) : g :=
    match h o with
    | OExpr i name isX isY =>
        GGet (fun s =>
          match fetch e mode s o i name isX isY with
          | Some v => GRet v
          | None =>
              GPut (log s o)
                (eval_impl h e mode o i name (fun v =>
                   GGet (fun s1 =>
                     match callback (set_result s1 o mode (Some v)) with
                     | (s2, TOk _) => GPut s2 (GRet v)
                     | (s2, TErr ex) => GPut s2 (GRaise ex)
                     | (s2, TCirc _) => GPut s2 (GRaise ValueError)
                     | (s2, TFuel) => GPut s2 (GRaise RuntimeError)
                     end)))
          end)
    | OChoice _ _ _ | ONumChoice _ _ _ => eval_choice h e mode (h o)
    | OChoiceMatch c m => eval_choice_match h c m
    | ob => eval_container o ob
    end.

  (** *** Other traversals. They return the objects or copies of them, which their callers
      ignore: the value type is [unit]. *)

  (** [_Reachable], lines 356-369; the state is [self._reachable]. *)
  Definition reach_handler (h : heap) (mode : string) (res : oid -> string -> option V)
    (o : oid) : gen unit (list oid) :=
    match h o with
    | OExpr i _ _ _ =>
        GGet (fun seen =>
          GPut (if mem o seen then seen else seen ++ [o])
            (match res o mode with
             | Some _ => GRet tt
             | None => yield_all (children (h o)) (fun _ => GRet tt)
             end))
    | _ => yield_all (children (h o)) (fun _ => GRet tt)
    end.

  (** [_Graph], lines 466-489. *)
  Record graph_st : Type := mk_graph {
    g_nodes : list oid;                       (* keys of self._nodes *)
    g_children : dict oid (list oid);
    g_parents : dict oid (list oid);
    g_current : list oid                      (* self._current_expr, innermost first *)
  }.
  Definition dappend (k v : oid) (d : dict oid (list oid)) : dict oid (list oid) :=
    match dget k d with
    | Some l => dset k (l ++ [v]) d
    | None => dset k [v] d
    end.
  Definition graph_handler (h : heap) (o : oid) : gen unit graph_st :=
    match h o with
    | OExpr i _ _ _ =>
        GGet (fun s =>
          let s1 := match g_current s with
                    | [] => s
                    | p :: _ => mk_graph (g_nodes s) (dappend p o (g_children s))
                                  (dappend o p (g_parents s)) (g_current s)
                    end in
          GPut (mk_graph (g_nodes s1) (g_children s1) (g_parents s1) (o :: g_current s1))
            (yield_all (children (h o)) (fun _ =>
               GGet (fun s2 =>
                 GPut (mk_graph (if mem o (g_nodes s2) then g_nodes s2 else g_nodes s2 ++ [o])
                         (g_children s2) (g_parents s2) (tl (g_current s2)))
                   (GRet tt)))))
    | _ => yield_all (children (h o)) (fun _ => GRet tt)
    end.
  Definition graph_init : graph_st := mk_graph [] [] [] [].

  Definition to_res {A} (r : outcome A) : res A :=
    match r with
    | TOk a => Ok a
    | TErr e => Err e
    | TCirc _ => Err ValueError   (* CircularReferenceError is a ValueError, line 62 *)
    | TFuel => Err RuntimeError   (* not a Python behaviour: proved impossible *)
    end.

  (** [size]: a bound on the identities of the objects of the heap. *)
  Definition run_graph (h : heap) (size : nat) (root : oid) : graph_st * outcome unit :=
    visit (graph_handler h) size [] root graph_init.

  (** [nodes(expr)], line 496; [_simplify_graph] (line 454) only renames the keys. *)
  Definition nodes (h : heap) (size : nat) (root : oid) : res (list oid) :=
    let (s, r) := run_graph h size root in
    let! _ := to_res r in Ok (g_nodes s).

  (** [clear_results(expr, mode)], lines 500-508, for a given list of nodes. *)
  Definition clear_nodes (ns : list oid) (mode : string) (s : st) : st :=
    fold_left (fun s n => set_error (set_result s n mode None) n mode None) ns s.

  (** [_cache_pruner(expr, mode)], lines 372-381: the [prune] callback. *)
  Definition prune (h : heap) (size : nat) (root : oid) (mode : string) (all_nodes : list oid)
    (s : st) : st * outcome unit :=
    match visit (reach_handler h mode (results s)) size [] root [] with
    | (reachable, TOk _) =>
        (fold_left (fun s n => if mem n reachable then s else set_result s n mode None)
           all_nodes s, TOk tt)
    | (_, r) => (s, r)
    end.

  (** [evaluate], lines 337-353, for a valid [environment]. The result for mode "fit" is
      the expression itself. *)
  Inductive evaluated : Type := TheExpr | TheValue (v : V).

  Definition evaluate (h : heap) (size : nat) (root : oid) (requested_mode : string) (e : env)
    (clear : bool) (s : st) : st * res evaluated :=
    let mode := if eqb_of requested_mode "fit" then "fit_transform" else requested_mode in
    let wrap r := match r with
                  | Ok v => Ok (if eqb_of requested_mode "fit" then TheExpr else TheValue v)
                  | Err ex => Err ex
                  end in
    if clear then
      match nodes h size root with
      | Err ex => (s, Err ex)
      | Ok ns =>
          let s1 := clear_nodes ns mode s in
          let (s2, r) :=
            visit (eval_handler h e mode (prune h size root mode ns)) size [] root s1 in
          (clear_nodes ns mode s2, wrap (to_res r))
      end
    else
      let (s2, r) := visit (eval_handler h e mode (fun s => (s, TOk tt))) size [] root s in
      (s2, wrap (to_res r)).
End Expr.
Arguments obj V K : clear implicits.
Arguments heap V K : clear implicits.
Arguments externals V K F : clear implicits.
Arguments fit_attr V F : clear implicits.
Arguments st V F : clear implicits.
Arguments env V : clear implicits.
