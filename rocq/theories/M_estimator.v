(** Estimators made from expressions: fitting, predicting, reports, sub-estimators,
    /repo/skrub/_expressions/_estimator.py lines 61-330 ([ExprEstimator]).

    An [ExprEstimator] holds an expression and a mark [_is_fitted]; everything that fitting
    stores is in the nodes of the expression. [get_estimator] gives it its own copy of the
    expression (_skrub_namespace.py line 1115), which its sub-estimators share. *)
From Verif Require Import Base M_traverse M_expr.
Open Scope string_scope.
Open Scope list_scope.
Open Scope nat_scope.

Section Estimator.
  Context {V K F : Type} `{EqD K}.
  Notation heap := (heap V K).
  Notation st := (st V F).
  Notation env := (env V).
  Variable ext : externals V K F.
  Variable h : heap.
  Variable size : nat.
  (** [hasattr(estimator_, name)] for what an apply step has fitted;
      [hasattr(get_chosen_or_default(estimator), name)] for an apply step (its identity)
      that has not been fitted, _expressions.py lines 1042-1052. *)
  Variable has_method : F -> string -> bool.
  Variable declares : oid -> string -> bool.

  (** *** Searching the expression *)

  (** [raise _Found(...)]: what was found is kept in the state. *)
  Definition Found : exn := UserError 3.
  Definition find_with (handler : oid -> gen unit (option oid)) (root : oid)
    : res (option oid) :=
    match visit handler size [] root None with
    | (Some o, TErr _) => Ok (Some o)
    | (None, TErr ex) => Err ex
    | (_, TOk _) => Ok None
    | (_, r) => let! _ := to_res r in Ok None
    end.

  (** [_FindFirstApply], _evaluation.py lines 878-893. *)
  Definition first_apply_handler (o : oid) : gen unit (option oid) :=
    match h o with
    | OExpr (IApply _ _ _ _ _ _ _) _ _ _ => GPut (Some o) (GRaise Found)
    | OChoice _ outcomes chosen =>
        match nth_outcome h outcomes (default_or 0 chosen) with
        | Ok t => GYield t (fun _ => GRet tt)
        | Err ex => GRaise ex
        end
    | _ => yield_all (children (h o)) (fun _ => GRet tt)
    end.
  Definition find_first_apply (root : oid) : res (option oid) :=
    find_with first_apply_handler root.

  (** [find_node_by_name], lines 714-751: nodes and choices. *)
  Definition named_handler (name : string) (o : oid) : gen unit (option oid) :=
    let go := yield_all (children (h o)) (fun _ => GRet tt) in
    match h o with
    | OExpr _ (Some n) _ _ | OChoice (Some n) _ _ | ONumChoice (Some n) _ _ =>
        if eqb_of n name then GPut (Some o) (GRaise Found) else go
    | _ => go
    end.
  Definition find_node_by_name (root : oid) (name : string) : res (option oid) :=
    find_with (named_handler name) root.

  (** [FITTED_PREDICTOR_METHODS], _utils.py line 6. *)
  Definition predictor_methods : list string :=
    ["predict"; "predict_proba"; "decision_function"; "score"].

  (** [supported_modes], _evaluation.py lines 896-900, _expressions.py lines 1042-1052. *)
  Definition supported_modes (root : oid) (f : oid -> option (fit_attr V F)) : res (list string) :=
    let base := ["preview"; "fit_transform"; "transform"] in
    let! first := find_first_apply root in
    match first with
    | None => Ok base
    | Some o =>
        let has := match fitted_with (f o) with
                   | Some est => has_method est
                   | None => declares o
                   end in
        Ok (base ++ filter has predictor_methods)
    end.

  (** *** Methods of an estimator of root [root] marked as [flag] *)

  (** [_FITTING_METHODS], line 25. *)
  Definition fitting (mode : string) : bool := mem mode ["fit"; "fit_transform"].
  Definition is_ok {A} (r : res A) : bool := match r with Ok _ => true | Err _ => false end.

  (** Start recording which nodes are computed; not in the code. *)
  Definition reset (s : st) : st := mk_st (results s) (errors s) (fitted s) [].

  (** [_eval_in_mode], lines 90-95; [check_is_fitted] reads [_is_fitted] (line 83). *)
  Definition eval_in_mode (root : oid) (flag : bool) (mode : string) (e : env) (s : st)
    : st * bool * res (evaluated (V := V)) :=
    if negb (fitting mode) && negb flag then (s, flag, Err NotFittedError)
    else
      let (s', r) := evaluate ext h size root mode e true (reset s) in
      (s', flag || (fitting mode && is_ok r), r).

  (** [__getattr__], lines 113-121: methods other than fit, report, ... *)
  Definition getattr_call (root : oid) (flag : bool) (mode : string) (e : env) (s : st)
    : st * bool * res (evaluated (V := V)) :=
    match supported_modes root (fitted s) with
    | Err ex => (s, flag, Err ex)
    | Ok modes =>
        if mem mode modes then eval_in_mode root flag mode e s
        else (s, flag, Err AttributeError)
    end.

  (** Calling [estimator.<mode>(environment)]. [fit] (lines 86-88) calls [fit_transform] and
      returns the estimator. *)
  Definition method (root : oid) (flag : bool) (mode : string) (e : env) (s : st)
    : st * bool * res (evaluated (V := V)) :=
    if eqb_of mode "fit" then
      match getattr_call root flag "fit_transform" e s with
      | (s', flag', Ok _) => (s', flag', Ok TheExpr)
      | (s', flag', Err ex) => (s', flag', Err ex)
      end
    else getattr_call root flag mode e s.

  (** [report(environment=e, mode=mode)], lines 97-111, with [full_report] and
      [_do_full_report], _inspection.py lines 104-147: an error of the evaluation is part of
      the report. Writing the pages is not modelled (it is assumed to succeed). *)
  Definition report (root : oid) (flag : bool) (mode : string) (e : env) (s : st)
    : st * bool * res (res (evaluated (V := V))) :=
    if negb (fitting mode) && negb flag then (s, flag, Err NotFittedError)
    else
      match nodes h size root with
      | Err ex => (s, flag, Err ex)
      | Ok ns =>
          let s1 := clear_nodes ns mode (reset s) in
          let (s2, r) := evaluate ext h size root mode e false s1 in
          (clear_nodes ns mode s2, flag || fitting mode, Ok r)
      end.

  (** *** An estimator and the sub-estimators taken from it *)

  (** The nodes, and the root and mark of each estimator, in order of creation. *)
  Record world : Type := mk_world { w_st : st; w_estimators : list (oid * bool) }.

  Inductive op : Type :=
  | Method (i : nat) (mode : string) (e : env)
  | Report (i : nat) (mode : string) (e : env)
  | Sub (i : nat) (name : string).             (* sub_estimator(name), lines 322-330 *)

  Inductive reply : Type :=
  | Result (r : evaluated (V := V))
  | ReportOf (r : res (evaluated (V := V)))
  | NewEstimator (i : nat).

  Fixpoint set_nth {A} (i : nat) (a : A) (l : list A) : list A :=
    match i, l with
    | _, [] => []
    | 0, _ :: l' => a :: l'
    | S i', x :: l' => x :: set_nth i' a l'
    end.

  Definition step (w : world) (o : op) : world * res reply :=
    let i := match o with Method i _ _ | Report i _ _ | Sub i _ => i end in
    match nth_error (w_estimators w) i with
    | None => (w, Err IndexError)     (* no such estimator: not a Python behaviour *)
    | Some (root, flag) =>
        match o with
        | Method _ mode e =>
            match method root flag mode e (w_st w) with
            | (s', flag', r) =>
                (mk_world s' (set_nth i (root, flag') (w_estimators w)),
                 let! a := r in Ok (Result a))
            end
        | Report _ mode e =>
            match report root flag mode e (w_st w) with
            | (s', flag', r) =>
                (mk_world s' (set_nth i (root, flag') (w_estimators w)),
                 let! a := r in Ok (ReportOf a))
            end
        | Sub _ name =>
            match find_node_by_name root name with
            | Err ex => (w, Err ex)
            | Ok None => (w, Err KeyError)
            | Ok (Some node) =>
                (mk_world (w_st w) (w_estimators w ++ [(node, flag)]),
                 Ok (NewEstimator (List.length (w_estimators w))))
            end
        end
    end.

  (** What happens is done in order; exceptions are caught by the caller. *)
  Definition run (ops : list op) (w : world) : world :=
    fold_left (fun w o => fst (step w o)) ops w.

  (** [expr.skb.get_estimator()]: a new copy of the expression, in which nothing is stored
      (_evaluation.py [clone]; C30). *)
  Definition fresh (root : oid) : world :=
    mk_world (mk_st (fun _ _ => None) (fun _ _ => None) (fun _ => None) []) [(root, false)].
End Estimator.
Arguments op V : clear implicits.
Arguments reply V : clear implicits.
Arguments world V F : clear implicits.
