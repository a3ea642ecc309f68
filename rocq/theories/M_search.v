(** Splitting the data of an expression, and searching for its hyper-parameters,
    /repo/skrub/_expressions/_estimator.py lines 345-352, 384-441, 565-583, 591-661. *)
From Verif Require Import Base M_traverse M_expr M_clone M_grid M_choicegraph M_estimator.
Open Scope string_scope.
Open Scope list_scope.
Open Scope nat_scope.

Section Search.
  Context {V K F : Type} `{EqD K}.
  Notation heap := (heap V K).
  Notation st := (st V F).
  Notation env := (env V).
  Variable ext : externals V K F.
  (** see M_choicegraph, M_estimator and M_clone; the objects are those of a memory *)
  Variable hash_obj : heap -> oid -> res K.
  Variable has_method : F -> string -> bool.
  Variable declares : heap -> oid -> string -> bool.
  Variable copy : V -> res V.
  Variables new_seq new_map new_estimator : string -> res unit.
  (** [value is None] *)
  Variable is_none : V -> bool.

  Notation clone := (clone copy new_seq new_map new_estimator).

  Definition empty_st : st := mk_st (fun _ _ => None) (fun _ _ => None) (fun _ => None) [].

  (** *** [_find_Xy], lines 406-421: the nodes marked as X and y. *)
  Definition find_Xy (h : heap) (size : nat) (root : oid) : res (oid * option oid) :=
    let! x := find_X h size root in
    match x with
    | None => Err ValueError
    | Some x =>
        let! y := find_y h size root in
        match y with
        | Some y => Ok (x, Some y)
        | None =>
            let! first := find_first_apply h size root in
            match first with
            | None => Ok (x, None)
            | Some a =>
                match h a with
                | OExpr (IApply _ _ y _ _ _ _) _ _ _ =>
                    match h y with
                    | OValue v => if is_none v then Ok (x, None) else Err ValueError
                    | _ => Err ValueError
                    end
                | _ => Ok (x, None)     (* only apply steps are found *)
                end
            end
        end
    end.

  Definition value_of (r : res (evaluated (V := V))) : res V :=
    let! a := r in match a with TheValue v => Ok v | TheExpr => Err TypeError end.

  (** *** [_compute_Xy], lines 424-441: what is stored in the copy of the expression, and X
      and y ([None] for None). *)
  Definition compute_Xy (h : heap) (size : nat) (root : oid) (e : env)
    : st * res (V * option V) :=
    match (let! (h1, size1, root1) := clone h size root true in
           let! (x, y) := find_Xy h1 size1 root1 in Ok (h1, size1, x, y)) with
    | Err ex => (empty_st, Err ex)
    | Ok (h1, size1, x, y) =>
        let (s1, rx) := evaluate ext h1 size1 x "fit_transform" e false empty_st in
        match value_of rx with
        | Err ex => (s1, Err ex)
        | Ok vx =>
            match y with
            | None => (s1, Ok (vx, None))
            | Some y =>
                let (s2, ry) := evaluate ext h1 size1 y "fit_transform" e false (reset s1) in
                (mk_st (results s2) (errors s2) (fitted s2) (trace s2 ++ trace s1),
                 let! vy := value_of ry in Ok (vx, if is_none vy then None else Some vy))
            end
        end
    end.

  (** *** [train_test_split], lines 565-583. [split1], [split2]: the splitter called with one
      or two arrays. *)
  Record split : Type := mk_split {
    sp_train : env; sp_test : env;
    sp_X_train : V; sp_X_test : V;
    sp_y : option (V * V)                 (* y_train and y_test, if present *)
  }.
  Definition train_test_split (split1 : V -> res (V * V)) (split2 : V -> V -> res (V * V * (V * V)))
    (h : heap) (size : nat) (root : oid) (e : env) : res split :=
    let! (x, y) := snd (compute_Xy h size root e) in
    match y with
    | None =>
        let! (x1, x2) := split1 x in
        Ok (mk_split (dset X_NAME x1 e) (dset X_NAME x2 e) x1 x2 None)
    | Some y =>
        let! (xs, ys) := split2 x y in
        Ok (mk_split (dset Y_NAME (fst ys) (dset X_NAME (fst xs) e))
                     (dset Y_NAME (snd ys) (dset X_NAME (snd xs) e))
                     (fst xs) (snd xs) (Some ys))
    end.

  (** *** Settings of the choices *)

  (** What a choice is set to: the index of an outcome, or a number. *)
  Inductive param : Type := PIndex (i : nat) | PNumber (v : V).

  (** [set_params(expr, params)], _evaluation.py lines 697-706; [short]: the choices of the
      expression, by number. The grids only hold indices for [Choice] and numbers for numeric
      choices: anything else is not modelled ([RuntimeError]). *)
  Definition set_choice (p : param) (ob : obj V K) : res (obj V K) :=
    match ob, p with
    | OChoice name outs _, PIndex i => Ok (OChoice name outs (Some i))
    | ONumChoice name default _, PNumber v => Ok (ONumChoice name default (Some v))
    | _, _ => Err RuntimeError
    end.
  Definition upd_heap (h : heap) (c : oid) (ob : obj V K) : heap :=
    fun o => if eqd o c then ob else h o.
  Fixpoint set_numbered (short : list oid) (params : list (nat * param)) (h : heap) : res heap :=
    match params with
    | [] => Ok h
    | (k, p) :: params' =>
        match nth_error short k with
        | None => Err KeyError
        | Some c => let! ob := set_choice p (h c) in set_numbered short params' (upd_heap h c ob)
        end
    end.
  (** [set_params] of an estimator: [choices(expr)] does not look for X and y, lines 620-622. *)
  Definition set_params (h : heap) (size : nat) (root : oid) (params : list (nat * param)) : res heap :=
    let! (short, _) := run_choice_graph (hash_obj h) h size root in set_numbered short params h.

  (** *** Estimators: an expression of their own, what is stored in it, [_is_fitted] *)
  Record est : Type := mk_est {
    e_heap : heap; e_size : nat; e_root : oid; e_st : st; e_fitted : bool
  }.
  (** [expr.skb.get_estimator()], _skrub_namespace.py line 1115, then [set_params]. *)
  Definition new_est (h : heap) (size : nat) (root : oid) (params : list (nat * param)) : res est :=
    let! (h1, size1, root1) := clone h size root true in
    let! h2 := set_params h1 size1 root1 params in
    Ok (mk_est h2 size1 root1 empty_st false).
  (** [estimator.<mode>(environment)] *)
  Definition call (b : est) (mode : string) (e : env) : est * res (evaluated (V := V)) :=
    match method ext (e_heap b) (e_size b) has_method (declares (e_heap b)) (e_root b) (e_fitted b) mode e (e_st b) with
    | (s, flag, r) => (mk_est (e_heap b) (e_size b) (e_root b) s flag, r)
    end.

  (** *** [_XyEstimatorMixin._get_env], lines 346-350 *)
  Definition get_env (e : env) (x : V) (y : option V) : env :=
    match y with
    | None => dset X_NAME x e
    | Some y => dset Y_NAME y (dset X_NAME x e)
    end.

  (** The last step of [BaseSearchCV.fit] in scikit-learn:
      [clone(clone(estimator)).set_params( **best_params).fit(X, y)], with [_XyExprEstimator.fit]
      and [_eval_in_mode] (lines 395-403), then [_to_env_estimator] (lines 390-393). *)
  Definition refit (h : heap) (size : nat) (root : oid) (e : env) (x : V) (y : option V)
    (params : list (nat * param)) : res est :=
    let! (h1, size1, root1) := clone h size root false in
    let! (h2, size2, root2) := clone h1 size1 root1 false in
    let! h3 := set_params h2 size2 root2 params in
    let! _ := supported_modes h3 size2 has_method (declares h3) root2 (fitted empty_st) in
    let (s, r) := evaluate ext h3 size2 root2 "fit_transform" (get_env e x y) true empty_st in
    let! _ := r in
    Ok (mk_est h3 size2 root2 s true).

  (** *** [ParamSearch] on the expression [root], lines 591-661. What cross-validation gives,
      and the best parameters when the search is asked to refit, is [cv] (scikit-learn, with
      copies of the expression). *)
  Context {R : Type}.
  Record search : Type := mk_search {
    s_cv_results : option R;
    s_best : option est
  }.
  Definition new_search : search := mk_search None None.
  Definition cross_validation := V -> option V -> list (grid V) -> res (R * option (list (nat * param))).

  Definition search_fit (h : heap) (size : nat) (root : oid) (cv : cross_validation) (e : env)
    (sr : search) : search * res unit :=
    match (let! (_, G) := choice_graph (hash_obj h) h size root in
           let! gs := param_grid G in
           let! (x, y) := snd (compute_Xy h size root e) in
           let! (r, best) := cv x y gs in
           match best with
           | None => Ok (r, None)
           | Some params => let! b := refit h size root e x y params in Ok (r, Some b)
           end) with
    | Err ex => (sr, Err ex)
    | Ok (r, best) =>
        (* [_copy_attr] only copies the attributes that exist *)
        (mk_search (Some r) (match best with Some b => Some b | None => s_best sr end), Ok tt)
    end.

  (** [search.<mode>(environment)], lines 639-661, for methods other than fit. *)
  Definition search_call (h : heap) (size : nat) (root : oid) (mode : string) (e : env)
    (sr : search) : search * res (evaluated (V := V)) :=
    match supported_modes h size has_method (declares h) root (fun _ => None) with
    | Err ex => (sr, Err ex)
    | Ok modes =>
        if mem mode modes then
          match s_cv_results sr, s_best sr with
          | None, _ => (sr, Err NotFittedError)
          | Some _, None => (sr, Err AttributeError)
          | Some r, Some b =>
              let (b', a) := call b mode e in (mk_search (Some r) (Some b'), a)
          end
        else (sr, Err AttributeError)
    end.
End Search.
Arguments param V : clear implicits.
Arguments est V K F : clear implicits.
Arguments search V K F R : clear implicits.
