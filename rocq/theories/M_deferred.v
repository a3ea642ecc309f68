(** Deferred functions, /repo/skrub/_expressions/_expressions.py lines 1113-1137 ([Call]) and
    1326-1396 ([deferred]), with what [_ExprTraversal], [_Evaluator] and [needs_eval] do to the
    objects they hold, /repo/skrub/_expressions/_evaluation.py lines 67-176, 291-309,
    709-763. *)
From Verif Require Import Base.
Open Scope string_scope.
Open Scope list_scope.
Open Scope nat_scope.

(** Python objects. [PExpr i]: an expression, a choice or a match on a choice. [PSeq], [PMap]:
    list, tuple, set or frozenset, and dict (or a class derived from one of them; the class is
    named). [PEst]: an estimator, its parameters, and what it learned if it is fitted. [PAtom]:
    anything else. Objects that contain themselves are not modelled. *)
Inductive pobj {V : Type} : Type :=
| PAtom (v : V)
| PExpr (i : nat)
| PSeq (cls : string) (items : list pobj)
| PMap (cls : string) (items : list (V * pobj))
| PEst (cls : string) (params : list (string * pobj)) (fitted : option V).
Arguments pobj V : clear implicits.
Arguments PAtom {V}. Arguments PExpr {V}. Arguments PSeq {V}. Arguments PMap {V}. Arguments PEst {V}.

(** The code of a function: its positional and keyword-only parameters, whether it has
    [*args] and [**kwargs], the global names it loads, and those loaded by functions,
    lambdas and generators defined inside it. *)
Record code : Type := mk_code {
  co_name : string;
  co_params : list string; co_kwonly : list string;
  co_varargs : bool; co_varkw : bool;
  co_loads : list string; co_nested : list string
}.

(** The arguments of a call, once they are matched with the parameters. *)
Record binding {V : Type} : Type := mk_binding {
  b_params : list (string * pobj V); b_varargs : list (pobj V); b_varkw : list (string * pobj V)
}.
Arguments binding V : clear implicits.
Arguments mk_binding {V}. Arguments b_params {V}. Arguments b_varargs {V}. Arguments b_varkw {V}.

(** A function: [f_cells] are the variables of enclosing functions it uses; [f_self] is the
    object of a bound method. *)
Record func {V : Type} : Type := mk_func {
  f_code : code; f_cells : list nat;
  f_defaults : list (pobj V); f_kwdefaults : list (string * pobj V);
  f_self : option (pobj V)
}.
Arguments func V : clear implicits.
Arguments mk_func {V}. Arguments f_code {V}. Arguments f_cells {V}. Arguments f_defaults {V}. Arguments f_kwdefaults {V}. Arguments f_self {V}.

(** What can be called: a function, or something without [__code__] (a class, a builtin
    function, ...). *)
Inductive callee {V : Type} : Type := Function (f : func V) | Other (name : string).
Arguments callee V : clear implicits.
Arguments Function {V}. Arguments Other {V}.

(** The variables a function can see: those of its module, and those of enclosing functions
    ([None]: not assigned yet). *)
Record memory {V : Type} : Type := mk_memory {
  m_globals : string -> option (pobj V);
  m_cells : nat -> option (pobj V)
}.
Arguments memory V : clear implicits.
Arguments mk_memory {V}. Arguments m_globals {V}. Arguments m_cells {V}.

Section Deferred.
  Context {V : Type}.
  Notation pobj := (pobj V).
  (** [type(seq)(items)], [type(mapping)(items)], [clone(estimator).set_params(...)] *)
  Variable new_seq : string -> list pobj -> res pobj.
  Variable new_map : string -> list (V * pobj) -> res pobj.
  Variable new_est : string -> list (string * pobj) -> res pobj.
  (** The value of an expression or choice, in the evaluation under way. *)
  Variable meaning : nat -> res pobj.
  (** Running the code of a function, with the global variables, the variables of enclosing
      functions and the arguments; calling something else. *)
  Variable exec : code -> (string -> option pobj) -> list (option pobj) -> binding V -> res pobj.
  Variable call_other : string -> list pobj -> list (string * pobj) -> res pobj.

  (** [_Evaluator] on an object, lines 67-176; [get_params] of an estimator is one dict. *)
  Fixpoint ev (o : pobj) : res pobj :=
    match o with
    | PAtom v => Ok (PAtom v)
    | PExpr i => meaning i
    | PSeq cls items =>
        let! items' := (fix go l := match l with
                        | [] => Ok []
                        | x :: l' => let! x' := ev x in let! r := go l' in Ok (x' :: r)
                        end) items in
        new_seq cls items'
    | PMap cls items =>
        let! items' := (fix go l := match l with
                        | [] => Ok []
                        | (k, x) :: l' => let! x' := ev x in let! r := go l' in Ok ((k, x') :: r)
                        end) items in
        new_map cls items'
    | PEst cls params _ =>
        let! params' := (fix go l := match l with
                        | [] => Ok []
                        | (k, x) :: l' => let! x' := ev x in let! r := go l' in Ok ((k, x') :: r)
                        end) params in
        new_est cls params'
    end.

  (** [needs_eval], lines 714-763: the same traversal, which stops at the first expression or
      choice; it rebuilds what it goes through. [None]: found one. *)
  Fixpoint search_expr (o : pobj) : res (option pobj) :=
    match o with
    | PAtom v => Ok (Some (PAtom v))
    | PExpr i => Ok None
    | PSeq cls items =>
        let! items' := (fix go l := match l with
                        | [] => Ok (Some [])
                        | x :: l' => let! x' := search_expr x in
                            match x' with
                            | None => Ok None
                            | Some x' => let! r := go l' in Ok (option_map (cons x') r)
                            end
                        end) items in
        match items' with None => Ok None | Some items' => let! o := new_seq cls items' in Ok (Some o) end
    | PMap cls items =>
        let! items' := (fix go l := match l with
                        | [] => Ok (Some [])
                        | (k, x) :: l' => let! x' := search_expr x in
                            match x' with
                            | None => Ok None
                            | Some x' => let! r := go l' in Ok (option_map (cons (k, x')) r)
                            end
                        end) items in
        match items' with None => Ok None | Some items' => let! o := new_map cls items' in Ok (Some o) end
    | PEst cls params _ =>
        let! params' := (fix go l := match l with
                        | [] => Ok (Some [])
                        | (k, x) :: l' => let! x' := search_expr x in
                            match x' with
                            | None => Ok None
                            | Some x' => let! r := go l' in Ok (option_map (cons (k, x')) r)
                            end
                        end) params in
        match params' with None => Ok None | Some params' => let! o := new_est cls params' in Ok (Some o) end
    end.
  Definition needs_eval (o : pobj) : res bool :=
    let! r := search_expr o in Ok (match r with None => true | Some _ => false end).
  (** [needs_eval] of a tuple, whose items are looked at in turn *)
  Fixpoint any_needs_eval (l : list pobj) : res bool :=
    match l with
    | [] => Ok false
    | o :: l' => let! b := needs_eval o in if b then Ok true else any_needs_eval l'
    end.

  (** [_check_environment], lines 291-309, for a dict *)
  Definition check_environment (e : list (string * pobj)) : res unit :=
    let! b := any_needs_eval (map snd e) in if b then Err TypeError else Ok tt.

  (** *** Python: calling a function *)

  Definition bind_args (c : code) (defaults : list pobj) (kwdefaults : list (string * pobj))
    (args : list pobj) (kwargs : list (string * pobj)) : res (binding V) :=
    let n := length (co_params c) in
    if (n <? length args) && negb (co_varargs c) then Err TypeError
    else if existsb (fun k => mem k (firstn (length args) (co_params c))
                              || negb (mem k (co_params c) || mem k (co_kwonly c) || co_varkw c)) (dkeys kwargs)
    then Err TypeError
    else
      let! ps := mapM (fun p => match nth_error args (fst p) with
                                | Some v => Ok (snd p, v)
                                | None =>
                                    match dget (snd p) kwargs with
                                    | Some v => Ok (snd p, v)
                                    | None =>
                                        if fst p <? n - length defaults then Err TypeError
                                        else match nth_error defaults (fst p - (n - length defaults)) with
                                             | Some v => Ok (snd p, v)
                                             | None => Err TypeError
                                             end
                                    end
                                end) (combine (seq 0 n) (co_params c)) in
      let! ks := mapM (fun k => match dget k kwargs with
                                | Some v => Ok (k, v)
                                | None => match dget k kwdefaults with
                                          | Some v => Ok (k, v)
                                          | None => Err TypeError
                                          end
                                end) (co_kwonly c) in
      Ok (mk_binding (ps ++ ks) (skipn n args)
            (filter (fun kv => negb (mem (fst kv) (co_params c) || mem (fst kv) (co_kwonly c))) kwargs)).

  Definition with_self (f : func V) (args : list pobj) : list pobj :=
    match f_self f with Some o => o :: args | None => args end.
  (** [func( *args, **kwargs)] *)
  Definition call_func (m : memory V) (f : func V) (args : list pobj) (kwargs : list (string * pobj)) : res pobj :=
    let! b := bind_args (f_code f) (f_defaults f) (f_kwdefaults f) (with_self f args) kwargs in
    exec (f_code f) (m_globals m) (map (m_cells m) (f_cells f)) b.

  (** *** [deferred], lines 1326-1396 *)

  (** What a deferred function keeps for [Call]. *)
  Record deferred_func : Type := mk_deferred {
    d_func : callee V;
    d_globals : list (string * pobj); d_closure : list pobj;
    d_defaults : list pobj; d_kwdefaults : list (string * pobj)
  }.
  (** [{name: func.__globals__[name] for name in globals_names if ... needs_eval(...)}]; the
      functions, classes and modules left out never need evaluation *)
  Fixpoint needed_globals (m : memory V) (names : list string) (d : list (string * pobj))
    : res (list (string * pobj)) :=
    match names with
    | [] => Ok d
    | n :: names' =>
        match m_globals m n with
        | None => needed_globals m names' d
        | Some o => let! b := needs_eval o in
                    needed_globals m names' (if b then dset n o d else d)
        end
    end.
  (** [c.cell_contents] *)
  Definition cell_contents (m : memory V) (c : nat) : res pobj :=
    match m_cells m c with Some o => Ok o | None => Err ValueError end.

  Definition defer (m : memory V) (c : callee V) : res deferred_func :=
    match c with
    | Other _ => Ok (mk_deferred c [] [] [] [])
    | Function f =>
        let! gs := needed_globals m (co_loads (f_code f)) [] in
        let! closure := mapM (cell_contents m) (f_cells f) in
        let! b := match gs with
                  | [] => any_needs_eval (closure ++ f_defaults f ++ map snd (f_kwdefaults f))
                  | _ => Ok true
                  end in
        if b then Ok (mk_deferred c gs closure (f_defaults f) (f_kwdefaults f))
        else Ok (mk_deferred c [] [] [] [])
    end.
  (** [deferred(func)] when [func] may already be an expression or a deferred function, lines
      1328-1329 *)
  Inductive deferrable : Type := IsExpr (i : nat) | IsDeferred (d : deferred_func) | IsCallable (c : callee V).
  Definition deferred (m : memory V) (x : deferrable) : res deferrable :=
    match x with
    | IsExpr _ | IsDeferred _ => Ok x
    | IsCallable c => let! d := defer m c in Ok (IsDeferred d)
    end.

  (** *** [Call.compute], lines 1124-1136, once the fields are evaluated in the order of
      [_fields] *)
  Definition ev_items {A} (l : list (A * pobj)) : res (list (A * pobj)) :=
    mapM (fun kv => let! v := ev (snd kv) in Ok (fst kv, v)) l.
  (** [a | b] for dicts *)
  Fixpoint merge (a b : list (string * pobj)) : list (string * pobj) :=
    match b with
    | [] => a
    | (k, v) :: b' => merge (dset k v a) b'
    end.
  Definition override (g : string -> option pobj) (d : list (string * pobj)) : string -> option pobj :=
    fun n => match dget n d with Some o => Some o | None => g n end.
  Definition is_nil {A} (l : list A) : bool := match l with [] => true | _ => false end.

  Definition compute_call (m : memory V) (d : deferred_func) (args : list pobj)
    (kwargs : list (string * pobj)) : res pobj :=
    let! args := mapM ev args in
    let! kwargs := ev_items kwargs in
    let! gs := ev_items (d_globals d) in
    let! closure := mapM ev (d_closure d) in
    let! defaults := mapM ev (d_defaults d) in
    let! kwdefaults := ev_items (d_kwdefaults d) in
    let kwargs := merge kwdefaults kwargs in
    match d_func d with
    | Other n => call_other n args kwargs
    | Function f =>
        if negb (is_nil gs && is_nil closure && is_nil defaults) then
          (* types.FunctionType(func.__code__, ...) *)
          let! b := bind_args (f_code f) defaults [] args kwargs in
          exec (f_code f) (override (m_globals m) gs) (map Some closure) b
        else call_func m f args kwargs
    end.
End Deferred.
Arguments deferred_func V : clear implicits.
Arguments deferrable V : clear implicits.
