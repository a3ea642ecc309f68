(** The [.skb] attribute of expressions, /repo/skrub/_expressions/_skrub_namespace.py, and
    the operators of expressions, /repo/skrub/_expressions/_expressions.py. *)
From Verif Require Import Base M_traverse M_expr M_grid M_choicegraph M_clone M_check.
Open Scope string_scope.
Open Scope list_scope.
Open Scope nat_scope.

Section Namespace.
  Context {V K F : Type} `{EqD K}.
  Variable ext : externals V K F.

  (** An object of the heap as a Python value, and the values True and False. *)
  Variable raw : oid -> V.
  Variable of_bool : bool -> V.

  (** [SkrubNamespace.get_data], lines 784-809. *)
  Definition add_value (h : heap V K) (data : env V) (n : oid) : env V :=
    match h n with
    | OExpr (IVar (Some v)) (Some name) _ _ => dset name (raw v) data
    | _ => data
    end.
  Definition get_data (h : heap V K) (size : nat) (root : oid) : res (env V) :=
    let! all_nodes := nodes h size root in
    Ok (fold_left (add_value h) all_nodes []).

  (** [_var_values_provided], lines 37-43. *)
  Definition var_names (h : heap V K) (all_nodes : list oid) : list string :=
    flat_map (fun n => match h n with
                       | OExpr (IVar _) (Some name) _ _ => [name]
                       | _ => []
                       end) all_nodes.
  Definition var_values_provided (h : heap V K) (size : nat) (root : oid) (e : env V) : res bool :=
    let! all_nodes := nodes h size root in
    Ok (existsb (fun n => mem n (dkeys e)) (var_names h all_nodes)).

  (** [SkrubNamespace.eval], lines 675-733, for None or a dictionary. *)
  Definition eval (h : heap V K) (size : nat) (root : oid) (environment : option (env V))
    (s : st V F) : st V F * res evaluated :=
    match environment with
    | None => evaluate ext h size root "preview" [] false s
    | Some e =>
        match var_values_provided h size root e with
        | Err ex => (s, Err ex)
        | Ok b =>
            evaluate ext h size root "fit_transform"
              (dset "_skrub_use_var_values" (of_bool (negb b)) e) true s
        end
    end.

  (** The evaluation made by [SkrubNamespace.full_report], lines 1033-1048 (how the report is
      written is not modelled here). *)
  Definition report_value (h : heap V K) (size : nat) (root : oid) (environment : option (env V))
    (s : st V F) : st V F * res evaluated :=
    match environment with
    | None => evaluate ext h size root "preview" [] false s
    | Some e => evaluate ext h size root "fit_transform" e true s
    end.

  (** *** Names, descriptions and marks, lines 1402-1654. Descriptions are not in the model of
      the nodes. *)
  Inductive change : Type := Rename (name : option string) | Describe | MarkX | MarkY.

  (** [check_name], _expressions.py lines 654-669, for a string or None. *)
  Definition check_name (name : option string) (of_var : bool) : res unit :=
    match name with
    | None => if of_var then Err TypeError else Ok tt
    | Some n => if String.prefix "_skrub_" n then Err ValueError else Ok tt
    end.

  Definition changed (c : change) (ob : obj V K) : res (obj V K) :=
    match ob with
    | OExpr i name x y =>
        match c with
        | Rename n => let! _ := check_name n (is_var i) in Ok (OExpr i n x y)
        | Describe => Ok (OExpr i name x y)
        | MarkX => Ok (OExpr i name true y)
        | MarkY => Ok (OExpr i name x true)
        end
    | _ => Err AttributeError
    end.

  (** [ExprImpl.__copy__], _expressions.py lines 179-193: a new object with the same fields,
      to which the results and errors are copied. *)
  Definition copy_attributes (s : st V F) (o new : oid) : st V F :=
    mk_st (upd (results s) new (results s o)) (upd (errors s) new (errors s o))
      (upd (fitted s) new None) (trace s).

  Variable hash_obj : oid -> res K.
  Variable is_dataframe : V -> bool.

  (** The memory and the new expression, which is the object [size]. All but [set_description]
      are wrapped in [check_expr]. *)
  Definition modify (h : heap V K) (size : nat) (o : oid) (c : change) (s : st V F)
    : st V F * res (heap V K) :=
    match changed c (h o) with
    | Err ex => (s, Err ex)
    | Ok ob =>
        let h' := extend h size [ob] in
        let s1 := copy_attributes s o size in
        match c with
        | Describe => (s1, Ok h')
        | _ =>
            let (s2, r) := check_expr ext hash_obj is_dataframe h' (S size) size s1 in
            (s2, let! _ := r in Ok h')
        end
    end.

  (** [SkrubNamespace.applied_estimator], lines 1668-1740. *)
  Definition applied_estimator (h : heap V K) (size : nat) (o : oid) (s : st V F)
    : st V F * res (heap V K) :=
    match h o with
    | OExpr (IApply _ _ _ _ _ _ _) _ _ _ =>
        let h' := extend h size [OExpr (IApplied o) None false false] in
        let (s', r) := check_expr ext hash_obj is_dataframe h' (S size) size s in
        (s', let! _ := r in Ok h')
    | _ => (s, Err AttributeError)
    end.

  (** *** Calls, [Expr.__call__], _expressions.py lines 436-444, without the other fields of
      [Call], which are empty. *)
  Definition call_node (h : heap V K) (o args kwargs : oid) : impl :=
    match h o with
    | OExpr (IOp op fs) _ _ _ =>
        match eqb_of op "GetAttr", dget "source_object" fs, dget "attr_name" fs with
        | true, Some src, Some name =>
            IOp "CallMethod" [("obj", src); ("method_name", name); ("args", args); ("kwargs", kwargs)]
        | _, _, _ => IOp "Call" [("func", o); ("args", args); ("kwargs", kwargs)]
        end
    | _ => IOp "Call" [("func", o); ("args", args); ("kwargs", kwargs)]
    end.

  (** *** Operators *)

  (** [_BIN_OPS], lines 80-102, without the names that no operator of Python calls
      ("__concat__"), without the underscores. *)
  Definition bin_ops : list string :=
    ["add"; "and"; "eq"; "floordiv"; "ge"; "gt"; "le"; "lshift"; "lt"; "matmul"; "mod"; "mul";
     "ne"; "pow"; "rshift"; "sub"; "truediv"; "xor"; "or"].
  (** The comparison that Python tries on the right operand. *)
  Definition swapped (op : string) : option string :=
    dget op [("lt", "gt"); ("gt", "lt"); ("le", "ge"); ("ge", "le"); ("eq", "eq"); ("ne", "ne")].

  (** [BinOp], lines 1441-1451: the operator is the name of the node. *)
  Definition bin_op (op : string) (left right : oid) : impl :=
    IOp ("BinOp " ++ op) [("left", left); ("right", right)].

  (** What the operator of the left operand, which is not an expression, answers for an
      expression; None: [NotImplemented]. *)
  Variable own : string -> oid -> oid -> option (res V).

  (** [left op right] gives a node or another object. *)
  Inductive built : Type := Node (i : impl) | Other (v : res V).

  (** Python tries the method of the left operand (lines 584-593 for an expression) and then,
      for arithmetic, the reflected method of the right operand (lines 596-606), for a
      comparison, the swapped comparison. At least one operand is an expression. *)
  Definition binary (h : heap V K) (op : string) (left right : oid) : built :=
    if mem op bin_ops then
      if is_expr (h left) then Node (bin_op op left right)
      else match own op left right with
           | Some r => Other r
           | None =>
               match swapped op with
               | Some op' => Node (bin_op op' right left)
               | None => Node (bin_op op left right)
               end
           end
    else Other (Err TypeError).
End Namespace.
