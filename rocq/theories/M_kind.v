(** The kind of estimator that a pipeline tells scikit-learn it is, and its classes,
    /repo/skrub/_expressions/_estimator.py lines 341-383 ([_get_classes], [_XyEstimatorMixin])
    and 798-807 ([_XyParamSearch.classes_]), with [get_default] of _choosing.py lines 372-395 and
    [Expr.__getattr__] of _expressions.py lines 416-431. *)
From Verif Require Import Base M_traverse M_expr M_grid M_choicegraph M_clone M_check M_estimator.
Open Scope string_scope.
Open Scope list_scope.
Open Scope nat_scope.

Section Kind.
  Context {V K F : Type} `{EqD K}.
  Variable ext : externals V K F.
  Variable hash_obj : oid -> res K.
  Variable is_dataframe : V -> bool.
  (** The attribute [_estimator_type] of the estimators of a class and of other values (None, a
      string such as "passthrough", an estimator held as a plain value), if they have it. *)
  Variable kind_of_class : string -> option string.
  Variable kind_of_value : V -> option string.
  (** The attribute [classes_] of a fitted estimator, if it has it. *)
  Variable classes_of : F -> option V.
  (** A string as a Python object. *)
  Variable str : string -> V.
  Variable h : heap V K.
  Variable size : nat.

  (** What [get_default] returns: an object of the expression or the default of a numeric
      choice. *)
  Inductive got : Type := GObj (o : oid) | GNum (v : V).

  (** [BaseChoice.default], _choosing.py lines 155-157, 534-543 and 580-581; an object that is not a choice
      is returned as it is. *)
  Definition default_of (o : oid) : res got :=
    match h o with
    | OChoice _ outcomes _ => let! t := nth_outcome h outcomes 0 in Ok (GObj t)
    | ONumChoice _ default _ => Ok (GNum default)
    | _ => Ok (GObj o)
    end.
  Definition got_key (g : got) : res K :=
    match g with GObj o => hash_obj o | GNum v => key_of ext v end.
  (** [get_default]; the choice of a Match is a choice, so the recursive call is [default_of]. *)
  Definition get_default (o : oid) : res got :=
    match h o with
    | OChoiceMatch c mapping =>
        let! g := default_of c in
        let! key := got_key g in
        let! t := map_lookup h mapping key in
        match t with Some t => Ok (GObj t) | None => Err KeyError end
    | _ => default_of o
    end.

  (** [Expr.__getattr__] for a name that is not excluded: the memory in which the new expression
      is the object [S size]. *)
  Definition with_attr (o : oid) (name : string) : heap V K :=
    extend (extend h size [OValue (str name)]) (S size)
      [OExpr (IOp "GetAttr" [("source_object", o); ("attr_name", size)]) None false false].
  (** [ExprImpl.__init_subclass__] and [__init__], _expressions.py lines 154-176: a new node has no
      results and no errors. *)
  Definition new_node (s : st V F) (o : oid) : st V F :=
    mk_st (upd (results s) o (fun _ => None)) (upd (errors s) o (fun _ => None)) (fitted s) (trace s).
  Definition getattr_expr (o : oid) (name : string) (s : st V F) : st V F * res unit :=
    check_expr ext hash_obj is_dataframe (with_attr o name) (S (S size)) (S size) (new_node s (S size)).

  (** What is found under [_estimator_type]: a string, or an expression. *)
  Inductive kind : Type := KindIs (k : string) | KindExpr.
  Definition or_transformer (k : option string) : kind :=
    match k with Some k => KindIs k | None => KindIs "transformer" end.

  (** [_XyEstimatorMixin._estimator_type], lines 359-367. *)
  Definition estimator_type (root : oid) (s : st V F) : st V F * res kind :=
    match find_first_apply h size root with
    | Err ex => (s, Err ex)
    | Ok None => (s, Ok (KindIs "transformer"))
    | Ok (Some a) =>
        match h a with
        | OExpr (IApply _ e _ _ _ _ _) _ _ _ =>
            match get_default e with
            | Err AttributeError => (s, Ok (KindIs "transformer"))
            | Err ex => (s, Err ex)
            | Ok (GNum v) => (s, Ok (or_transformer (kind_of_value v)))
            | Ok (GObj t) =>
                match h t with
                | OEstimator cls _ => (s, Ok (or_transformer (kind_of_class cls)))
                | OValue v => (s, Ok (or_transformer (kind_of_value v)))
                | OExpr _ _ _ _ =>
                    let (s', r) := getattr_expr t "_estimator_type" s in
                    (s', let! _ := r in Ok KindExpr)
                (* choices, matches, lists and dictionaries do not have the attribute *)
                | _ => (s, Ok (KindIs "transformer"))
                end
            end
        | _ => (s, Err TypeError) (* not reached: [find_first_apply] gives apply steps *)
        end
    end.

  (** [_get_classes], lines 341-349, given an expression: [expr.expr] is an attribute of the
      expression, so it builds a new expression, in which the first apply step is sought.
      The handlers that turn an AttributeError into an AttributeError (lines 380-383) change
      nothing. *)
  Definition get_classes (root : oid) (s : st V F) : st V F * res V :=
    match getattr_expr root "expr" s with
    | (s', Err ex) => (s', Err ex)
    | (s', Ok _) =>
        (s', let! first := find_first_apply (with_attr root "expr") (S (S size)) (S size) in
             match first with
             | None => Err AttributeError
             | Some a =>
                 match fitted_with (fitted s' a) with
                 | None => Err AttributeError
                 | Some f => match classes_of f with Some c => Ok c | None => Err AttributeError end
                 end
             end)
    end.

  (** [_XyParamSearch.classes_], lines 798-807, for the expression of the best estimator if there is one. *)
  Definition search_classes (best : option oid) (s : st V F) : st V F * res V :=
    match best with
    | None => (s, Err AttributeError)
    | Some root => get_classes root s
    end.

  (** Asking for the classes [n] times. *)
  Fixpoint after_asking (n : nat) (root : oid) (s : st V F) : st V F :=
    match n with 0 => s | S n' => after_asking n' root (fst (get_classes root s)) end.
End Kind.
