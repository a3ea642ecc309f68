(** The checks made when an expression is created, /repo/skrub/_expressions/_expressions.py
    lines 219-321, and [_FindArg] of /repo/skrub/_expressions/_evaluation.py lines 854-878. *)
From Verif Require Import Base M_traverse M_expr M_grid M_choicegraph.
Open Scope string_scope.
Open Scope list_scope.
Open Scope nat_scope.

Section Check.
  Context {V K F : Type} `{EqD K}.
  Variable ext : externals V K F.
  Variable hash_obj : oid -> res K.
  (** [sbd.is_dataframe(o)] and [o is None]. *)
  Variables is_dataframe is_none : V -> bool.
  Variable h : heap V K.

  (** [_FindArg], lines 854-868; [UserError 1] stands for [_Found]. *)
  Definition arg_handler (o : oid) : gen unit (option oid) :=
    match h o with
    | OExpr (IVar _) _ _ _ | OExpr (IValue _) _ _ _ => GRet tt
    | OValue v => if is_dataframe v then GPut (Some o) (GRaise (UserError 1)) else GRet tt
    | _ => yield_all (children (h o)) (fun _ => GRet tt)
    end.

  (** [find_arg], lines 871-876 *)
  Definition find_arg (size : nat) (root : oid) : res (option oid) :=
    match visit arg_handler size [] root None with
    | (Some o, TErr (UserError 1)) => Ok (Some o)
    | (_, r) => let! _ := to_res r in Ok None
    end.

  (** [checked_call], lines 250-276: [root] is the new expression. *)
  Definition check_expr (size : nat) (root : oid) (s : st V F) : st V F * res unit :=
    match find_conflicts h size root with
    | Err e => (s, Err e)
    | Ok (Some _) => (s, Err ValueError)
    | Ok None =>
      match find_arg size root with
      | Err e => (s, Err e)
      | Ok (Some _) => (s, Err TypeError)
      | Ok None =>
        match choice_graph hash_obj h size root with
        | Err e => (s, Err e)
        | Ok _ =>
          let (s', r) := evaluate ext h size root "preview" [] false s in
          (s', match r with
               | Ok _ => Ok tt
               | Err (UserError 2) => Ok tt        (* UninitializedVariable *)
               | Err _ => Err RuntimeError
               end)
        end
      end
    end.

  (** What a call returns: the expression or [None]. *)
  Inductive returned : Type := ReturnsExpr (o : oid) | ReturnsNone.

  (** [check_call_return_value], lines 305-319, around [check_expr]: calling an expression
      (line 437) or a deferred function (lines 1331, 1378). *)
  Definition call (size : nat) (root : oid) (s : st V F) : st V F * res returned :=
    match check_expr size root s with
    | (s', Err e) => (s', Err e)
    | (s', Ok _) =>
        (s', Ok (match results s' root "preview" with
                 | None => ReturnsExpr root
                 | Some v => if is_none v then ReturnsNone else ReturnsExpr root
                 end))
    end.
End Check.
