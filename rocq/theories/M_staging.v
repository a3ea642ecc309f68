(** Running Python code on expressions: _expressions/_expressions.py lines 36-114 (the lists of
    attributes and operators), 417-450 and 479-523 (what [Expr] does when it is used), 584-618
    (its operators).

    The code that the user runs on expressions, or on plain values, is a small language: names,
    literals, operators, indexing, attributes, calls with one argument, [and], [or], [not],
    [is None], [in], [len]; assignments, item assignments, [if], [while], [for]. Not modelled:
    functions and classes defined by the user (they can be inlined, and [skrub.deferred] has
    its own model, M_deferred.v), keyword arguments, [try], containers that hold expressions,
    aliasing of plain containers, and the previews, which can only make the construction raise
    (M_check.v): variables have no example value. *)
From Verif Require Import Base M_traverse M_expr M_clone M_check M_namespace.
Open Scope string_scope.
Open Scope list_scope.
Open Scope nat_scope.

Section Code.
  Variable V : Type.

  Inductive code : Type :=
  | Lit (v : V)
  | Local (x : string)
  | Bin (op : string) (a b : code)       (* a op b *)
  | Un (op : string) (a : code)          (* -a, +a, ~a, abs(a) *)
  | Item (a b : code)                    (* a[b] *)
  | Attr (a : code) (name : string)      (* a.name *)
  | CallC (f a : code)                   (* f(a) *)
  | And (a b : code)
  | Or (a b : code)
  | Not (a : code)
  | IsNone (a : code)                    (* a is None *)
  | Contains (a b : code)                (* b in a *)
  | Len (a : code).

  Inductive stmt : Type :=
  | Skip
  | Assign (x : string) (a : code)
  | SetItem (x : string) (k a : code)    (* x[k] = a *)
  | Seq (s1 s2 : stmt)
  | If (a : code) (s1 s2 : stmt)
  | While (a : code) (s : stmt)
  | For (x : string) (a : code) (s : stmt).

  (** What a name stands for while the pipeline is built: a plain value or an expression. *)
  Inductive bval : Type := BPlain (v : V) | BNode (o : oid).
End Code.
Arguments Lit {V}. Arguments Local {V}. Arguments Bin {V}. Arguments Un {V}. Arguments Item {V}.
Arguments Attr {V}. Arguments CallC {V}. Arguments And {V}. Arguments Or {V}. Arguments Not {V}.
Arguments IsNone {V}. Arguments Contains {V}. Arguments Len {V}.
Arguments Skip {V}. Arguments Assign {V}. Arguments SetItem {V}. Arguments Seq {V}.
Arguments If {V}. Arguments While {V}. Arguments For {V}.
Arguments BPlain {V}. Arguments BNode {V}.

(** [_EXCLUDED_STANDARD_ATTR], [_EXCLUDED_JUPYTER_ATTR], [_EXCLUDED_PANDAS_ATTR], lines 38-75,
    without the names that begin and end with two underscores. *)
Definition excluded_attrs : list string :=
  ["_partialmethod"; "_repr_pretty_"; "_repr_svg_"; "_repr_png_"; "_repr_jpeg_"; "_repr_javascript_";
   "_repr_markdown_"; "_repr_latex_"; "_repr_pdf_"; "_repr_json_"; "_ipython_display_"; "_repr_mimebundle_";
   "_ipython_canary_method_should_not_exist_"; "_typ"].

(** [name.startswith("__") and name.endswith("__")], line 429. *)
Fixpoint ends_with (suffix s : string) : bool :=
  eqb_of s suffix || match s with EmptyString => false | String _ s' => ends_with suffix s' end.
Definition special (name : string) : bool := String.prefix "__" name && ends_with "__" name.

(** [Expr.__getattr__], lines 417-431: which attributes are refused. *)
Definition refused_attr (name : string) : bool :=
  mem name ("_skrub_impl" :: "get_params" :: excluded_attrs) || special name.

(** [_UNARY_OPS], lines 105-114: those that an operator or a function of Python calls. *)
Definition un_ops : list string := ["abs"; "invert"; "neg"; "pos"].

Section Build.
  Context {V K : Type}.
  Notation heap := (heap V K).

  (** Python on plain values: operators, indexing, attributes, calls and so on; truth value;
      iteration; None; a Boolean; a string; the arguments of a call. *)
  Variable prim : string -> list (string * V) -> res V.
  Variable truth : V -> res bool.
  Variable iter : V -> res (list V).
  Variable is_none : V -> bool.
  Variable of_bool : bool -> V.
  Variable of_string : string -> V.
  Variable tuple1 : V -> V.
  Variable no_kwargs : V.
  (** What the operator of a plain left operand answers for an expression (M_namespace.v). *)
  Variable own : string -> oid -> oid -> option (res V).
  (** What a plain object answers when it is given an expression: a function called on it, a
      container indexed by it, searched for it or in which it is stored. *)
  Variable foreign : string -> V -> oid -> res V.

  Definition mem_st : Type := (heap * nat)%type.

  Definition add (ob : obj V K) (m : mem_st) : oid * mem_st :=
    (snd m, (extend (fst m) (snd m) [ob], S (snd m))).

  (** The object that a field of a node refers to. *)
  Definition stored (b : bval V) (m : mem_st) : oid * mem_st :=
    match b with
    | BPlain v => add (OValue v) m
    | BNode o => (o, m)
    end.

  (** [Expr(impl)], line 406; no name, no mark. *)
  Definition new_expr (i : impl) (m : mem_st) : bval V * mem_st :=
    let (o, m') := add (OExpr i None false false) m in (BNode o, m').

  (** [left op right]; at least one of them is an expression. *)
  Definition build_bin (op : string) (a b : bval V) (m : mem_st) : res (bval V * mem_st) :=
    match a, b with
    | BPlain va, BPlain vb => let! v := prim ("BinOp " ++ op) [("left", va); ("right", vb)] in Ok (BPlain v, m)
    | _, _ =>
        let (l, m1) := stored a m in
        let (r, m2) := stored b m1 in
        match binary own (fst m2) op l r with
        | Node i => Ok (new_expr i m2)
        | Other r => let! v := r in Ok (BPlain v, m2)
        end
    end.

  (** Lines 609-618; for the other names Python finds no method. *)
  Definition build_un (op : string) (a : bval V) (m : mem_st) : res (bval V * mem_st) :=
    match a with
    | BPlain v => let! w := prim ("UnaryOp " ++ op) [("operand", v)] in Ok (BPlain w, m)
    | BNode o => if mem op un_ops then Ok (new_expr (IOp ("UnaryOp " ++ op) [("operand", o)]) m) else Err TypeError
    end.

  (** [Expr.__getitem__], lines 433-435. *)
  Definition build_item (a b : bval V) (m : mem_st) : res (bval V * mem_st) :=
    match a, b with
    | BPlain va, BPlain vb => let! v := prim "GetItem" [("container", va); ("key", vb)] in Ok (BPlain v, m)
    | BPlain va, BNode k => let! v := foreign "GetItem" va k in Ok (BPlain v, m)
    | BNode o, _ => let (k, m1) := stored b m in Ok (new_expr (IOp "GetItem" [("container", o); ("key", k)]) m1)
    end.

  (** [Expr.__getattr__], lines 417-431. *)
  Definition build_attr (a : bval V) (name : string) (m : mem_st) : res (bval V * mem_st) :=
    match a with
    | BPlain v => let! w := prim "GetAttr" [("source_object", v); ("attr_name", of_string name)] in Ok (BPlain w, m)
    | BNode o =>
        if refused_attr name then Err AttributeError
        else let (n, m1) := add (OValue (of_string name)) m in
             Ok (new_expr (IOp "GetAttr" [("source_object", o); ("attr_name", n)]) m1)
    end.

  (** [Expr.__call__], lines 437-446; the arguments are a tuple and an empty dict. *)
  Definition build_call (f a : bval V) (m : mem_st) : res (bval V * mem_st) :=
    match f, a with
    | BPlain vf, BPlain va =>
        let! v := prim "Call" [("func", vf); ("args", tuple1 va); ("kwargs", no_kwargs)] in Ok (BPlain v, m)
    | BPlain vf, BNode o => let! v := foreign "Call" vf o in Ok (BPlain v, m)
    | BNode o, _ =>
        let (x, m1) := stored a m in
        let (args, m2) := add (OSeq "tuple" [x]) m1 in
        let (kwargs, m3) := add (OMap "dict" []) m2 in
        Ok (new_expr (call_node (fst m3) o args kwargs) m3)
    end.

  (** [bool(a)]; [Expr.__bool__], lines 504-509. *)
  Definition build_truth (a : bval V) : res bool :=
    match a with
    | BPlain v => truth v
    | BNode _ => Err TypeError
    end.

  (** [iter(a)]; [Expr.__iter__], lines 511-516. *)
  Definition build_iter (a : bval V) : res (list V) :=
    match a with
    | BPlain v => iter v
    | BNode _ => Err TypeError
    end.

  (** [b in a]; [Expr.__contains__], lines 518-523. *)
  Definition build_contains (a b : bval V) (m : mem_st) : res (bval V * mem_st) :=
    match a, b with
    | BPlain va, BPlain vb => let! v := prim "contains" [("container", va); ("item", vb)] in Ok (BPlain v, m)
    | BPlain va, BNode o => let! v := foreign "contains" va o in Ok (BPlain v, m)
    | BNode _, _ => Err TypeError
    end.

  (** [len(a)]; [Expr.__len__], lines 447-449, returns an expression, which [len] refuses. *)
  Definition build_len (a : bval V) (m : mem_st) : res (bval V * mem_st) :=
    match a with
    | BPlain v => let! w := prim "len" [("operand", v)] in Ok (BPlain w, m)
    | BNode _ => Err TypeError
    end.

  (** [a is None]: no method is called; an expression is not None. *)
  Definition build_is_none (a : bval V) : bool :=
    match a with
    | BPlain v => is_none v
    | BNode _ => false
    end.

  Fixpoint build (L : list (string * bval V)) (c : code V) (m : mem_st) : res (bval V * mem_st) :=
    match c with
    | Lit v => Ok (BPlain v, m)
    | Local x => match dget x L with Some b => Ok (b, m) | None => Err UnboundLocalError end
    | Bin op a b => let! (va, m1) := build L a m in let! (vb, m2) := build L b m1 in build_bin op va vb m2
    | Un op a => let! (va, m1) := build L a m in build_un op va m1
    | Item a b => let! (va, m1) := build L a m in let! (vb, m2) := build L b m1 in build_item va vb m2
    | Attr a name => let! (va, m1) := build L a m in build_attr va name m1
    | CallC f a => let! (vf, m1) := build L f m in let! (va, m2) := build L a m1 in build_call vf va m2
    | And a b =>
        let! (va, m1) := build L a m in
        let! t := build_truth va in if t then build L b m1 else Ok (va, m1)
    | Or a b =>
        let! (va, m1) := build L a m in
        let! t := build_truth va in if t then Ok (va, m1) else build L b m1
    | Not a => let! (va, m1) := build L a m in let! t := build_truth va in Ok (BPlain (of_bool (negb t)), m1)
    | IsNone a => let! (va, m1) := build L a m in Ok (BPlain (of_bool (build_is_none va)), m1)
    | Contains a b => let! (vb, m1) := build L b m in let! (va, m2) := build L a m1 in build_contains va vb m2
    | Len a => let! (va, m1) := build L a m in build_len va m1
    end.

  (** [x[k] = v]; [Expr.__setitem__], lines 479-492. The new content of [x]. *)
  Definition build_setitem (a k v : bval V) : res (bval V) :=
    match a, k, v with
    | BNode _, _, _ => Err TypeError
    | BPlain va, BPlain vk, BPlain vv =>
        let! w := prim "setitem" [("container", va); ("key", vk); ("value", vv)] in Ok (BPlain w)
    | BPlain va, BNode o, _ | BPlain va, _, BNode o => let! w := foreign "setitem" va o in Ok (BPlain w)
    end.

  Definition bstate : Type := (list (string * bval V) * mem_st)%type.

  (** [while]; None: it has not finished after [k] turns. *)
  Definition build_while (test : bstate -> res (bool * mem_st)) (body : bstate -> option (res bstate))
    : nat -> bstate -> option (res bstate) :=
    fix loop (k : nat) (b : bstate) : option (res bstate) :=
      match k with
      | 0 => None
      | S k' =>
          match test b with
          | Ok (true, m) =>
              match body (fst b, m) with
              | Some (Ok b') => loop k' b'
              | r => r
              end
          | Ok (false, m) => Some (Ok (fst b, m))
          | Err ex => Some (Err ex)
          end
      end.

  (** [for]: the body for each of the values. *)
  Definition build_for (x : string) (body : bstate -> option (res bstate))
    : list V -> bstate -> option (res bstate) :=
    fix each (l : list V) (b : bstate) : option (res bstate) :=
      match l with
      | [] => Some (Ok b)
      | v :: l' =>
          match body (dset x (BPlain v) (fst b), snd b) with
          | Some (Ok b') => each l' b'
          | r => r
          end
      end.

  Definition build_test (a : code V) (b : bstate) : res (bool * mem_st) :=
    let! (v, m) := build (fst b) a (snd b) in let! t := build_truth v in Ok (t, m).

  (** A statement; None: it has not finished after [n] turns of a loop. *)
  Fixpoint build_run (n : nat) (s : stmt V) (b : bstate) : option (res bstate) :=
    match s with
    | Skip => Some (Ok b)
    | Assign x a => Some (let! (v, m) := build (fst b) a (snd b) in Ok (dset x v (fst b), m))
    | SetItem x k a =>
        Some (let! (v, m1) := build (fst b) a (snd b) in
              match dget x (fst b) with
              | Some vx =>
                  let! (vk, m2) := build (fst b) k m1 in
                  let! w := build_setitem vx vk v in Ok (dset x w (fst b), m2)
              | None => Err UnboundLocalError
              end)
    | Seq s1 s2 =>
        match build_run n s1 b with
        | Some (Ok b') => build_run n s2 b'
        | r => r
        end
    | If a s1 s2 =>
        match build_test a b with
        | Ok (t, m) => build_run n (if t then s1 else s2) (fst b, m)
        | Err ex => Some (Err ex)
        end
    | While a s1 => build_while (build_test a) (build_run n s1) n b
    | For x a s1 =>
        match (let! (v, m) := build (fst b) a (snd b) in let! l := build_iter v in Ok (l, m)) with
        | Ok (l, m) => build_for x (build_run n s1) l (fst b, m)
        | Err ex => Some (Err ex)
        end
    end.
End Build.
