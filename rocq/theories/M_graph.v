(** Showing the steps of an expression: /repo/skrub/_expressions/_evaluation.py lines 384-407
    ([_Printer], [describe_steps]), 450-497 ([_unique], [_simplify_graph], [_Graph], [graph]),
    and /repo/skrub/_expressions/_inspection.py lines 255-345 ([_node_kwargs], [_dot_id],
    [draw_expr_graph]). *)
From Verif Require Import Base M_str M_traverse M_expr M_choicegraph.
Open Scope string_scope.
Open Scope list_scope.
Open Scope nat_scope.

Section Show.
  Context {V K : Type} `{EqD K}.
  Variable h : heap V K.

  (** *** [graph], lines 454-493 *)

  (** [short\[k\]: \[short\[c\] for c in _unique(v)\]], lines 457-462 *)
  Definition short_dict (ns : list oid) (d : dict oid (list oid)) : res (dict nat (list nat)) :=
    mapM (fun kl : oid * list oid =>
            let! k := index_of (fst kl) ns in
            let! l := mapM (fun c => index_of c ns) (unique (snd kl)) in
            Ok (k, l)) d.

  Record sgraph : Type := mk_sgraph {
    sg_nodes : dict nat oid;
    sg_children : dict nat (list nat);
    sg_parents : dict nat (list nat)
  }.

  (** [_simplify_graph] (lines 454-463) of the result of [_Graph.run] (lines 467-478) *)
  Definition graph (size : nat) (root : oid) : res sgraph :=
    let (s, r) := run_graph h size root in
    let! _ := to_res r in
    let ns := g_nodes s in
    let! ch := short_dict ns (g_children s) in
    let! pa := short_dict ns (g_parents s) in
    Ok (mk_sgraph (combine (seq 0 (length ns)) ns) ch pa).

  (** *** [_Printer], lines 384-403. The traversal rebuilds containers and estimators on the
      way (lines 125-176); this is assumed to succeed. *)
  Record pr_st : Type := mk_pr {
    pr_seen : list oid;               (* self._seen *)
    pr_lines : list (oid * bool);     (* self._lines: the step, and whether it is in brackets *)
    pr_cached : bool                  (* self._cache_used *)
  }.
  Definition print_handler (o : oid) : gen unit pr_st :=
    match h o with
    | OExpr _ _ _ _ =>
        yield_all (children (h o)) (fun _ =>
          GGet (fun s =>
            let is_seen := mem o (pr_seen s) in
            GPut (mk_pr (if is_seen then pr_seen s else pr_seen s ++ [o])
                    (pr_lines s ++ [(o, is_seen)])
                    (if is_seen then true else pr_cached s))
              (GRet tt)))
    | _ => yield_all (children (h o)) (fun _ => GRet tt)
    end.

  (** [simple_repr(expr)], _utils.py lines 25-28 *)
  Variable simple_repr : oid -> string.

  (** The lines of [describe_steps(expr)], lines 385-392, 394-403; they are joined with
      newlines. *)
  Definition describe_lines (size : nat) (root : oid) : res (list string) :=
    let (s, r) := visit print_handler size [] root (mk_pr [] [] false) in
    let! _ := to_res r in
    Ok (map (fun l : oid * bool => if snd l then ("( " ++ simple_repr (fst l) ++ " )*")%string
                                   else simple_repr (fst l)) (pr_lines s)
        ++ if pr_cached s then ["* Cached, not recomputed"] else []).

  (** *** Drawings, _inspection.py *)

  (** [_dot_id], lines 300-301 *)
  Definition dot_id (n : nat) : string := ("node_" ++ str_nat n)%string.

  (** [draw_expr_graph], lines 323-345: the identifiers of the boxes with the step they show,
      and the arrows. *)
  Definition draw (size : nat) (root : oid)
    : res (list (string * oid) * list (string * string)) :=
    let! g := graph size root in
    Ok (map (fun n : nat * oid => (dot_id (fst n), snd n)) (sg_nodes g),
        flat_map (fun c : nat * list nat =>
                    map (fun ch => (dot_id ch, dot_id (fst c))) (snd c)) (sg_children g)).
End Show.

(** *** Labels, _inspection.py lines 255-297 *)

(** [html.escape] *)
Definition escape_char (c : ascii) : string :=
  if eqb_of c "&"%char then "&amp;"
  else if eqb_of c "<"%char then "&lt;"
  else if eqb_of c ">"%char then "&gt;"
  else if eqb_of c """"%char then "&quot;"
  else if eqb_of c "'"%char then "&#x27;"
  else String c "".
Fixpoint escape (s : string) : string :=
  match s with
  | "" => ""
  | String c s' => (escape_char c ++ escape s')%string
  end.

Definition newline : ascii := ascii_of_nat 10.
(** [label.replace("\n", "<br />")], line 283 *)
Fixpoint with_br (s : string) : string :=
  match s with
  | "" => ""
  | String c s' => if eqb_of c newline then ("<br />" ++ with_br s')%string else String c (with_br s')
  end.

(** The label of a step, lines 256-285: [repr] is [simple_repr(expr)], [name] is the repr of its
    name unless it has none or is a variable, [url] says if it has a link. *)
Definition node_label (repr : string) (name : option string) (is_X is_y url : bool) : string :=
  let label := escape repr in
  let label := match name with
               | Some n => (label ++ String newline n)%string
               | None => label
               end in
  let label := if is_X then ("X: " ++ label)%string
               else if is_y then ("y: " ++ label)%string
               else label in
  if url then ("<<FONT COLOR=""#1a0dab""><B>" ++ with_br label ++ "</B></FONT>>")%string
  else label.
