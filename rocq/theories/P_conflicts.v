(** Property C37: conflicts between the names of nodes and choices, or between nodes marked
    as X or y. *)
From Verif Require Import Base L_dict M_traverse M_expr L_expr1 L_expr5 L_expr7 M_grid M_choicegraph L_conflicts.
Open Scope string_scope.
Open Scope list_scope.
Open Scope nat_scope.

(** Conflicts are found if and only if there are some. *)
Theorem C37_conflicts_found : forall {V K} (h : heap V K) size root,
  closed h size -> root < size -> acyclic h root ->
  exists c, find_conflicts h size root = Ok c /\ (c = None <-> no_conflict h root).
Proof. exact @conflicts_found. Qed.
Print Assumptions C37_conflicts_found.

(** What is reported is a conflict; when nothing is reported there is none; the only error
    is for expressions that contain themselves. *)
Theorem C37_reported_conflicts : forall {V K} (h : heap V K) size root,
  closed h size -> root < size ->
  match find_conflicts h size root with
  | Ok None => no_conflict h root
  | Ok (Some (r, (a, b))) => part_of h root a /\ part_of h root b /\ a <> b /\
      carries h a (label_of r) /\ carries h b (label_of r)
  | Err e => e = ValueError /\ exists x, part_of h root x /\ on_cycle h x
  end.
Proof. exact @find_conflicts_spec. Qed.
Print Assumptions C37_reported_conflicts.

(** In an accepted expression, the node found as X (or y) is the one marked. *)
Theorem C37_marked_node_found : forall {V K} (h : heap V K) size root n,
  closed h size -> root < size -> acyclic h root -> no_conflict h root -> part_of h root n ->
  (carries h n IsX -> find_X h size root = Ok (Some n)) /\
  (carries h n IsY -> find_y h size root = Ok (Some n)).
Proof. exact @marked_found. Qed.
Print Assumptions C37_marked_node_found.

(** The sum of two nodes with the same name, one of which is used twice; and the same with
    distinct names, where one is marked as X. *)
Definition exn_heap (name1 name2 : string) (x1 x2 : bool) : heap nat nat := fun o =>
  match o with
  | 0 => OExpr (IOp "add" [("a", 1); ("b", 2); ("c", 1)]) None false false
  | 1 => OExpr (IVar (Some 3)) (Some name1) x1 false
  | 2 => OExpr (IOp "add" [("a", 4)]) (Some name2) x2 true
  | 4 => OChoice (Some "c") 5 None
  | 5 => OSeq "list" [3; 1]
  | _ => OValue 1
  end.
Example C37_example :
  find_conflicts (exn_heap "a" "a" false false) 6 0 = Ok (Some (SameName "a", (1, 2))) /\
  find_conflicts (exn_heap "a" "c" false false) 6 0 = Ok (Some (SameName "c", (2, 4))) /\
  find_conflicts (exn_heap "a" "b" true true) 6 0 = Ok (Some (BothX, (1, 2))) /\
  find_conflicts (exn_heap "a" "b" true false) 6 0 = Ok None /\
  find_X (exn_heap "a" "b" true false) 6 0 = Ok (Some 1) /\
  find_y (exn_heap "a" "b" true false) 6 0 = Ok (Some 2) /\
  closed (exn_heap "a" "b" true false) 6 /\ acyclic (exn_heap "a" "b" true false) 0.
Proof.
  repeat split; try (vm_compute; reflexivity); try (apply closed_by_check; vm_compute; reflexivity).
  eapply (acyclic_by_nodes _ 6); [apply closed_by_check; vm_compute; reflexivity|lia|vm_compute; reflexivity].
Qed.
