(** C109: the graph of an expression shows each step and each link once.
    C110: the list of steps names each step after those it uses.
    C111: inspecting an expression takes time proportional to its size.
    C112: labels in drawings show the names of steps. *)
From Verif Require Import Base M_str M_traverse L_traverse M_expr L_expr1 L_expr5
  M_choicegraph M_graph L_graph L_graph2 L_graph3 L_graph4.
Open Scope string_scope.
Open Scope list_scope.
Open Scope nat_scope.

(** ** C109 *)

(** The graph has exactly the steps of the expression, numbered from 0; [children] links each
    step to exactly the steps it uses, each once; [parents] is the converse; inputs have lower
    numbers. *)
Theorem C109_graph {V K} (h : heap V K) size root :
  closed h size -> root < size -> acyclic h root ->
  exists g ns, graph h size root = Ok g /\
    NoDup ns /\ (forall x, In x ns <-> part_of h root x /\ is_expr_at h x) /\
    sg_nodes g = combine (seq 0 (length ns)) ns /\
    NoDup (dkeys (sg_children g)) /\ NoDup (dkeys (sg_parents g)) /\
    (forall k l, In (k, l) (sg_children g) \/ In (k, l) (sg_parents g) ->
       k < length ns /\ l <> [] /\ NoDup l /\ forall j, In j l -> j < length ns) /\
    (forall i j a b, nth_error ns i = Some a -> nth_error ns j = Some b ->
       (In j (lookup i (sg_children g)) <-> uses h a b) /\
       (In i (lookup j (sg_parents g)) <-> uses h a b) /\
       (part_of h a b -> a <> b -> j < i)).
Proof. exact (graph_exact h size root). Qed.
Print Assumptions C109_graph.

(** The drawing has one box per step, with distinct identifiers, and exactly one arrow from
    each step to each step that uses it. *)
Theorem C109_drawing {V K} (h : heap V K) size root :
  closed h size -> root < size -> acyclic h root ->
  exists boxes arrows, draw h size root = Ok (boxes, arrows) /\
    NoDup (map fst boxes) /\ NoDup (map snd boxes) /\ NoDup arrows /\
    (forall x, In x (map snd boxes) <-> part_of h root x /\ is_expr_at h x) /\
    (forall u v, In (u, v) arrows <->
       exists a b, In (u, a) boxes /\ In (v, b) boxes /\ uses h b a).
Proof. exact (draw_exact h size root). Qed.
Print Assumptions C109_drawing.

(** [x.assign(a=x + 1)]: 0 is [x], 1 is the number, 2 is [x + 1], 3 the dict of arguments. *)
Definition gx (o : oid) : obj nat string :=
  match o with
  | 0 => OExpr (IVar None) (Some "x") false false
  | 1 => OValue 1
  | 2 => OExpr (IOp "+" [("left", 0); ("right", 1)]) None false false
  | 3 => OMap "dict" [("a", 2)]
  | 4 => OExpr (IOp "assign" [("obj", 0); ("kwargs", 3)]) None false false
  | _ => OValue 0
  end.
Lemma gx_closed : closed gx 5.
Proof.
  intros o c Ho Hc. destruct o as [|[|[|[|[|o]]]]]; simpl in Hc; unfold oid in *; lia.
Qed.
Lemma gx_wf o : well_founded_at gx o.
Proof.
  assert (H0 : well_founded_at gx 0) by (constructor; intros c []).
  assert (H1 : well_founded_at gx 1) by (constructor; intros c []).
  assert (H2 : well_founded_at gx 2) by (constructor; intros c [<-|[<-|[]]]; assumption).
  assert (H3 : well_founded_at gx 3) by (constructor; intros c [<-|[]]; assumption).
  destruct o as [|[|[|[|[|o]]]]]; try assumption.
  - constructor; intros c [<-|[<-|[]]]; assumption.
  - constructor. intros c [].
Qed.
Lemma gx_acyclic : acyclic gx 4.
Proof. intros x Hx. eapply wf_no_cycle; [apply gx_wf|exact Hx]. Qed.
Example ex_C109 :
  (closed gx 5 /\ 4 < 5 /\ acyclic gx 4) /\
  graph gx 5 4 = Ok (mk_sgraph [(0, 0); (1, 2); (2, 4)] [(2, [0; 1]); (1, [0])] [(0, [2; 1]); (1, [2])]) /\
  draw gx 5 4 = Ok ([("node_0", 0); ("node_1", 2); ("node_2", 4)],
                    [("node_0", "node_2"); ("node_1", "node_2"); ("node_0", "node_1")]).
Proof.
  split; [split; [exact gx_closed|split; [lia|exact gx_acyclic]]|]. split; reflexivity.
Qed.

(** ** C110 *)

(** Every step has a line, after the lines of the steps it uses; a line is in brackets exactly
    if the step was listed before; the footnote is there exactly if some line is in brackets. *)
Theorem C110_steps_listed {V K} (h : heap V K) simple_repr size root :
  closed h size -> root < size -> acyclic h root ->
  exists steps lines, describe_lines h simple_repr size root = Ok lines /\
    (forall x, In x steps <-> part_of h root x /\ is_expr_at h x) /\
    inputs_first h steps /\
    (forall i o, nth_error steps i = Some o ->
       nth_error lines i = Some (if mem o (firstn i steps) then ("( " ++ simple_repr o ++ " )*")%string
                                 else simple_repr o)) /\
    (NoDup steps -> length lines = length steps) /\
    (~ NoDup steps -> length lines = S (length steps) /\
       nth_error lines (length steps) = Some "* Cached, not recomputed") /\
    (forall l, unfolds h root l -> length steps = count h l).
Proof. exact (describe_exact h simple_repr size root). Qed.
Print Assumptions C110_steps_listed.

Definition gx_repr (o : oid) : string :=
  match o with 0 => "VAR 'x'" | 2 => "BINOP: add" | _ => "CALLMETHOD 'assign'" end.
Example ex_C110 : describe_lines gx gx_repr 5 4
  = Ok ["VAR 'x'"; "( VAR 'x' )*"; "BINOP: add"; "CALLMETHOD 'assign'"; "* Cached, not recomputed"].
Proof. reflexivity. Qed.

(** But there can be many more lines than steps: an expression of [n + 1] steps can have
    [2 ^ n] lines. *)
Theorem C110_short_refuted : forall repr n,
  (forall x, part_of doubled n x -> x < S n) /\
  exists lines, describe_lines doubled repr (S n) n = Ok lines /\ 2 ^ n <= length lines.
Proof.
  intros repr n. split; [|exact (doubled_describe repr n)].
  intros x Hx. apply Nat.lt_succ_r. exact (doubled_steps n x Hx).
Qed.
Print Assumptions C110_short_refuted.

(** ** C111 *)

(** The loop of a traversal (listing nodes, graph) runs three times for each way to reach an
    object, hence at most three times per object when nothing is used twice. *)
Theorem C111_iterations {V K} (h : heap V K) o s : well_founded_at h o ->
  exists l, unfolds h o l /\
    (forall n, n < 3 * length l -> running (steps (graph_handler h) n (start o s))) /\
    exists s' v, steps (graph_handler h) (3 * length l) (start o s) = Finished s' (TOk v).
Proof. exact (iterations h (graph_handler h) (graph_yields h) o s). Qed.
Print Assumptions C111_iterations.

Theorem C111_linear_without_sharing {V K} (h : heap V K) o l size :
  closed h size -> o < size -> unfolds h o l -> NoDup l -> length l <= size.
Proof. exact (linear h o l size). Qed.
Print Assumptions C111_linear_without_sharing.

(** [x = x + x], [n] times, gives [n + 1] steps; checking it for conflicts (as done whenever an
    expression is created), listing its nodes (as done by each evaluation) and describing it
    take more than [2 ^ n] iterations. *)
Theorem C111_sharing_refuted : forall n m, m < 3 * (2 ^ (S n) - 1) ->
  (forall x, part_of doubled n x -> x < S n) /\
  running (steps (fc_handler doubled) m (start n fc_init)) /\
  running (steps (graph_handler doubled) m (start n graph_init)) /\
  running (steps (print_handler doubled) m (start n (mk_pr [] [] false))).
Proof.
  intros n m Hm. split; [intros x Hx; apply Nat.lt_succ_r; exact (doubled_steps n x Hx)|].
  split; [|split]; apply doubled_iterations; auto.
  - apply conflict_yields. exact doubled_anonymous.
  - apply graph_yields.
  - apply print_yields.
Qed.
Print Assumptions C111_sharing_refuted.

Example ex_C111 : well_founded_at gx 4 /\ unfolds gx 2 [2; 0; 1] /\ NoDup [2; 0; 1] /\
  unfolds gx 4 [4; 0; 3; 2; 0; 1].
Proof.
  assert (U0 : unfolds gx 0 [0]) by (apply (unfolds_node gx 0 []); constructor).
  assert (U1 : unfolds gx 1 [1]) by (apply (unfolds_node gx 1 []); constructor).
  assert (U2 : unfolds gx 2 [2; 0; 1]) by (apply (unfolds_node gx 2 [[0]; [1]]); repeat constructor; assumption).
  assert (U3 : unfolds gx 3 [3; 2; 0; 1]) by (apply (unfolds_node gx 3 [[2; 0; 1]]); repeat constructor; assumption).
  split; [apply gx_wf|]. split; [exact U2|]. split.
  { repeat constructor; simpl; intuition discriminate. }
  apply (unfolds_node gx 4 [[0]; [3; 2; 0; 1]]). repeat constructor; assumption.
Qed.

(** ** C112 *)

(** Escaped text is displayed as it was. *)
Theorem C112_escaped : forall s, shows (escape s) s.
Proof. exact escape_shows. Qed.
Print Assumptions C112_escaped.

(** The label of a step with a link is well formed and displays its description and its name,
    when the name contains no markup. *)
Theorem C112_label : forall repr name is_X is_y, no_newline repr ->
  (forall n, name = Some n -> plain_text n) ->
  exists body, node_label repr name is_X is_y true
      = ("<<FONT COLOR=""#1a0dab""><B>" ++ body ++ "</B></FONT>>")%string /\
    shows_br body (shown_mark is_X is_y ++ repr ++ shown_name name)%string.
Proof. exact label_shows. Qed.
Print Assumptions C112_label.

(** The name is not escaped: with a name such as [a<b] the label is not well formed. *)
Theorem C112_name_refuted : exists repr name, no_newline repr /\
  exists body, node_label repr (Some name) false false true
      = ("<<FONT COLOR=""#1a0dab""><B>" ++ body ++ "</B></FONT>>")%string /\
    forall t, ~ shows_br body t.
Proof.
  exists "BINOP: add", "'a<b'". split; [simpl; repeat split; discriminate|]. eexists. split; [reflexivity|].
  intros t Ht. apply shows_br_breaks in Ht. discriminate.
Qed.
Print Assumptions C112_name_refuted.

Example ex_C112 : node_label "GETITEM 'a & b'" (Some "'sum'") true false true
  = "<<FONT COLOR=""#1a0dab""><B>X: GETITEM &#x27;a &amp; b&#x27;<br />'sum'</B></FONT>>"
  /\ no_newline "GETITEM 'a & b'" /\ plain_text "'sum'".
Proof. split; [reflexivity|]. simpl. repeat split; discriminate. Qed.
