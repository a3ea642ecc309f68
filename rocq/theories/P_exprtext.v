(** C127: the name of a step shows in its text, in lists of steps and in graphs. *)
From Verif Require Import Base M_labels M_exprtext L_exprtext.
From Coq Require Import NArith.
Open Scope string_scope.
Open Scope list_scope.
Open Scope nat_scope.

(** texts for the examples: upper case of ASCII letters, quotes around names *)
Definition ascii_upper (t : text) : text := map (fun c => if ((97 <=? c) && (c <=? 122))%N then (c - 32)%N else c) t.
Definition newline_only (c : N) : bool := (c =? 10)%N.
Definition simple_quotes (t : text) : text := of_string "'" ++ t ++ of_string "'".
Definition ident0 (t : text) : bool := match t with c :: _ => is_letter c | [] => false end.
Definition binop : text := of_string "<BinOp: add>".
Definition named (n : string) : expr := Steps (Some (of_string n)) false binop None.

(** the names that can be given *)
Theorem C127_names_given : forall t of_var, check_name (NStr t) of_var = Ok (Some t) <-> (forall r, t <> of_string "_skrub_" ++ r).
Proof. exact check_name_ok. Qed.
Theorem C127_text_iff : forall identifier n body p,
  repr identifier (Steps (Some n) false (60%N :: body) p) = Ok (WithPreview p (NamedText n body)) <-> Harmless n.
Proof. exact repr_named_iff. Qed.
Theorem C127_text_others : forall identifier v n nd p, (v = true \/ n = None) -> repr identifier (Steps n v nd p) = Ok (WithPreview p nd).
Proof. exact repr_unnamed. Qed.
(** names that start with a digit: an error, or a text without the bracket and with another start of the name *)
Theorem C127_text_digit : forall identifier c r body p, (48 <= c <= 57)%N -> (forall d r', r = d :: r' -> Octal c -> ~ Octal d) ->
  repr identifier (Steps (Some (c :: r)) false (60%N :: body) p) = Err re_error.
Proof. exact bad_name_repr. Qed.
Theorem C127_text_refuted : exists n,
  check_name (NStr n) false = Ok (Some n) /\ repr ident0 (Steps (Some n) false binop None) = Err re_error.
Proof. exists (of_string "2x"). split; vm_compute; reflexivity. Qed.
Theorem C127_text_changed_refuted : exists n t,
  check_name (NStr n) false = Ok (Some n) /\ repr ident0 (Steps (Some n) false binop None) = Ok t /\ t = of_string "SUM | BinOp: add>".
Proof. exists (of_string "23UM"). eexists. split; [|split]; vm_compute; reflexivity. Qed.

(** lists of steps *)
Theorem C127_steps_lines : forall identifier upper line_break visits lines, step_lines identifier upper line_break [] visits = Ok lines ->
  length lines = length visits /\
  forall k i e, nth_error visits k = Some (i, e) -> exists l, simple_repr identifier upper line_break e = Ok l /\
    nth_error lines k = Some (if mem i (map fst (firstn k visits)) then of_string "( " ++ l ++ of_string " )*" else l).
Proof. intros identifier upper line_break visits lines. exact (steps_lines_spec identifier upper line_break visits [] lines). Qed.
Theorem C127_steps_fail : forall identifier upper line_break visits i c r body p, (48 <= c <= 57)%N ->
  (forall d r', r = d :: r' -> Octal c -> ~ Octal d) -> In (i, Steps (Some (c :: r)) false (60%N :: body) p) visits ->
  exists x, step_lines identifier upper line_break [] visits = Err x.
Proof. exact steps_fail_digit. Qed.
Theorem C127_line_named : forall identifier upper line_break, line_break 10%N = true -> (forall c, (32 <= c <= 126)%N -> line_break c = false) ->
  forall n body p, Harmless n -> OneLine line_break n -> OneLine line_break body -> NoSpace n ->
  simple_repr identifier upper line_break (Steps (Some n) false (60%N :: body ++ [62%N]) p) = Ok (upper n ++ of_string " | " ++ body).
Proof. exact simple_named. Qed.
Theorem C127_line_named_words : forall identifier upper line_break, line_break 10%N = true -> (forall c, (32 <= c <= 126)%N -> line_break c = false) ->
  forall w r body p, Harmless (w ++ 32%N :: r) -> OneLine line_break (w ++ 32%N :: r) -> OneLine line_break body -> NoSpace w ->
  simple_repr identifier upper line_break (Steps (Some (w ++ 32%N :: r)) false (60%N :: body ++ [62%N]) p) =
  Ok (upper w ++ 32%N :: r ++ of_string " | " ++ body).
Proof. exact simple_named_words. Qed.
Theorem C127_line_others : forall identifier upper line_break, line_break 10%N = true -> (forall c, (32 <= c <= 126)%N -> line_break c = false) ->
  forall v n w r p, (v = true \/ n = None) -> OneLine line_break (w ++ 32%N :: r) -> NoSpace w ->
  simple_repr identifier upper line_break (Steps n v (60%N :: (w ++ 32%N :: r) ++ [62%N]) p) = Ok (upper w ++ 32%N :: r).
Proof. exact simple_unnamed. Qed.
(** steps of different names have the same line *)
Theorem C127_line_refuted : exists n m, n <> m /\ Harmless n /\ Harmless m /\
  simple_repr ident0 ascii_upper newline_only (Steps (Some n) false binop None) =
  simple_repr ident0 ascii_upper newline_only (Steps (Some m) false binop None).
Proof.
  exists (of_string "x"), (of_string "X"). split; [discriminate|]. split; [|split; [|vm_compute; reflexivity]]; apply harmless_ascii; reflexivity.
Qed.

(** labels of boxes that have a page *)
Theorem C127_label_others : forall identifier upper line_break quoted, line_break 10%N = true -> (forall t, ~ In 10%N t -> ~ In 10%N (upper t)) ->
  forall mark e t, Plain mark -> (is_var e = true \/ name e = None) -> simple_repr identifier upper line_break e = Ok t ->
  exists l, label identifier upper line_break quoted mark true e = Ok l /\ Reads l (mark ++ t).
Proof. exact label_unnamed. Qed.
Theorem C127_label_named : forall identifier upper line_break quoted, line_break 10%N = true -> (forall t, ~ In 10%N t -> ~ In 10%N (upper t)) ->
  forall mark e t n, Plain mark -> is_var e = false -> name e = Some n -> Plain (quoted n) -> simple_repr identifier upper line_break e = Ok t ->
  exists l, label identifier upper line_break quoted mark true e = Ok l /\ Reads l (mark ++ t ++ 10%N :: quoted n).
Proof. exact label_named. Qed.
Theorem C127_label_broken : forall identifier upper line_break quoted, line_break 10%N = true -> (forall t, ~ In 10%N t -> ~ In 10%N (upper t)) ->
  forall mark e n p r, Plain mark -> is_var e = false -> name e = Some n ->
  quoted n = p ++ 60%N :: r -> Plain p -> ~ In 10%N (p ++ 60%N :: r) -> (forall r', r <> of_string "br />" ++ r') ->
  forall l t, label identifier upper line_break quoted mark true e = Ok l -> ~ Reads l t.
Proof. exact label_bad. Qed.

(** ** Examples *)
Example ex_text : repr ident0 (Steps (Some (of_string "total")) false binop (Some (of_string "3"))) =
  Ok (of_string "<total | BinOp: add>" ++ heading ++ of_string "3").
Proof. vm_compute. reflexivity. Qed.
Example ex_text_harmless : Harmless (of_string "total") /\ Harmless (of_string "a\ b") /\ ~ Harmless (of_string "a\b") /\ ~ Harmless (of_string "1st").
Proof.
  split; [apply harmless_ascii; reflexivity|]. split; [|split].
  - apply (proj1 (C127_text_iff ident0 (of_string "a\ b") (of_string "BinOp>") None)). vm_compute. reflexivity.
  - intros H. apply (proj2 (C127_text_iff ident0 (of_string "a\b") (of_string "BinOp>") None)) in H. vm_compute in H. discriminate H.
  - intros H. apply (proj2 (C127_text_iff ident0 (of_string "1st") (of_string "BinOp>") None)) in H. vm_compute in H. discriminate H.
Qed.
(** backslashes in names: paths, groups *)
Example ex_text_backslash :
  repr ident0 (named "C:\temp") = Ok (of_string "<C:" ++ [9%N] ++ of_string "emp | BinOp: add>") /\
  repr ident0 (named "\dir") = Err re_error /\ repr ident0 (named "x\g<0>y") = Ok (of_string "<x<y | BinOp: add>") /\
  repr ident0 (named "x\g<y>") = Err IndexError /\ repr ident0 (named "\\a") = Ok (of_string "<\a | BinOp: add>") /\
  repr ident0 (named "\0") = Ok (of_string "<" ++ [0%N] ++ of_string " | BinOp: add>").
Proof. vm_compute. repeat split; reflexivity. Qed.
Example ex_text_var : repr ident0 (Steps (Some (of_string "2x")) true (of_string "<Var '2x'>") None) = Ok (of_string "<Var '2x'>").
Proof. vm_compute. reflexivity. Qed.
Example ex_steps : step_lines ident0 ascii_upper newline_only [] [(0, named "c"); (1, Steps None false binop None); (0, named "c")] =
  Ok [of_string "C | BinOp: add"; of_string "BINOP: add"; of_string "( C | BinOp: add )*"].
Proof. vm_compute. reflexivity. Qed.
Example ex_steps_fail : step_lines ident0 ascii_upper newline_only [] [(0, named "c"); (1, named "1st")] = Err re_error.
Proof. vm_compute. reflexivity. Qed.
Example ex_line_words : simple_repr ident0 ascii_upper newline_only (named "all the orders") = Ok (of_string "ALL the orders | BinOp: add").
Proof. vm_compute. reflexivity. Qed.
Example ex_label : label ident0 ascii_upper newline_only simple_quotes (of_string "X: ") true (named "a b") =
  Ok (of_string "X: A b | BinOp: add<br />'a b'").
Proof. vm_compute. reflexivity. Qed.
Example ex_label_broken : forall l t, label ident0 ascii_upper newline_only simple_quotes [] true (named "a<b") = Ok l -> ~ Reads l t.
Proof.
  apply (C127_label_broken ident0 ascii_upper newline_only simple_quotes eq_refl) with (n := of_string "a<b") (p := of_string "'a") (r := of_string "b'").
  - intros t N I. unfold ascii_upper in I. apply in_map_iff in I. destruct I as (c & E & I).
    destruct ((97 <=? c) && (c <=? 122))%N eqn:Ec; [|subst c; exact (N I)].
    apply andb_prop in Ec. destruct Ec as [Ec _]. apply N.leb_le in Ec. apply (f_equal (fun x => x + 32)%N) in E. rewrite N.sub_add in E.
    + subst c. apply Ec. reflexivity.
    + apply (N.le_trans 32 97 c); [discriminate|exact Ec].
  - split; exact (fun x => x).
  - reflexivity.
  - reflexivity.
  - reflexivity.
  - split; cbn; intros H; repeat (destruct H as [H|H]; [discriminate H|]); exact H.
  - cbn. intros H. repeat (destruct H as [H|H]; [discriminate H|]). exact H.
  - intros r'. discriminate.
Qed.

Print Assumptions C127_names_given.
Print Assumptions C127_text_iff.
Print Assumptions C127_text_others.
Print Assumptions C127_text_digit.
Print Assumptions C127_text_refuted.
Print Assumptions C127_text_changed_refuted.
Print Assumptions C127_steps_lines.
Print Assumptions C127_steps_fail.
Print Assumptions C127_line_named.
Print Assumptions C127_line_named_words.
Print Assumptions C127_line_others.
Print Assumptions C127_line_refuted.
Print Assumptions C127_label_others.
Print Assumptions C127_label_named.
Print Assumptions C127_label_broken.
