(** Properties C31, C32 and C33: parameter grids and the names of choices and parameters. *)
From Verif Require Import Base L_dict M_str M_grid L_grid L_grid2.
Open Scope string_scope.
Open Scope list_scope.
Open Scope nat_scope.

(** C31. The grid of a well formed graph of choices is always built. Each way of choosing
    an outcome for every choice is in exactly one sub-grid, and the choices listed there are
    exactly the active ones. What sub-grids propose for a choice are outcomes it has. *)
Theorem C31_grid_covers_each_configuration_once : forall {V} (G : cgraph V),
  well_formed G ->
  exists gs, param_grid G = Ok gs /\
    (forall g c r, In g gs -> dget c g = Some r -> entry_ok G c r) /\
    forall sigma, valid G sigma ->
      exists before g after, gs = before ++ g :: after /\ covered sigma g /\
        (forall c, In c (dkeys g) <-> active G sigma c) /\
        forall g', In g' (before ++ after) -> ~ covered sigma g'.
Proof. exact @param_grid_spec. Qed.
Print Assumptions C31_grid_covers_each_configuration_once.

(** A choice 3 with two outcomes; choice 0 and the numeric choice 1 are below its first
    outcome, 1 and 2 below its second one; choice 2, used to compute X, is clamped. Choice 4
    depends on the outcome of 0 and is also at the top. *)
Definition ex_graph : cgraph nat := mk_cgraph
  [(0, Enum 2 None); (1, Numeric 5 None); (2, Enum 3 (Some 1)); (3, Enum 2 None); (4, Enum 2 None)]
  [(None, [3; 4]); (Some (3, 0), [0; 1]); (Some (3, 1), [1; 2]); (Some (0, 1), [4])]
  [2].
Lemma ex_graph_wf : well_formed ex_graph.
Proof.
  split.
  - repeat (constructor; [cbn; intuition congruence|]). constructor.
  - cbn. intuition congruence.
  - intros d i c H. unfold below in H.
    assert (Hd : In (d, i) [(3, 0); (3, 1); (0, 1)]).
    { destruct (dget (Some (d, i)) (cg_children ex_graph)) eqn:E; [|destruct H].
      apply dget_In_weak in E. cbn in E. cbn. intuition congruence. }
    cbn in Hd. destruct Hd as [E|[E|[E|[]]]]; injection E as <- <-; cbn in H;
      (split; [cbn; intuition congruence|eexists; eexists; reflexivity]).
Qed.
Example ex_grid :
  param_grid ex_graph = Ok
    [ [(4, Indices [0; 1]); (3, Indices [0]); (1, Whole); (0, Indices [0])];
      [(4, Indices [0; 1]); (3, Indices [0]); (1, Whole); (0, Indices [1])];
      [(4, Indices [0; 1]); (3, Indices [1]); (1, Whole); (2, Indices [1])] ]
  /\ well_formed ex_graph /\ valid ex_graph (fun c => if c =? 4 then 0 else 1).
Proof.
  split; [vm_compute; reflexivity|]. split; [exact ex_graph_wf|].
  intros c n k E. exists n, k. split; [exact E|].
  do 5 (destruct c as [|c]; [cbn in *; try discriminate; injection E as <- <-; cbn; lia|]).
  discriminate.
Qed.

(** C32. The names displayed for choices are distinct, in the order of the choices, and the
    names given by the user are kept when they are distinct. Choices are listed with their
    name, if any, and their description. *)
Theorem C32_display_names_distinct : forall (choices : dict nat (option string * string)),
  NoDup (dkeys choices) ->
  exists names, display_names choices = Some names /\
    dkeys names = dkeys choices /\ NoDup (map snd names) /\
    (NoDup (map (fun cx => stem_of (snd cx)) (filter is_named choices)) ->
     forall c n r, In (c, (Some n, r)) choices -> dget c names = Some n).
Proof. exact display_names_spec. Qed.
Print Assumptions C32_display_names_distinct.

Example ex_names :
  display_names
    [(0, (None, "a")); (1, (Some "a", "")); (2, (None, "a")); (3, (Some "a_1", ""))]
  = Some [(0, "a_2"); (1, "a"); (2, "a_3"); (3, "a_1")].
Proof. reflexivity. Qed.

(** Without that hypothesis a name that nothing else has may not be kept: it may have been
    made up for an earlier choice. (Expressions in which two choices have the same name are
    rejected before names are displayed, see C37.) *)
Theorem C32_own_name_kept_refuted : exists choices names c n,
  NoDup (dkeys choices) /\ display_names choices = Some names /\
  (exists r, In (c, (Some n, r)) choices) /\
  (forall c' r, In (c', (Some n, r)) choices -> c' = c) /\ dget c names <> Some n.
Proof.
  exists [(0, (Some "a", "")); (1, (Some "a", "")); (2, (Some "a_1", ""))].
  eexists. exists 2, "a_1". split; [|split; [reflexivity|split; [|split]]].
  - repeat (constructor; [cbn; intuition congruence|]). constructor.
  - exists "". right. right. left. reflexivity.
  - cbn. intros c' r H. intuition congruence.
  - discriminate.
Qed.
Print Assumptions C32_own_name_kept_refuted.

(** C33. Parameters are set by the names under which they are listed: distinct names, and
    exactly the parameters given change. *)
Theorem C33_set_params_by_listed_names : forall {P} (d : chosen (P := P)) (params : list (string * P)),
  NoDup (dkeys d) -> NoDup (dkeys params) ->
  (forall name, In name (dkeys params) -> In name (dkeys (get_params d))) ->
  exists d', set_params None params d = (d', Ok tt) /\
    dkeys (get_params d') = dkeys (get_params d) /\
    forall name, dget name (get_params d') =
      match dget name params with Some v => Some v | None => dget name (get_params d) end.
Proof. exact @set_params_spec. Qed.
Print Assumptions C33_set_params_by_listed_names.

Theorem C33_parameter_names_distinct : forall {P} (d : chosen (P := P)),
  NoDup (dkeys d) -> NoDup (dkeys (get_params d)).
Proof. exact @get_params_nodup. Qed.
Print Assumptions C33_parameter_names_distinct.

(** The name of the parameter of a choice leads to this choice, also when it is set in
    another expression: if it has no such choice this is an error. *)
Theorem C33_parameter_of_choice : forall {P} (d : chosen (P := P)) k v,
  dget (param_name k) (get_params d) = dget k d /\
  (~ In k (dkeys d) -> set_params None [(param_name k, v)] d = (d, Err KeyError)).
Proof. intros. split; [apply get_params_get|apply set_params_unknown]. Qed.
Print Assumptions C33_parameter_of_choice.

Example ex_params :
  let d := [(0, 7); (10, 8); (11, 9)] in
  get_params d = [("expr__0", 7); ("expr__10", 8); ("expr__11", 9)] /\
  set_params None [("expr__11", 1); ("expr__0", 2)] d = ([(0, 2); (10, 8); (11, 1)], Ok tt) /\
  set_params None [("expr__0", 2); ("expr__3", 1)] d = ([(0, 2); (10, 8); (11, 9)], Err KeyError) /\
  set_params None [("expr__0", 2); ("expr_x", 1)] d = (d, Err ValueError).
Proof. repeat split. Qed.
