(** C135. Descriptions of parameter grids. *)
From Verif Require Import Base L_dict M_labels M_grid L_grid M_describe L_describe L_describe2 L_describe3.
From Coq Require Import NArith List Lia.
Import ListNotations.
Open Scope string_scope.
Open Scope list_scope.
Open Scope nat_scope.

(** Each configuration is shown by one block of the description and by no other: the lines of this block are those of the
    choices that are active, and they list the outcomes. Names of choices are on one line and can be told from what follows;
    outcomes are named, or at most six, short and different. *)
Theorem C135_each_configuration_in_one_block : forall (printable : N -> bool) {V} (show_value : V -> text)
  (G : cgraph V) (choices : dict nat info) (names : dict nat text),
  inputs_ok show_value G choices names ->
  (forall c i, dget c choices = Some i -> readable printable i) -> names_apart names -> at_top G <> [] ->
  exists t, describe_param_grid printable show_value choices names G = Ok t /\
    forall sigma, valid G sigma -> exists before b after, reading t = before ++ b :: after /\
      shows_configuration printable G choices names sigma b /\
      forall b', In b' (before ++ after) -> ~ shows_configuration printable G choices names sigma b'.
Proof. intros. apply configurations_shown; assumption. Qed.
Print Assumptions C135_each_configuration_in_one_block.

(** There are as many blocks as sub-grids that are not empty, in the same order, and one line for each choice, in the same
    order: its name and its range. *)
Theorem C135_lines : forall (printable : N -> bool) {V} (show_value : V -> text)
  (G : cgraph V) (choices : dict nat info) (names : dict nat text), inputs_ok show_value G choices names ->
  exists gs t bs, param_grid G = Ok gs /\ describe_param_grid printable show_value choices names G = Ok t /\
    reading t = map (map (fun nd => name_line (fst nd) (snd nd))) bs /\
    Forall2 (Forall2 (fun kv nd => exists c, dget (fst kv) choices = Some c /\ dget (fst kv) names = Some (fst nd) /\
                                             shown printable show_value c (snd kv) (snd nd)))
      (filter (fun g : grid V => match g with [] => false | _ => true end) gs) bs.
Proof.
  intros. destruct (describe_main printable show_value G choices names H) as (gs & t & bs & H1 & H2 & H3 & H4 & _).
  exists gs, t, bs. auto.
Qed.
Print Assumptions C135_lines.

Theorem C135_empty : forall (printable : N -> bool) {V} (show_value : V -> text)
  (G : cgraph V) (choices : dict nat info) (names : dict nat text) t, inputs_ok show_value G choices names ->
  describe_param_grid printable show_value choices names G = Ok t -> (exists sigma, valid G sigma) ->
  (t = of_string "<empty parameter grid>" ++ [10%N] <-> at_top G = []).
Proof. intros. apply (empty_iff_no_choice printable show_value G choices names); assumption. Qed.
Print Assumptions C135_empty.

(** Names can be told from what follows if they differ and contain no colon followed by a space. *)
Theorem C135_names_apart : forall (names : dict nat text),
  (forall c n a b, dget c names = Some n -> n <> a ++ [58; 32]%N ++ b) ->
  (forall c c' n, dget c names = Some n -> dget c' names = Some n -> c = c') -> names_apart names.
Proof. exact plain_names_apart. Qed.
Print Assumptions C135_names_apart.

(** A string is read back from its representation, whatever its characters. *)
Theorem C135_strings_read_back : forall (printable : N -> bool) s, valid_text s ->
  read_items (repr_str printable s) = Some [Quoted s] /\ ~ In 10%N (repr_str printable s).
Proof. intros. split; [apply (read_items_one printable); constructor; assumption|apply repr_str_no_newline]. Qed.
Print Assumptions C135_strings_read_back.

(** A numeric choice is shown as the call that builds it. *)
Theorem C135_numeric_choices : forall printable to_int low high log (n_steps name : option text),
  length low <= 40 -> length high <= 40 -> (forall k, n_steps = Some k -> length k <= 40) ->
  (forall n, name = Some n -> length (repr_str printable n) <= 30) ->
  repr_numeric printable to_int (OInt low) (OInt high) log (option_map OInt n_steps) name =
  numeric_call to_int low high log n_steps (option_map (repr_str printable) name).
Proof. exact repr_numeric_call. Qed.
Print Assumptions C135_numeric_choices.
Example ex_numeric_call :
  numeric_call false (of_string "1") (of_string "10") true (Some (of_string "4")) (Some (repr_str (fun _ => true) (of_string "C"))) =
  of_string "choose_float(1, 10, log=True, n_steps=4, name='C')".
Proof. reflexivity. Qed.

Definition ex_describe_info : dict nat info :=
  [(0, Listed (Some [of_string "logistic"; of_string "it's"]) [OInst (of_string "L") (of_string "L()"); OInst (of_string "H") (of_string "H()")]);
   (1, Range true (OInt (of_string "5")) (OInt (of_string "20")) false None (Some (of_string "k")));
   (2, Listed None [OStr (of_string "a"); OInt (of_string "3"); OInst (of_string "NoneType") (of_string "None")])].
Definition ex_describe_names : dict nat text := [(0, of_string "learner"); (1, of_string "k"); (2, of_string "p")].
Definition ex_describe_graph : cgraph nat :=
  mk_cgraph [(0, Enum 2 None); (1, Numeric 5 None); (2, Enum 3 None)] [(None, [0; 2]); (Some (0, 1), [1])] [].
Definition ascii_only (c : N) : bool := (c <? 127)%N.
Definition show_digit (n : nat) : text := [(48 + N.of_nat n)%N].

Lemma ex_describe_inputs : inputs_ok show_digit ex_describe_graph ex_describe_info ex_describe_names.
Proof.
  split.
  - split.
    + repeat (constructor; [cbn; intuition congruence|]). constructor.
    + cbn. intuition congruence.
    + intros d i c H. unfold below in H.
      assert (Hd : (d, i) = (0, 1)).
      { destruct (dget (Some (d, i)) (cg_children ex_describe_graph)) eqn:E; [|destruct H].
        apply dget_In_weak in E. cbn in E. intuition congruence. }
      injection Hd as -> ->. cbn in H. split; [cbn; intuition congruence|eexists; eexists; reflexivity].
  - intros c ch E. apply dget_In_weak in E. cbn in E.
    destruct E as [E|[E|[E|[]]]]; injection E as <- <-; (eexists; eexists; split; [reflexivity|]).
    + split; [cbn; repeat split; try lia; discriminate|]. split; [|reflexivity]. repeat constructor; cbn; intuition discriminate.
    + split; [exact I|]. split; [|reflexivity]. repeat constructor; cbn; intuition discriminate.
    + split; [cbn; repeat split; try lia; discriminate|]. split; [|reflexivity]. repeat constructor; cbn; intuition discriminate.
  - intros c n E. apply dget_In_weak in E. cbn in E. destruct E as [E|[E|[E|[]]]]; injection E as _ <-; cbn; intuition discriminate.
  - intros x [H|[]]. unfold show_digit in H. lia.
Qed.
Lemma ex_describe_readable : forall c i, dget c ex_describe_info = Some i -> readable ascii_only i.
Proof.
  intros c i E. apply dget_In_weak in E. unfold ex_describe_info in E.
  destruct E as [E|[E|[E|[]]]]; injection E as _ <-.
  - split; [constructor; [intros [H|[]]; discriminate|constructor; [intros []|constructor]]|repeat constructor].
  - exact I.
  - split; [cbn; lia|]. exists [Quoted (of_string "a"); Bare (of_string "3"); Bare (of_string "None")]. split.
    + repeat constructor; try (cbn; lia); try (cbn; intuition discriminate); (eexists; eexists; split; [reflexivity|split; [reflexivity|discriminate]]).
    + repeat (constructor; [cbn; intuition discriminate|]). constructor.
Qed.
Lemma ex_describe_apart : names_apart ex_describe_names.
Proof.
  apply C135_names_apart.
  - intros c n a b E Eq. apply dget_In_weak in E.
    assert (Hin : forall x, In x n -> x <> 58%N).
    { cbn in E. destruct E as [E|[E|[E|[]]]]; injection E as _ <-; cbn; intuition (subst; discriminate). }
    rewrite Eq in Hin. apply (Hin 58%N); [apply in_or_app; right; left; reflexivity|reflexivity].
  - intros c c' n E E'. apply dget_In_weak in E, E'. cbn in E, E'.
    destruct E as [E|[E|[E|[]]]]; injection E as <- <-; destruct E' as [E'|[E'|[E'|[]]]]; injection E'; intros; subst; congruence.
Qed.
Definition ex_text (l : list string) : text := flat_map (fun s => of_string s ++ [10%N]) l.
Example ex_describe :
  inputs_ok show_digit ex_describe_graph ex_describe_info ex_describe_names /\
  (forall c i, dget c ex_describe_info = Some i -> readable ascii_only i) /\ names_apart ex_describe_names /\
  at_top ex_describe_graph <> [] /\ valid ex_describe_graph (fun _ => 1) /\
  describe_param_grid ascii_only show_digit ex_describe_info ex_describe_names ex_describe_graph =
    Ok (ex_text ["- p: ['a', 3, None]"; "  learner: 'logistic'";
                 "- p: ['a', 3, None]"; "  learner: ""it's"""; "  k: choose_int(5, 20, name='k')"]).
Proof.
  split; [exact ex_describe_inputs|]. split; [exact ex_describe_readable|]. split; [exact ex_describe_apart|].
  split; [discriminate|]. split; [|vm_compute; reflexivity].
  intros c n k E. exists n, k. split; [exact E|]. apply dget_In_weak in E. cbn in E.
  destruct E as [E|[E|[E|[]]]]; injection E; intros; subst; try discriminate; cbn; lia.
Qed.
Example ex_describe_empty :
  describe_param_grid (V := nat) ascii_only show_digit [] [] (mk_cgraph [] [] []) =
    Ok (of_string "<empty parameter grid>" ++ [10%N]).
Proof. reflexivity. Qed.

(** Outcomes without names are not all shown when there are more than six: two choices that differ have the same
    description. *)
Theorem C135_all_outcomes_refuted : exists (G : cgraph nat) i j names t,
  inputs_ok show_digit G [(0, i)] names /\ inputs_ok show_digit G [(0, j)] names /\ i <> j /\
  describe_param_grid ascii_only show_digit [(0, i)] names G = Ok t /\
  describe_param_grid ascii_only show_digit [(0, j)] names G = Ok t.
Proof.
  pose (nums := map (fun s => OInt (of_string s)) ["1"; "2"; "3"; "4"; "5"; "6"]).
  exists (mk_cgraph [(0, Enum 7 None)] [(None, [0])] []).
  exists (Listed None (nums ++ [OInt (of_string "7")])), (Listed None (nums ++ [OInt (of_string "8")])), [(0, of_string "c")].
  assert (Hin : forall d, ~ In 10%N d -> inputs_ok show_digit (mk_cgraph [(0, Enum 7 None)] [(None, [0])] [])
            [(0, Listed None (nums ++ [OInt d]))] [(0, of_string "c")]).
  { intros d Hd. split.
    - split; [constructor; [intros []|constructor]|cbn; intuition|]. intros d' i c H. unfold below in H. cbn in H. destruct H.
    - intros c ch E. apply dget_In_weak in E. destruct E as [E|[]]. injection E as <- <-.
      eexists. eexists. split; [reflexivity|]. split; [cbn; repeat split; try lia; discriminate|]. split; [|reflexivity].
      cbn [tame_info]. apply Forall_app. split; [repeat constructor; cbn; intuition discriminate|constructor; [exact Hd|constructor]].
    - intros c n E. apply dget_In_weak in E. destruct E as [E|[]]. injection E as _ <-. cbn. intuition discriminate.
    - intros x [H|[]]. unfold show_digit in H. lia. }
  eexists. split; [apply Hin; cbn; intuition discriminate|]. split; [apply Hin; cbn; intuition discriminate|].
  split; [intros E; vm_compute in E; discriminate|]. split; vm_compute; reflexivity.
Qed.
Print Assumptions C135_all_outcomes_refuted.

(** A line break in the name of a choice makes lines that are not those of choices: one sub-grid, two blocks. *)
Theorem C135_names_on_one_line_refuted : exists (G : cgraph nat) i n gs t,
  well_formed G /\ readable ascii_only i /\ param_grid G = Ok gs /\
  describe_param_grid ascii_only show_digit [(0, i)] [(0, n)] G = Ok t /\ length (reading t) <> length gs.
Proof.
  exists (mk_cgraph [(0, Enum 2 None)] [(None, [0])] []).
  exists (Listed (Some [of_string "a"; of_string "b"]) [OInt (of_string "1"); OInt (of_string "2")]).
  exists (of_string "x" ++ [10%N] ++ of_string "- y"). eexists. eexists.
  split; [|split; [|split; [vm_compute; reflexivity|split; [vm_compute; reflexivity|vm_compute; discriminate]]]].
  - split; [constructor; [intros []|constructor]|cbn; intuition|]. intros d' i c H. unfold below in H. cbn in H. destruct H.
  - split; [constructor; [intros [H|[]]; discriminate|constructor; [intros []|constructor]]|repeat constructor].
Qed.
Print Assumptions C135_names_on_one_line_refuted.
