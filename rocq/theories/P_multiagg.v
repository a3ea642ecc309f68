(** C20: several aggregation joins, and fitting again. *)
From Verif Require Import Base M_names M_oncols M_agg M_multiagg L_names L_leftjoin L_agg L_agg2 L_multiagg.
From Coq Require Import Permutation.
Open Scope string_scope.
Open Scope list_scope.
Open Scope nat_scope.

(** Example data: 0 is null. *)
Definition C20_isnull (v : nat) : bool := v =? 0.
Definition C20_aggf (op : string) (vs : list nat) : res nat :=
  if eqd op "count" then Ok (length (filter (fun v => negb (v =? 0)) vs)) else Ok (fold_right Nat.max 0 vs).
Definition C20_X : table nat := {| tcols := ["id"; "v"]; trows := [[1; 5]; [2; 6]; [0; 7]; [1; 8]] |}.
Definition C20_X2 : table nat := {| tcols := ["id"; "v"]; trows := [[2; 1]; [2; 2]; [5; 3]] |}.
Definition C20_aux : table nat := {| tcols := ["key"; "a"]; trows := [[2; 10]; [1; 11]; [2; 13]] |}.
(** The auxiliary tables are another table and "X". *)
Definition C20_params : multi_params :=
  mk_multi_params false [["max"]; ["max"; "count"]] None (Some [["id"]; ["id"]]) (Some [["key"]; ["id"]]) None (Some ["_a"; "_x"]).
Definition C20_entries : list (entry (V := nat)) := [ETable Pandas C20_aux; EX].
Definition C20_tables : list (entry (V := nat)) := [ETable Pandas C20_aux; ETable Pandas C20_X].
Definition C20_draw (i : nat) : nat -> string := example_draw.
Definition C20_fit := multi_fit_transform 0 C20_isnull Pandas (@rev _) C20_aggf (fun l => l) (fun _ _ => true) C20_draw.
Definition C20_steps (X : table nat) : list step :=
  [mk_step C20_aux ["id"] ["key"] ["a"] ["max"] "_a"; mk_step X ["id"] ["id"] ["v"] ["max"; "count"] "_x"].
Definition C20_out : table nat :=
  {| tcols := ["id"; "v"; "a_max_a"; "v_max_x"; "v_count_x"];
     trows := [[1; 5; 11; 8; 2]; [2; 6; 13; 6; 1]; [0; 7; 0; 0; 0]; [1; 8; 11; 8; 2]] |}.

Ltac fin_forall := let I := fresh "I" in intros ? I; simpl in I;
  repeat (destruct I as [<-|I]; [try reflexivity; try (simpl; tauto); repeat constructor|]); try (destruct I).
Ltac wf_table := split; [repeat constructor; simpl; intuition discriminate|fin_forall].

(** Each join attaches to each row of the main table the values computed from the rows of its auxiliary
    table with the same key; "X" is the main table as given, without the columns of the previous joins. *)
Theorem C20_multi_agg_joiner :
  forall (V : Type) (EV : EqD V) (null : V) (isnull : V -> bool) (lib : library)
         (group_order : list (list V) -> list (list V)) (aggf : string -> list V -> res V)
         (set_order : list string -> list string) (is_numeric : table V -> string -> bool),
  (forall l, Permutation (group_order l) l) ->
  forall draw p aux X st fs out,
  multi_fit_transform null isnull lib group_order aggf set_order is_numeric draw p aux X = (st, Ok (fs, out)) ->
  WFTable X ->
  exists steps, StepsAre lib set_order p aux X steps /\
    ((forall s, In s steps -> StepOk lib X s) ->
     FreshRun null isnull lib group_order aggf set_order is_numeric draw draw 0 steps X ->
     (exists names, tcols out = tcols X ++ concat names /\ map (@length _) names = map (fun s => length (pairs_of s)) steps) /\
     NoDup (tcols out) /\ Forall2 (AllAttached null isnull aggf X steps) (trows X) (trows out)).
Proof. exact @multi_fit_spec. Qed.
Print Assumptions C20_multi_agg_joiner.

Lemma C20_steps_fresh : forall d, d = C20_draw -> FreshRun 0 C20_isnull Pandas (@rev _) C20_aggf (fun l => l) (fun _ _ => true) C20_draw d 0 (C20_steps C20_X) C20_X.
Proof.
  intros d ->. split; [apply example_draw_ok; [repeat constructor|reflexivity]|]. intros f X1 E. vm_compute in E. injection E as <- <-.
  split; [apply example_draw_ok; [repeat constructor|reflexivity]|]. intros; exact I.
Qed.
Lemma C20_steps_ok : forall s, In s (C20_steps C20_X) -> StepOk Pandas C20_X s.
Proof.
  intros s I. destruct I as [<-|[<-|[]]]; (split; [wf_table|]); (split; [repeat constructor; simpl; intuition discriminate|]);
    (split; [repeat constructor; simpl; intuition discriminate|]); (split; [intros c Ic; simpl in *; tauto|]);
    intros _ q I; simpl in I; repeat (destruct I as [<-|I]; [simpl; intuition discriminate|]); destruct I.
Qed.

Example C20_multi_agg_joiner_ex :
  (forall l : list (list nat), Permutation (rev l) l) /\
  (exists st fs, C20_fit C20_params C20_entries C20_X = (st, Ok (fs, C20_out)) /\ length fs = 2) /\
  WFTable C20_X /\ StepsAre Pandas (fun l => l) C20_params C20_entries C20_X (C20_steps C20_X) /\
  (forall s, In s (C20_steps C20_X) -> StepOk Pandas C20_X s) /\
  FreshRun 0 C20_isnull Pandas (@rev _) C20_aggf (fun l => l) (fun _ _ => true) C20_draw C20_draw 0 (C20_steps C20_X) C20_X.
Proof.
  split; [intros l; apply Permutation_sym, Permutation_rev|].
  split; [eexists _, _; split; [vm_compute; reflexivity|reflexivity]|]. split; [wf_table|]. split; [|split].
  - split; [repeat constructor|]. split; [right; repeat split|].
    split; [fin_forall|]. split; [fin_forall|]. split; reflexivity.
  - exact C20_steps_ok.
  - apply C20_steps_fresh. reflexivity.
Qed.

(** Applied to another table with the same columns, each fitted join attaches the values computed from its
    auxiliary table of the fit, under the names of the fit. *)
Theorem C20_transform :
  forall (V : Type) (EV : EqD V) (null : V) (isnull : V -> bool) (lib : library)
         (group_order : list (list V) -> list (list V)) (aggf : string -> list V -> res V)
         (set_order : list string -> list string) (is_numeric : table V -> string -> bool),
  (forall l, Permutation (group_order l) l) ->
  forall draw draw' p aux X st fs out X',
  multi_fit_transform null isnull lib group_order aggf set_order is_numeric draw p aux X = (st, Ok (fs, out)) ->
  WFTable X -> WFTable X' -> tcols X' = tcols X ->
  exists steps, StepsAre lib set_order p aux X steps /\
    ((forall s, In s steps -> StepOk lib X s) ->
     FreshRun null isnull lib group_order aggf set_order is_numeric draw draw 0 steps X ->
     FreshRun null isnull lib group_order aggf set_order is_numeric draw draw' 0 steps X ->
     exists out', multi_transform null isnull lib draw' 0 fs X' = Ok out' /\ tcols out' = tcols out /\
       Forall2 (AllAttached null isnull aggf X' steps) (trows X') (trows out')).
Proof. exact @multi_transform_spec. Qed.
Print Assumptions C20_transform.

Example C20_transform_ex :
  WFTable C20_X2 /\ tcols C20_X2 = tcols C20_X /\
  exists st fs, C20_fit C20_params C20_entries C20_X = (st, Ok (fs, C20_out)) /\
    multi_transform 0 C20_isnull Pandas C20_draw 0 fs C20_X2 =
    Ok {| tcols := tcols C20_out; trows := [[2; 1; 13; 6; 1]; [2; 2; 13; 6; 1]; [5; 3; 0; 0; 0]] |} /\
    multi_transform 0 C20_isnull Pandas C20_draw 0 fs C20_aux = Err ValueError.
Proof.
  split; [wf_table|]. split; [reflexivity|]. eexists _, _. split; [vm_compute; reflexivity|]. split; vm_compute; reflexivity.
Qed.

(** Without "X", fitting again has the outcome of a fresh MultiAggJoiner, whatever the outcome of the first fit. *)
Theorem C20_refit_without_X :
  forall (V : Type) (EV : EqD V) (null : V) (isnull : V -> bool) (lib : library)
         (group_order : list (list V) -> list (list V)) (aggf : string -> list V -> res V)
         (set_order : list string -> list string) (is_numeric : table V -> string -> bool) draw1 draw2 p aux X1 X2,
  ~ In EX aux ->
  multi_fit_transform null isnull lib group_order aggf set_order is_numeric draw2 p
    (fst (multi_fit_transform null isnull lib group_order aggf set_order is_numeric draw1 p aux X1)) X2 =
  multi_fit_transform null isnull lib group_order aggf set_order is_numeric draw2 p aux X2.
Proof. exact @refit_without_X. Qed.
Print Assumptions C20_refit_without_X.

Example C20_refit_without_X_ex :
  ~ In EX C20_tables /\
  exists st fs, C20_fit C20_params (fst (C20_fit C20_params C20_tables C20_X2)) C20_X = (st, Ok (fs, C20_out)).
Proof. split; [simpl; intuition discriminate|]. eexists _, _. vm_compute. reflexivity. Qed.

(** With "X", the second fit takes the table of the first fit for "X". *)
Theorem C20_refit_uses_first_table :
  forall (V : Type) (EV : EqD V) (null : V) (isnull : V -> bool) (lib : library)
         (group_order : list (list V) -> list (list V)) (aggf : string -> list V -> res V)
         (set_order : list string -> list string) (is_numeric : table V -> string -> bool) draw1 draw2 p aux X1 st fs out X2,
  multi_fit_transform null isnull lib group_order aggf set_order is_numeric draw1 p aux X1 = (st, Ok (fs, out)) ->
  multi_fit_transform null isnull lib group_order aggf set_order is_numeric draw2 p st X2 =
  multi_fit_transform null isnull lib group_order aggf set_order is_numeric draw2 p (map (freeze lib X1) aux) X2.
Proof. exact @refit_general. Qed.
Print Assumptions C20_refit_uses_first_table.

Example C20_refit_uses_first_table_ex :
  map (freeze Pandas C20_X) C20_entries = C20_tables /\
  (exists fs, C20_fit C20_params C20_entries C20_X = (C20_tables, Ok (fs, C20_out))) /\
  (exists fs, C20_fit C20_params C20_tables C20_X2 =
    (C20_tables, Ok (fs, {| tcols := tcols C20_out; trows := [[2; 1; 13; 6; 1]; [2; 2; 13; 6; 1]; [5; 3; 0; 0; 0]] |}))) /\
  (exists st fs, C20_fit C20_params C20_entries C20_X2 =
    (st, Ok (fs, {| tcols := tcols C20_out; trows := [[2; 1; 13; 2; 2]; [2; 2; 13; 2; 2]; [5; 3; 0; 3; 1]] |}))).
Proof.
  split; [reflexivity|]. split; [eexists; vm_compute; reflexivity|].
  split; [eexists; vm_compute; reflexivity|eexists _, _; vm_compute; reflexivity].
Qed.

(** So the outcome of a second fit is not always that of a fresh MultiAggJoiner. *)
Theorem C20_refit_refuted :
  exists p aux X1 X2 st1 r1 st2 fs2 out2 st3 fs3 out3,
    C20_fit p aux X1 = (st1, Ok r1) /\ C20_fit p st1 X2 = (st2, Ok (fs2, out2)) /\
    C20_fit p aux X2 = (st3, Ok (fs3, out3)) /\ trows out2 <> trows out3.
Proof.
  exists C20_params, C20_entries, C20_X, C20_X2. eexists _, _, _, _, _, _, _, _.
  split; [vm_compute; reflexivity|]. split; [vm_compute; reflexivity|]. split; [vm_compute; reflexivity|]. discriminate.
Qed.
Print Assumptions C20_refit_refuted.

(** "X" cannot be given in a tuple. *)
Theorem C20_tuple_refused :
  forall (V : Type) (EV : EqD V) (null : V) (isnull : V -> bool) (lib : library)
         (group_order : list (list V) -> list (list V)) (aggf : string -> list V -> res V)
         (set_order : list string -> list string) (is_numeric : table V -> string -> bool) draw p pre post X,
  mp_tuple p = true -> Forall (fun e => exists l t, e = ETable l t) pre ->
  multi_fit_transform null isnull lib group_order aggf set_order is_numeric draw p (pre ++ EX :: post) X =
  (pre ++ EX :: post, Err TypeError).
Proof. exact @tuple_refused. Qed.
Print Assumptions C20_tuple_refused.

Example C20_tuple_refused_ex :
  let p := mk_multi_params true [["max"]; ["max"]] (Some [["id"]; ["id"]]) None None None None in
  mp_tuple p = true /\ C20_fit p C20_entries C20_X = (C20_entries, Err TypeError) /\
  (exists fs out, C20_fit p [ETable Pandas C20_X; ETable Pandas C20_X2] C20_X =
     ([ETable Pandas C20_X; ETable Pandas C20_X2], Ok (fs, out)) /\ tcols out = ["id"; "v"; "v_max_0"; "v_max_1"]).
Proof. split; [reflexivity|]. split; [reflexivity|]. eexists _, _. split; vm_compute; reflexivity. Qed.
