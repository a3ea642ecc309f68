(** C140: joining the same tables again gives the same table. *)
From Verif Require Import Base M_names M_oncols M_agg M_str M_multiagg M_interp L_names L_leftjoin L_agg L_agg2 L_multiagg L_reseed L_reseed2.
From Coq Require Import Permutation.
Open Scope string_scope.
Open Scope list_scope.
Open Scope nat_scope.

(** Fitting an AggJoiner twice, in circumstances that differ (order in which Python sets are
    enumerated, which changes from one process to the next; order in which groups are returned;
    random names): the results have the same rows in the same order and the same columns, perhaps in
    another order. They are equal if [cols] is given. *)
Theorem C140_agg_joiner_partial :
  forall (V : Type) (EV : EqD V) (null : V) (isnull : V -> bool) (lib : library) (aggf : string -> list V -> res V)
         (w1 w2 : circumstances) is_numeric p X f1 out1 f2 out2 aux mk ak cols1 cols2 ops,
  Possible w1 -> Possible w2 ->
  fit_in null isnull lib aggf w1 is_numeric p X = Ok (f1, out1) -> fit_in null isnull lib aggf w2 is_numeric p X = Ok (f2, out2) ->
  AuxIs p X aux -> KeysAre p mk ak -> ColsAre (sets w1) p aux ak cols1 -> ColsAre (sets w2) p aux ak cols2 -> OpsAre p ops ->
  WFTable X -> WFTable aux -> NoDup cols1 -> NoDup ops ->
  NoClash (tcols X) ak cols1 ops (p_suffix p) ->
  FreshIn w1 X ak cols1 ops (p_suffix p) -> FreshIn w2 X ak cols2 ops (p_suffix p) ->
  SameUpToColumnOrder out1 out2 /\ (p_cols p <> KNone -> out1 = out2).
Proof. exact @same_in_all_circumstances. Qed.
Print Assumptions C140_agg_joiner_partial.

(** Example data: 0 is null. *)
Definition C140_isnull (v : nat) : bool := v =? 0.
Definition C140_aggf (op : string) (vs : list nat) : res nat :=
  if eqd op "count" then Ok (length (filter (fun v => negb (v =? 0)) vs)) else Ok (fold_right Nat.max 0 vs).
Definition C140_X : table nat := {| tcols := ["id"; "v"]; trows := [[1; 5]; [2; 6]; [3; 7]] |}.
Definition C140_aux : table nat := {| tcols := ["id"; "a"; "b"]; trows := [[2; 10; 1]; [1; 11; 2]; [2; 13; 3]] |}.
Definition C140_params (cols : keyarg) : agg_params :=
  mk_agg_params (AuxTable C140_aux) (KStr "max") (KStr "id") KNone KNone cols "_x".
Definition C140_w1 : circumstances (V := nat) := mk_circumstances (fun l => l) (fun l => l) example_draw.
Definition C140_w2 : circumstances (V := nat) := mk_circumstances (@rev _) (@rev _) example_draw.
Definition C140_fit w cols := fit_in 0 C140_isnull Polars C140_aggf w (fun _ => true) (C140_params cols) C140_X.
Definition C140_out1 : table nat := {| tcols := ["id"; "v"; "a_max_x"; "b_max_x"]; trows := [[1; 5; 11; 2]; [2; 6; 13; 3]; [3; 7; 0; 0]] |}.
Definition C140_out2 : table nat := {| tcols := ["id"; "v"; "b_max_x"; "a_max_x"]; trows := [[1; 5; 2; 11]; [2; 6; 3; 13]; [3; 7; 0; 0]] |}.

Lemma C140_possible1 : Possible C140_w1.
Proof. split; intros l; apply Permutation_refl. Qed.
Lemma C140_possible2 : Possible C140_w2.
Proof. split; intros l; apply Permutation_sym, Permutation_rev. Qed.

Lemma C140_short : forall s, String.length s < 8 -> untagged s.
Proof. intros s L S. apply SubString_length in S. simpl in S. lia. Qed.

Example C140_agg_joiner_ex :
  NoClash (tcols C140_X) ["id"] ["a"; "b"] ["max"] "_x" /\
  (exists f, C140_fit C140_w1 KNone = Ok (f, C140_out1)) /\ (exists f, C140_fit C140_w2 KNone = Ok (f, C140_out2)) /\
  (exists f, C140_fit C140_w2 (KList ["a"; "b"]) = Ok (f, C140_out1)) /\
  ColsAre (sets C140_w1) (C140_params KNone) C140_aux ["id"] ["a"; "b"] /\
  ColsAre (sets C140_w2) (C140_params KNone) C140_aux ["id"] ["b"; "a"] /\
  KeysAre (C140_params KNone) ["id"] ["id"] /\ WFTable C140_X /\ WFTable C140_aux /\
  FreshIn C140_w1 C140_X ["id"] ["a"; "b"] ["max"] "_x" /\ FreshIn C140_w2 C140_X ["id"] ["b"; "a"] ["max"] "_x".
Proof.
  split.
  { split; [intros c [<-|[]]; apply C140_short; simpl; lia|].
    intros q [<-|[<-|[]]]; (split; [apply C140_short; simpl; lia|]; split; simpl; intuition discriminate). }
  split; [eexists; vm_compute; reflexivity|]. split; [eexists; vm_compute; reflexivity|]. split; [eexists; vm_compute; reflexivity|].
  split; [left; split; reflexivity|]. split; [left; split; reflexivity|].
  split; [left; repeat split; discriminate|].
  split; [split; [repeat constructor; simpl; intuition discriminate|simpl; intros r I; repeat (destruct I as [<-|I]; [reflexivity|]); destruct I]|].
  split; [split; [repeat constructor; simpl; intuition discriminate|simpl; intros r I; repeat (destruct I as [<-|I]; [reflexivity|]); destruct I]|].
  split; apply example_draw_ok; try reflexivity; repeat constructor.
Qed.

(** The order does change when [cols] is not given: the same AggJoiner, fitted on the same tables by
    two processes, gives the columns in different orders. *)
Theorem C140_agg_joiner_order_refuted :
  exists (w1 w2 : circumstances (V := nat)) f1 f2 out1 out2, Possible w1 /\ Possible w2 /\
    C140_fit w1 KNone = Ok (f1, out1) /\ C140_fit w2 KNone = Ok (f2, out2) /\ tcols out1 <> tcols out2.
Proof.
  exists C140_w1, C140_w2. eexists _, _, C140_out1, C140_out2.
  split; [exact C140_possible1|]. split; [exact C140_possible2|].
  split; [vm_compute; reflexivity|]. split; [vm_compute; reflexivity|]. discriminate.
Qed.
Print Assumptions C140_agg_joiner_order_refuted.

(** A MultiAggJoiner for which [cols] is given gives exactly the same table. *)
Theorem C140_multi_agg_joiner_partial :
  forall (V : Type) (EV : EqD V) (null : V) (isnull : V -> bool) (lib : library) (aggf : string -> list V -> res V)
         (is_numeric : table V -> string -> bool) go1 so1 draw1 go2 so2 draw2 p aux X st1 fs1 out1 st2 fs2 out2,
  (forall l, Permutation (go1 l) l) -> (forall l, Permutation (so1 l) l) ->
  (forall l, Permutation (go2 l) l) -> (forall l, Permutation (so2 l) l) ->
  mp_cols p <> None ->
  multi_fit_transform null isnull lib go1 aggf so1 is_numeric draw1 p aux X = (st1, Ok (fs1, out1)) ->
  multi_fit_transform null isnull lib go2 aggf so2 is_numeric draw2 p aux X = (st2, Ok (fs2, out2)) ->
  exists steps, StepsAre lib so1 p aux X steps /\
    (WFTable X -> (forall s, In s steps -> WFTable (s_aux s) /\ NoDup (s_cols s) /\ NoDup (s_ops s)) ->
     NoClashRun (tcols X) steps ->
     FreshRunIn (fun i => mk_circumstances go1 so1 (draw1 i)) 0 (tcols X) steps ->
     FreshRunIn (fun i => mk_circumstances go2 so2 (draw2 i)) 0 (tcols X) steps ->
     out1 = out2).
Proof. exact @multi_same. Qed.
Print Assumptions C140_multi_agg_joiner_partial.

Definition C140_multi (cols : option (list (list string))) : multi_params :=
  mk_multi_params false [["max"]; ["count"]] (Some [["id"]; ["id"]]) None None cols None.
Definition C140_entries : list (entry (V := nat)) := [ETable Polars C140_aux; EX].
Definition C140_fit_multi go so p :=
  multi_fit_transform 0 C140_isnull Polars go C140_aggf so (fun _ _ => true) (fun _ => example_draw) p C140_entries C140_X.

Example C140_multi_agg_joiner_ex :
  exists out, (exists st fs, C140_fit_multi (fun l => l) (fun l => l) (C140_multi (Some [["a"; "b"]; ["v"]])) = (st, Ok (fs, out))) /\
    (exists st fs, C140_fit_multi (@rev _) (@rev _) (C140_multi (Some [["a"; "b"]; ["v"]])) = (st, Ok (fs, out))) /\
    tcols out = ["id"; "v"; "a_max_0"; "b_max_0"; "v_count_1"].
Proof.
  eexists. split; [eexists _, _; vm_compute; reflexivity|]. split; [eexists _, _; vm_compute; reflexivity|]. reflexivity.
Qed.

(** Whether [cols] is given or not, a MultiAggJoiner gives the same rows in the same order and the same
    columns, perhaps in another order. *)
Theorem C140_multi_agg_joiner_columns :
  forall (V : Type) (EV : EqD V) (null : V) (isnull : V -> bool) (lib : library) (aggf : string -> list V -> res V)
         (is_numeric : table V -> string -> bool) go1 so1 draw1 go2 so2 draw2 p aux X st1 fs1 out1 st2 fs2 out2,
  (forall l, Permutation (go1 l) l) -> (forall l, Permutation (so1 l) l) ->
  (forall l, Permutation (go2 l) l) -> (forall l, Permutation (so2 l) l) ->
  multi_fit_transform null isnull lib go1 aggf so1 is_numeric draw1 p aux X = (st1, Ok (fs1, out1)) ->
  multi_fit_transform null isnull lib go2 aggf so2 is_numeric draw2 p aux X = (st2, Ok (fs2, out2)) ->
  exists steps1 steps2, StepsAre lib so1 p aux X steps1 /\ StepsAre lib so2 p aux X steps2 /\
    (WFTable X -> (forall s, In s steps1 -> WFTable (s_aux s) /\ NoDup (s_cols s) /\ NoDup (s_ops s)) ->
     NoClashRun (tcols X) steps1 ->
     FreshRunIn (fun i => mk_circumstances go1 so1 (draw1 i)) 0 (tcols X) steps1 ->
     FreshRunIn (fun i => mk_circumstances go2 so2 (draw2 i)) 0 (tcols X) steps2 ->
     SameUpToColumnOrder out1 out2).
Proof. exact @multi_like. Qed.
Print Assumptions C140_multi_agg_joiner_columns.

Definition C140_multi_all : multi_params :=
  mk_multi_params false [["max"]; ["max"]] (Some [["id"]; ["id"]]) None None None (Some ["_p"; "_q"]).
Definition C140_steps (c0 c1 : list string) : list (step (V := nat)) :=
  [mk_step C140_aux ["id"] ["id"] c0 ["max"] "_p"; mk_step C140_X ["id"] ["id"] c1 ["max"] "_q"].
Example C140_multi_agg_joiner_columns_ex :
  (exists st fs, C140_fit_multi (fun l => l) (fun l => l) C140_multi_all =
     (st, Ok (fs, {| tcols := ["id"; "v"; "a_max_p"; "b_max_p"; "v_max_q"]; trows := [[1; 5; 11; 2; 5]; [2; 6; 13; 3; 6]; [3; 7; 0; 0; 7]] |}))) /\
  (exists st fs, C140_fit_multi (@rev _) (@rev _) C140_multi_all =
     (st, Ok (fs, {| tcols := ["id"; "v"; "b_max_p"; "a_max_p"; "v_max_q"]; trows := [[1; 5; 2; 11; 5]; [2; 6; 3; 13; 6]; [3; 7; 0; 0; 7]] |}))) /\
  StepsAre Polars (fun l => l) C140_multi_all C140_entries C140_X (C140_steps ["a"; "b"] ["v"]) /\
  StepsAre Polars (@rev _) C140_multi_all C140_entries C140_X (C140_steps ["b"; "a"] ["v"]) /\
  NoClashRun (tcols C140_X) (C140_steps ["a"; "b"] ["v"]) /\
  FreshRunIn (fun _ => C140_w1) 0 (tcols C140_X) (C140_steps ["a"; "b"] ["v"]) /\
  FreshRunIn (fun _ => C140_w2) 0 (tcols C140_X) (C140_steps ["b"; "a"] ["v"]).
Proof.
  split; [eexists _, _; vm_compute; reflexivity|]. split; [eexists _, _; vm_compute; reflexivity|].
  split. { split; [repeat constructor|]. split; [left; eexists; repeat split|]. split; [intros s [<-|[<-|[]]]; reflexivity|].
           split; [intros s [<-|[<-|[]]]; reflexivity|]. split; reflexivity. }
  split. { split; [repeat constructor|]. split; [left; eexists; repeat split|]. split; [intros s [<-|[<-|[]]]; reflexivity|].
           split; [intros s [<-|[<-|[]]]; reflexivity|]. split; reflexivity. }
  split.
  { split; [|split; [|exact I]]; (split; [intros c [<-|[]]; apply C140_short; simpl; lia|]).
    - intros q [<-|[<-|[]]]; (split; [apply C140_short; simpl; lia|]; split; simpl; intuition discriminate).
    - intros q [<-|[]]; (split; [apply C140_short; simpl; lia|]; split; simpl; intuition discriminate). }
  split; (split; [apply example_draw_ok; try reflexivity; repeat constructor|split; [apply example_draw_ok; try reflexivity; repeat constructor|exact I]]).
Qed.

Theorem C140_multi_agg_joiner_order_refuted :
  exists go1 so1 go2 so2 st1 fs1 out1 st2 fs2 out2,
    (forall l : list (list nat), Permutation (go1 l) l) /\ (forall l : list string, Permutation (so1 l) l) /\
    (forall l : list (list nat), Permutation (go2 l) l) /\ (forall l : list string, Permutation (so2 l) l) /\
    C140_fit_multi go1 so1 (C140_multi None) = (st1, Ok (fs1, out1)) /\
    C140_fit_multi go2 so2 (C140_multi None) = (st2, Ok (fs2, out2)) /\ tcols out1 <> tcols out2.
Proof.
  exists (fun l => l), (fun l => l), (fun l => l), (@rev _). eexists _, _, _, _, _, _.
  split; [intros; apply Permutation_refl|]. split; [intros; apply Permutation_refl|]. split; [intros; apply Permutation_refl|].
  split; [intros; apply Permutation_sym, Permutation_rev|].
  split; [vm_compute; reflexivity|]. split; [vm_compute; reflexivity|]. discriminate.
Qed.
Print Assumptions C140_multi_agg_joiner_order_refuted.

(** An InterpolationJoiner also orders columns as a set, when its estimators predict several columns
    together (as forests do, or a nearest neighbours regressor). *)
Definition C140_iaux : frame (list nat) := [("k", [1; 2]); ("a", [1; 2]); ("b", [5; 6])].
Definition C140_ifit (so : list string -> list string) :=
  M_interp.fit C140_isnull Pandas (fun _ _ => true) (fun _ _ => false) (fun _ _ => false) so
    (fun t : frame (list nat) => match t with (_, c) :: _ => Ok (tt, c) | [] => Err ValueError end)
    (fun _ => true) (fun _ (_ : list nat) (Y : list (list nat)) => Ok Y)
    (mk_interp_params C140_iaux KNone (KStr "id") (KStr "k") "_x" PRaise) None.
Definition C140_itransform f :=
  M_interp.transform 0 (fun (_ : unit) (t : frame (list nat)) => match t with (_, c) :: _ => Ok c | [] => Err ValueError end)
    (fun (m : list (list nat)) (kv : list nat) => Ok (map (fun y => repeat (fold_right Nat.add 0 y) (length kv)) m))
    example_draw f [("id", [7; 8])].

Theorem C140_interpolation_joiner_order_refuted :
  exists so1 so2 f1 f2 out1 out2,
    (forall l : list string, Permutation (so1 l) l) /\ (forall l : list string, Permutation (so2 l) l) /\
    C140_ifit so1 = Ok f1 /\ C140_ifit so2 = Ok f2 /\
    C140_itransform f1 = Ok (out1, []) /\ C140_itransform f2 = Ok (out2, []) /\ column_names out1 <> column_names out2 /\
    Permutation out1 out2.
Proof.
  exists (fun l => l), (@rev _). eexists _, _, _, _.
  split; [intros; apply Permutation_refl|]. split; [intros; apply Permutation_sym, Permutation_rev|].
  split; [vm_compute; reflexivity|]. split; [vm_compute; reflexivity|].
  split; [vm_compute; reflexivity|]. split; [vm_compute; reflexivity|]. split; [discriminate|].
  apply perm_skip. apply perm_swap.
Qed.
Print Assumptions C140_interpolation_joiner_order_refuted.
