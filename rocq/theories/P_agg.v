(** C19: aggregation joins. *)
From Verif Require Import Base M_names M_oncols M_agg L_names L_leftjoin L_agg L_agg2.
From Coq Require Import Permutation.
Open Scope string_scope.
Open Scope list_scope.
Open Scope nat_scope.

(** Example data: 0 is null. *)
Definition C19_isnull (v : nat) : bool := v =? 0.
Definition C19_aggf (op : string) (vs : list nat) : res nat :=
  if eqd op "count" then Ok (length (filter (fun v => negb (v =? 0)) vs))
  else if eqd op "sum" then Ok (fold_right Nat.add 0 vs)
  else Ok (fold_right Nat.max 0 vs).
Definition C19_X : table nat :=
  {| tcols := ["id"; "v"]; trows := [[1; 5]; [2; 6]; [0; 7]; [1; 8]; [3; 9]] |}.
Definition C19_aux : table nat :=
  {| tcols := ["key"; "a"]; trows := [[2; 10]; [1; 11]; [0; 12]; [2; 13]; [4; 14]; [2; 0]] |}.
Definition C19_params : agg_params :=
  mk_agg_params (AuxTable C19_aux) (KList ["max"; "count"]) KNone (KStr "id") (KStr "key") KNone "_aux".
Definition C19_fit (lib : library) (order : list (list nat) -> list (list nat)) (p : agg_params) (X : table nat) :=
  fit_transform 0 C19_isnull lib order C19_aggf (fun l => l) example_draw (fun _ => true) p X.

Ltac fin_forall := let I := fresh "I" in intros ? I; simpl in I;
  repeat (destruct I as [<-|I]; [try reflexivity; try (simpl; tauto); repeat constructor|]); try (destruct I).
Ltac wf_table := split; [repeat constructor; simpl; intuition discriminate|fin_forall].

(** The name of a result determines the column and the operation. *)
Theorem C19_names_distinct :
  forall suffix cols ops, NoDup cols -> NoDup ops ->
  (forall op, In op ops -> In op SUPPORTED_OPS) ->
  NoDup (map (result_name suffix) (list_prod cols ops)).
Proof. exact result_names_distinct. Qed.
Print Assumptions C19_names_distinct.

Example C19_names_distinct_ex :
  NoDup ["a"; "a_max"; "b"] /\ NoDup ["max"; "count"] /\ (forall op, In op ["max"; "count"] -> In op SUPPORTED_OPS) /\
  map (result_name "_x") (list_prod ["a"; "a_max"; "b"] ["max"; "count"]) =
  ["a_max_x"; "a_count_x"; "a_max_max_x"; "a_max_count_x"; "b_max_x"; "b_count_x"].
Proof.
  split; [repeat constructor; simpl; intuition discriminate|].
  split; [repeat constructor; simpl; intuition discriminate|]. split; [|reflexivity].
  intros op I. simpl in *. tauto.
Qed.

(** Any result of AggJoiner has the main rows, in order; the values attached to a row are computed
    from exactly the auxiliary rows with the same key, and are nulls if there is none. *)
Theorem C19_agg_joiner :
  forall (V : Type) (EV : EqD V) (null : V) (isnull : V -> bool) (lib : library)
         (group_order : list (list V) -> list (list V)) (aggf : string -> list V -> res V)
         (set_order : list string -> list string),
  (forall l, Permutation (group_order l) l) ->
  forall draw is_numeric p X f out aux mk ak cols ops,
    fit_transform null isnull lib group_order aggf set_order draw is_numeric p X = Ok (f, out) ->
    AuxIs p X aux -> KeysAre p mk ak -> ColsAre set_order p aux ak cols -> OpsAre p ops ->
    WFTable X -> WFTable aux -> NoDup cols -> NoDup ops ->
    (lib = Pandas -> forall q, In q (list_prod cols ops) -> ~ In (result_name (p_suffix p) q) ak) ->
    Fresh draw (length ak + length (list_prod cols ops))
          (ak ++ map (result_name (p_suffix p)) (list_prod cols ops)) (tcols X) ->
    Joined null isnull aggf X aux mk ak cols ops (p_suffix p) out.
Proof. exact @fit_spec. Qed.
Print Assumptions C19_agg_joiner.

Example C19_agg_joiner_ex :
  (forall l : list (list nat), Permutation (rev l) l) /\
  (exists f, C19_fit Pandas (@rev _) C19_params C19_X =
     Ok (f, {| tcols := ["id"; "v"; "a_max_aux"; "a_count_aux"];
               trows := [[1; 5; 11; 1]; [2; 6; 13; 2]; [0; 7; 0; 0]; [1; 8; 11; 1]; [3; 9; 0; 0]] |})) /\
  (exists f, C19_fit Polars (fun l => l) C19_params C19_X =
     Ok (f, {| tcols := ["id"; "v"; "a_max_aux"; "a_count_aux"];
               trows := [[1; 5; 11; 1]; [2; 6; 13; 2]; [0; 7; 0; 0]; [1; 8; 11; 1]; [3; 9; 0; 0]] |})) /\
  AuxIs C19_params C19_X C19_aux /\ KeysAre C19_params ["id"] ["key"] /\
  ColsAre (fun l => l) C19_params C19_aux ["key"] ["a"] /\ OpsAre C19_params ["max"; "count"] /\
  WFTable C19_X /\ WFTable C19_aux /\
  (forall q, In q (list_prod ["a"] ["max"; "count"]) -> ~ In (result_name "_aux" q) ["key"]) /\
  Fresh example_draw 3 (["key"] ++ map (result_name "_aux") (list_prod ["a"] ["max"; "count"])) (tcols C19_X).
Proof.
  split; [intros l; apply Permutation_sym, Permutation_rev|].
  split; [eexists; vm_compute; reflexivity|]. split; [eexists; vm_compute; reflexivity|].
  split; [right; reflexivity|]. split; [right; repeat split; discriminate|].
  split; [left; split; reflexivity|]. split; [reflexivity|].
  split; [wf_table|]. split; [wf_table|]. split.
  - intros q I. simpl in I. destruct I as [<-|[<-|[]]]; simpl; intuition discriminate.
  - apply example_draw_ok; [repeat constructor|reflexivity].
Qed.

(** A fit with correct parameters succeeds. *)
Theorem C19_fit_succeeds :
  forall (V : Type) (EV : EqD V) (null : V) (isnull : V -> bool) (lib : library)
         (group_order : list (list V) -> list (list V)) (aggf : string -> list V -> res V)
         (set_order : list string -> list string),
  (forall l, Permutation (group_order l) l) ->
  forall draw is_numeric p X aux mk ak cols ops,
    AuxIs p X aux -> KeysAre p mk ak -> ColsAre set_order p aux ak cols -> OpsAre p ops ->
    WFTable X -> WFTable aux -> NoDup cols -> NoDup ops -> NoDup ak ->
    (forall op, In op ops -> In op SUPPORTED_OPS) ->
    ak <> [] -> cols <> [] -> ops <> [] ->
    (forall c, In c mk -> In c (tcols X)) -> (forall c, In c ak -> In c (tcols aux)) ->
    (forall c, In c cols -> In c (tcols aux)) ->
    numeric_if_needed is_numeric ak cols ops ->
    (forall q, In q (list_prod cols ops) -> ~ In (result_name "" q) ak /\ ~ In (result_name (p_suffix p) q) ak) ->
    (forall op vs, In op ops -> vs <> [] -> exists v, aggf op vs = Ok v) ->
    Fresh draw (length ak + length (list_prod cols ops))
          (ak ++ map (result_name (p_suffix p)) (list_prod cols ops)) (tcols X) ->
    exists f out,
      fit_transform null isnull lib group_order aggf set_order draw is_numeric p X = Ok (f, out).
Proof. exact @fit_succeeds. Qed.
Print Assumptions C19_fit_succeeds.

Example C19_fit_succeeds_ex :
  numeric_if_needed (fun _ => true) ["key"] ["a"] ["max"; "count"] /\
  (forall q, In q (list_prod ["a"] ["max"; "count"]) ->
     ~ In (result_name "" q) ["key"] /\ ~ In (result_name "_aux" q) ["key"]) /\
  (forall op vs, In op ["max"; "count"] -> vs <> [] -> exists v, C19_aggf op vs = Ok v) /\
  (forall c, In c ["id"] -> In c (tcols C19_X)) /\ (forall c, In c ["key"; "a"] -> In c (tcols C19_aux)).
Proof.
  split; [intros _ c _ _; reflexivity|]. split.
  { intros q I. simpl in I. destruct I as [<-|[<-|[]]]; simpl; intuition discriminate. }
  split. { intros op vs I _. simpl in I. destruct I as [<-|[<-|[]]]; eexists; reflexivity. }
  split; intros c I; simpl in *; tauto.
Qed.

(** Applied to another table with the same columns, a fitted AggJoiner attaches values computed from
    the auxiliary table of the fit; the names are those of the fit. Other columns are refused. *)
Theorem C19_transform :
  forall (V : Type) (EV : EqD V) (null : V) (isnull : V -> bool) (lib : library)
         (group_order : list (list V) -> list (list V)) (aggf : string -> list V -> res V)
         (set_order : list string -> list string),
  (forall l, Permutation (group_order l) l) ->
  forall draw is_numeric p X f out aux mk ak cols ops draw' X',
    fit_transform null isnull lib group_order aggf set_order draw is_numeric p X = Ok (f, out) ->
    AuxIs p X aux -> KeysAre p mk ak -> ColsAre set_order p aux ak cols -> OpsAre p ops ->
    WFTable X -> WFTable aux -> NoDup cols -> NoDup ops ->
    (lib = Pandas -> forall q, In q (list_prod cols ops) -> ~ In (result_name (p_suffix p) q) ak) ->
    Fresh draw (length ak + length (list_prod cols ops))
          (ak ++ map (result_name (p_suffix p)) (list_prod cols ops)) (tcols X) ->
    Fresh draw' (length ak + length (list_prod cols ops))
          (ak ++ map (result_name (p_suffix p)) (list_prod cols ops)) (tcols X) ->
    WFTable X' ->
    if eqd (tcols X') (tcols X) then
      exists out', M_agg.transform null isnull lib draw' f X' = Ok out' /\ tcols out' = tcols out /\
        Forall2 (fun l o => exists vals, o = l ++ vals /\
               Attached null isnull aggf X' aux mk ak (list_prod cols ops) l vals)
            (trows X') (trows out')
    else M_agg.transform null isnull lib draw' f X' = Err ValueError.
Proof. exact @transform_spec. Qed.
Print Assumptions C19_transform.

Definition C19_X2 : table nat := {| tcols := ["id"; "v"]; trows := [[4; 1]; [2; 2]; [5; 3]] |}.
Example C19_transform_ex :
  WFTable C19_X2 /\
  (exists f out, C19_fit Pandas (@rev _) C19_params C19_X = Ok (f, out) /\
     M_agg.transform 0 C19_isnull Pandas example_draw f C19_X2 =
     Ok {| tcols := ["id"; "v"; "a_max_aux"; "a_count_aux"];
           trows := [[4; 1; 14; 1]; [2; 2; 13; 2]; [5; 3; 0; 0]] |} /\
     M_agg.transform 0 C19_isnull Pandas example_draw f C19_aux = Err ValueError).
Proof.
  split; [wf_table|]. eexists _, _. split; [vm_compute; reflexivity|]. split; vm_compute; reflexivity.
Qed.

(** Wrong parameters are refused. *)
Theorem C19_fit_refuses :
  forall (V : Type) (EV : EqD V) (null : V) (isnull : V -> bool) (lib : library)
         (group_order : list (list V) -> list (list V)) (aggf : string -> list V -> res V)
         (set_order : list string -> list string) draw is_numeric p X aux mk ak cols ops,
    let fit := fit_transform null isnull lib group_order aggf set_order in
    (p_aux_table p = AuxOther -> fit draw is_numeric p X = Err ValueError) /\
    (AuxIs p X aux -> (forall m a, ~ KeysAre p m a) -> fit draw is_numeric p X = Err ValueError) /\
    (AuxIs p X aux -> KeysAre p mk ak -> ColsAre set_order p aux ak cols -> OpsAre p ops ->
     ((exists c, In c mk /\ ~ In c (tcols X)) \/ (exists c, In c ak /\ ~ In c (tcols aux)) \/
      (exists c, In c cols /\ ~ In c (tcols aux)) \/ ops = [] \/
      (exists op, In op ops /\ ~ In op SUPPORTED_OPS)) ->
     fit draw is_numeric p X = Err ValueError) /\
    (AuxIs p X aux -> KeysAre p mk ak -> ColsAre set_order p aux ak cols -> OpsAre p ops ->
     (forall c, In c mk -> In c (tcols X)) -> (forall c, In c ak -> In c (tcols aux)) ->
     (forall c, In c cols -> In c (tcols aux)) -> (forall op, In op ops -> In op SUPPORTED_OPS) ->
     (exists op, In op ops /\ In op ["sum"; "median"; "mean"; "std"]) ->
     (exists c, In c cols /\ ~ In c ak /\ is_numeric c = false) ->
     fit draw is_numeric p X = Err AttributeError).
Proof. exact @fit_refuses. Qed.
Print Assumptions C19_fit_refuses.

Definition C19_params_sum : agg_params (V := nat) :=
  mk_agg_params AuxX (KStr "sum") (KStr "id") KNone KNone (KStr "v") "_x".
Example C19_fit_refuses_ex :
  AuxIs C19_params_sum C19_X C19_X /\ KeysAre C19_params_sum ["id"] ["id"] /\
  ColsAre (fun l => l) C19_params_sum C19_X ["id"] ["v"] /\ OpsAre C19_params_sum ["sum"] /\
  fit_transform 0 C19_isnull Pandas (fun l => l) C19_aggf (fun l => l) example_draw (fun _ => false) C19_params_sum C19_X
  = Err AttributeError /\
  C19_fit Pandas (fun l => l) (mk_agg_params AuxX (KStr "first") (KStr "id") KNone KNone (KStr "v") "_x") C19_X
  = Err ValueError.
Proof.
  split; [left; split; reflexivity|]. split; [left; repeat split; discriminate|].
  split; [right; split; [discriminate|reflexivity]|]. split; [reflexivity|]. split; vm_compute; reflexivity.
Qed.

(** Without the condition on the suffix, the values attached are wrong: with pandas, a result that
    takes the name of a key column is used as the key of the join. *)
Theorem C19_name_of_key_refuted :
  exists p X f out aux mk ak cols ops,
    fit_transform 0 C19_isnull Pandas (fun l => l) C19_aggf (fun l => l) example_draw (fun _ => true) p X = Ok (f, out) /\
    AuxIs p X aux /\ KeysAre p mk ak /\ ColsAre (fun l => l) p aux ak cols /\ OpsAre p ops /\
    WFTable X /\ WFTable aux /\ NoDup cols /\ NoDup ops /\ NoDup ak /\
    Fresh example_draw (length ak + length (list_prod cols ops))
          (ak ++ map (result_name (p_suffix p)) (list_prod cols ops)) (tcols X) /\
    ~ Joined 0 C19_isnull C19_aggf X aux mk ak cols ops (p_suffix p) out.
Proof.
  exists (mk_agg_params (AuxTable {| tcols := ["a_count_x"; "a"]; trows := [[7; 10]; [7; 11]] |})
            (KStr "count") KNone (KStr "id") (KStr "a_count_x") KNone "_x").
  exists {| tcols := ["id"; "v"]; trows := [[7; 5]; [2; 6]] |}.
  eexists. eexists. eexists. exists ["id"], ["a_count_x"], ["a"], ["count"].
  split; [vm_compute; reflexivity|]. split; [right; reflexivity|].
  split; [right; repeat split; discriminate|]. split; [left; split; reflexivity|]. split; [reflexivity|].
  split; [wf_table|]. split; [wf_table|].
  split; [repeat constructor; simpl; intuition discriminate|].
  split; [repeat constructor; simpl; intuition discriminate|].
  split; [repeat constructor; simpl; intuition discriminate|]. split.
  - apply example_draw_ok; [repeat constructor|reflexivity].
  - intros (_ & _ & F). cbn [trows] in F. inversion F as [|l o ls os _ F1]; subst.
    inversion F1 as [|l o ls os (vals & E & k & Hk & H) _]; subst. clear F F1.
    simpl in E. injection E as <-.
    apply rk_spec in Hk; [|repeat constructor; simpl; intuition discriminate]. vm_compute in Hk. injection Hk as <-.
    destruct H as [(_ & rows & HS & Hne & _)|(_ & H)]; [|discriminate H].
    apply Hne. assert (K : forall r, In r [[7; 10]; [7; 11]] -> ~ ValuesAt ["a_count_x"; "a"] r ["a_count_x"] [2]).
    { intros r I A. apply rk_spec in A; [|repeat constructor; simpl; intuition discriminate].
      destruct I as [<-|[<-|[]]]; vm_compute in A; discriminate A. }
    inversion HS as [|? ? ? Px HS1|? ? ? Px HS1]; subst; [exfalso; exact (K _ (or_introl eq_refl) Px)|].
    inversion HS1 as [|? ? ? Px1 HS2|? ? ? Px1 HS2]; subst; [exfalso; exact (K _ (or_intror (or_introl eq_refl)) Px1)|].
    inversion HS2; subst. reflexivity.
Qed.
Print Assumptions C19_name_of_key_refuted.

(** AggTarget: the values attached to a row are computed from exactly the targets of the rows of the
    fit with the same key. *)
Theorem C19_agg_target :
  forall (V : Type) (EV : EqD V) (null : V) (isnull : V -> bool) (lib : library)
         (group_order : list (list V) -> list (list V)) (aggf : string -> list V -> res V),
  (forall l, Permutation (group_order l) l) ->
  forall draw is_numeric p X y f out mk ops,
    target_fit_transform null isnull lib group_order aggf draw is_numeric p X y = Ok (f, out) ->
    mk = atleast_1d_or_none (t_main_key p) -> ops = atleast_1d_or_none (t_operations p) ->
    WFTable X -> WFTable y -> NoDup ops -> NoDup mk ->
    (forall c, In c mk -> ~ In c (tcols y)) ->
    (lib = Pandas -> forall q, In q (list_prod (tcols y) ops) -> ~ In (result_name (t_suffix p) q) mk) ->
    Fresh draw (length mk + length (list_prod (tcols y) ops))
          (mk ++ map (result_name (t_suffix p)) (list_prod (tcols y) ops)) (tcols X) ->
    (exists names, tcols out = tcols X ++ names /\ length names = length (list_prod (tcols y) ops)) /\
    NoDup (tcols out) /\
    Forall2 (fun l o => exists vals, o = l ++ vals /\
               TAttached null isnull aggf X y X mk (list_prod (tcols y) ops) l vals)
            (trows X) (trows out) /\
    (forall draw' X', WFTable X' -> tcols X' = tcols X ->
       Fresh draw' (length mk + length (list_prod (tcols y) ops))
          (mk ++ map (result_name (t_suffix p)) (list_prod (tcols y) ops)) (tcols X) ->
       exists out', M_agg.transform null isnull lib draw' f X' = Ok out' /\ tcols out' = tcols out /\
         Forall2 (fun l o => exists vals, o = l ++ vals /\
               TAttached null isnull aggf X y X' mk (list_prod (tcols y) ops) l vals)
            (trows X') (trows out')).
Proof. exact (fun V EV null isnull lib go aggf => @target_fit_spec V EV null isnull lib go aggf (fun l => l)). Qed.
Print Assumptions C19_agg_target.

Definition C19_y : table nat := {| tcols := ["t"]; trows := [[10]; [20]; [30]; [40]; [50]] |}.
Definition C19_tparams := mk_target_params (KStr "id") (KStr "sum") "_target".
Definition C19_tfit (y : table nat) :=
  target_fit_transform 0 C19_isnull Polars (@rev _) C19_aggf example_draw (fun _ => true) C19_tparams C19_X y.
Example C19_agg_target_ex :
  WFTable C19_X /\ WFTable C19_y /\ (forall c, In c ["id"] -> ~ In c (tcols C19_y)) /\
  exists f out, C19_tfit C19_y = Ok (f, out) /\
    tcols out = ["id"; "v"; "t_sum_target"] /\
    trows out = [[1; 5; 50]; [2; 6; 20]; [0; 7; 0]; [1; 8; 50]; [3; 9; 50]] /\
    M_agg.transform 0 C19_isnull Polars example_draw f C19_X2 =
    Ok {| tcols := ["id"; "v"; "t_sum_target"]; trows := [[4; 1; 0]; [2; 2; 20]; [5; 3; 0]] |}.
Proof.
  split; [wf_table|]. split; [wf_table|]. split; [intros c [<-|[]] [I|[]]; discriminate I|].
  eexists _, _. split; [vm_compute; reflexivity|]. split; [reflexivity|]. split; vm_compute; reflexivity.
Qed.

(** Without the condition on the names of the targets, the keys may be aggregated instead. *)
Theorem C19_target_named_as_key_refuted :
  exists p X y f out mk ops,
    target_fit_transform 0 C19_isnull Polars (fun l => l) C19_aggf example_draw (fun _ => true) p X y = Ok (f, out) /\
    mk = atleast_1d_or_none (t_main_key p) /\ ops = atleast_1d_or_none (t_operations p) /\
    WFTable X /\ WFTable y /\ NoDup ops /\ NoDup mk /\
    Fresh example_draw (length mk + length (list_prod (tcols y) ops))
          (mk ++ map (result_name (t_suffix p)) (list_prod (tcols y) ops)) (tcols X) /\
    ~ Forall2 (fun l o => exists vals, o = l ++ vals /\
               TAttached 0 C19_isnull C19_aggf X y X mk (list_prod (tcols y) ops) l vals)
            (trows X) (trows out).
Proof.
  exists (mk_target_params (KStr "id") (KStr "max") "_target").
  exists {| tcols := ["id"; "v"]; trows := [[7; 5]] |}, {| tcols := ["id"]; trows := [[30]] |}.
  eexists. eexists. exists ["id"], ["max"].
  split; [vm_compute; reflexivity|]. split; [reflexivity|]. split; [reflexivity|].
  split; [wf_table|]. split; [wf_table|].
  split; [repeat constructor; simpl; intuition discriminate|].
  split; [repeat constructor; simpl; intuition discriminate|]. split.
  - apply example_draw_ok; [repeat constructor|reflexivity].
  - intros F. cbn [trows] in F. inversion F as [|l o ls os (vals & E & k & Hk & H) _]; subst.
    simpl in E. injection E as <-.
    apply rk_spec in Hk; [|repeat constructor; simpl; intuition discriminate]. vm_compute in Hk. injection Hk as <-.
    destruct H as [(_ & sel & HS & Hne & HC)|([H|H] & _)].
    + cbn [trows combine] in HS. inversion HS as [|? ? s Px HS1|? ? s Px HS1]; subst.
      * inversion HS1; subst. cbn [map snd] in HC. inversion HC as [|q v ? ? (vs & Fv & Ev) _]; subst.
        inversion Fv as [|r x rs xs Hv Fv']; subst. inversion Fv'; subst. cbn [fst] in Hv.
        apply cell_spec in Hv; [|repeat constructor; simpl; intuition discriminate]. vm_compute in Hv.
        injection Hv as <-. vm_compute in Ev. discriminate Ev.
      * inversion HS1; subst. congruence.
    + apply H. intros v [<-|[]]. reflexivity.
    + apply (H [7; 5] (or_introl eq_refl)). constructor; try constructor. exists 0. split; reflexivity.
Qed.
Print Assumptions C19_target_named_as_key_refuted.
