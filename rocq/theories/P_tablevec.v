(** C15, C16, C60: TableVectorizer. *)
From Verif Require Import Base M_str M_names L_names M_select L_select M_oncols L_oncols
  M_checkinput L_checkinput M_tablevec L_tablevec L_tablevec3 L_tablevec4 L_tablevec5.
Open Scope string_scope.
Open Scope list_scope.
Open Scope nat_scope.

(** C15. Every column of a fit that meets [GoodFit] is either a specific column, handled by its
    specific transformer applied to the original data, or goes through preprocessing and, unless
    dropped, is handled by the encoder of its kind; the outputs stand in the place of the
    column; kinds, transformers and processing steps are recorded accordingly; names are
    distinct; [kind_to_columns_] lists each column once, under its kind. *)
Theorem C15_routing :
  forall (C St O : Type) (passthrough_st drop_st : St) str sparse draw0 draws (p : params C St)
    (X : input C O) ci X1 t1 t2 t3 t4 specs,
    GoodFit passthrough_st drop_st str sparse draw0 draws p X ci X1 t1 t2 t3 t4 specs ->
    exists tv blks,
      tv_fit_transform passthrough_st drop_st str sparse draw0 draws p X = Ok (tv, concat blks) /\
      Forall2 (ColumnResult p t1 t2 t3 t4 specs tv) X1 blks /\
      NoDup (column_names (concat blks)) /\
      tv_all_outputs tv = column_names (concat blks) /\
      (forall k, In k ["numeric"; "datetime"; "low_cardinality"; "high_cardinality"; "specific"] ->
         exists l, dget k (tv_kind_to_columns tv) = Some l /\ NoDup l /\
         forall n, In n l <-> dget n (tv_column_to_kind tv) = Some k).
Proof. exact @tv_routing. Qed.
Print Assumptions C15_routing.

(** C15. Configurations that are not pairs, mention something that is not a string, or a column
    already mentioned in an earlier pair, are rejected; all others pass this check. *)
Theorem C15_bad_specific :
  forall (C St O : Type) (passthrough_st drop_st : St) str sparse draw0 draws (p : params C St) (X : input C O),
    BadSpecific [] (specific_transformers p) ->
    tv_fit_transform passthrough_st drop_st str sparse draw0 draws p X = Err ValueError.
Proof. exact @tv_fit_bad_specific. Qed.
Print Assumptions C15_bad_specific.
Theorem C15_specific_check_iff :
  forall (C St : Type) (cs : list (config C St)) seen,
    (exists r, check_specific_columns seen cs = Ok r) <-> ~ BadSpecific seen cs.
Proof. exact @check_specific_iff. Qed.
Print Assumptions C15_specific_check_iff.

(** C15. An unknown string in place of a transformer is rejected. *)
Theorem C15_bad_name :
  forall (C St O : Type) (passthrough_st drop_st : St) str sparse draw0 draws (p : params C St) (X : input C O) s,
    (exists a, In a [numeric p; datetime p; low_cardinality p; high_cardinality p] /\ a = TName s) ->
    s <> "passthrough" -> s <> "drop" ->
    tv_fit_transform passthrough_st drop_st str sparse draw0 draws p X = Err ValueError.
Proof. exact @tv_fit_bad_name. Qed.
Print Assumptions C15_bad_name.

(** C15. A specific column missing from the table makes the fit fail (even if an encoder
    happens to create a column of that name). *)
Theorem C15_missing_specific :
  forall (C St O : Type) (passthrough_st drop_st : St) str sparse draw0 draws (p : params C St)
    (X : input C O) ci X1 t1 t2 t3 t4 specs,
    Means passthrough_st drop_st (numeric p) t1 -> Means passthrough_st drop_st (datetime p) t2 ->
    Means passthrough_st drop_st (low_cardinality p) t3 -> Means passthrough_st drop_st (high_cardinality p) t4 ->
    Forall2 (MeansSpec passthrough_st drop_st) (specific_transformers p) specs ->
    PairwiseDisjoint (map snd specs) ->
    ci_fit_transform str sparse draw0 X = Ok (ci, X1) -> NoDup (column_names X1) ->
    FreshTV (module_name_ ci) draws p t1 t2 t3 t4 specs X1 ->
    (exists n, Specific specs n /\ ~ In n (column_names X1)) ->
    exists e, tv_fit_transform passthrough_st drop_st str sparse draw0 draws p X = Err e.
Proof. exact @tv_missing. Qed.
Print Assumptions C15_missing_specific.

(** C16, the part that holds: outputs listed for columns that are not dropped exist, all
    outputs are listed, and without dropped columns output_to_input_ is the converse of
    input_to_outputs_. *)
Theorem C16_provenance_partial :
  forall (C St O : Type) (passthrough_st drop_st : St) str sparse draw0 draws (p : params C St)
    (X : input C O) ci X1 t1 t2 t3 t4 specs,
    GoodFit passthrough_st drop_st str sparse draw0 draws p X ci X1 t1 t2 t3 t4 specs ->
    exists tv out,
      tv_fit_transform passthrough_st drop_st str sparse draw0 draws p X = Ok (tv, out) /\
      dkeys (tv_input_to_outputs tv) = column_names X1 /\
      (forall n names, dget n (tv_input_to_outputs tv) = Some names -> dget n (tv_transformers tv) <> None ->
         forall o, In o names -> In o (column_names out)) /\
      (forall o, In o (column_names out) -> exists n names,
         dget n (tv_input_to_outputs tv) = Some names /\ In o names /\ dget n (tv_transformers tv) <> None) /\
      ((forall n, In n (column_names X1) -> dget n (tv_transformers tv) <> None) ->
       forall o n, dget o (tv_output_to_input tv) = Some n <->
         exists names, dget n (tv_input_to_outputs tv) = Some names /\ In o names) /\
      (forall n, In n (column_names X1) -> dget n (tv_transformers tv) = None ->
         dget n (tv_input_to_outputs tv) = Some [n]).
Proof. exact @tv_provenance. Qed.
Print Assumptions C16_provenance_partial.

(** ** Example: a column of each kind, one changed and one dropped by preprocessing. *)
Definition ex_drop (n : string) (c : nat) : outcome nat nat := if c =? 0 then Fitted [] 100 else Rejected.
Definition ex_clean (n : string) (c : nat) : outcome nat nat := if c =? 9 then Fitted [(n, 8)] 101 else Rejected.
Definition ex_split (n : string) (c : nat) : outcome nat nat := Fitted [((n ++ "_y")%string, c * 10); ((n ++ "_m")%string, c * 10 + 1)] c.
Definition ex_float (n : string) (c : nat) : outcome nat nat := if c =? 3 then Rejected else Fitted [(n, c + 1000)] 102.
Definition ex_params (spec : list (config nat nat)) : params nat nat :=
  {| preprocessors := [ex_drop; ex_clean];
     numeric := TName "passthrough"; datetime := TObj ex_split;
     low_cardinality := TName "drop"; high_cardinality := TObj ex_split;
     specific_transformers := spec;
     to_float32 := ex_float;
     is_numeric := fun c => c =? 1; is_any_date := fun c => c =? 2; low_card := fun c => c =? 4;
     is_categorical := fun c => c =? 81 |}.
Definition ex_spec : list (config nat nat) := [Config (TObj ex_split) [Some "e"]].
Definition ex_X1 : frame nat := [("a", 1); ("b", 2); ("c", 9); ("d", 0); ("e", 0); ("f", 4)].
Definition ex_in : input nat nat := DataFrame Pandas (map (fun p => (inl (fst p), snd p)) ex_X1).
Example C15_ex :
  match tv_fit_transform 200 201 str_nat (fun _ => false) example_draw example_draws (ex_params ex_spec) ex_in with
  | Ok (tv, out) =>
      out = [("a", 1001); ("b_y", 1020); ("b_m", 1021); ("c_y", 1080); ("c_m", 81); ("e_y", 0); ("e_m", 1)] /\
      tv_kind_to_columns tv = [("numeric", ["a"]); ("datetime", ["b"]); ("low_cardinality", ["f"]);
                               ("high_cardinality", ["c"]); ("specific", ["e"])] /\
      dget "c" (tv_steps tv) = Some [inl 101; inl 8; inr [("c_y", 102)]]
  | Err _ => False
  end.
Proof. vm_compute. repeat split. Qed.

Lemma short_untagged : forall s, String.length s < 8 -> ~ SubString "__skrub_" s.
Proof. intros s L S. apply SubString_length in S. simpl in S. lia. Qed.
Ltac fresh_step :=
  split; [intros columns Hc; vm_compute in Hc; injection Hc as <-; apply example_draws_fresh; vm_compute;
          [lia|intros s Hs; repeat (destruct Hs as [<-|Hs]; [vm_compute; lia|]); destruct Hs]
         |intros f X' Hf; vm_compute in Hf; injection Hf as <- <-].
Lemma ex_fresh : FreshTV Pandas example_draws (ex_params ex_spec) (fun n c => Fitted [(n, c)] 200) ex_split
    (fun n c => Fitted [] 201) ex_split [(ex_split, ["e"])] ex_X1.
Proof.
  split; [exact example_draws_hex|]. split; [repeat fresh_step; exact I|].
  intros fpre X2 E. vm_compute in E. injection E as <- <-. split; [repeat fresh_step; exact I|].
  intros fenc X3 E. vm_compute in E. injection E as <- <-. split; [repeat fresh_step; exact I|].
  intros fspec X4 E. vm_compute in E. injection E as <- <-. repeat fresh_step. exact I.
Qed.
Lemma short_tidiable : forall s, String.length s < 8 -> Tidiable s.
Proof.
  intros s Ls. pose proof (short_untagged s Ls) as N. exists s, [].
  split; [|split; [exact N|constructor]]. apply no_tag_Untag. exact N.
Qed.
Example C15_ex_hyps : exists ci,
  GoodFit 200 201 str_nat (fun _ => false) example_draw example_draws (ex_params ex_spec) ex_in ci ex_X1
    (fun n c => Fitted [(n, c)] 200) ex_split (fun n c => Fitted [] 201) ex_split [(ex_split, ["e"])].
Proof.
  eexists. repeat (split; [solve [constructor]|]).
  split; [constructor; [|constructor]; eexists; split; [reflexivity|constructor]|].
  split; [constructor; [intros l' x []|constructor]|].
  split; [vm_compute; reflexivity|].
  split; [repeat constructor; simpl; intuition discriminate|].
  split; [intros n (e & [<-|[]] & J); simpl in J; destruct J as [<-|[]]; simpl; tauto|].
  split; [intros n I _; apply canonical_untagged; apply short_untagged; simpl in I;
          repeat (destruct I as [<-|I]; [simpl; lia|]); destruct I|].
  split.
  { intros n c [E|[E|[E|[E|[E|[E|[]]]]]]] N; injection E as <- <-.
    5:{ exfalso. apply N. exists (ex_split, ["e"]). simpl. auto. }
    all: do 2 eexists; split;
      [repeat first [eapply PC_nil | eapply PC_drop; reflexivity
                    | eapply PC_apply; [reflexivity|] | eapply PC_reject; [reflexivity|]]|].
    all: intros c' E; injection E as <- || discriminate E.
    all: do 2 eexists; split; [reflexivity|].
    all: simpl; repeat constructor; apply short_tidiable; simpl; lia. }
  split; [intros e n c [<-|[]] _ _; do 2 eexists; reflexivity|].
  split; [|exact ex_fresh].
  intros n c. simpl. unfold ex_float. destruct (c =? 3); [left; reflexivity|right]. do 2 eexists. reflexivity.
Qed.

(** Example for [C15_bad_specific]: column [e] in two pairs. *)
Example C15_ex_twice : BadSpecific [] (specific_transformers
    (ex_params [Config (TObj ex_split) [Some "e"]; Config (TName "drop") [Some "f"; Some "e"]])).
Proof. apply BS_later. apply BS_cols with (x := Some "e"); simpl; auto. Qed.
(** Example for [C15_missing_specific]: [b_y] is created by the encoder of [b]. *)
Example C15_ex_missing :
  tv_fit_transform 200 201 str_nat (fun _ => false) example_draw example_draws
    (ex_params [Config (TObj ex_split) [Some "b_y"]]) ex_in = Err KeyError.
Proof. vm_compute. reflexivity. Qed.

(** C16 is false: a column dropped by preprocessing is listed as an output although it is
    not one; and if another column's output has its name, output_to_input_ attributes that
    output to the dropped column. *)
Theorem C16_dropped_column_refuted :
  exists (p : params nat nat) (X : input nat nat) tv out,
    tv_fit_transform 200 201 str_nat (fun _ => false) example_draw example_draws p X = Ok (tv, out) /\
    dget "d" (tv_input_to_outputs tv) = Some ["d"] /\ dget "d" (tv_output_to_input tv) = Some "d" /\
    ~ In "d" (column_names out).
Proof.
  exists (ex_params ex_spec), ex_in. do 2 eexists. split; [vm_compute; reflexivity|].
  split; [reflexivity|]. split; [reflexivity|]. simpl. intuition discriminate.
Qed.
Print Assumptions C16_dropped_column_refuted.
Theorem C16_wrong_origin_refuted :
  exists (p : params nat nat) (X : input nat nat) tv out,
    tv_fit_transform 200 201 str_nat (fun _ => false) example_draw example_draws p X = Ok (tv, out) /\
    dget "a" (tv_input_to_outputs tv) = Some ["a_y"; "a_m"] /\ In "a_y" (column_names out) /\
    dget "a_y" (tv_output_to_input tv) = Some "a_y" /\ dget "a_y" (tv_transformers tv) = None.
Proof.
  exists (ex_params []), (DataFrame Pandas [(inl "a", 2); (inl "a_y", 0)]). do 2 eexists.
  split; [vm_compute; reflexivity|]. split; [reflexivity|]. split; [left; reflexivity|]. split; reflexivity.
Qed.
Print Assumptions C16_wrong_origin_refuted.

(** C60. Whatever table transform accepts, if each transformer has a fixed number of outputs the
    result has the output names of fit; and transforming the training table gives the result of
    fit_transform if this holds for each transformer. *)
Theorem C60_transform_schema :
  forall (C St O : Type) (passthrough_st drop_st : St)
    (tr : St -> string -> C -> res (list (string * C))) (arity : St -> nat) (HO : EqD O)
    str sparse draw0 draws (p : params C St) (X : input C O) ci X1 t1 t2 t3 t4 specs tv out,
    Means passthrough_st drop_st (numeric p) t1 -> Means passthrough_st drop_st (datetime p) t2 ->
    Means passthrough_st drop_st (low_cardinality p) t3 -> Means passthrough_st drop_st (high_cardinality p) t4 ->
    Forall2 (MeansSpec passthrough_st drop_st) (specific_transformers p) specs ->
    PairwiseDisjoint (map snd specs) ->
    ci_fit_transform str sparse draw0 X = Ok (ci, X1) -> NoDup (column_names X1) ->
    FreshTV (module_name_ ci) draws p t1 t2 t3 t4 specs X1 ->
    tv_fit_transform passthrough_st drop_st str sparse draw0 draws p X = Ok (tv, out) ->
    NoDup (column_names out) /\ tv_all_outputs tv = column_names out /\
    (AllTransformers (Arity arity) p t1 t2 t3 t4 specs ->
     (forall st n c outs, tr st n c = Ok outs -> length outs = arity st) ->
     forall X' out', tv_transform sparse tr tv X' = Ok out' -> column_names out' = tv_all_outputs tv) /\
    (AllTransformers (fun t => forall n c outs st, t n c = Fitted outs st -> tr st n c = Ok outs) p t1 t2 t3 t4 specs ->
     tv_transform sparse tr tv X = Ok out).
Proof. exact @tv_transform_schema. Qed.
Print Assumptions C60_transform_schema.

Definition ex_trf (st : nat) (n : string) (c : nat) : res (list (string * nat)) :=
  if st =? 100 then Ok [] else if st =? 101 then Ok [(n, c)] else if st =? 102 then Ok [(n, c + 1000)]
  else if st =? 200 then Ok [(n, c)] else if st =? 201 then Ok [] else Ok [("whatever", c); ("x", c + 1)].
Example C60_ex :
  match tv_fit_transform 200 201 str_nat (fun _ => false) example_draw example_draws (ex_params ex_spec) ex_in with
  | Ok (tv, out) =>
      tv_transform (fun _ => false) ex_trf tv
        (DataFrame Pandas [(inl "a", 31); (inl "b", 32); (inl "c", 33); (inl "d", 34); (inl "e", 35); (inl "f", 36)])
      = Ok [("a", 1031); ("b_y", 1032); ("b_m", 1033); ("c_y", 1033); ("c_m", 34); ("e_y", 35); ("e_m", 36)]
  | Err _ => False
  end.
Proof. vm_compute. reflexivity. Qed.

(** C61 is false: a name with a tag that is not at its end is changed by the preprocessing, and
    the fit fails. (By [C15_routing] it succeeds for names without such tags.) *)
Theorem C61_tagged_name_refuted :
  exists n, NoDup [n] /\
    tv_fit_transform 200 201 str_nat (fun _ => false) example_draw example_draws
      (ex_params []) (DataFrame Pandas [(inl n, 9)]) = Err KeyError /\
    exists tv out, tv_fit_transform 200 201 str_nat (fun _ => false) example_draw example_draws
      (ex_params []) (DataFrame Pandas [(inl "a", 9)]) = Ok (tv, out).
Proof.
  exists "a__skrub_0123abcd___mean". split; [repeat constructor; simpl; tauto|].
  split; [vm_compute; reflexivity|]. do 2 eexists. vm_compute. reflexivity.
Qed.
Print Assumptions C61_tagged_name_refuted.
