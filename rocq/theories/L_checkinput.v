(** Specification of the input check, and lemmas. *)
From Verif Require Import Base M_str L_str M_names L_names M_oncols L_oncols M_checkinput.
Open Scope string_scope.
Open Scope list_scope.
Open Scope nat_scope.

Section CI.
  Context {C O : Type} `{EqD O} (str : O -> string) (sparse : C -> bool).

  (** ** Specification *)
  (** the dataframe that an input stands for *)
  Definition Stands (X : input C O) (lib : library) (columns : list ((string + O) * C)) : Prop :=
    match X with
    | Array2 data => lib = Pandas /\ map snd columns = data /\
                     map fst columns = map (fun i => inl (str_nat i)) (seq 0 (length data))
    | DataFrame l c => lib = l /\ columns = c
    | ArrayOther | NotDataFrame => False
    end.
  Definition Dense (lib : library) (columns : list ((string + O) * C)) : Prop :=
    lib = Pandas -> forall n c, In (n, c) columns -> sparse c = false.
  (** the name as a string *)
  Definition as_string (n : string + O) : string := match n with inl s => s | inr o => str o end.

  (** ** Lemmas *)
  Lemma has_duplicates_spec : forall l, has_duplicates l = false <-> NoDup l.
  Proof.
    induction l as [|n l IH]; simpl; [split; [constructor|reflexivity]|].
    rewrite orb_false_iff, IH, mem_false. split.
    - intros [A B]. constructor; assumption.
    - intros A. inversion A; subst. tauto.
  Qed.

  Lemma as_dataframe_spec : forall X lib columns,
    as_dataframe X = Ok (lib, columns) <-> Stands X lib columns.
  Proof.
    intros X lib columns. destruct X as [data| |l c|]; simpl.
    - split.
      + intros E. injection E as <- <-. split; [reflexivity|].
        rewrite combine_snd, combine_fst by (rewrite map_length, seq_length; reflexivity). tauto.
      + intros (-> & E1 & E2). f_equal. f_equal. subst data. rewrite <- E2.
        clear. induction columns as [|[n c] l IH]; simpl; [reflexivity|]. f_equal. exact IH.
    - split; [discriminate|tauto].
    - split; [intros E; injection E as -> ->; tauto|]. intros [-> ->]. reflexivity.
    - split; [discriminate|tauto].
  Qed.

  Lemma not_sparse_spec : forall lib (columns : list ((string + O) * C)),
    (check_not_sparse sparse lib (map snd columns) = Ok tt <-> Dense lib columns) /\
    (check_not_sparse sparse lib (map snd columns) <> Ok tt ->
     check_not_sparse sparse lib (map snd columns) = Err TypeError).
  Proof.
    intros lib columns. unfold check_not_sparse, Dense. destruct lib.
    - destruct (existsb sparse (map snd columns)) eqn:E.
      + split; [|reflexivity]. split; [discriminate|]. intros D. exfalso.
        apply existsb_exists in E. destruct E as (c & I & S). apply in_map_iff in I.
        destruct I as ([n c'] & <- & I). simpl in S. rewrite (D eq_refl n c' I) in S. discriminate.
      + split; [|congruence]. split; [|reflexivity]. intros _ _ n c I.
        destruct (sparse c) eqn:S; [|reflexivity]. exfalso.
        assert (existsb sparse (map snd columns) = true) as T; [|congruence].
        apply existsb_exists. exists c. split; [|exact S]. change c with (snd (n, c)). apply in_map. exact I.
    - split; [|congruence]. split; [|reflexivity]. intros _ X. discriminate.
  Qed.

  Lemma cleaned_length : forall draw (names : list (string + O)),
    length (cleaned_column_names str draw names) = length names.
  Proof.
    intros draw names. unfold cleaned_column_names, deduplicated_column_names, column_names_to_strings.
    destruct (has_duplicates _); [unfold pick_column_names; rewrite pick_length|]; apply map_length.
  Qed.

  Lemma ci_fit_ok : forall draw X lib columns,
    Stands X lib columns -> Dense lib columns ->
    (~ NoDup (map as_string (map fst columns)) ->
     Fresh draw (length columns) (map as_string (map fst columns)) []) ->
    exists f out, ci_fit_transform str sparse draw X = Ok (f, out) /\
      column_data out = map snd columns /\
      column_names out = feature_names_out_ f /\
      NoDup (column_names out) /\
      (NoDup (map as_string (map fst columns)) -> column_names out = map as_string (map fst columns)) /\
      module_name_ f = lib /\ feature_names_in_ f = map fst columns.
  Proof.
    intros draw X lib columns HS HD HF. apply as_dataframe_spec in HS.
    unfold ci_fit_transform. rewrite HS. cbn [bind].
    rewrite (proj2 (proj1 (not_sparse_spec lib columns)) HD). cbn [bind].
    do 2 eexists. split; [reflexivity|].
    pose proof (cleaned_length draw (map fst columns)) as L. rewrite map_length in L.
    unfold column_data, column_names.
    rewrite combine_snd, combine_fst by (rewrite map_length; exact L).
    split; [reflexivity|]. split; [reflexivity|].
    unfold cleaned_column_names, deduplicated_column_names, column_names_to_strings in *.
    change (map (name_str str) (map fst columns)) with (map as_string (map fst columns)) in *.
    set (names := map as_string (map fst columns)) in *.
    destruct (has_duplicates names) eqn:D.
    - assert (N : ~ NoDup names) by (intros N; apply has_duplicates_spec in N; congruence).
      split; [|split; [contradiction|split; reflexivity]].
      apply pick_distinct. unfold names at 1. rewrite !map_length. exact (HF N).
    - apply has_duplicates_spec in D. repeat split; auto.
  Qed.

  Lemma ci_fit_err : forall draw X,
    (forall lib columns, Stands X lib columns -> ~ Dense lib columns) ->
    exists e, ci_fit_transform str sparse draw X = Err e /\ (e = TypeError \/ e = ValueError).
  Proof.
    intros draw X HN. unfold ci_fit_transform. destruct (as_dataframe X) as [[lib columns]|e] eqn:E.
    - cbn [bind]. apply as_dataframe_spec in E. pose proof (HN lib columns E) as ND.
      rewrite (proj2 (not_sparse_spec lib columns)); [simpl; eauto|].
      intros A. apply ND. apply not_sparse_spec. exact A.
    - simpl. exists e. split; [reflexivity|]. destruct X; simpl in E; try discriminate; injection E as <-; auto.
  Qed.

  (** accepted at transform exactly if library and names agree *)
  Lemma ci_transform_iff : forall draw X f out,
    ci_fit_transform str sparse draw X = Ok (f, out) ->
    forall X2 out2,
      ci_transform sparse f X2 = Ok out2 <->
      exists columns2, Stands X2 (module_name_ f) columns2 /\
        map fst columns2 = feature_names_in_ f /\ Dense (module_name_ f) columns2 /\
        column_names out2 = column_names out /\ column_data out2 = map snd columns2.
  Proof.
    intros draw X f out E X2 out2. unfold ci_fit_transform in E.
    destruct (as_dataframe X) as [[lib columns]|] eqn:EX; [|discriminate]. cbn [bind] in E.
    destruct (check_not_sparse sparse lib (map snd columns)); [|discriminate]. cbn [bind] in E.
    injection E as <- <-. cbn [module_name_ feature_names_in_].
    pose proof (cleaned_length draw (map fst columns)) as L. rewrite map_length in L.
    assert (Eout : column_names (combine (cleaned_column_names str draw (map fst columns)) (map snd columns))
                   = cleaned_column_names str draw (map fst columns)).
    { unfold column_names. rewrite combine_fst by (rewrite map_length; exact L). reflexivity. }
    rewrite Eout. unfold ci_transform. cbn [module_name_ feature_names_in_ feature_names_out_].
    split.
    - intros E2. destruct (as_dataframe X2) as [[lib2 columns2]|] eqn:E3; [|discriminate]. cbn [bind] in E2.
      destruct (eqb_of lib2 lib) eqn:El; [|discriminate]. apply eqb_of_eq in El. subst lib2. simpl in E2.
      destruct (eqb_of (map fst columns2) (map fst columns)) eqn:En; [|discriminate]. apply eqb_of_eq in En.
      simpl in E2. destruct (check_not_sparse sparse lib (map snd columns2)) as [[]|] eqn:Es; [|discriminate].
      simpl in E2. injection E2 as <-. exists columns2.
      assert (L2 : length columns2 = length columns) by (rewrite <- (map_length fst), En, map_length; reflexivity).
      split; [apply as_dataframe_spec; exact E3|]. split; [exact En|].
      split; [apply not_sparse_spec; exact Es|]. unfold column_names, column_data.
      rewrite combine_fst, combine_snd by (rewrite map_length; congruence). tauto.
    - intros (columns2 & S2 & En & D2 & N2 & Dt2). apply as_dataframe_spec in S2. rewrite S2. cbn [bind].
      unfold eqb_of. destruct (eqd lib lib); [|congruence]. simpl.
      destruct (eqd (map fst columns2) (map fst columns)); [|contradiction]. simpl.
      rewrite (proj2 (proj1 (not_sparse_spec lib columns2)) D2). simpl. f_equal.
      rewrite <- N2, <- Dt2. unfold column_names, column_data. clear.
      induction out2 as [|[a b] l IH]; simpl; [reflexivity|]. f_equal. exact IH.
  Qed.

  (** the two mismatches and their exceptions *)
  Lemma ci_transform_mismatch : forall (f : checked O) X2 lib2 columns2, Stands X2 lib2 columns2 ->
    (lib2 <> module_name_ f -> ci_transform sparse f X2 = Err TypeError) /\
    (lib2 = module_name_ f -> map fst columns2 <> feature_names_in_ f ->
     ci_transform sparse f X2 = Err ValueError).
  Proof.
    intros f X2 lib2 columns2 S2. apply as_dataframe_spec in S2. unfold ci_transform. rewrite S2. cbn [bind].
    split.
    - intros N. unfold eqb_of. destruct (eqd lib2 (module_name_ f)); [contradiction|]. reflexivity.
    - intros -> N. unfold eqb_of. destruct (eqd (module_name_ f) (module_name_ f)); [|congruence]. simpl.
      destruct (eqd (map fst columns2) (feature_names_in_ f)); [contradiction|]. reflexivity.
  Qed.
End CI.
