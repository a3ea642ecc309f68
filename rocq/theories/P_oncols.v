(** C09-C13, C59: column-wise and sub-frame application of a transformer. *)
From Verif Require Import Base M_names L_names M_select L_select M_oncols L_oncols.
Open Scope string_scope.
Open Scope list_scope.
Open Scope nat_scope.

(** ** OnEachColumn *)
(** C09. With distinct input names, fresh tags and no failing column, the output is, in input
    order, each column that is not selected (or is rejected) unchanged, and each other column
    replaced by what the transformer computed from it; all names are distinct; the name
    of an input column is only ever given to an output of that column; a name is only tagged
    if it is already taken. *)
Theorem C09_fit_transform :
  forall (C St : Type) (ft : string -> C -> outcome C St) rename allow_reject keep_original
    lib draw cols X columns,
    NoDup (column_names X) -> expand cols X = Ok columns ->
    Fresh draw (length (suggestions ft rename columns X)) (suggestions ft rename columns X) (column_names X) ->
    (forall p e, In p X -> ~ ColumnError ft allow_reject columns p e) ->
    exists f (bs : list fate),
      let out := concat (map (block keep_original) (combine X bs)) in
      oec_fit_transform lib draw ft cols allow_reject keep_original rename X = Ok (f, out) /\
      length bs = length X /\
      Forall2 (Fate ft allow_reject columns) X bs /\
      NoDup (column_names out) /\
      all_inputs_ f = column_names X /\
      all_outputs_ f = column_names out /\
      transformers_ f = concat (map tr_of (combine X bs)) /\
      input_to_outputs_ f = concat (map i2o_of (combine X bs)) /\
      output_to_input_ f = concat (map o2i_of (combine X bs)) /\
      (forall pb, In pb (combine X bs) -> forall x, In x (created pb) ->
         In x (column_names X) -> keep_original = false /\ x = fst (fst pb)) /\
      Forall2 (NamedFrom rename keep_original X (column_names out)) X bs.
Proof. exact @oec_fit_ok. Qed.
Print Assumptions C09_fit_transform.

(** C09. If a selected column fails, the error of some failing column is reported. *)
Theorem C09_fit_error :
  forall (C St : Type) (ft : string -> C -> outcome C St) rename allow_reject keep_original
    lib draw cols X columns,
    NoDup (column_names X) -> expand cols X = Ok columns ->
    (exists p e, In p X /\ ColumnError ft allow_reject columns p e) ->
    exists p e, In p X /\ ColumnError ft allow_reject columns p e /\
      oec_fit_transform lib draw ft cols allow_reject keep_original rename X = Err e.
Proof. exact @oec_fit_err. Qed.
Print Assumptions C09_fit_error.

(** Example: [a] is split in two columns, the second of which wants the name of the
    unselected [b]; [c] is rejected. *)
Definition ex_ft (n : string) (c : nat) : outcome nat nat :=
  if (c =? 3)%nat then Rejected else Fitted [(n, c + 100); ("b", c + 200)] c.
Definition ex_X : frame nat := [("a", 1); ("b", 2); ("c", 3)].
Definition ex_cols : selector nat := SCols ["a"; "c"].
Example C09_ex_out :
  exists f, oec_fit_transform Pandas example_draw ex_ft ex_cols true false (fun x => x) ex_X =
    Ok (f, [("a", 101); ("b__skrub_00000001__", 201); ("b", 2); ("c", 3)]) /\
    input_to_outputs_ f = [("a", ["a"; "b__skrub_00000001__"])] /\
    output_to_input_ f = [("a", "a"); ("b__skrub_00000001__", "a")].
Proof. eexists. split; [vm_compute; reflexivity|split; vm_compute; reflexivity]. Qed.
Example C09_ex_hyps :
  NoDup (column_names ex_X) /\ expand ex_cols ex_X = Ok ["a"; "c"] /\
  Fresh example_draw (length (suggestions ex_ft (fun x => x) ["a"; "c"] ex_X))
    (suggestions ex_ft (fun x => x) ["a"; "c"] ex_X) (column_names ex_X) /\
  (forall p e, In p ex_X -> ~ ColumnError ex_ft true ["a"; "c"] p e).
Proof.
  split; [repeat constructor; simpl; intuition discriminate|]. split; [reflexivity|]. split.
  - change (suggestions ex_ft (fun x => x) ["a"; "c"] ex_X) with ["a"; "b"].
    apply example_draw_fresh; simpl; [lia|].
    intros s [<-|[<-|[<-|[<-|[<-|[]]]]]]; simpl; lia.
  - intros p e [<-|[<-|[<-|[]]]]; unfold ColumnError; vm_compute; intuition discriminate.
Qed.
Example C09_ex_error :
  oec_fit_transform Pandas example_draw ex_ft ex_cols false false (fun x => x) ex_X = Err ValueError.
Proof. reflexivity. Qed.

(** C10. The recorded mappings are exact. *)
Theorem C10_provenance :
  forall (C St : Type) keep_original (ft : string -> C -> outcome C St) rename allow_reject
    lib draw cols X columns f out,
    NoDup (column_names X) -> expand cols X = Ok columns ->
    Fresh draw (length (suggestions ft rename columns X)) (suggestions ft rename columns X) (column_names X) ->
    oec_fit_transform lib draw ft cols allow_reject keep_original rename X = Ok (f, out) ->
    exists bs : list (@fate C St),
      out = concat (map (block keep_original) (combine X bs)) /\
      Forall2 (Fate ft allow_reject columns) X bs /\
      (forall n ns, dget n (input_to_outputs_ f) = Some ns <->
         exists p outs st, In (p, Some (outs, st, ns)) (combine X bs) /\ n = fst p) /\
      (forall o n, dget o (output_to_input_ f) = Some n <->
         exists ns, dget n (input_to_outputs_ f) = Some ns /\ In o ns) /\
      (forall n st, dget n (transformers_ f) = Some st <->
         exists p outs ns, In (p, Some (outs, st, ns)) (combine X bs) /\ n = fst p) /\
      used_inputs_ f = concat (map (fun pb => match snd pb with None => [] | Some _ => [fst (fst pb)] end)
                                 (combine X bs)) /\
      created_outputs_ f = concat (map created (combine X bs)).
Proof. exact @oec_provenance. Qed.
Print Assumptions C10_provenance.

(** C11. On a later dataframe with the same column names, and transformers that keep
    their number of outputs, transform gives the names recorded at fit, each column being
    computed by the transformer fitted on the column of that name. *)
Theorem C11_transform_schema :
  forall (C St : Type) (ft : string -> C -> outcome C St) rename allow_reject keep_original
    (tr : St -> string -> C -> res (list (string * C))) lib draw cols X columns f out,
    NoDup (column_names X) -> expand cols X = Ok columns ->
    Fresh draw (length (suggestions ft rename columns X)) (suggestions ft rename columns X) (column_names X) ->
    oec_fit_transform lib draw ft cols allow_reject keep_original rename X = Ok (f, out) ->
    forall X2, column_names X2 = column_names X ->
    (forall p st, In p X2 -> dget (fst p) (transformers_ f) = Some st ->
       exists outs names, tr st (fst p) (snd p) = Ok outs /\
         dget (fst p) (input_to_outputs_ f) = Some names /\ length outs = length names) ->
    exists blks,
      oec_transform lib tr keep_original f X2 = Ok (concat blks) /\
      column_names (concat blks) = column_names out /\
      column_names (concat blks) = all_outputs_ f /\
      Forall2 (NewBlock keep_original tr f) X2 blks.
Proof. exact @oec_transform_ok. Qed.
Print Assumptions C11_transform_schema.

Definition ex_tr (st : nat) (n : string) (c : nat) : res (list (string * nat)) :=
  Ok [("whatever", c + 100); ("b", c + st + 200)].
Example C11_ex :
  match oec_fit_transform Pandas example_draw ex_ft ex_cols true false (fun x => x) ex_X with
  | Ok (f, _) => oec_transform Pandas ex_tr false f [("a", 7); ("b", 8); ("c", 9)]
                 = Ok [("a", 107); ("b__skrub_00000001__", 208); ("b", 8); ("c", 9)]
  | Err _ => False
  end.
Proof. vm_compute. reflexivity. Qed.

(** C11. Transforming the training dataframe gives the result of fit_transform, if the
    transformer itself does so. *)
Theorem C11_transform_training_data :
  forall (C St : Type) (ft : string -> C -> outcome C St) rename allow_reject keep_original
    (tr : St -> string -> C -> res (list (string * C))) lib draw cols X columns f out,
    NoDup (column_names X) -> expand cols X = Ok columns ->
    Fresh draw (length (suggestions ft rename columns X)) (suggestions ft rename columns X) (column_names X) ->
    oec_fit_transform lib draw ft cols allow_reject keep_original rename X = Ok (f, out) ->
    (forall n c outs st, ft n c = Fitted outs st -> tr st n c = Ok outs) ->
    oec_transform lib tr keep_original f X = Ok out.
Proof. exact @oec_transform_train. Qed.
Print Assumptions C11_transform_training_data.

(** C11. A transformer that raises in transform makes the whole transform raise. *)
Theorem C11_transform_error :
  forall (C St : Type) keep_original (tr : St -> string -> C -> res (list (string * C)))
    lib f (X2 : frame C) p st e, In p X2 ->
    dget (fst p) (transformers_ f) = Some st -> tr st (fst p) (snd p) = Err e ->
    oec_transform lib tr keep_original f X2 = Err ValueError.
Proof. exact @oec_transform_err. Qed.
Print Assumptions C11_transform_error.

(** C12 is false: with the same columns in another order, transform labels data with the
    name of another column. *)
Theorem C12_permuted_columns_refuted :
  exists (ft : string -> nat -> outcome nat nat) tr X X2 f out out2,
    NoDup (column_names X) /\ Permutation X X2 /\
    oec_fit_transform Pandas example_draw ft (SCols []) false false (fun x => x) X = Ok (f, out) /\
    oec_transform Pandas tr false f X2 = Ok out2 /\
    In ("a", 1) X2 /\ In ("a", 2) out2.
Proof.
  exists ex_ft, ex_tr, [("a", 1); ("b", 2)], [("b", 2); ("a", 1)]. do 3 eexists.
  split; [repeat constructor; simpl; intuition discriminate|]. split; [apply perm_swap|].
  split; [vm_compute; reflexivity|]. split; [vm_compute; reflexivity|].
  split; [right; left; reflexivity|left; reflexivity].
Qed.
Print Assumptions C12_permuted_columns_refuted.

(** ** OnSubFrame *)
(** C13. With distinct untagged names and fresh tags: the untouched columns, then the
    outputs of the transformer; distinct names, equal to the advertised ones. *)
Theorem C13_fit_transform :
  forall (C St : Type) draw1 draw2 (ft : frame C -> outcome C St) cols keep rename X columns,
    NoDup (column_names X) -> expand cols X = Ok columns -> columns <> [] ->
    (forall n, In n (column_names X) -> ~ SubString "__skrub_" n) ->
    (forall to, SubOf columns X to -> exists outs st, ft to = Fitted outs st /\
       (forall n, In n (column_names outs) -> ~ SubString "__skrub_" (rename n)) /\
       Fresh draw1 (length outs) (map rename (column_names outs)) (column_names X)) ->
    exists to pass outs st f,
      SubOf columns X to /\ Untouched keep columns X pass /\ ft to = Fitted outs st /\
      length (sf_output_names f) = length outs /\
      let out := pass ++ combine (sf_output_names f) (map snd outs) in
      osf_fit_transform draw1 draw2 ft cols keep rename X = Ok (f, out) /\
      NoDup (column_names out) /\ sf_all_outputs f = column_names out /\
      sf_all_inputs f = column_names X /\
      sf_columns f = columns /\ sf_state f = Some st /\
      (forall n, In n (sf_output_names f) -> ~ In n (column_names pass)) /\
      Forall2 (NameFor (fun x => In x (column_names out))) (map rename (column_names outs)) (sf_output_names f) /\
      (forall n, In n (column_names out) -> Canonical n).
Proof. exact @osf_fit_ok. Qed.
Print Assumptions C13_fit_transform.

(** C13. Whatever the names (they may contain tags): data unchanged, names distinct. *)
Theorem C13_any_names :
  forall (C St : Type) draw1 draw2 (ft : frame C -> outcome C St) cols keep rename X columns,
    NoDup (column_names X) -> expand cols X = Ok columns -> columns <> [] ->
    exists to pass, SubOf columns X to /\ Untouched keep columns X pass /\
    forall outs st, ft to = Fitted outs st ->
      (forall names, length names = length outs ->
         names = pick_column_names draw1 (map rename (column_names outs)) (column_names pass) ->
         Fresh draw2 (length (column_names pass ++ names)) (column_names pass ++ names) []) ->
      exists f out, osf_fit_transform draw1 draw2 ft cols keep rename X = Ok (f, out) /\
        column_data out = column_data pass ++ column_data outs /\ NoDup (column_names out).
Proof. exact @osf_fit_any_names. Qed.
Print Assumptions C13_any_names.

(** C13. If no column is selected the dataframe is returned as it is, by fit_transform and by
    transform. *)
Theorem C13_nothing_selected :
  forall (C St : Type) draw1 draw2 (ft : frame C -> outcome C St) cols keep rename X,
    NoDup (column_names X) -> expand cols X = Ok [] ->
    exists f, osf_fit_transform draw1 draw2 ft cols keep rename X = Ok (f, X) /\
      sf_all_outputs f = column_names X /\
      (forall draw tr (X2 : frame C), NoDup (column_names X2) -> osf_transform draw tr keep f X2 = Ok X2).
Proof. exact @osf_fit_none. Qed.
Print Assumptions C13_nothing_selected.

(** C13. transform on a dataframe with the same column names: the untouched columns then the
    outputs of the fitted transformer, under the names of fit. *)
Theorem C13_transform :
  forall (C St : Type) draw1 draw2 (ft : frame C -> outcome C St) cols keep rename X columns f (out : frame C),
    NoDup (column_names X) -> expand cols X = Ok columns -> columns <> [] ->
    (forall n, In n (column_names X) -> ~ SubString "__skrub_" n) ->
    (forall to outs st, SubOf columns X to -> ft to = Fitted outs st ->
       (forall n, In n (column_names outs) -> ~ SubString "__skrub_" (rename n)) /\
       Fresh draw1 (length outs) (map rename (column_names outs)) (column_names X)) ->
    osf_fit_transform draw1 draw2 ft cols keep rename X = Ok (f, out) ->
    exists st, sf_state f = Some st /\
    forall draw (tr : St -> frame C -> res (frame C)) X2, column_names X2 = column_names X ->
    exists to2 pass2, SubOf columns X2 to2 /\ Untouched keep columns X2 pass2 /\
      (forall outs2, tr st to2 = Ok outs2 -> length outs2 = length (sf_output_names f) ->
         let out2 := pass2 ++ combine (sf_output_names f) (map snd outs2) in
         osf_transform draw tr keep f X2 = Ok out2 /\ column_names out2 = column_names out
         /\ column_names out2 = sf_all_outputs f) /\
      (forall outs2, tr st to2 = Ok outs2 -> length outs2 <> length (sf_output_names f) ->
         osf_transform draw tr keep f X2 = Err ValueError) /\
      (forall e, tr st to2 = Err e -> osf_transform draw tr keep f X2 = Err e).
Proof. exact @osf_end_to_end. Qed.
Print Assumptions C13_transform.

Definition ex_sft (to : frame nat) : outcome nat nat :=
  Fitted [("b", fold_right Nat.add 0 (map snd to)); ("n", length to)] 5.
Definition ex_str (st : nat) (to : frame nat) : res (frame nat) :=
  Ok [("x", fold_right Nat.add 0 (map snd to)); ("y", st)].
Example C13_ex :
  match osf_fit_transform example_draw example_draw ex_sft (SCols ["c"; "a"]) false (fun x => x) ex_X with
  | Ok (f, out) =>
      out = [("b", 2); ("b__skrub_00000000__", 4); ("n", 2)] /\
      sf_all_outputs f = ["b"; "b__skrub_00000000__"; "n"] /\
      osf_transform example_draw ex_str false f [("a", 7); ("b", 8); ("c", 9)]
      = Ok [("b", 8); ("b__skrub_00000000__", 16); ("n", 5)]
  | Err _ => False
  end.
Proof. vm_compute. repeat split. Qed.
Example C13_ex_hyps :
  NoDup (column_names ex_X) /\ expand (SCols ["c"; "a"]) ex_X = Ok ["c"; "a"] /\
  (forall n, In n (column_names ex_X) -> ~ SubString "__skrub_" n) /\
  (forall to, SubOf ["c"; "a"] ex_X to -> exists outs st, ex_sft to = Fitted outs st /\
     (forall n, In n (column_names outs) -> ~ SubString "__skrub_" n) /\
     Fresh example_draw (length outs) (map (fun x => x) (column_names outs)) (column_names ex_X)).
Proof.
  split; [repeat constructor; simpl; intuition discriminate|]. split; [reflexivity|].
  assert (Hs : forall s, String.length s <= 2 -> ~ SubString "__skrub_" s).
  { intros s L S. apply SubString_length in S. simpl in S. lia. }
  split; [intros n [<-|[<-|[<-|[]]]]; apply Hs; simpl; lia|].
  intros to _. do 2 eexists. split; [reflexivity|]. split.
  - intros n [<-|[<-|[]]]; apply Hs; simpl; lia.
  - apply example_draw_fresh; simpl; [lia|].
    intros s [<-|[<-|[<-|[<-|[<-|[]]]]]]; simpl; lia.
Qed.

(** C59 is false in general: if an untouched column's name contains a tag that is not at its
    end, the actual output name differs from the advertised one. *)
Theorem C59_advertised_names_refuted :
  exists (X : frame nat) f out,
    NoDup (column_names X) /\
    osf_fit_transform example_draw example_draw ex_sft (SCols ["c"]) false (fun x => x) X = Ok (f, out) /\
    sf_all_outputs f <> column_names out.
Proof.
  exists [("a__skrub_12345678___b", 1); ("c", 3)]. do 2 eexists.
  split; [repeat constructor; simpl; intuition discriminate|].
  split; [vm_compute; reflexivity|]. vm_compute. discriminate.
Qed.
Print Assumptions C59_advertised_names_refuted.
