(** Provenance in [TableVectorizer]. *)
From Verif Require Import Base M_str M_names L_names M_select L_select M_oncols L_oncols
  M_checkinput L_checkinput M_tablevec L_tablevec L_dict L_tablevec2 L_tablevec3.
Open Scope string_scope.
Open Scope list_scope.
Open Scope nat_scope.

Section Provenance.
  Context {C St O : Type}.
  Variables passthrough_st drop_st : St.
  Notation transformer := (transformer C St).

  (** The parameters, input and draws of a fit that succeeds. *)
  Definition GoodFit (str : O -> string) (sparse : C -> bool) draw0 draws (p : params C St) (X : input C O)
    ci X1 t1 t2 t3 t4 (specs : list (transformer * list string)) : Prop :=
    Means passthrough_st drop_st (numeric p) t1 /\ Means passthrough_st drop_st (datetime p) t2 /\
    Means passthrough_st drop_st (low_cardinality p) t3 /\ Means passthrough_st drop_st (high_cardinality p) t4 /\
    Forall2 (MeansSpec passthrough_st drop_st) (specific_transformers p) specs /\
    PairwiseDisjoint (map snd specs) /\
    ci_fit_transform str sparse draw0 X = Ok (ci, X1) /\ NoDup (column_names X1) /\
    (forall n, Specific specs n -> In n (column_names X1)) /\
    (forall n, In n (column_names X1) -> ~ Specific specs n -> Canonical n) /\
    (forall n c, In (n, c) X1 -> ~ Specific specs n ->
       exists r sts, PreCol (preprocessors p) n c r sts /\
         forall c', r = Some c' -> exists outs st,
           encoder_of p t1 t2 t3 t4 c' n c' = Fitted outs st /\ Forall Tidiable (map fst outs)) /\
    (forall e n c, In e specs -> In n (snd e) -> In (n, c) X1 -> exists outs st, fst e n c = Fitted outs st) /\
    (forall n c, to_float32 p n c = Rejected \/ exists c' st, to_float32 p n c = Fitted [(n, c')] st) /\
    FreshTV (module_name_ ci) draws p t1 t2 t3 t4 specs X1.

  Lemma tv_routing : forall str sparse draw0 draws p X ci X1 t1 t2 t3 t4 specs,
    GoodFit str sparse draw0 draws p X ci X1 t1 t2 t3 t4 specs ->
    exists tv blks,
      tv_fit_transform passthrough_st drop_st str sparse draw0 draws p X = Ok (tv, concat blks) /\
      Forall2 (ColumnResult p t1 t2 t3 t4 specs tv) X1 blks /\
      NoDup (column_names (concat blks)) /\
      tv_all_outputs tv = column_names (concat blks) /\
      (forall k, In k ["numeric"; "datetime"; "low_cardinality"; "high_cardinality"; "specific"] ->
         exists l, dget k (tv_kind_to_columns tv) = Some l /\ NoDup l /\
         forall n, In n l <-> dget n (tv_column_to_kind tv) = Some k).
  Proof.
    intros str sparse draw0 draws p X ci X1 t1 t2 t3 t4 specs (H1 & H2 & H3 & H4 & H5 & H6 & H7 & H8 & H9 & H10 & H11 & H12 & H13 & H14).
    destruct (tv_fit_ok passthrough_st drop_st _ _ _ _ _ _ _ _ _ _ _ _ _ H1 H2 H3 H4 H5 H6 H7 H8 H9 H10 H11 H12 H13 H14)
      as (tv & blks & E & F & ND & EA & _ & HK & _). exists tv, blks. auto.
  Qed.

  Lemma post_out_names : forall (p : params C St) (l : list (string * C)), map fst (map (post_out p) l) = map fst l.
  Proof.
    intros p l. rewrite map_map. apply map_ext. intros [n c]. unfold post_out. simpl.
    destruct (is_categorical p c); [reflexivity|]. destruct (to_float32 p n c) as [|e| |outs st]; try reflexivity.
    destruct outs as [|[? ?] ?]; reflexivity.
  Qed.

  (** names of the outputs of a column *)
  Lemma result_names : forall p t1 t2 t3 t4 specs (tv : fitted_tv St O) (x : string * C) (blk : list (string * C)),
    ColumnResult p t1 t2 t3 t4 specs tv x blk ->
    (dget (fst x) (tv_transformers tv) = None /\ blk = [] /\ dget (fst x) (tv_input_to_outputs tv) = Some [fst x]) \/
    (dget (fst x) (tv_transformers tv) <> None /\ dget (fst x) (tv_input_to_outputs tv) = Some (column_names blk)).
  Proof.
    intros p t1 t2 t3 t4 specs tv x blk [(t & cols & outs & st & names & _ & _ & _ & L & -> & _ & A & B & _)|(_ & r & sts & _ & H)].
    - right. rewrite A, B. split; [discriminate|]. unfold column_names. rewrite combine_fst; [reflexivity|].
      rewrite map_length. exact L.
    - destruct r as [c|].
      + destruct H as (outs & st & names & d & _ & L & -> & _ & A & B & _). right. rewrite A, B. split; [discriminate|].
        unfold column_names. rewrite post_out_names, combine_fst; [reflexivity|]. rewrite map_length. exact L.
      + destruct H as (-> & _ & A & B). left. auto.
  Qed.

  Lemma tv_provenance : forall str sparse draw0 draws p X ci X1 t1 t2 t3 t4 specs,
    GoodFit str sparse draw0 draws p X ci X1 t1 t2 t3 t4 specs ->
    exists tv out,
      tv_fit_transform passthrough_st drop_st str sparse draw0 draws p X = Ok (tv, out) /\
      dkeys (tv_input_to_outputs tv) = column_names X1 /\
      (* outputs listed for columns that were not dropped exist *)
      (forall n names, dget n (tv_input_to_outputs tv) = Some names -> dget n (tv_transformers tv) <> None ->
         forall o, In o names -> In o (column_names out)) /\
      (* every output is listed *)
      (forall o, In o (column_names out) -> exists n names,
         dget n (tv_input_to_outputs tv) = Some names /\ In o names /\ dget n (tv_transformers tv) <> None) /\
      (* if no column is dropped by preprocessing, output_to_input_ is the converse *)
      ((forall n, In n (column_names X1) -> dget n (tv_transformers tv) <> None) ->
       forall o n, dget o (tv_output_to_input tv) = Some n <->
         exists names, dget n (tv_input_to_outputs tv) = Some names /\ In o names) /\
      (* the only exceptions: a dropped column is listed as its own output *)
      (forall n, In n (column_names X1) -> dget n (tv_transformers tv) = None ->
         dget n (tv_input_to_outputs tv) = Some [n]).
  Proof.
    intros str sparse draw0 draws p X ci X1 t1 t2 t3 t4 specs (H1 & H2 & H3 & H4 & H5 & H6 & H7 & H8 & H9 & H10 & H11 & H12 & H13 & H14).
    destruct (tv_fit_ok passthrough_st drop_st _ _ _ _ _ _ _ _ _ _ _ _ _ H1 H2 H3 H4 H5 H6 H7 H8 H9 H10 H11 H12 H13 H14)
      as (tv & blks & E & F & ND & EA & _ & HK & Hk & Hr & Ho). exists tv, (concat blks).
    split; [exact E|]. split; [exact Hk|].
    assert (Hn : forall n, In n (column_names X1) -> exists x blk, In x X1 /\ n = fst x /\ In blk blks /\ ColumnResult p t1 t2 t3 t4 specs tv x blk).
    { intros n I. apply in_map_iff in I. destruct I as (x & <- & I).
      destruct (Forall2_in_l _ _ _ _ F I) as (blk & Ib & R). eauto 6. }
    split; [|split; [|split]].
    - intros n names D T o I. destruct (Hn n) as (x & blk & Ix & -> & Ib & R).
      { rewrite <- Hk. apply dget_in_keys. eauto. }
      apply result_names in R. destruct R as [(A & _)|(_ & B)]; [contradiction|].
      rewrite D in B. injection B as ->. unfold column_names in *. rewrite concat_map. apply in_concat.
      exists (map fst blk). split; [apply in_map; exact Ib|exact I].
    - intros o I. unfold column_names in I. rewrite concat_map in I. apply in_concat in I. destruct I as (l & Il & I).
      apply in_map_iff in Il. destruct Il as (blk & <- & Ib). destruct (Forall2_in_r _ _ _ _ F Ib) as (x & Ix & R).
      apply result_names in R. destruct R as [(_ & -> & _)|(A & B)]; [destruct I|].
      exists (fst x), (column_names blk). auto.
    - intros HT o n. split; [apply Hr|]. intros (names & D & I). apply (Ho n o names D I).
      + apply HT. rewrite <- Hk. apply dget_in_keys. eauto.
      + intros [J K]. exact (HT o J K).
    - intros n I T. destruct (Hn n I) as (x & blk & Ix & -> & Ib & R).
      apply result_names in R. destruct R as [(_ & _ & A)|(A & _)]; [exact A|contradiction].
  Qed.
End Provenance.

(** draws for the examples: always well formed *)
Definition example_draws (k i : nat) : string := if (i <? 10)%nat then example_draw i else "00000000".
Lemma example_draws_hex : forall k i, hex8 (example_draws k i).
Proof.
  intros k i. unfold example_draws. destruct (i <? 10)%nat eqn:E; [|split; [reflexivity|vm_compute; repeat split; lia]].
  apply Nat.ltb_lt in E. destruct (example_draw_fresh 10 [] []) as [H _]; [lia|intros s []|]. apply H. exact E.
Qed.
Lemma example_draws_fresh : forall k n suggested forbidden, n <= 10 ->
  (forall s, In s (suggested ++ forbidden) -> String.length s < 8) ->
  Fresh (example_draws k) n suggested forbidden.
Proof.
  intros k n suggested forbidden L H. destruct (example_draw_fresh n suggested forbidden L H) as (A & B & D & F).
  assert (E : forall i, i < n -> example_draws k i = example_draw i).
  { intros i Li. unfold example_draws. assert ((i <? 10) = true) as -> by (apply Nat.ltb_lt; lia). reflexivity. }
  split; [|split; [|split]].
  - intros i Li. rewrite E by exact Li. apply A. exact Li.
  - intros i j Li Lj. rewrite !E by lia. apply B; assumption.
  - intros i f Li. rewrite E by exact Li. apply D. exact Li.
  - intros i s u ts Li. rewrite E by exact Li. apply F. exact Li.
Qed.
