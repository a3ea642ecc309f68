(** End-to-end description of [TableVectorizer.fit_transform]. *)
From Verif Require Import Base M_str M_names L_names M_select L_select M_oncols L_oncols
  M_checkinput L_checkinput M_tablevec L_tablevec L_dict L_tablevec2.
Open Scope string_scope.
Open Scope list_scope.
Open Scope nat_scope.

Section Config.
  Context {C St : Type}.
  Variables passthrough_st drop_st : St.
  Notation transformer := (transformer C St).

  (** ** Specification of the parameters *)
  Inductive Means : transformer_arg C St -> transformer -> Prop :=
  | Means_obj : forall t, Means (TObj t) t
  | Means_pass : Means (TName "passthrough") (fun n c => Fitted [(n, c)] passthrough_st)
  | Means_drop : Means (TName "drop") (fun n c => Fitted [] drop_st).
  (** a valid element of [specific_transformers] *)
  Definition MeansSpec (cfg : config C St) (e : transformer * list string) : Prop :=
    exists a, cfg = Config a (map Some (snd e)) /\ Means a (fst e).

  (** ** Lemmas *)
  Lemma check_transformer_ok : forall a t, Means a t -> check_transformer passthrough_st drop_st a = Ok t.
  Proof. intros a t M. destruct M; reflexivity. Qed.

  Lemma check_transformer_bad : forall s, s <> "passthrough" -> s <> "drop" ->
    @check_transformer C St passthrough_st drop_st (TName s) = Err ValueError.
  Proof.
    intros s N1 N2. simpl. rewrite (proj2 (eqb_of_false s "passthrough") N1), (proj2 (eqb_of_false s "drop") N2).
    reflexivity.
  Qed.

  Lemma check_cols_ok : forall seen cols, (forall x, In x cols -> ~ In x seen) ->
    check_cols seen (map Some cols) = Ok cols.
  Proof.
    intros seen. induction cols as [|c cols IH]; intros N; simpl; [reflexivity|].
    rewrite (proj2 (mem_false c seen) (N c (or_introl eq_refl))), IH; [reflexivity|].
    intros x I. apply N. right. exact I.
  Qed.

  Lemma update_keys_spec : forall l seen, NoDup seen ->
    NoDup (update_keys seen l) /\ forall x, In x (update_keys seen l) <-> In x seen \/ In x l.
  Proof.
    unfold update_keys. induction l as [|c l IH]; intros seen ND; simpl; [split; [exact ND|tauto]|].
    destruct (mem c seen) eqn:E.
    - destruct (IH seen ND) as [A B]. split; [exact A|]. intros x. rewrite B. apply mem_true in E.
      split; [tauto|]. intros [I|[<-|I]]; tauto.
    - apply mem_false in E. destruct (IH (seen ++ [c])) as [A B].
      + apply NoDup_app_intro; [exact ND|constructor; [tauto|constructor]|]. intros x I [<-|[]]. contradiction.
      + split; [exact A|]. intros x. rewrite B, in_app_iff. simpl. tauto.
  Qed.

  Lemma check_specific_ok : forall cs specs seen, Forall2 MeansSpec cs specs ->
    PairwiseDisjoint (map snd specs) -> NoDup seen ->
    (forall e x, In e specs -> In x (snd e) -> ~ In x seen) ->
    exists sp configs, check_specific_columns seen cs = Ok (sp, configs) /\
      sp = update_keys seen (concat (map snd specs)) /\ NoDup sp /\
      (forall x, In x sp <-> In x seen \/ exists e, In e specs /\ In x (snd e)) /\
      mapM (fun '(a, cols) => let! t := check_transformer passthrough_st drop_st a in
                              Ok (specific_step t cols)) configs
      = Ok (map (fun e => specific_step (fst e) (snd e)) specs).
  Proof.
    intros cs specs seen F. revert seen. induction F as [|cfg [t cols] cs specs (a & -> & M) F IH]; intros seen PD ND N; simpl.
    - exists seen, []. repeat split; auto. intros [I|(e & [] & _)]; exact I.
    - inversion PD as [|? ? P1 P2]; subst. simpl in M.
      rewrite check_cols_ok by (intros x; apply (N (t, cols) x (or_introl eq_refl))). cbn [bind].
      destruct (update_keys_spec cols seen ND) as [ND' HU].
      destruct (IH (update_keys seen cols) P2 ND') as (sp & configs & E & Esp & NDs & HS & EM).
      { intros e x I J K. apply HU in K. destruct K as [K|K]; [exact (N e x (or_intror I) J K)|].
        apply (P1 (snd e) x); [apply in_map; exact I|exact K|exact J]. }
      rewrite E. cbn [bind]. exists sp, ((a, cols) :: configs). split; [reflexivity|].
      split; [rewrite Esp; unfold update_keys; simpl; rewrite fold_left_app; reflexivity|]. split; [exact NDs|]. split.
      + intros x. rewrite HS, HU. split.
        * intros [[I|I]|(e & I & J)]; [tauto| |]; right; [exists (t, cols); simpl; auto|exists e; simpl; auto].
        * intros [I|(e & [<-|I] & J)]; [tauto|simpl in J; tauto|]. right. eauto.
      + simpl. rewrite (check_transformer_ok a t M). cbn [bind]. rewrite EM. reflexivity.
  Qed.
End Config.

Section Main.
  Context {C St O : Type}.
  Notation transformer := (transformer C St).
  Notation cell := (cell C St).
  Variables passthrough_st drop_st : St.

  (** ** Specification *)
  (** the encoder and kind of a column, given its data after preprocessing *)
  Definition kind_of (p : params C St) (c : C) : string :=
    if is_numeric p c then "numeric"
    else if is_any_date p c then "datetime"
    else if low_card p c then "low_cardinality"
    else "high_cardinality".
  Definition encoder_of (p : params C St) (t1 t2 t3 t4 : transformer) (c : C) : transformer :=
    if is_numeric p c then t1
    else if is_any_date p c then t2
    else if low_card p c then t3
    else t4.
  (** postprocessing of an output column *)
  Definition post_out (p : params C St) (o : string * C) : string * C :=
    if is_categorical p (snd o) then o
    else match to_float32 p (fst o) (snd o) with
         | Fitted ((_, c) :: _) _ => (fst o, c)
         | _ => o
         end.
  Definition post_st (p : params C St) (o : string * C) : option St :=
    if is_categorical p (snd o) then None
    else match to_float32 p (fst o) (snd o) with Fitted _ st => Some st | _ => None end.

  (** What becomes of an input column. *)
  Definition ColumnResult (p : params C St) (t1 t2 t3 t4 : transformer)
    (specs : list (transformer * list string)) (tv : fitted_tv St O) (x : string * C)
    (blk : list (string * C)) : Prop :=
    let n := fst x in
    (exists t cols outs st names,
       In (t, cols) specs /\ In n cols /\ t n (snd x) = Fitted outs st /\ length names = length outs /\
       blk = combine names (map snd outs) /\
       dget n (tv_column_to_kind tv) = Some "specific" /\
       dget n (tv_transformers tv) = Some st /\
       dget n (tv_input_to_outputs tv) = Some names /\
       dget n (tv_steps tv) = Some [inl st])
    \/
    ((forall e, In e specs -> ~ In n (snd e)) /\
     exists r sts, PreCol (preprocessors p) n (snd x) r sts /\
     match r with
     | None => (* dropped *)
         blk = [] /\ dget n (tv_column_to_kind tv) = None /\ dget n (tv_transformers tv) = None /\
         dget n (tv_input_to_outputs tv) = Some [n]
     | Some c => exists outs st names d,
         encoder_of p t1 t2 t3 t4 c n c = Fitted outs st /\ length names = length outs /\
         blk = map (post_out p) (combine names (map snd outs)) /\
         dget n (tv_column_to_kind tv) = Some (kind_of p c) /\
         dget n (tv_transformers tv) = Some st /\
         dget n (tv_input_to_outputs tv) = Some names /\
         dget n (tv_steps tv) = Some (map inl sts ++ [inl st] ++ match d with [] => [] | _ => [inr d] end) /\
         (forall o, In o (combine names (map snd outs)) -> dget (fst o) d = post_st p o) /\
         (forall o, ~ In o names -> dget o d = None)
     end).

  Definition specific_names (specs : list (transformer * list string)) : list string :=
    update_keys [] (concat (map snd specs)).
  Definition Specific (specs : list (transformer * list string)) (n : string) : Prop :=
    exists e, In e specs /\ In n (snd e).

  (** The random draws are new along the whole run. *)
  Definition FreshTV (lib : library) draws (p : params C St) (t1 t2 t3 t4 : transformer)
    (specs : list (transformer * list string)) (X1 : frame C) : Prop :=
    let specific := specific_names specs in
    let encs := [(is_numeric p, t1); (is_any_date p, t2); (low_card p, t3); (fun _ => true, t4)] in
    let npre := length (preprocessors p) in
    (forall i j, hex8 (draws i j)) /\
    FreshRun lib draws 0 (map (pre_step specific) (preprocessors p)) [] X1 /\
    forall fpre X2, run_steps lib draws 0 (map (pre_step specific) (preprocessors p)) [] X1 = Ok (fpre, X2) ->
    FreshRun lib draws npre (map (fun e => encoder_step specific (fst e) (snd e)) encs) [] X2 /\
    forall fenc X3, run_steps lib draws npre (map (fun e => encoder_step specific (fst e) (snd e)) encs) [] X2 = Ok (fenc, X3) ->
    FreshRun lib draws (npre + 4) (map (fun e => specific_step (fst e) (snd e)) specs) [] X3 /\
    forall fspec X4, run_steps lib draws (npre + 4) (map (fun e => specific_step (fst e) (snd e)) specs) [] X3 = Ok (fspec, X4) ->
    FreshRun lib draws (npre + 4 + length specs) [post_step p fspec] [] X4.

  (** ** Lemmas *)
  Lemma flat_raw : forall X : frame C, flat (map (fun q => (fst q, @Raw C St (snd q))) X) = X.
  Proof.
    unfold flat. induction X as [|[n c] X IH]; simpl; [reflexivity|]. f_equal. exact IH.
  Qed.

  Lemma lab_in : forall k (cells : list (string * cell)) n st, In (n, st) (tr_lab k cells) <->
    exists outs names, In (n, Done outs st names k) cells.
  Proof.
    intros k cells n st. unfold tr_lab. rewrite in_flat_map. split.
    - intros ([m s] & I & J). simpl in J. destruct s as [c|outs st' names j]; [destruct J|].
      destruct (k =? j)%nat eqn:E; [|destruct J]. apply Nat.eqb_eq in E. subst j.
      destruct J as [J|[]]. injection J as -> ->. eauto.
    - intros (outs & names & I). eexists. split; [exact I|]. simpl. rewrite Nat.eqb_refl. left. reflexivity.
  Qed.
  Lemma i2o_lab_in : forall k (cells : list (string * cell)) n names, In (n, names) (i2o_lab k cells) <->
    exists outs st, In (n, Done outs st names k) cells.
  Proof.
    intros k cells n names. unfold i2o_lab. rewrite in_flat_map. split.
    - intros ([m s] & I & J). simpl in J. destruct s as [c|outs st' names' j]; [destruct J|].
      destruct (k =? j)%nat eqn:E; [|destruct J]. apply Nat.eqb_eq in E. subst j.
      destruct J as [J|[]]. injection J as -> ->. eauto.
    - intros (outs & names' & I). eexists. split; [exact I|]. simpl. rewrite Nat.eqb_refl. left. reflexivity.
  Qed.
  Lemma lab_NoDup : forall k (cells : list (string * cell)), NoDup (map fst cells) ->
    NoDup (dkeys (tr_lab k cells)) /\ NoDup (dkeys (i2o_lab k cells)) /\
    dkeys (i2o_lab k cells) = dkeys (tr_lab k cells).
  Proof.
    intros k cells ND. unfold dkeys.
    assert (E : map fst (i2o_lab k cells) = map fst (tr_lab k cells)).
    { unfold tr_lab, i2o_lab. clear. induction cells as [|[n s] cells IH]; simpl; [reflexivity|].
      rewrite !map_app, IH. destruct s as [|? ? ? j]; [reflexivity|]. destruct (k =? j)%nat; reflexivity. }
    rewrite E. split; [|split; [|reflexivity]].
    1, 2: clear E; unfold tr_lab; induction cells as [|[n s] cells IH]; simpl in *; [constructor|];
      inversion ND as [|? ? N1 N2]; subst; rewrite map_app;
      (assert (N : ~ In n (map fst (tr_lab k cells)));
       [intros I; apply N1; apply in_map_iff in I; destruct I as ([m st] & <- & I);
        apply lab_in in I; destruct I as (outs & names & I); apply in_map_iff; eexists; split; [|exact I]; reflexivity|]);
      destruct s as [|? ? ? j]; simpl; [apply IH; exact N2|]; destruct (k =? j)%nat; simpl; [|apply IH; exact N2];
      constructor; [exact N|apply IH; exact N2].
  Qed.

  (** the last handler of a column, from the cells *)
  Lemma cell_unique : forall (cells : list (string * cell)) n s s', NoDup (map fst cells) ->
    In (n, s) cells -> In (n, s') cells -> s = s'.
  Proof.
    induction cells as [|[m t] cells IH]; intros n s s' ND I I'; [destruct I|]. simpl in ND.
    inversion ND as [|? ? N1 N2]; subst.
    destruct I as [I|I]; destruct I' as [I'|I'].
    - congruence.
    - injection I as -> ->. exfalso. apply N1. apply in_map_iff. exists (n, s'). auto.
    - injection I' as -> ->. exfalso. apply N1. apply in_map_iff. exists (n, s). auto.
    - exact (IH n s s' N2 I I').
  Qed.

  Lemma lab_get : forall (cells : list (string * cell)) n outs st names k j, NoDup (map fst cells) ->
    In (n, Done outs st names k) cells ->
    dget n (tr_lab j cells) = (if (j =? k)%nat then Some st else None) /\
    dget n (i2o_lab j cells) = (if (j =? k)%nat then Some names else None).
  Proof.
    intros cells n outs st names k j ND I. destruct (lab_NoDup j cells ND) as (N1 & N2 & E).
    destruct (j =? k)%nat eqn:Ej.
    - apply Nat.eqb_eq in Ej. subst. split; apply dget_In_iff; try assumption.
      + apply lab_in. eauto.
      + apply i2o_lab_in. eauto.
    - assert (G : ~ In n (dkeys (tr_lab j cells))).
      { intros J. apply in_map_iff in J. destruct J as ([m st'] & Em & J). simpl in Em. subst m.
        apply lab_in in J. destruct J as (o & ns & J). pose proof (cell_unique cells n _ _ ND I J) as X.
        injection X as _ _ _ X. apply Nat.eqb_neq in Ej. congruence. }
      split; apply dget_None_keys; [exact G|]. rewrite E. exact G.
  Qed.

  Lemma lab_get_none : forall (cells : list (string * cell)) n j,
    (forall outs st names, ~ In (n, Done outs st names j) cells) -> dget n (tr_lab j cells) = None.
  Proof.
    intros cells n j N. apply dget_None_keys. intros I. apply in_map_iff in I. destruct I as ([m st] & E & I).
    simpl in E. subst m. apply lab_in in I. destruct I as (o & ns & I). exact (N o st ns I).
  Qed.

  Lemma records_handler : forall (cells : list (string * cell)) ks gs n outs st names k,
    NoDup (map fst cells) -> Forall2 (Records cells) ks gs -> NoDup ks -> In k ks ->
    In (n, Done outs st names k) cells ->
    applied n gs = [st] /\
    exists g, handler n gs = Some g /\ dget n (transformers_ g) = Some st /\ dget n (input_to_outputs_ g) = Some names.
  Proof.
    intros cells ks gs n outs st names k ND F NDk Ik Ic.
    assert (G : forall ks gs, Forall2 (Records cells) ks gs -> ~ In k ks -> applied n gs = [] /\ handler n gs = None).
    { clear ks gs F NDk Ik. intros ks gs F. induction F as [|j g ks gs [R1 R2] F IH]; intros N; [auto|].
      simpl in N. destruct IH as [I1 I2]; [tauto|]. simpl. rewrite I2, R1.
      destruct (lab_get cells n outs st names k j ND Ic) as [L1 _]. rewrite L1.
      destruct (j =? k)%nat eqn:Ej; [apply Nat.eqb_eq in Ej; exfalso; apply N; left; congruence|].
      simpl. auto. }
    revert NDk Ik. induction F as [|j g ks gs [R1 R2] F IH]; intros NDk Ik; [destruct Ik|].
    inversion NDk as [|? ? N1 N2]; subst. simpl. rewrite R1.
    destruct (lab_get cells n outs st names k j ND Ic) as [L1 L2]. rewrite L1.
    destruct (j =? k)%nat eqn:Ej.
    - apply Nat.eqb_eq in Ej. subst j. destruct (G ks gs F N1) as [G1 G2]. rewrite G2. fold (applied n gs). rewrite G1.
      split; [reflexivity|]. exists g. rewrite R1, R2, L1, L2. auto.
    - destruct Ik as [->|Ik]; [rewrite Nat.eqb_refl in Ej; discriminate|].
      destruct (IH N2 Ik) as (A & g' & B & D). rewrite B. split; [exact A|]. exists g'. auto.
  Qed.

  Lemma records_none : forall (cells : list (string * cell)) ks gs n,
    ~ In n (map fst cells) -> Forall2 (Records cells) ks gs -> applied n gs = [] /\ handler n gs = None.
  Proof.
    intros cells ks gs n N F. induction F as [|j g ks gs [R1 R2] F [I1 I2]]; [auto|].
    simpl. rewrite I2, R1, lab_get_none; [simpl; auto|].
    intros outs st names I. apply N. apply in_map_iff. eexists. split; [|exact I]. reflexivity.
  Qed.

  Lemma Forall2_in_l : forall {A B} (R : A -> B -> Prop) l l' a, Forall2 R l l' -> In a l -> exists b, In b l' /\ R a b.
  Proof.
    intros A B R l l' a F. induction F as [|x y l l' H F IH]; intros I; [destruct I|].
    destruct I as [->|I]; [exists y; simpl; auto|]. destruct (IH I) as (b & J & K). exists b. simpl. auto.
  Qed.
  Lemma Forall2_in_r : forall {A B} (R : A -> B -> Prop) l l' b, Forall2 R l l' -> In b l' -> exists a, In a l /\ R a b.
  Proof.
    intros A B R l l' b F. induction F as [|x y l l' H F IH]; intros I; [destruct I|].
    destruct I as [->|I]; [exists x; simpl; auto|]. destruct (IH I) as (a & J & K). exists a. simpl. auto.
  Qed.

  Lemma Route_names : forall es k (cells cells' : list (string * cell)), Forall2 (Route es k) cells cells' ->
    map fst cells' = map fst cells.
  Proof. intros es k cells cells' F. induction F as [|x y l l' [E _] F IH]; simpl; congruence. Qed.

  Definition enc_list (p : params C St) (t1 t2 t3 t4 : transformer) : list ((C -> bool) * transformer) :=
    [(is_numeric p, t1); (is_any_date p, t2); (low_card p, t3); (fun _ => true, t4)].
  Definition kinds : list string := ["numeric"; "datetime"; "low_cardinality"; "high_cardinality"].

  Lemma handled_enc : forall p t1 t2 t3 t4 specific k n c (y : cell),
    Handled (map (enc_sel specific) (enc_list p t1 t2 t3 t4)) k n c y ->
    (In n specific -> y = Raw c) /\
    (~ In n specific -> exists outs st names i, y = Done outs st names (k + i) /\
       encoder_of p t1 t2 t3 t4 c n c = Fitted outs st /\ length names = length outs /\
       i < 4 /\ nth_error kinds i = Some (kind_of p c)).
  Proof.
    intros p t1 t2 t3 t4 specific k n c y H. split.
    - intros I. unfold enc_list in H. cbn [map] in H.
      apply mem_true in I.
      do 4 (inversion H as [|? ? ? ? ? ? ? ? ? Hs Hf Hl|? ? ? ? ? ? ? Hs H']; subst; simpl in Hs;
            [rewrite I in Hs; discriminate|]; clear H Hs; rename H' into H).
      inversion H; reflexivity.
    - intros N. apply mem_false in N. unfold enc_list in H. cbn [map] in H. unfold encoder_of, kind_of.
      inversion H as [|? ? ? ? ? ? ? ? ? Hs Hf Hl|? ? ? ? ? ? ? Hs H']; subst; simpl in Hs; rewrite N in Hs; simpl in Hs; rewrite Hs.
      { exists outs, st, names, 0. rewrite Nat.add_0_r. repeat split; auto; lia. }
      clear H Hs. inversion H' as [|? ? ? ? ? ? ? ? ? Hs Hf Hl|? ? ? ? ? ? ? Hs H]; subst; simpl in Hs; rewrite N in Hs; simpl in Hs; rewrite Hs.
      { exists outs, st, names, 1. rewrite Nat.add_1_r. repeat split; auto; lia. }
      clear H' Hs. inversion H as [|? ? ? ? ? ? ? ? ? Hs Hf Hl|? ? ? ? ? ? ? Hs H']; subst; simpl in Hs; rewrite N in Hs; simpl in Hs; rewrite Hs.
      { exists outs, st, names, 2. rewrite <- !plus_n_Sm, <- plus_n_O. repeat split; auto; lia. }
      clear H Hs. inversion H' as [|? ? ? ? ? ? ? ? ? Hs Hf Hl|? ? ? ? ? ? ? Hs H]; subst; simpl in Hs; rewrite N in Hs; simpl in Hs; [|discriminate].
      exists outs, st, names, 3. rewrite <- !plus_n_Sm, <- plus_n_O. repeat split; auto; lia.
  Qed.

  Lemma handled_spec : forall (specs : list (transformer * list string)) k n c (y : cell),
    Handled (map spec_sel specs) k n c y ->
    (Specific specs n -> exists t cols outs st names j, In (t, cols) specs /\ In n cols /\
       t n c = Fitted outs st /\ length names = length outs /\ y = Done outs st names j /\ k <= j < k + length specs) /\
    (~ Specific specs n -> y = Raw c).
  Proof.
    induction specs as [|[t cols] specs IH]; intros k n c y H; simpl in H.
    - inversion H; subst. split; [intros (e & [] & _)|reflexivity].
    - inversion H as [|? ? ? ? ? ? ? ? ? Hs Hf Hl|? ? ? ? ? ? ? Hs H']; subst; simpl in Hs.
      + apply mem_true in Hs. split.
        * intros _. exists t, cols, outs, st, names, k. simpl. repeat split; auto; lia.
        * intros N. exfalso. apply N. exists (t, cols). simpl. auto.
      + apply mem_false in Hs. destruct (IH (S k) n c y H') as [A B]. split.
        * intros (e & [<-|I] & J); [contradiction|].
          destruct A as (t' & cols' & outs & st & names & j & A1 & A2 & A3 & A4 & A5 & A6); [exists e; auto|].
          exists t', cols', outs, st, names, j. simpl. repeat split; auto; lia.
        * intros N. apply B. intros (e & I & J). apply N. exists e. simpl. auto.
  Qed.

  Lemma works_enc : forall p t1 t2 t3 t4 specific n c,
    (~ In n specific -> exists outs st, encoder_of p t1 t2 t3 t4 c n c = Fitted outs st /\ Forall Tidiable (map fst outs)) ->
    Works (fun outs => Forall Tidiable (map fst outs)) (map (enc_sel specific) (enc_list p t1 t2 t3 t4)) n c.
  Proof.
    intros p t1 t2 t3 t4 specific n c H. unfold enc_list. cbn [map].
    destruct (mem n specific) eqn:E.
    - repeat (apply W_later; [simpl; rewrite E; reflexivity|]). constructor.
    - pose proof (proj1 (mem_false n specific) E) as N. destruct (H N) as (outs & st & Ef & T).
      unfold encoder_of in Ef. unfold enc_sel. simpl.
      destruct (is_numeric p c) eqn:E1; [eapply W_here; [rewrite E, E1; reflexivity|exact Ef|exact T]|].
      apply W_later; [rewrite E, E1; reflexivity|].
      destruct (is_any_date p c) eqn:E2; [eapply W_here; [rewrite E, E2; reflexivity|exact Ef|exact T]|].
      apply W_later; [rewrite E, E2; reflexivity|].
      destruct (low_card p c) eqn:E3; [eapply W_here; [rewrite E, E3; reflexivity|exact Ef|exact T]|].
      apply W_later; [rewrite E, E3; reflexivity|].
      eapply W_here; [rewrite E; reflexivity|exact Ef|exact T].
  Qed.

  Lemma works_spec : forall (specs : list (transformer * list string)) n c,
    (forall e, In e specs -> In n (snd e) -> exists outs st, fst e n c = Fitted outs st) ->
    Works (fun _ => True) (map spec_sel specs) n c.
  Proof.
    induction specs as [|[t cols] specs IH]; intros n c H; simpl; [constructor|].
    destruct (mem n cols) eqn:E.
    - destruct (H (t, cols) (or_introl eq_refl) (proj1 (mem_true n cols) E)) as (outs & st & Ef).
      eapply W_here; [exact E|exact Ef|exact Logic.I].
    - apply W_later; [exact E|]. apply IH. intros e I. apply H. right. exact I.
  Qed.

  Lemma flat_app : forall (a b : list (string * cell)), flat (a ++ b) = flat a ++ flat b.
  Proof. intros a b. unfold flat. rewrite map_app, concat_app. reflexivity. Qed.

  Lemma flat_concat : forall (bss : list (list (string * cell))), flat (concat bss) = concat (map flat bss).
  Proof. induction bss as [|b l IH]; simpl; [reflexivity|]. rewrite flat_app, IH. reflexivity. Qed.

  (** both kinds of routes together *)
  Definition Fin (encs specs : list ((string -> C -> bool) * transformer)) (k k' : nat) (q : string * C) (y : string * cell) : Prop :=
    fst y = fst q /\ exists s1, Handled encs k (fst q) (snd q) s1 /\
      match s1 with Raw c => Handled specs k' (fst q) c (snd y) | Done _ _ _ _ => snd y = s1 end.

  Lemma routes_fin : forall encs specs k k' (X : frame C) cells1 cells2,
    Forall2 (Route encs k) (map (fun q => (fst q, Raw (snd q))) X) cells1 ->
    Forall2 (Route specs k') cells1 cells2 -> Forall2 (Fin encs specs k k') X cells2.
  Proof.
    intros encs specs k k'. induction X as [|q X IH]; intros cells1 cells2 F1 F2; simpl in F1.
    - inversion F1; subst. inversion F2; subst. constructor.
    - inversion F1 as [|? y1 ? l1 [E1 H1] F1']; subst. inversion F2 as [|? y2 ? l2 [E2 H2] F2']; subst.
      constructor; [|eapply IH; eassumption]. simpl in E1, H1. split; [congruence|].
      exists (snd y1). split; [exact H1|]. destruct (snd y1); try rewrite E1 in H2; exact H2.
  Qed.

  Lemma Forall2_impl_in : forall {A B} (R S : A -> B -> Prop) l l',
    (forall a b, In a l -> In b l' -> R a b -> S a b) -> Forall2 R l l' -> Forall2 S l l'.
  Proof.
    intros A B R S l l' H F. induction F as [|a b l l' H1 F IH]; constructor.
    - apply H; [left; reflexivity|left; reflexivity|exact H1].
    - apply IH. intros a' b' I J. apply H; right; assumption.
  Qed.

  Lemma dict_empty : forall {V} (d : dict string V), (forall k, dget k d = None) -> d = [].
  Proof.
    intros V [|[k v] d] H; [reflexivity|]. specialize (H k). simpl in H. destruct (eqd k k); congruence.
  Qed.

  Lemma PreCol_fun : forall (ts : list transformer) n c r sts r' sts',
    PreCol ts n c r sts -> PreCol ts n c r' sts' -> r = r' /\ sts = sts'.
  Proof.
    intros ts n c r sts r' sts' P. revert r' sts'. induction P as [n c|t ts n c r sts E P IH|t ts n c st E|t ts n c c' st r sts E P IH];
      intros r' sts' P'; inversion P' as [|? ? ? ? ? ? E' P2|? ? ? ? ? E'|? ? ? ? ? ? ? ? E' P2]; subst; try congruence; auto.
    - rewrite E in E'. injection E' as <-. auto.
    - rewrite E in E'. injection E' as <- <-. destruct (IH _ _ P2). subst. auto.
  Qed.
  Lemma rev_map_inv : forall {V} (items : list (V * list string)) o r v,
    fold_left (fun r kc => if in_dec eqd o (snd kc) then Some (fst kc) else r) items r = Some v ->
    r = Some v \/ exists l, In (v, l) items /\ In o l.
  Proof.
    intros V. induction items as [|[v0 l0] items IH]; intros o r v E; [left; exact E|]. cbn [fold_left fst snd] in E.
    destruct (IH _ _ _ E) as [E'|(l & I & J)]; [|right; exists l; simpl; auto].
    destruct (in_dec eqd o l0) as [I|N]; [|left; exact E'].
    injection E' as ->. right. exists l0. simpl. auto.
  Qed.
  Lemma kinds_partition : forall {V} (items : list (V * list string)),
    NoDup (map fst items) ->
    (forall v l v' l' n, In (v, l) items -> In (v', l') items -> In n l -> In n l' -> v = v') ->
    forall v l n, In (v, l) items ->
      (In n l <-> fold_left (fun r kc => if in_dec eqd n (snd kc) then Some (fst kc) else r) items None = Some v).
  Proof.
    intros V items ND D v l n I. split.
    - intros J. apply (rev_map_some items n None v l I J). intros v' l' I' J'. exact (D v' l' v l n I' I J' J).
    - intros E. apply rev_map_inv in E. destruct E as [E|(l' & I' & J)]; [discriminate|].
      assert (l' = l) as ->; [|exact J]. clear -ND I I'. induction items as [|[a b] items IH]; [destruct I|].
      simpl in ND. inversion ND as [|? ? N1 N2]; subst.
      destruct I as [I|I]; destruct I' as [I'|I'].
      + congruence.
      + injection I as -> ->. exfalso. apply N1. apply in_map_iff. exists (v, l'). auto.
      + injection I' as -> ->. exfalso. apply N1. apply in_map_iff. exists (v, l). auto.
      + apply IH; assumption.
  Qed.

  (** The attributes and output, given the final cells. *)
  Lemma tv_fit_ok : forall str sparse draw0 draws (p : params C St) (X : input C O) ci X1 t1 t2 t3 t4 specs,
    Means passthrough_st drop_st (numeric p) t1 -> Means passthrough_st drop_st (datetime p) t2 ->
    Means passthrough_st drop_st (low_cardinality p) t3 -> Means passthrough_st drop_st (high_cardinality p) t4 ->
    Forall2 (MeansSpec passthrough_st drop_st) (specific_transformers p) specs ->
    PairwiseDisjoint (map snd specs) ->
    ci_fit_transform str sparse draw0 X = Ok (ci, X1) -> NoDup (column_names X1) ->
    (forall n, Specific specs n -> In n (column_names X1)) ->
    (forall n, In n (column_names X1) -> ~ Specific specs n -> Canonical n) ->
    (forall n c, In (n, c) X1 -> ~ Specific specs n ->
       exists r sts, PreCol (preprocessors p) n c r sts /\
         forall c', r = Some c' -> exists outs st,
           encoder_of p t1 t2 t3 t4 c' n c' = Fitted outs st /\ Forall Tidiable (map fst outs)) ->
    (forall e n c, In e specs -> In n (snd e) -> In (n, c) X1 -> exists outs st, fst e n c = Fitted outs st) ->
    (forall n c, to_float32 p n c = Rejected \/ exists c' st, to_float32 p n c = Fitted [(n, c')] st) ->
    FreshTV (module_name_ ci) draws p t1 t2 t3 t4 specs X1 ->
    exists tv blks,
      tv_fit_transform passthrough_st drop_st str sparse draw0 draws p X = Ok (tv, concat blks) /\
      Forall2 (ColumnResult p t1 t2 t3 t4 specs tv) X1 blks /\
      NoDup (column_names (concat blks)) /\
      tv_all_outputs tv = column_names (concat blks) /\
      tv_check tv = ci /\
      (forall k, In k (kinds ++ ["specific"]) -> exists l, dget k (tv_kind_to_columns tv) = Some l /\ NoDup l /\
         forall n, In n l <-> dget n (tv_column_to_kind tv) = Some k) /\
      dkeys (tv_input_to_outputs tv) = column_names X1 /\
      (forall o n, dget o (tv_output_to_input tv) = Some n ->
         exists names, dget n (tv_input_to_outputs tv) = Some names /\ In o names) /\
      (forall n o names, dget n (tv_input_to_outputs tv) = Some names -> In o names ->
         dget n (tv_transformers tv) <> None ->
         ~ (In o (column_names X1) /\ dget o (tv_transformers tv) = None) ->
         dget o (tv_output_to_input tv) = Some n).
  Proof.
    intros str sparse draw0 draws p X ci X1 t1 t2 t3 t4 specs M1 M2 M3 M4 MS PD Eci ND1 Hin HC HP HSp HF (Hd & FRp & FR).
    unfold tv_fit_transform.
    destruct (check_specific_ok passthrough_st drop_st (specific_transformers p) specs [] MS PD (NoDup_nil _))
      as (specific & configs & Ecs & Esp & NDs & HS & EM); [simpl; tauto|].
    fold (specific_names specs) in Esp. rewrite <- Esp in FRp, FR. clear Esp.
    assert (HSpec : forall n, In n specific <-> Specific specs n).
    { intros n. rewrite HS. unfold Specific. simpl. tauto. }
    rewrite Ecs. cbn [bind]. cbn [encoders mapM]. 
    rewrite (check_transformer_ok _ _ _ _ M1), (check_transformer_ok _ _ _ _ M2),
      (check_transformer_ok _ _ _ _ M3), (check_transformer_ok _ _ _ _ M4). cbn [bind].
    rewrite EM. cbn [bind]. rewrite Eci. cbn [bind].
    change [encoder_step specific (is_numeric p) t1; encoder_step specific (is_any_date p) t2;
            encoder_step specific (low_card p) t3; encoder_step specific (fun _ => true) t4]
      with (map (fun e => @encoder_step C St specific (fst e) (snd e)) (enc_list p t1 t2 t3 t4)).
    rewrite !map_length. change (length (enc_list p t1 t2 t3 t4)) with 4.
    set (npre := length (preprocessors p)) in *. set (lib := module_name_ ci) in *.
    (* preprocessing *)
    destruct (pre_run lib draws specific (preprocessors p) 0 [] X1 ND1) as (fpre & blks0 & E2 & F2 & ND2 & HK2 & NDK2).
    { intros n I. destruct (in_dec eqd n specific) as [J|J]; [left; exact J|right].
      apply HC; [exact I|]. intros X2. apply J. apply HSpec. exact X2. }
    { exact FRp. }
    { intros [n c] I N. destruct (HP n c I) as (r & sts & P & _); [|eauto].
      intros X2. apply N. apply HSpec. exact X2. }
    simpl in E2. rewrite E2. cbn [bind]. specialize (FR _ _ E2). destruct FR as [FRe FR].
    set (X2 := concat blks0) in *.
    (* from a preprocessed column back to the input *)
    assert (HX2 : forall q, In q X2 -> exists x blk, In x X1 /\ In q blk /\ In blk blks0 /\
              Preprocessed specific (preprocessors p) fpre x blk /\ fst q = fst x /\
              (In (fst q) specific -> q = x) /\
              (~ In (fst q) specific -> exists sts, PreCol (preprocessors p) (fst q) (snd x) (Some (snd q)) sts /\
                 applied (fst q) fpre = sts)).
    { intros q I. apply in_concat in I. destruct I as (blk & Ib & I).
      destruct (Forall2_in_r _ _ _ _ F2 Ib) as (x & Ix & P). exists x, blk.
      assert (Eq : fst q = fst x).
      { unfold Preprocessed in P. destruct (in_dec eqd (fst x) specific).
        - destruct P as [-> _]. destruct I as [<-|[]]. reflexivity.
        - destruct P as (r & sts & _ & _ & ->). destruct r; [destruct I as [<-|[]]; reflexivity|destruct I]. }
      repeat (split; [assumption|]). rewrite Eq. unfold Preprocessed in P.
      destruct (in_dec eqd (fst x) specific) as [J|J].
      - destruct P as [-> _]. destruct I as [<-|[]]. split; [reflexivity|contradiction].
      - destruct P as (r & sts & P & A & ->). destruct r as [c|]; [|destruct I]. destruct I as [<-|[]].
        split; [contradiction|]. intros _. exists sts. auto. }
    (* encoders *)
    set (cells0 := map (fun q => (fst q, @Raw C St (snd q))) X2).
    assert (Ef0 : flat cells0 = X2) by (apply flat_raw).
    assert (HRaw0 : forall n s, In (n, s) cells0 -> exists c, s = Raw c /\ In (n, c) X2).
    { intros n s I. apply in_map_iff in I. destruct I as ([m c] & E & I). simpl in E. injection E as <- <-. eauto. }
    destruct (enc_run lib draws specific (enc_list p t1 t2 t3 t4) npre [] cells0) as
      (fenc & cells1 & E3 & R1 & W1 & ND3 & HL1 & Rec1 & HTd).
    { rewrite Ef0. exact ND2. }
    { apply Forall_forall. intros [n s] I. destruct (HRaw0 n s I) as (c & -> & _). exact Logic.I. }
    { intros n outs st names k' I. destruct (HRaw0 _ _ I) as (c & E & _). discriminate. }
    { intros x. simpl. split; [discriminate|]. intros (m & outs & st & names & j & I & _).
      destruct (HRaw0 _ _ I) as (c & E & _). discriminate. }
    { rewrite Ef0. exact FRe. }
    { exact Hd. }
    { intros n c I. destruct (HRaw0 _ _ I) as (c' & E & I'). injection E as <-. apply works_enc.
      intros N. destruct (HX2 (n, c) I') as ([xn xc] & blk & Ix & _ & _ & _ & E & _ & P).
      destruct (P N) as (sts & P' & _). simpl in E. subst xn.
      destruct (HP n xc Ix) as (r & sts' & P1 & Q); [intros Y; apply N; apply HSpec; exact Y|].
      assert (r = Some c) as ->; [|exact (Q c eq_refl)].
      simpl in P'. clear -P1 P'. revert sts P'. induction P1; intros sts2 P'; inversion P'; subst; try congruence; eauto.
      - eapply IHP1. rewrite H in *. match goal with E : Fitted _ _ = Fitted _ _ |- _ => injection E as -> -> end. eassumption. }
    rewrite Ef0 in E3. simpl app in E3. rewrite E3. cbn [bind]. specialize (FR _ _ E3). destruct FR as [FRs FR].
    (* specific transformers *)
    destruct (spec_run lib draws specs (npre + 4) [] cells1 ND3 W1 HL1 FRs) as
      (fspec & cells2 & E4 & R2 & W2 & ND4 & HL2 & Rec2).
    { intros e n I J. pose proof (proj2 (HSpec n) (ex_intro _ e (conj I J))) as Js.
      pose proof (Hin n (ex_intro _ e (conj I J))) as In1. apply in_map_iff in In1.
      destruct In1 as ([m c] & Em & Ix). simpl in Em. subst m. exists c.
      assert (I2 : In (n, c) X2).
      { destruct (Forall2_in_l _ _ _ _ F2 Ix) as (blk & Ib & P). unfold Preprocessed in P. simpl in P.
        destruct (in_dec eqd n specific); [|contradiction]. destruct P as [-> _].
        apply in_concat. exists [(n, c)]. split; [exact Ib|left; reflexivity]. }
      assert (I0 : In (n, Raw c) cells0) by (apply in_map_iff; exists (n, c); auto).
      destruct (Forall2_in_l _ _ _ _ R1 I0) as ([m s] & I1 & E & H). simpl in E, H. subst m.
      apply handled_enc in H. rewrite (proj1 H Js) in I1. exact I1. }
    { exact PD. }
    { intros n c I. apply works_spec. intros e Ie J. apply (HSp e n c Ie J).
      destruct (Forall2_in_r _ _ _ _ R1 I) as ([m s] & I0 & E & H). simpl in E. subst m. simpl in H.
      destruct (HRaw0 _ _ I0) as (c0 & -> & I2). apply Handled_label in H. subst c0.
      destruct (HX2 (n, c) I2) as (x & blk & Ix & _ & _ & _ & _ & Q & _).
      rewrite (Q (proj2 (HSpec n) (ex_intro _ e (conj Ie J)))). exact Ix. }
    rewrite E4. cbn [bind]. simpl app in *. specialize (FR _ _ E4).
    pose proof (routes_fin _ _ _ _ _ _ _ R1 R2) as HFin.
    assert (Enames2 : map fst cells2 = column_names X2).
    { rewrite (Route_names _ _ _ _ R2), (Route_names _ _ _ _ R1). unfold cells0. rewrite map_map. reflexivity. }
    assert (NDc : NoDup (map fst cells2)) by (rewrite Enames2; exact ND2).
    assert (Rec1' : Forall2 (Records cells2) (seq npre 4) fenc).
    { change (length (enc_list p t1 t2 t3 t4)) with 4 in Rec1.
      revert Rec1. apply Forall2_impl_in. intros j g Ij _ [A B]. apply in_seq in Ij.
      destruct (Route_lab _ _ j _ _ R2 ltac:(lia)) as [L1 L2]. split; congruence. }
    (* every cell is done *)
    assert (HDone : forall q y, In q X2 -> In y cells2 -> Fin (map (enc_sel specific) (enc_list p t1 t2 t3 t4)) (map spec_sel specs) npre (npre + 4) q y ->
              exists outs st names j, y = (fst q, Done outs st names j) /\ length names = length outs /\
                ((In (fst q) specific /\ npre + 4 <= j < npre + 4 + length specs /\
                  exists t cols, In (t, cols) specs /\ In (fst q) cols /\ t (fst q) (snd q) = Fitted outs st)
                 \/ (~ In (fst q) specific /\ npre <= j < npre + 4 /\
                     encoder_of p t1 t2 t3 t4 (snd q) (fst q) (snd q) = Fitted outs st /\
                     nth_error kinds (j - npre) = Some (kind_of p (snd q)) /\ Forall Tidy names))).
    { intros [n c] [m s] Iq Iy (E & s1 & H1 & H2). simpl in *. subst m.
      apply handled_enc in H1. destruct H1 as [H1a H1b].
      destruct (in_dec eqd n specific) as [J|J].
      - rewrite (H1a J) in H2. apply handled_spec in H2. destruct H2 as [H2 _].
        destruct (H2 (proj1 (HSpec n) J)) as (t & cols & outs & st & names & j & A1 & A2 & A3 & A4 & A5 & A6).
        exists outs, st, names, j. rewrite A5. split; [reflexivity|]. split; [exact A4|]. left. eauto 8.
      - destruct (H1b J) as (outs & st & names & i & -> & A1 & A2 & A3 & A4). rewrite H2 in *.
        exists outs, st, names, (npre + i). split; [reflexivity|]. split; [exact A2|]. right.
        split; [exact J|]. split; [lia|]. split; [exact A1|].
        replace (npre + i - npre) with i by lia. split; [exact A4|].
        apply (HTd n outs st names (npre + i)); [|lia].
        eapply Route_done_low; [exact R2| |exact Iy]. lia. }
    (* columns created by the specific transformers *)
    assert (HCr : forall x, created_in fspec x = true <->
              exists m outs st names j, In (m, Done outs st names j) cells2 /\ npre + 4 <= j /\ In x names).
    { intros x. unfold created_in. rewrite existsb_exists. split.
      - intros (f & If & Em). apply mem_true in Em. destruct (Forall2_in_r _ _ _ _ Rec2 If) as (j & Ij & _ & B).
        unfold created_outputs_ in Em. rewrite B in Em. apply created_lab in Em.
        destruct Em as (m & outs & st & names & A & D). apply in_seq in Ij.
        exists m, outs, st, names, j. repeat split; auto; lia.
      - intros (m & outs & st & names & j & A & L & D). specialize (HL2 _ _ _ _ _ A).
        destruct (Forall2_in_l _ _ _ j Rec2) as (f & If & _ & B).
        { apply in_seq. lia. }
        exists f. split; [exact If|]. apply mem_true. unfold created_outputs_. rewrite B. apply created_lab. exists m, outs, st, names. auto. }
    (* names of distinct cells are disjoint *)
    assert (HDis : forall m outs st names j m' outs' st' names' j' x,
              In (m, Done outs st names j) cells2 -> In (m', Done outs' st' names' j') cells2 ->
              In x names -> In x names' -> m = m' /\ j = j').
    { clear -ND4 W2. revert ND4 W2. induction cells2 as [|y cells IH]; intros ND4 W2 m outs st names j m' outs' st' names' j' x I I' J J'; [destruct I|].
      rewrite flat_cons in ND4. unfold column_names in ND4. rewrite map_app in ND4. inversion W2 as [|? ? W W']; subst.
      assert (G : forall n o s ns i, y = (n, Done o s ns i) -> forall z, In z ns -> In z (map fst (flat1 y))).
      { intros n o s ns i -> z Iz. unfold flat1. simpl. rewrite combine_fst; [exact Iz|]. rewrite map_length. exact W. }
      destruct I as [I|I]; destruct I' as [I'|I'].
      - rewrite I in I'. injection I' as -> _ _ _ ->. auto.
      - exfalso. apply (NoDup_app_disj _ _ x ND4); [eapply G; eassumption|eapply done_in_flat; eassumption].
      - exfalso. apply (NoDup_app_disj _ _ x ND4); [eapply G; eassumption|eapply done_in_flat; eassumption].
      - apply (IH (NoDup_app_r _ _ ND4) W' m outs st names j m' outs' st' names' j' x); assumption. }
    (* postprocessing *)
    set (selb := fun o : string * C => negb (created_in fspec (fst o)) && negb (is_categorical p (snd o))).
    simpl in FR. destruct FR as [Frp _].
    destruct (expand_spec (s_cols (post_step p fspec) []) (flat cells2)) as (sl & Exs & FO).
    { intros [l E]. discriminate. }
    { intros n c _. simpl. eauto 10. }
    assert (Hsel : forall o, In o (flat cells2) -> (In (fst o) (column_names sl) <-> selb o = true)).
    { intros o I. unfold selb. rewrite andb_true_iff, !negb_true_iff. split.
      - intros J. apply in_map_iff in J. destruct J as (q & Eq & J). apply (FilterOf_incl _ _ _ FO) in J.
        destruct J as [Jf J]. assert (q = o) as ->.
        { destruct q as [a b], o as [a' b']. simpl in Eq. subst a'. f_equal.
          apply (proj2 (dget_some_iff (flat cells2) a b ND4)) in Jf.
          apply (proj2 (dget_some_iff (flat cells2) a b' ND4)) in I. congruence. }
        simpl in J. destruct J as [[_ J1] J2]. split.
        + unfold created_in. destruct (existsb _ fspec); [exfalso; apply J1; reflexivity|reflexivity].
        + destruct (is_categorical p (snd o)); [exfalso; apply J2; reflexivity|reflexivity].
      - intros [J1 J2]. apply in_map. apply (FilterOf_incl _ _ _ FO). split; [exact I|]. simpl.
        unfold created_in in J1. rewrite J1, J2. split; [split; [auto|discriminate]|discriminate]. }
    destruct (same_name_step lib (draws (npre + 4 + length specs)) (to_float32 p) (s_cols (post_step p fspec) []) true selb
                (flat cells2) (column_names sl) ND4 Exs Hsel) as (fpost & E5 & ND5 & Ht5 & Hk5 & NDk5).
    { exact (Frp _ Exs). }
    { intros o I Es. split.
      - unfold selb in Es. rewrite andb_true_iff, !negb_true_iff in Es. destruct Es as [Es _].
        destruct o as [n c]. destruct (flat_in _ _ _ I) as [Ir|(m & outs & st & names & j & Ic & J)].
        + exfalso. destruct (Forall2_in_r _ _ _ _ HFin Ir) as (q & Iq & Fq).
          destruct (HDone q _ Iq Ir Fq) as (? & ? & ? & ? & X0 & _). discriminate.
        + simpl in Es. apply Tidy_Canonical.
          destruct (Forall2_in_r _ _ _ _ HFin Ic) as (q & Iq & Fq).
          destruct (HDone q _ Iq Ic Fq) as (outs' & st' & names' & j' & X0 & _ & [(_ & L & _)|(_ & _ & _ & _ & T)]);
            injection X0 as -> -> -> -> ->.
          * exfalso. assert (created_in fspec n = true); [|congruence]. apply HCr. 
            exists (fst q), outs', st', names', j'. repeat split; auto; lia.
          * rewrite Forall_forall in T. apply T. exact J.
      - destruct (HF (fst o) (snd o)) as [E|(c' & st & E)]; unfold SameName; rewrite E; eauto 6. }
    { reflexivity. }
    cbn [s_cols post_step] in E5. cbn [s_cols post_step]. rewrite E5. cbn [bind].
    set (out := concat (map (fun o => keep_out (to_float32 p) (selb o) o) (flat cells2))) in *.
    (* stored attributes *)
    assert (Efo : feature_names_out_ ci = column_names X1).
    { revert Eci ND1. clear. unfold ci_fit_transform. destruct (as_dataframe X) as [[l cs]|]; [|discriminate]. cbn [bind].
      destruct (check_not_sparse sparse l (map snd cs)); [|discriminate]. cbn [bind]. intros E _. injection E as <- <-. simpl.
      unfold column_names. rewrite combine_fst; [reflexivity|]. rewrite cleaned_length, !map_length. reflexivity. }
    rewrite Efo.
    set (outs0 := fold_left (fun d c => dset c [c] d) (column_names X1) []).
    set (steps0 := fold_left (fun d c => dset c [] d) (column_names X1) []).
    assert (Ko : dkeys outs0 = column_names X1) by (apply (dkeys_fold_set (fun c => [c])); simpl; exact ND1).
    assert (Ks : dkeys steps0 = column_names X1) by (apply (dkeys_fold_set (fun _ => [])); simpl; exact ND1).
    destruct (store_pre_all fpre steps0 NDK2) as (steps1 & E6 & K6 & G6).
    { intros g n I J. rewrite Ks. apply (HK2 g n I J). }
    rewrite E6. cbn [bind].
    assert (HX2n : forall n, In n (column_names X2) -> In n (column_names X1)).
    { intros n I. apply in_map_iff in I. destruct I as (q & <- & I). destruct (HX2 q I) as (x & _ & Ix & _ & _ & _ & -> & _).
      apply in_map. exact Ix. }
    assert (RecA : Forall2 (Records cells2) (seq npre (4 + length specs)) (fenc ++ fspec)).
    { rewrite seq_app. apply Forall2_app; assumption. }
    destruct (store_enc_all (fenc ++ fspec) steps1 outs0 []) as (steps2 & outs & trs & E7 & K7 & Ko7 & G7).
    { apply Forall_forall. intros g I. destruct (Forall2_in_r _ _ _ _ RecA I) as (j & _ & A & _). rewrite A.
      apply lab_NoDup. exact NDc. }
    { intros g n I J. destruct (Forall2_in_r _ _ _ _ RecA I) as (j & _ & A & B). rewrite A in J. rewrite B.
      destruct (lab_NoDup j cells2 NDc) as (_ & _ & El). rewrite El. rewrite K6, Ks, Ko.
      assert (In n (column_names X1)).
      { apply HX2n. rewrite <- Enames2. apply in_map_iff in J. destruct J as ([m st] & <- & J). apply lab_in in J.
        destruct J as (o & ns & J). apply in_map_iff. eexists. split; [|exact J]. reflexivity. }
      auto. }
    match goal with |- context[foldM store_encoder ?a ?b] => change (foldM store_encoder a b) with (foldM store_encoder (steps1, outs0, [] : dict string St) (fenc ++ fspec)) end.
    rewrite E7. cbn [bind].
    destruct (store_post_all fpost outs steps2) as (steps3 & E8 & K8 & G8).
    { rewrite Ko7, Ko. exact ND1. }
    { intros n. rewrite Ko7, Ko, K7, K6, Ks. auto. }
    rewrite E8. cbn [bind].
    (* kinds *)
    assert (Lf : length fenc = 4) by (rewrite <- (Forall2_len _ _ _ Rec1'); reflexivity).
    destruct fenc as [|f1 [|f2 [|f3 [|f4 [|? ?]]]]]; try discriminate Lf. clear Lf.
    set (kd := dset "specific" specific _).
    assert (Ekd : kd = [("numeric", used_inputs_ f1); ("datetime", used_inputs_ f2);
                        ("low_cardinality", used_inputs_ f3); ("high_cardinality", used_inputs_ f4);
                        ("specific", specific)]) by reflexivity.
    clearbody kd. 
    assert (HCell : forall n, In n (map fst cells2) -> exists outs st names j, In (n, Done outs st names j) cells2).
    { intros n I. apply in_map_iff in I. destruct I as (y & <- & I).
      destruct (Forall2_in_r _ _ _ _ HFin I) as (q & Iq & Fq).
      destruct (HDone q y Iq I Fq) as (o & st & names & j & -> & _). simpl. eauto. }
    assert (HUse : forall i f, nth_error [f1; f2; f3; f4] i = Some f -> forall n,
              In n (used_inputs_ f) <-> exists outs st names, In (n, Done outs st names (npre + i)) cells2).
    { intros i f E n. assert (R : Records cells2 (npre + i) f).
      { clear -Rec1' E. simpl in Rec1'.
        inversion Rec1' as [|? ? ? ? A1 B1]; subst. inversion B1 as [|? ? ? ? A2 B2]; subst.
        inversion B2 as [|? ? ? ? A3 B3]; subst. inversion B3 as [|? ? ? ? A4 B4]; subst.
        destruct i as [|[|[|[|i]]]]; simpl in E.
        - injection E as <-. rewrite Nat.add_0_r. exact A1.
        - injection E as <-. replace (npre + 1) with (S npre) by lia. exact A2.
        - injection E as <-. replace (npre + 2) with (S (S npre)) by lia. exact A3.
        - injection E as <-. replace (npre + 3) with (S (S (S npre))) by lia. exact A4.
        - destruct i; discriminate. }
      destruct R as [R _]. unfold used_inputs_. rewrite R. unfold dkeys. rewrite in_map_iff. split.
      - intros ([m st] & <- & I). apply lab_in in I. destruct I as (o & ns & I). eauto.
      - intros (o & st & ns & I). exists (n, st). split; [reflexivity|]. apply lab_in. eauto. }
    assert (HSpJ : forall n outs st names j, In (n, Done outs st names j) cells2 ->
              (In n specific <-> npre + 4 <= j) /\ npre <= j < npre + 4 + length specs).
    { intros n os st names j I. destruct (Forall2_in_r _ _ _ _ HFin I) as (q & Iq & Fq).
      destruct (HDone q _ Iq I Fq) as (o & st' & names' & j' & X0 & _ & [(A & L & _)|(A & L & _)]);
        injection X0 as -> -> -> -> ->.
      - split; [|lia]. split; [lia|intros _; exact A].
      - split; [|lia]. split; [contradiction|lia]. }
    assert (HKD : forall v l v' l' n, In (v, l) kd -> In (v', l') kd -> In n l -> In n l' -> v = v').
    { assert (G : forall v l, In (v, l) kd -> (v = "specific" /\ l = specific) \/
                exists i f, nth_error kinds i = Some v /\ nth_error [f1; f2; f3; f4] i = Some f /\ l = used_inputs_ f /\ i < 4).
      { rewrite Ekd. intros v l [E|[E|[E|[E|[E|[]]]]]]; injection E as <- <-.
        - right. exists 0, f1. repeat split; lia.
        - right. exists 1, f2. repeat split; lia.
        - right. exists 2, f3. repeat split; lia.
        - right. exists 3, f4. repeat split; lia.
        - left. auto. }
      intros v l v' l' n I I' J J'. apply G in I. apply G in I'.
      destruct I as [[-> ->]|(i & f & A1 & A2 & -> & A3)]; destruct I' as [[-> ->]|(i' & f' & B1 & B2 & -> & B3)].
      - reflexivity.
      - apply (HUse _ _ B2) in J'. destruct J' as (o & st & ns & J').
        apply (HSpJ _ _ _ _ _ J') in J. lia.
      - apply (HUse _ _ A2) in J. destruct J as (o & st & ns & J).
        apply (HSpJ _ _ _ _ _ J) in J'. lia.
      - apply (HUse _ _ A2) in J. destruct J as (o & st & ns & J).
        apply (HUse _ _ B2) in J'. destruct J' as (o' & st' & ns' & J').
        pose proof (cell_unique _ _ _ _ NDc J J') as E. injection E as _ _ _ E.
        assert (i = i') by lia. subst i'. congruence. }
    assert (HCK : forall v l n, In (v, l) kd -> (In n l <->
              dget n (fold_left (fun d kc => fold_left (fun d' c => dset c (fst kc) d') (snd kc) d) kd []) = Some v)).
    { intros v l n I. rewrite rev_map_get. apply (kinds_partition kd); [|exact HKD|exact I].
      rewrite Ekd. simpl. repeat constructor; simpl; intuition discriminate. }
    set (ckind := fold_left (fun d kc => fold_left (fun d' c => dset c (fst kc) d') (snd kc) d) kd []) in *.
    pose (o2i := fold_left (fun (d : dict string string) (io : string * list string) =>
                   fold_left (fun d' o => dset o (fst io) d') (snd io) d) outs []).
    assert (HOI : forall o, dget o o2i = fold_left (fun r kc => if in_dec eqd o (snd kc) then Some (fst kc) else r) outs None).
    { intros o. unfold o2i. rewrite rev_map_get. reflexivity. }
    (* what is stored for the cells *)
    assert (S0 : forall n, In n (column_names X1) -> dget n steps0 = Some [] /\ dget n outs0 = Some [n]).
    { intros n I. unfold steps0, outs0. rewrite (dget_fold_set (fun _ => [])), (dget_fold_set (fun c => [c])).
      destruct (in_dec eqd n (column_names X1)); [auto|contradiction]. }
    assert (HSt : forall n os st names j, In (n, Done os st names j) cells2 ->
              dget n trs = Some st /\ dget n outs = Some names /\
              dget n steps3 = Some (map inl (applied n fpre) ++ [inl st] ++ post_entry fpost names)).
    { intros n os st names j I. destruct (HSpJ _ _ _ _ _ I) as [_ Lj].
      destruct (records_handler cells2 _ _ n os st names j NDc RecA (seq_NoDup _ _)) as (A & g & B & D1 & D2).
      { apply in_seq. lia. }
      { exact I. }
      assert (I1 : In n (column_names X1)).
      { apply HX2n. rewrite <- Enames2. apply in_map_iff. eexists. split; [|exact I]. reflexivity. }
      destruct (G7 n) as (A1 & A2 & A3). rewrite B in A2, A3. rewrite D1 in A3. rewrite D2 in A2.
      split; [exact A3|]. split; [exact A2|]. rewrite G8, A1, G6, A2, A, (proj1 (S0 n I1)). simpl.
      rewrite <- app_assoc. reflexivity. }
    assert (HSn : forall n, In n (column_names X1) -> ~ In n (map fst cells2) ->
              dget n trs = None /\ dget n outs = Some [n] /\ dget n ckind = None).
    { intros n I N. destruct (records_none cells2 _ _ n N RecA) as [A B].
      destruct (G7 n) as (A1 & A2 & A3). rewrite B in A2, A3. rewrite A2, A3, (proj2 (S0 n I)).
      repeat split. destruct (dget n ckind) as [v|] eqn:E; [|reflexivity]. exfalso.
      unfold ckind in E. rewrite rev_map_get in E. apply rev_map_inv in E. destruct E as [E|(l & J & K)]; [discriminate|].
      rewrite Ekd in J.
      assert (G : forall i f, nth_error [f1; f2; f3; f4] i = Some f -> ~ In n (used_inputs_ f)).
      { intros i f E J'. apply (HUse _ _ E) in J'. destruct J' as (o & st & ns & J'). apply N. apply in_map_iff.
        eexists. split; [|exact J']. reflexivity. }
      destruct J as [J|[J|[J|[J|[J|[]]]]]]; injection J as <- <-;
        [exact (G 0 f1 eq_refl K)|exact (G 1 f2 eq_refl K)|exact (G 2 f3 eq_refl K)|exact (G 3 f4 eq_refl K)|].
      apply N. rewrite Enames2. apply in_map_iff in I. destruct I as ([m c] & <- & I). simpl in *.
      destruct (Forall2_in_l _ _ _ _ F2 I) as (blk & Ib & P). unfold Preprocessed in P. simpl in P.
      destruct (in_dec eqd m specific); [|contradiction]. destruct P as [-> _].
      apply in_map_iff. exists (m, c). split; [reflexivity|]. unfold X2. apply in_concat. exists [(m, c)]. simpl. auto. }
    (* regroup by input *)
    assert (exists bss, Forall2 (fun b cs => Forall2 (Fin (map (enc_sel specific) (enc_list p t1 t2 t3 t4)) (map spec_sel specs) npre (npre + 4)) b cs) blks0 bss
              /\ cells2 = concat bss) as (bss & FB & Ec2).
    { apply (Forall2_concat_inv _ (fun b : list (string * C) => b)). rewrite map_id. exact HFin. }
    set (post := fun cs : list (string * cell) => concat (map (fun o => keep_out (to_float32 p) (selb o) o) (flat cs))).
    assert (Eout : out = concat (map post bss)).
    { unfold out. rewrite Ec2, flat_concat. unfold post. clear. induction bss as [|b l IH]; simpl; [reflexivity|].
      rewrite map_app, concat_app, IH. reflexivity. }
    rewrite Eout in *. eexists. exists (map post bss). split; [reflexivity|]. cbn.
    split; [|split; [exact ND5|split; [reflexivity|split; [reflexivity|split; [|split; [|split]]]]]].
    - (* column results *)
      assert (KS : In ("specific", specific) kd) by (rewrite Ekd; simpl; auto 8).
      assert (KE : forall i f v, nth_error [f1; f2; f3; f4] i = Some f -> nth_error kinds i = Some v -> In (v, used_inputs_ f) kd).
      { rewrite Ekd. intros [|[|[|[|[|i]]]]] f v Ea Eb; try discriminate; injection Ea as <-; injection Eb as <-; simpl; auto 8. }
      assert (FX : Forall2 (fun x cs => exists blk, In blk blks0 /\ Preprocessed specific (preprocessors p) fpre x blk /\ 
                 Forall2 (Fin (map (enc_sel specific) (enc_list p t1 t2 t3 t4)) (map spec_sel specs) npre (npre + 4)) blk cs) X1 bss).
      { clear -F2 FB. revert bss FB. induction F2 as [|x b X1 blks0 P F IH]; intros bss FB; inversion FB as [|? cs ? bss' A B]; subst; constructor.
        - exists b. simpl. auto.
        - apply Forall2_impl_in with (2 := IH bss' B). intros a cs' _ _ (blk & I & J). exists blk. simpl. auto. }
      assert (Hinc : forall cs y, In cs bss -> In y cs -> In y cells2).
      { intros cs y I J. rewrite Ec2. apply in_concat. eauto. }
      assert (Hblk : forall blk q, In blk blks0 -> In q blk -> In q X2).
      { intros blk q I J. unfold X2. apply in_concat. eauto. }
      assert (FX' : Forall2 (fun x cs => ColumnResult p t1 t2 t3 t4 specs
                 {| tv_check := ci; tv_pre := fpre; tv_enc := [f1; f2; f3; f4]; tv_spec := fspec; tv_post := fpost;
                    tv_all_outputs := column_names (concat (map post bss)); tv_input_to_outputs := outs; tv_steps := steps3;
                    tv_transformers := trs; tv_kind_to_columns := kd; tv_column_to_kind := ckind;
                    tv_output_to_input := o2i |} x (post cs)) X1 bss).
      2:{ clear -FX'. induction FX'; simpl; constructor; assumption. }
      revert FX. apply Forall2_impl_in. intros [n c] cs Ix Ics (blk & Ib & P & F). unfold ColumnResult. cbn.
      assert (In1 : In n (column_names X1)) by (apply in_map_iff; exists (n, c); auto).
      unfold Preprocessed in P. cbn in P. destruct (in_dec eqd n specific) as [J|J].
      + destruct P as [-> EA]. left. inversion F as [|? y ? ? Fy F']; subst. inversion F'; subst. clear F'.
        assert (Iy : In y (concat bss)) by (apply (Hinc [y]); [exact Ics|left; reflexivity]).
        assert (Iq : In (n, c) X2) by (apply (Hblk _ _ Ib); left; reflexivity).
        destruct (HDone (n, c) y Iq Iy Fy) as (os & st & names & j & -> & Ln & [(_ & Lj & t & cols & T1 & T2 & T3)|(N & _)]);
          [|contradiction]. cbn [fst snd] in *.
        exists t, cols, os, st, names. destruct (HSt _ _ _ _ _ Iy) as (A1 & A2 & A3).
        assert (HC1 : forall o, In o (combine names (map snd os)) -> selb o = false).
        { intros [o1 o2] I. apply in_combine_l in I. unfold selb. cbn.
          rewrite (proj2 (HCr o1)); [reflexivity|]. exists n, os, st, names, j. repeat split; auto; lia. }
        assert (HN : forall o, In o names -> exists c', In (o, c') (flat (concat bss)) /\ In (o, c') (combine names (map snd os))).
        { intros o I. assert (I' : In o (map fst (combine names (map snd os)))).
          { rewrite combine_fst; [exact I|]. rewrite map_length. exact Ln. }
          apply in_map_iff in I'. destruct I' as ([o' c'] & <- & I'). exists c'. split; [|exact I'].
          unfold flat. apply in_concat. exists (combine names (map snd os)). split; [|exact I'].
          apply in_map_iff. eexists. split; [|exact Iy]. reflexivity. }
        split; [exact T1|]. split; [exact T2|]. split; [exact T3|]. split; [exact Ln|]. split; [|split; [|split; [exact A1|split; [exact A2|]]]].
        * unfold post, flat, flat1. cbn. rewrite app_nil_r. clear -HC1. induction (combine names (map snd os)) as [|o l IH]; [reflexivity|].
          simpl. rewrite (HC1 o (or_introl eq_refl)). simpl. f_equal. apply IH. intros o' I. apply HC1. right. exact I.
        * apply (HCK "specific" specific n); [exact KS|exact J].
        * rewrite A3, EA. cbn. do 2 f_equal. unfold post_entry.
          rewrite (dict_empty (post_proc fpost names)); [reflexivity|]. intros o. unfold post_proc. rewrite post_proc_get.
          destruct (in_dec eqd o names) as [I|]; [|reflexivity]. destruct (HN o I) as (c' & I1 & I2).
          pose proof (Ht5 _ I1) as X0. cbn [fst] in X0. rewrite X0, (HC1 _ I2). reflexivity.
      + right. split; [intros e Ie K; apply J; apply HSpec; exists e; auto|].
        destruct P as (r & sts & P & EA & ->). exists r, sts. split; [exact P|].
        destruct r as [c'|].
        * inversion F as [|? y ? ? Fy F']; subst. inversion F'; subst. clear F'.
          assert (Iy : In y (concat bss)) by (apply (Hinc [y]); [exact Ics|left; reflexivity]).
          assert (Iq : In (n, c') X2) by (apply (Hblk _ _ Ib); left; reflexivity).
          destruct (HDone (n, c') y Iq Iy Fy) as (os & st & names & j & -> & Ln & [(N & _)|(_ & Lj & T1 & T2 & _)]);
            [contradiction|]. cbn [fst snd] in *.
          exists os, st, names, (post_proc fpost names). destruct (HSt _ _ _ _ _ Iy) as (A1 & A2 & A3).
          assert (HC1 : forall o, In o (combine names (map snd os)) -> selb o = negb (is_categorical p (snd o))).
          { intros [o1 o2] I. apply in_combine_l in I. unfold selb. cbn.
            destruct (created_in fspec o1) eqn:E; [|reflexivity]. exfalso. apply HCr in E.
            destruct E as (m & os' & st' & names' & j' & Im & Lj' & Io).
            destruct (HDis _ _ _ _ _ _ _ _ _ _ _ Iy Im I Io) as [_ E]. lia. }
          assert (HN : forall o, In o (combine names (map snd os)) -> In o (flat (concat bss))).
          { intros o I. unfold flat. apply in_concat. exists (combine names (map snd os)). split; [|exact I].
            apply in_map_iff. eexists. split; [|exact Iy]. reflexivity. }
          assert (NDn : NoDup names).
          { clear -ND4 Iy Ln. apply in_split in Iy. destruct Iy as (l1 & l2 & E). rewrite E in ND4.
            rewrite flat_app, flat_cons in ND4. unfold column_names in ND4. rewrite !map_app in ND4.
            apply NoDup_app_r in ND4. apply NoDup_app_l in ND4. unfold flat1 in ND4. cbn in ND4.
            rewrite combine_fst in ND4; [exact ND4|]. rewrite map_length. exact Ln. }
          split; [exact T1|]. split; [exact Ln|].
          split; [|split; [|split; [exact A1|split; [exact A2|split; [|split]]]]].
          -- unfold post, flat, flat1. cbn. rewrite app_nil_r. clear -HC1 HF. induction (combine names (map snd os)) as [|o l IH]; [reflexivity|].
             simpl. rewrite (HC1 o (or_introl eq_refl)), IH by (intros o' I; apply HC1; right; exact I).
             unfold keep_out, post_out. destruct (is_categorical p (snd o)); [reflexivity|]. simpl.
             destruct (HF (fst o) (snd o)) as [E|(c2 & st2 & E)]; rewrite E; reflexivity.
          -- destruct (nth_error [f1; f2; f3; f4] (j - npre)) as [f|] eqn:Ef.
             2:{ apply nth_error_None in Ef. simpl in Ef. lia. }
             apply (HCK _ _ n (KE _ _ _ Ef T2)). apply (HUse _ _ Ef). exists os, st, names.
             replace (npre + (j - npre)) with j by lia. exact Iy.
          -- rewrite A3. unfold post_entry. destruct (post_proc fpost names); reflexivity.
          -- intros o I. unfold post_proc. rewrite post_proc_get.
             destruct (in_dec eqd (fst o) names) as [_|N].
             ++ rewrite (Ht5 o (HN o I)), (HC1 o I). unfold keep_st, post_st.
                destruct (is_categorical p (snd o)); cbn [negb]; [reflexivity|].
                destruct (HF (fst o) (snd o)) as [E|(c2 & st2 & E)]; rewrite E; reflexivity.
             ++ exfalso. apply N. destruct o as [o1 o2]. apply in_combine_l in I. exact I.
          -- intros o N. unfold post_proc. rewrite post_proc_get. destruct (in_dec eqd o names); [contradiction|reflexivity].
        * inversion F; subst. split; [reflexivity|].
          assert (N : ~ In n (map fst (concat bss))).
          { rewrite Enames2. intros I. apply in_map_iff in I. destruct I as ([m c'] & Em & I). cbn in Em. subst m.
            destruct (HX2 _ I) as ([xn xc] & b & Ixb & _ & _ & _ & E & _ & P'). cbn in E. subst xn. cbn in P'.
            assert (xc = c) as ->.
            { apply (proj2 (dget_some_iff X1 _ _ ND1)) in Ixb. apply (proj2 (dget_some_iff X1 _ _ ND1)) in Ix. congruence. }
            destruct (P' J) as (sts' & P2 & _). pose proof (PreCol_fun _ _ _ _ _ _ _ P P2) as [X0 _]. discriminate. }
          destruct (HSn n In1 N) as (A1 & A2 & A3). auto.
    - (* kinds *)
      intros k Ik.
      assert (exists l, In (k, l) kd /\ dget k kd = Some l) as (l & Il & El).
      { rewrite Ekd. simpl in Ik. destruct Ik as [<-|[<-|[<-|[<-|[<-|[]]]]]]; eexists; (split; [simpl; auto 8|reflexivity]). }
      exists l. split; [exact El|]. split; [|intros n; apply HCK; exact Il].
      rewrite Ekd in Il.
      assert (G : forall f, In f [f1; f2; f3; f4] -> NoDup (used_inputs_ f)).
      { intros f I. destruct (Forall2_in_r _ _ _ _ Rec1' I) as (j & _ & R & _). unfold used_inputs_. rewrite R.
        apply lab_NoDup. exact NDc. }
      destruct Il as [E|[E|[E|[E|[E|[]]]]]]; injection E as <- <-; try (apply G; simpl; auto 8). exact NDs.
    - exact (eq_trans Ko7 Ko).
    - intros o n E. change (dget o o2i = Some n) in E. rewrite HOI in E.
      apply rev_map_inv in E. destruct E as [E|(l & I & J)]; [discriminate|]. exists l. split; [|exact J].
      apply dget_In_iff; [|exact I]. rewrite Ko7, Ko. exact ND1.
    - intros n o names En Io Ht Hd'. change (dget o o2i = Some n). rewrite HOI.
      assert (NDo : NoDup (dkeys outs)) by (rewrite Ko7, Ko; exact ND1).
      assert (In1 : In n (column_names X1)).
      { rewrite <- Ko, <- Ko7. apply dget_in_keys. eauto. }
      destruct (in_dec eqd n (map fst cells2)) as [In2|N2].
      2:{ destruct (HSn n In1 N2) as (A & _). contradiction. }
      destruct (HCell n In2) as (os & st & names' & j & Ic). destruct (HSt _ _ _ _ _ Ic) as (_ & A2 & _).
      rewrite En in A2. injection A2 as <-.
      apply (rev_map_some outs o None n names); [apply dget_In_iff; assumption|exact Io|].
      intros v l I J. apply (dget_In_iff _ _ _ NDo) in I.
      assert (Iv : In v (column_names X1)).
      { rewrite <- Ko, <- Ko7. apply dget_in_keys. eauto. }
      destruct (in_dec eqd v (map fst cells2)) as [Iv2|Nv2].
      + destruct (HCell v Iv2) as (os' & st' & names' & j' & Ic'). destruct (HSt _ _ _ _ _ Ic') as (_ & A2 & _).
        rewrite I in A2. injection A2 as ->.
        destruct (HDis _ _ _ _ _ _ _ _ _ _ _ Ic Ic' Io J) as [E _]. auto.
      + destruct (HSn v Iv Nv2) as (A1 & A2 & _). rewrite I in A2. injection A2 as ->.
        destruct J as [<-|[]]. exfalso. apply Hd'. auto.
  Qed.
End Main.
