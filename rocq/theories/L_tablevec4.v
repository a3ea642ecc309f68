(** [TableVectorizer.transform], and the errors of [fit_transform]. *)
From Verif Require Import Base M_str M_names L_names M_select L_select M_oncols L_oncols
  M_checkinput L_checkinput M_tablevec L_tablevec L_dict L_tablevec2 L_tablevec3.
Open Scope string_scope.
Open Scope list_scope.
Open Scope nat_scope.

Section OneStep.
  Context {C St : Type}.
  Variable tr : St -> string -> C -> res (list (string * C)).
  Variable arity : St -> nat.

  (** the number of outputs of a fitted transformer is known *)
  Definition Arity (t : transformer C St) : Prop :=
    forall n c outs st, t n c = Fitted outs st -> length outs = arity st.

  Lemma transform_column_ok : forall trs keep (X2 : frame C) raws,
    mapM (transform_column tr trs keep) X2 = Ok raws ->
    forall p st, In p X2 -> dget (fst p) trs = Some st -> exists outs, tr st (fst p) (snd p) = Ok outs.
  Proof.
    intros trs keep. induction X2 as [|q X2 IH]; intros raws E p st I D; [destruct I|].
    simpl in E. unfold transform_column at 1 in E. destruct I as [->|I].
    - rewrite D in E. destruct (tr st (fst p) (snd p)); [eauto|discriminate].
    - destruct (match dget (fst q) trs with Some _ => _ | None => _ end); [|discriminate]. simpl in E.
      destruct (mapM _ X2) as [r|] eqn:E2; [|discriminate]. exact (IH r eq_refl p st I D).
  Qed.

  Lemma oec_step_schema : forall lib draw (t : transformer C St) cols rej (X : frame C) f out,
    NoDup (column_names X) ->
    (forall columns, expand cols X = Ok columns ->
       Fresh draw (length (suggestions t (fun n => n) columns X)) (suggestions t (fun n => n) columns X) (column_names X)) ->
    oec_fit_transform lib draw t cols rej false (fun n => n) X = Ok (f, out) ->
    NoDup (column_names out) /\
    (forall (Y Y' : frame C), column_names Y = column_names X -> Arity t ->
       (forall st n c outs, tr st n c = Ok outs -> length outs = arity st) ->
       oec_transform lib tr false f Y = Ok Y' -> column_names Y' = column_names out) /\
    ((forall n c outs st, t n c = Fitted outs st -> tr st n c = Ok outs) ->
     oec_transform lib tr false f X = Ok out).
  Proof.
    intros lib draw t cols rej X f out ND Fr E.
    destruct (expand cols X) as [columns|] eqn:Ex.
    2:{ unfold oec_fit_transform in E. rewrite Ex in E. discriminate. }
    specialize (Fr columns eq_refl).
    pose proof (oec_fit_inv t (fun n => n) rej false lib draw cols X columns f out ND Ex Fr E)
      as (bs & Eo & Lb & HF & NDo & Ei & Eao & Et & Ei2o & _).
    split; [exact NDo|]. split.
    - intros Y Y' EY HA Htr ET.
      destruct (oec_transform_ok t (fun n => n) rej false tr lib draw cols X columns f out ND Ex Fr E Y EY) as (blks & E1 & E2 & _).
      + intros p st I D. unfold oec_transform in ET.
        destruct (mapM (transform_column tr (transformers_ f) false) Y) as [raws|] eqn:EM; [|discriminate].
        destruct (transform_column_ok _ _ _ _ EM p st I D) as [outs Eouts]. rewrite Et in D.
        assert (In (fst p) (column_names X)) as IX by (rewrite <- EY; apply in_map; exact I).
        apply in_map_iff in IX. destruct IX as (q & Eq & IX).
        assert (exists b, In (q, b) (combine X bs) /\ Fate t rej columns q b) as (b & Ib & Hb).
        { clear -HF IX. induction HF as [|p b X bs H HF IH]; [destruct IX|].
          destruct IX as [->|I]; [exists b; split; [left; reflexivity|exact H]|].
          destruct (IH I) as (b' & I' & H'). exists b'. split; [right; exact I'|exact H']. }
        rewrite <- Eq, (tr_lookup X bs Lb ND q b Ib) in D.
        destruct b as [[[o st'] ns]|]; [|discriminate]. injection D as ->. destruct Hb as (_ & Hft & Ln).
        exists outs, ns. split; [exact Eouts|]. split.
        * rewrite Ei2o, <- Eq. apply (i2o_lookup X bs Lb ND q _ Ib).
        * rewrite Ln, (Htr _ _ _ _ Eouts), (HA _ _ _ _ Hft). reflexivity.
      + rewrite ET in E1. injection E1 as ->. exact E2.
    - intros Hc. exact (oec_transform_train t (fun n => n) rej false tr lib draw cols X columns f out ND Ex Fr E Hc).
  Qed.

  Lemma foldM_app : forall {A B} (f : A -> B -> res A) l l' a,
    foldM f a (l ++ l') = let! a' := foldM f a l in foldM f a' l'.
  Proof.
    intros A B f. induction l as [|b l IH]; intros l' a; simpl; [reflexivity|].
    destruct (f a b); simpl; [apply IH|reflexivity].
  Qed.

  Lemma run_schema : forall lib draws (steps : list (step C St)) k done (X : frame C) fs X',
    run_steps lib draws k steps done X = Ok (fs, X') -> NoDup (column_names X) ->
    FreshRun lib draws k steps done X ->
    exists gs, fs = done ++ gs /\ NoDup (column_names X') /\
    (forall (Y Y' : frame C), column_names Y = column_names X -> Forall (fun s => Arity (s_ft s)) steps ->
       (forall st n c outs, tr st n c = Ok outs -> length outs = arity st) ->
       transform_steps lib tr gs Y = Ok Y' -> column_names Y' = column_names X') /\
    (Forall (fun s => forall n c outs st, s_ft s n c = Fitted outs st -> tr st n c = Ok outs) steps ->
     transform_steps lib tr gs X = Ok X').
  Proof.
    intros lib draws. induction steps as [|s steps IH]; intros k done X fs X' E ND FR; simpl in E.
    - injection E as <- <-. exists []. rewrite app_nil_r. split; [reflexivity|]. split; [exact ND|]. split.
      + intros Y Y' EY _ _ ET. injection ET as <-. exact EY.
      + reflexivity.
    - destruct FR as [F1 F2]. destruct (oec_fit_transform _ _ _ _ _ _ _ X) as [[f X1]|] eqn:E1; [|discriminate].
      cbn [bind] in E. specialize (F2 f X1 eq_refl).
      destruct (oec_step_schema _ _ _ _ _ _ _ _ ND F1 E1) as (ND1 & HS & HT).
      destruct (IH (S k) (done ++ [f]) X1 fs X' E ND1 F2) as (gs & -> & ND' & IS & IT).
      exists (f :: gs). rewrite <- app_assoc. split; [reflexivity|]. split; [exact ND'|]. split.
      + intros Y Y' EY HA Htr ET. inversion HA as [|? ? A1 A2]; subst. unfold transform_steps in ET. simpl in ET.
        destruct (oec_transform lib tr false f Y) as [Y1|] eqn:EY1; [|discriminate]. cbn [bind] in ET.
        apply (IS Y1 Y'); [|exact A2|exact Htr|exact ET]. exact (HS Y Y1 EY A1 Htr EY1).
      + intros HA. inversion HA as [|? ? A1 A2]; subst. unfold transform_steps. simpl. rewrite (HT A1). cbn [bind].
        exact (IT A2).
  Qed.
End OneStep.

Section Errors.
  Context {C St O : Type}.
  Variables passthrough_st drop_st : St.
  Notation fit := (@tv_fit_transform C St O passthrough_st drop_st).

  (** what is wrong with [specific_transformers] *)
  Inductive BadSpecific : list string -> list (config C St) -> Prop :=
  | BS_config : forall seen cs, BadSpecific seen (BadConfig :: cs)
  | BS_cols : forall seen t cols cs x, In x cols ->
      match x with None => True | Some c => In c seen end -> BadSpecific seen (Config t cols :: cs)
  | BS_later : forall seen t cols cs, BadSpecific (seen ++ concat (map (fun x => match x with Some c => [c] | None => [] end) cols)) cs ->
      BadSpecific seen (Config t cols :: cs).

  Lemma check_cols_bad : forall seen cols x, In x cols ->
    match x with None => True | Some c => In c seen end -> check_cols seen cols = Err ValueError.
  Proof.
    intros seen. induction cols as [|[c|] cols IH]; intros x I H; [destruct I| |reflexivity].
    simpl. destruct (mem c seen) eqn:E; [reflexivity|]. destruct I as [<-|I].
    - apply mem_false in E. contradiction.
    - rewrite (IH x I H). reflexivity.
  Qed.
  Lemma check_cols_inv : forall seen cols l, check_cols seen cols = Ok l ->
    l = concat (map (fun x => match x with Some c => [c] | None => [] end) cols) /\ Forall (fun x => x <> None) cols /\
    forall c, In c l -> ~ In c seen.
  Proof.
    intros seen. induction cols as [|[c|] cols IH]; intros l E; simpl in E; [|..|discriminate].
    - injection E as <-. repeat split; [constructor|simpl; tauto].
    - destruct (mem c seen) eqn:Em; [discriminate|]. destruct (check_cols seen cols) as [r|]; [|discriminate].
      injection E as <-. destruct (IH r eq_refl) as (-> & A & B). split; [reflexivity|].
      split; [constructor; [discriminate|exact A]|]. apply mem_false in Em.
      intros x [<-|I]; [exact Em|exact (B x I)].
  Qed.
  Lemma check_cols_err : forall seen cols e, check_cols seen cols = Err e -> e = ValueError.
  Proof.
    intros seen. induction cols as [|[c|] cols IH]; intros e E; simpl in E; [discriminate| |congruence].
    destruct (mem c seen); [congruence|]. destruct (check_cols seen cols) as [r|e']; [discriminate|].
    injection E as <-. apply IH. reflexivity.
  Qed.

  Lemma update_keys_in : forall l seen x, In x (update_keys seen l) <-> In x seen \/ In x l.
  Proof.
    unfold update_keys. induction l as [|c l IH]; intros seen x; simpl; [tauto|].
    rewrite IH. destruct (mem c seen) eqn:E.
    - apply mem_true in E. split; [tauto|]. intros [I|[<-|I]]; tauto.
    - rewrite in_app_iff. simpl. tauto.
  Qed.

  Lemma BadSpecific_ext : forall seen cs, BadSpecific seen cs ->
    forall seen', (forall x, In x seen -> In x seen') -> BadSpecific seen' cs.
  Proof.
    intros seen cs B. induction B as [seen cs|seen t cols cs x I H|seen t cols cs B IH]; intros seen' Hs.
    - constructor.
    - apply (BS_cols seen' t cols cs x I). destruct x; auto.
    - apply BS_later. apply IH. intros x. rewrite !in_app_iff. intros [I|I]; auto.
  Qed.

  Lemma check_specific_bad : forall (cs : list (config C St)) seen, BadSpecific seen cs ->
    check_specific_columns seen cs = Err ValueError.
  Proof.
    intros cs. induction cs as [|cfg cs IH]; intros seen B.
    - inversion B.
    - inversion B as [? ?|? t cols ? x I H|? t cols ? B']; subst; simpl; [reflexivity| |].
      + rewrite (check_cols_bad seen cols x I H). reflexivity.
      + destruct (check_cols seen cols) as [l|e] eqn:E; [|apply check_cols_err in E; subst; reflexivity].
        simpl. rewrite IH; [reflexivity|]. apply check_cols_inv in E. destruct E as (-> & _ & _).
        apply (BadSpecific_ext _ _ B'). intros x. rewrite update_keys_in, in_app_iff. tauto.
  Qed.

  Lemma tv_fit_bad_specific : forall str sparse draw0 draws (p : params C St) X,
    BadSpecific [] (specific_transformers p) -> fit str sparse draw0 draws p X = Err ValueError.
  Proof.
    intros str sparse draw0 draws p X B. unfold tv_fit_transform. rewrite (check_specific_bad _ _ B). reflexivity.
  Qed.

  (** the converse: what is accepted *)
  Lemma check_specific_good : forall (cs : list (config C St)) seen sp configs,
    check_specific_columns seen cs = Ok (sp, configs) -> ~ BadSpecific seen cs.
  Proof. intros cs seen sp configs E B. apply check_specific_bad in B. congruence. Qed.

  Lemma check_specific_iff : forall (cs : list (config C St)) seen,
    (exists r, check_specific_columns seen cs = Ok r) <-> ~ BadSpecific seen cs.
  Proof.
    intros cs seen. split; [intros [[sp configs] E]; exact (check_specific_good _ _ _ _ E)|].
    revert seen. induction cs as [|cfg cs IH]; intros seen N; [simpl; eauto|].
    destruct cfg as [|t cols]; [exfalso; apply N; constructor|]. simpl.
    destruct (check_cols seen cols) as [l|e] eqn:E.
    - simpl. destruct (IH (update_keys seen l)) as [[s' r] E'].
      + intros B. apply N. apply BS_later. apply check_cols_inv in E. destruct E as (-> & _).
        apply (BadSpecific_ext _ _ B). intros x. rewrite update_keys_in, in_app_iff. tauto.
      + rewrite E'. simpl. eauto.
    - exfalso. apply N.
      assert (exists x, In x cols /\ match x with None => True | Some c => In c seen end) as (x & I & H).
      { clear -E. induction cols as [|[c|] cols IH]; simpl in E; [discriminate| |].
        - destruct (mem c seen) eqn:Em; [apply mem_true in Em; exists (Some c); simpl; auto|].
          destruct (check_cols seen cols); [discriminate|]. destruct IH as (x & I & H); [exact E|].
          exists x. simpl. auto.
        - exists None. simpl. auto. }
      exact (BS_cols seen t cols cs x I H).
  Qed.

  (** an unknown name instead of a transformer *)
  Lemma tv_fit_bad_name : forall str sparse draw0 draws (p : params C St) X s,
    (exists a, In a [numeric p; datetime p; low_cardinality p; high_cardinality p] /\ a = TName s) ->
    s <> "passthrough" -> s <> "drop" -> fit str sparse draw0 draws p X = Err ValueError.
  Proof.
    intros str sparse draw0 draws p X s (a & I & ->) N1 N2. unfold tv_fit_transform.
    assert (B : check_transformer passthrough_st drop_st (TName s : transformer_arg C St) = Err ValueError)
      by (apply check_transformer_bad; assumption).
    assert (G : forall a e, @check_transformer C St passthrough_st drop_st a = Err e -> e = ValueError).
    { intros [s'|t] e E; simpl in E; [|discriminate]. destruct (eqb_of s' "passthrough"); [discriminate|].
      destruct (eqb_of s' "drop"); [discriminate|]. congruence. }
    assert (Gs : forall cs seen e, @check_specific_columns C St seen cs = Err e -> e = ValueError).
    { induction cs as [|[|t cols] cs IH]; intros seen e E; simpl in E; [discriminate|congruence|].
      destruct (check_cols seen cols) as [l|e'] eqn:E'; simpl in E; [|apply check_cols_err in E'; congruence].
      destruct (check_specific_columns (update_keys seen l) cs) as [[? ?]|e2] eqn:E2; simpl in E; [discriminate|].
      injection E as <-. exact (IH _ _ E2). }
    destruct (check_specific_columns [] (specific_transformers p)) as [[sp configs]|e] eqn:E.
    2:{ rewrite (Gs _ _ _ E). reflexivity. }
    cbn [bind encoders mapM].
    assert (R : forall (b : bool) (a : transformer_arg C St), True) by auto. clear R.
    destruct (check_transformer passthrough_st drop_st (numeric p)) as [t1|e1] eqn:E1; [|rewrite (G _ _ E1); reflexivity].
    destruct (check_transformer passthrough_st drop_st (datetime p)) as [t2|e2] eqn:E2; [|cbn; rewrite (G _ _ E2); reflexivity].
    destruct (check_transformer passthrough_st drop_st (low_cardinality p)) as [t3|e3] eqn:E3; [|cbn; rewrite (G _ _ E3); reflexivity].
    destruct (check_transformer passthrough_st drop_st (high_cardinality p)) as [t4|e4] eqn:E4; [|cbn; rewrite (G _ _ E4); reflexivity].
    exfalso. destruct I as [Ea|[Ea|[Ea|[Ea|[]]]]]; rewrite Ea in *; congruence.
  Qed.
End Errors.

Section Whole.
  Context {C St O : Type}.
  Variables passthrough_st drop_st : St.
  Notation fit := (@tv_fit_transform C St O passthrough_st drop_st).
  Notation transformer := (transformer C St).

  Lemma bind_inv : forall {A B} (r : res A) (f : A -> res B) b, bind r f = Ok b -> exists a, r = Ok a /\ f a = Ok b.
  Proof. intros A B [a|e] f b E; [eauto|discriminate]. Qed.

  (** the parts of a successful fit *)
  Lemma tv_inv : forall str sparse draw0 draws (p : params C St) (X : input C O) ci X1 t1 t2 t3 t4 specs tv out,
    Means passthrough_st drop_st (numeric p) t1 -> Means passthrough_st drop_st (datetime p) t2 ->
    Means passthrough_st drop_st (low_cardinality p) t3 -> Means passthrough_st drop_st (high_cardinality p) t4 ->
    Forall2 (MeansSpec passthrough_st drop_st) (specific_transformers p) specs ->
    PairwiseDisjoint (map snd specs) ->
    ci_fit_transform str sparse draw0 X = Ok (ci, X1) ->
    fit str sparse draw0 draws p X = Ok (tv, out) ->
    let lib := module_name_ ci in
    let npre := length (preprocessors p) in
    let specific := specific_names specs in
    exists X2 X3 X4 steps1 steps2 outs trs,
      tv_check tv = ci /\
      run_steps lib draws 0 (map (pre_step specific) (preprocessors p)) [] X1 = Ok (tv_pre tv, X2) /\
      run_steps lib draws npre (map (fun e => encoder_step specific (fst e) (snd e)) (enc_list p t1 t2 t3 t4)) [] X2 = Ok (tv_enc tv, X3) /\
      run_steps lib draws (npre + 4) (map (fun e => specific_step (fst e) (snd e)) specs) [] X3 = Ok (tv_spec tv, X4) /\
      run_steps lib draws (npre + 4 + length specs) [post_step p (tv_spec tv)] [] X4 = Ok ([tv_post tv], out) /\
      tv_all_outputs tv = column_names out /\
      foldM store_pre (fold_left (fun d c => dset c [] d) (feature_names_out_ ci) []) (tv_pre tv) = Ok steps1 /\
      foldM store_encoder (steps1, fold_left (fun d c => dset c [c] d) (feature_names_out_ ci) [], []) (tv_enc tv ++ tv_spec tv)
      = Ok (steps2, outs, trs).
  Proof.
    intros str sparse draw0 draws p X ci X1 t1 t2 t3 t4 specs tv out M1 M2 M3 M4 MS PD Eci E.
    unfold tv_fit_transform in E.
    destruct (check_specific_ok passthrough_st drop_st (specific_transformers p) specs [] MS PD (NoDup_nil _))
      as (specific & configs & Ecs & Esp & NDs & HS & EM); [simpl; tauto|].
    fold (specific_names specs) in Esp. subst specific.
    rewrite Ecs in E. cbn [bind] in E. cbn [encoders mapM] in E.
    rewrite (check_transformer_ok _ _ _ _ M1), (check_transformer_ok _ _ _ _ M2),
      (check_transformer_ok _ _ _ _ M3), (check_transformer_ok _ _ _ _ M4) in E. cbn [bind] in E.
    rewrite EM in E. cbn [bind] in E. rewrite Eci in E. cbn [bind] in E.
    change [encoder_step (specific_names specs) (is_numeric p) t1; encoder_step (specific_names specs) (is_any_date p) t2;
            encoder_step (specific_names specs) (low_card p) t3; encoder_step (specific_names specs) (fun _ => true) t4]
      with (map (fun e => @encoder_step C St (specific_names specs) (fst e) (snd e)) (enc_list p t1 t2 t3 t4)) in E.
    rewrite !map_length in E. change (length (enc_list p t1 t2 t3 t4)) with 4 in E. cbn zeta.
    apply bind_inv in E. destruct E as ([fpre X2] & E2 & E). exists X2.
    apply bind_inv in E. destruct E as ([fenc X3] & E3 & E). exists X3.
    apply bind_inv in E. destruct E as ([fspec X4] & E4 & E). exists X4.
    apply bind_inv in E. destruct E as ([fpost X5] & E5 & E).
    apply bind_inv in E. destruct E as (steps1 & E6 & E). exists steps1.
    apply bind_inv in E. destruct E as ([[steps2 outs] trs] & E7 & E). exists steps2, outs, trs.
    apply bind_inv in E. destruct E as (steps3 & E8 & E). injection E as <- <-. cbn [tv_check tv_pre tv_enc tv_spec tv_post tv_all_outputs].
    repeat (split; [try reflexivity; assumption|]). split; [|split; [reflexivity|split; [exact E6|exact E7]]].
    cbn [run_steps s_ft s_reject post_step]. cbn [s_ft s_reject post_step] in E5. rewrite E5. reflexivity.
  Qed.

  Section Transform.
  Variable tr : St -> string -> C -> res (list (string * C)).
  Variable arity : St -> nat.

  (** a property of all the transformers in use *)
  Definition AllTransformers (P : transformer -> Prop) (p : params C St) t1 t2 t3 t4
    (specs : list (transformer * list string)) : Prop :=
    Forall P (preprocessors p) /\ P t1 /\ P t2 /\ P t3 /\ P t4 /\ Forall P (map fst specs) /\ P (to_float32 p).

  Lemma all_transformers_steps : forall (P : transformer -> Prop) p t1 t2 t3 t4 specs sp fspec,
    AllTransformers P p t1 t2 t3 t4 specs ->
    Forall (fun s : step C St => P (s_ft s)) (map (pre_step sp) (preprocessors p)) /\
    Forall (fun s : step C St => P (s_ft s)) (map (fun e => encoder_step sp (fst e) (snd e)) (enc_list p t1 t2 t3 t4)) /\
    Forall (fun s : step C St => P (s_ft s)) (map (fun e => specific_step (fst e) (snd e)) specs) /\
    Forall (fun s : step C St => P (s_ft s)) [post_step p fspec].
  Proof.
    intros P p t1 t2 t3 t4 specs sp fspec (A1 & A2 & A3 & A4 & A5 & A6 & A7). split; [|split; [|split]].
    - apply Forall_map. exact A1.
    - repeat constructor; simpl; assumption.
    - apply Forall_map. rewrite Forall_map in A6. exact A6.
    - repeat constructor. exact A7.
  Qed.

  Lemma tv_transform_schema : forall `{EqD O} str sparse draw0 draws (p : params C St) (X : input C O) ci X1 t1 t2 t3 t4 specs tv out,
    Means passthrough_st drop_st (numeric p) t1 -> Means passthrough_st drop_st (datetime p) t2 ->
    Means passthrough_st drop_st (low_cardinality p) t3 -> Means passthrough_st drop_st (high_cardinality p) t4 ->
    Forall2 (MeansSpec passthrough_st drop_st) (specific_transformers p) specs ->
    PairwiseDisjoint (map snd specs) ->
    ci_fit_transform str sparse draw0 X = Ok (ci, X1) -> NoDup (column_names X1) ->
    FreshTV (module_name_ ci) draws p t1 t2 t3 t4 specs X1 ->
    fit str sparse draw0 draws p X = Ok (tv, out) ->
    NoDup (column_names out) /\ tv_all_outputs tv = column_names out /\
    (AllTransformers (Arity arity) p t1 t2 t3 t4 specs ->
     (forall st n c outs, tr st n c = Ok outs -> length outs = arity st) ->
     forall X' out', tv_transform sparse tr tv X' = Ok out' -> column_names out' = tv_all_outputs tv) /\
    (AllTransformers (fun t => forall n c outs st, t n c = Fitted outs st -> tr st n c = Ok outs) p t1 t2 t3 t4 specs ->
     tv_transform sparse tr tv X = Ok out).
  Proof.
    intros HO str sparse draw0 draws p X ci X1 t1 t2 t3 t4 specs tv out M1 M2 M3 M4 MS PD Eci ND1 (Hd & FRp & FR) E.
    destruct (tv_inv _ _ _ _ _ _ _ _ _ _ _ _ _ _ _ M1 M2 M3 M4 MS PD Eci E)
      as (X2 & X3 & X4 & steps1 & steps2 & outs & trs & Ec & E2 & E3 & E4 & E5 & Ea & _).
    cbn zeta in *.
    destruct (run_schema tr arity _ _ _ _ _ _ _ _ E2 ND1 FRp) as (g1 & G1 & ND2 & S1 & T1).
    destruct (FR _ _ E2) as [FRe FR2].
    destruct (run_schema tr arity _ _ _ _ _ _ _ _ E3 ND2 FRe) as (g2 & G2 & ND3 & S2 & T2).
    destruct (FR2 _ _ E3) as [FRs FR3].
    destruct (run_schema tr arity _ _ _ _ _ _ _ _ E4 ND3 FRs) as (g3 & G3 & ND4 & S3 & T3).
    destruct (run_schema tr arity _ _ _ _ _ _ _ _ E5 ND4 (FR3 _ _ E4)) as (g4 & G4 & ND5 & S4 & T4).
    simpl in G1, G2, G3, G4. subst g1 g2 g3 g4.
    split; [exact ND5|]. split; [exact Ea|]. rewrite Ea. unfold tv_transform. rewrite Ec. split.
    - intros HA Htr X' out' ET. apply (all_transformers_steps _ _ _ _ _ _ _ (specific_names specs) (tv_spec tv)) in HA.
      destruct HA as (A1 & A2 & A3 & A4).
      apply bind_inv in ET. destruct ET as (Y1 & EY & ET).
      apply (ci_transform_iff _ _ _ _ _ _ Eci) in EY. destruct EY as (cols2 & _ & _ & _ & EN & _).
      unfold transform_steps in ET. rewrite !foldM_app in ET.
      apply bind_inv in ET. destruct ET as (Y2 & EY2 & ET). rewrite foldM_app in ET.
      apply bind_inv in ET. destruct ET as (Y3 & EY3 & ET). rewrite foldM_app in ET.
      apply bind_inv in ET. destruct ET as (Y4 & EY4 & ET).
      pose proof (S1 Y1 Y2 EN A1 Htr EY2) as N2.
      pose proof (S2 Y2 Y3 N2 A2 Htr EY3) as N3.
      pose proof (S3 Y3 Y4 N3 A3 Htr EY4) as N4.
      exact (S4 Y4 out' N4 A4 Htr ET).
    - intros HA. apply (all_transformers_steps _ _ _ _ _ _ _ (specific_names specs) (tv_spec tv)) in HA.
      destruct HA as (A1 & A2 & A3 & A4).
      assert (ci_transform sparse ci X = Ok X1) as ->.
      { unfold ci_fit_transform in Eci. unfold ci_transform.
        destruct (as_dataframe X) as [[l cs]|]; [|discriminate]. cbn [bind] in *.
        destruct (check_not_sparse sparse l (map snd cs)) as [u|] eqn:ES; [|discriminate]. cbn [bind] in Eci.
        injection Eci as <- <-. cbn [module_name_ feature_names_in_ feature_names_out_]. unfold eqb_of. destruct (eqd l l); [|congruence].
        destruct (eqd (map fst cs) (map fst cs)); [|congruence]. reflexivity. }
      cbn [bind]. unfold transform_steps in *. rewrite foldM_app, (T1 A1). cbn [bind].
      rewrite foldM_app, (T2 A2). cbn [bind]. rewrite foldM_app, (T3 A3). cbn [bind]. exact (T4 A4).
  Qed.
  End Transform.

  (** *** Specific columns must be columns of the table *)
  Lemma spec_keys : forall lib draws (specs : list (transformer * list string)) k done (X : frame C) fs X',
    run_steps lib draws k (map (fun e => specific_step (fst e) (snd e)) specs) done X = Ok (fs, X') ->
    NoDup (column_names X) ->
    FreshRun lib draws k (map (fun e => specific_step (fst e) (snd e)) specs) done X ->
    exists gs, fs = done ++ gs /\
    forall e n, In e specs -> In n (snd e) -> exists g, In g gs /\ In n (dkeys (transformers_ g)).
  Proof.
    intros lib draws. induction specs as [|[t cols] specs IH]; intros k done X fs X' E ND FR; simpl in E.
    - injection E as <- <-. exists []. rewrite app_nil_r. split; [reflexivity|]. intros e n [].
    - destruct FR as [F1 F2]. destruct (oec_fit_transform _ _ _ _ _ _ _ X) as [[f X1]|] eqn:E1; [|discriminate].
      cbn [bind] in E. specialize (F2 f X1 eq_refl).
      destruct (expand (SCols cols) X) as [columns|] eqn:Ex.
      2:{ unfold oec_fit_transform in E1. rewrite Ex in E1. discriminate. }
      pose proof (F1 columns Ex) as Fr. cbn [s_ft specific_step fst snd] in Fr.
      pose proof (oec_fit_inv t (fun n => n) false false lib (draws k) (SCols cols) X columns f X1 ND Ex Fr E1)
        as (bs & Eo & Lb & HF & NDo & Ei & Eao & Et & _).
      destruct (IH (S k) (done ++ [f]) X1 fs X' E NDo F2) as (gs & -> & HI).
      exists (f :: gs). rewrite <- app_assoc. split; [reflexivity|].
      intros e n [<-|I] J; [|destruct (HI e n I J) as (g & A & B); exists g; simpl; auto].
      exists f. split; [left; reflexivity|]. cbn [snd] in J.
      assert (columns = cols).
      { simpl in Ex. destruct (filter _ cols); congruence. }
      subst columns. pose proof (expand_subset _ _ _ Ex n J) as IX.
      apply in_map_iff in IX. destruct IX as ([m c] & Em & IX). simpl in Em. subst m.
      destruct (Forall2_in_l _ _ _ _ HF IX) as (b & _ & Hb0).
      assert (exists b, In ((n, c), b) (combine X bs) /\ Fate t false cols (n, c) b) as (b' & Ib & Hb).
      { clear -HF IX. induction HF as [|p b X bs H HF IH]; [destruct IX|].
        destruct IX as [->|I]; [exists b; split; [left; reflexivity|exact H]|].
        destruct (IH I) as (b' & I' & H'). exists b'. split; [right; exact I'|exact H']. }
      pose proof (tr_lookup X bs Lb ND _ _ Ib) as D. cbn [fst] in D. rewrite <- Et in D.
      destruct b' as [[[o st] ns]|].
      + apply dget_in_keys. eauto.
      + exfalso. destruct Hb as [Hb|[Hb _]]; [exact (Hb J)|discriminate].
  Qed.

  Lemma append_inv : forall (d d' : dict string (list (St + dict string St))) c s,
    append_step d c s = Ok d' -> In c (dkeys d) /\ dkeys d' = dkeys d.
  Proof.
    intros d d' c s E. unfold append_step in E. destruct (dget c d) as [l|] eqn:D; [|discriminate].
    injection E as <-. assert (In c (dkeys d)) by (apply dget_in_keys; eauto).
    split; [assumption|]. apply dkeys_dset_in. assumption.
  Qed.
  Lemma store_pre_inv : forall fs (d d' : dict string (list (St + dict string St))),
    foldM store_pre d fs = Ok d' -> dkeys d' = dkeys d.
  Proof.
    assert (G : forall (l : dict string St) (d d' : dict string (list (St + dict string St))),
              foldM (fun d ct => append_step d (fst ct) (inl (snd ct))) d l = Ok d' -> dkeys d' = dkeys d).
    { induction l as [|ct l IH]; intros d d' E; simpl in E; [congruence|]. apply bind_inv in E.
      destruct E as (d1 & E1 & E). apply append_inv in E1. destruct E1 as [_ <-]. exact (IH _ _ E). }
    induction fs as [|f fs IH]; intros d d' E; simpl in E; [congruence|]. apply bind_inv in E.
    destruct E as (d1 & E1 & E). rewrite (IH _ _ E). exact (G _ _ _ E1).
  Qed.
  Lemma store_enc_inv : forall (fs : list (fitted St)) d o r d' o' r',
    foldM store_encoder (d, o, r) fs = Ok (d', o', r') ->
    forall g n, In g fs -> In n (dkeys (transformers_ g)) -> In n (dkeys d).
  Proof.
    assert (G : forall (i2o : dict string (list string)) (l : dict string St) d o r d' o' r',
       foldM (fun '(steps, outs, trs) '(col, t) =>
             let! steps' := @append_step St steps col (inl t) in
             let! os := match dget col i2o with Some os => Ok os | None => Err KeyError end in
             Ok (steps', dset col os outs, dset col t trs)) (d, o, r) l = Ok (d', o', r') ->
       dkeys d' = dkeys d /\ forall n, In n (dkeys l) -> In n (dkeys d)).
    { intros i2o. induction l as [|[c t] l IH]; intros d o r d' o' r' E; simpl in E.
      - injection E as <- <- <-. split; [reflexivity|]. intros n [].
      - apply bind_inv in E. destruct E as ([[d1 o1] r1] & E1 & E). apply bind_inv in E1. destruct E1 as (d2 & Ed & E1).
        apply bind_inv in E1. destruct E1 as (os & _ & E1). injection E1 as <- <- <-.
        apply append_inv in Ed. destruct Ed as [I Ek]. destruct (IH _ _ _ _ _ _ E) as [A B].
        split; [congruence|]. intros n [<-|J]; [exact I|]. rewrite <- Ek. exact (B n J). }
    induction fs as [|f fs IH]; intros d o r d' o' r' E g n I J; [destruct I|]. simpl in E.
    apply bind_inv in E. destruct E as ([[d1 o1] r1] & E1 & E). apply (G (input_to_outputs_ f)) in E1. destruct E1 as [Ek Hk].
    destruct I as [<-|I]; [exact (Hk n J)|]. rewrite <- Ek. exact (IH _ _ _ _ _ _ E g n I J).
  Qed.

  Lemma tv_missing : forall str sparse draw0 draws (p : params C St) (X : input C O) ci X1 t1 t2 t3 t4 specs,
    Means passthrough_st drop_st (numeric p) t1 -> Means passthrough_st drop_st (datetime p) t2 ->
    Means passthrough_st drop_st (low_cardinality p) t3 -> Means passthrough_st drop_st (high_cardinality p) t4 ->
    Forall2 (MeansSpec passthrough_st drop_st) (specific_transformers p) specs ->
    PairwiseDisjoint (map snd specs) ->
    ci_fit_transform str sparse draw0 X = Ok (ci, X1) -> NoDup (column_names X1) ->
    FreshTV (module_name_ ci) draws p t1 t2 t3 t4 specs X1 ->
    (exists n, Specific specs n /\ ~ In n (column_names X1)) ->
    exists e, fit str sparse draw0 draws p X = Err e.
  Proof.
    intros str sparse draw0 draws p X ci X1 t1 t2 t3 t4 specs M1 M2 M3 M4 MS PD Eci ND1 (Hd & FRp & FR) (n & (e & Ie & Jn) & N).
    destruct (fit str sparse draw0 draws p X) as [[tv out]|err] eqn:E; [|eauto]. exfalso. apply N.
    destruct (tv_inv _ _ _ _ _ _ _ _ _ _ _ _ _ _ _ M1 M2 M3 M4 MS PD Eci E)
      as (X2 & X3 & X4 & steps1 & steps2 & outs & trs & Ec & E2 & E3 & E4 & E5 & Ea & E6 & E7).
    cbn zeta in *.
    destruct (run_schema (fun _ _ _ => Err KeyError) (fun _ => 0) _ _ _ _ _ _ _ _ E2 ND1 FRp) as (g1 & G1 & ND2 & _).
    destruct (FR _ _ E2) as [FRe FR2].
    destruct (run_schema (fun _ _ _ => Err KeyError) (fun _ => 0) _ _ _ _ _ _ _ _ E3 ND2 FRe) as (g2 & G2 & ND3 & _).
    destruct (FR2 _ _ E3) as [FRs FR3].
    destruct (spec_keys _ _ _ _ _ _ _ _ E4 ND3 FRs) as (g3 & G3 & HK). simpl in G3. subst g3.
    destruct (HK e n Ie Jn) as (g & Ig & Jg).
    assert (I : In n (dkeys steps1)).
    { eapply store_enc_inv; [exact E7| |exact Jg]. apply in_or_app. right. exact Ig. }
    rewrite (store_pre_inv _ _ _ E6) in I.
    assert (Efo : feature_names_out_ ci = column_names X1).
    { revert Eci. clear. unfold ci_fit_transform. destruct (as_dataframe X) as [[l cs]|]; [|discriminate]. cbn [bind].
      destruct (check_not_sparse sparse l (map snd cs)); [|discriminate]. cbn [bind]. intros E. injection E as <- <-. simpl.
      unfold column_names. rewrite combine_fst; [reflexivity|]. rewrite cleaned_length, !map_length. reflexivity. }
    rewrite Efo, (dkeys_fold_set (fun _ => [])) in I by (simpl; exact ND1). exact I.
  Qed.
End Whole.
