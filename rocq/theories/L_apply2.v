(** Which fits succeed, what the tables of predictions contain, and which options are honoured. *)
From Verif Require Import Base L_dict M_apply L_apply.
Open Scope string_scope.
Open Scope list_scope.
Open Scope nat_scope.

Section Spec2.
  Context {V E C F N : Type} `{EqD N}.
  Variable w : world V E C F N.
  Local Notation step := (@step E C).
  Local Notation node := (@node E C F N).

  (** a predictor that can be fitted by itself on the data, and then predicts [pred]; the options are the default ones *)
  Definition Plain (p : step) : Prop := s_cols p = CAll /\ (s_how p = "auto" \/ s_how p = "full_frame") /\ s_reject p = false.
  Definition FitsAlone (e : E) (x y pred : V) : Prop :=
    has w e "fit" = true /\ has w e "predict" = true /\
    exists f, fit w (Raw e) x y = Ok f /\ call w (Raw e) f "predict" x None = Ok pred.
  Definition succeeds {A} (r : res A) : Prop := exists a, r = Ok a.

  Lemma eqb_str : forall a b : string, eqb_of a b = true <-> a = b.
  Proof. intros. apply eqb_of_true. Qed.

  Lemma plain_raw : forall p e x, Plain p -> s_est p = GEst e -> has w e "transform" = false ->
    wrap_estimator w (s_est p) (s_cols p) (s_how p) (s_reject p) x = Ok (Raw e).
  Proof.
    intros p e x (HC & HH & HR) HE HT. unfold wrap_estimator. rewrite HE, HT, HC, HR. cbn [negb].
    destruct HH as [-> | ->]; reflexivity.
  Qed.

  Definition targets (y : V) (pred : V) : list N :=
    match kind_of w y with
    | KColumn => [name_of w y]
    | KFrame => names_of w y
    | KOther => if ndim1 w pred then [target_name w] else map (target_names w) (seq 0 (length (columns_of w pred)))
    end.
  Definition predicted (pred : V) : list V := if ndim1 w pred then [pred] else columns_of w pred.

  Lemma predictor_fit : forall p n e x y, Plain p -> s_est p = GEst e -> has w e "transform" = false -> s_unsupervised p = false ->
    forall pred, FitsAlone e (cast_names w x) (y_value w p y) pred ->
    exists f, fit w (Raw e) (cast_names w x) (y_value w p y) = Ok f /\
      compute w p n MFitTransform x (y_field w p MFitTransform y) =
      ({| a_est := Some (Raw e); a_fit := Some f; a_outs := Some (outputs_of w (y_value w p y)) |},
       predictions w (outputs_of w (y_value w p y)) (cast_names w x) pred).
  Proof.
    intros p n e x y HP HE HT HU pred (H1 & H2 & f & EF & EC). exists f. split; [exact EF|].
    unfold compute. cbn [is_fit]. unfold compute_fit. rewrite (plain_raw p e _ HP HE HT).
    cbn [has_w]. rewrite HT, H1, H2. cbn [negb]. unfold y_field. cbn [is_fit]. rewrite HU. cbn [attr]. rewrite EF, EC. reflexivity.
  Qed.

  Theorem predictor_fits : forall p n e x y, Plain p -> s_est p = GEst e -> has w e "transform" = false -> s_unsupervised p = false ->
    (kind_of w (cast_names w x) = KFrame \/ kind_of w (y_value w p y) = KOther) ->
    (kind_of w (y_value w p y) = KFrame -> names_of w (y_value w p y) <> []) ->
    forall pred, FitsAlone e (cast_names w x) (y_value w p y) pred ->
    succeeds (snd (compute w p n MFitTransform x (y_field w p MFitTransform y))).
  Proof.
    intros p n e x y HP HE HT HU HK HN pred FA. destruct (predictor_fit p n e x y HP HE HT HU pred FA) as (f & _ & ->). cbn [snd].
    unfold predictions, outputs_of, is_frame, is_column, succeeds in *.
    destruct (kind_of w (y_value w p y)) eqn:EY; destruct (kind_of w (cast_names w x)) eqn:EX; destruct HK as [HK|HK]; try congruence;
      cbn [negb andb bind]; eauto; destruct (ndim1 w pred); cbn [bind]; eauto.
    destruct (names_of w (y_value w p y)) as [|a l]; [exfalso; apply HN; auto|]. cbn [bind]. eauto.
  Qed.

  Theorem unsupervised_fails : forall p n e x y, Plain p -> s_est p = GEst e -> has w e "transform" = false -> s_unsupervised p = true ->
    snd (compute w p n MFitTransform x (y_field w p MFitTransform y)) = Err AttributeError.
  Proof.
    intros p n e x y HP HE HT HU. unfold compute. cbn [is_fit]. unfold compute_fit. rewrite (plain_raw p e _ HP HE HT).
    cbn [has_w]. rewrite HT. cbn [negb]. unfold y_field. cbn [is_fit]. rewrite HU. reflexivity.
  Qed.

  Theorem array_column_fails : forall p n e x y, Plain p -> s_est p = GEst e -> has w e "transform" = false -> s_unsupervised p = false ->
    kind_of w (cast_names w x) = KOther -> kind_of w (y_value w p y) = KColumn ->
    forall pred, FitsAlone e (cast_names w x) (y_value w p y) pred ->
    snd (compute w p n MFitTransform x (y_field w p MFitTransform y)) = Err RuntimeError.
  Proof.
    intros p n e x y HP HE HT HU HX HY pred FA. destruct (predictor_fit p n e x y HP HE HT HU pred FA) as (f & _ & ->). cbn [snd].
    unfold predictions, outputs_of, is_frame, is_column. rewrite HX, HY. cbn [negb andb].
    destruct (ndim1 w pred); reflexivity.
  Qed.

  (** transformers *)
  Theorem transformer_fits : forall p n e x y u f z, s_est p = GEst e -> has w e "transform" = true -> has w e "fit_transform" = true ->
    wrap_estimator w (GEst e) (s_cols p) (s_how p) (s_reject p) (cast_names w x) = Ok u ->
    fit_transform w u (cast_names w x) (if s_unsupervised p then None else Some (y_value w p y)) = Ok (f, z) ->
    snd (compute w p n MFitTransform x (y_field w p MFitTransform y)) = Ok z.
  Proof.
    intros p n e x y u f z HE HT HF EW EF. unfold compute. cbn [is_fit]. unfold compute_fit. rewrite HE, EW.
    assert (HX : has_w w u "transform" = true /\ has_w w u "fit_transform" = true).
    { unfold wrap_estimator in EW. rewrite HT in EW. cbn [negb] in EW.
      destruct (eqb_of (s_how p) "full_frame").
      - destruct (check_wrap_params _ _ _); cbn [bind] in EW; [|congruence]. injection EW as <-. auto.
      - destruct (is_frame w (cast_names w x)); cbn [negb] in EW.
        + match type of EW with match ?d with _ => _ end = _ => destruct d as [cw|]; [|congruence] end. injection EW as <-.
          unfold wrap_transformer. destruct cw; try destruct (single w e); auto.
        + destruct (check_wrap_params _ _ _); cbn [bind] in EW; [|congruence]. injection EW as <-. auto. }
    destruct HX as [-> ->]. cbn [negb]. unfold y_field. cbn [is_fit]. destruct (s_unsupervised p); cbn [attr bind]; rewrite EF; reflexivity.
  Qed.

  Lemma fold_fresh : forall (names : list N) (cols : list V) d, NoDup names -> (forall n, In n names -> ~ In n (dkeys d)) ->
    length names = length cols ->
    fold_left (fun d kv => dset (fst kv) (snd kv) d) (combine names cols) d = d ++ combine names cols.
  Proof.
    clear w. induction names as [|n names IH]; destruct cols as [|c cols]; intros d ND Dis L; try discriminate; [symmetry; apply app_nil_r|].
    cbn [combine fold_left fst snd]. inversion_clear ND as [|? ? N1 N2].
    assert (E0 : dset n c d = d ++ [(n, c)]).
    { clear - Dis. assert (Nn : ~ In n (dkeys d)) by (apply Dis; left; reflexivity). clear Dis. induction d as [|[k v] d IH]; [reflexivity|].
      cbn. destruct (eqd n k) as [->|]; [exfalso; apply Nn; left; reflexivity|]. f_equal. apply IH. intros I. apply Nn. right; exact I. }
    rewrite E0, IH; [rewrite <- app_assoc; reflexivity|exact N2| |injection L as L; exact L].
    intros m I. unfold dkeys. rewrite map_app, in_app_iff. cbn. intros [I'|[->|[]]]; [|contradiction]. exact (Dis m (or_intror I) I').
  Qed.

  (** one column per target, with its name *)
  Lemma predictions_table : forall y x pred, kind_of w x = KFrame -> NoDup (targets y pred) -> length (targets y pred) = length (predicted pred) ->
    predictions w (outputs_of w y) x pred = Ok (table w x (combine (targets y pred) (predicted pred))).
  Proof.
    intros y x pred HX ND HL. unfold predictions, outputs_of, is_frame, is_column, targets, predicted, zip_dict in *. rewrite HX. cbn [negb andb].
    destruct (kind_of w y) eqn:EY; destruct (ndim1 w pred) eqn:E1; cbn [bind]; try rewrite fold_fresh; auto; try reflexivity.
    destruct (names_of w y) as [|a [|b l]]; try discriminate. reflexivity.
  Qed.

  Theorem predictions_named : forall p n e x y, CastOk w -> Plain p -> s_est p = GEst e -> has w e "transform" = false -> s_unsupervised p = false ->
    kind_of w x = KFrame -> forall pred, FitsAlone e (cast_names w x) (y_value w p y) pred ->
    NoDup (targets (y_value w p y) pred) -> length (targets (y_value w p y) pred) = length (predicted pred) ->
    exists n' f, compute w p n MFitTransform x (y_field w p MFitTransform y) =
                 (n', Ok (table w (cast_names w x) (combine (targets (y_value w p y) pred) (predicted pred)))) /\
      a_fit n' = Some f /\
      (* later tables have as many predictions, with the same names *)
      forall x2 pred2, kind_of w x2 = KFrame -> call w (Raw e) f "predict" (cast_names w x2) None = Ok pred2 ->
        ndim1 w pred2 = ndim1 w pred -> length (columns_of w pred2) = length (columns_of w pred) ->
        compute w p n' MTransform x2 (y_field w p MTransform y) =
        (n', Ok (table w (cast_names w x2) (combine (targets (y_value w p y) pred) (predicted pred2)))).
  Proof.
    intros p n e x y CO HP HE HT HU HX pred FA ND HL. destruct (predictor_fit p n e x y HP HE HT HU pred FA) as (f & _ & ->).
    assert (K1 : kind_of w (cast_names w x) = KFrame) by (rewrite (proj1 CO); exact HX).
    rewrite (predictions_table _ _ _ K1 ND HL). do 2 eexists. split; [reflexivity|]. split; [reflexivity|].
    intros x2 pred2 HX2 EC2 EN EL. unfold compute. cbn [is_fit]. f_equal. unfold compute_use. cbn [supported a_est attr bind has_w].
    rewrite HT. destruct FA as (_ & -> & _). cbn [negb]. unfold fitted. cbn [a_fit bind]. rewrite EC2. cbn [bind a_outs attr].
    assert (ET : targets (y_value w p y) pred2 = targets (y_value w p y) pred) by (unfold targets; rewrite EN, EL; reflexivity).
    assert (EP : length (predicted pred2) = length (predicted pred)) by (unfold predicted; rewrite EN; destruct (ndim1 w pred); auto).
    rewrite <- ET. apply predictions_table.
    - rewrite (proj1 CO). exact HX2.
    - rewrite ET. exact ND.
    - rewrite ET, EP. exact HL.
  Qed.

  (** options *)
  Definition cols_used (u : wrapped E C) : cols_arg C := match u with Raw _ => CAll | OnEach _ c _ | OnSub _ c => c end.
  Definition may_reject (u : wrapped E C) : bool := match u with OnEach _ _ b => b | _ => false end.
  Definition est_used (u : wrapped E C) : E := match u with Raw e | OnEach e _ _ | OnSub e _ => e end.
  Definition each_column (u : wrapped E C) : bool := match u with OnEach _ _ _ => true | _ => false end.
  Definition some_columns (u : wrapped E C) : bool := match u with OnSub _ _ => true | _ => false end.
  Definition as_is (u : wrapped E C) : bool := match u with Raw _ => true | _ => false end.

  Lemma check_ok : forall (cols : cols_arg C) how rej, check_wrap_params cols how rej = Ok tt -> cols = CAll /\ (how = "auto" \/ how = "full_frame") /\ rej = false.
  Proof.
    clear w. intros cols how rej E0. unfold check_wrap_params in E0. destruct cols; [|discriminate E0]. cbn [is_all negb] in E0.
    destruct (mem how ["auto"; "full_frame"]) eqn:EM; [|discriminate E0]. cbn [negb] in E0. destruct rej; [discriminate E0|].
    apply mem_true in EM. cbn in EM. intuition.
  Qed.

  Theorem options : forall g cols how rej x u, wrap_estimator w g cols how rej x = Ok u ->
    est_used u = match g with GEst e => e | _ => passthrough w end /\
    cols_used u = cols /\
    In how ["auto"; "columnwise"; "sub_frame"; "full_frame"] /\
    (how = "columnwise" -> each_column u = true) /\ (how = "sub_frame" -> some_columns u = true) /\ (how = "full_frame" -> as_is u = true) /\
    (how = "auto" -> each_column u = (has w (est_used u) "transform" && is_frame w x && single w (est_used u))%bool /\
                     some_columns u = (has w (est_used u) "transform" && is_frame w x && negb (single w (est_used u)))%bool) /\
    (some_columns u = false -> may_reject u = rej).
  Proof.
    intros g cols how rej x u E0. unfold wrap_estimator in E0. set (e := match g with GEst e => e | _ => passthrough w end) in *.
    assert (RAW : (how = "full_frame" \/ (has w e "transform" && is_frame w x)%bool = false) ->
              (let! _ := check_wrap_params cols how rej in Ok (Raw e)) = Ok u ->
      est_used u = e /\ cols_used u = cols /\
      In how ["auto"; "columnwise"; "sub_frame"; "full_frame"] /\
      (how = "columnwise" -> each_column u = true) /\ (how = "sub_frame" -> some_columns u = true) /\ (how = "full_frame" -> as_is u = true) /\
      (how = "auto" -> each_column u = (has w (est_used u) "transform" && is_frame w x && single w (est_used u))%bool /\
                     some_columns u = (has w (est_used u) "transform" && is_frame w x && negb (single w (est_used u)))%bool) /\
      (some_columns u = false -> may_reject u = rej)).
    { intros HH E1. destruct (check_wrap_params cols how rej) as [[]|] eqn:EC; cbn [bind] in E1; [|discriminate E1].
      injection E1 as <-. apply check_ok in EC. destruct EC as (-> & HA & ->). cbn [est_used cols_used each_column some_columns as_is may_reject].
      split; [reflexivity|]. split; [reflexivity|]. split; [destruct HA as [-> | ->]; cbn; auto 6|].
      split; [intros ->; destruct HA; discriminate|]. split; [intros ->; destruct HA; discriminate|]. split; [reflexivity|]. split; [|reflexivity].
      intros ->. destruct HH as [HH|HH]; [discriminate|]. rewrite HH. auto. }
    destruct (eqb_of how "full_frame") eqn:EF.
    - apply (proj1 (eqb_of_true _ _)) in EF. apply RAW; auto.
    - destruct (has w e "transform") eqn:ET; cbn [negb] in E0.
      + destruct (is_frame w x) eqn:EX; cbn [negb] in E0.
        * cbn [dget] in E0.
          destruct (eqd how "auto") as [->|N1]; [|destruct (eqd how "columnwise") as [->|N2]; [|destruct (eqd how "sub_frame") as [->|N3]; [|discriminate]]];
            injection E0 as <-; unfold wrap_transformer; try destruct (single w e) eqn:ES; cbn [est_used cols_used each_column some_columns as_is may_reject];
            repeat match goal with |- _ /\ _ => split end; auto; try (intros; discriminate); cbn; auto; intros _; rewrite ET, ES; auto.
        * apply RAW; auto.
      + apply RAW; auto.
  Qed.

  (** options that cannot be honoured *)
  Theorem options_refused : forall g cols how rej x, let e := match g with GEst e => e | _ => passthrough w end in
    (has w e "transform" = false \/ is_frame w x = false \/ how = "full_frame") ->
    (cols <> CAll \/ ~ In how ["auto"; "full_frame"] \/ rej = true) -> wrap_estimator w g cols how rej x = Err ValueError.
  Proof.
    intros g cols how rej x e HN HB. unfold wrap_estimator. fold e.
    assert (EC : check_wrap_params cols how rej = Err ValueError).
    { unfold check_wrap_params. destruct cols; [|reflexivity]. cbn [is_all negb]. destruct (mem how ["auto"; "full_frame"]) eqn:EM; [|reflexivity].
      cbn [negb]. apply mem_true in EM. destruct HB as [HB|[HB| ->]]; [congruence|contradiction|reflexivity]. }
    rewrite EC. cbn [bind]. destruct (eqb_of how "full_frame") eqn:EF; [reflexivity|].
    destruct (has w e "transform"); cbn [negb]; [|reflexivity]. destruct (is_frame w x); cbn [negb]; [|reflexivity].
    destruct HN as [HN|[HN| ->]]; discriminate.
  Qed.

  Theorem subframe_fails : forall g cols rej x, exists e, wrap_estimator w g cols "subframe" rej x = Err e.
  Proof.
    intros g cols rej x. destruct (wrap_estimator w g cols "subframe" rej x) as [u|e] eqn:EW; [|eauto].
    exfalso. apply options in EW. destruct EW as (_ & _ & HI & _). cbn in HI. intuition discriminate.
  Qed.
End Spec2.
