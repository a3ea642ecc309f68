(** Steps that apply an estimator: what is fitted, what is predicted, which options count. *)
From Verif Require Import Base M_apply L_apply L_apply2.
Open Scope string_scope.
Open Scope list_scope.
Open Scope nat_scope.

(** A small world: numbers in tables, columns and arrays; [Pca] transforms and scores, [Clf] predicts, [Mixture] predicts without
    targets, [Dates] is for single columns. Fitted estimators remember what they were fitted on. *)
Inductive ex_v : Type := VFrame (cols : list (string * list nat)) | VCol (name : string) (l : list nat) | VArr (l : list nat) | VMat (cols : list (list nat)) | VNum (n : nat) | VNone.
Inductive ex_e : Type := Pca | Clf | Mixture | Dates | Pass.
Definition ex_f : Type := ex_v * ex_v.
Definition ex_shift (x : ex_v) : ex_v :=
  match x with VFrame cols => VFrame (map (fun c => (fst c, map S (snd c))) cols) | VArr l => VArr (map S l) | _ => x end.
Definition ex_total (x : ex_v) : nat :=
  match x with VFrame cols => list_sum (map (fun c => list_sum (snd c)) cols) | VArr l => list_sum l | VNum n => n + 100 | _ => 50 end.
Definition ex_rows (x : ex_v) : list nat := match x with VFrame ((_, l) :: _) => l | VArr l => l | _ => [] end.
Definition ex_predict (f : ex_f) (x : ex_v) : ex_v :=
  match snd f with VFrame cols => VMat (map (fun c => map (fun _ => list_sum (snd c)) (ex_rows x)) cols) | _ => VArr (map (fun _ => 1) (ex_rows x)) end.
Definition ex_call (u : wrapped ex_e (list string)) (f : ex_f) (m : string) (x : ex_v) (y : option ex_v) : res ex_v :=
  if eqb_of m "transform" then Ok (ex_shift x)
  else if eqb_of m "predict" then Ok (ex_predict f x)
  else if eqb_of m "predict_proba" then Ok (VMat [ex_rows x; map (fun n => 10 - n) (ex_rows x)])
  else Ok (VNum (ex_total x)).
Definition ex_has (e : ex_e) (m : string) : bool :=
  mem m match e with
        | Pca => ["fit"; "fit_transform"; "transform"; "score"]
        | Clf => ["fit"; "predict"; "predict_proba"; "score"]
        | Mixture => ["fit"; "predict"; "score"]
        | Dates | Pass => ["fit"; "fit_transform"; "transform"]
        end.
Definition ex_world : world ex_v ex_e (list string) ex_f string := {|
  kind_of := fun x => match x with VFrame _ => KFrame | VCol _ _ => KColumn | _ => KOther end;
  none := VNone;
  cast_names := fun x => x;
  name_of := fun x => match x with VCol n _ => n | _ => "" end;
  names_of := fun x => match x with VFrame cols => map fst cols | _ => [] end;
  ndim1 := fun x => match x with VMat _ => false | _ => true end;
  columns_of := fun x => match x with VMat cols => map VArr cols | _ => [] end;
  target_name := "y";
  target_names := fun i => String (Ascii.ascii_of_nat (48 + i)) "";
  table := fun _ d => VFrame (map (fun c => (fst c, ex_rows (snd c))) d);
  has := ex_has;
  single := fun e => match e with Dates => true | _ => false end;
  passthrough := Pass;
  fit := fun _ x y => Ok (x, y);
  fit_transform := fun _ x y => Ok ((x, match y with Some y => y | None => VNone end), ex_shift x);
  call := ex_call |}.
Lemma ex_consistent : Consistent ex_world.
Proof. intros u x y f z E. injection E as <- <-. reflexivity. Qed.
Lemma ex_cast : CastOk ex_world.
Proof. repeat split. Qed.
Lemma ex_wrap : WrapOk ex_world.
Proof. intros u x y f z _ K E. injection E as <- <-. destruct x; try discriminate. reflexivity. Qed.

Definition ex_step (e : ex_e) (y : bool) : step (E := ex_e) (C := list string) :=
  {| s_est := GEst e; s_cols := CAll; s_how := "auto"; s_reject := false; s_unsupervised := false; s_has_y := y |}.
Definition ex_new (e : ex_e) (y : bool) : step (E := ex_e) (C := list string) * node (E := ex_e) (C := list string) (F := ex_f) (N := string) := (ex_step e y, new_node).
Definition ex_frame : ex_v := VFrame [("a", [1; 2]); ("b", [3; 4])].
Definition ex_y : ex_v := VCol "target" [0; 1].

(** C81: transforming the training data gives what fitting returned *)
Theorem C81_transform_training_data : forall {V E C F N} `{EqD N} (w : world V E C F N) ps x y ps' r, Consistent w ->
  run w MFitTransform ps x y = (ps', Ok r) -> run w MTransform ps' x y = (ps', Ok r) /\ map fst ps' = map fst ps.
Proof. intros. apply fit_then_transform; assumption. Qed.
Print Assumptions C81_transform_training_data.
Example ex_C81 : exists ps' r, run ex_world MFitTransform [ex_new Pca false; ex_new Dates false; ex_new Clf true] ex_frame ex_y = (ps', Ok r) /\
  r = VFrame [("target", [1; 1])] /\ run ex_world MTransform ps' ex_frame ex_y = (ps', Ok r).
Proof. do 2 eexists. repeat split; vm_compute; reflexivity. Qed.

(** C82: the last estimator predicts from the data it was fitted on *)
Theorem C82_partial : forall {V E C F N} `{EqD N} (w : world V E C F N) ps q x y ps' r m, Consistent w ->
  run w MFitTransform (ps ++ [q]) x y = (ps', Ok r) ->
  exists qs n', ps' = qs ++ [(fst q, n')] /\ ((forall q', In q' qs -> lacks w m q') -> PredictsFromSameData w qs (fst q) n' x y m).
Proof. intros. eapply predicts_same; eassumption. Qed.
Print Assumptions C82_partial.
Theorem C82_tables_partial : forall {V E C F N} `{EqD N} (w : world V E C F N) ps q x y ps' r m, Consistent w -> CastOk w -> WrapOk w ->
  has w (passthrough w) "transform" = true -> kind_of w x = KFrame -> (forall q', In q' ps -> Usual w (fst q')) ->
  run w MFitTransform (ps ++ [q]) x y = (ps', Ok r) ->
  exists qs n', ps' = qs ++ [(fst q, n')] /\ PredictsFromSameData w qs (fst q) n' x y m.
Proof.
  intros V E C F N EN w ps q x y ps' r m C0 CO WO HP HX HU E0.
  destruct (predicts_same w ps q x y ps' r m C0 E0) as (qs & n' & E1 & HS). exists qs, n'. split; [exact E1|]. apply HS.
  destruct (run_app_fit w ps q x y ps' r E0) as (qs2 & n2 & z & E2 & E3 & _).
  assert (qs2 = qs) by (rewrite E1 in E2; apply app_inj_tail in E2; destruct E2; congruence). subst qs2.
  intros q' I. exact (proj2 (usual_tables w ps x y qs z C0 CO WO HP HX HU E3) m q' I).
Qed.
Print Assumptions C82_tables_partial.
(** arrays: the score of an intermediate transformer is given to the last estimator in place of the transformed data *)
Theorem C82_arrays_refuted : exists (w : world ex_v ex_e (list string) ex_f string) ps q x y qs n' r, Consistent w /\ CastOk w /\ WrapOk w /\
  (forall q', In q' ps -> Usual w (fst q')) /\
  run w MFitTransform (ps ++ [q]) x y = (qs ++ [(fst q, n')], Ok r) /\ ~ PredictsFromSameData w qs (fst q) n' x y Score.
Proof.
  exists ex_world, [ex_new Pca false], (ex_new Clf true), (VArr [1; 2]), (VArr [0; 1]).
  exists [(ex_step Pca false, {| a_est := Some (Raw Pca); a_fit := Some (VArr [1; 2], VNone); a_outs := None |})].
  exists {| a_est := Some (Raw Clf); a_fit := Some (VArr [2; 3], VArr [0; 1]); a_outs := Some None |}. exists (VArr [1; 1]).
  split; [exact ex_consistent|]. split; [exact ex_cast|]. split; [exact ex_wrap|].
  split; [intros q' [<-|[]]; split; [discriminate|intros e E; injection E as <-; reflexivity]|].
  split; [vm_compute; reflexivity|].
  intros (u & f & z & EA & EF & FO & HS). injection EA as <-. injection EF as <-. vm_compute in FO. injection FO as ->.
  specialize (HS eq_refl). vm_compute in HS. discriminate.
Qed.
Print Assumptions C82_arrays_refuted.
(** tables: a predictor that is followed by another one gives probabilities in place of predictions *)
Theorem C82_stacked_refuted : exists (w : world ex_v ex_e (list string) ex_f string) ps q x y qs n' r, Consistent w /\ CastOk w /\ WrapOk w /\
  kind_of w x = KFrame /\
  run w MFitTransform (ps ++ [q]) x y = (qs ++ [(fst q, n')], Ok r) /\ ~ PredictsFromSameData w qs (fst q) n' x y PredictProba.
Proof.
  exists ex_world, [ex_new Clf true], (ex_new Clf true), ex_frame, ex_y.
  exists [(ex_step Clf true, {| a_est := Some (Raw Clf); a_fit := Some (ex_frame, ex_y); a_outs := Some (Some ["target"]) |})].
  exists {| a_est := Some (Raw Clf); a_fit := Some (VFrame [("target", [1; 1])], ex_y); a_outs := Some (Some ["target"]) |}. exists (VFrame [("target", [1; 1])]).
  split; [exact ex_consistent|]. split; [exact ex_cast|]. split; [exact ex_wrap|]. split; [reflexivity|].
  split; [vm_compute; reflexivity|].
  intros (u & f & z & EA & EF & FO & HS). injection EA as <-. injection EF as <-. vm_compute in FO. injection FO as ->.
  specialize (HS eq_refl). vm_compute in HS. discriminate.
Qed.
Print Assumptions C82_stacked_refuted.
Example ex_C82 : (forall q', In q' [ex_new Pca false; ex_new Dates false] -> Usual ex_world (fst q')) /\
  exists ps' r, run ex_world MFitTransform ([ex_new Pca false; ex_new Dates false] ++ [ex_new Clf true]) ex_frame ex_y = (ps', Ok r) /\
  snd (run ex_world (MCall Score) ps' ex_frame ex_y) = Ok (VNum 18).
Proof.
  split.
  - intros q' [<-|[<-|[]]]; (split; [discriminate|intros e E; injection E as <-; reflexivity]).
  - do 2 eexists. split; vm_compute; reflexivity.
Qed.

(** C83: an estimator that can be fitted on the data can be fitted by a step of a pipeline *)
Theorem C83_predictors_partial : forall {V E C F N} `{EqD N} (w : world V E C F N) p n e x y,
  Plain p -> s_est p = GEst e -> has w e "transform" = false -> s_unsupervised p = false ->
  (kind_of w (cast_names w x) = KFrame \/ kind_of w (y_value w p y) = KOther) ->
  (kind_of w (y_value w p y) = KFrame -> names_of w (y_value w p y) <> []) ->
  forall pred, FitsAlone w e (cast_names w x) (y_value w p y) pred ->
  succeeds (snd (compute w p n MFitTransform x (y_field w p MFitTransform y))).
Proof. intros. eapply predictor_fits; eassumption. Qed.
Print Assumptions C83_predictors_partial.
Theorem C83_transformers : forall {V E C F N} `{EqD N} (w : world V E C F N) p n e x y u f z,
  s_est p = GEst e -> has w e "transform" = true -> has w e "fit_transform" = true ->
  wrap_estimator w (GEst e) (s_cols p) (s_how p) (s_reject p) (cast_names w x) = Ok u ->
  fit_transform w u (cast_names w x) (if s_unsupervised p then None else Some (y_value w p y)) = Ok (f, z) ->
  snd (compute w p n MFitTransform x (y_field w p MFitTransform y)) = Ok z.
Proof. intros. eapply transformer_fits; eassumption. Qed.
Print Assumptions C83_transformers.
(** [unsupervised=True] and an estimator that predicts but does not transform *)
Theorem C83_unsupervised_fails : forall {V E C F N} `{EqD N} (w : world V E C F N) p n e x y,
  Plain p -> s_est p = GEst e -> has w e "transform" = false -> s_unsupervised p = true ->
  snd (compute w p n MFitTransform x (y_field w p MFitTransform y)) = Err AttributeError.
Proof. intros. eapply unsupervised_fails; eassumption. Qed.
Print Assumptions C83_unsupervised_fails.
(** an array and a column of targets *)
Theorem C83_array_and_column_fails : forall {V E C F N} `{EqD N} (w : world V E C F N) p n e x y,
  Plain p -> s_est p = GEst e -> has w e "transform" = false -> s_unsupervised p = false ->
  kind_of w (cast_names w x) = KOther -> kind_of w (y_value w p y) = KColumn ->
  forall pred, FitsAlone w e (cast_names w x) (y_value w p y) pred ->
  snd (compute w p n MFitTransform x (y_field w p MFitTransform y)) = Err RuntimeError.
Proof. intros. eapply array_column_fails; eassumption. Qed.
Print Assumptions C83_array_and_column_fails.
Definition ex_unsup : step (E := ex_e) (C := list string) :=
  {| s_est := GEst Mixture; s_cols := CAll; s_how := "auto"; s_reject := false; s_unsupervised := true; s_has_y := true |}.
Theorem C83_refuted : exists (w : world ex_v ex_e (list string) ex_f string) e p p' x x' y pred pred',
  FitsAlone w e (cast_names w x) (y_value w p y) pred /\ FitsAlone w e (cast_names w x') (y_value w p' y) pred' /\
  Plain p /\ Plain p' /\ s_est p = GEst e /\ s_est p' = GEst e /\
  snd (compute w p new_node MFitTransform x (y_field w p MFitTransform y)) = Err AttributeError /\
  snd (compute w p' new_node MFitTransform x' (y_field w p' MFitTransform y)) = Err RuntimeError.
Proof.
  exists ex_world, Mixture, ex_unsup, (ex_step Mixture true), ex_frame, (VArr [1; 2]), ex_y, (VArr [1; 1]), (VArr [1; 1]).
  repeat split; try (eexists; split; reflexivity); auto.
Qed.
Print Assumptions C83_refuted.
Example ex_C83 : Plain (ex_step Clf true) /\ FitsAlone ex_world Clf ex_frame ex_y (VArr [1; 1]) /\
  snd (compute ex_world (ex_step Clf true) new_node MFitTransform ex_frame (y_field ex_world (ex_step Clf true) MFitTransform ex_y)) = Ok (VFrame [("target", [1; 1])]).
Proof. repeat split; auto. eexists. split; reflexivity. Qed.

(** C84: predictions in a pipeline *)
Theorem C84_partial : forall {V E C F N} `{EqD N} (w : world V E C F N) p n e x y,
  CastOk w -> Plain p -> s_est p = GEst e -> has w e "transform" = false -> s_unsupervised p = false ->
  kind_of w x = KFrame -> forall pred, FitsAlone w e (cast_names w x) (y_value w p y) pred ->
  NoDup (targets w (y_value w p y) pred) -> length (targets w (y_value w p y) pred) = length (predicted w pred) ->
  exists n' f, compute w p n MFitTransform x (y_field w p MFitTransform y) =
               (n', Ok (table w (cast_names w x) (combine (targets w (y_value w p y) pred) (predicted w pred)))) /\
    a_fit n' = Some f /\
    forall x2 pred2, kind_of w x2 = KFrame -> call w (Raw e) f "predict" (cast_names w x2) None = Ok pred2 ->
      ndim1 w pred2 = ndim1 w pred -> length (columns_of w pred2) = length (columns_of w pred) ->
      compute w p n' MTransform x2 (y_field w p MTransform y) =
      (n', Ok (table w (cast_names w x2) (combine (targets w (y_value w p y) pred) (predicted w pred2)))).
Proof. intros. apply predictions_named; assumption. Qed.
Print Assumptions C84_partial.
(** targets with the same name: predictions are lost *)
Theorem C84_refuted : exists (w : world ex_v ex_e (list string) ex_f string) p e x y pred n' d,
  CastOk w /\ Plain p /\ s_est p = GEst e /\ FitsAlone w e (cast_names w x) (y_value w p y) pred /\ kind_of w x = KFrame /\
  length (predicted w pred) = length (names_of w y) /\
  compute w p new_node MFitTransform x (y_field w p MFitTransform y) = (n', Ok (VFrame d)) /\ length d < length (names_of w y).
Proof.
  exists ex_world, (ex_step Clf true), Clf, ex_frame, (VFrame [("t", [0; 1]); ("t", [1; 1])]), (VMat [[1; 1]; [2; 2]]).
  do 2 eexists. split; [exact ex_cast|]. repeat split; auto; try (eexists; split; reflexivity).
Qed.
Print Assumptions C84_refuted.
Example ex_C84 : let y := VFrame [("t", [0; 1]); ("u", [1; 1])] in FitsAlone ex_world Clf ex_frame y (VMat [[1; 1]; [2; 2]]) /\
  NoDup (targets ex_world y (VMat [[1; 1]; [2; 2]])) /\
  snd (compute ex_world (ex_step Clf true) new_node MFitTransform ex_frame (y_field ex_world (ex_step Clf true) MFitTransform y)) = Ok (VFrame [("t", [1; 1]); ("u", [2; 2])]).
Proof. split; [repeat split; eexists; split; reflexivity|]. split; [repeat constructor; cbn; intuition discriminate|reflexivity]. Qed.

(** C85: options of [apply] *)
Theorem C85_options_partial : forall {V E C F N} (w : world V E C F N) g cols how rej x u, wrap_estimator w g cols how rej x = Ok u ->
  est_used u = match g with GEst e => e | _ => passthrough w end /\
  cols_used u = cols /\
  In how ["auto"; "columnwise"; "sub_frame"; "full_frame"] /\
  (how = "columnwise" -> each_column u = true) /\ (how = "sub_frame" -> some_columns u = true) /\ (how = "full_frame" -> as_is u = true) /\
  (how = "auto" -> each_column u = (has w (est_used u) "transform" && is_frame w x && single w (est_used u))%bool /\
                   some_columns u = (has w (est_used u) "transform" && is_frame w x && negb (single w (est_used u)))%bool) /\
  (some_columns u = false -> may_reject u = rej).
Proof. intros. apply options; assumption. Qed.
Print Assumptions C85_options_partial.
Theorem C85_refused : forall {V E C F N} (w : world V E C F N) g cols how rej x, let e := match g with GEst e => e | _ => passthrough w end in
  (has w e "transform" = false \/ is_frame w x = false \/ how = "full_frame") ->
  (cols <> CAll \/ ~ In how ["auto"; "full_frame"] \/ rej = true) -> wrap_estimator w g cols how rej x = Err ValueError.
Proof. intros. apply options_refused; assumption. Qed.
Print Assumptions C85_refused.
(** [allow_reject=True] is documented to apply the estimator to each column; it is ignored *)
Theorem C85_allow_reject_refuted : exists (w : world ex_v ex_e (list string) ex_f string) e x u,
  wrap_estimator w (GEst e) CAll "auto" true x = Ok u /\ may_reject u = false /\ each_column u = false /\ u = OnSub e CAll.
Proof. exists ex_world, Pca, ex_frame. eexists. repeat split. Qed.
Print Assumptions C85_allow_reject_refuted.
(** [how="subframe"] is documented; it always fails *)
Theorem C85_subframe_refuted : forall {V E C F N} (w : world V E C F N) g cols rej x, exists e, wrap_estimator w g cols "subframe" rej x = Err e.
Proof. intros. apply subframe_fails. Qed.
Print Assumptions C85_subframe_refuted.
Example ex_C85 : wrap_estimator ex_world (GEst Dates) (CSel ["a"]) "auto" true ex_frame = Ok (OnEach Dates (CSel ["a"]) true) /\
  wrap_estimator ex_world (GEst Pca) (CSel ["a"]) "columnwise" false ex_frame = Ok (OnEach Pca (CSel ["a"]) false) /\
  wrap_estimator ex_world GNone (CSel ["a"]) "auto" false ex_frame = Ok (OnSub Pass (CSel ["a"])) /\
  wrap_estimator ex_world (GEst Clf) (CSel ["a"]) "auto" false ex_frame = Err ValueError /\
  wrap_estimator ex_world (GEst Pca) CAll "subframe" false ex_frame = Err KeyError.
Proof. repeat split. Qed.
