(** What a user of steps that apply estimators relies on, and proofs about [M_apply]. *)
From Verif Require Import Base L_dict M_apply.
Open Scope string_scope.
Open Scope list_scope.
Open Scope nat_scope.

Section Spec.
  Context {V E C F N : Type} `{EqD N}.
  Variable w : world V E C F N.

  Local Notation step := (@step E C).
  Local Notation node := (@node E C F N).

  (** what [fit_transform] returns is what [transform] then gives for the same data *)
  Definition Consistent : Prop :=
    forall u x y f z, fit_transform w u x y = Ok (f, z) -> call w u f "transform" x None = Ok z.
  (** renaming columns keeps the kind of the data, once is enough, and only dataframes have columns *)
  Definition CastOk : Prop :=
    (forall x, kind_of w (cast_names w x) = kind_of w x) /\ (forall x, cast_names w (cast_names w x) = cast_names w x) /\
    (forall x, kind_of w x <> KFrame -> cast_names w x = x).
  (** applying a transformer to columns of a dataframe gives a dataframe *)
  Definition WrapOk : Prop :=
    forall u x y f z, (forall e, u <> Raw e) -> kind_of w x = KFrame -> fit_transform w u x y = Ok (f, z) -> kind_of w z = KFrame.

  (** the targets that were given to the step, if any *)
  Definition own_y (p : step) (y : V) : V := if s_has_y p then y else none w.
  (** the estimator [u] was fitted on [x] and gave [f]; the arguments it got *)
  Definition FittedOn (p : step) (u : wrapped E C) (x y : V) (f : F) : Prop :=
    if has_w w u "transform"
    then exists z, fit_transform w u x (if s_unsupervised p then None else Some (own_y p y)) = Ok (f, z)
    else fit w u x (own_y p y) = Ok f.
  (** what it is asked when predicting *)
  Definition asked (p : step) (m : pmethod) (y : V) : option V := match m with Score => Some (own_y p y) | _ => None end.

  (** the names of the methods in Python *)
  Definition method (m : pmethod) : string :=
    match m with Predict => "predict" | PredictProba => "predict_proba" | DecisionFunction => "decision_function" | Score => "score" end.
  Lemma method_pname : forall m, method m = pname m.
  Proof. intros []; reflexivity. Qed.
  Definition lacks (m : pmethod) (q : step * node) : Prop := forall u, a_est (snd q) = Some u -> has_w w u (method m) = false.

  (** the last step of a pipeline fitted on [x] and [y] predicts from the very data on which it was fitted *)
  Definition PredictsFromSameData (ps : list (step * node)) (p : step) (n : node) (x y : V) (m : pmethod) : Prop :=
    exists u f z, a_est n = Some u /\ a_fit n = Some f /\ FittedOn p u z y f /\
      (has_w w u (method m) = true -> snd (run w (MCall m) (ps ++ [(p, n)]) x y) = call w u f (method m) z (asked p m y)).

  Lemma compute_fit_ok : forall p n x y n' z, Consistent ->
    compute w p n MFitTransform x (y_field w p MFitTransform y) = (n', Ok z) ->
    exists u f, a_est n' = Some u /\ a_fit n' = Some f /\ FittedOn p u (cast_names w x) y f /\
      wrap_estimator w (s_est p) (s_cols p) (s_how p) (s_reject p) (cast_names w x) = Ok u /\
      (has_w w u "transform" = true -> exists ya, fit_transform w u (cast_names w x) ya = Ok (f, z)) /\
      (has_w w u "transform" = false -> s_unsupervised p = false /\ a_outs n' = Some (outputs_of w (y_value w p y)) /\
         exists pred, call w u f "predict" (cast_names w x) None = Ok pred /\
           predictions w (outputs_of w (y_value w p y)) (cast_names w x) pred = Ok z) /\
      (forall yf, compute_use w p n' MTransform x yf = Ok z).
  Proof.
    intros p n x y n' z C0 E0. unfold compute in E0. cbn [is_fit] in E0. unfold compute_fit in E0.
    destruct (wrap_estimator w (s_est p) (s_cols p) (s_how p) (s_reject p) (cast_names w x)) as [u|e] eqn:EW; [|congruence].
    destruct (has_w w u "transform") eqn:ET; cbn [negb] in E0.
    - destruct (has_w w u "fit_transform"); cbn [negb] in E0; [|congruence].
      unfold y_field in E0. cbn [is_fit] in E0.
      assert (EE : exists f, fit_transform w u (cast_names w x) (if s_unsupervised p then None else Some (y_value w p y)) = Ok (f, z)
                /\ n' = {| a_est := Some u; a_fit := Some f; a_outs := a_outs n |}).
      { destruct (s_unsupervised p); cbn [attr bind] in E0;
          match type of E0 with match ?q with _ => _ end = _ => destruct q as [[f z']|e] eqn:EF end; try congruence;
          injection E0 as <- <-; eauto. }
      destruct EE as (f & EF & ->). exists u, f. cbn [a_est a_fit a_outs].
      split; [reflexivity|]. split; [reflexivity|]. split; [|split; [reflexivity|split; [|split; [intro; congruence|]]]].
      + unfold FittedOn. rewrite ET. exists z. exact EF.
      + intros _. eauto.
      + intros yf. unfold compute_use. cbn [supported attr a_est bind]. rewrite ET. cbn [negb]. unfold fitted. cbn [a_fit bind].
        eapply C0; eauto.
    - unfold y_field in E0. cbn [is_fit] in E0. destruct (s_unsupervised p) eqn:EU; cbn [attr] in E0; [congruence|].
      destruct (has_w w u "fit"); cbn [negb] in E0; [|congruence].
      destruct (fit w u (cast_names w x) (y_value w p y)) as [f|e] eqn:EF; [|congruence].
      destruct (has_w w u "predict") eqn:EP; cbn [negb] in E0; [|congruence].
      injection E0 as <- E0. destruct (call w u f "predict" (cast_names w x) None) as [pred|e] eqn:EC; cbn [bind] in E0; [|congruence].
      exists u, f. cbn [a_est a_fit a_outs].
      split; [reflexivity|]. split; [reflexivity|]. split; [|split; [reflexivity|split; [intro; congruence|split]]].
      + unfold FittedOn. rewrite ET. exact EF.
      + intros _. eauto.
      + intros yf. unfold compute_use. cbn [supported attr a_est bind]. rewrite ET, EP. cbn [negb]. unfold fitted. cbn [a_fit bind].
        rewrite EC. cbn [bind a_outs attr]. exact E0.
  Qed.

  (** fitting, then transforming the same data *)
  Lemma fit_then_transform : forall ps x y ps' r, Consistent -> run w MFitTransform ps x y = (ps', Ok r) ->
    run w MTransform ps' x y = (ps', Ok r) /\ map fst ps' = map fst ps.
  Proof.
    induction ps as [|[p n] ps IH]; intros x y ps' r C0 E0; cbn [run] in E0.
    - injection E0 as <- <-. auto.
    - destruct (compute w p n MFitTransform x (y_field w p MFitTransform y)) as [n' [z|e]] eqn:EC; [|congruence].
      destruct (run w MFitTransform ps z y) as [ps'' r'] eqn:ER. injection E0 as <- ->.
      destruct (compute_fit_ok _ _ _ _ _ _ C0 EC) as (u & f & _ & _ & _ & _ & _ & _ & HU).
      destruct (IH _ _ _ _ C0 ER) as [I1 I2].
      cbn [run]. unfold compute. cbn [is_fit]. rewrite HU, I1. cbn [map fst]. rewrite I2. auto.
  Qed.

  (** earlier steps without the method transform *)
  Lemma lacks_transform : forall p n m x yf, a_est n <> None -> lacks m (p, n) ->
    compute_use w p n (MCall m) x yf = compute_use w p n MTransform x None.
  Proof.
    intros p n m x yf HN HL. unfold compute_use. destruct (a_est n) as [u|] eqn:EA; [|congruence].
    cbn [supported]. rewrite EA. rewrite <- method_pname, (HL u EA). cbn [attr bind]. reflexivity.
  Qed.

  Lemma run_app_fit : forall ps q x y ps' r, run w MFitTransform (ps ++ [q]) x y = (ps', Ok r) ->
    exists qs n' z, ps' = qs ++ [(fst q, n')] /\ run w MFitTransform ps x y = (qs, Ok z) /\
      compute w (fst q) (snd q) MFitTransform z (y_field w (fst q) MFitTransform y) = (n', Ok r).
  Proof.
    induction ps as [|[p n] ps IH]; intros [p0 n0] x y ps' r E0; cbn [run app fst snd] in *.
    - destruct (compute w p0 n0 MFitTransform x (y_field w p0 MFitTransform y)) as [n' [z|e]] eqn:EC; [|congruence].
      injection E0 as <- <-. exists [], n', x. auto.
    - destruct (compute w p n MFitTransform x (y_field w p MFitTransform y)) as [n' [z|e]] eqn:EC; [|congruence].
      destruct (run w MFitTransform (ps ++ [(p0, n0)]) z y) as [ps'' r'] eqn:ER. injection E0 as <- ->.
      destruct (IH (p0, n0) _ _ _ _ ER) as (qs & n1 & z1 & -> & E1 & E2). cbn [fst snd] in *.
      exists ((p, n') :: qs), n1, z1. rewrite E1. auto.
  Qed.

  Lemma run_lacks : forall m p n y qs x z, (forall q, In q qs -> lacks m q /\ a_est (snd q) <> None) ->
    run w MTransform qs x y = (qs, Ok z) ->
    snd (run w (MCall m) (qs ++ [(p, n)]) x y) = compute_use w p n (MCall m) z (asked p m y).
  Proof.
    intros m p n y. induction qs as [|[p1 n1] qs IH]; intros x z HL E0; cbn [run app] in *.
    - injection E0 as <-. unfold compute. cbn [is_fit].
      assert (EY : y_field w p (MCall m) y = asked p m y) by (destruct m; reflexivity).
      rewrite EY. destruct (compute_use w p n (MCall m) x (asked p m y)); reflexivity.
    - unfold compute in *. cbn [is_fit] in *.
      destruct (HL (p1, n1) (or_introl eq_refl)) as [L1 L2]. cbn [snd] in L2.
      rewrite (lacks_transform _ _ m x (y_field w p1 (MCall m) y) L2 L1).
      assert (EY : y_field w p1 MTransform y = None) by reflexivity. rewrite EY in E0.
      destruct (compute_use w p1 n1 MTransform x None) as [z1|e]; [|congruence].
      destruct (run w MTransform qs z1 y) as [qs' r'] eqn:ER. injection E0 as -> ->.
      specialize (IH z1 z (fun q h => HL q (or_intror h)) ER).
      destruct (run w (MCall m) (qs ++ [(p, n)]) z1 y) as [a b]. cbn [snd] in *. exact IH.
  Qed.

  Lemma fitted_nodes : forall ps x y ps' r, Consistent -> run w MFitTransform ps x y = (ps', Ok r) -> forall q, In q ps' -> a_est (snd q) <> None.
  Proof.
    induction ps as [|[p n] ps IH]; intros x y ps' r C0 E0 q HI; cbn [run] in E0.
    - injection E0 as <- <-. destruct HI.
    - destruct (compute w p n MFitTransform x (y_field w p MFitTransform y)) as [n' [z|e]] eqn:EC; [|congruence].
      destruct (run w MFitTransform ps z y) as [ps'' r'] eqn:ER. injection E0 as <- ->.
      destruct (compute_fit_ok _ _ _ _ _ _ C0 EC) as (u & f & EA & _). destruct HI as [<-|HI].
      + cbn [snd]. congruence.
      + eapply IH; eauto.
  Qed.

  Theorem predicts_same : forall ps q x y ps' r m, Consistent ->
    run w MFitTransform (ps ++ [q]) x y = (ps', Ok r) ->
    exists qs n', ps' = qs ++ [(fst q, n')] /\ ((forall q', In q' qs -> lacks m q') -> PredictsFromSameData qs (fst q) n' x y m).
  Proof.
    intros ps q x y ps' r m C0 E0. destruct (run_app_fit _ _ _ _ _ _ E0) as (qs & n' & z & -> & E1 & E2).
    exists qs, n'. split; [reflexivity|]. intros HL.
    destruct (fit_then_transform _ _ _ _ _ C0 E1) as [ET _].
    destruct (compute_fit_ok _ _ _ _ _ _ C0 E2) as (u & f & EA & EF & FO & _).
    exists u, f, (cast_names w z). repeat split; auto. intros HM.
    rewrite (run_lacks m (fst q) n' y qs x z).
    - rewrite method_pname in *. unfold compute_use. cbn [supported]. rewrite EA, HM. cbn [attr bind].
      destruct m; cbn [asked attr bind]; unfold fitted; rewrite EF; cbn [bind]; reflexivity.
    - intros q' HI. split; auto. eapply fitted_nodes; eauto.
    - exact ET.
  Qed.

  (** the steps of the usual pipelines on dataframes *)
  Definition Usual (p : step) : Prop :=
    s_how p <> "full_frame" /\ forall e, s_est p = GEst e -> has w e "transform" = true.

  Lemma usual_tables : forall ps x y ps' r, Consistent -> CastOk -> WrapOk -> has w (passthrough w) "transform" = true ->
    kind_of w x = KFrame -> (forall q, In q ps -> Usual (fst q)) -> run w MFitTransform ps x y = (ps', Ok r) ->
    kind_of w r = KFrame /\ forall m q, In q ps' -> lacks m q.
  Proof.
    induction ps as [|[p n] ps IH]; intros x y ps' r C0 CO WO HP HX HU E0; cbn [run] in E0.
    - injection E0 as <- <-. split; [exact HX|intros m q []].
    - destruct (compute w p n MFitTransform x (y_field w p MFitTransform y)) as [n' [z|e]] eqn:EC; [|congruence].
      destruct (run w MFitTransform ps z y) as [ps'' r'] eqn:ER. injection E0 as <- ->.
      destruct (compute_fit_ok _ _ _ _ _ _ C0 EC) as (u & f & EA & EF & FO & EW & HT & _).
      destruct (HU (p, n) (or_introl eq_refl)) as [U1 U2]. cbn [fst] in U1, U2.
      unfold wrap_estimator in EW.
      assert (EH : eqb_of (s_how p) "full_frame" = false).
      { destruct (eqb_of (s_how p) "full_frame") eqn:EE; [|reflexivity]. apply (proj1 (eqb_of_true _ _)) in EE. contradiction. }
      rewrite EH in EW.
      set (e := match s_est p with GEst e => e | _ => passthrough w end) in *.
      assert (HE : has w e "transform" = true). { subst e. destruct (s_est p); auto. }
      rewrite HE in EW. cbn [negb] in EW.
      assert (HF : is_frame w (cast_names w x) = true). { unfold is_frame. rewrite (proj1 CO), HX. reflexivity. }
      rewrite HF in EW. cbn [negb] in EW.
      assert (HW : forall e', u <> Raw e').
      { match type of EW with match ?d with _ => _ end = _ => destruct d as [cw|]; [|congruence] end.
        injection EW as <-. unfold wrap_transformer. destruct cw; try destruct (single w e); congruence. }
      assert (HWT : has_w w u "transform" = true). { destruct u; [exfalso; eapply HW; eauto|reflexivity|reflexivity]. }
      destruct (HT HWT) as (ya & EFT).
      assert (HZ : kind_of w z = KFrame). { refine (WO u _ _ _ _ HW _ EFT). rewrite (proj1 CO). exact HX. }
      destruct (IH z y _ _ C0 CO WO HP HZ (fun q h => HU q (or_intror h)) ER) as [I1 I2].
      split; [exact I1|]. intros m q [<-|HI]; [|auto].
      intros u' EU'. cbn [snd] in EU'. assert (u' = u) by congruence. subst u'.
      destruct u; [exfalso; eapply HW; eauto| |]; destruct m; reflexivity.
  Qed.
End Spec.
