(** Histories of an estimator. *)
From Verif Require Import Base M_traverse L_traverse M_expr L_expr1 L_expr2 L_expr3 L_expr4
  L_expr5 L_expr6 L_expr7 M_estimator L_estimator1 L_estimator2 L_estimator3.
Open Scope string_scope.
Open Scope list_scope.
Open Scope nat_scope.

(** ** Specification *)

(** Methods for using a fitted estimator. *)
Definition using_methods : list string :=
  ["transform"; "predict"; "predict_proba"; "decision_function"; "score"].
Definition uses {V} (o : op V) : Prop :=
  match o with
  | Method _ m _ | Report _ m _ => In m using_methods
  | Sub _ _ => True
  end.

Lemma using_not_fit m : In m using_methods ->
  fit_mode m = false /\ fitting m = false /\ real_mode m = m /\ eqb_of m "fit" = false /\ m <> "fit" /\ m <> "preview".
Proof.
  intros [<-|[<-|[<-|[<-|[<-|[]]]]]]; repeat split; try reflexivity; discriminate.
Qed.

Lemma set_nth_length {A} (a : A) : forall l i, List.length (set_nth i a l) = List.length l.
Proof. induction l as [|x l IH]; intros [|i]; cbn; auto. Qed.
Lemma set_nth_same {A} : forall (l : list A) i a, nth_error l i = Some a -> set_nth i a l = l.
Proof.
  induction l as [|x l IH]; intros [|i] a E; try discriminate; cbn in *.
  - injection E as ->. reflexivity.
  - rewrite IH; auto.
Qed.
Lemma set_nth_nth {A} (a : A) : forall l i j,
  nth_error (set_nth i a l) j
  = if Nat.eqb i j then (match nth_error l j with Some _ => Some a | None => None end) else nth_error l j.
Proof.
  induction l as [|x l IH]; intros [|i] [|j]; cbn; auto; try (destruct (Nat.eqb _ _); reflexivity).
Qed.

Definition index_of {V} (o : op V) : nat :=
  match o with Method i _ _ | Report i _ _ | Sub i _ => i end.

Section World.
  Context {V K F : Type} `{EqD K}.
  Notation heap := (heap V K).
  Notation st := (st V F).
  Variable ext : externals V K F.
  Variable h : heap.
  Variable size : nat.
  Variable has_method : F -> string -> bool.
  Variable declares : oid -> string -> bool.
  Notation step := (step ext h size has_method declares).
  Notation run := (run ext h size has_method declares).
  Notation world := (world V F).
  Notation supported := (supported_modes (V := V) (F := F) h size has_method declares).
  Notation method := (method ext h size has_method declares).
  Notation report := (report ext h size).

  Variable root : oid.
  Hypothesis Hclosed : closed h size.
  Hypothesis Hroot : root < size.
  Hypothesis Hacyclic : acyclic h root.

  Lemma part_lt r : part_of h root r -> r < size.
  Proof. intros Hr. eapply closed_part; eauto. Qed.
  Lemma part_acyclic r : part_of h root r -> acyclic h r.
  Proof. intros Hr x Hx. apply Hacyclic. eapply reach_trans; eauto. Qed.

  Definition same_fitted (s s' : st) : Prop := forall x, fitted s' x = fitted s x.

  (** *** Outcomes only depend on the fitted attributes *)
  Lemma evaluate_same r m e (s s' : st) : part_of h root r -> same_fitted s s' ->
    snd (evaluate ext h size r m e true s') = snd (evaluate ext h size r m e true s).
  Proof.
    intros Hr Hs. pose proof (part_lt r Hr) as Hl. pose proof (part_acyclic r Hr) as Ha.
    apply evaluate_agree; auto. intros o _. split; [apply Hs|].
    destruct (given h e o) as [v|] eqn:Eg.
    - left. exists v. auto.
    - right. split; [reflexivity|]. split; [reflexivity|]. split; [reflexivity|].
      split; [auto|]. unfold same_reads. destruct (h o) as [[] ? ? ?| | | | | | | |]; auto.
      split; [tauto|]. split; auto.
  Qed.

  Lemma supported_same r f f' : (forall x, f' x = f x) -> supported r f' = supported r f.
  Proof.
    intros Hf. unfold supported_modes. destruct (find_first_apply h size r) as [[o|]|]; cbn [bind]; auto.
    rewrite Hf. reflexivity.
  Qed.

  Lemma reset_fitted (s : st) : fitted (reset s) = fitted s.
  Proof. reflexivity. Qed.

  Lemma eval_in_mode_same r b m e (s s' : st) : part_of h root r -> same_fitted s s' ->
    snd (eval_in_mode ext h size r b m e s') = snd (eval_in_mode ext h size r b m e s) /\
    snd (fst (eval_in_mode ext h size r b m e s')) = snd (fst (eval_in_mode ext h size r b m e s)).
  Proof.
    intros Hr Hs. unfold eval_in_mode. destruct (_ && _); [auto|].
    pose proof (evaluate_same r m e (reset s) (reset s') Hr Hs) as E.
    destruct (evaluate ext h size r m e true (reset s')) as [s1 r1].
    destruct (evaluate ext h size r m e true (reset s)) as [s2 r2].
    cbn [snd fst] in *. subst. auto.
  Qed.
  Lemma getattr_same r b m e (s s' : st) : part_of h root r -> same_fitted s s' ->
    snd (getattr_call ext h size has_method declares r b m e s')
      = snd (getattr_call ext h size has_method declares r b m e s) /\
    snd (fst (getattr_call ext h size has_method declares r b m e s'))
      = snd (fst (getattr_call ext h size has_method declares r b m e s)).
  Proof.
    intros Hr Hs. unfold getattr_call. rewrite (supported_same r (fitted s) (fitted s') Hs).
    destruct (supported r (fitted s)) as [ms|]; [|auto]. destruct (mem m ms); [|auto].
    apply eval_in_mode_same; auto.
  Qed.
  Lemma method_same r b m e (s s' : st) : part_of h root r -> same_fitted s s' ->
    snd (method r b m e s') = snd (method r b m e s) /\
    snd (fst (method r b m e s')) = snd (fst (method r b m e s)).
  Proof.
    intros Hr Hs. unfold M_estimator.method. destruct (eqb_of m "fit"); [|apply getattr_same; auto].
    destruct (getattr_same r b "fit_transform" e s s' Hr Hs) as [E1 E2].
    destruct (getattr_call ext h size has_method declares r b "fit_transform" e s') as [[s1 b1] [v1|x1]];
    destruct (getattr_call ext h size has_method declares r b "fit_transform" e s) as [[s2 b2] [v2|x2]];
      cbn [fst snd] in *; try discriminate; subst; auto; injection E1 as ->; auto.
  Qed.

  (** A report shows the outcome of an evaluation from scratch. *)
  Lemma report_outcome r b m e (s : st) : part_of h root r -> m <> "fit" ->
    fitting m || b = true ->
    snd (report r b m e s) = Ok (snd (evaluate ext h size r m e true (reset s))).
  Proof.
    intros Hr Hm Hb. pose proof (part_lt r Hr) as Hl. pose proof (part_acyclic r Hr) as Ha.
    unfold M_estimator.report.
    replace (negb (fitting m) && negb b) with false by (destruct (fitting m), b; auto; discriminate).
    destruct (acyclic_nodes h size r Hclosed Hl Ha) as (ns & En & _ & Hns). rewrite En.
    set (s1 := clear_nodes ns m (reset s)).
    destruct (clear_spec m ns (reset s)) as (C1 & C2 & C3 & _). fold s1 in C1, C2, C3.
    assert (Hrm : real_mode m = m).
    { unfold real_mode. destruct (eqb_of m "fit") eqn:E; [|reflexivity].
      apply (proj1 (eqb_of_true _ _)) in E. contradiction. }
    assert (Hi : Inv ext h e (real_mode m) (fitted s) r s1).
    { rewrite Hrm. split.
      - intros o v Ho Hex _ Er. rewrite C3, eqb_of_refl in Er.
        assert (Hin : In o ns) by (apply Hns; auto).
        apply mem_true in Hin. rewrite Hin in Er. discriminate.
      - intros o. left. rewrite C1. reflexivity. }
    destruct (keep_value ext h size r e m (fitted s) s1 Hclosed Hl Ha Hi) as (r1 & D1 & E1).
    destruct (evaluate_value ext h size r e m (reset s) Hclosed Hl Ha) as (r2 & D2 & E2).
    rewrite reset_fitted in D2. pose proof (Den_det _ _ _ _ _ _ _ _ D1 D2) as Er. subst r2.
    rewrite E2. destruct (evaluate ext h size r m e false s1) as [s2 r3]. cbn [snd] in *. rewrite E1. reflexivity.
  Qed.
  Lemma report_refused r b m e (s : st) : fitting m || b = false ->
    report r b m e s = (s, b, Err NotFittedError).
  Proof.
    intros Hb. unfold M_estimator.report.
    replace (negb (fitting m) && negb b) with true; [reflexivity|].
    destruct (fitting m), b; auto; discriminate.
  Qed.
  Lemma report_same r b m e (s s' : st) : part_of h root r -> m <> "fit" -> same_fitted s s' ->
    snd (report r b m e s') = snd (report r b m e s).
  Proof.
    intros Hr Hm Hs. destruct (fitting m || b) eqn:Eb.
    - rewrite !report_outcome; auto. f_equal. apply evaluate_same; auto.
    - rewrite !report_refused; auto.
  Qed.

  (** *** What a step changes *)
  Lemma fitting_fit m : fit_mode (real_mode m) = false -> fitting m = false.
  Proof.
    unfold fitting. intros E. destruct (mem m _) eqn:Em; [|reflexivity]. apply mem_true in Em.
    destruct Em as [<-|[<-|[]]]; discriminate.
  Qed.

  Lemma evaluate_keeps_fitted r m e clear (s : st) x :
    fitted (fst (evaluate ext h size r m e clear s)) x = fitted s x \/
    (fit_mode (real_mode m) = true /\ stateful h x /\
     In x (trace (fst (evaluate ext h size r m e clear s)))).
  Proof. apply (evaluate_keeps ext h size r m e clear s). Qed.

  Lemma eval_in_mode_keeps r b m e (s : st) x :
    fitted (fst (fst (eval_in_mode ext h size r b m e s))) x = fitted s x \/
    (fit_mode (real_mode m) = true /\ stateful h x /\
     In x (trace (fst (fst (eval_in_mode ext h size r b m e s))))).
  Proof.
    unfold eval_in_mode. destruct (_ && _); [auto|].
    pose proof (evaluate_keeps_fitted r m e true (reset s) x) as Hk.
    destruct (evaluate ext h size r m e true (reset s)) as [s1 r1]. exact Hk.
  Qed.
  Lemma getattr_keeps r b m e (s : st) x :
    fitted (fst (fst (getattr_call ext h size has_method declares r b m e s))) x = fitted s x \/
    (fit_mode (real_mode m) = true /\ stateful h x /\
     In x (trace (fst (fst (getattr_call ext h size has_method declares r b m e s))))).
  Proof.
    unfold getattr_call. destruct (supported r (fitted s)) as [ms|]; [|auto].
    destruct (mem m ms); [apply eval_in_mode_keeps|auto].
  Qed.
  Lemma method_keeps r b m e (s : st) x :
    fitted (fst (fst (method r b m e s))) x = fitted s x \/
    (fit_mode (real_mode m) = true /\ stateful h x /\ In x (trace (fst (fst (method r b m e s))))).
  Proof.
    unfold M_estimator.method. destruct (eqb_of m "fit") eqn:Em; [|apply getattr_keeps].
    apply (proj1 (eqb_of_true _ _)) in Em. subst m.
    pose proof (getattr_keeps r b "fit_transform" e s x) as Hk.
    destruct (getattr_call _ _ _ _ _ r b "fit_transform" e s) as [[s1 b1] [v1|x1]]; exact Hk.
  Qed.
  Lemma report_keeps r b m e (s : st) x :
    fitted (fst (fst (report r b m e s))) x = fitted s x \/
    (fit_mode (real_mode m) = true /\ stateful h x /\ In x (trace (fst (fst (report r b m e s))))).
  Proof.
    unfold M_estimator.report. destruct (_ && _); [auto|]. destruct (nodes h size r) as [ns|]; [|auto].
    destruct (clear_spec m ns (reset s)) as (C1 & _).
    pose proof (evaluate_keeps_fitted r m e false (clear_nodes ns m (reset s)) x) as Hk.
    destruct (evaluate ext h size r m e false (clear_nodes ns m (reset s))) as [s2 r2].
    cbn [fst] in *. destruct (clear_spec m ns s2) as (D1 & D2 & _). rewrite D1, D2, C1 in *. exact Hk.
  Qed.

  Lemma step_keeps (w : world) o x :
    fitted (w_st (fst (step w o))) x = fitted (w_st w) x \/
    (stateful h x /\ In x (trace (w_st (fst (step w o)))) /\
     match o with Method _ m _ | Report _ m _ => fit_mode (real_mode m) = true | Sub _ _ => False end).
  Proof.
    unfold M_estimator.step. fold (index_of o).
    destruct (nth_error (w_estimators w) (index_of o)) as [[r b]|]; [|auto].
    destruct o as [i m e|i m e|i n].
    - pose proof (method_keeps r b m e (w_st w) x) as Hk.
      destruct (method r b m e (w_st w)) as [[s1 b1] r1]. cbn [fst w_st] in *. tauto.
    - pose proof (report_keeps r b m e (w_st w) x) as Hk.
      destruct (report r b m e (w_st w)) as [[s1 b1] r1]. cbn [fst w_st] in *. tauto.
    - destruct (find_node_by_name h size r n) as [[y|]|]; cbn [fst w_st]; auto.
  Qed.

  (** Estimators are never forgotten, and keep their root. *)
  Lemma step_roots (w : world) o i r b : nth_error (w_estimators w) i = Some (r, b) ->
    exists b', nth_error (w_estimators (fst (step w o))) i = Some (r, b').
  Proof.
    intros E. unfold M_estimator.step. fold (index_of o).
    destruct (nth_error (w_estimators w) (index_of o)) as [[r0 b0]|] eqn:E0; [|eauto].
    assert (Hset : forall j b1, nth_error (w_estimators w) j = Some (r0, b0) ->
              exists b', nth_error (set_nth j (r0, b1) (w_estimators w)) i = Some (r, b')).
    { intros j b1 Ej. rewrite set_nth_nth, E. destruct (Nat.eqb j i) eqn:Eji; [|eauto].
      apply Nat.eqb_eq in Eji. subst. exists b1. congruence. }
    destruct o as [j m e|j m e|j n].
    - destruct (method r0 b0 m e (w_st w)) as [[s1 b1] r1]. cbn [fst w_estimators]. auto.
    - destruct (report r0 b0 m e (w_st w)) as [[s1 b1] r1]. cbn [fst w_estimators]. auto.
    - destruct (find_node_by_name h size r0 n) as [[y|]|]; cbn [fst w_estimators]; eauto.
      exists b. rewrite nth_error_app1; [exact E|]. apply nth_error_Some. congruence.
  Qed.

  Record wgood (w : world) : Prop := {
    g_parts : forall i r b, nth_error (w_estimators w) i = Some (r, b) -> part_of h root r;
    g_none : forall x, ~ stateful h x -> fitted (w_st w) x = None
  }.

  Lemma find_part r n y : part_of h root r -> find_node_by_name h size r n = Ok (Some y) ->
    part_of h r y /\ has_name h y n.
  Proof.
    intros Hr E. destruct (find_by_name h size r Hclosed (part_lt r Hr) (part_acyclic r Hr) n)
      as [(o & Eo & Hp & Hn)|(Eo & _)]; rewrite E in Eo; [|discriminate]. injection Eo as <-. auto.
  Qed.

  Lemma step_good (w : world) o : wgood w -> wgood (fst (step w o)).
  Proof.
    intros [Hp Hn]. split.
    - unfold M_estimator.step. fold (index_of o).
      destruct (nth_error (w_estimators w) (index_of o)) as [[r0 b0]|] eqn:E0; [|exact Hp].
      assert (Hset : forall j b1, nth_error (w_estimators w) j = Some (r0, b0) ->
                forall i r b, nth_error (set_nth j (r0, b1) (w_estimators w)) i = Some (r, b) -> part_of h root r).
      { intros j b1 Ej i r b. rewrite set_nth_nth. destruct (Nat.eqb j i) eqn:Eji; [|apply Hp].
        destruct (nth_error (w_estimators w) i); [|discriminate]. intros E. injection E as <- <-.
        eapply Hp; eauto. }
      destruct o as [j m e|j m e|j n].
      + destruct (method r0 b0 m e (w_st w)) as [[s1 b1] r1]. cbn [fst w_estimators]. apply Hset. exact E0.
      + destruct (report r0 b0 m e (w_st w)) as [[s1 b1] r1]. cbn [fst w_estimators]. apply Hset. exact E0.
      + destruct (find_node_by_name h size r0 n) as [[y|]|] eqn:Ef; cbn [fst w_estimators]; auto.
        intros i r b E. destruct (Nat.lt_ge_cases i (List.length (w_estimators w))) as [Hi|Hi].
        * rewrite nth_error_app1 in E by exact Hi. eapply Hp; eauto.
        * rewrite nth_error_app2 in E by exact Hi.
          destruct (i - List.length (w_estimators w)) as [|[|k]]; try discriminate. injection E as <- <-.
          pose proof (Hp _ _ _ E0) as Hr0. eapply reach_trans; [exact Hr0|].
          apply (find_part r0 n y Hr0 Ef).
    - intros x Hx. destruct (step_keeps w o x) as [E|(Hs & _)]; [|contradiction].
      rewrite E. apply Hn. exact Hx.
  Qed.
  Lemma run_good ops : forall w, wgood w -> wgood (run ops w).
  Proof.
    induction ops as [|o ops IH]; intros w Hw; [exact Hw|]. cbn [M_estimator.run fold_left].
    apply IH. apply step_good. exact Hw.
  Qed.
  Lemma fresh_good : wgood (fresh root).
  Proof.
    split; [|reflexivity]. intros [|[|i]] r b E; try discriminate. injection E as <- <-. constructor.
  Qed.

  (** *** Using an estimator changes nothing *)
  Definition same_world (w w' : world) : Prop :=
    same_fitted (w_st w) (w_st w') /\
    forall i rb, nth_error (w_estimators w) i = Some rb -> nth_error (w_estimators w') i = Some rb.

  Lemma same_world_refl w : same_world w w.
  Proof. split; [intros x; reflexivity|auto]. Qed.
  Lemma same_world_trans a b c : same_world a b -> same_world b c -> same_world a c.
  Proof. intros [A1 A2] [B1 B2]. split; [intros x; rewrite B1; apply A1|eauto]. Qed.

  Lemma eval_in_mode_flag r b m e (s : st) : fitting m = false ->
    snd (fst (eval_in_mode ext h size r b m e s)) = b.
  Proof.
    intros Hm. unfold eval_in_mode. rewrite Hm. destruct (_ && _); [reflexivity|].
    destruct (evaluate _ _ _ _ _ _ _ _) as [s1 r1]. cbn. apply orb_false_r.
  Qed.
  Lemma getattr_flag r b m e (s : st) : fitting m = false ->
    snd (fst (getattr_call ext h size has_method declares r b m e s)) = b.
  Proof.
    intros Hm. unfold getattr_call. destruct (supported r (fitted s)) as [ms|]; [|reflexivity].
    destruct (mem m ms); [apply eval_in_mode_flag; exact Hm|reflexivity].
  Qed.
  Lemma method_flag r b m e (s : st) : fitting m = false -> snd (fst (method r b m e s)) = b.
  Proof.
    intros Hm. unfold M_estimator.method. destruct (eqb_of m "fit") eqn:Em; [|apply getattr_flag; exact Hm].
    apply (proj1 (eqb_of_true _ _)) in Em. subst. discriminate.
  Qed.
  Lemma report_flag r b m e (s : st) : fitting m = false -> snd (fst (report r b m e s)) = b.
  Proof.
    intros Hm. unfold M_estimator.report. rewrite Hm. destruct (_ && _); [reflexivity|].
    destruct (nodes h size r) as [ns|]; [|reflexivity].
    destruct (evaluate _ _ _ _ _ _ _ _) as [s1 r1]. cbn. apply orb_false_r.
  Qed.

  Lemma use_same (w : world) o : uses o -> same_world w (fst (step w o)).
  Proof.
    intros Hu. split.
    - intros x. destruct (step_keeps w o x) as [E|(_ & _ & Hm)]; [exact E|]. exfalso.
      destruct o as [i m e|i m e|i n]; cbn [uses] in Hu; [| |contradiction];
        destruct (using_not_fit m Hu) as (Hf & _ & Hrm & _); rewrite Hrm in Hm; congruence.
    - intros i rb E. unfold M_estimator.step. fold (index_of o).
      destruct (nth_error (w_estimators w) (index_of o)) as [[r0 b0]|] eqn:E0; [|exact E].
      destruct o as [j m e|j m e|j n]; cbn [uses] in Hu.
      + destruct (using_not_fit m Hu) as (_ & Hf & _).
        pose proof (method_flag r0 b0 m e (w_st w) Hf) as Hb.
        destruct (method r0 b0 m e (w_st w)) as [[s1 b1] r1]. cbn [fst snd w_estimators] in *. subst b1.
        rewrite set_nth_same; auto.
      + destruct (using_not_fit m Hu) as (_ & Hf & _).
        pose proof (report_flag r0 b0 m e (w_st w) Hf) as Hb.
        destruct (report r0 b0 m e (w_st w)) as [[s1 b1] r1]. cbn [fst snd w_estimators] in *. subst b1.
        rewrite set_nth_same; auto.
      + destruct (find_node_by_name h size r0 n) as [[y|]|]; cbn [fst w_estimators]; auto.
        rewrite nth_error_app1; [exact E|]. apply nth_error_Some. congruence.
  Qed.
  Lemma uses_same ops : forall w, Forall uses ops -> same_world w (run ops w).
  Proof.
    induction ops as [|o ops IH]; intros w Hu; [apply same_world_refl|].
    inversion Hu as [|? ? Ho Hos]; subst. cbn [M_estimator.run fold_left].
    eapply same_world_trans; [apply use_same; exact Ho|apply IH; exact Hos].
  Qed.

  (** Calls whose outcome is determined by the fitted attributes. *)
  Definition not_fit_report (o : op V) : Prop :=
    match o with Report _ m _ => m <> "fit" | _ => True end.
  Definition reply_like (n : nat) (r : res (reply V)) : res (reply V) :=
    match r with Ok (NewEstimator _) => Ok (NewEstimator n) | _ => r end.

  Lemma same_world_outcome (w w' : world) o : wgood w -> same_world w w' ->
    index_of o < List.length (w_estimators w) -> not_fit_report o ->
    snd (step w' o) = reply_like (List.length (w_estimators w')) (snd (step w o)).
  Proof.
    intros Hg [Hs He] Hi Hn. unfold M_estimator.step. fold (index_of o).
    destruct (nth_error (w_estimators w) (index_of o)) as [[r b]|] eqn:E0.
    - rewrite (He _ _ E0). pose proof (g_parts _ Hg _ _ _ E0) as Hr.
      destruct o as [i m e|i m e|i n].
      + destruct (method_same r b m e (w_st w) (w_st w') Hr Hs) as [E1 _].
        destruct (method r b m e (w_st w')) as [[s1 b1] r1], (method r b m e (w_st w)) as [[s2 b2] r2].
        cbn [fst snd] in *. subst. destruct r2; reflexivity.
      + pose proof (report_same r b m e (w_st w) (w_st w') Hr Hn Hs) as E1.
        destruct (report r b m e (w_st w')) as [[s1 b1] r1], (report r b m e (w_st w)) as [[s2 b2] r2].
        cbn [fst snd] in *. subst. destruct r2; reflexivity.
      + destruct (find_node_by_name h size r n) as [[y|]|]; reflexivity.
    - exfalso. apply nth_error_None in E0. destruct o; cbn in *; lia.
  Qed.
End World.
