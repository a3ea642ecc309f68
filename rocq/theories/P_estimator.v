(** Life of an estimator: fit, use, refit, report, sub-estimators (C86-C92). *)
From Verif Require Import Base M_traverse M_expr L_expr1 L_expr2 L_expr4 L_expr5 L_expr6 L_expr7
  M_estimator L_estimator1 L_estimator2 L_estimator3 L_estimator4 L_estimator5 L_estimator6 L_estimator7.
Open Scope string_scope.
Open Scope list_scope.
Open Scope nat_scope.

Section Theorems.
  Context {V K F : Type} `{EqD K}.
  Variable ext : externals V K F.
  Variable h : heap V K.
  Variable size : nat.
  Variable has_method : F -> string -> bool.
  Variable declares : oid -> string -> bool.
  Notation step := (step ext h size has_method declares).
  Notation run := (run ext h size has_method declares).
  Notation fresh := (fresh (V := V) (F := F)).
  Variable root : oid.
  Hypothesis Hclosed : closed h size.
  Hypothesis Hroot : root < size.
  Hypothesis Hacyclic : acyclic h root.

  (** C86: what an estimator answers depends on its last fit only *)
  Theorem C86_straight : forall hist e w1 a,
    step (run hist (fresh root)) (Method 0 "fit" e) = (w1, Ok a) ->
    is_apply h root -> no_branch h root -> applied_steps h root ->
    (forall o, part_of h root o -> stateful h o -> given h e o = None) ->
    forall later m e', Forall uses later -> In m using_methods -> regiven h root e e' ->
      (m = "score" -> supervised h root) ->
      snd (step (run later w1) (Method 0 m e'))
      = snd (step (run [Method 0 "fit" e] (fresh root)) (Method 0 m e')).
  Proof. exact (straight_last_fit ext h size has_method declares root Hclosed Hroot Hacyclic). Qed.
  Theorem C86_last_fit_partial : forall hist e w1 a,
    step (run hist (fresh root)) (Method 0 "fit" e) = (w1, Ok a) ->
    applied_computed h e root ->
    snd (step (fresh root) (Method 0 "fit" e)) = Ok a /\
    forall later m e', Forall uses later -> In m using_methods ->
      (forall x, needed ext h e' m (fitted (w_st w1)) root x -> stateful h x -> In x (trace (w_st w1))) ->
      (forall o, find_first_apply h size root = Ok (Some o) -> In o (trace (w_st w1))) ->
      snd (step (run later w1) (Method 0 m e'))
      = snd (step (run [Method 0 "fit" e] (fresh root)) (Method 0 m e')).
  Proof. exact (last_fit ext h size has_method declares root Hclosed Hroot Hacyclic). Qed.

  (** C87: an estimator is marked as fitted when a fit has returned *)
  Theorem C87_marked : forall ops (w : world V F) i, i < List.length (w_estimators w) ->
    (marked i (run ops w) <->
     marked i w \/ exists before o after, ops = before ++ o :: after /\
       fit_returned ext h size has_method declares i (run before w) o).
  Proof. exact (marked_iff ext h size has_method declares root Hroot). Qed.
  Theorem C87_refuses : forall (w : world V F) i r o, nth_error (w_estimators w) i = Some (r, false) ->
    uses o -> index_of o = i ->
    match o with
    | Report _ _ _ => step w o = (w, Err NotFittedError)
    | Method _ m _ => exists ex, step w o = (w, Err ex) /\
        (choices_ok h r -> part_of h root r -> ex = NotFittedError \/ ex = AttributeError)
    | Sub _ _ => True
    end.
  Proof. exact (unmarked_refuses ext h size has_method declares root Hclosed Hroot Hacyclic). Qed.
  (** only the steps computed by a call may have been fitted by it, whether it fails or not *)
  Theorem C87_fits_computed : forall (w : world V F) o x,
    fitted (w_st (fst (step w o))) x = fitted (w_st w) x \/
    (stateful h x /\ In x (trace (w_st (fst (step w o)))) /\
     match o with Method _ m _ | Report _ m _ => fit_mode (real_mode m) = true | Sub _ _ => False end).
  Proof. exact (step_keeps ext h size has_method declares). Qed.

  (** C88: using an estimator does not change what it answers *)
  Theorem C88_uses_change_nothing : forall hist later o, Forall uses later -> not_fit_report o ->
    let w := run hist (fresh root) in index_of o < List.length (w_estimators w) ->
    (forall x, fitted (w_st (run later w)) x = fitted (w_st w) x) /\
    (forall i rb, nth_error (w_estimators w) i = Some rb -> nth_error (w_estimators (run later w)) i = Some rb) /\
    (forall ans, snd (step w o) = ans -> (forall j, ans <> Ok (NewEstimator j)) -> snd (step (run later w) o) = ans) /\
    ((exists j, snd (step w o) = Ok (NewEstimator j)) <-> (exists j, snd (step (run later w) o) = Ok (NewEstimator j))).
  Proof.
    exact (using_changes_nothing ext h size has_method declares root Hclosed Hroot Hacyclic).
  Qed.

  (** C89: sub-estimators *)
  Theorem C89_sub : forall hist i r b n, let w := run hist (fresh root) in
    nth_error (w_estimators w) i = Some (r, b) ->
    (exists o, step w (Sub i n) = (mk_world (w_st w) (w_estimators w ++ [(o, b)]),
                                   Ok (NewEstimator (List.length (w_estimators w)))) /\
               part_of h r o /\ has_name h o n) \/
    (step w (Sub i n) = (w, Err KeyError) /\ forall o, part_of h r o -> ~ has_name h o n).
  Proof. exact (sub_reachable ext h size has_method declares root Hclosed Hroot Hacyclic). Qed.

  (** C90: giving the output of a step instead of its inputs *)
  Theorem C90_partial : forall hist i j r o n im isX isY e m v, let w := run hist (fresh root) in
    nth_error (w_estimators w) i = Some (r, true) -> nth_error (w_estimators w) j = Some (o, true) ->
    part_of h r o -> h o = OExpr im (Some n) isX isY -> (forall value, im <> IVar value) ->
    given h e o = None -> (forall x, part_of h r x -> has_name h x n -> x = o) ->
    ~ In n ["_skrub_X"; "_skrub_y"; "_skrub_use_var_values"] -> In m using_methods -> e <> [] ->
    (snd (step w (Method j m e)) = Ok (Result (TheValue v)) \/
     snd (step w (Report j m e)) = Ok (ReportOf (Ok (TheValue v)))) ->
    snd (step w (Method i m ((n, v) :: e))) = snd (step w (Method i m e)) /\
    snd (step w (Report i m ((n, v) :: e))) = snd (step w (Report i m e)).
  Proof. exact (feed_named ext h size has_method declares root Hclosed Hroot Hacyclic). Qed.

  (** C91: a report shows what the method answers *)
  Theorem C91_partial : forall hist i r b m e, let w := run hist (fresh root) in
    nth_error (w_estimators w) i = Some (r, b) -> choices_ok h r -> m <> "fit" ->
    (b = true \/ m = "fit_transform") ->
    exists out, snd (step w (Report i m e)) = Ok (ReportOf out) /\
      (step w (Method i m e) = (w, Err AttributeError) \/
       snd (step w (Method i m e)) = (let! a := out in Ok (Result a)) /\
       forall a x, out = Ok a -> fitted (w_st (fst (step w (Report i m e)))) x
                                 = fitted (w_st (fst (step w (Method i m e)))) x).
  Proof. exact (report_like_method ext h size has_method declares root Hclosed Hroot Hacyclic). Qed.

  (** C92: methods that are offered *)
  Theorem C92_offered : forall hist i r b m e, let w := run hist (fresh root) in
    nth_error (w_estimators w) i = Some (r, b) -> choices_ok h r -> m <> "fit" ->
    exists ms,
      ((exists o, in_use h r o /\ is_apply h o /\ (is_apply h r -> o = r) /\
          forall x, In x ms <-> In x ["preview"; "fit_transform"; "transform"] \/
            (In x ["predict"; "predict_proba"; "decision_function"; "score"] /\
             match fitted_with (fitted (w_st w) o) with
             | Some est => has_method est x | None => declares o x end = true)) \/
       ((forall o, in_use h r o -> ~ is_apply h o) /\ ms = ["preview"; "fit_transform"; "transform"])) /\
      (~ In m ms -> step w (Method i m e) = (w, Err AttributeError)) /\
      (In m ms -> b = true \/ m = "fit_transform" ->
         exists out, snd (step w (Method i m e)) = (let! a := out in Ok (Result a)) /\
                     snd (step w (Report i m e)) = Ok (ReportOf out)).
  Proof. exact (offered ext h size has_method declares root Hclosed Hroot Hacyclic). Qed.
End Theorems.
Print Assumptions C86_straight.
Print Assumptions C86_last_fit_partial.
Print Assumptions C87_marked.
Print Assumptions C87_refuses.
Print Assumptions C87_fits_computed.
Print Assumptions C88_uses_change_nothing.
Print Assumptions C89_sub.
Print Assumptions C90_partial.
Print Assumptions C91_partial.
Print Assumptions C92_offered.

(** C86: a conditional step keeps what an earlier fit left in the branch not taken *)
Theorem C86_refuted : exists hist1 hist2 fit_env use_env,
  let w1 := lx_run (hist1 ++ [Method 0 "fit" fit_env]) (lx_fresh 7) in
  let w2 := lx_run (hist2 ++ [Method 0 "fit" fit_env]) (lx_fresh 7) in
  (exists a, snd (lx_step (lx_run hist1 (lx_fresh 7)) (Method 0 "fit" fit_env)) = Ok a) /\
  (exists a, snd (lx_step (lx_run hist2 (lx_fresh 7)) (Method 0 "fit" fit_env)) = Ok a) /\
  snd (lx_step w1 (Method 0 "predict" use_env)) = Ok (Result (TheValue 106)) /\
  snd (lx_step w2 (Method 0 "predict" use_env)) = Ok (Result (TheValue 110)).
Proof.
  exists [Method 0 "fit" [("X", 5); ("flag", 1)]], [Method 0 "fit" [("X", 9); ("flag", 1)]],
    [("X", 7); ("flag", 0)], [("X", 1); ("flag", 1)].
  vm_compute. repeat split; eauto.
Qed.
Print Assumptions C86_refuted.
Example ex_C86 : let hist := [Method 0 "fit" [("X", 5)]; Method 0 "predict" [("X", 2)]] in
  let w := lx_run hist (lx_fresh 9) in
  (exists a, snd (lx_step w (Method 0 "fit" [("X", 7)])) = Ok a) /\
  is_apply lx_heap 9 /\ no_branch lx_heap 9 /\ applied_steps lx_heap 9 /\
  (forall o, part_of lx_heap 9 o -> stateful lx_heap o -> given lx_heap [("X", 7)] o = None) /\
  regiven lx_heap 9 [("X", 7)] [("X", 1)] /\
  snd (lx_step (fst (lx_step w (Method 0 "fit" [("X", 7)]))) (Method 0 "predict" [("X", 1)]))
  = Ok (Result (TheValue 215)) /\
  snd (lx_step w (Method 0 "predict" [("X", 1)])) = Ok (Result (TheValue 211)).
Proof. exact lx_C86. Qed.

(** C87: a failed report marks the estimator, which then answers *)
Theorem C87_report_marks_refuted :
  let w1 := fst (lx_step (lx_fresh 8) (Report 0 "fit" [("X", 10)])) in
  snd (lx_step (lx_fresh 8) (Report 0 "fit" [("X", 10)])) = Ok (ReportOf (Err ZeroDivisionError)) /\
  snd (lx_step w1 (Method 0 "transform" [("X", 1)])) = Ok (Result (TheValue 11)) /\
  snd (lx_step (fst (lx_step (lx_fresh 8) (Method 0 "fit" [("X", 10)]))) (Method 0 "transform" [("X", 1)])) = Err NotFittedError.
Proof. vm_compute. repeat split. Qed.
Print Assumptions C87_report_marks_refuted.
(** a failed refit changes what a fitted estimator answers *)
Theorem C87_failed_refit_refuted :
  let w1 := lx_run [Method 0 "fit" [("X", 5)]] (lx_fresh 9) in
  let w2 := fst (lx_step w1 (Method 0 "fit" [("X", 10)])) in
  snd (lx_step w1 (Method 0 "fit" [("X", 10)])) = Err ZeroDivisionError /\
  snd (lx_step w1 (Method 0 "predict" [("X", 1)])) = Ok (Result (TheValue 211)) /\
  snd (lx_step w2 (Method 0 "predict" [("X", 1)])) = Ok (Result (TheValue 216)).
Proof. vm_compute. repeat split. Qed.
Print Assumptions C87_failed_refit_refuted.
Example ex_C87 : marked 0 (lx_run [Method 0 "fit" [("X", 5)]] (lx_fresh 9)) /\
  ~ marked 0 (lx_run [Method 0 "fit" [("X", 10)]; Sub 0 "first"] (lx_fresh 9)) /\
  snd (lx_step (lx_fresh 9) (Method 0 "predict" [("X", 1)])) = Err NotFittedError /\
  snd (lx_step (lx_fresh 9) (Method 0 "score" [("X", 1)])) = Err AttributeError /\
  choices_ok lx_heap 9.
Proof.
  split; [exists 9; reflexivity|]. split; [intros [r E]; vm_compute in E; discriminate|].
  split; [vm_compute; reflexivity|]. split; [vm_compute; reflexivity|]. exact lx_choices.
Qed.

(** C88: [preview] is offered too, and refits *)
Theorem C88_preview_refuted :
  let w1 := lx_run [Method 0 "fit" [("X", 7)]] (lx_fresh 11) in
  let w2 := fst (lx_step w1 (Method 0 "preview" [])) in
  snd (lx_step w1 (Method 0 "preview" [])) = Ok (Result (TheValue 5)) /\
  snd (lx_step w1 (Method 0 "predict" [("X", 1)])) = Ok (Result (TheValue 108)) /\
  snd (lx_step w2 (Method 0 "predict" [("X", 1)])) = Ok (Result (TheValue 106)).
Proof. vm_compute. repeat split. Qed.
Print Assumptions C88_preview_refuted.
Example ex_C88 : let w := lx_run [Method 0 "fit" [("X", 5)]] (lx_fresh 9) in
  let later := [Method 0 "transform" [("X", 3)]; Sub 0 "first"; Method 1 "predict" [("X", 10)];
                Report 0 "predict" [("X", 2)]] in
  Forall uses later /\ not_fit_report (Method 0 "predict" [("X", 1)]) /\
  snd (lx_step w (Method 0 "predict" [("X", 1)])) = Ok (Result (TheValue 211)) /\
  snd (lx_step (lx_run later w) (Method 0 "predict" [("X", 1)])) = Ok (Result (TheValue 211)) /\
  snd (lx_step (lx_run later w) (Sub 0 "first")) = Ok (NewEstimator 2).
Proof. split; [repeat (apply Forall_cons; [cbn; auto 10|]); apply Forall_nil|]. vm_compute. repeat split. Qed.

(** C89: fitting a sub-estimator changes the estimator it was taken from *)
Theorem C89_refit_refuted :
  let w1 := lx_run [Method 0 "fit" [("X", 5)]; Sub 0 "first"] (lx_fresh 9) in
  let w2 := fst (lx_step w1 (Method 1 "fit" [("X", 20)])) in
  snd (lx_step w1 (Method 1 "fit" [("X", 20)])) = Ok (Result TheExpr) /\
  snd (lx_step w1 (Method 0 "predict" [("X", 1)])) = Ok (Result (TheValue 211)) /\
  snd (lx_step w2 (Method 0 "predict" [("X", 1)])) = Ok (Result (TheValue 226)).
Proof. vm_compute. repeat split. Qed.
Print Assumptions C89_refit_refuted.
Example ex_C89 : let w := lx_run [Method 0 "fit" [("X", 5)]] (lx_fresh 9) in
  snd (lx_step w (Sub 0 "first")) = Ok (NewEstimator 1) /\
  nth_error (w_estimators (fst (lx_step w (Sub 0 "first")))) 1 = Some (5, true) /\
  snd (lx_step w (Sub 0 "second")) = Err KeyError /\ has_name lx_heap 5 "first".
Proof. vm_compute. repeat split. Qed.

(** C90: [predict] on the output of [transform] of a step *)
Theorem C90_refuted : exists v, let w := lx_run [Method 0 "fit" [("X", 5)]; Sub 0 "first"] (lx_fresh 9) in
  snd (lx_step w (Method 1 "transform" [("X", 1)])) = Ok (Result (TheValue v)) /\
  snd (lx_step w (Method 0 "predict" [("X", 1)])) = Ok (Result (TheValue 211)) /\
  snd (lx_step w (Method 0 "predict" [("first", v)])) = Ok (Result (TheValue 111)).
Proof. exists 6. vm_compute. repeat split. Qed.
Print Assumptions C90_refuted.
Example ex_C90 : let w := lx_run [Method 0 "fit" [("X", 5)]; Sub 0 "first"] (lx_fresh 9) in
  nth_error (w_estimators w) 0 = Some (9, true) /\ nth_error (w_estimators w) 1 = Some (5, true) /\
  part_of lx_heap 9 5 /\ given lx_heap [("X", 1)] 5 = None /\
  (forall x, part_of lx_heap 9 x -> has_name lx_heap x "first" -> x = 5) /\
  snd (lx_step w (Method 1 "predict" [("X", 1)])) = Ok (Result (TheValue 106)) /\
  snd (lx_step w (Method 0 "predict" [("first", 106); ("X", 1)])) = Ok (Result (TheValue 211)).
Proof. exact lx_C90. Qed.

(** C91: a second report in mode fit does not fit *)
Theorem C91_fit_refuted :
  let reports := [Report 0 "fit" [("X", 5)]; Report 0 "fit" [("X", 7)]] in
  let fits := [Method 0 "fit" [("X", 5)]; Method 0 "fit" [("X", 7)]] in
  snd (lx_step (lx_run reports (lx_fresh 5)) (Method 0 "predict" [("X", 1)])) = Ok (Result (TheValue 106)) /\
  snd (lx_step (lx_run fits (lx_fresh 5)) (Method 0 "predict" [("X", 1)])) = Ok (Result (TheValue 108)).
Proof. vm_compute. repeat split. Qed.
Print Assumptions C91_fit_refuted.
Example ex_C91 : let w := lx_run [Method 0 "fit" [("X", 5)]; Report 0 "fit_transform" [("X", 7)]] (lx_fresh 9) in
  snd (lx_step w (Report 0 "predict" [("X", 1)])) = Ok (ReportOf (Ok (TheValue 215))) /\
  snd (lx_step w (Method 0 "predict" [("X", 1)])) = Ok (Result (TheValue 215)) /\
  snd (lx_step w (Report 0 "predict" [])) = Ok (ReportOf (Err (UserError 2))).
Proof. vm_compute. repeat split. Qed.

Example ex_C92 : choices_ok lx_heap 9 /\ is_apply lx_heap 9 /\
  (forall o, in_use lx_heap 1 o -> ~ is_apply lx_heap o) /\
  snd (lx_step (lx_fresh 9) (Method 0 "score" [("X", 1)])) = Err AttributeError /\
  snd (lx_step (lx_run [Method 0 "fit" [("X", 1)]] (lx_fresh 1)) (Method 0 "predict" [("X", 1)])) = Err AttributeError /\
  snd (lx_step (lx_run [Method 0 "fit" [("X", 1)]] (lx_fresh 1)) (Method 0 "transform" [("X", 1)])) = Ok (Result (TheValue 1)).
Proof. split; [exact lx_choices|]. split; [exact I|]. split; [exact lx_no_apply|]. vm_compute. repeat split. Qed.
