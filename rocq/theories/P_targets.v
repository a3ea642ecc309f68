(** C138: what fitting, scoring and answering use. *)
From Verif Require Import Base L_dict M_traverse L_traverse M_expr L_expr1 L_expr2 L_expr3 L_expr4 L_expr5 L_expr6 L_expr7 L_targets.
Open Scope string_scope.
Open Scope list_scope.
Open Scope nat_scope.

(** Data "X" and its target "y", which is prepared; a value that is frozen after the fit and depends on another variable "k"; an
    estimator with a choice among its parameters; the answer is its output plus the frozen value. *)
Definition ex_pipeline (chosen : option nat) (unsupervised : bool) : heap nat nat := fun o =>
  match o with
  | 0 => OValue 2
  | 1 => OExpr (IVar None) (Some "X") false false
  | 2 => OExpr (IVar None) (Some "y") false false
  | 3 => OExpr (IOp "add" [("left", 2); ("right", 0)]) None false false
  | 4 => OSeq "list" [0; 5]
  | 5 => OValue 7
  | 6 => OChoice (Some "alpha") 4 chosen
  | 7 => OMap "dict" [(0, 6)]
  | 8 => OEstimator "Ridge" 7
  | 9 => OExpr (IApply 1 8 3 0 0 0 unsupervised) None false false
  | 10 => OExpr (IVar None) (Some "k") false false
  | 11 => OExpr (IFreeze 10) None false false
  | 12 => OExpr (IOp "add" [("left", 9); ("right", 11)]) None false false
  | _ => OValue 0
  end.
Definition ex_fitted : st nat nat :=
  mk_st (fun _ _ => None) (fun _ _ => None) (fun o => match o with 9 => Some (FittedWith 30) | 11 => Some (Frozen 50) | _ => None end) [].
Definition ex_answer chosen unsup method e := snd (evaluate ex_ext (ex_pipeline chosen unsup) 13 12 method e true ex_fitted).
Lemma ex_pipeline_closed chosen unsup : closed (ex_pipeline chosen unsup) 13.
Proof. apply closed_by_check. destruct unsup; reflexivity. Qed.
Lemma ex_pipeline_acyclic chosen unsup : acyclic (ex_pipeline chosen unsup) 12.
Proof. eapply acyclic_by_nodes; [apply ex_pipeline_closed|lia|destruct unsup; vm_compute; reflexivity]. Qed.
Lemma ex_answering chosen unsup e : forall o, used (ex_pipeline chosen unsup) e Answering 12 o -> In o [12; 9; 1; 11].
Proof.
  intros o Ho. induction Ho as [|o t _ IH [_ Ht]]; [left; reflexivity|].
  simpl in IH. repeat (destruct IH as [<-|IH]; [simpl in Ht; intuition (subst; simpl; auto; try discriminate)|]). destruct IH.
Qed.

(** Each step computed by a method is one that it may use: in particular transform and predict never compute what is used only as a
    target, as a parameter of estimators or of their application, or before a step that is frozen; score computes targets besides;
    fit computes all, but the targets of unsupervised steps. *)
Theorem C138_computes_only_what_is_used :
  forall (V K F : Type) (HK : EqD K) (ext : externals V K F) (h : heap V K) (size : nat) (root : oid) (e : env V)
         (requested : string) (p : purpose) (s : st V F),
    closed h size -> root < size -> acyclic h root -> trace s = [] -> for_purpose requested p ->
    forall x, In x (trace (fst (evaluate ext h size root requested e true s))) -> used h e p root x.
Proof. intros V K F HK ext h size root e requested p s. exact (computes_used ext h size root e requested p s). Qed.
Print Assumptions C138_computes_only_what_is_used.
Example ex_computes_only_what_is_used :
  let t unsup method := trace (fst (evaluate ex_ext (ex_pipeline None unsup) 13 12 method [("X", 3); ("y", 4); ("k", 5)] true ex_fitted)) in
  t false "predict" = [11; 1; 9; 12] /\ t false "score" = [11; 2; 3; 1; 9; 12] /\ t true "fit" = [10; 11; 1; 9; 12] /\
  t false "fit" = [10; 11; 2; 3; 1; 9; 12] /\ t true "score" = [11; 2; 3; 1; 9; 12].
Proof. vm_compute. auto 10. Qed.

(** Two expressions that agree on what a method may use, with environments that agree on the names of these steps and with the same
    fitted attributes for them, have the same answer. *)
Theorem C138_answers_depend_only_on_what_is_used :
  forall (V K F : Type) (HK : EqD K) (ext : externals V K F) (h1 h2 : heap V K) (size1 size2 : nat) (root : oid) (e1 e2 : env V)
         (requested : string) (p : purpose) (s1 s2 : st V F),
    closed h1 size1 -> root < size1 -> acyclic h1 root -> closed h2 size2 -> root < size2 -> acyclic h2 root ->
    for_purpose requested p ->
    (forall k, In k ["_skrub_X"; "_skrub_y"; "_skrub_use_var_values"] -> dget k e1 = dget k e2) ->
    (e1 = [] <-> e2 = []) ->
    (forall o, used h1 e1 p root o -> h1 o = h2 o /\ fitted s1 o = fitted s2 o /\ forall n, named h1 o n -> dget n e1 = dget n e2) ->
    snd (evaluate ext h1 size1 root requested e1 true s1) = snd (evaluate ext h2 size2 root requested e2 true s2).
Proof. intros V K F HK ext h1 h2 size1 size2 root e1 e2 requested p s1 s2. exact (answers_depend_on_used ext h1 h2 size1 size2 root e1 e2 requested p s1 s2). Qed.
Print Assumptions C138_answers_depend_only_on_what_is_used.
(** parameters that are set after the fit change nothing until the next fit *)
Example ex_answers_depend_only_on_what_is_used :
  (forall o, used (ex_pipeline None false) [("X", 3)] Answering 12 o ->
     ex_pipeline None false o = ex_pipeline (Some 1) true o \/ o = 9) /\
  ex_answer None false "predict" [("X", 3)] = Ok (TheValue 83) /\ ex_answer (Some 1) false "predict" [("X", 3)] = Ok (TheValue 83) /\
  ex_answer None false "fit_transform" [("X", 3); ("y", 4); ("k", 5)] <> ex_answer (Some 1) false "fit_transform" [("X", 3); ("y", 4); ("k", 5)].
Proof.
  split.
  - intros o Ho. apply ex_answering in Ho. simpl in Ho. repeat (destruct Ho as [<-|Ho]; [simpl; auto|]). destruct Ho.
  - vm_compute. split; [reflexivity|]. split; [reflexivity|]. discriminate.
Qed.

(** A name that no step which may be used has is not needed in the environment. *)
Theorem C138_unused_names_are_not_needed :
  forall (V K F : Type) (HK : EqD K) (ext : externals V K F) (h : heap V K) (size : nat) (root : oid) (e : env V)
         (requested : string) (p : purpose) (s : st V F) (n : string),
    closed h size -> root < size -> acyclic h root -> for_purpose requested p ->
    ~ In n ["_skrub_X"; "_skrub_y"; "_skrub_use_var_values"] ->
    (forall o, used h e p root o -> ~ named h o n) ->
    (exists k v, In (k, v) e /\ k <> n) ->
    snd (evaluate ext h size root requested (filter (fun x => negb (eqb_of (fst x) n)) e) true s)
    = snd (evaluate ext h size root requested e true s).
Proof. intros V K F HK ext h size root e requested p s n. exact (name_not_used ext h size root e requested p s n). Qed.
Print Assumptions C138_unused_names_are_not_needed.
Example ex_unused_names_are_not_needed :
  let e := [("X", 3); ("y", 4)] in
  closed (ex_pipeline None false) 13 /\ acyclic (ex_pipeline None false) 12 /\
  (forall o, used (ex_pipeline None false) e Answering 12 o -> ~ named (ex_pipeline None false) o "y") /\
  ex_answer None false "predict" e = Ok (TheValue 83) /\ ex_answer None false "predict" [("X", 3)] = Ok (TheValue 83) /\
  ex_answer None false "score" [("X", 3)] = Err UninitializedVariable /\
  ex_answer None true "fit_transform" [("X", 3); ("k", 5)] = ex_answer None true "fit_transform" [("X", 3); ("k", 5); ("y", 1)].
Proof.
  cbn zeta. split; [apply ex_pipeline_closed|]. split; [apply ex_pipeline_acyclic|]. split.
  - intros o Ho. apply ex_answering in Ho. simpl in Ho. repeat (destruct Ho as [<-|Ho]; [simpl; try discriminate; tauto|]). destruct Ho.
  - vm_compute. auto.
Qed.
