(** C24-C29: evaluation of expressions. *)
From Verif Require Import Base M_traverse L_traverse M_expr L_expr1 L_expr2 L_expr3 L_expr4 L_expr5 L_expr6 L_expr7.
Open Scope string_scope.
Open Scope list_scope.
Open Scope nat_scope.

(** ** C24. [Den] evaluates an expression as a tree, without any cache (L_expr2.v). *)
Theorem C24_evaluation_is_naive_evaluation :
  forall (V K F : Type) (HK : EqD K) (ext : externals V K F) (h : heap V K) (size : nat)
         (root : oid) (e : env V) (requested : string) (s : st V F),
    closed h size -> root < size -> acyclic h root ->
    exists r, Den ext h e (real_mode requested) (fitted s) root r /\
      snd (evaluate ext h size root requested e true s) = answer requested r.
Proof. intros. apply evaluate_value; assumption. Qed.
Print Assumptions C24_evaluation_is_naive_evaluation.

Theorem C24_earlier_results_have_no_influence :
  forall (V K F : Type) (HK : EqD K) (ext : externals V K F) (h : heap V K) (size : nat)
         (root : oid) (e : env V) (requested : string) (s1 s2 : st V F),
    closed h size -> root < size -> acyclic h root -> fitted s1 = fitted s2 ->
    snd (evaluate ext h size root requested e true s1)
    = snd (evaluate ext h size root requested e true s2).
Proof. intros. apply value_only_depends_on_fitted; assumption. Qed.
Print Assumptions C24_earlier_results_have_no_influence.

(** Results kept from earlier evaluations ([clear=False]) that are consistent with naive
    evaluation do not change the value. *)
Theorem C24_kept_results_do_not_change_the_value :
  forall (V K F : Type) (HK : EqD K) (ext : externals V K F) (h : heap V K) (size : nat)
         (root : oid) (e : env V) (requested : string) f0 (s : st V F),
    closed h size -> root < size -> acyclic h root ->
    Inv ext h e (real_mode requested) f0 root s ->
    exists r, Den ext h e (real_mode requested) f0 root r /\
      snd (evaluate ext h size root requested e false s) = answer requested r.
Proof. intros. apply keep_value; assumption. Qed.
Print Assumptions C24_kept_results_do_not_change_the_value.

(** What is fitted during a successful evaluation is what naive evaluation fits. *)
Theorem C24_fitted_attributes :
  forall (V K F : Type) (HK : EqD K) (ext : externals V K F) (h : heap V K) (size : nat)
         (root : oid) (e : env V) (requested : string) (s : st V F) v,
    closed h size -> root < size -> acyclic h root -> trace s = [] ->
    snd (evaluate ext h size root requested e true s) = Ok v ->
    forall x, fitted (fst (evaluate ext h size root requested e true s)) x = fitted s x \/
      exists w, Den ext h e (real_mode requested) (fitted s) x
        (Ok (w, fitted (fst (evaluate ext h size root requested e true s)) x)).
Proof. intros. eapply fitted_after; eassumption. Qed.
Print Assumptions C24_fitted_attributes.

Example C24_example :
  closed ex_heap ex_size /\ ex_root < ex_size /\ acyclic ex_heap ex_root /\
  snd (evaluate ex_ext ex_heap ex_size ex_root "fit_transform" ex_env true ex_stale)
    = Ok (TheValue 1035) /\
  snd (evaluate ex_ext ex_heap ex_size ex_root "predict" ex_env true ex_stale) = Err NotFittedError /\
  fitted (fst (evaluate ex_ext ex_heap ex_size ex_root "fit" ex_env true ex_stale)) 6
    = Some (FittedWith 517).
Proof.
  split; [apply ex_closed|]. split; [apply ex_root_lt|]. split; [apply ex_acyclic|].
  vm_compute. repeat split.
Qed.

(** ** C25 *)
Theorem C25_each_node_computed_at_most_once :
  forall (V K F : Type) (HK : EqD K) (ext : externals V K F) (h : heap V K) (size : nat)
         (root : oid) (e : env V) (requested : string) (s : st V F) (clear : bool),
    closed h size -> root < size -> acyclic h root -> trace s = [] ->
    clear = true \/ Inv ext h e (real_mode requested) (fitted s) root s ->
    NoDup (trace (fst (evaluate ext h size root requested e clear s))).
Proof. intros. apply computed_once; assumption. Qed.
Print Assumptions C25_each_node_computed_at_most_once.

(** Without clearing, stored results are reused, and a second evaluation computes nothing. *)
Theorem C25_kept_results_are_reused :
  forall (V K F : Type) (HK : EqD K) (ext : externals V K F) (h : heap V K) (size : nat)
         (root : oid) (e : env V) (requested : string) f0 (s : st V F),
    closed h size -> root < size -> acyclic h root -> trace s = [] ->
    Inv ext h e (real_mode requested) f0 root s ->
    let out := evaluate ext h size root requested e false s in
    (forall x, In x (trace (fst out)) -> results s x (real_mode requested) = None) /\
    forall v, snd out = Ok (TheValue v) -> to_compute h e root ->
      results (fst out) root (real_mode requested) = Some v /\
      evaluate ext h size root requested e false
        (mk_st (results (fst out)) (errors (fst out)) (fitted (fst out)) [])
      = (mk_st (results (fst out)) (errors (fst out)) (fitted (fst out)) [], Ok (TheValue v)).
Proof. intros. apply kept_not_recomputed with (f0 := f0); assumption. Qed.
Print Assumptions C25_kept_results_are_reused.

Example C25_example :
  trace (fst (evaluate ex_ext ex_heap ex_size ex_root "fit_transform" ex_env true ex_stale))
    = [10; 3; 1; 2; 6; 7; 9; 11] /\
  (* naive evaluation computes node 7 twice and node 1 eight times *)
  children (ex_heap 9) = [7; 7; 8] /\ children (ex_heap 2) = [1; 1].
Proof. vm_compute. repeat split. Qed.

(** ** C26 *)
Theorem C26_no_results_left :
  forall (V K F : Type) (HK : EqD K) (ext : externals V K F) (h : heap V K) (size : nat)
         (root : oid) (e : env V) (requested : string) (s : st V F),
    closed h size -> root < size -> acyclic h root ->
    let out := fst (evaluate ext h size root requested e true s) in
    (forall x, part_of h root x -> is_expr_at h x ->
       results out x (real_mode requested) = None /\ errors out x (real_mode requested) = None) /\
    (forall x m, m <> real_mode requested \/ ~ (part_of h root x /\ is_expr_at h x) ->
       results out x m = results s x m /\ errors out x m = errors s x m) /\
    (forall x, ~ (part_of h root x /\ is_expr_at h x) -> fitted out x = fitted s x).
Proof. intros. apply nothing_left; assumption. Qed.
Print Assumptions C26_no_results_left.

Example C26_example :
  let bad : env nat := [("d", 3)] in
  let out := evaluate ex_ext ex_heap ex_size ex_root "fit_transform" bad true ex_stale in
  (* evaluation fails in the last variable, after most nodes have been computed *)
  snd out = Err UninitializedVariable /\ length (trace (fst out)) = 8 /\
  map (fun o => results (fst out) o "fit_transform") [1; 2; 6; 7; 8; 11] = [None; None; None; None; None; None] /\
  results (fst out) 7 "predict" = Some 77 /\ results (fst out) 12 "fit_transform" = Some 77.
Proof. vm_compute. repeat split. Qed.

(** ** C27. [needs] and [needed] say what the value of an object requires (L_expr4.v). *)
Theorem C27_computes_exactly_what_is_needed :
  forall (V K F : Type) (HK : EqD K) (ext : externals V K F) (h : heap V K) (size : nat)
         (root : oid) (e : env V) (requested : string) (s : st V F),
    closed h size -> root < size -> acyclic h root -> trace s = [] ->
    let out := evaluate ext h size root requested e true s in
    (forall x, In x (trace (fst out)) ->
       needed ext h e (real_mode requested) (fitted s) root x /\ to_compute h e x) /\
    (forall v, snd out = Ok v ->
       forall x, needed ext h e (real_mode requested) (fitted s) root x -> to_compute h e x ->
         In x (trace (fst out))).
Proof. intros. apply computed_exactly_needed; assumption. Qed.
Print Assumptions C27_computes_exactly_what_is_needed.

(** Two expressions that agree on what the first one needs (in particular: that differ in
    branches that are not selected) have the same outcome. *)
Theorem C27_outcome_depends_only_on_what_is_needed :
  forall (V K F : Type) (HK : EqD K) (ext : externals V K F) (h1 h2 : heap V K) (size1 size2 : nat)
         (root : oid) (e1 e2 : env V) (requested : string) (s1 s2 : st V F),
    closed h1 size1 -> root < size1 -> acyclic h1 root ->
    closed h2 size2 -> root < size2 -> acyclic h2 root ->
    (forall o, needed ext h1 e1 (real_mode requested) (fitted s1) root o ->
       agree h1 h2 e1 e2 (fitted s1) (fitted s2) o) ->
    snd (evaluate ext h1 size1 root requested e1 true s1)
    = snd (evaluate ext h2 size2 root requested e2 true s2).
Proof. intros. apply evaluate_agree; assumption. Qed.
Print Assumptions C27_outcome_depends_only_on_what_is_needed.

Example C27_example :
  let out := evaluate ex_ext ex_heap ex_size ex_root "fit_transform" ex_env true ex_st in
  (* 8 would raise; it is a branch of 9 *)
  (exists v, snd out = Ok v) /\ ~ In 8 (trace (fst out)) /\ part_of ex_heap ex_root 8.
Proof.
  cbn zeta. split; [eexists; vm_compute; reflexivity|]. split.
  - vm_compute. intuition discriminate.
  - apply reach_step with (c := 9); [intros []|simpl; auto|].
    apply reach_step with (c := 8); [intros []|simpl; auto|]. constructor.
Qed.

(** ** C28 *)
Theorem C28_traversal_terminates :
  forall (V K F : Type) (HK : EqD K) (ext : externals V K F) (h : heap V K) (size : nat)
         (root : oid) (e : env V) (mode : string) (cb : st V F -> st V F * outcome unit) (s : st V F),
    closed h size -> root < size ->
    let r := visit (eval_handler ext h e mode cb) size [] root s in
    snd r <> TFuel /\
    (exists n, forall m, n <= m ->
       steps (eval_handler ext h e mode cb) m (start root s) = Finished (fst r) (snd r)) /\
    (forall x, snd r = TCirc x -> part_of h root x /\ on_cycle h x).
Proof. intros. apply eval_machine; assumption. Qed.
Print Assumptions C28_traversal_terminates.

(** The same for any other traversal that goes through elements of the objects. *)
Theorem C28_any_traversal_terminates :
  forall (V S : Type) (handler : oid -> gen V S) (dom : list oid) (o : oid) (s : S),
    (forall o, In o dom -> gen_all (fun t => In t dom) (handler o)) -> In o dom ->
    let r := visit handler (length dom) [] o s in
    snd r <> TFuel /\
    exists n, forall m, n <= m -> steps handler m (start o s) = Finished (fst r) (snd r).
Proof. intros. apply machine_visit; assumption. Qed.
Print Assumptions C28_any_traversal_terminates.

Theorem C28_cycles_rejected_before_computing_anything :
  forall (V K F : Type) (HK : EqD K) (ext : externals V K F) (h : heap V K) (size : nat)
         (root : oid) (e : env V) (requested : string) (s : st V F),
    closed h size -> root < size ->
    (evaluate ext h size root requested e true s = (s, Err ValueError) /\
       exists x, part_of h root x /\ on_cycle h x) \/
    acyclic h root.
Proof. intros. apply evaluate_cyclic; assumption. Qed.
Print Assumptions C28_cycles_rejected_before_computing_anything.

Example C28_example :
  closed ex_cycle 3 /\
  snd (evaluate ex_ext ex_cycle 3 0 "fit_transform" [] true ex_st) = Err ValueError /\
  snd (visit (eval_handler ex_ext ex_cycle [] "fit_transform" (fun s => (s, TOk tt))) 3 [] 0 ex_st)
    = TCirc 1 /\
  steps (eval_handler ex_ext ex_cycle [] "fit_transform" (fun s => (s, TOk tt))) 20 (start 0 ex_st)
    = Finished (mk_st (results ex_st) (errors ex_st) (fitted ex_st) [1; 0]) (TCirc 1).
Proof. split; [apply ex_cycle_closed|]. vm_compute. repeat split. Qed.

(** ** C29 *)
Theorem C29_fold_never_computes_the_full_data :
  forall (V K F : Type) (HK : EqD K) (ext : externals V K F) (h : heap V K) (size : nat)
         (root : oid) (e : env V) (requested : string) (s : st V F),
    closed h size -> root < size -> acyclic h root -> trace s = [] ->
    forall x, In x (trace (fst (evaluate ext h size root requested e true s))) ->
      used_besides h e root x /\ ~ split_node h e x.
Proof. intros. eapply never_computes_split_data; eassumption. Qed.
Print Assumptions C29_fold_never_computes_the_full_data.

Theorem C29_fold_depends_only_on_its_own_data :
  forall (V K F : Type) (HK : EqD K) (ext : externals V K F) (h : heap V K) (size : nat)
         (root : oid) (e1 e2 : env V) (requested : string) (s1 s2 : st V F),
    closed h size -> root < size -> acyclic h root ->
    fitted s1 = fitted s2 ->
    (exists k, In k ["_skrub_X"; "_skrub_y"] /\ dget k e1 <> None) ->
    (forall k, In k ["_skrub_X"; "_skrub_y"; "_skrub_use_var_values"] -> dget k e1 = dget k e2) ->
    (forall o n, used_besides h e1 root o -> ~ split_node h e1 o -> named h o n ->
       dget n e1 = dget n e2) ->
    snd (evaluate ext h size root requested e1 true s1)
    = snd (evaluate ext h size root requested e2 true s2).
Proof. intros. apply evaluate_split; assumption. Qed.
Print Assumptions C29_fold_depends_only_on_its_own_data.

Example C29_example :
  (* the branch 8 that is not selected also uses the variable [d]: the theorem is applied
     to node 7, which uses [d] only through X and y *)
  acyclic ex_heap 7 /\
  (forall o n, used_besides ex_heap ex_fold 7 o -> ~ split_node ex_heap ex_fold o ->
     named ex_heap o n -> dget n ex_fold = dget n ex_fold') /\
  trace (fst (evaluate ex_ext ex_heap ex_size 7 "fit_transform" ex_fold true ex_st)) = [6; 7] /\
  snd (evaluate ex_ext ex_heap ex_size 7 "fit_transform" ex_fold true ex_st) = Ok (TheValue 1036) /\
  snd (evaluate ex_ext ex_heap ex_size 7 "fit_transform" ex_fold' true ex_st) = Ok (TheValue 1036) /\
  (* without the split, [d] matters *)
  snd (evaluate ex_ext ex_heap ex_size 7 "fit_transform" [("d", 3)] true ex_st)
    <> snd (evaluate ex_ext ex_heap ex_size 7 "fit_transform" [("d", 4)] true ex_st).
Proof.
  split; [eapply acyclic_by_nodes; [apply ex_closed|vm_compute; lia|vm_compute; reflexivity]|].
  split.
  - assert (Hg : forall o, used_besides ex_heap ex_fold 7 o -> In o [7; 6; 5; 4; 2; 3; 0]).
    { assert (Hinv : forall a b, used_besides ex_heap ex_fold a b -> In a [7; 6; 5; 4; 2; 3; 0] ->
                In b [7; 6; 5; 4; 2; 3; 0]).
      { intros a b Hr. induction Hr as [|a c b Hs Hc Hr IH]; intros Ha; [exact Ha|].
        apply IH. clear IH Hr. simpl in Ha.
        repeat (destruct Ha as [<-|Ha];
          [try (exfalso; apply Hs; unfold split_node; simpl;
                (left; split; [reflexivity|discriminate]) ||
                (right; split; [reflexivity|discriminate]));
           simpl in Hc |- *; intuition|]).
        destruct Ha. }
      intros o Ho. eapply Hinv; [exact Ho|simpl; auto]. }
    intros o n Ho _ Hn. apply Hg in Ho. simpl in Ho.
    repeat (destruct Ho as [<-|Ho]; [destruct Hn|]). destruct Ho.
  - vm_compute. repeat split. discriminate.
Qed.
