(** Properties C100 to C104: the choices of copies, the X and y of an expression, splits, and
    searches for hyper-parameters. *)
From Verif Require Import Base L_dict M_traverse L_traverse M_expr L_expr1 L_expr2 L_expr3 L_expr4 L_expr5 L_expr6 L_expr7.
From Verif Require Import M_clone L_clone L_clone2 M_grid L_grid M_choicegraph L_choicegraph L_choicegraph2 L_choicegraph3 L_conflicts M_estimator L_estimator1 L_estimator2 L_estimator3 L_estimator4 L_search1 M_search L_search2 L_search3 L_search4 L_search7 L_search8 L_search9.
Open Scope string_scope.
Open Scope list_scope.
Open Scope nat_scope.

(** C100. A copy of an expression has the same choices, with the same numbers and names, and
    the same grid, if copies of the outcomes can be looked up like the outcomes. *)
Theorem C100_copy_has_same_choices :
  forall {V K} `{EqD K} (copy : V -> res V) (new_seq new_map new_estimator : string -> res unit)
    (hash_obj : heap V K -> oid -> res K) (h : heap V K) size root,
  closed h size -> root < size -> acyclic h root -> variables_plain h root ->
  copies_hash copy hash_obj h root ->
  forall drop h' size' root', clone copy new_seq new_map new_estimator h size root drop = Ok (h', size', root') ->
  match choice_graph (hash_obj h) h size root, choice_graph (hash_obj h') h' size' root' with
  | Ok (short, G), Ok (short', G') => G' = G /\
      exists f, short = map f short' /\ forall c, part_of h' root' c ->
        part_of h root (f c) /\ (forall l, carries h' c l <-> carries h (f c) l) /\ (is_choice h' c <-> is_choice h (f c))
  | Err a, Err b => a = b
  | _, _ => False
  end.
Proof. exact @copy_choices. Qed.
Print Assumptions C100_copy_has_same_choices.

Example ex_C100 : closed sx_heap sx_size /\ acyclic sx_heap sx_root /\ variables_plain sx_heap sx_root /\
  copies_hash sx_copy sx_hash sx_heap sx_root /\
  match clone sx_copy sx_new sx_new sx_new sx_heap sx_size sx_root true with
  | Ok (h', size', root') =>
      match choice_graph (sx_hash h') h' size' root' with
      | Ok (short', G') => length short' = 2 /\ choice_graph (sx_hash sx_heap) sx_heap sx_size sx_root = Ok ([13; 8], G')
      | Err _ => False
      end
  | Err _ => False
  end.
Proof. split; [exact sx_closed|]. split; [exact sx_acyclic|]. split; [exact sx_plain|]. split; [exact sx_hashes|]. vm_compute. split; reflexivity. Qed.

(** Without that hypothesis copies may be broken: outcomes compared by identity are copied but
    the keys of a mapping are not. *)
Theorem C100_matched_by_identity_refuted : exists h' size' root' short G,
  L_choicegraph.choices_ok (sz_hash sz_heap) sz_heap 8 /\
  choice_graph (sz_hash sz_heap) sz_heap 9 8 = Ok (short, G) /\
  clone sx_copy sx_new sx_new sx_new sz_heap 9 8 true = Ok (h', size', root') /\
  choice_graph (sz_hash h') h' size' root' = Err KeyError.
Proof. exact sz_broken. Qed.
Print Assumptions C100_matched_by_identity_refuted.

(** C101. The X and y that are cross-validated are the values of the nodes marked as X and
    y. *)
Theorem C101_X_and_y_of_marked_nodes :
  forall {V K F} `{EqD K} (ext : externals V K F) copy new_seq new_map new_estimator is_none (h : heap V K) size root (e : env V),
  (forall v v', copy v = Ok v' -> v' = v) -> closed h size -> root < size -> acyclic h root ->
  values_unused true h root e "fit_transform" ->
  forall x y, no_conflict h root ->
  part_of h root x -> carries h x IsX -> part_of h root y -> carries h y IsY ->
  (exists c, clone copy new_seq new_map new_estimator h size root true = Ok c) ->
  exists rx ry, Den ext h e "fit_transform" (fun _ => None) x rx /\ Den ext h e "fit_transform" (fun _ => None) y ry /\
    snd (compute_Xy ext copy new_seq new_map new_estimator is_none h size root e)
    = (let! vx := val rx in let! vy := val ry in Ok (vx, if is_none vy then None else Some vy)).
Proof. intros. eapply compute_Xy_marked; eassumption. Qed.
Print Assumptions C101_X_and_y_of_marked_nodes.

(** Whatever is given as X and y is the value of marked nodes; there is no y only if no node
    is marked as y or it is None. *)
Theorem C101_only_marked_nodes :
  forall {V K F} `{EqD K} (ext : externals V K F) copy new_seq new_map new_estimator is_none (h : heap V K) size root (e : env V),
  (forall v v', copy v = Ok v' -> v' = v) -> closed h size -> root < size -> acyclic h root ->
  values_unused true h root e "fit_transform" ->
  forall vx vy, snd (compute_Xy ext copy new_seq new_map new_estimator is_none h size root e) = Ok (vx, vy) ->
  exists x fx, part_of h root x /\ carries h x IsX /\ Den ext h e "fit_transform" (fun _ => None) x (Ok (vx, fx)) /\
    ((exists y w fy, part_of h root y /\ carries h y IsY /\ Den ext h e "fit_transform" (fun _ => None) y (Ok (w, fy)) /\
        vy = if is_none w then None else Some w) \/
     (vy = None /\ forall y, part_of h root y -> ~ carries h y IsY)).
Proof. intros. eapply compute_Xy_sound; eassumption. Qed.
Print Assumptions C101_only_marked_nodes.

(** Nodes used by both X and y are computed once. *)
Theorem C101_shared_work_done_once :
  forall {V K F} `{EqD K} (ext : externals V K F) copy new_seq new_map new_estimator is_none (h : heap V K) size root (e : env V),
  closed h size -> root < size -> acyclic h root ->
  NoDup (trace (fst (compute_Xy ext copy new_seq new_map new_estimator is_none h size root e))).
Proof. intros. eapply compute_Xy_once; eassumption. Qed.
Print Assumptions C101_shared_work_done_once.

Example ex_C101 : values_unused true sx_heap sx_root sx_env "fit_transform" /\ no_conflict sx_heap sx_root /\
  part_of sx_heap sx_root 2 /\ carries sx_heap 2 IsX /\ part_of sx_heap sx_root 3 /\ carries sx_heap 3 IsY /\
  snd (compute_Xy sx_ext sx_copy sx_new sx_new sx_new sx_none sx_heap sx_size sx_root sx_env) = Ok (4, Some 7) /\
  snd (compute_Xy sx_ext sx_copy sx_new sx_new sx_new sx_none sx_heap sx_size sx_root [("data", 3); ("target", 0)]) = Ok (4, None) /\
  snd (compute_Xy sx_ext sx_copy sx_new sx_new sx_new sx_none sx_heap sx_size 1 sx_env) = Err ValueError /\
  trace (fst (compute_Xy sx_ext sx_copy sx_new sx_new sx_new sx_none sx_heap sx_size sx_root sx_env)) <> [].
Proof.
  split; [intros _; split; [discriminate|]; split; [reflexivity|exact sx_plain]|]. split; [exact sx_no_conflict|].
  split; [apply part_child; left; reflexivity|]. split; [reflexivity|]. split; [apply part_child; right; right; left; reflexivity|]. split; [reflexivity|].
  vm_compute. repeat split. discriminate.
Qed.

(** C102. The environments of a split are the original one, with the parts of the values of X
    and y. *)
Theorem C102_split_environments :
  forall {V K F} `{EqD K} (ext : externals V K F) copy new_seq new_map new_estimator is_none split1 split2 (h : heap V K) size root (e : env V),
  (forall v v', copy v = Ok v' -> v' = v) -> closed h size -> root < size -> acyclic h root ->
  values_unused true h root e "fit_transform" ->
  forall sp, train_test_split ext copy new_seq new_map new_estimator is_none split1 split2 h size root e = Ok sp ->
  env_with e (sp_train sp) (sp_X_train sp) (option_map fst (sp_y sp)) /\
  env_with e (sp_test sp) (sp_X_test sp) (option_map snd (sp_y sp)) /\
  exists x vx fx, part_of h root x /\ carries h x IsX /\ Den ext h e "fit_transform" (fun _ => None) x (Ok (vx, fx)) /\
    match sp_y sp with
    | Some ys => exists y vy fy, part_of h root y /\ carries h y IsY /\ Den ext h e "fit_transform" (fun _ => None) y (Ok (vy, fy)) /\
        split2 vx vy = Ok (sp_X_train sp, sp_X_test sp, ys)
    | None => split1 vx = Ok (sp_X_train sp, sp_X_test sp) /\
        forall y, part_of h root y -> carries h y IsY -> exists y' vy fy, part_of h root y' /\ carries h y' IsY /\
          Den ext h e "fit_transform" (fun _ => None) y' (Ok (vy, fy)) /\ is_none vy = true
    end.
Proof. intros. eapply split_spec; eassumption. Qed.
Print Assumptions C102_split_environments.

(** What is computed with the training environment does not depend on the test part: two
    datasets with the same training X and y, and the same values for what is used besides X
    and y, give the same result. *)
Theorem C102_no_leak :
  forall {V K F} `{EqD K} (ext : externals V K F) copy new_seq new_map new_estimator is_none split1 split2
    (h : heap V K) size root (e1 e2 : env V) sp1 sp2 requested (s1 s2 : st V F),
  closed h size -> root < size -> acyclic h root -> fitted s1 = fitted s2 ->
  train_test_split ext copy new_seq new_map new_estimator is_none split1 split2 h size root e1 = Ok sp1 ->
  train_test_split ext copy new_seq new_map new_estimator is_none split1 split2 h size root e2 = Ok sp2 ->
  sp_X_train sp1 = sp_X_train sp2 -> option_map fst (sp_y sp1) = option_map fst (sp_y sp2) ->
  (sp_y sp1 = None -> dget "_skrub_y" e1 = dget "_skrub_y" e2) ->
  dget "_skrub_use_var_values" e1 = dget "_skrub_use_var_values" e2 ->
  (forall o n, used_besides h (sp_train sp1) root o -> ~ split_node h (sp_train sp1) o -> named h o n ->
    dget n (sp_train sp1) = dget n (sp_train sp2)) ->
  snd (evaluate ext h size root requested (sp_train sp1) true s1)
  = snd (evaluate ext h size root requested (sp_train sp2) true s2).
Proof. intros. eapply split_no_leak; eassumption. Qed.
Print Assumptions C102_no_leak.

Example ex_C102 : exists sp1 sp2, sx_split [("data", 23); ("target", 17)] = Ok sp1 /\
  sx_split [("data", 25); ("target", 18)] = Ok sp2 /\
  sp_train sp1 = [("data", 23); ("target", 17); ("_skrub_X", 2); ("_skrub_y", 1)] /\
  sp_test sp1 = [("data", 23); ("target", 17); ("_skrub_X", 4); ("_skrub_y", 7)] /\
  sp_X_train sp1 = sp_X_train sp2 /\ option_map fst (sp_y sp1) = option_map fst (sp_y sp2) /\
  (forall o n, used_besides sx_heap (sp_train sp1) sx_root o -> ~ split_node sx_heap (sp_train sp1) o -> named sx_heap o n ->
    dget n (sp_train sp1) = dget n (sp_train sp2)).
Proof. exact sx_no_leak. Qed.

(** C103. The best estimator found by a search that refits gives the same answers as the
    estimator of the expression with the best parameters, fitted on the same environment; if
    nothing that is fitted is used to compute X or y. The parameters are drawn from the grids,
    [sr] is the search before the fit. *)
Theorem C103_best_estimator_is_fitted_estimator :
  forall {V K F R} `{EqD K} (ext : externals V K F) (hash_obj : heap V K -> oid -> res K) has_method declares copy new_seq new_map new_estimator is_none
    (h : heap V K) size root,
  (forall v v', copy v = Ok v' -> v' = v) ->
  closed h size -> root < size -> acyclic h root -> no_conflict h root -> names_free h root -> variables_plain h root ->
  copies_hash copy hash_obj h root -> copies_declare copy declares h root -> L_choicegraph.choices_ok (hash_obj h) h root ->
  (forall o, upstream h root o -> ~ stateful h o) ->
  forall cv (e : env V) (sr sr' : search V K F R), (forall x y gs r p, cv x y gs = Ok (r, Some p) -> drawn gs p) ->
  e <> [] -> dget "_skrub_use_var_values" e = None ->
  search_fit ext hash_obj has_method declares copy new_seq new_map new_estimator is_none h size root cv e sr = (sr', Ok tt) ->
  (exists x y gs r, snd (compute_Xy ext copy new_seq new_map new_estimator is_none h size root e) = Ok (x, y) /\ cv x y gs = Ok (r, None)) \/
  exists params b b0 b1, s_best sr' = Some b /\
    new_est hash_obj copy new_seq new_map new_estimator h size root params = Ok b0 /\
    call ext has_method declares b0 "fit" e = (b1, Ok TheExpr) /\
    (exists x y gs r, snd (compute_Xy ext copy new_seq new_map new_estimator is_none h size root e) = Ok (x, y) /\ cv x y gs = Ok (r, Some params)) /\
    forall mode e2, mode <> "preview" -> dget "_skrub_use_var_values" e2 = None ->
      snd (call ext has_method declares b mode e2) = snd (call ext has_method declares b1 mode e2).
Proof. exact @search_fit_best. Qed.
Print Assumptions C103_best_estimator_is_fitted_estimator.

Example ex_C103 :
  no_conflict sx_heap sx_root /\ names_free sx_heap sx_root /\ variables_plain sx_heap sx_root /\
  copies_hash sx_copy sx_hash sx_heap sx_root /\ copies_declare sx_copy sx_declares sx_heap sx_root /\
  L_choicegraph.choices_ok (sx_hash sx_heap) sx_heap sx_root /\ (forall o, upstream sx_heap sx_root o -> ~ stateful sx_heap o) /\
  (exists G gs, choice_graph (sx_hash sx_heap) sx_heap sx_size sx_root = Ok ([13; 8], G) /\ param_grid G = Ok gs /\ drawn gs sx_params) /\
  snd (sx_fit sx_root (Some sx_params) sx_env new_search) = Ok tt /\
  snd (sx_search_call sx_root "predict" [("data", 5)] sx_fitted) = Ok (TheValue 38) /\
  match sx_est sx_root sx_params with
  | Ok b0 => snd (sx_call (fst (sx_call b0 "fit" sx_env)) "predict" [("data", 5)]) = Ok (TheValue 38)
  | Err _ => False
  end.
Proof. exact sx_C103. Qed.

(** If X is computed by a step that is fitted, the best estimator cannot be used. *)
Theorem C103_fitted_before_X_refuted : exists sr b0,
  sy_fit sx_env new_search = (sr, Ok tt) /\ sy_est [] = Ok b0 /\
  snd (sx_call b0 "fit" sx_env) = Ok TheExpr /\
  snd (sx_call (fst (sx_call b0 "fit" sx_env)) "predict" [("data", 5)]) = Ok (TheValue 18) /\
  snd (sy_search_call "predict" [("data", 5)] sr) = Err AttributeError.
Proof. exact sy_refuted. Qed.
Print Assumptions C103_fitted_before_X_refuted.

(** The methods of a search are those of the default estimator, even if the best one has
    others. *)
Theorem C103_methods_refuted : exists sr b,
  sx_fit sx_root (Some sx_params) sx_env new_search = (sr, Ok tt) /\ s_best sr = Some b /\
  snd (sx_call b "predict_proba" [("data", 5)]) = Ok (TheValue 38) /\
  snd (sx_search_call sx_root "predict_proba" [("data", 5)] sr) = Err AttributeError.
Proof. exact sx_methods_refuted. Qed.
Print Assumptions C103_methods_refuted.

(** C104. Before a successful fit no method of a search gives a result. *)
Theorem C104_no_answer_before_fit :
  forall {V K F R} `{EqD K} (ext : externals V K F) (hash_obj : heap V K -> oid -> res K) has_method declares copy new_seq new_map new_estimator is_none
    (h : heap V K) size root ops mode e,
  Forall (fails (R := R) ext hash_obj has_method declares copy new_seq new_map new_estimator is_none h size root) ops ->
  exists ex, snd (search_call (R := R) ext has_method declares h size root mode e
      (search_run ext hash_obj has_method declares copy new_seq new_map new_estimator is_none h size root new_search ops)) = Err ex /\
    (forall ms, supported_modes h size has_method (declares h) root (fun _ : oid => @None (fit_attr V F)) = Ok ms -> In mode ms -> ex = NotFittedError).
Proof. exact @no_answer_before_fit. Qed.
Print Assumptions C104_no_answer_before_fit.

(** After a fit that refits, whatever happened before, and fits that fail or do not refit and
    uses of the search later, the answers are those of the estimator refitted by this fit. *)
Theorem C104_answers_of_last_refit :
  forall {V K F R} `{EqD K} (ext : externals V K F) (hash_obj : heap V K -> oid -> res K) has_method declares copy new_seq new_map new_estimator is_none
    (h : heap V K) size root,
  closed h size -> root < size -> acyclic h root ->
  forall before cv (e : env V) sr x y gs (r : R) p b after mode e2,
  sr = search_run ext hash_obj has_method declares copy new_seq new_map new_estimator is_none h size root new_search before ->
  snd (search_fit ext hash_obj has_method declares copy new_seq new_map new_estimator is_none h size root cv e sr) = Ok tt ->
  (exists short G, choice_graph (hash_obj h) h size root = Ok (short, G) /\ param_grid G = Ok gs) ->
  snd (compute_Xy ext copy new_seq new_map new_estimator is_none h size root e) = Ok (x, y) -> cv x y gs = Ok (r, Some p) ->
  refit ext hash_obj has_method declares copy new_seq new_map new_estimator h size root e x y p = Ok b ->
  Forall (does_not_refit ext hash_obj has_method declares copy new_seq new_map new_estimator is_none h size root) after ->
  (exists ms, supported_modes h size has_method (declares h) root (fun _ : oid => @None (fit_attr V F)) = Ok ms /\ In mode ms) ->
  snd (search_call ext has_method declares h size root mode e2
    (search_run ext hash_obj has_method declares copy new_seq new_map new_estimator is_none h size root sr (SFit cv e :: after)))
  = snd (call ext has_method declares b mode e2).
Proof. exact @answers_of_last_refit. Qed.
Print Assumptions C104_answers_of_last_refit.

Example ex_C104 :
  let failing := [SFit (sx_cv (Some sx_params)) []; SCall "predict" sx_env] in
  let later := [SCall "predict" [("data", 1)]; SFit (sx_cv (Some sx_params)) []] in
  Forall (fails sx_ext sx_hash sx_has sx_declares sx_copy sx_new sx_new sx_new sx_none sx_heap sx_size sx_root) failing /\
  snd (sx_search_call sx_root "predict" sx_env (sx_run new_search failing)) = Err NotFittedError /\
  Forall (does_not_refit sx_ext sx_hash sx_has sx_declares sx_copy sx_new sx_new sx_new sx_none sx_heap sx_size sx_root) later /\
  snd (sx_fit sx_root (Some sx_params) sx_env (sx_run new_search failing)) = Ok tt /\
  snd (sx_search_call sx_root "predict" [("data", 5)] (sx_run new_search (failing ++ SFit (sx_cv (Some sx_params)) sx_env :: later))) = Ok (TheValue 38).
Proof. exact sx_C104. Qed.

(** After a fit that does not refit, the answers are still those of an earlier fit. *)
Theorem C104_stale_estimator_refuted :
  let sr := sx_run new_search [SFit (sx_cv (Some sx_params)) sx_env; SFit (sx_cv None) [("data", 0); ("target", 1)]] in
  s_cv_results sr = Some 1 /\
  snd (sx_search_call sx_root "predict" [("data", 5)] sr) = Ok (TheValue 38) /\
  snd (sx_search_call sx_root "predict" [("data", 5)] (sx_run new_search [SFit (sx_cv None) [("data", 0); ("target", 1)]])) = Err AttributeError.
Proof. vm_compute. repeat split. Qed.
Print Assumptions C104_stale_estimator_refuted.
