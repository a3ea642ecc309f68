(** C103 for a search, and C104: the life of a search. *)
From Verif Require Import Base L_dict M_traverse L_traverse M_expr L_expr1 L_expr2 L_expr3 L_expr4 L_expr5 L_expr6 L_expr7.
From Verif Require Import M_clone L_clone L_clone2 M_grid L_grid M_choicegraph L_choicegraph L_choicegraph2 L_choicegraph3 L_conflicts M_estimator L_estimator1 L_estimator2 L_estimator3 L_estimator4 L_estimator5 L_search1 M_search L_search2 L_search4 L_search5 L_search6 L_search7.
Set Default Proof Using "Type".
Open Scope string_scope.
Open Scope list_scope.
Open Scope nat_scope.

(** ** Specification *)

(** What is done with a search: fitting (with what cross-validation gives), or calling
    another method. *)
Inductive search_op (V R : Type) : Type :=
| SFit (cv : V -> option V -> list (grid V) -> res (R * option (list (nat * param V)))) (e : env V)
| SCall (mode : string) (e : env V).
Arguments SFit {V R}.
Arguments SCall {V R}.

Section Life.
  Context {V K F R : Type} `{EqD K}.
  Notation heap := (heap V K).
  Notation st := (st V F).
  Notation env := (env V).
  Variable ext : externals V K F.
  Variable hash_obj : heap -> oid -> res K.
  Variable has_method : F -> string -> bool.
  Variable declares : heap -> oid -> string -> bool.
  Variable copy : V -> res V.
  Variables new_seq new_map new_estimator : string -> res unit.
  Variable is_none : V -> bool.
  Variables (h : heap) (size : nat) (root : oid).
  Notation clone := (M_clone.clone copy new_seq new_map new_estimator).
  Notation compute_Xy := (M_search.compute_Xy ext copy new_seq new_map new_estimator is_none).
  Notation refit := (M_search.refit ext hash_obj has_method declares copy new_seq new_map new_estimator).
  Notation new_est := (M_search.new_est hash_obj copy new_seq new_map new_estimator).
  Notation call := (M_search.call ext has_method declares).
  Notation search := (search V K F R).
  Notation search_fit := (M_search.search_fit (R := R) ext hash_obj has_method declares copy new_seq new_map new_estimator is_none h size root).
  Notation search_call := (M_search.search_call (R := R) ext has_method declares h size root).
  Notation op := (search_op V R).

  Definition search_step (sr : search) (o : op) : search * option exn :=
    match o with
    | SFit cv e => let (sr', r) := search_fit cv e sr in (sr', match r with Ok _ => None | Err ex => Some ex end)
    | SCall m e => let (sr', r) := search_call m e sr in (sr', match r with Ok _ => None | Err ex => Some ex end)
    end.
  Fixpoint search_run (sr : search) (ops : list op) : search :=
    match ops with [] => sr | o :: ops' => search_run (fst (search_step sr o)) ops' end.

  (** The fit raises an exception; it does not refit. *)
  Definition fails (o : op) : Prop :=
    match o with SFit cv e => forall sr, exists ex, snd (search_fit cv e sr) = Err ex | SCall _ _ => True end.
  Definition does_not_refit (o : op) : Prop :=
    match o with
    | SFit cv e => (forall sr, exists ex, snd (search_fit cv e sr) = Err ex) \/ (forall x y gs r p, cv x y gs = Ok (r, p) -> p = None)
    | SCall m _ => In m using_methods
    end.

  (** ** Proofs *)
  Lemma fit_outcome cv e sr sr' : snd (search_fit cv e sr) = snd (search_fit cv e sr').
  Proof. unfold M_search.search_fit. match goal with |- snd (match ?x with _ => _ end) = _ => destruct x as [[r best]|] end; reflexivity. Qed.

  Lemma fit_fails cv e sr ex : snd (search_fit cv e sr) = Err ex -> fst (search_fit cv e sr) = sr.
  Proof. unfold M_search.search_fit. match goal with |- snd (match ?x with _ => _ end) = _ -> _ => destruct x as [[r best]|] end; [discriminate|reflexivity]. Qed.

  (** What a successful fit has done. *)
  Lemma fit_done cv e sr sr' : search_fit cv e sr = (sr', Ok tt) ->
    exists short G gs x y r best, choice_graph (hash_obj h) h size root = Ok (short, G) /\ param_grid G = Ok gs /\
      snd (compute_Xy h size root e) = Ok (x, y) /\ cv x y gs = Ok (r, best) /\ s_cv_results sr' = Some r /\
      match best with None => s_best sr' = s_best sr | Some p => exists b, refit h size root e x y p = Ok b /\ s_best sr' = Some b end.
  Proof.
    unfold M_search.search_fit. destruct (choice_graph (hash_obj h) h size root) as [[short G]|]; cbn [bind]; [|discriminate].
    destruct (param_grid G) as [gs|] eqn:Eg; cbn [bind]; [|discriminate]. destruct (snd (compute_Xy h size root e)) as [[x y]|] eqn:Ex; cbn [bind]; [|discriminate].
    destruct (cv x y gs) as [[r [p|]]|] eqn:Ec; cbn [bind]; [| |discriminate].
    - destruct (refit h size root e x y p) as [b|] eqn:Eb; cbn [bind]; [|discriminate]. intros E. injection E as <-. exists short, G, gs, x, y, r, (Some p). cbn. eauto 12.
    - intros E. injection E as <-. exists short, G, gs, x, y, r, None. cbn. auto 12.
  Qed.

  Lemma never_run ops : Forall fails ops -> search_run (new_search (R := R)) ops = new_search.
  Proof.
    induction 1 as [|o ops Ho Hops IH]; [reflexivity|]. cbn [search_run].
    assert (E : fst (search_step new_search o) = new_search); [|rewrite E; exact IH].
    destruct o as [cv e|m e]; cbn [search_step fails] in *.
    - destruct (Ho new_search) as [ex Ex]. pose proof (fit_fails _ _ _ _ Ex) as Ef. destruct (search_fit cv e new_search). exact Ef.
    - unfold M_search.search_call. destruct (supported_modes h size has_method (declares h) root (fun _ => None)) as [ms|]; [|reflexivity]. destruct (mem m ms); reflexivity.
  Qed.

  (** Before a successful fit, no method gives a result. *)
  Theorem no_answer_before_fit ops mode e : Forall fails ops ->
    exists ex, snd (search_call mode e (search_run new_search ops)) = Err ex /\
      (forall ms, supported_modes h size has_method (declares h) root (fun _ : oid => @None (fit_attr V F)) = Ok ms -> In mode ms -> ex = NotFittedError).
  Proof.
    intros Hf. rewrite (never_run ops Hf). unfold M_search.search_call.
    destruct (supported_modes h size has_method (declares h) root (fun _ => None)) as [ms|x]; [|exists x; split; [reflexivity|discriminate]].
    destruct (mem mode ms) eqn:Em.
    - exists NotFittedError. split; [reflexivity|]. intros; reflexivity.
    - exists AttributeError. split; [reflexivity|]. intros ms' E I. injection E as <-. apply mem_false in Em. contradiction.
  Qed.

  (** The estimator is [b], up to what using it stores. *)
  Definition same_est (b b' : est V K F) : Prop :=
    e_heap b' = e_heap b /\ e_size b' = e_size b /\ e_root b' = e_root b /\ e_fitted b' = e_fitted b /\ same_fitted (e_st b) (e_st b').

  Lemma using_keeps b mode e : In mode using_methods -> same_est b (fst (call b mode e)).
  Proof.
    intros Hm. destruct (using_not_fit mode Hm) as (Hf & Hf' & Hr & _). unfold M_search.call.
    pose proof (method_flag ext (e_heap b) (e_size b) has_method (declares (e_heap b)) (e_root b) (e_fitted b) mode e (e_st b) Hf') as Fl.
    pose proof (method_keeps ext (e_heap b) (e_size b) has_method (declares (e_heap b)) (e_root b) (e_fitted b) mode e (e_st b)) as Kp.
    destruct (method ext (e_heap b) (e_size b) has_method (declares (e_heap b)) (e_root b) (e_fitted b) mode e (e_st b)) as [[s flag] r].
    cbn [fst snd] in *. unfold same_est. cbn. repeat split; auto. intros x. destruct (Kp x) as [E|(E & _)]; [exact E|]. rewrite Hr, Hf in E. discriminate.
  Qed.
  Lemma same_est_trans a b c : same_est a b -> same_est b c -> same_est a c.
  Proof. intros (A1 & A2 & A3 & A4 & A5) (B1 & B2 & B3 & B4 & B5). unfold same_est. split; [congruence|]. split; [congruence|]. split; [congruence|]. split; [congruence|]. intros x. rewrite B5. apply A5. Qed.

  Lemma step_keeps sr o b b0 : does_not_refit o -> s_cv_results sr <> None -> s_best sr = Some b -> same_est b0 b ->
    s_cv_results (fst (search_step sr o)) <> None /\ exists b', s_best (fst (search_step sr o)) = Some b' /\ same_est b0 b'.
  Proof.
    intros Ho Hr Hb Hs. destruct o as [cv e|m e]; cbn [search_step does_not_refit] in *.
    - destruct (search_fit cv e sr) as [sr' [[]|ex]] eqn:E; cbn [fst].
      + destruct Ho as [Ho|Ho]; [destruct (Ho sr) as [ex Ex]; rewrite E in Ex; discriminate|].
        destruct (fit_done _ _ _ _ E) as (short & G & gs & x & y & r & best & _ & _ & _ & Ec & Er & Eb). rewrite (Ho _ _ _ _ _ Ec) in Eb. split; [congruence|]. exists b. split; [congruence|exact Hs].
      + pose proof (fit_fails cv e sr ex) as Ff. rewrite E in Ff. cbn in Ff. rewrite (Ff eq_refl). eauto.
    - unfold M_search.search_call. destruct (supported_modes h size has_method (declares h) root (fun _ => None)) as [ms|x]; [|cbn; eauto]. destruct (mem m ms); [|cbn; eauto].
      destruct (s_cv_results sr) as [r|] eqn:Er; [|contradiction]. rewrite Hb. pose proof (using_keeps b m e Ho) as U. destruct (call b m e) as [b' a]. cbn [fst s_best s_cv_results] in *. split; [discriminate|]. exists b'. split; [reflexivity|]. eapply same_est_trans; eauto.
  Qed.
  Lemma run_keeps ops : forall sr b b0, Forall does_not_refit ops -> s_cv_results sr <> None -> s_best sr = Some b -> same_est b0 b ->
    s_cv_results (search_run sr ops) <> None /\ exists b', s_best (search_run sr ops) = Some b' /\ same_est b0 b'.
  Proof.
    induction ops as [|o ops IH]; intros sr b b0 Hf Hr Hb Hs; [cbn; eauto|]. inversion Hf; subst. cbn [search_run].
    destruct (step_keeps sr o b b0) as (Hr' & b' & Hb' & Hs'); auto. eapply IH; eauto.
  Qed.
  Lemma same_est_answer b b' mode e : closed (e_heap b) (e_size b) -> e_root b < e_size b -> acyclic (e_heap b) (e_root b) -> same_est b b' ->
    snd (call b' mode e) = snd (call b mode e).
  Proof.
    intros Hc Hr Ha (E1 & E2 & E3 & E4 & E5). unfold M_search.call. rewrite E1, E2, E3, E4.
    pose proof (method_same ext (e_heap b) (e_size b) has_method (declares (e_heap b)) (e_root b) Hc Hr Ha (e_root b) (e_fitted b) mode e (e_st b) (e_st b') (reach_refl _ _ _) E5) as [M _].
    destruct (method _ _ _ _ _ (e_root b) (e_fitted b) mode e (e_st b')) as [[? ?] ?], (method _ _ _ _ _ (e_root b) (e_fitted b) mode e (e_st b)) as [[? ?] ?]. exact M.
  Qed.

  Lemma refit_good e x y p b : closed h size -> root < size -> acyclic h root -> refit h size root e x y p = Ok b ->
    closed (e_heap b) (e_size b) /\ e_root b < e_size b /\ acyclic (e_heap b) (e_root b).
  Proof.
    intros Hc Hr Ha E. unfold M_search.refit in E.
    destruct (clone h size root false) as [[[ha sa] ra]|] eqn:Ea; cbn [bind] in E; [|discriminate].
    destruct (clone ha sa ra false) as [[[h2 size2] root2]|] eqn:Eb; cbn [bind] in E; [|discriminate].
    destruct (clone_is_clone _ _ _ _ _ _ _ _ _ _ _ Hc Hr Ea) as (f1 & C1). apply clone_copy in C1.
    destruct (clone_is_clone _ _ _ _ _ _ _ _ _ _ _ (co_closed _ _ _ _ _ _ _ _ C1) (co_root_lt _ _ _ _ _ _ _ _ C1) Eb) as (f2 & C2). apply clone_copy in C2.
    destruct (set_params hash_obj h2 size2 root2 p) as [hs|] eqn:Es; cbn [bind] in E; [|discriminate].
    assert (S : same_but_settings h2 hs).
    { unfold set_params in Es. destruct (run_choice_graph _ _ _ _) as [[short g]|]; cbn [bind] in Es; [|discriminate]. clear - Es. revert Es.
      assert (G : forall g0, same_but_settings h2 g0 -> set_numbered short p g0 = Ok hs -> same_but_settings h2 hs); [|apply G; apply same_refl].
      induction p as [|[k q] p IH]; intros g0 S E; cbn [set_numbered] in E; [injection E as <-; exact S|].
      destruct (nth_error short k) as [c|]; [|discriminate]. destruct (set_choice q (g0 c)) as [ob|] eqn:Eo; cbn [bind] in E; [|discriminate].
      eapply IH; [|exact E]. eapply same_trans; [exact S|]. eapply set_same. exact Eo. }
    destruct (supported_modes _ _ _ _ _ _); cbn [bind] in E; [|discriminate]. destruct (evaluate _ _ _ _ _ _ _ _) as [s [v|]]; cbn [bind] in E; [|discriminate]. injection E as <-. cbn.
    split; [eapply settings_closed; [exact S|apply C2]|]. split; [apply C2|eapply settings_acyclic; [exact S|apply C2]].
  Qed.

  (** After a fit that refits, and fits that fail or do not refit, the answers are those of
      the estimator that has been refitted. *)
  Theorem answers_of_last_refit : closed h size -> root < size -> acyclic h root ->
    forall before cv e sr x y gs r p b after mode e2,
    sr = search_run new_search before -> snd (search_fit cv e sr) = Ok tt ->
    (exists short G, choice_graph (hash_obj h) h size root = Ok (short, G) /\ param_grid G = Ok gs) ->
    snd (compute_Xy h size root e) = Ok (x, y) -> cv x y gs = Ok (r, Some p) -> refit h size root e x y p = Ok b ->
    Forall does_not_refit after ->
    (exists ms, supported_modes h size has_method (declares h) root (fun _ : oid => @None (fit_attr V F)) = Ok ms /\ In mode ms) ->
    snd (search_call mode e2 (search_run sr (SFit cv e :: after))) = snd (call b mode e2).
  Proof.
    intros Hc Hr Ha before cv e sr x y gs r p b after mode e2 _ Hok (short & G & Eg & Egs) Exy Ecv Eb Hafter (ms & Em & Im). cbn [search_run search_step].
    destruct (search_fit cv e sr) as [sr' [[]|]] eqn:Ef; [|discriminate]. cbn [fst].
    destruct (fit_done _ _ _ _ Ef) as (short' & G' & gs' & x' & y' & r' & best & E1 & E2 & E3 & E4 & E5 & E6).
    rewrite Eg in E1. injection E1 as <- <-. rewrite Egs in E2. injection E2 as <-. rewrite Exy in E3. injection E3 as <- <-. rewrite Ecv in E4. injection E4 as <- <-.
    destruct E6 as (b' & E6 & E7). rewrite Eb in E6. injection E6 as <-.
    destruct (run_keeps after sr' b b Hafter) as (Hr' & b' & Hb' & Hs'); [congruence|exact E7|repeat split; reflexivity|].
    unfold M_search.search_call. rewrite Em, (proj2 (mem_true _ _) Im). destruct (s_cv_results (search_run sr' after)) as [r0|] eqn:Er; [|contradiction]. rewrite Hb'.
    destruct (refit_good e x y p b Hc Hr Ha Eb) as (G1 & G2 & G3).
    pose proof (same_est_answer b b' mode e2 G1 G2 G3 Hs') as A. destruct (call b' mode e2). exact A.
  Qed.

  (** *** C103 for a search *)
  Theorem search_fit_best : (forall v v', copy v = Ok v' -> v' = v) ->
    closed h size -> root < size -> acyclic h root -> no_conflict h root -> names_free h root -> variables_plain h root ->
    copies_hash copy hash_obj h root -> copies_declare copy declares h root -> L_choicegraph.choices_ok (hash_obj h) h root ->
    (forall o, upstream h root o -> ~ stateful h o) ->
    forall cv e sr sr', (forall x y gs r p, cv x y gs = Ok (r, Some p) -> drawn gs p) ->
    e <> [] -> dget "_skrub_use_var_values" e = None ->
    search_fit cv e sr = (sr', Ok tt) ->
    (exists x y gs r, snd (compute_Xy h size root e) = Ok (x, y) /\ cv x y gs = Ok (r, None)) \/
    exists params b b0 b1, s_best sr' = Some b /\ new_est h size root params = Ok b0 /\ call b0 "fit" e = (b1, Ok TheExpr) /\
      (exists x y gs r, snd (compute_Xy h size root e) = Ok (x, y) /\ cv x y gs = Ok (r, Some params)) /\
      forall mode e2, mode <> "preview" -> dget "_skrub_use_var_values" e2 = None ->
        snd (call b mode e2) = snd (call b1 mode e2).
  Proof.
    intros Hcopy Hc Hr Ha Hn Hf Hp Hh Hd Hok Hst cv e sr sr' Hcv He Hu E.
    destruct (fit_done _ _ _ _ E) as (short & G & gs & x & y & r & best & E1 & E2 & E3 & E4 & E5 & E6).
    destruct best as [p|]; [right|left; eauto 8]. destruct E6 as (b & E6 & E7).
    assert (U : values_unused true h root e "fit_transform") by (intros _; split; [discriminate|]; split; [exact Hu|exact Hp]).
    destruct (best_estimator_spec ext hash_obj has_method declares copy new_seq new_map new_estimator is_none h size root Hcopy Hc Hr Ha Hn Hf Hp Hh Hd Hok e x y G short gs p b He U E3 E1 E2 (Hcv _ _ _ _ _ E4) Hst E6) as (b0 & b1 & B0 & B1 & B2).
    exists p, b, b0, b1. split; [exact E7|]. split; [exact B0|]. split; [exact B1|]. split; [eauto 8|]. intros mode e2 Hm Hu2. apply B2. intros _. split; [|split; [exact Hu2|exact Hp]].
    unfold real_mode. destruct (eqb_of mode "fit"); [discriminate|exact Hm].
  Qed.
End Life.
