(** Estimators do not depend on the identities of objects; what is in a file. *)
From Verif Require Import Base L_dict M_traverse L_traverse M_expr L_expr1 L_expr3 L_expr5 L_expr6 L_expr7 M_clone L_clone L_clone2 M_estimator L_estimator3 M_pickle L_pickle1.
Open Scope string_scope.
Open Scope list_scope.
Open Scope nat_scope.
Set Default Proof Using "Type".

Lemma visit_enough_edge {V K A S} `{EqD K} (handler : oid -> gen A S) (h : heap V K) size size' root s :
  closed h size -> root < size -> size <= size' ->
  (forall o, gen_all (edge h o) (handler o)) ->
  visit handler size' [] root s = visit handler size [] root s.
Proof.
  intros Hc Hr L Hg. apply visit_more; [exact L|]. apply visit_no_fuel_heap; [|exact Hr].
  apply closed_edges with (h := h); assumption.
Qed.

(** What is answered, in order. *)
Section Talk.
  Context {V K F : Type} {HK : EqD K}.
  Variable ext : externals V K F.
  Variable h : heap V K.
  Variable size : nat.
  Variable has_method : F -> string -> bool.
  Variable declares : oid -> string -> bool.
  Fixpoint talk (ops : list (op V)) (w : world V F) : list (res (reply V)) :=
    match ops with
    | [] => []
    | o :: ops' => let (w1, r) := step ext h size has_method declares w o in r :: talk ops' w1
    end.
End Talk.

Section Same.
  Context {V K F : Type} {HK : EqD K}.
  Notation heap := (heap V K).
  Notation st := (st V F).
  Variable ext : externals V K F.
  Variables h h' : heap.
  Variable P : oid -> Prop.
  Variable f : oid -> oid.
  Hypothesis Hinj : forall n m, P n -> P m -> f n = f m -> n = m.
  Hypothesis Hch : forall n c, P n -> In c (children (h' n)) -> P c.
  Hypothesis Hobj : forall n, P n -> h (f n) = obj_map f (fun v => v) (h' n).
  Variables size size' : nat.
  Hypothesis Hclosed : closed h size.
  Hypothesis Hle : size <= size'.
  Hypothesis Hlt : forall n, P n -> f n < size.
  Variable has_method : F -> string -> bool.
  Variables declares declares' : oid -> string -> bool.
  Hypothesis Hdecl : forall n m, P n -> declares' n m = declares (f n) m.

  Notation sr := (sr (V := V) (F := F) P f).

  Lemma visit_eval_rel e mode cb' cb root s' s : cb_rel P f cb' cb -> P root -> sr s' s ->
    orel f sr (visit (eval_handler ext h' e mode cb') size' [] root s') (visit (eval_handler ext h e mode cb) size [] (f root) s).
  Proof using HK Hinj Hch Hobj Hclosed Hle Hlt.
    intros Hcb Hr R.
    rewrite <- (visit_enough_edge (eval_handler ext h e mode cb) h size size' (f root) s Hclosed (Hlt root Hr) Hle (eval_handler_edges ext h e mode cb)).
    apply (visit_grel P f Hinj sr _ _ (eval_grel ext h h' P f Hinj Hch Hobj e mode cb' cb Hcb) size' [] root s' s (Forall_nil _) Hr R).
  Qed.

  Lemma to_res_rel {A} (r' : outcome A) :
    to_res (match r' with TOk v => TOk v | TErr e => TErr e | TCirc t => TCirc (f t) | TFuel => TFuel end) = to_res r'.
  Proof. destruct r'; reflexivity. Qed.

  Lemma evaluate_rel root mode e clear s' s : P root -> sr s' s ->
    sr (fst (evaluate ext h' size' root mode e clear s')) (fst (evaluate ext h size (f root) mode e clear s)) /\
    snd (evaluate ext h size (f root) mode e clear s) = snd (evaluate ext h' size' root mode e clear s').
  Proof using HK Hinj Hch Hobj Hclosed Hle Hlt.
    intros Hr R. unfold evaluate. destruct clear.
    - pose proof (nodes_rel h h' P f Hinj Hch Hobj size size' Hclosed Hle Hlt root Hr) as HN.
      destruct (nodes h' size' root) as [ns|ex].
      + destruct HN as [Hns ->].
        set (m := if eqb_of mode "fit" then "fit_transform" else mode).
        pose proof (visit_eval_rel e m (prune h' size' root m ns) (prune h size (f root) m (map f ns)) root
          (clear_nodes ns m s') (clear_nodes (map f ns) m s)) as HV.
        destruct HV as [H1 H2]; [exact (prune_rel h h' P f Hinj Hch Hobj size size' Hclosed Hle Hlt root m ns Hr Hns)|exact Hr|apply sr_clear; assumption|].
        destruct (visit (eval_handler ext h' e m (prune h' size' root m ns)) size' [] root (clear_nodes ns m s')) as [s2' r'].
        destruct (visit (eval_handler ext h e m (prune h size (f root) m (map f ns))) size [] (f root) (clear_nodes (map f ns) m s)) as [s2 r].
        cbn [fst snd] in *. subst r. rewrite to_res_rel. split; [apply sr_clear; assumption|reflexivity].
      + rewrite HN. split; auto.
    - set (m := if eqb_of mode "fit" then "fit_transform" else mode).
      pose proof (visit_eval_rel e m (fun s => (s, TOk tt)) (fun s => (s, TOk tt)) root s' s) as HV.
      destruct HV as [H1 H2]; [intros a b Hab; split; auto|exact Hr|exact R|].
      destruct (visit (eval_handler ext h' e m (fun s => (s, TOk tt))) size' [] root s') as [s2' r'].
      destruct (visit (eval_handler ext h e m (fun s => (s, TOk tt))) size [] (f root) s) as [s2 r].
      cbn [fst snd] in *. subst r. rewrite to_res_rel. split; auto.
  Qed.

  (** *** Searching *)
  Definition fr (a' a : option oid) : Prop :=
    match a' with Some n => P n /\ a = Some (f n) | None => a = None end.

  Lemma find_with_rel hd' hd root : P root -> (forall n, P n -> grel P f fr (hd' n) (hd (f n))) ->
    (forall o, gen_all (edge h o) (hd o)) ->
    match find_with size' hd' root with
    | Ok (Some n) => P n /\ find_with size hd (f root) = Ok (Some (f n))
    | Ok None => find_with size hd (f root) = Ok None
    | Err ex => find_with size hd (f root) = Err ex
    end.
  Proof using HK Hinj Hclosed Hle Hlt.
    intros Hr Hg He. unfold find_with.
    rewrite <- (visit_enough_edge hd h size size' (f root) None Hclosed (Hlt root Hr) Hle He).
    pose proof (visit_grel P f Hinj fr hd' hd Hg size' [] root None None (Forall_nil _) Hr eq_refl) as [H1 H2]. cbn [map] in *.
    destruct (visit hd' size' [] root None) as [a' r']. destruct (visit hd size' [] (f root) None) as [a r].
    cbn [fst snd] in *. subst r. unfold fr in H1. destruct a' as [n|]; [destruct H1 as [Hn ->]|subst a]; destruct r'; cbn [to_res bind]; auto.
  Qed.

  Lemma first_grel n : P n -> grel P f fr (first_apply_handler h' n) (first_apply_handler h (f n)).
  Proof using Hch Hobj.
    intros Hn. unfold first_apply_handler.
    pose proof (grel_plain h h' P f Hch Hobj fr n (fun _ => GRet tt) (fun _ => GRet tt) Hn (fun _ => grel_ret _ _ _ tt)) as Hy.
    pose proof (Hch n) as Hc.
    rewrite (Hobj n Hn) in *. destruct (h' n) as [[]| | | |name outs ch| | | |] eqn:E; cbn [obj_map impl_map] in *; try exact Hy.
    - constructor; [|constructor]. split; auto.
    - assert (Ho : P outs) by (apply Hc; cbn; auto).
      pose proof (nth_outcome_rel h h' P f Hch Hobj outs (default_or 0 ch) Ho) as HL.
      destruct (nth_outcome h' outs (default_or 0 ch)) as [t|ex].
      + destruct HL as [Ht ->]. constructor; auto. intros v. constructor.
      + rewrite HL. constructor.
  Qed.
  Lemma named_grel name n : P n -> grel P f fr (named_handler h' name n) (named_handler h name (f n)).
  Proof using Hch Hobj.
    intros Hn. unfold named_handler.
    pose proof (grel_plain h h' P f Hch Hobj fr n (fun _ => GRet tt) (fun _ => GRet tt) Hn (fun _ => grel_ret _ _ _ tt)) as Hy.
    rewrite (Hobj n Hn) in *.
    destruct (h' n) as [i [nm|] ? ?| | | |[nm|] ? ?|[nm|] ? ?| | |] eqn:E; cbn [obj_map] in *; try exact Hy;
      (destruct (eqb_of nm name); [constructor; [split; auto|constructor]|exact Hy]).
  Qed.

  Lemma find_edges_first (o : oid) : gen_all (edge h o) (first_apply_handler h o).
  Proof using HK.
    rewrite first_is_find. apply gen_all_find. intros l c E I. eapply use_succ_edge; eauto.
  Qed.
  Lemma find_edges_named name (o : oid) : gen_all (edge h o) (named_handler h name o).
  Proof.
    assert (G : gen_all (edge h o) (yield_all (V := unit) (S := option oid) (children (h o)) (fun _ => GRet tt))).
    { apply gen_all_yield_all; [|intros; exact I]. intros t Ht. left. exact Ht. }
    unfold named_handler. destruct (h o) as [i [nm|] ? ?| | | |[nm|] ? ?|[nm|] ? ?| | |]; try exact G;
      (destruct (eqb_of nm name); [exact I|exact G]).
  Qed.

  Lemma supported_rel root (s' s : st) : P root -> sr s' s ->
    supported_modes h size has_method declares (f root) (fitted s) = supported_modes h' size' has_method declares' root (fitted s').
  Proof using HK Hinj Hch Hobj Hclosed Hle Hlt Hdecl.
    intros Hr R. unfold supported_modes, find_first_apply.
    pose proof (find_with_rel _ _ root Hr first_grel find_edges_first) as HF.
    destruct (find_with size' (first_apply_handler h') root) as [[n|]|ex].
    - destruct HF as [Hn ->]. cbn [bind]. destruct (R n Hn) as (_ & _ & Rf). rewrite Rf.
      f_equal. f_equal. destruct (fitted_with (fitted s (f n))); [reflexivity|].
      apply filter_ext. intros m. symmetry. apply Hdecl. exact Hn.
    - rewrite HF. reflexivity.
    - rewrite HF. reflexivity.
  Qed.

  (** *** Methods *)
  Definition mr {A} (x' x : st * bool * A) : Prop :=
    sr (fst (fst x')) (fst (fst x)) /\ snd (fst x) = snd (fst x') /\ snd x = snd x'.

  Lemma eval_in_mode_rel root flag mode e s' s : P root -> sr s' s ->
    mr (eval_in_mode ext h' size' root flag mode e s') (eval_in_mode ext h size (f root) flag mode e s).
  Proof using HK Hinj Hch Hobj Hclosed Hle Hlt.
    intros Hr R. unfold eval_in_mode. destruct (negb (fitting mode) && negb flag); [repeat split; auto; apply R; assumption|].
    pose proof (evaluate_rel root mode e true (reset s') (reset s) Hr (sr_reset P f _ _ R)) as [H1 H2].
    destruct (evaluate ext h' size' root mode e true (reset s')) as [a' r'].
    destruct (evaluate ext h size (f root) mode e true (reset s)) as [a r]. cbn [fst snd] in *. subst r. split; [exact H1|]. split; reflexivity.
  Qed.
  Lemma getattr_rel root flag mode e s' s : P root -> sr s' s ->
    mr (getattr_call ext h' size' has_method declares' root flag mode e s') (getattr_call ext h size has_method declares (f root) flag mode e s).
  Proof using HK Hinj Hch Hobj Hclosed Hle Hlt Hdecl.
    intros Hr R. unfold getattr_call. rewrite (supported_rel root s' s Hr R).
    destruct (supported_modes h' size' has_method declares' root (fitted s')) as [ms|ex]; [|repeat split; auto; apply R; assumption].
    destruct (mem mode ms); [apply eval_in_mode_rel; assumption|repeat split; auto; apply R; assumption].
  Qed.
  Lemma method_rel root flag mode e s' s : P root -> sr s' s ->
    mr (method ext h' size' has_method declares' root flag mode e s') (method ext h size has_method declares (f root) flag mode e s).
  Proof using HK Hinj Hch Hobj Hclosed Hle Hlt Hdecl.
    intros Hr R. unfold method. destruct (eqb_of mode "fit"); [|apply getattr_rel; assumption].
    pose proof (getattr_rel root flag "fit_transform" e s' s Hr R) as (H1 & H2 & H3).
    destruct (getattr_call ext h' size' has_method declares' root flag "fit_transform" e s') as [[a' b'] r'].
    destruct (getattr_call ext h size has_method declares (f root) flag "fit_transform" e s) as [[a b] r].
    cbn [fst snd] in *. subst b r. destruct r'; (split; [exact H1|split; reflexivity]).
  Qed.
  Lemma report_rel root flag mode e s' s : P root -> sr s' s ->
    mr (report ext h' size' root flag mode e s') (report ext h size (f root) flag mode e s).
  Proof using HK Hinj Hch Hobj Hclosed Hle Hlt.
    intros Hr R. unfold report. destruct (negb (fitting mode) && negb flag); [repeat split; auto; apply R; assumption|].
    pose proof (nodes_rel h h' P f Hinj Hch Hobj size size' Hclosed Hle Hlt root Hr) as HN.
    destruct (nodes h' size' root) as [ns|ex]; [|rewrite HN; repeat split; auto; apply R; assumption].
    destruct HN as [Hns ->].
    pose proof (evaluate_rel root mode e false (clear_nodes ns mode (reset s')) (clear_nodes (map f ns) mode (reset s)) Hr
      (sr_clear P f Hinj ns mode Hns _ _ (sr_reset P f _ _ R))) as [H1 H2].
    destruct (evaluate ext h' size' root mode e false (clear_nodes ns mode (reset s'))) as [a' r'].
    destruct (evaluate ext h size (f root) mode e false (clear_nodes (map f ns) mode (reset s))) as [a r]. cbn [fst snd] in *. subst r.
    split; [apply sr_clear; assumption|]. split; reflexivity.
  Qed.

  (** *** Histories *)
  Definition er (e' e : oid * bool) : Prop := P (fst e') /\ fst e = f (fst e') /\ snd e = snd e'.
  Definition wr (w' w : world V F) : Prop := sr (w_st w') (w_st w) /\ Forall2 er (w_estimators w') (w_estimators w).

  Lemma Forall2_nth l' l i : Forall2 er l' l ->
    match nth_error l' i with
    | Some e' => exists e, nth_error l i = Some e /\ er e' e
    | None => nth_error l i = None
    end.
  Proof.
    intros R. revert i. induction R as [|e' e l' l He R IH]; intros [|i]; simpl; auto; [eauto|]. apply IH.
  Qed.
  Lemma Forall2_set l' l i e' e : Forall2 er l' l -> er e' e -> Forall2 er (set_nth i e' l') (set_nth i e l).
  Proof.
    intros R He. revert i. induction R as [|x' x l' l Hx R IH]; intros [|i]; simpl; constructor; auto.
  Qed.

  Lemma er_length l' l : Forall2 er l' l -> length l' = length l.
  Proof. induction 1; simpl; congruence. Qed.

  Lemma step_rel w' w o : wr w' w ->
    wr (fst (step ext h' size' has_method declares' w' o)) (fst (step ext h size has_method declares w o)) /\
    snd (step ext h size has_method declares w o) = snd (step ext h' size' has_method declares' w' o).
  Proof using HK Hinj Hch Hobj Hclosed Hle Hlt Hdecl.
    intros [R E]. unfold step. set (i := match o with Method i _ _ | Report i _ _ | Sub i _ => i end).
    pose proof (Forall2_nth _ _ i E) as HN. destruct (nth_error (w_estimators w') i) as [[root flag]|].
    - destruct HN as ([root0 flag0] & -> & Hr & E1 & E2). cbn [fst snd] in *. subst root0 flag0.
      destruct o as [j mode e|j mode e|j name].
      + pose proof (method_rel root flag mode e _ _ Hr R) as (H1 & H2 & H3).
        destruct (method ext h' size' has_method declares' root flag mode e (w_st w')) as [[a' b'] r'].
        destruct (method ext h size has_method declares (f root) flag mode e (w_st w)) as [[a b] r].
        cbn [fst snd] in *. subst b r. split; [|reflexivity]. split; [exact H1|]. cbn [w_estimators]. apply Forall2_set; [exact E|repeat split; auto].
      + pose proof (report_rel root flag mode e _ _ Hr R) as (H1 & H2 & H3).
        destruct (report ext h' size' root flag mode e (w_st w')) as [[a' b'] r'].
        destruct (report ext h size (f root) flag mode e (w_st w)) as [[a b] r].
        cbn [fst snd] in *. subst b r. split; [|reflexivity]. split; [exact H1|]. cbn [w_estimators]. apply Forall2_set; [exact E|repeat split; auto].
      + unfold find_node_by_name.
        pose proof (find_with_rel _ _ root Hr (named_grel name) (find_edges_named name)) as HF.
        destruct (find_with size' (named_handler h' name) root) as [[n|]|ex].
        * destruct HF as [Hn ->]. cbn [fst snd]. split.
          -- split; [exact R|]. cbn [w_estimators]. apply Forall2_app; [exact E|]. constructor; [repeat split; auto|constructor].
          -- rewrite (er_length _ _ E). reflexivity.
        * rewrite HF. split; [split; assumption|reflexivity].
        * rewrite HF. split; [split; assumption|reflexivity].
    - rewrite HN. split; [split; assumption|reflexivity].
  Qed.

  Theorem talk_rel ops : forall w' w, wr w' w ->
    talk ext h' size' has_method declares' ops w' = talk ext h size has_method declares ops w.
  Proof using HK Hinj Hch Hobj Hclosed Hle Hlt Hdecl.
    induction ops as [|o ops IH]; intros w' w R; [reflexivity|]. cbn [talk].
    pose proof (step_rel w' w o R) as [H1 H2].
    destruct (step ext h' size' has_method declares' w' o) as [w1' r']. destruct (step ext h size has_method declares w o) as [w1 r].
    cbn [fst snd] in *. subst r. f_equal. apply IH. exact H1.
  Qed.
End Same.
