(** Evaluation does not depend on the identities of objects. *)
From Verif Require Import Base L_dict M_traverse L_traverse M_expr L_expr1 L_expr3 M_clone M_estimator M_pickle.
Open Scope string_scope.
Open Scope list_scope.
Open Scope nat_scope.
Set Default Proof Using "Type".

(** ** More depth changes nothing *)
Section Fuel.
  Context {A S : Type}.
  Variable handler : oid -> gen A S.

  Lemma run_gen_agree (vc vc' : oid -> S -> S * outcome A) path :
    (forall t s, snd (vc t s) <> TFuel -> vc' t s = vc t s) ->
    forall g s, snd (run_gen vc path g s) <> TFuel -> run_gen vc' path g s = run_gen vc path g s.
  Proof.
    intros Hv. induction g as [v|e|t k IH|k IH|s0 g IH]; intros s Hf; cbn [run_gen] in *; auto.
    destruct (mem t path); auto. specialize (Hv t s).
    destruct (vc t s) as [s1 r1] eqn:E. cbn [snd] in Hv.
    destruct r1; try (rewrite Hv by discriminate; auto). exfalso. apply Hf. reflexivity.
  Qed.

  Lemma visit_more d : forall d' path o s, d <= d' -> snd (visit handler d path o s) <> TFuel ->
    visit handler d' path o s = visit handler d path o s.
  Proof.
    induction d as [|d IH]; intros d' path o s L Hf; [exfalso; apply Hf; reflexivity|].
    destruct d' as [|d']; [lia|]. cbn [visit] in *. apply run_gen_agree; [|exact Hf].
    intros t s' Ht. apply IH; [lia|exact Ht].
  Qed.
End Fuel.

Lemma visit_enough {V K A S} `{EqD K} (handler : oid -> gen A S) (h : heap V K) size size' root s :
  closed h size -> root < size -> size <= size' ->
  (forall o, gen_all (child h o) (handler o)) ->
  visit handler size' [] root s = visit handler size [] root s.
Proof.
  intros Hc Hr L Hg. apply visit_more; [exact L|]. apply visit_no_fuel_heap; [|exact Hr].
  apply closed_handler with (h := h); assumption.
Qed.

(** ** Related generators *)
Section Grel.
  Variable P : oid -> Prop.
  Variable f : oid -> oid.
  Hypothesis Hinj : forall n m, P n -> P m -> f n = f m -> n = m.

  Lemma mem_f t l : P t -> Forall P l -> mem (f t) (map f l) = mem t l.
  Proof using Hinj.
    intros Ht Hl. rewrite Forall_forall in Hl. destruct (mem t l) eqn:E.
    - apply mem_true in E. apply mem_true. apply in_map. exact E.
    - apply mem_false in E. apply mem_false. intros I. apply in_map_iff in I. destruct I as (x & Ex & Ix).
      apply E. rewrite <- (Hinj x t); auto.
  Qed.

  Section One.
    Context {A S : Type}.
    Variable SR : S -> S -> Prop.

    Inductive grel : gen A S -> gen A S -> Prop :=
    | grel_ret v : grel (GRet v) (GRet v)
    | grel_raise e : grel (GRaise e) (GRaise e)
    | grel_yield t k' k : P t -> (forall v, grel (k' v) (k v)) -> grel (GYield t k') (GYield (f t) k)
    | grel_get k' k : (forall s' s, SR s' s -> grel (k' s') (k s)) -> grel (GGet k') (GGet k)
    | grel_put s' s g' g : SR s' s -> grel g' g -> grel (GPut s' g') (GPut s g).

    Definition orel (x' x : S * outcome A) : Prop :=
      SR (fst x') (fst x) /\
      snd x = match snd x' with TOk v => TOk v | TErr e => TErr e | TCirc t => TCirc (f t) | TFuel => TFuel end.

    Lemma run_grel vc' vc path : Forall P path ->
      (forall t s' s, P t -> SR s' s -> orel (vc' t s') (vc (f t) s)) ->
      forall g' g, grel g' g -> forall s' s, SR s' s ->
      orel (run_gen vc' path g' s') (run_gen vc (map f path) g s).
    Proof using Hinj.
      intros Hp Hv g' g R. induction R as [v|e|t k' k Ht Rk IH|k' k Rk IH|s1' s1 g' g Hs Rg IH]; intros s' s HS; cbn [run_gen].
      - split; auto.
      - split; auto.
      - rewrite mem_f by assumption. destruct (mem t path); [split; auto|].
        specialize (Hv t s' s Ht HS). destruct (vc' t s') as [a' r'], (vc (f t) s) as [a r].
        destruct Hv as [H1 H2]. cbn [fst snd] in *. subst r. destruct r'; [apply IH; exact H1|split; auto..].
      - apply IH; auto.
      - apply IH; auto.
    Qed.

    Variables hd' hd : oid -> gen A S.
    Hypothesis Hh : forall n, P n -> grel (hd' n) (hd (f n)).

    Lemma visit_grel d : forall path o s' s, Forall P path -> P o -> SR s' s ->
      orel (visit hd' d path o s') (visit hd d (map f path) (f o) s).
    Proof using Hinj Hh.
      induction d as [|d IH]; intros path o s' s Hp Ho HS; cbn [visit].
      - split; auto.
      - change (f o :: map f path) with (map f (o :: path)). apply run_grel; auto.
    Qed.

    Lemma grel_yield_all : forall items k' k, Forall P items -> (forall vs, grel (k' vs) (k vs)) ->
      grel (yield_all items k') (yield_all (map f items) k).
    Proof.
      induction items as [|t items IH]; intros k' k Hi Hk; cbn [yield_all map]; [apply Hk|].
      inversion Hi; subst. constructor; [assumption|]. intros v. apply IH; auto.
    Qed.
    Lemma grel_of (r : res A) : grel (gen_of r) (gen_of r).
    Proof. destruct r; constructor. Qed.
  End One.
End Grel.

(** ** Handlers *)
Section Handlers.
  Context {V K F : Type} {HK : EqD K}.
  Notation heap := (heap V K).
  Notation obj := (obj V K).
  Notation st := (st V F).
  Variable ext : externals V K F.
  Variables h h' : heap.
  Variable P : oid -> Prop.
  Variable f : oid -> oid.
  Hypothesis Hinj : forall n m, P n -> P m -> f n = f m -> n = m.
  Hypothesis Hch : forall n c, P n -> In c (children (h' n)) -> P c.
  Hypothesis Hobj : forall n, P n -> h (f n) = obj_map f (fun v => v) (h' n).

  Lemma fields_map i : fields (impl_map f i) = map (fun nf => (fst nf, f (snd nf))) (fields i).
  Proof. destruct i as [[|]| | |? ? [|]| | | | |]; reflexivity. Qed.
  Lemma children_map g (ob : obj) : children (obj_map f g ob) = map f (children ob).
  Proof.
    destruct ob; cbn [obj_map children]; try reflexivity.
    - rewrite fields_map, !map_map. reflexivity.
    - rewrite !map_map. reflexivity.
  Qed.
  Lemma fields_for_eval_map i mode :
    fields_for_eval (impl_map f i) mode = map (fun nf => (fst nf, f (snd nf))) (fields_for_eval i mode).
  Proof.
    destruct i as [[|]| | |? ? [|]| | | | |]; try reflexivity; cbn [impl_map fields_for_eval].
    - destruct (fit_mode mode); reflexivity.
    - destruct (fit_mode mode), (eqb_of mode "score"), unsupervised; reflexivity.
  Qed.
  Lemma fields_for_eval_in i mode c : In c (map snd (fields_for_eval i mode)) -> In c (map snd (fields i)).
  Proof.
    intros Hi. apply in_map_iff in Hi. destruct Hi as ([nm c'] & <- & Hi). apply in_map_iff. exists (nm, c'). split; [reflexivity|].
    destruct i; cbn [fields_for_eval] in Hi; try exact Hi.
    - destruct (fit_mode mode); [exact Hi|destruct Hi].
    - destruct (fit_mode mode).
      + destruct unsupervised; cbn [negb] in Hi; [apply filter_In in Hi; apply Hi|exact Hi].
      + destruct (eqb_of mode "score"); simpl in Hi |- *; intuition.
  Qed.

  Lemma P_children n : P n -> Forall P (children (h' n)).
  Proof using Hch. intros Hn. apply Forall_forall. intros c. apply Hch. exact Hn. Qed.

  Definition sr (s' s : st) : Prop := forall n, P n ->
    (forall m, results s' n m = results s (f n) m) /\ (forall m, errors s' n m = errors s (f n) m) /\
    fitted s' n = fitted s (f n).

  Lemma eqd_f {A} n o (a b : A) : P n -> P o -> (if eqd (f n) (f o) then a else b) = (if eqd n o then a else b).
  Proof using Hinj.
    intros Hn Ho. destruct (eqd (f n) (f o)) as [E|E]; destruct (eqd n o) as [E'|E']; auto; exfalso; [apply E'; auto|apply E; congruence].
  Qed.
  Lemma sr_set_result s' s o m v : P o -> sr s' s -> sr (set_result s' o m v) (set_result s (f o) m v).
  Proof using Hinj.
    intros Ho R n Hn. destruct (R n Hn) as (A & B & C). unfold set_result. cbn [results errors fitted]. split; [|auto].
    intros m'. unfold upd2. rewrite eqd_f by assumption. destruct (eqd n o); [destruct (eqd m' m); auto|auto].
  Qed.
  Lemma sr_set_error s' s o m v : P o -> sr s' s -> sr (set_error s' o m v) (set_error s (f o) m v).
  Proof using Hinj.
    intros Ho R n Hn. destruct (R n Hn) as (A & B & C). unfold set_error. cbn [results errors fitted]. split; [auto|]. split; [|auto].
    intros m'. unfold upd2. rewrite eqd_f by assumption. destruct (eqd n o); [destruct (eqd m' m); auto|auto].
  Qed.
  Lemma sr_set_fitted s' s o v : P o -> sr s' s -> sr (set_fitted s' o v) (set_fitted s (f o) v).
  Proof using Hinj.
    intros Ho R n Hn. destruct (R n Hn) as (A & B & C). unfold set_fitted. cbn [results errors fitted]. split; [auto|]. split; [auto|].
    unfold upd. rewrite eqd_f by assumption. destruct (eqd n o); auto.
  Qed.
  Lemma sr_log s' s o : sr s' s -> sr (log s' o) (log s (f o)).
  Proof. intros R n Hn. exact (R n Hn). Qed.
  Lemma sr_reset s' s : sr s' s -> sr (reset s') (reset s).
  Proof. intros R n Hn. exact (R n Hn). Qed.
  Lemma sr_clear ns mode : Forall P ns -> forall s' s, sr s' s -> sr (clear_nodes ns mode s') (clear_nodes (map f ns) mode s).
  Proof using Hinj.
    unfold clear_nodes. induction ns as [|n ns IH]; intros Hns s' s R; [exact R|].
    inversion Hns; subst. cbn [fold_left map]. apply IH; auto. apply sr_set_error; auto. apply sr_set_result; auto.
  Qed.

  (** *** Nodes *)
  Definition lr (l' l : list oid) : Prop := Forall P l' /\ l = map f l'.
  Lemma lr_add o l' l : P o -> lr l' l -> lr (if mem o l' then l' else l' ++ [o]) (if mem (f o) l then l else l ++ [f o]).
  Proof using Hinj.
    intros Ho [Hl ->]. rewrite (mem_f P f Hinj) by assumption. destruct (mem o l'); split; auto.
    - apply Forall_app. auto.
    - rewrite map_app. reflexivity.
  Qed.

  Lemma grel_plain {S} (SR : S -> S -> Prop) n k' k : P n -> (forall vs, grel P f SR (k' vs) (k vs)) ->
    grel P f SR (yield_all (V := unit) (children (h' n)) k') (yield_all (children (h (f n))) k).
  Proof using Hch Hobj.
    intros Hn Hk. rewrite (Hobj n Hn), children_map. apply grel_yield_all; [apply P_children; exact Hn|exact Hk].
  Qed.

  Lemma reach_grel mode (res' res : oid -> string -> option V) : (forall n, P n -> res' n mode = res (f n) mode) ->
    forall n, P n -> grel P f lr (reach_handler h' mode res' n) (reach_handler h mode res (f n)).
  Proof using Hinj Hch Hobj.
    intros Hr n Hn. unfold reach_handler.
    pose proof (grel_plain lr n (fun _ => GRet tt) (fun _ => GRet tt) Hn (fun _ => grel_ret _ _ _ tt)) as Hy.
    rewrite (Hobj n Hn) in *. destruct (h' n) eqn:E; cbn [obj_map] in *; try exact Hy.
    constructor. intros s' s R. constructor; [apply lr_add; assumption|].
    rewrite <- (Hr n Hn). destruct (res' n mode); [constructor|exact Hy].
  Qed.

  Definition gr (s' s : graph_st) : Prop := lr (g_nodes s') (g_nodes s).
  Lemma graph_grel n : P n -> grel P f gr (graph_handler h' n) (graph_handler h (f n)).
  Proof using Hinj Hch Hobj.
    intros Hn. unfold graph_handler.
    pose proof (fun k' k => grel_plain gr n k' k Hn) as Hy.
    rewrite (Hobj n Hn) in *. destruct (h' n) eqn:E; cbn [obj_map] in *; try (apply Hy; intros; constructor).
    constructor. intros s' s R. constructor.
    - destruct (g_current s'), (g_current s); exact R.
    - apply Hy. intros _. constructor. intros s2' s2 R2. constructor; [|constructor].
      unfold gr. cbn [g_nodes]. apply lr_add; assumption.
  Qed.

  Variables size size' : nat.
  Hypothesis Hclosed : closed h size.
  Hypothesis Hle : size <= size'.
  Hypothesis Hlt : forall n, P n -> f n < size.

  Lemma nodes_rel root : P root ->
    match nodes h' size' root with
    | Ok ns => Forall P ns /\ nodes h size (f root) = Ok (map f ns)
    | Err ex => nodes h size (f root) = Err ex
    end.
  Proof using HK Hinj Hch Hobj Hclosed Hle Hlt.
    intros Hr. unfold nodes, run_graph.
    rewrite <- (visit_enough (graph_handler h) h size size' (f root) graph_init Hclosed (Hlt root Hr) Hle (graph_handler_edges h)).
    pose proof (visit_grel P f Hinj gr (graph_handler h') (graph_handler h) graph_grel size' [] root graph_init graph_init
      (Forall_nil _) Hr) as HV. cbn [map] in HV.
    destruct HV as [H1 H2]; [split; [constructor|reflexivity]|].
    destruct (visit (graph_handler h') size' [] root graph_init) as [s' r'].
    destruct (visit (graph_handler h) size' [] (f root) graph_init) as [s r]. cbn [fst snd] in *. subst r.
    destruct r'; cbn [to_res bind]; auto. destruct H1 as [H1 ->]. auto.
  Qed.

  Definition urel (x' x : st * outcome unit) : Prop :=
    sr (fst x') (fst x) /\
    snd x = match snd x' with TOk v => TOk v | TErr e => TErr e | TCirc t => TCirc (f t) | TFuel => TFuel end.

  Lemma prune_rel root mode ns : P root -> Forall P ns -> forall s' s, sr s' s ->
    urel (prune h' size' root mode ns s') (prune h size (f root) mode (map f ns) s).
  Proof using HK Hinj Hch Hobj Hclosed Hle Hlt.
    intros Hr Hns s' s R. unfold prune.
    rewrite <- (visit_enough (reach_handler h mode (results s)) h size size' (f root) [] Hclosed (Hlt root Hr) Hle
                  (reach_handler_edges h mode (results s))).
    pose proof (visit_grel P f Hinj lr (reach_handler h' mode (results s')) (reach_handler h mode (results s))
      (reach_grel mode (results s') (results s) (fun n Hn => proj1 (R n Hn) mode)) size' [] root [] [] (Forall_nil _) Hr) as HV. cbn [map] in HV.
    destruct HV as [H1 H2]; [split; [constructor|reflexivity]|].
    destruct (visit (reach_handler h' mode (results s')) size' [] root []) as [l' r'].
    destruct (visit (reach_handler h mode (results s)) size' [] (f root) []) as [l r]. cbn [fst snd] in *. subst r.
    destruct r'; split; cbn [fst snd]; auto.
    destruct H1 as [H1 ->]. clear Hr. revert s' s R. induction ns as [|n ns IH]; intros s' s R; [exact R|].
    inversion Hns; subst. cbn [fold_left map]. apply IH; [assumption|].
    rewrite (mem_f P f Hinj) by assumption. destruct (mem n l'); [exact R|]. apply sr_set_result; assumption.
  Qed.

  (** *** Evaluation *)
  Lemma nth_outcome_rel outs idx : P outs ->
    match nth_outcome h' outs idx with
    | Ok t => P t /\ nth_outcome h (f outs) idx = Ok (f t)
    | Err ex => nth_outcome h (f outs) idx = Err ex
    end.
  Proof using Hch Hobj.
    intros Ho. unfold nth_outcome. rewrite (Hobj outs Ho). pose proof (Hch outs) as Hc.
    destruct (h' outs) as [| |ty items| | | | | |]; cbn [obj_map]; auto.
    rewrite nth_error_map. destruct (nth_error items idx) eqn:E; cbn [option_map]; auto.
    split; auto. apply Hc; [exact Ho|]. cbn [children]. eapply nth_error_In. exact E.
  Qed.
  Lemma dget_map_snd (items : list (K * oid)) key :
    dget key (map (fun kv => (fst kv, f (snd kv))) items) = option_map f (dget key items).
  Proof. induction items as [|[k o] items IH]; [reflexivity|]. cbn [map dget fst snd]. destruct (eqd key k); auto. Qed.
  Lemma map_lookup_rel m key : P m ->
    match map_lookup h' m key with
    | Ok (Some t) => P t /\ map_lookup h (f m) key = Ok (Some (f t))
    | Ok None => map_lookup h (f m) key = Ok None
    | Err ex => map_lookup h (f m) key = Err ex
    end.
  Proof using Hch Hobj.
    intros Hm. unfold map_lookup. rewrite (Hobj m Hm). pose proof (Hch m) as Hc.
    destruct (h' m) as [|ty items| | | | | | |]; cbn [obj_map]; auto.
    rewrite dget_map_snd. destruct (dget key items) as [t|] eqn:E; cbn [option_map]; auto.
    split; auto. apply Hc; [exact Hm|]. cbn [children]. apply dget_In_weak in E. change t with (snd (key, t)). apply in_map. exact E.
  Qed.

  Notation gv := (grel (A := V) P f sr).

  Lemma compute_rel e mode n i name args s' s : P n -> h' n = OExpr i name (match h' n with OExpr _ _ x _ => x | _ => false end) (match h' n with OExpr _ _ _ y => y | _ => false end) ->
    sr s' s ->
    compute ext e mode h (fitted s) (f n) (impl_map f i) name args = compute ext e mode h' (fitted s') n i name args.
  Proof using Hch Hobj.
    intros Hn Eh R. destruct (R n Hn) as (_ & _ & Rn). 
    destruct i; cbn [impl_map compute]; try reflexivity; try (rewrite Rn; reflexivity).
    assert (Ht : P target). { apply (Hch n); [exact Hn|]. rewrite Eh. cbn. auto. }
    destruct (R target Ht) as (_ & _ & Rt). rewrite (Hobj target Ht), <- Rt.
    destruct (h' target) as [[]| | | | | | | |]; reflexivity.
  Qed.

  Lemma eval_impl_grel e mode n i name isX isY k' k : P n -> h' n = OExpr i name isX isY -> (forall v, gv (k' v) (k v)) ->
    gv (eval_impl ext h' e mode n i name k') (eval_impl ext h e mode (f n) (impl_map f i) name k).
  Proof using Hinj Hch Hobj.
    intros Hn Eh Hk.
    assert (Hc : forall c, In c (map snd (fields i)) -> P c). { intros c Hin. apply (Hch n); [exact Hn|]. rewrite Eh. exact Hin. }
    assert (Hplain : gv (yield_all (map snd (fields_for_eval i mode)) (fun vs => compute_result ext h' e mode n i name (combine (map fst (fields_for_eval i mode)) vs) k'))
                        (yield_all (map snd (fields_for_eval (impl_map f i) mode)) (fun vs => compute_result ext h e mode (f n) (impl_map f i) name (combine (map fst (fields_for_eval (impl_map f i) mode)) vs) k))).
    { rewrite fields_for_eval_map. rewrite !map_map. cbn [fst snd].
      rewrite <- (map_map snd f). apply grel_yield_all.
      - apply Forall_forall. intros c Hin. apply Hc. eapply fields_for_eval_in. exact Hin.
      - intros vs. unfold compute_result. constructor. intros s' s R.
        assert (Eh2 : h' n = OExpr i name (match h' n with OExpr _ _ x _ => x | _ => false end) (match h' n with OExpr _ _ _ y => y | _ => false end)) by (rewrite Eh; reflexivity).
        rewrite (compute_rel e mode n i name _ s' s Hn Eh2 R).
        destruct (compute ext e mode h' (fitted s') n i name _) as [[v [a|]]|ex].
        + constructor; [apply sr_set_fitted; assumption|apply Hk].
        + apply Hk.
        + assert (Ef : forall a, fitted_on_error ext mode (impl_map f i) (combine (map fst (fields_for_eval i mode)) vs) a = fitted_on_error ext mode i (combine (map fst (fields_for_eval i mode)) vs) a).
          { intros a. destruct i; reflexivity. }
          rewrite Ef. destruct (R n Hn) as (_ & _ & Rn). rewrite <- Rn.
          constructor; [|constructor]. apply sr_set_error; [assumption|]. apply sr_set_fitted; assumption. }
    destruct i as [| |c t e0|q t d| | | | |]; try exact Hplain.
    - cbn [eval_impl impl_map]. constructor; [apply Hc; cbn; auto|]. intros cv.
      destruct (truthy ext cv) as [[|]|ex]; constructor; auto; apply Hc; cbn; auto.
    - cbn [eval_impl impl_map]. constructor; [apply Hc; destruct d; cbn; auto|]. intros qv.
      destruct (key_of ext qv) as [key|ex]; cbn [bind]; [|constructor].
      assert (Ht : P t) by (apply Hc; destruct d; cbn; auto).
      pose proof (map_lookup_rel t key Ht) as HL.
      destruct (map_lookup h' t key) as [[x|]|ex].
      + destruct HL as [Hx ->]. constructor; auto.
      + rewrite HL. destruct d as [d|]; cbn [option_map]; constructor; auto. apply Hc. cbn; auto.
      + rewrite HL. constructor.
  Qed.

  Definition cb_rel (cb' cb : st -> st * outcome unit) : Prop := forall s' s, sr s' s -> urel (cb' s') (cb s).

  Lemma eval_grel e mode cb' cb : cb_rel cb' cb -> forall n, P n ->
    gv (eval_handler ext h' e mode cb' n) (eval_handler ext h e mode cb (f n)).
  Proof using Hinj Hch Hobj.
    intros Hcb n Hn. unfold eval_handler. rewrite (Hobj n Hn).
    pose proof (Hch n) as Hc. destruct (h' n) as [i name isX isY|ty items|ty items|a b c|name outs ch|name df ch|c m|cls p|v] eqn:Eh; cbn [obj_map].
    - constructor. intros s' s R.
      assert (Ef : fetch e mode s (f n) (impl_map f i) name isX isY = fetch e mode s' n i name isX isY).
      { unfold fetch, fetch_env. destruct (R n Hn) as (Rr & _ & _). rewrite Rr. destruct i; reflexivity. }
      rewrite Ef. destruct (fetch e mode s' n i name isX isY) as [v|]; [constructor|].
      constructor; [apply sr_log; exact R|]. eapply eval_impl_grel; [exact Hn|exact Eh|].
      intros v. constructor. intros s1' s1 R1.
      pose proof (Hcb _ _ (sr_set_result s1' s1 n mode (Some v) Hn R1)) as [H1 H2].
      destruct (cb' (set_result s1' n mode (Some v))) as [a' r'], (cb (set_result s1 (f n) mode (Some v))) as [a r].
      cbn [fst snd] in *. subst r. destruct r'; (constructor; [exact H1|constructor]).
    - cbn [eval_container]. rewrite !map_map. cbn [fst snd]. rewrite <- (map_map snd f). apply grel_yield_all.
      + apply Forall_forall. intros x Hx. apply Hc; [exact Hn|]. exact Hx.
      + intros vs. apply grel_of.
    - cbn [eval_container]. apply grel_yield_all; [|intros vs; apply grel_of].
      apply Forall_forall. intros x Hx. apply Hc; [exact Hn|]. exact Hx.
    - cbn [eval_container]. constructor; [apply Hc; cbn; auto|]. intros x. constructor; [apply Hc; cbn; auto|].
      intros y. constructor; [apply Hc; cbn; auto|]. intros z. constructor.
    - cbn [eval_choice]. destruct (name_in_env e name); [constructor|].
      assert (Ho : P outs) by (apply Hc; cbn; auto).
      destruct (eqb_of mode "preview").
      + pose proof (nth_outcome_rel outs 0 Ho) as HL. unfold yield_res. destruct (nth_outcome h' outs 0) as [t|ex].
        * destruct HL as [Ht ->]. constructor; auto. intros v. constructor.
        * rewrite HL. constructor.
      + pose proof (nth_outcome_rel outs (default_or 0 ch) Ho) as HL. unfold yield_res. destruct (nth_outcome h' outs (default_or 0 ch)) as [t|ex].
        * destruct HL as [Ht ->]. constructor; auto. intros v. constructor.
        * rewrite HL. constructor.
    - cbn [eval_choice]. destruct (name_in_env e name); [constructor|].
      destruct (eqb_of mode "preview"); [constructor|]. destruct ch; constructor.
    - unfold eval_choice_match. constructor; [apply Hc; cbn; auto|]. intros o.
      destruct (key_of ext o) as [key|ex]; cbn [bind]; [|constructor].
      assert (Hm : P m) by (apply Hc; cbn; auto). pose proof (map_lookup_rel m key Hm) as HL.
      destruct (map_lookup h' m key) as [[x|]|ex].
      + destruct HL as [Hx ->]. constructor; auto. intros v. constructor.
      + rewrite HL. constructor.
      + rewrite HL. constructor.
    - cbn [eval_container]. constructor; [apply Hc; cbn; auto|]. intros v. apply grel_of.
    - cbn [eval_container]. constructor.
  Qed.
End Handlers.
