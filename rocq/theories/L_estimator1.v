(** What an evaluation does to the fitted attributes of the nodes. *)
From Verif Require Import Base M_traverse L_traverse M_expr L_expr1 L_expr2 L_expr3 L_expr4
  L_expr5 L_expr6 L_expr7.
Open Scope string_scope.
Open Scope list_scope.
Open Scope nat_scope.

(** ** States related by the writes of a traversal *)
Section Rel.
  Context {V S : Type}.
  Variable R : S -> S -> Prop.
  Hypothesis Rrefl : forall s, R s s.
  Hypothesis Rtrans : forall a b c, R a b -> R b c -> R a c.

  (** Every write of the generator started in state [s] is allowed by [R]. *)
  Fixpoint puts (g : gen V S) (s : S) : Prop :=
    match g with
    | GRet _ | GRaise _ => True
    | GYield _ k => forall v s', R s s' -> puts (k v) s'
    | GGet k => puts (k s) s
    | GPut s' g' => R s s' /\ puts g' s'
    end.

  Lemma puts_yield_all : forall items k s,
    (forall vs s', R s s' -> puts (k vs) s') -> puts (yield_all items k) s.
  Proof.
    induction items as [|t items IH]; intros k s Hk; cbn [yield_all puts]; [apply Hk, Rrefl|].
    intros v s' Hs. apply IH. intros vs s'' Hs'. apply Hk. eapply Rtrans; eauto.
  Qed.

  Lemma run_gen_rel vc path (Hvc : forall t s, R s (fst (vc t s))) :
    forall g s, puts g s -> R s (fst (run_gen vc path g s)).
  Proof.
    induction g as [v|ex|t k IH|k IH|s' g IH]; intros s Hp; cbn [run_gen]; try apply Rrefl.
    - destruct (mem t path); [apply Rrefl|]. pose proof (Hvc t s) as Hs.
      destruct (vc t s) as [s1 [v|ex|t'|]]; cbn [fst] in *; auto.
      eapply Rtrans; [exact Hs|]. apply IH. apply Hp. exact Hs.
    - apply IH. exact Hp.
    - destruct Hp as [Hs Hp]. eapply Rtrans; [exact Hs|]. apply IH. exact Hp.
  Qed.

  Lemma visit_rel (handler : oid -> gen V S) (Hh : forall o s, puts (handler o) s) :
    forall d path o s, R s (fst (visit handler d path o s)).
  Proof.
    induction d as [|d IH]; intros path o s; cbn [visit]; [apply Rrefl|].
    apply run_gen_rel; [intros; apply IH|apply Hh].
  Qed.
End Rel.

Section Fitted.
  Context {V K F : Type} `{EqD K}.
  Notation heap := (heap V K).
  Notation st := (st V F).
  Variable ext : externals V K F.
  Variable h : heap.
  Variable e : env V.
  Variable mode : string.
  Variable cb : st -> st * outcome unit.

  (** ** Specification: nodes that remember something of a fit *)
  Definition stateful (o : oid) : Prop :=
    match h o with
    | OExpr (IFreeze _) _ _ _ | OExpr (IApply _ _ _ _ _ _ _) _ _ _ | OExpr (IConcat _ _) _ _ _ => True
    | _ => False
    end.

  Hypothesis Hcb : forall s, fitted (fst (cb s)) = fitted s /\ trace (fst (cb s)) = trace s.

  (** What an evaluation may do: fitted attributes only change in stateful nodes that it
      computes, and only in a fitting mode. *)
  Definition keeps (s s' : st) : Prop :=
    incl (trace s) (trace s') /\
    forall x, fitted s' x = fitted s x \/
      (fit_mode mode = true /\ stateful x /\ In x (trace s')).

  Lemma keeps_refl s : keeps s s.
  Proof. split; [apply incl_refl|auto]. Qed.
  Lemma keeps_trans a b c : keeps a b -> keeps b c -> keeps a c.
  Proof.
    intros [H1 H2] [H3 H4]. split; [eapply incl_tran; eauto|].
    intros x. destruct (H4 x) as [E4|E4]; [|auto]. destruct (H2 x) as [E2|(Hm & Hs & Hi)].
    - left. congruence.
    - right. auto.
  Qed.

  Lemma puts_store o v (s : st) : puts keeps (store_k mode cb o v) s.
  Proof.
    unfold store_k. cbn [puts].
    destruct (Hcb (set_result s o mode (Some v))) as [Hf Ht].
    assert (Hk : keeps s (fst (cb (set_result s o mode (Some v))))).
    { split; [rewrite Ht; apply incl_refl|]. intros x. left. rewrite Hf. reflexivity. }
    destruct (cb _) as [s2 [u|ex|t|]]; cbn [puts fst] in *; auto.
  Qed.

  Lemma puts_compute i name isX isY o args (s : st) :
    h o = OExpr i name isX isY -> In o (trace s) ->
    puts keeps (compute_result ext h e mode o i name args (store_k mode cb o)) s.
  Proof.
    intros Eh Hin. unfold compute_result. cbn [puts].
    assert (Hset : forall f, (f = fitted s o \/ fit_mode mode = true /\ stateful o) ->
              keeps s (set_fitted s o f)).
    { intros f Hf. split; [apply incl_refl|]. intros x. cbn [fitted set_fitted trace]. unfold upd.
      destruct (eqd x o) as [->|]; [|auto]. destruct Hf as [->|[Hm Hs]]; auto. }
    destruct (compute ext e mode h (fitted s) o i name args) as [[v [f|]]|ex] eqn:Ec.
    - cbn [puts]. split; [|apply puts_store]. apply Hset. right.
      unfold stateful. rewrite Eh.
      unfold compute in Ec. destruct i; try discriminate Ec.
      + destruct (compute_var _ _ _ _ _); discriminate Ec.
      + destruct (dget "value" args); discriminate Ec.
      + destruct (fit_mode mode); [auto|]. destruct (fitted s o) as [[?|?]|]; discriminate Ec.
      + destruct (fit_mode mode); [auto|]. destruct (apply_use _ _ _ _); discriminate Ec.
      + destruct (h target) as [[]| | | | | | | |]; try discriminate Ec.
        destruct (fitted_with _); discriminate Ec.
      + destruct (fit_mode mode); [auto|]. destruct (concat_use _ _ _); discriminate Ec.
      + destruct (op_sem _ _ _ _); discriminate Ec.
    - apply puts_store.
    - cbn [puts]. split; [|exact I]. apply Hset.
      unfold fitted_on_error. destruct i; auto. destruct (fit_mode mode) eqn:Em; [|auto].
      right. unfold stateful. rewrite Eh. auto.
  Qed.

  Lemma puts_impl i name isX isY o (s : st) :
    h o = OExpr i name isX isY -> In o (trace s) ->
    puts keeps (eval_impl ext h e mode o i name (store_k mode cb o)) s.
  Proof.
    intros Eh Hin. unfold eval_impl.
    assert (Hdef : puts keeps (yield_all (map snd (fields_for_eval i mode)) (fun vs =>
        compute_result ext h e mode o i name (combine (map fst (fields_for_eval i mode)) vs)
          (store_k mode cb o))) s).
    { apply puts_yield_all; [apply keeps_refl|apply keeps_trans|].
      intros vs s' [Hi _]. eapply puts_compute; eauto. }
    destruct i as [value|value|cnd it fa|q tg default|tgt|X est y cols how allow unsup|tgt|fi ot|op fs];
      try exact Hdef.
    - cbn [puts]. intros cv s' _. destruct (truthy ext cv) as [[|]|]; cbn [puts]; auto;
        intros; apply puts_store.
    - cbn [puts]. intros qv s' _.
      destruct (let! key := key_of ext qv in map_lookup h tg key) as [[t|]|]; cbn [puts]; auto.
      + intros. apply puts_store.
      + destruct default; cbn [puts]; auto. intros. apply puts_store.
  Qed.

  Lemma puts_of (r : res V) (s : st) : puts keeps (gen_of r) s.
  Proof. destruct r; exact I. Qed.

  Lemma puts_handler o s : puts keeps (eval_handler ext h e mode cb o) s.
  Proof.
    unfold eval_handler. destruct (h o) as
      [i name isX isY|ty items|ty items|a b c|name outs ch|name df ch|c m|cls p|v] eqn:Eh.
    - cbn [puts]. destruct (fetch e mode s o i name isX isY); [exact I|]. cbn [puts].
      split.
      + split; [intros x Hx; right; exact Hx|auto].
      + eapply puts_impl; [exact Eh|left; reflexivity].
    - unfold eval_container. apply puts_yield_all; [apply keeps_refl|apply keeps_trans|].
      intros. apply puts_of.
    - unfold eval_container. apply puts_yield_all; [apply keeps_refl|apply keeps_trans|].
      intros. apply puts_of.
    - cbn. auto.
    - unfold eval_choice. destruct (name_in_env e name); [exact I|].
      destruct (eqb_of mode "preview"); unfold yield_res; destruct (nth_outcome _ _ _); cbn; auto.
    - unfold eval_choice. destruct (name_in_env e name); [exact I|].
      destruct (eqb_of mode "preview"); exact I.
    - unfold eval_choice_match. cbn [puts]. intros v s' _.
      destruct (let! key := key_of ext v in map_lookup h m key) as [[t|]|]; cbn; auto.
    - cbn [eval_container puts]. intros. apply puts_of.
    - exact I.
  Qed.

  Lemma visit_keeps d path o s : keeps s (fst (visit (eval_handler ext h e mode cb) d path o s)).
  Proof. apply visit_rel; [apply keeps_refl|apply keeps_trans|apply puts_handler]. Qed.
End Fitted.

(** ** After a successful visit, every node it computed has the attributes of naive evaluation *)
Section Exact.
  Context {V K F : Type} `{EqD K}.
  Notation heap := (heap V K).
  Notation st := (st V F).
  Variable ext : externals V K F.
  Variable h : heap.
  Variable e : env V.
  Variable mode : string.
  Variable f0 : oid -> option (fit_attr V F).
  Variable root : oid.
  Variable cb : st -> st * outcome unit.
  Notation Den := (Den ext h e mode f0).
  Notation Inv := (Inv ext h e mode f0 root).
  Notation Good := (Good ext h e mode f0 root).
  Notation fmono := (fmono ext h e mode f0).

  Hypothesis Hcb : forall s, exists s', cb s = (s', TOk tt) /\
    (forall o, fitted s' o = fitted s o) /\
    (forall o v, results s' o mode = Some v -> results s o mode = Some v) /\
    trace s' = trace s.

  Lemma Hcb_weak : forall s, exists s', cb s = (s', TOk tt) /\
    (forall o, fitted s' o = fitted s o) /\
    (forall o v, results s' o mode = Some v -> results s o mode = Some v).
  Proof. intros s. destruct (Hcb s) as (s' & E & A & B & _). eauto. Qed.

  Definition exact (s : st) (x : oid) : Prop := exists v, Den x (Ok (v, fitted s x)).

  (** From [s] to [s'] within the computation of [o]. *)
  Definition traced (o : oid) (s s' : st) : Prop :=
    (forall x, In x (trace s') -> x = o \/ In x (trace s) \/ exact s' x) /\
    (forall x, x <> o -> exact s x -> exact s' x).

  Lemma traced_refl o s : traced o s s.
  Proof. split; auto. Qed.
  Lemma traced_trans o a b c : traced o a b -> traced o b c -> traced o a c.
  Proof.
    intros [H1 H2] [H3 H4]. split; [|eauto].
    intros x Hx. destruct (H3 x Hx) as [->|[Hb|Hc]]; auto.
    destruct (eqd x o) as [->|Hne]; [auto|].
    destruct (H1 x Hb) as [->|[Ha|Hb']]; auto.
  Qed.

  (** No more children: writes change nothing but the attributes of [o]. *)
  Definition quiet (o : oid) (s s' : st) : Prop :=
    trace s' = trace s /\ forall x, x <> o -> fitted s' x = fitted s x.
  Fixpoint tail (o : oid) (g : gen V st) (s : st) : Prop :=
    match g with
    | GRet _ | GRaise _ => True
    | GYield _ _ => False
    | GGet k => tail o (k s) s
    | GPut s' g' => quiet o s s' /\ tail o g' s'
    end.
  (** Children are visited in states satisfying the invariant. *)
  Fixpoint shape (o : oid) (g : gen V st) (s : st) : Prop :=
    match g with
    | GRet _ | GRaise _ => True
    | GYield t k => part_of h root t /\ forall v s', shape o (k v) s'
    | GGet k => shape o (k s) s
    | GPut s' g' =>
        (s' = log s o /\ shape o g' s') \/ (quiet o s s' /\ tail o g' s')
    end.

  Lemma quiet_traced o s s' : quiet o s s' -> traced o s s'.
  Proof.
    intros [Ht Hf]. split.
    - intros x Hx. rewrite Ht in Hx. auto.
    - intros x Hne [v Hd]. exists v. rewrite Hf; auto.
  Qed.

  Lemma run_tail vc path o : forall g s s' v, tail o g s ->
    run_gen vc path g s = (s', TOk v) -> traced o s s'.
  Proof.
    induction g as [w|ex|t k IH|k IH|s1 g IH]; intros s s' v Ht E; cbn [run_gen tail] in *;
      try contradiction; try discriminate.
    - injection E as <- _. apply traced_refl.
    - eapply IH; eauto.
    - destruct Ht as [Hq Ht]. eapply traced_trans; [apply quiet_traced; exact Hq|]. eapply IH; eauto.
  Qed.

  Definition GoodT (s : st) (x : st * outcome V) : Prop :=
    match x with
    | (s', TOk _) => forall x, In x (trace s') -> In x (trace s) \/ exact s' x
    | _ => True
    end.

  Lemma Inv_log s o : Inv s -> Inv (log s o).
  Proof. intros [A B]. split; cbn [log results fitted]; assumption. Qed.

  Lemma run_shape vc path o
    (Hvc : forall c s, part_of h root c -> Inv s -> Good c s (vc c s) /\ GoodT s (vc c s)) :
    forall g s s' v, shape o g s -> Inv s -> run_gen vc path g s = (s', TOk v) -> traced o s s'.
  Proof.
    induction g as [w|ex|t k IH|k IH|s1 g IH]; intros s s' v Hs Hi E; cbn [run_gen shape] in *;
      try discriminate.
    - injection E as <- _. apply traced_refl.
    - destruct Hs as [Hq Hs]. destruct (mem t path); [discriminate|].
      destruct (Hvc t s Hq Hi) as [Hg Hgt].
      destruct (vc t s) as [s1 [w|ex|t'|]]; try discriminate. cbn [L_expr3.Good GoodT] in Hg, Hgt.
      destruct Hg as (f & Hd & Hi1 & Hm & Hf).
      eapply traced_trans; [|eapply IH; [apply Hs|exact Hi1|exact E]].
      split.
      + intros x Hx. right. apply Hgt. exact Hx.
      + intros x _ [u Hu]. exists u. rewrite (Hm x u (fitted s x) Hu eq_refl). exact Hu.
    - eapply IH; eauto.
    - destruct Hs as [[-> Hs]|[Hq Ht]].
      + eapply traced_trans; [|eapply IH; [exact Hs|apply Inv_log; exact Hi|exact E]].
        split.
        * intros x [<-|Hx]; auto.
        * intros x _ Hx. exact Hx.
      + eapply traced_trans; [apply quiet_traced; exact Hq|]. eapply run_tail; eauto.
  Qed.

  Lemma tail_store o v s : tail o (store_k mode cb o v) s.
  Proof.
    unfold store_k. cbn [tail].
    destruct (Hcb (set_result s o mode (Some v))) as (s2 & -> & Hf & _ & Ht).
    cbn [tail]. split; [|exact I]. split; [exact Ht|]. intros x _. rewrite Hf. reflexivity.
  Qed.
  Lemma shape_store o v s : shape o (store_k mode cb o v) s.
  Proof.
    unfold store_k. cbn [shape].
    destruct (Hcb (set_result s o mode (Some v))) as (s2 & -> & Hf & _ & Ht).
    cbn [shape]. right. split; [|exact I]. split; [exact Ht|]. intros x _. rewrite Hf. reflexivity.
  Qed.

  Lemma shape_yield_all o : forall items k s,
    (forall c, In c items -> part_of h root c) ->
    (forall vs s', shape o (k vs) s') -> shape o (yield_all items k) s.
  Proof.
    induction items as [|t items IH]; intros k s Hit Hk; cbn [yield_all shape]; [apply Hk|].
    split; [apply Hit; left; reflexivity|]. intros v s'. apply IH; [intros c Hc; apply Hit; right; exact Hc|].
    intros vs s''. apply Hk.
  Qed.

  Lemma shape_compute i name o args s :
    shape o (compute_result ext h e mode o i name args (store_k mode cb o)) s.
  Proof.
    unfold compute_result. cbn [shape].
    assert (Hset : forall f, quiet o s (set_fitted s o f)).
    { intros f. split; [reflexivity|]. intros x Hne. cbn. unfold upd. destruct (eqd x o); congruence. }
    destruct (compute ext e mode h (fitted s) o i name args) as [[v [f|]]|ex].
    - cbn [shape]. right. split; [apply Hset|apply tail_store].
    - apply shape_store.
    - cbn [shape]. right. split; [|exact I]. destruct (Hset (fitted_on_error ext mode i args (fitted s o))) as [A B].
      split; [exact A|exact B].
  Qed.

  Lemma shape_of o (r : res V) s : shape o (gen_of r) s.
  Proof. destruct r; exact I. Qed.

  Lemma shape_handler o s : part_of h root o -> shape o (eval_handler ext h e mode cb o) s.
  Proof.
    intros Ho.
    assert (Hedge : forall t, edge h o t -> part_of h root t).
    { intros t Ht. eapply reach_trans; [exact Ho|]. apply edge_part. exact Ht. }
    pose proof (eval_handler_edges ext h e mode cb o) as Hall.
    unfold eval_handler in *. destruct (h o) as
      [i name isX isY|ty items|ty items|a b c|name outs ch|name df ch|c m|cls p|v] eqn:Eh.
    - cbn [shape]. cbn [gen_all] in Hall. specialize (Hall s).
      destruct (fetch e mode s o i name isX isY); [exact I|]. cbn [gen_all] in Hall. cbn [shape].
      left. split; [reflexivity|].
      change (shape o (eval_impl ext h e mode o i name (store_k mode cb o)) (log s o)).
      change (gen_all (edge h o) (eval_impl ext h e mode o i name (store_k mode cb o))) in Hall.
      unfold eval_impl in *.
      assert (Hdef : shape o (yield_all (map snd (fields_for_eval i mode)) (fun vs =>
        compute_result ext h e mode o i name (combine (map fst (fields_for_eval i mode)) vs)
          (store_k mode cb o))) (log s o)).
      { apply shape_yield_all.
        - intros t Ht. apply Hedge. left. unfold child. rewrite Eh. simpl.
          apply in_map_iff in Ht. destruct Ht as ([n c] & <- & Hin).
          apply fields_for_eval_in in Hin. apply in_map_iff. exists (n, c). auto.
        - intros. apply shape_compute. }
      destruct i as [value|value|cnd it fa|q tg default|tgt|X est y cols how allow unsup|tgt|fi ot|op fs];
        try exact Hdef.
      + cbn [shape]. cbn [gen_all] in Hall. destruct Hall as [Hc Hall]. split; [auto|].
        intros cv s'. specialize (Hall cv).
        destruct (truthy ext cv) as [[|]|]; cbn [shape gen_all] in *; auto;
          (split; [apply Hedge; apply Hall|intros; apply shape_store]).
      + cbn [shape]. cbn [gen_all] in Hall. destruct Hall as [Hc Hall]. split; [auto|].
        intros qv s'. specialize (Hall qv).
        destruct (let! key := key_of ext qv in map_lookup h tg key) as [[t|]|]; cbn [shape gen_all] in *; auto.
        * split; [apply Hedge; apply Hall|intros; apply shape_store].
        * destruct default; cbn [shape gen_all] in *; auto.
          split; [apply Hedge; apply Hall|intros; apply shape_store].
    - unfold eval_container. apply shape_yield_all; [|intros; apply shape_of].
      intros c Hc. apply Hedge. left. unfold child. rewrite Eh. exact Hc.
    - unfold eval_container. apply shape_yield_all; [|intros; apply shape_of].
      intros c Hc. apply Hedge. left. unfold child. rewrite Eh. exact Hc.
    - cbn [eval_container shape gen_all] in *. destruct Hall as [Ha Hall].
      split; [auto|]. intros x s1. destruct (Hall x) as [Hb Hall2]. split; [auto|]. intros y s2.
      destruct (Hall2 y) as [Hc _]. auto.
    - unfold eval_choice in *. destruct (name_in_env e name); [exact I|].
      destruct (eqb_of mode "preview"); unfold yield_res in *; destruct (nth_outcome _ _ _);
        cbn [shape gen_all] in *; auto; (split; [apply Hedge; apply Hall|auto]).
    - unfold eval_choice. destruct (name_in_env e name); [exact I|].
      destruct (eqb_of mode "preview"); exact I.
    - unfold eval_choice_match in *. cbn [shape gen_all] in *. destruct Hall as [Hc Hall].
      split; [auto|]. intros v s1. specialize (Hall v).
      destruct (let! key := key_of ext v in map_lookup h m key) as [[t|]|]; cbn [shape gen_all] in *; auto.
      split; [apply Hedge; apply Hall|auto].
    - cbn [eval_container shape gen_all] in *. destruct Hall as [Hc _]. split; [auto|].
      intros. apply shape_of.
    - exact I.
  Qed.

  Lemma visit_exact : forall d path o s, part_of h root o -> Inv s ->
    GoodT s (visit (eval_handler ext h e mode cb) d path o s).
  Proof.
    induction d as [|d IH]; intros path o s Ho Hi; [exact I|].
    pose proof (visit_good ext h e mode f0 root cb Hcb_weak (S d) path o s Ho Hi) as Hg.
    destruct (visit (eval_handler ext h e mode cb) (S d) path o s) as [s' [v|ex|t|]] eqn:Ev; try exact I.
    cbn [L_expr3.Good] in Hg. destruct Hg as (f & Hd & Hi' & Hm & Hf).
    cbn [visit] in Ev. apply (run_shape _ _ o) in Ev; [| |apply shape_handler; exact Ho|exact Hi].
    - destruct Ev as [H1 H2]. cbn [GoodT]. intros x Hx. destruct (H1 x Hx) as [->|[Hx'|Hx']]; auto.
      right. exists v. rewrite Hf. exact Hd.
    - intros c s0 Hc Hi0. split; [|apply IH; auto].
      apply (visit_good ext h e mode f0 root cb Hcb_weak); auto.
  Qed.
End Exact.
