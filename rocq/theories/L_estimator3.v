(** Searching an expression; estimators and their histories. *)
From Verif Require Import Base M_traverse L_traverse M_expr L_expr1 L_expr2 L_expr3 L_expr4
  L_expr5 L_expr6 L_expr7 M_estimator L_estimator1 L_estimator2.
From Coq Require Import Relations.Relation_Operators Relations.Operators_Properties.
Open Scope string_scope.
Open Scope list_scope.
Open Scope nat_scope.

Lemma visit_ext {A S} (h1 h2 : oid -> gen A S) : (forall o, h1 o = h2 o) ->
  forall d path o s, visit h1 d path o s = visit h2 d path o s.
Proof.
  intros E.
  assert (Hrg : forall vc1 vc2 path, (forall t s, vc1 t s = vc2 t s) ->
            forall (g : gen A S) s, run_gen vc1 path g s = run_gen vc2 path g s).
  { intros vc1 vc2 path Hvc. induction g as [v|ex|t k IH|k IH|s' g IH]; intros s; cbn [run_gen]; auto.
    destruct (mem t path); [reflexivity|]. rewrite Hvc. destruct (vc2 t s) as [s1 [v|ex|t'|]]; auto. }
  induction d as [|d IH]; intros path o s; cbn [visit]; [reflexivity|].
  rewrite E. apply Hrg. intros t s'. apply IH.
Qed.

(** ** Depth-first search *)
Section Find.
  Variable succ : oid -> res (list oid).
  Variable hit : oid -> bool.
  Definition find_handler (o : oid) : gen unit (option oid) :=
    if hit o then GPut (Some o) (GRaise Found)
    else match succ o with
         | Ok l => yield_all l (fun _ => GRet tt)
         | Err ex => GRaise ex
         end.
  Inductive freach : oid -> oid -> Prop :=
  | fr_refl o : freach o o
  | fr_step o l c x : succ o = Ok l -> In c l -> freach c x -> freach o x.

  Definition find_post (o : oid) (x : option oid * outcome unit) : Prop :=
    match x with
    | (s', TOk _) => s' = None /\ forall y, freach o y -> hit y = false
    | (s', TErr ex) =>
        (exists y, s' = Some y /\ freach o y /\ hit y = true) \/
        (s' = None /\ exists y, freach o y /\ succ y = Err ex)
    | _ => True
    end.

  Lemma find_post_all vc path (Hvc : forall t, find_post t (vc t None)) : forall l,
    match visit_all vc path l None with
    | (s', TOk _) => s' = None /\ forall c y, In c l -> freach c y -> hit y = false
    | (s', TErr ex) =>
        (exists c y, In c l /\ s' = Some y /\ freach c y /\ hit y = true) \/
        (s' = None /\ exists c y, In c l /\ freach c y /\ succ y = Err ex)
    | _ => True
    end.
  Proof.
    induction l as [|c l IH]; cbn [visit_all].
    - split; [reflexivity|]. intros c y [].
    - unfold vchk. destruct (mem c path); [exact I|].
      pose proof (Hvc c) as Hc. destruct (vc c None) as [s1 [v|ex|t|]]; cbn [obind find_post] in *; auto.
      + destruct Hc as [-> Hc]. destruct (visit_all vc path l None) as [s2 [vs|ex|t|]]; cbn [obind]; auto.
        * destruct IH as [-> IH]. split; [reflexivity|]. intros c' y [<-|Hin]; eauto.
        * destruct IH as [(c' & y & Hin & E & Hy)|(E & c' & y & Hin & Hy)].
          -- left. exists c', y. split; [right; exact Hin|auto].
          -- right. split; [exact E|]. exists c', y. split; [right; exact Hin|auto].
      + destruct Hc as [(y & E & Hy)|(E & y & Hy)].
        * left. exists c, y. split; [left; reflexivity|auto].
        * right. split; [exact E|]. exists c, y. split; [left; reflexivity|auto].
  Qed.

  Lemma find_spec : forall d path o, find_post o (visit find_handler d path o None).
  Proof.
    induction d as [|d IH]; intros path o; [exact I|]. cbn [visit]. unfold find_handler at 2.
    destruct (hit o) eqn:Eh.
    { cbn [run_gen find_post]. left. exists o. split; [reflexivity|]. split; [constructor|exact Eh]. }
    destruct (succ o) as [l|ex] eqn:Es.
    - rewrite run_gen_yield_all.
      pose proof (find_post_all (visit find_handler d (o :: path)) (o :: path) (IH (o :: path)) l) as Hl.
      destruct (visit_all _ _ l None) as [s1 [vs|ex|t|]]; cbn [obind run_gen find_post] in *; auto.
      + destruct Hl as [-> Hl]. split; [reflexivity|]. intros y Hy.
        inversion Hy as [|? l' c ? E Hin Hc]; subst; [exact Eh|]. rewrite Es in E. injection E as <-. eauto.
      + destruct Hl as [(c & y & Hin & E & Hy & Hh)|(E & c & y & Hin & Hy & Hh)].
        * left. exists y. split; [exact E|]. split; [|exact Hh]. econstructor; eauto.
        * right. split; [exact E|]. exists y. split; [|exact Hh]. econstructor; eauto.
    - cbn [run_gen find_post]. right. split; [reflexivity|]. exists o. split; [constructor|exact Es].
  Qed.
End Find.

Section Search.
  Context {V K F : Type} `{EqD K}.
  Notation heap := (heap V K).
  Variable h : heap.
  Variable size : nat.
  Variable root : oid.
  Hypothesis Hclosed : closed h size.
  Hypothesis Hroot : root < size.
  Hypothesis Hacyclic : acyclic h root.

  (** ** Specification: looking for a name *)
  Definition has_name (o : oid) (name : string) : Prop :=
    match h o with
    | OExpr _ n _ _ | OChoice n _ _ | ONumChoice n _ _ => n = Some name
    | _ => False
    end.

  Definition nameb (name : string) (o : oid) : bool :=
    match h o with
    | OExpr _ (Some n) _ _ | OChoice (Some n) _ _ | ONumChoice (Some n) _ _ => eqb_of n name
    | _ => false
    end.
  Lemma nameb_spec name o : nameb name o = true <-> has_name o name.
  Proof.
    unfold nameb, has_name. destruct (h o) as [i [n|] ? ?| | | |[n|] ? ?|[n|] ? ?| | |];
      try (split; [discriminate|try contradiction; discriminate]);
      rewrite eqb_of_true; (split; [intros ->; reflexivity|intros E; injection E as ->; reflexivity]).
  Qed.

  Lemma named_is_find name o :
    named_handler h name o = find_handler (fun o => Ok (children (h o))) (nameb name) o.
  Proof.
    unfold named_handler, find_handler, nameb.
    destruct (h o) as [i [n|] ? ?| | | |[n|] ? ?|[n|] ? ?| | |]; try reflexivity.
  Qed.

  Lemma freach_part o x : freach (fun o => Ok (children (h o))) o x <-> part_of h o x.
  Proof.
    split; intros Hr.
    - induction Hr as [|o l c x E Hin Hr IH]; [constructor|]. injection E as <-.
      econstructor; [intros []|exact Hin|exact IH].
    - induction Hr as [|o c x _ Hin Hr IH]; [constructor|]. econstructor; [reflexivity|exact Hin|exact IH].
  Qed.

  Lemma gen_all_find (E : oid -> oid -> Prop) succ hit o :
    (forall l c, succ o = Ok l -> In c l -> E o c) -> gen_all (E o) (find_handler succ hit o).
  Proof.
    intros Hs. unfold find_handler. destruct (hit o); [exact I|].
    destruct (succ o) as [l|ex] eqn:Es; [|exact I].
    apply gen_all_yield_all; [|intros; exact I]. intros t Ht. eapply Hs; eauto.
  Qed.

  (** A search along [edge]s ends. *)
  Lemma find_ends succ hit s r :
    (forall o l c, succ o = Ok l -> In c l -> edge h o c) ->
    visit (find_handler succ hit) size [] root None = (s, r) ->
    (exists v, r = TOk v) \/ (exists ex, r = TErr ex).
  Proof.
    intros Hs Ev. destruct r as [v|ex|t|]; eauto; exfalso.
    - apply (visit_circ (find_handler succ hit) (edge h)) in Ev;
        [|intros o; apply gen_all_find; apply Hs].
      destruct Ev as [Hc Hr]. apply (Hacyclic t); [apply edges_part; exact Hr|].
      apply edges_cycle. exact Hc.
    - pose proof (visit_no_fuel_heap (find_handler succ hit) size root None) as Hn.
      rewrite Ev in Hn. apply Hn; auto. intros o Ho.
      apply (closed_edges (find_handler succ hit) h size Hclosed); auto.
      intros o'. apply gen_all_find. apply Hs.
  Qed.

  Lemma find_by_name name :
    (exists o, find_node_by_name h size root name = Ok (Some o) /\ part_of h root o /\ has_name o name) \/
    (find_node_by_name h size root name = Ok None /\
     forall o, part_of h root o -> ~ has_name o name).
  Proof.
    unfold find_node_by_name, find_with.
    rewrite (visit_ext _ _ (named_is_find name)).
    set (succ := fun o => Ok (children (h o))).
    pose proof (find_spec succ (nameb name) size [] root) as Hp.
    destruct (visit _ size [] root None) as [s r] eqn:Ev.
    assert (Hs : forall o l c, succ o = Ok l -> In c l -> edge h o c).
    { intros o l c E Hin. injection E as <-. left. exact Hin. }
    destruct (find_ends succ (nameb name) s r Hs Ev) as [[v ->]|[ex ->]]; cbn [find_post] in Hp.
    - destruct Hp as [-> Hp]. right. split; [reflexivity|]. intros o Ho Hn.
      apply nameb_spec in Hn. rewrite (Hp o) in Hn; [discriminate|]. apply freach_part. exact Ho.
    - destruct Hp as [(y & -> & Hy & Hh)|(-> & y & Hy & E)]; [|discriminate].
      left. exists y. split; [reflexivity|]. split; [apply freach_part; exact Hy|].
      apply nameb_spec. exact Hh.
  Qed.

  (** ** Specification: steps that are in use
      Everything the expression is made of, but of a choice only the chosen outcome (or the
      default one). *)
  Inductive in_use : oid -> oid -> Prop :=
  | use_self o : in_use o o
  | use_part o c x : (forall n outs ch, h o <> OChoice n outs ch) ->
      In c (children (h o)) -> in_use c x -> in_use o x
  | use_outcome o n outs ch ty items c x :
      h o = OChoice n outs ch -> h outs = OSeq ty items ->
      nth_error items (match ch with Some i => i | None => 0 end) = Some c ->
      in_use c x -> in_use o x.
  Definition is_apply (o : oid) : Prop :=
    match h o with OExpr (IApply _ _ _ _ _ _ _) _ _ _ => True | _ => False end.
  (** Every choice has the outcome that is chosen. *)
  Definition choices_ok : Prop :=
    forall o n outs ch, part_of h root o -> h o = OChoice n outs ch ->
      exists ty items c, h outs = OSeq ty items /\
        nth_error items (match ch with Some i => i | None => 0 end) = Some c.

  Definition use_succ (o : oid) : res (list oid) :=
    match h o with
    | OChoice _ outcomes chosen =>
        let! t := nth_outcome h outcomes (default_or 0 chosen) in Ok [t]
    | _ => Ok (children (h o))
    end.
  Definition applyb (o : oid) : bool :=
    match h o with OExpr (IApply _ _ _ _ _ _ _) _ _ _ => true | _ => false end.
  Lemma first_is_find o : first_apply_handler h o = find_handler use_succ applyb o.
  Proof.
    unfold first_apply_handler, find_handler, use_succ, applyb.
    destruct (h o) as [[] ? ? ?| | | | | | | |]; try reflexivity.
    destruct (nth_outcome _ _ _); reflexivity.
  Qed.
  Lemma use_succ_edge o l c : use_succ o = Ok l -> In c l -> edge h o c.
  Proof.
    unfold use_succ, edge, child. destruct (h o) as [| | | |n outs ch| | | |] eqn:Eh;
      try (intros E; injection E as <-; auto; fail).
    unfold nth_outcome. destruct (h outs) as [| |ty items| | | | | |] eqn:Eo; try discriminate.
    destruct (nth_error items _) as [t|] eqn:En; [|discriminate]. cbn [bind].
    intros E Hin. injection E as <-. destruct Hin as [<-|[]]. right. exists outs. split; [simpl; auto|].
    rewrite Eo. split; [reflexivity|]. simpl. eapply nth_error_In; eauto.
  Qed.
  Lemma freach_use o x : freach use_succ o x <-> in_use o x.
  Proof.
    split; intros Hr.
    - induction Hr as [|o l c x E Hin Hr IH]; [constructor|].
      unfold use_succ in E. destruct (h o) as [| | | |n outs ch| | | |] eqn:Eh;
        try (injection E as <-; eapply use_part; [congruence|rewrite Eh; exact Hin|exact IH]).
      unfold nth_outcome in E. destruct (h outs) as [| |ty items| | | | | |] eqn:Eo; try discriminate.
      destruct (nth_error items _) as [t|] eqn:En; [|discriminate]. cbn [bind] in E. injection E as <-.
      destruct Hin as [<-|[]]. eapply use_outcome; eauto.
    - induction Hr as [|o c x Hn Hin Hr IH|o n outs ch ty items c x Eh Eo En Hr IH]; [constructor| |].
      + eapply fr_step; [|exact Hin|exact IH]. unfold use_succ. destruct (h o) eqn:Eh; try reflexivity.
        exfalso. eapply Hn. reflexivity.
      + apply (fr_step _ o [c] c x); [|left; reflexivity|exact IH]. unfold use_succ. rewrite Eh. unfold nth_outcome.
        rewrite Eo. change (default_or 0 ch) with (match ch with Some i => i | None => 0 end). rewrite En. reflexivity.
  Qed.
  Lemma applyb_spec o : applyb o = true <-> is_apply o.
  Proof.
    unfold applyb, is_apply. destruct (h o) as [[] ? ? ?| | | | | | | |]; split; auto; try discriminate; contradiction.
  Qed.
  Lemma in_use_part o x : in_use o x -> part_of h o x.
  Proof.
    intros Hr. apply freach_use in Hr. induction Hr as [|o l c x E Hin Hr IH]; [constructor|].
    eapply reach_trans; [|exact IH]. apply edge_part. eapply use_succ_edge; eauto.
  Qed.

  Lemma find_first_ok : choices_ok ->
    (exists o, find_first_apply h size root = Ok (Some o) /\ in_use root o /\ is_apply o) \/
    (find_first_apply h size root = Ok None /\ forall o, in_use root o -> ~ is_apply o).
  Proof.
    intros Hch. unfold find_first_apply, find_with. rewrite (visit_ext _ _ first_is_find).
    pose proof (find_spec use_succ applyb size [] root) as Hp.
    destruct (visit _ size [] root None) as [s r] eqn:Ev.
    destruct (find_ends use_succ applyb s r use_succ_edge Ev) as [[v ->]|[ex ->]]; cbn [find_post] in Hp.
    - destruct Hp as [-> Hp]. right. split; [reflexivity|]. intros o Ho Hn.
      apply applyb_spec in Hn. rewrite (Hp o) in Hn; [discriminate|]. apply freach_use. exact Ho.
    - destruct Hp as [(y & -> & Hy & Hh)|(-> & y & Hy & E)].
      + left. exists y. split; [reflexivity|]. split; [apply freach_use; exact Hy|apply applyb_spec; exact Hh].
      + exfalso. apply freach_use in Hy. unfold use_succ in E. destruct (h y) as [| | | |n outs ch| | | |] eqn:Eh; try discriminate.
        destruct (Hch y n outs ch (in_use_part _ _ Hy) Eh) as (ty & items & c & Eo & En).
        unfold nth_outcome in E. rewrite Eo in E.
        change (default_or 0 ch) with (match ch with Some i => i | None => 0 end) in E. rewrite En in E. discriminate.
  Qed.
  Lemma find_first_some o : find_first_apply h size root = Ok (Some o) -> in_use root o /\ is_apply o.
  Proof.
    unfold find_first_apply, find_with. rewrite (visit_ext _ _ first_is_find).
    pose proof (find_spec use_succ applyb size [] root) as Hp.
    destruct (visit _ size [] root None) as [s r] eqn:Ev.
    destruct (find_ends use_succ applyb s r use_succ_edge Ev) as [[v ->]|[ex ->]]; cbn [find_post] in Hp.
    - destruct Hp as [-> _]. discriminate.
    - destruct Hp as [(y & -> & Hy & Hh)|(-> & y & Hy & E)]; [|discriminate].
      intros E. injection E as <-. split; [apply freach_use; exact Hy|apply applyb_spec; exact Hh].
  Qed.
End Search.
