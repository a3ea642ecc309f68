(** Reachability in object graphs, and the traversals that only look at the graph
    ([_Reachable], [_Graph]): they visit exactly the reachable nodes, always stop, and
    report a circular reference exactly when there is one. *)
From Verif Require Import Base M_traverse L_traverse M_expr.
From Coq Require Import Relations.Relation_Operators Relations.Operators_Properties.
Open Scope string_scope.
Open Scope list_scope.
Open Scope nat_scope.

(** ** Generic facts about visits *)
Section Generic.
  Context {V St : Type}.
  Variable handler : oid -> gen V St.

  Lemma visit_all_cons_ok vc path t (ts : list oid) (s s' : St) (vs : list V) :
    visit_all vc path (t :: ts) s = (s', TOk vs) ->
    exists v s1 vs', ~ In t path /\ vc t s = (s1, TOk v) /\
      visit_all vc path ts s1 = (s', TOk vs') /\ vs = v :: vs'.
  Proof.
    cbn [visit_all]. intros E. apply obind_ok in E. destruct E as (v & s1 & E1 & E2).
    apply obind_ok in E2. destruct E2 as (vs' & s2 & E3 & E4).
    injection E4 as <- <-. unfold vchk in E1. destruct (mem t path) eqn:Em; [discriminate|].
    exists v, s1, vs'. apply mem_false in Em. auto.
  Qed.

  (** Edges of the graph that the handler may follow. *)
  Variable E : oid -> oid -> Prop.
  Hypothesis Hedges : forall o, gen_all (E o) (handler o).

  (** [p1 :: p2 :: ...]: each element is a successor of the next one. *)
  Fixpoint chain (l : list oid) : Prop :=
    match l with
    | a :: ((b :: _) as l') => E b a /\ chain l'
    | _ => True
    end.

  Lemma chain_to_head : forall l a x, chain (a :: l) -> In x (a :: l) -> clos_refl_trans_1n oid E x a.
  Proof.
    induction l as [|b l IH]; intros a x Hc Hx.
    - destruct Hx as [<-|[]]. constructor.
    - destruct Hx as [<-|Hx]; [constructor|].
      destruct Hc as [Hba Hc]. apply clos_rt_rt1n. eapply rt_trans.
      + apply clos_rt1n_rt. apply (IH b x Hc Hx).
      + apply rt_step. exact Hba.
  Qed.

  Lemma run_gen_circ d path o
    (IH : forall t s s' x, chain (t :: o :: path) ->
        visit handler d (o :: path) t s = (s', TCirc x) ->
        clos_trans oid E x x /\ (In x (o :: path) \/ clos_refl_trans_1n oid E o x)) :
    chain (o :: path) ->
    forall g s s' x, gen_all (E o) g ->
      run_gen (visit handler d (o :: path)) (o :: path) g s = (s', TCirc x) ->
      clos_trans oid E x x /\ (In x (o :: path) \/ clos_refl_trans_1n oid E o x).
  Proof.
    intros Hc. induction g as [v|e|t k IHk|k IHk|s1 g IHg]; intros s s' x Hg Hr.
    - simpl in Hr. discriminate.
    - simpl in Hr. discriminate.
    - destruct Hg as [Ht Hk]. rewrite run_gen_yield in Hr. unfold vchk in Hr.
      destruct (mem t (o :: path)) eqn:Em.
      + cbn [obind] in Hr. injection Hr as _ <-. apply mem_true in Em.
        split; [|left; exact Em].
        pose proof (chain_to_head path o t Hc Em) as Hto.
        apply clos_rt1n_rt in Hto. clear - Hto Ht.
        apply clos_rt_rtn1 in Hto.
        assert (Hgen : forall y, clos_refl_trans_n1 oid E t y -> forall z, E y z -> clos_trans oid E t z).
        { clear. intros y Hy. induction Hy as [|y z Hyz Hy IH]; intros w Hw.
          - apply t_step. exact Hw.
          - eapply t_trans; [apply IH; exact Hyz|apply t_step; exact Hw]. }
        eapply Hgen; eauto.
      + destruct (visit handler d (o :: path) t s) as [s1 [v|e|t'|]] eqn:Ev; cbn [obind] in Hr.
        * eapply IHk; eauto.
        * discriminate.
        * injection Hr as <- <-.
          apply IH in Ev; [exact Ev|]. split; [exact Ht|exact Hc].
        * discriminate.
    - eapply IHk; eauto.
    - eapply IHg; eauto.
  Qed.

  Lemma visit_circ_gen : forall d path o s s' x,
    chain (o :: path) -> visit handler d path o s = (s', TCirc x) ->
    clos_trans oid E x x /\ (In x (o :: path) \/ clos_refl_trans_1n oid E o x).
  Proof.
    induction d as [|d IH]; intros path o s s' x Hc Hv; [discriminate|].
    cbn [visit] in Hv. eapply run_gen_circ; eauto.
    intros t s0 s0' y Hch Ht. pose proof Ht as Ht'. apply IH in Ht; [|exact Hch].
    destruct Ht as [Hcy Hy]. split; [exact Hcy|].
    destruct Hy as [[<-|Hy]|Hy].
    - right. econstructor; [|constructor]. apply Hch.
    - left. exact Hy.
    - right. econstructor; [apply Hch|exact Hy].
  Qed.

  Lemma visit_circ d o s s' x :
    visit handler d [] o s = (s', TCirc x) ->
    clos_trans oid E x x /\ clos_refl_trans_1n oid E o x.
  Proof.
    intros Hv. apply visit_circ_gen in Hv; [|exact I]. destruct Hv as [Hc [[<-|[]]|Hx]].
    - split; [exact Hc|constructor].
    - auto.
  Qed.
End Generic.

Section Static.
  Context {V K F : Type} `{EqD K}.
  Notation heap := (heap V K).

  (** [x] is reachable from [o] without going through the contents of an object in
      [stop]. *)
  Inductive reach (h : heap) (stop : oid -> Prop) : oid -> oid -> Prop :=
  | reach_refl o : reach h stop o o
  | reach_step o c x :
      ~ stop o -> In c (children (h o)) -> reach h stop c x -> reach h stop o x.

  Definition no_stop : oid -> Prop := fun _ => False.
  (** [x] is part of the expression [o]. *)
  Definition part_of (h : heap) (o x : oid) : Prop := reach h no_stop o x.

  (** [x] contains itself. *)
  Definition on_cycle (h : heap) (x : oid) : Prop :=
    exists c, In c (children (h x)) /\ part_of h c x.

  (** All identities stored in the first [size] objects are below [size]. *)
  Definition closed (h : heap) (size : nat) : Prop :=
    forall o c, o < size -> In c (children (h o)) -> c < size.

  Lemma reach_trans h stop a b c : reach h stop a b -> reach h stop b c -> reach h stop a c.
  Proof. intros Hab. induction Hab; intros Hbc; [exact Hbc|]. econstructor; eauto. Qed.

  Lemma reach_weaken h (stop stop' : oid -> Prop) : (forall o, stop' o -> stop o) ->
    forall a b, reach h stop a b -> reach h stop' a b.
  Proof. intros Hs a b Hr. induction Hr; econstructor; eauto. Qed.

  Lemma part_child h o c : In c (children (h o)) -> part_of h o c.
  Proof. intros Hc. econstructor; [intros []|exact Hc|constructor]. Qed.

  Lemma closed_part h size o x : closed h size -> o < size -> part_of h o x -> x < size.
  Proof.
    intros Hc Ho Hr. induction Hr as [|o c x Hs Hch Hr IH]; [exact Ho|].
    apply IH. eapply Hc; eauto.
  Qed.

  Definition child (h : heap) (o c : oid) : Prop := In c (children (h o)).

  Lemma rt_part h a b : clos_refl_trans_1n oid (child h) a b <-> part_of h a b.
  Proof.
    split.
    - intros Hr. induction Hr as [|a b c Hab Hbc IH]; [constructor|].
      econstructor; [intros []|exact Hab|exact IH].
    - intros Hr. induction Hr as [|a b c Hs Hab Hbc IH]; [constructor|].
      econstructor; [exact Hab|exact IH].
  Qed.

  Lemma trans_on_cycle h x : clos_trans oid (child h) x x -> on_cycle h x.
  Proof.
    intros Ht. apply clos_trans_t1n in Ht. inversion Ht as [y Hy|y z Hy Hyz]; subst.
    - exists x. split; [exact Hy|constructor].
    - exists y. split; [exact Hy|]. apply rt_part.
      clear - Hyz. induction Hyz; [econstructor; [eassumption|constructor]|econstructor; eauto].
  Qed.

  Definition is_expr_at (h : heap) (o : oid) : Prop := is_expr (h o) = true.

  (** *** [_Reachable] *)
  Definition cached (res : oid -> string -> option V) (mode : string) (o : oid) : Prop :=
    res o mode <> None.
  Definition stops (h : heap) (res : oid -> string -> option V) (mode : string) (o : oid) : Prop :=
    is_expr_at h o /\ cached res mode o.

    Definition add (o : oid) (l : list oid) : list oid := if mem o l then l else l ++ [o].
    Lemma in_add o x l : In x (add o l) <-> x = o \/ In x l.
    Proof.
      unfold add. destruct (mem o l) eqn:E.
      - apply mem_true in E. split; [auto|]. intros [->|Hx]; auto.
      - rewrite in_app_iff. simpl. intuition.
    Qed.

  Section R.
    Variable h : heap.
    Variable mode : string.
    Variable res : oid -> string -> option V.
    Notation handler := (reach_handler h mode res).
    Notation stop := (stops h res mode).

    Lemma reach_handler_edges o : gen_all (child h o) (handler o).
    Proof.
      unfold reach_handler. unfold child.
      assert (Hy : gen_all (fun t => In t (children (h o)))
                (yield_all (S := list oid) (children (h o)) (fun _ => GRet tt))).
      { apply gen_all_yield_all; [auto|intros; exact I]. }
      destruct (h o) eqn:Eh; try exact Hy.
      cbn [gen_all]. intros seen. destruct (res o mode); [exact I|exact Hy].
    Qed.

    (** One step of the traversal, as an equation. *)
    Lemma reach_visit_S d path o seen :
      visit handler (S d) path o seen
      = let seen1 := if is_expr (h o) then add o seen else seen in
        if is_expr (h o) && (match res o mode with Some _ => true | None => false end)
        then (seen1, TOk tt)
        else obind (visit_all (visit handler d (o :: path)) (o :: path) (children (h o)) seen1)
               (fun _ s => (s, TOk tt)).
    Proof.
      cbn [visit]. generalize (visit handler d (o :: path)). intros vc. unfold reach_handler.
      destruct (h o) eqn:Eh; cbn [is_expr andb];
        try (rewrite run_gen_yield_all; reflexivity).
      cbn [run_gen]. destruct (res o mode); [reflexivity|].
      rewrite run_gen_yield_all. reflexivity.
    Qed.

    Lemma reach_visit_ok : forall d path o seen seen',
      visit handler d path o seen = (seen', TOk tt) ->
      incl seen seen' /\
      (forall x, reach h stop o x -> is_expr_at h x -> In x seen') /\
      (forall x, In x seen' -> In x seen \/ (reach h stop o x /\ is_expr_at h x)).
    Proof.
      induction d as [|d IH]; intros path o seen seen' Hv; [discriminate|].
      rewrite reach_visit_S in Hv. cbn zeta in Hv.
      destruct (is_expr (h o) && match res o mode with Some _ => true | None => false end) eqn:Es.
      - injection Hv as <-. apply andb_true_iff in Es. destruct Es as [Eo Er].
        rewrite Eo. split; [intros x Hx; apply in_add; auto|]. split.
        + intros x Hx _. inversion Hx as [|? c ? Hns]; subst; [apply in_add; auto|].
          exfalso. apply Hns. split; [exact Eo|]. intros E. rewrite E in Er. discriminate.
        + intros x Hx. apply in_add in Hx. destruct Hx as [->|Hx]; auto.
          right. split; [constructor|exact Eo].
      - assert (Hns : ~ stop o).
        { intros [Ho Hc]. unfold is_expr_at in Ho. unfold cached in Hc. rewrite Ho in Es.
          simpl in Es. destruct (res o mode); congruence. }
        apply obind_ok in Hv. destruct Hv as (vs & s1 & Hv & E1). injection E1 as ->.
        assert (Hall : forall items seen1 vs,
          visit_all (visit handler d (o :: path)) (o :: path) items seen1 = (seen', TOk vs) ->
          incl seen1 seen' /\
          (forall c x, In c items -> reach h stop c x -> is_expr_at h x -> In x seen') /\
          (forall x, In x seen' -> In x seen1 \/ exists c, In c items /\ reach h stop c x /\ is_expr_at h x)).
        { clear - IH. induction items as [|c items IHi]; intros seen1 vs Ha.
          - cbn [visit_all] in Ha. injection Ha as -> _. split; [intros x Hx; exact Hx|].
            split; [intros ? ? []|auto].
          - apply visit_all_cons_ok in Ha. destruct Ha as (v & s1 & vs' & _ & Hc & Hrest & _).
            destruct v. apply IH in Hc. destruct Hc as (Hi1 & Hr1 & Hs1).
            apply IHi in Hrest. destruct Hrest as (Hi2 & Hr2 & Hs2).
            split; [intros x Hx; apply Hi2, Hi1; exact Hx|]. split.
            + intros c' x [<-|Hc'] Hr He; [apply Hi2, Hr1; auto|apply (Hr2 c'); auto].
            + intros x Hx. apply Hs2 in Hx. destruct Hx as [Hx|(c' & Hc' & Hr & He)].
              * apply Hs1 in Hx. destruct Hx as [Hx|[Hr He]]; [auto|].
                right. exists c. split; [left; reflexivity|auto].
              * right. exists c'. split; [right; exact Hc'|auto]. }
        apply Hall in Hv. destruct Hv as (Hi & Hr & Hs). clear Hall. split; [|split].
        + intros x Hx. apply Hi. destruct (is_expr (h o)); [apply in_add; auto|exact Hx].
        + intros x Hx He. inversion Hx as [|? c ? Hn Hc Hcx]; subst.
          * apply Hi. unfold is_expr_at in He. rewrite He. apply in_add; auto.
          * eapply Hr; eauto.
        + intros x Hx. apply Hs in Hx. destruct Hx as [Hx|(c & Hc & Hcx & He)].
          * destruct (is_expr (h o)) eqn:Eo; [|auto].
            apply in_add in Hx. destruct Hx as [->|Hx]; auto. right. split; [constructor|exact Eo].
          * right. split; [econstructor; eauto|exact He].
    Qed.

    Lemma reach_visit_not_err : forall d path o seen seen' e,
      visit handler d path o seen <> (seen', TErr e).
    Proof.
      induction d as [|d IH]; intros path o seen seen' e; [discriminate|].
      rewrite reach_visit_S. cbn zeta.
      destruct (is_expr (h o) && _); [discriminate|].
      generalize (if is_expr (h o) then add o seen else seen). intros seen1.
      destruct (visit_all _ _ _ seen1) as [s1 [vs|e'|t|]] eqn:Ea; cbn [obind]; try discriminate.
      intros E1. injection E1 as -> ->. revert seen1 Ea.
      induction (children (h o)) as [|c cs IHc]; intros seen1 Ea; [discriminate|].
      cbn [visit_all] in Ea. unfold vchk in Ea. destruct (mem c (o :: path)); [discriminate|].
      destruct (visit handler d (o :: path) c seen1) as [s2 [v|e''|t|]] eqn:Ev; cbn [obind] in Ea;
        try discriminate.
      - destruct (visit_all _ _ cs s2) as [s3 [vs|e''|t|]] eqn:Ea2; cbn [obind] in Ea; try discriminate.
        injection Ea as -> ->. eapply IHc; eauto.
      - injection Ea as -> ->. eapply IH; eauto.
    Qed.
  End R.

  (** Descending chains stop: no object below [o] is part of itself. *)
  Definition well_founded_at (h : heap) (o : oid) : Prop := Acc (fun c p => child h p c) o.

  Lemma wf_no_cycle h o x : well_founded_at h o -> part_of h o x -> ~ on_cycle h x.
  Proof.
    intros Ha Hr. assert (Hax : well_founded_at h x).
    { clear -Ha Hr. induction Hr as [|o c x Hs Hc Hr IH]; [exact Ha|].
      apply IH. destruct Ha as [Ha]. apply Ha. exact Hc. }
    clear Ha Hr. induction Hax as [x _ IH]. intros (c & Hc & Hcx).
    apply (IH c Hc). inversion Hcx as [|? c' ? Hs Hc' Hr]; subst.
    - exists x. split; [exact Hc|constructor].
    - exists c'. split; [exact Hc'|]. eapply reach_trans; [exact Hr|].
      apply part_child. exact Hc.
  Qed.

  Lemma closed_handler {A S} (handler : oid -> gen A S) h size :
    closed h size -> (forall o, gen_all (child h o) (handler o)) ->
    forall o, In o (seq 0 size) -> gen_all (fun t => In t (seq 0 size)) (handler o).
  Proof.
    intros Hc He o Ho. apply in_seq in Ho. eapply gen_all_impl; [|apply He].
    intros t Ht. apply in_seq. split; [lia|]. simpl. apply (Hc o t); [lia|exact Ht].
  Qed.

  Lemma visit_no_fuel_heap {A S} (handler : oid -> gen A S) size root s :
    (forall o, In o (seq 0 size) -> gen_all (fun t => In t (seq 0 size)) (handler o)) ->
    root < size -> snd (visit handler size [] root s) <> TFuel.
  Proof.
    intros Hc Hr. apply (visit_no_fuel handler (seq 0 size) Hc).
    - constructor.
    - intros x [].
    - apply in_seq. lia.
    - intros [].
    - rewrite seq_length. simpl. lia.
  Qed.

  (** *** [_Graph] *)
  Section G.
    Variable h : heap.
    Notation handler := (graph_handler h).

    Lemma graph_handler_edges o : gen_all (child h o) (handler o).
    Proof.
      unfold graph_handler. unfold child.
      assert (Hy : forall k, (forall vs, gen_all (fun t => In t (children (h o))) (k vs)) ->
                gen_all (fun t => In t (children (h o)))
                (yield_all (V := unit) (S := graph_st) (children (h o)) k)).
      { intros k Hk. apply gen_all_yield_all; auto. }
      destruct (h o) eqn:Eh; try (apply Hy; intros; exact I).
      cbn [gen_all]. intros s. apply Hy. intros vs. simpl. intros s2. exact I.
    Qed.

    Definition graph_enter (o : oid) (s : graph_st) : graph_st :=
      let s1 := match g_current s with
                | [] => s
                | p :: _ => mk_graph (g_nodes s) (dappend p o (g_children s))
                              (dappend o p (g_parents s)) (g_current s)
                end in
      mk_graph (g_nodes s1) (g_children s1) (g_parents s1) (o :: g_current s1).
    Definition graph_leave (o : oid) (s : graph_st) : graph_st :=
      mk_graph (add o (g_nodes s)) (g_children s) (g_parents s) (tl (g_current s)).

    Lemma graph_visit_S d path o s :
      visit handler (S d) path o s
      = obind (visit_all (visit handler d (o :: path)) (o :: path) (children (h o))
                 (if is_expr (h o) then graph_enter o s else s))
          (fun _ s1 => (if is_expr (h o) then graph_leave o s1 else s1, TOk tt)).
    Proof.
      cbn [visit]. generalize (visit handler d (o :: path)). intros vc. unfold graph_handler.
      destruct (h o) eqn:Eh; cbn [is_expr];
        try (rewrite run_gen_yield_all; reflexivity).
      cbn [run_gen]. rewrite run_gen_yield_all. reflexivity.
    Qed.

    Lemma graph_visit_ok : forall d path o s s',
      visit handler d path o s = (s', TOk tt) ->
      well_founded_at h o /\
      incl (g_nodes s) (g_nodes s') /\
      (forall x, part_of h o x -> is_expr_at h x -> In x (g_nodes s')) /\
      (forall x, In x (g_nodes s') -> In x (g_nodes s) \/ (part_of h o x /\ is_expr_at h x)) /\
      (NoDup (g_nodes s) -> NoDup (g_nodes s')).
    Proof.
      induction d as [|d IH]; intros path o s s' Hv; [discriminate|].
      rewrite graph_visit_S in Hv. apply obind_ok in Hv. destruct Hv as (vs & s1 & Hv & E1).
      injection E1 as E1. set (s0 := if is_expr (h o) then graph_enter o s else s) in Hv.
      assert (E0 : g_nodes s0 = g_nodes s).
      { unfold s0. destruct (is_expr (h o)); [|reflexivity]. unfold graph_enter.
        destruct (g_current s); reflexivity. }
      assert (Hall : forall items s0 vs,
          visit_all (visit handler d (o :: path)) (o :: path) items s0 = (s1, TOk vs) ->
          (forall c, In c items -> well_founded_at h c) /\
          incl (g_nodes s0) (g_nodes s1) /\
          (forall c x, In c items -> part_of h c x -> is_expr_at h x -> In x (g_nodes s1)) /\
          (forall x, In x (g_nodes s1) -> In x (g_nodes s0) \/
             exists c, In c items /\ part_of h c x /\ is_expr_at h x) /\
          (NoDup (g_nodes s0) -> NoDup (g_nodes s1))).
      { clear - IH. induction items as [|c items IHi]; intros s0 vs Ha.
        - cbn [visit_all] in Ha. injection Ha as -> _. split; [intros ? []|].
          split; [intros x Hx; exact Hx|]. split; [intros ? ? []|auto].
        - apply visit_all_cons_ok in Ha. destruct Ha as (v & s2 & vs' & _ & Hc & Hrest & _).
          destruct v. apply IH in Hc. destruct Hc as (Hw1 & Hi1 & Hr1 & Hs1 & Hn1).
          apply IHi in Hrest. destruct Hrest as (Hw2 & Hi2 & Hr2 & Hs2 & Hn2).
          split; [intros c' [<-|Hc']; auto|].
          split; [intros x Hx; apply Hi2, Hi1; exact Hx|]. split; [|split; [|auto]].
          + intros c' x [<-|Hc'] Hr He; [apply Hi2, Hr1; auto|apply (Hr2 c'); auto].
          + intros x Hx. apply Hs2 in Hx. destruct Hx as [Hx|(c' & Hc' & Hr & He)].
            * apply Hs1 in Hx. destruct Hx as [Hx|[Hr He]]; [auto|].
              right. exists c. split; [left; reflexivity|auto].
            * right. exists c'. split; [right; exact Hc'|auto]. }
      apply Hall in Hv. destruct Hv as (Hw & Hi & Hr & Hs & Hn). clear Hall.
      rewrite E0 in Hi, Hs, Hn.
      assert (Hin : forall x, In x (g_nodes s') <-> (is_expr_at h o /\ x = o) \/ In x (g_nodes s1)).
      { intros x. rewrite <- E1. unfold is_expr_at. destruct (is_expr (h o)) eqn:Eo.
        - simpl. rewrite in_add. split; [intros [->|Hx]; auto|intros [[_ ->]|Hx]; auto].
        - split; [auto|intros [[Hf _]|Hx]; [discriminate|auto]]. }
      split; [constructor; intros c Hc; apply Hw; exact Hc|].
      split; [intros x Hx; apply Hin; right; apply Hi; exact Hx|]. split; [|split].
      + intros x Hx He. apply Hin. inversion Hx as [|? c ? Hns Hc Hcx]; subst.
        * left. auto.
        * right. eapply Hr; eauto.
      + intros x Hx. apply Hin in Hx. destruct Hx as [[Ho ->]|Hx].
        * right. split; [constructor|exact Ho].
        * apply Hs in Hx. destruct Hx as [Hx|(c & Hc & Hcx & He)]; [auto|].
          right. split; [econstructor; [intros []|exact Hc|exact Hcx]|exact He].
      + intros Hnd. rewrite <- E1. destruct (is_expr (h o)); [|auto].
        simpl. unfold add. destruct (mem o (g_nodes s1)) eqn:Em; [auto|].
        apply mem_false in Em. apply NoDup_app_intro; auto.
        * constructor; [intros []|constructor].
        * intros x Hx [<-|[]]. auto.
    Qed.

    Lemma graph_visit_not_err : forall d path o s s' e,
      visit handler d path o s <> (s', TErr e).
    Proof.
      induction d as [|d IH]; intros path o s s' e; [discriminate|].
      rewrite graph_visit_S. generalize (if is_expr (h o) then graph_enter o s else s). intros s0.
      destruct (visit_all _ _ _ s0) as [s1 [vs|e'|t|]] eqn:Ea; cbn [obind]; try discriminate.
      intros E1. injection E1 as -> ->. revert s0 Ea.
      induction (children (h o)) as [|c cs IHc]; intros s0 Ea; [discriminate|].
      cbn [visit_all] in Ea. unfold vchk in Ea. destruct (mem c (o :: path)); [discriminate|].
      destruct (visit handler d (o :: path) c s0) as [s2 [v|e''|t|]] eqn:Ev; cbn [obind] in Ea;
        try discriminate.
      - destruct (visit_all _ _ cs s2) as [s3 [vs|e''|t|]] eqn:Ea2; cbn [obind] in Ea; try discriminate.
        injection Ea as -> ->. eapply IHc; eauto.
      - injection Ea as -> ->. eapply IH; eauto.
    Qed.
  End G.

  (** [nodes(expr)] either lists the nodes of the expression, each once, or reports a
      circular reference; the latter exactly when part of the expression contains itself. *)
  Theorem nodes_spec h size root : closed h size -> root < size ->
    (exists ns, nodes h size root = Ok ns /\ NoDup ns /\
       (forall x, In x ns <-> part_of h root x /\ is_expr_at h x) /\
       well_founded_at h root) \/
    (nodes h size root = Err ValueError /\
       exists x, part_of h root x /\ on_cycle h x).
  Proof.
    intros Hc Hr. unfold nodes, run_graph.
    pose proof (visit_no_fuel_heap (graph_handler h) size root graph_init
                  (closed_handler _ h size Hc (graph_handler_edges h)) Hr) as Hf.
    destruct (visit (graph_handler h) size [] root graph_init) as [s [v|e|t|]] eqn:Ev.
    - left. destruct v. apply graph_visit_ok in Ev. destruct Ev as (Hw & Hi & Hc1 & Hc2 & Hn).
      exists (g_nodes s). cbn [to_res bind]. split; [reflexivity|]. split; [apply Hn; constructor|].
      split; [|exact Hw]. intros x. split.
      + intros Hx. apply Hc2 in Hx. destruct Hx as [[]|Hx]. exact Hx.
      + intros [H1 H2]. apply Hc1; auto.
    - exfalso. eapply graph_visit_not_err; eauto.
    - right. split; [reflexivity|]. exists t.
      apply (visit_circ _ (child h) (graph_handler_edges h)) in Ev. destruct Ev as [H1 H2].
      split; [apply rt_part; exact H2|apply trans_on_cycle; exact H1].
    - exfalso. apply Hf. reflexivity.
  Qed.
End Static.
