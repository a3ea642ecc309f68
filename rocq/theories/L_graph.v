(** What is shown of the steps of an expression: the graph and the list of steps. *)
From Verif Require Import Base L_dict L_str M_str M_traverse L_traverse M_expr L_expr1 L_expr5
  M_choicegraph L_choicegraph M_graph.
Open Scope string_scope.
Open Scope list_scope.
Open Scope nat_scope.
Set Default Proof Using "Type".

Section Uses.
  Context {V K : Type} `{EqD K}.
  Variable h : heap V K.

  (** [o] uses the step [c]: [c] is found in [o] without looking into other steps. *)
  Inductive uses : oid -> oid -> Prop :=
  | uses_direct o c : child h o c -> is_expr_at h c -> uses o c
  | uses_through o x c : child h o x -> ~ is_expr_at h x -> uses x c -> uses o c.

  Definition entry (o c : oid) : Prop := (is_expr_at h o /\ c = o) \/ (~ is_expr_at h o /\ uses o c).

  Lemma uses_entry o c : uses o c <-> exists x, child h o x /\ entry x c.
  Proof.
    split.
    - intros U. inversion U; subst.
      + exists c. split; [assumption|left; auto].
      + exists x. split; [assumption|right; auto].
    - intros (x & Hx & [[He ->]|[He U]]).
      + apply uses_direct; assumption.
      + eapply uses_through; eauto.
  Qed.

  Lemma uses_part o c : uses o c -> part_of h o c /\ is_expr_at h c.
  Proof.
    intros U. induction U as [o c Hc He|o x c Hx Hn U [IH1 IH2]].
    - split; [apply part_child; exact Hc|exact He].
    - split; [econstructor; [intros []|exact Hx|exact IH1]|exact IH2].
  Qed.

  Lemma is_expr_at_dec o : {is_expr_at h o} + {~ is_expr_at h o}.
  Proof. unfold is_expr_at. destruct (is_expr (h o)); [left; reflexivity|right; discriminate]. Qed.

  Lemma entry_part o c : entry o c -> part_of h o c /\ is_expr_at h c.
  Proof.
    intros [[He ->]|[_ U]]; [split; [constructor|exact He]|apply uses_part; exact U].
  Qed.

  (** Before each step come the steps it uses. *)
  Definition inputs_first (l : list oid) : Prop :=
    forall l1 x l2, l = l1 ++ x :: l2 -> forall c, uses x c -> In c l1.

  Lemma inputs_first_add l o : inputs_first l -> (forall c, uses o c -> In c l) ->
    inputs_first (add o l).
  Proof.
    intros Hl Ho. unfold add. destruct (mem o l); [exact Hl|].
    intros l1 x l2 E c U. destruct l2 as [|y l2] using rev_ind.
    - apply app_inj_tail in E. destruct E as [-> ->]. apply Ho. exact U.
    - rewrite app_comm_cons, app_assoc in E. apply app_inj_tail in E. destruct E as [-> _].
      eapply Hl; [reflexivity|exact U].
  Qed.

  (** *** Dicts of lists *)
  Definition edge (d : dict oid (list oid)) (a b : oid) : Prop :=
    exists l, dget a d = Some l /\ In b l.
  Definition dict_ok (d : dict oid (list oid)) : Prop :=
    NoDup (dkeys d) /\ forall k l, In (k, l) d -> l <> [].

  Lemma dappend_edge k v d a b : edge (dappend k v d) a b <-> edge d a b \/ (a = k /\ b = v).
  Proof.
    unfold edge, dappend. destruct (dget k d) as [l|] eqn:E.
    - destruct (Nat.eq_dec a k) as [->|Hn].
      + rewrite dget_dset_eq. split.
        * intros (l' & E' & Hb). injection E' as <-. apply in_app_iff in Hb.
          destruct Hb as [Hb|[<-|[]]]; [left; exists l; auto|right; auto].
        * intros [(l' & E' & Hb)|[_ ->]].
          -- rewrite E in E'. injection E' as <-. eexists. split; [reflexivity|]. apply in_app_iff. auto.
          -- eexists. split; [reflexivity|]. apply in_app_iff. simpl. auto.
      + rewrite dget_dset_neq by exact Hn. split; [auto|intros [Hx|[-> _]]; [exact Hx|congruence]].
    - destruct (Nat.eq_dec a k) as [->|Hn].
      + rewrite dget_dset_eq. split.
        * intros (l' & E' & Hb). injection E' as <-. destruct Hb as [<-|[]]. right. auto.
        * intros [(l' & E' & Hb)|[_ ->]]; [congruence|]. eexists. split; [reflexivity|]. simpl. auto.
      + rewrite dget_dset_neq by exact Hn. split; [auto|intros [Hx|[-> _]]; [exact Hx|congruence]].
  Qed.

  Lemma dset_In (d : dict oid (list oid)) k v x : In x (dset k v d) -> x = (k, v) \/ In x d.
  Proof.
    induction d as [|[k' v'] d IH]; simpl.
    - intros [<-|[]]. auto.
    - destruct (eqd k k') as [->|Hn]; simpl; intros [<-|Hx]; auto.
      apply IH in Hx. destruct Hx; auto.
  Qed.

  Lemma dappend_ok k v d : dict_ok d -> dict_ok (dappend k v d).
  Proof.
    intros [Hn Hl]. unfold dappend. destruct (dget k d) as [l|] eqn:E.
    - split; [apply dset_NoDup; exact Hn|]. intros k' l' Hin. apply dset_In in Hin.
      destruct Hin as [Hin|Hin].
      + injection Hin as -> ->. destruct l; discriminate.
      + eapply Hl; eauto.
    - split; [apply dset_NoDup; exact Hn|]. intros k' l' Hin. apply dset_In in Hin.
      destruct Hin as [Hin|Hin].
      + injection Hin as -> ->. discriminate.
      + eapply Hl; eauto.
  Qed.

  (** *** The visit *)
  Notation handler := (graph_handler h).

  Definition good (s : graph_st) : Prop :=
    inputs_first (g_nodes s) /\ dict_ok (g_children s) /\ dict_ok (g_parents s).

  Lemma graph_visit_links : forall d path o s s',
    visit handler d path o s = (s', TOk tt) -> good s ->
    good s' /\ g_current s' = g_current s /\ incl (g_nodes s) (g_nodes s') /\
    (forall x, part_of h o x -> is_expr_at h x -> In x (g_nodes s')) /\
    (forall p c, edge (g_children s') p c <->
       edge (g_children s) p c \/ (hd_error (g_current s) = Some p /\ entry o c) \/
       (part_of h o p /\ is_expr_at h p /\ uses p c)) /\
    (forall p c, edge (g_parents s') c p <->
       edge (g_parents s) c p \/ (hd_error (g_current s) = Some p /\ entry o c) \/
       (part_of h o p /\ is_expr_at h p /\ uses p c)).
  Proof.
    induction d as [|d IH]; intros path o s s' Hv Hg; [discriminate|].
    rewrite graph_visit_S in Hv. apply obind_ok in Hv. destruct Hv as (vs & s1 & Hv & E1).
    injection E1 as E1. set (s0 := if is_expr (h o) then graph_enter o s else s) in Hv.
    assert (Hall : forall items s0 s1 vs,
        visit_all (visit handler d (o :: path)) (o :: path) items s0 = (s1, TOk vs) -> good s0 ->
        good s1 /\ g_current s1 = g_current s0 /\ incl (g_nodes s0) (g_nodes s1) /\
        (forall i x, In i items -> part_of h i x -> is_expr_at h x -> In x (g_nodes s1)) /\
        (forall p c, edge (g_children s1) p c <->
           edge (g_children s0) p c \/
           (exists i, In i items /\ ((hd_error (g_current s0) = Some p /\ entry i c) \/
             (part_of h i p /\ is_expr_at h p /\ uses p c)))) /\
        (forall p c, edge (g_parents s1) c p <->
           edge (g_parents s0) c p \/
           (exists i, In i items /\ ((hd_error (g_current s0) = Some p /\ entry i c) \/
             (part_of h i p /\ is_expr_at h p /\ uses p c))))).
    { clear - IH. induction items as [|i items IHi]; intros s0 s1 vs Ha Hg.
      - cbn [visit_all] in Ha. injection Ha as -> _. split; [exact Hg|]. split; [reflexivity|].
        split; [intros x Hx; exact Hx|]. split; [intros ? ? []|].
        split; intros p c; (split; [auto|intros [Hx|(i & [] & _)]; exact Hx]).
      - apply visit_all_cons_ok in Ha. destruct Ha as (v & s2 & vs' & _ & Hc & Hrest & _).
        destruct v. apply IH in Hc; [|exact Hg]. destruct Hc as (Hg2 & Ec2 & Hi2 & Hr2 & He2 & Hp2).
        apply IHi in Hrest; [|exact Hg2]. destruct Hrest as (Hg1 & Ec1 & Hi1 & Hr1 & He1 & Hp1).
        split; [exact Hg1|]. split; [congruence|]. split; [intros x Hx; apply Hi1, Hi2; exact Hx|].
        split; [intros i' x [<-|Hx] Hp Hx'; [apply Hi1, Hr2; assumption|eapply Hr1; eauto]|].
        split; intros p c.
        + rewrite He1, He2, Ec2. split.
          * intros [[Hx|Hx]|(i' & Hx & Hy)]; [left; exact Hx|right; exists i; split; [left; reflexivity|exact Hx]|].
            right. exists i'. split; [right; exact Hx|exact Hy].
          * intros [Hx|(i' & [<-|Hx] & Hy)]; [auto|auto|]. right. exists i'. auto.
        + rewrite Hp1, Hp2, Ec2. split.
          * intros [[Hx|Hx]|(i' & Hx & Hy)]; [left; exact Hx|right; exists i; split; [left; reflexivity|exact Hx]|].
            right. exists i'. split; [right; exact Hx|exact Hy].
          * intros [Hx|(i' & [<-|Hx] & Hy)]; [auto|auto|]. right. exists i'. auto. }
    assert (Hg0 : good s0).
    { unfold s0. destruct (is_expr (h o)); [|exact Hg]. destruct Hg as (Hg1 & Hg2 & Hg3).
      unfold graph_enter. destruct (g_current s); simpl; (split; [exact Hg1|]); simpl;
        split; auto using dappend_ok. }
    apply Hall in Hv; [|exact Hg0]. destruct Hv as (Hg1 & Ec & Hi & Hr & He & Hp). clear Hall.
    assert (Hsub : forall p c (Z : Prop), (part_of h o p /\ is_expr_at h p /\ uses p c) <->
              (is_expr_at h o /\ p = o /\ uses o c) \/
              (exists i, In i (children (h o)) /\ part_of h i p /\ is_expr_at h p /\ uses p c)).
    { intros p c _. split.
      - intros (Hop & Hep & U). inversion Hop as [|? i ? _ Hi' Hip]; subst.
        + left. auto.
        + right. exists i. auto.
      - intros [(Hep & -> & U)|(i & Hi' & Hip & Hep & U)].
        + split; [constructor|auto].
        + split; [econstructor; [intros []|exact Hi'|exact Hip]|auto]. }
    destruct (is_expr (h o)) eqn:Eo.
    - assert (Ho : is_expr_at h o) by exact Eo.
      assert (E0 : g_current s0 = o :: g_current s /\ g_nodes s0 = g_nodes s).
      { unfold s0, graph_enter. destruct (g_current s) eqn:Eg; simpl; rewrite ?Eg; auto. }
      destruct E0 as [E0 E0'].
      assert (Hen : forall c, entry o c <-> c = o).
      { intros c. unfold entry. split; [intros [[_ ->]|[Hn _]]; [reflexivity|contradiction]|]. intros ->. left. auto. }
      assert (Ech : forall p c, edge (g_children s0) p c <-> edge (g_children s) p c \/ (hd_error (g_current s) = Some p /\ c = o)).
      { intros p c. unfold s0, graph_enter. destruct (g_current s) as [|q cur] eqn:Eg; simpl.
        - split; [auto|intros [Hx|[Hx _]]; [exact Hx|discriminate]].
        - rewrite dappend_edge. split; (intros [Hx|[Hx Hy]]; [auto|right; split; congruence]). }
      assert (Epa : forall p c, edge (g_parents s0) c p <-> edge (g_parents s) c p \/ (hd_error (g_current s) = Some p /\ c = o)).
      { intros p c. unfold s0, graph_enter. destruct (g_current s) as [|q cur] eqn:Eg; simpl.
        - split; [auto|intros [Hx|[Hx _]]; [exact Hx|discriminate]].
        - rewrite dappend_edge. split; (intros [Hx|[Hx Hy]]; [auto|right; split; congruence]). }
      assert (Hgo : forall p c, (exists i, In i (children (h o)) /\ ((hd_error (g_current s0) = Some p /\ entry i c) \/
             (part_of h i p /\ is_expr_at h p /\ uses p c))) <-> (part_of h o p /\ is_expr_at h p /\ uses p c)).
      { intros p c. rewrite (Hsub p c True), E0. simpl. split.
        - intros (i & Hi' & [[Ep Hent]|Hy]).
          + left. injection Ep as <-. split; [exact Ho|]. split; [reflexivity|]. apply uses_entry. exists i. auto.
          + right. exists i. auto.
        - intros [(_ & -> & U)|(i & Hi' & Hy)].
          + apply uses_entry in U. destruct U as (i & Hi' & Hent). exists i. split; [exact Hi'|left; auto].
          + exists i. auto. }
      rewrite <- E1. unfold good, graph_leave. simpl.
      destruct Hg1 as (Hg1 & Hg2 & Hg3). split; [split; [|split; assumption]|].
      + apply inputs_first_add; [exact Hg1|]. intros c U. apply uses_entry in U. destruct U as (i & Hi' & Hent).
        apply entry_part in Hent. eapply Hr; [exact Hi'|apply Hent|apply Hent].
      + split; [rewrite Ec, E0; reflexivity|]. split; [intros x Hx; apply in_add; right; apply Hi; rewrite E0'; exact Hx|].
        split; [|split; intros p c].
        * intros x Hx Hex. apply in_add. inversion Hx as [|? i ? _ Hi' Hix]; subst; [auto|]. right. eapply Hr; eauto.
        * rewrite He, Ech, Hgo, Hen. tauto.
        * rewrite Hp, Epa, Hgo, Hen. tauto.
    - assert (Ho : ~ is_expr_at h o) by (unfold is_expr_at; congruence).
      assert (Hgo : forall p c, (exists i, In i (children (h o)) /\ ((hd_error (g_current s) = Some p /\ entry i c) \/
             (part_of h i p /\ is_expr_at h p /\ uses p c))) <->
             ((hd_error (g_current s) = Some p /\ entry o c) \/ (part_of h o p /\ is_expr_at h p /\ uses p c))).
      { intros p c. rewrite (Hsub p c True). unfold entry at 2. split.
        - intros (i & Hi' & [[Ep Hent]|Hy]).
          + left. split; [exact Ep|]. right. split; [exact Ho|]. apply uses_entry. exists i. auto.
          + right. right. exists i. auto.
        - intros [(Ep & [[Hn _]|[_ U]])|[(Hn & _)|(i & Hi' & Hy)]]; try contradiction.
          + apply uses_entry in U. destruct U as (i & Hi' & Hent). exists i. auto.
          + exists i. auto. }
      rewrite <- E1. unfold s0 in *. split; [exact Hg1|]. split; [exact Ec|]. split; [exact Hi|].
      split; [|split; intros p c].
      + intros x Hx Hex. inversion Hx as [|? i ? _ Hi' Hix]; subst; [contradiction|]. eapply Hr; eauto.
      + rewrite He, Hgo. tauto.
      + rewrite Hp, Hgo. tauto.
  Qed.
End Uses.
