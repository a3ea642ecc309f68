(** The graph is exact; the cost of traversals; the list of steps. *)
From Verif Require Import Base L_dict L_str M_str M_traverse L_traverse M_expr L_expr1 L_expr5
  M_choicegraph L_choicegraph M_graph L_graph.
From Coq Require Import Relations.Relation_Operators.
Open Scope string_scope.
Open Scope list_scope.
Open Scope nat_scope.
Set Default Proof Using "Type".

Definition lookup (i : nat) (d : dict nat (list nat)) : list nat :=
  match dget i d with Some l => l | None => [] end.

Lemma unique_NoDup : forall l : list oid, NoDup (unique l).
Proof.
  induction l as [|x l IH]; simpl; constructor.
  - intros Hx. apply filter_In in Hx. destruct Hx as [_ Hx]. unfold eqb_of in Hx.
    destruct (eqd x x); [discriminate|congruence].
  - apply NoDup_filter. exact IH.
Qed.

Definition idx (ns : list oid) (c : oid) : nat := match index_of c ns with Ok i => i | Err _ => 0 end.

Lemma idx_ok ns c : In c ns -> index_of c ns = Ok (idx ns c) /\ nth_error ns (idx ns c) = Some c.
Proof.
  intros Hc. destruct (index_of_in ns c Hc) as (i & E). unfold idx. rewrite E.
  split; [reflexivity|]. apply index_of_nth. exact E.
Qed.

Lemma idx_lt ns c : In c ns -> idx ns c < length ns.
Proof. intros Hc. apply nth_error_Some. destruct (idx_ok ns c Hc) as [_ ->]. discriminate. Qed.

Lemma idx_inj ns a b : In a ns -> In b ns -> idx ns a = idx ns b -> a = b.
Proof.
  intros Ha Hb E. destruct (idx_ok ns a Ha) as [_ Ea]. destruct (idx_ok ns b Hb) as [_ Eb].
  rewrite E in Ea. congruence.
Qed.

Lemma idx_nth ns c i : NoDup ns -> nth_error ns i = Some c -> idx ns c = i.
Proof. intros Hn E. unfold idx. rewrite (nth_index ns c i Hn E). reflexivity. Qed.

Lemma NoDup_map_in {A B} (f : A -> B) : forall l, (forall a b, In a l -> In b l -> f a = f b -> a = b) ->
  NoDup l -> NoDup (map f l).
Proof.
  induction l as [|x l IH]; intros Hf Hn; simpl; [constructor|]. inversion Hn; subst. constructor.
  - intros Hx. apply in_map_iff in Hx. destruct Hx as (y & E & Hy).
    apply Hf in E; [subst; contradiction|right; exact Hy|left; reflexivity].
  - apply IH; [|assumption]. intros a b Ha Hb. apply Hf; right; assumption.
Qed.

Lemma short_spec ns d : NoDup ns -> dict_ok d ->
  (forall a b, edge d a b -> In a ns /\ In b ns) ->
  exists d', short_dict ns d = Ok d' /\ NoDup (dkeys d') /\
    (forall k l, In (k, l) d' -> k < length ns /\ l <> [] /\ NoDup l /\ forall j, In j l -> j < length ns) /\
    (forall i j a b, nth_error ns i = Some a -> nth_error ns j = Some b ->
       (In j (lookup i d') <-> edge d a b)).
Proof.
  intros Hns [Hnd Hne] Hin.
  assert (Hk : forall k l, In (k, l) d -> In k ns /\ forall c, In c l -> In c ns).
  { intros k l Hkl. pose proof (proj2 (dget_In_iff d k l Hnd) Hkl) as E. split.
    - destruct l as [|c l]; [exfalso; eapply Hne; eauto|].
      apply (Hin k c). exists (c :: l). split; [exact E|left; reflexivity].
    - intros c Hc. apply (Hin k c). exists l. auto. }
  set (g := fun kl : oid * list oid => (idx ns (fst kl), map (idx ns) (unique (snd kl)))).
  exists (map g d). split.
  { unfold short_dict. apply mapM_total. intros [k l] Hkl. destruct (Hk k l Hkl) as [H1 H2]. simpl.
    destruct (idx_ok ns k H1) as [-> _]. cbn [bind].
    rewrite (mapM_total _ (idx ns)); [reflexivity|]. intros c Hc. rewrite unique_in in Hc. apply idx_ok. apply H2. exact Hc. }
  assert (Ekeys : dkeys (map g d) = map (idx ns) (dkeys d)).
  { unfold dkeys. rewrite !map_map. reflexivity. }
  assert (Hnd' : NoDup (dkeys (map g d))).
  { rewrite Ekeys. apply NoDup_map_in; [|exact Hnd]. intros a b Ha Hb.
    apply in_map_iff in Ha. destruct Ha as ([a' la] & <- & Ha). apply in_map_iff in Hb. destruct Hb as ([b' lb] & <- & Hb).
    apply idx_inj; [exact (proj1 (Hk a' la Ha))|exact (proj1 (Hk b' lb Hb))]. }
  split; [exact Hnd'|]. split.
  - intros k l Hkl. apply in_map_iff in Hkl. destruct Hkl as ([k' l'] & E & Hkl). injection E as <- <-.
    destruct (Hk k' l' Hkl) as [H1 H2]. split; [apply idx_lt; exact H1|]. split; [|split].
    + pose proof (Hne k' l' Hkl) as Hl. simpl. destruct l' as [|c l']; [congruence|discriminate].
    + simpl. apply NoDup_map_in; [|apply unique_NoDup]. intros a b Ha Hb. rewrite unique_in in Ha, Hb.
      apply idx_inj; auto.
    + simpl. intros j Hj. apply in_map_iff in Hj. destruct Hj as (c & <- & Hc). rewrite unique_in in Hc. apply idx_lt. auto.
  - intros i j a b Ei Ej. unfold lookup. split.
    + destruct (dget i (map g d)) as [l|] eqn:E; [|intros []]. intros Hj.
      apply dget_In_weak in E. apply in_map_iff in E. destruct E as ([k' l'] & E & Hkl). injection E as E1 <-.
      destruct (Hk k' l' Hkl) as [H1 H2]. destruct (idx_ok ns k' H1) as [_ E2]. simpl in E1, Hj.
      apply in_map_iff in Hj. destruct Hj as (c & E3 & Hc). rewrite unique_in in Hc.
      destruct (idx_ok ns c (H2 c Hc)) as [_ E4].
      assert (k' = a) by (rewrite E1 in E2; congruence). assert (c = b) by (rewrite E3 in E4; congruence). subst.
      exists l'. split; [apply dget_In_iff; assumption|exact Hc].
    + intros (l & E & Hb). apply dget_In_weak in E. destruct (Hk a l E) as [H1 H2].
      assert (E' : In (g (a, l)) (map g d)) by (apply in_map; exact E).
      change (In (idx ns a, map (idx ns) (unique l)) (map g d)) in E'.
      apply dget_In_iff in E'; [|exact Hnd']. rewrite (idx_nth ns a i Hns Ei) in E'. rewrite E'.
      apply in_map_iff. exists b. split; [apply idx_nth; assumption|apply unique_in; exact Hb].
Qed.

Section Exact.
  Context {V K : Type} `{EqD K}.
  Variable h : heap V K.

  Lemma part_uses o x : part_of h o x -> is_expr_at h x ->
    o = x \/ exists y, uses h o y /\ clos_refl_trans_1n oid (uses h) y x.
  Proof.
    intros Hp Hx. induction Hp as [|o c x _ Hc Hp IH]; [auto|]. right.
    destruct (is_expr_at_dec h c) as [He|Hn].
    - exists c. split; [apply uses_direct; assumption|]. destruct (IH Hx) as [->|(y & U & Hy)]; [constructor|].
      econstructor; eauto.
    - destruct (IH Hx) as [->|(y & U & Hy)]; [contradiction|]. exists y. split; [|exact Hy].
      eapply uses_through; eauto.
  Qed.

  Lemma order_uses ns i j a b : inputs_first h ns -> NoDup ns -> nth_error ns i = Some a -> nth_error ns j = Some b ->
    uses h a b -> j < i.
  Proof.
    intros Ho Hn Ei Ej U. destruct (nth_error_split _ _ Ei) as (l1 & l2 & -> & El).
    pose proof (Ho l1 a l2 eq_refl b U) as Hb. apply In_nth_error in Hb. destruct Hb as (j' & Ej').
    assert (Hlt : j' < length l1) by (apply nth_error_Some; congruence).
    assert (nth_error (l1 ++ a :: l2) j' = Some b) by (rewrite nth_error_app1; assumption).
    assert (j = j').
    { eapply NoDup_nth_error; [exact Hn| |congruence]. apply nth_error_Some. congruence. }
    lia.
  Qed.

  Lemma order_before ns i j a b : inputs_first h ns -> NoDup ns -> nth_error ns i = Some a -> nth_error ns j = Some b ->
    part_of h a b -> is_expr_at h b -> a <> b -> j < i.
  Proof.
    intros Ho Hn Ei Ej Hp Hb Hne. destruct (part_uses a b Hp Hb) as [->|(y & U & Hy)]; [congruence|].
    clear Hp Hne Hb. revert i a Ei U. induction Hy as [y|y z x Uyz Hyx IH]; intros i a Ei U.
    - eapply order_uses; eauto.
    - assert (Hyin : In y ns).
      { destruct (nth_error_split _ _ Ei) as (l1 & l2 & E & El). rewrite E. apply in_or_app. left. eapply Ho; eauto. }
      apply In_nth_error in Hyin. destruct Hyin as (k & Ek).
      assert (k < i) by (eapply order_uses; eauto).
      assert (j < k) by (eapply (IH Ej k y); eauto). lia.
  Qed.

  (** The graph of an expression that does not contain itself. *)
  Theorem graph_exact size root : closed h size -> root < size -> acyclic h root ->
    exists g ns, graph h size root = Ok g /\
      NoDup ns /\ (forall x, In x ns <-> part_of h root x /\ is_expr_at h x) /\
      sg_nodes g = combine (seq 0 (length ns)) ns /\
      NoDup (dkeys (sg_children g)) /\ NoDup (dkeys (sg_parents g)) /\
      (forall k l, In (k, l) (sg_children g) \/ In (k, l) (sg_parents g) ->
         k < length ns /\ l <> [] /\ NoDup l /\ forall j, In j l -> j < length ns) /\
      (forall i j a b, nth_error ns i = Some a -> nth_error ns j = Some b ->
         (In j (lookup i (sg_children g)) <-> uses h a b) /\
         (In i (lookup j (sg_parents g)) <-> uses h a b) /\
         (part_of h a b -> a <> b -> j < i)).
  Proof.
    intros Hc Hr Hac. unfold graph.
    pose proof (visit_no_fuel_heap (graph_handler h) size root graph_init
                  (closed_handler _ h size Hc (graph_handler_edges h)) Hr) as Hf.
    unfold run_graph. destruct (visit (graph_handler h) size [] root graph_init) as [s [v|e|t|]] eqn:Ev.
    - destruct v. cbn [to_res bind]. pose proof (graph_visit_ok _ _ _ _ _ _ Ev) as (_ & _ & Hc1 & Hc2 & Hn).
      assert (Hg0 : good h graph_init).
      { split; [|split; (split; [constructor|intros ? ? []])]. intros l1 x l2 E. destruct l1; discriminate. }
      pose proof (graph_visit_links _ _ _ _ _ _ Ev Hg0) as ((Hg1 & Hg2 & Hg3) & _ & _ & _ & He & Hp).
      specialize (Hn (NoDup_nil _)). simpl in Hc2.
      assert (Hin : forall x, In x (g_nodes s) <-> part_of h root x /\ is_expr_at h x).
      { intros x. split; [intros Hx; apply Hc2 in Hx; destruct Hx as [[]|Hx]; exact Hx|intros [H1 H2]; auto]. }
      assert (He' : forall p c, edge (g_children s) p c <-> part_of h root p /\ is_expr_at h p /\ uses h p c).
      { intros p c. rewrite He. simpl. split; [|auto]. intros [(l & E & _)|[[E _]|Hx]]; [discriminate|discriminate|exact Hx]. }
      assert (Hp' : forall p c, edge (g_parents s) c p <-> part_of h root p /\ is_expr_at h p /\ uses h p c).
      { intros p c. rewrite Hp. simpl. split; [|auto]. intros [(l & E & _)|[[E _]|Hx]]; [discriminate|discriminate|exact Hx]. }
      assert (Hboth : forall p c, part_of h root p /\ is_expr_at h p /\ uses h p c -> In p (g_nodes s) /\ In c (g_nodes s)).
      { intros p c (H1 & H2 & U). split; apply Hin; [auto|]. pose proof (uses_part _ _ _ U) as [H3 H4].
        split; [eapply reach_trans; eauto|exact H4]. }
      destruct (short_spec (g_nodes s) (g_children s) Hn Hg2) as (ch & Ech & Hch1 & Hch2 & Hch3).
      { intros a b Hab. apply Hboth. apply He'. exact Hab. }
      destruct (short_spec (g_nodes s) (g_parents s) Hn Hg3) as (pa & Epa & Hpa1 & Hpa2 & Hpa3).
      { intros a b Hab. apply and_comm. apply Hboth. apply Hp'. exact Hab. }
      rewrite Ech. cbn [bind]. rewrite Epa. cbn [bind]. eexists _, (g_nodes s). split; [reflexivity|].
      split; [exact Hn|]. split; [exact Hin|]. cbn [sg_nodes sg_children sg_parents].
      split; [reflexivity|]. split; [exact Hch1|]. split; [exact Hpa1|]. split.
      + intros k l [Hkl|Hkl]; [apply Hch2|apply Hpa2]; exact Hkl.
      + intros i j a b Ei Ej. assert (Ha : In a (g_nodes s)) by (eapply nth_error_In; eauto).
        assert (Hb : In b (g_nodes s)) by (eapply nth_error_In; eauto). apply Hin in Ha, Hb. split; [|split].
        * rewrite (Hch3 i j a b Ei Ej), He'. tauto.
        * rewrite (Hpa3 j i b a Ej Ei), Hp'. tauto.
        * intros Hab Hne. eapply order_before; eauto. apply Hb.
    - exfalso. eapply graph_visit_not_err; eauto.
    - exfalso. apply (visit_circ _ (child h) (graph_handler_edges h)) in Ev. destruct Ev as [H1 H2].
      apply (Hac t); [apply rt_part; exact H2|apply trans_on_cycle; exact H1].
    - exfalso. apply Hf. reflexivity.
  Qed.

  Lemma dot_id_inj a b : dot_id a = dot_id b -> a = b.
  Proof. unfold dot_id. intros E. injection E as E. apply str_nat_inj. exact E. Qed.

  Lemma combine_seq_in {A} (l : list A) : forall k i x, In (i, x) (combine (seq k (length l)) l) <->
    exists j, i = k + j /\ nth_error l j = Some x.
  Proof.
    induction l as [|y l IH]; intros k i x; simpl.
    - split; [intros []|intros (j & _ & E); destruct j; discriminate].
    - rewrite IH. split.
      + intros [E|(j & -> & E)]; [injection E as <- <-; exists 0; split; [lia|reflexivity]|].
        exists (S j). split; [lia|exact E].
      + intros (j & -> & E). destruct j as [|j]; simpl in E; [left; f_equal; [lia|congruence]|].
        right. exists j. split; [lia|exact E].
  Qed.

  (** The drawing: one box per step, one arrow from each step to each step that uses it. *)
  Theorem draw_exact size root : closed h size -> root < size -> acyclic h root ->
    exists boxes arrows, draw h size root = Ok (boxes, arrows) /\
      NoDup (map fst boxes) /\ NoDup (map snd boxes) /\ NoDup arrows /\
      (forall x, In x (map snd boxes) <-> part_of h root x /\ is_expr_at h x) /\
      (forall u v, In (u, v) arrows <->
         exists a b, In (u, a) boxes /\ In (v, b) boxes /\ uses h b a).
  Proof.
    intros Hc Hr Hac. destruct (graph_exact size root Hc Hr Hac)
      as (g & ns & Eg & Hn & Hin & En & Hk1 & _ & Hl & Hlink). unfold draw. rewrite Eg. cbn [bind].
    eexists _, _. split; [reflexivity|].
    assert (Ebox : forall u a, In (u, a) (map (fun n : nat * oid => (dot_id (fst n), snd n)) (sg_nodes g)) <->
              exists i, u = dot_id i /\ nth_error ns i = Some a).
    { intros u a. rewrite in_map_iff, En. split.
      - intros ([i x] & E & Hx). injection E as <- <-. apply combine_seq_in in Hx. destruct Hx as (j & -> & E). exists j. auto.
      - intros (i & -> & E). exists (i, a). split; [reflexivity|]. apply combine_seq_in. exists i. auto. }
    assert (Esnd : map snd (map (fun n : nat * oid => (dot_id (fst n), snd n)) (sg_nodes g)) = ns).
    { rewrite map_map, En. clear. generalize 0. induction ns as [|x l IH]; intros k; simpl; [reflexivity|]. f_equal. apply IH. }
    assert (Efst : map fst (map (fun n : nat * oid => (dot_id (fst n), snd n)) (sg_nodes g)) = map dot_id (seq 0 (length ns))).
    { rewrite map_map, En. clear. generalize 0. induction ns as [|x l IH]; intros k; simpl; [reflexivity|]. f_equal. apply IH. }
    split; [rewrite Efst; apply NoDup_map_in; [intros a b _ _; apply dot_id_inj|apply seq_NoDup]|].
    split; [rewrite Esnd; exact Hn|]. split; [|split].
    - assert (Hl' : forall k l, In (k, l) (sg_children g) -> NoDup l) by (intros k l Hkl; apply (Hl k l); auto).
      clear - Hk1 Hl'. induction (sg_children g) as [|[k l] d IH]; simpl; [constructor|]. inversion Hk1; subst.
      apply NoDup_app_intro.
      + apply NoDup_map_in; [|apply (Hl' k l); left; reflexivity]. intros a b _ _ E. injection E as E. apply str_nat_inj. exact E.
      + apply IH; [assumption|]. intros k' l' Hk. apply (Hl' k' l'). right. exact Hk.
      + intros x Hx Hy. apply in_map_iff in Hx. destruct Hx as (a & <- & _). apply in_flat_map in Hy.
        destruct Hy as ([k' l'] & Hd & Hy). apply in_map_iff in Hy. destruct Hy as (b & E & _).
        injection E as _ E. apply str_nat_inj in E. simpl in E. subst k'. apply H1. change k with (fst (k, l')). apply in_map. exact Hd.
    - intros x. rewrite Esnd. apply Hin.
    - intros u v. rewrite in_flat_map. split.
      + intros ([k l] & Hkl & Hx). apply in_map_iff in Hx. destruct Hx as (j & E & Hj). injection E as <- <-.
        simpl in Hj. destruct (Hl k l (or_introl Hkl)) as (H1 & _ & _ & H2). specialize (H2 j Hj).
        destruct (nth_error ns k) as [b|] eqn:Ek; [|apply nth_error_None in Ek; lia].
        destruct (nth_error ns j) as [a|] eqn:Ej; [|apply nth_error_None in Ej; lia].
        exists a, b. split; [apply Ebox; exists j; auto|]. split; [apply Ebox; exists k; auto|].
        apply (proj1 (Hlink k j b a Ek Ej)). unfold lookup. apply dget_In_iff in Hkl; [|exact Hk1]. rewrite Hkl. exact Hj.
      + intros (a & b & Ha & Hb & U). apply Ebox in Ha, Hb. destruct Ha as (j & -> & Ej). destruct Hb as (k & -> & Ek).
        apply (proj2 (proj1 (Hlink k j b a Ek Ej))) in U. unfold lookup in U. destruct (dget k (sg_children g)) as [l|] eqn:E; [|destruct U].
        exists (k, l). split; [apply dget_In_weak; exact E|]. apply in_map_iff. exists j. auto.
  Qed.
End Exact.
