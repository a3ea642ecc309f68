(** Asking a pipeline for its classes. *)
From Verif Require Import Base L_dict M_traverse L_traverse M_expr L_expr1 L_expr2 L_expr3 L_expr4 L_expr5 L_expr6 L_expr7.
From Verif Require Import M_grid M_choicegraph L_conflicts L_choicegraph L_choicegraph2 M_clone M_check L_check L_namespace3.
From Verif Require Import L_estimator1 M_estimator L_estimator3 L_kind M_kind.
From Coq Require Import Relations.Relation_Operators Relations.Operators_Properties.
Open Scope string_scope.
Open Scope list_scope.
Open Scope nat_scope.
Set Default Proof Using "Type".

(** ** A search does not depend on how it got where it starts *)
Section Move.
  Context {A S : Type}.
  Variables g1 g2 : oid -> gen A S.
  Variable E : oid -> oid -> Prop.
  Hypothesis Hedge : forall o, gen_all (E o) (g1 o).
  Notation reaches := (clos_refl_trans_1n oid E).

  Lemma run_gen_move vc1 vc2 p1 p2 (g : gen A S) (P : oid -> Prop) :
    (forall t s s' r, P t -> ~ In t p1 -> vc1 t s = (s', r) -> (forall c, r <> TCirc c) -> r <> TFuel -> vc2 t s = (s', r)) ->
    (forall t, P t -> ~ In t p1 -> ~ In t p2) ->
    gen_all P g -> forall s s' r, run_gen vc1 p1 g s = (s', r) -> (forall c, r <> TCirc c) -> r <> TFuel ->
    run_gen vc2 p2 g s = (s', r).
  Proof.
    intros Hvc Hp. induction g as [v|ex|t k IH|k IH|s1 g IH]; intros Hg s s' r Er Hc Hf; cbn [run_gen gen_all] in *.
    - exact Er.
    - exact Er.
    - destruct Hg as [Ht Hk]. destruct (mem t p1) eqn:Em; [injection Er as <- <-; exfalso; eapply Hc; reflexivity|].
      apply mem_false in Em. assert (Em2 : mem t p2 = false) by (apply mem_false; apply Hp; assumption). rewrite Em2.
      destruct (vc1 t s) as [s2 r2] eqn:Ev.
      assert (Hr2 : (forall c, r2 <> TCirc c) /\ r2 <> TFuel).
      { split; [intros c ->; injection Er as <- <-; eapply Hc; reflexivity|].
        intros ->. injection Er as <- <-. apply Hf. reflexivity. }
      destruct Hr2 as [Hc2 Hf2].
      rewrite (Hvc t s s2 r2 Ht Em Ev Hc2 Hf2). destruct r2; auto.
    - apply IH; auto.
    - apply IH; auto.
  Qed.

  (** The visit of [o] is the same with other handlers that agree on what [o] reaches, a larger
      depth and another path. *)
  Lemma visit_move : forall d1 d2 p1 p2 o s s' r,
    d1 <= d2 ->
    (forall x, reaches o x -> g2 x = g1 x) ->
    (forall x, reaches o x -> ~ clos_trans oid E x x) ->
    (forall x, reaches o x -> ~ In x p2) ->
    visit g1 d1 p1 o s = (s', r) -> (forall c, r <> TCirc c) -> r <> TFuel ->
    visit g2 d2 p2 o s = (s', r).
  Proof using Hedge.
    induction d1 as [|d1 IH]; intros d2 p1 p2 o s s' r Hd Hg Ha Hp Ev Hc Hf; cbn [visit] in Ev.
    - injection Ev as <- <-. contradiction.
    - destruct d2 as [|d2]; [lia|]. cbn [visit]. rewrite (Hg o (rt1n_refl _ _ _)).
      eapply (run_gen_move (visit g1 d1 (o :: p1)) (visit g2 d2 (o :: p2)) (o :: p1) (o :: p2) (g1 o) (E o)); eauto.
      + intros t s1 s2 r2 Ht Hnt Ev2 Hc2 Hf2.
        assert (Hot : forall x, reaches t x -> reaches o x) by (intros x Hx; econstructor; eauto).
        eapply (IH d2 (o :: p1)); eauto; [lia|].
        intros x Hx [<-|Hin]; [|exact (Hp x (Hot x Hx) Hin)].
        apply (Ha t); [econstructor; [exact Ht|constructor]|].
        eapply clos_rt_t; [apply clos_rt1n_rt; exact Hx|apply t_step; exact Ht].
      + intros t Ht Hnt [<-|Hin]; [apply Hnt; left; reflexivity|].
        apply (Hp t); [econstructor; [exact Ht|constructor]|exact Hin].
  Qed.
End Move.

(** ** The memory with an attribute of the expression *)
Section Attr.
  Context {V K F : Type} `{EqD K}.
  Variable ext : externals V K F.
  Variable hash_obj : oid -> res K.
  Variable is_df : V -> bool.
  Variable str : string -> V.
  Variable h : heap V K.
  Variable size : nat.
  Variable root : oid.
  Variable name : string.
  Hypothesis Hclosed : closed h size.
  Hypothesis Hroot : root < size.
  Hypothesis Hacyclic : acyclic h root.
  Hypothesis Hstr : is_df (str name) = false.

  Let h1 := extend h size [OValue (str name)].
  Let node : obj V K := OExpr (IOp "GetAttr" [("source_object", root); ("attr_name", size)]) None false false.
  Let h2 := with_attr str h size root name.
  Let n := S size.

  Lemma closed1 : closed h1 (S size).
  Proof using Hclosed. apply closed_extend; [exact Hclosed|]. intros c []. Qed.
  Lemma h2_old x : x < size -> h2 x = h x.
  Proof. intros Hx. unfold h2, with_attr. rewrite (extend_old _ (S size) _ x) by (apply Nat.lt_lt_succ_r; exact Hx). apply extend_old. exact Hx. Qed.
  Lemma h2_str : h2 size = OValue (str name).
  Proof. unfold h2, with_attr. rewrite extend_old by apply Nat.lt_succ_diag_r. apply extend_new. Qed.
  Lemma h2_node : h2 n = node.
  Proof. unfold h2, with_attr. apply extend_new. Qed.
  Lemma children2 c : In c (children node) -> c < S size /\ acyclic h1 c.
  Proof using Hclosed Hroot Hacyclic.
    cbn. intros [<-|[<-|[]]].
    - split; [lia|]. intros x Hx Hcy.
      destruct (part_of_extend h size (OValue (str name)) root x Hclosed Hroot Hx) as [Hp Hl].
      apply (Hacyclic x Hp). destruct Hcy as (c & Hin & Hcx). unfold h1 in Hin. rewrite extend_old in Hin by exact Hl.
      exists c. split; [exact Hin|]. eapply part_of_extend; eauto.
    - split; [lia|]. intros x Hx (c & Hin & _).
      assert (x = size) as ->.
      { inversion Hx as [|? c0 ? _ Hin0 _]; subst; [reflexivity|]. unfold h1 in Hin0. rewrite extend_new in Hin0. destruct Hin0. }
      unfold h1 in Hin. rewrite extend_new in Hin. destruct Hin.
  Qed.
  Lemma closed2 : closed h2 (S n).
  Proof using Hclosed Hroot Hacyclic. apply closed_extend; [apply closed1|]. intros c Hc. apply children2. exact Hc. Qed.
  Lemma acyclic2 : acyclic h2 n.
  Proof using Hclosed Hroot Hacyclic. apply acyclic_extend; [apply closed1|]. exact children2. Qed.

  Lemma part2_old x y : x < size -> part_of h2 x y -> part_of h x y /\ y < size.
  Proof using Hclosed.
    intros Hx Hp. induction Hp as [x|x c y Hs Hin _ IH]; [split; [constructor|exact Hx]|].
    rewrite h2_old in Hin by exact Hx. pose proof (Hclosed x c Hx Hin) as Hcl.
    destruct (IH Hcl) as [Hpt Hlt]. split; [|exact Hlt]. econstructor; eauto.
  Qed.
  Lemma part2 x : part_of h2 n x -> x = n \/ x = size \/ (x < size /\ part_of h root x).
  Proof using Hclosed Hroot.
    intros Hx. inversion Hx as [|? c ? _ Hin Hc]; subst; [auto|]. rewrite h2_node in Hin. cbn in Hin.
    destruct Hin as [<-|[<-|[]]].
    - destruct (part2_old root x Hroot Hc). auto.
    - right. left. inversion Hc as [|? c0 ? _ Hin0 _]; subst; [reflexivity|]. rewrite h2_str in Hin0. destruct Hin0.
  Qed.
  Lemma part2_up x y : x < size -> part_of h x y -> part_of h2 x y.
  Proof using Hclosed.
    intros Hx Hp. revert Hx. induction Hp as [x|x c y Hs Hin _ IH]; intros Hx; [constructor|].
    econstructor; [intros []|rewrite h2_old by exact Hx; exact Hin|]. apply IH. eapply Hclosed; eauto.
  Qed.

  (** *** What was valid stays valid *)
  Lemma no_conflict2 : no_conflict h root -> no_conflict h2 n.
  Proof using Hclosed Hroot.
    intros Hn a b l Ha Hb Ca Cb.
    assert (Hcase : forall x, part_of h2 n x -> carries h2 x l -> part_of h root x /\ carries h x l).
    { intros x Hx Cx. destruct (part2 x Hx) as [->|[->|[Hl Hp]]].
      - unfold carries in Cx. rewrite h2_node in Cx. unfold node in Cx. destruct l; try discriminate Cx.
      - unfold carries in Cx. rewrite h2_str in Cx. destruct Cx.
      - split; [exact Hp|]. unfold carries in *. rewrite h2_old in Cx by exact Hl. exact Cx. }
    destruct (Hcase a Ha Ca). destruct (Hcase b Hb Cb). eapply Hn; eauto.
  Qed.

  Lemma bare2 d : (forall d, ~ bare_dataframe is_df h root d) -> ~ bare_dataframe is_df h2 n d.
  Proof using Hclosed Hroot Hstr.
    intros Hno [Hr (v & Ev & Hv)].
    assert (Hold : forall x, x < size -> reach h2 (holds_value h2) x d -> reach h (holds_value h) x d /\ d < size).
    { intros x Hx Hp. induction Hp as [x|x c y Hs Hin _ IH]; [split; [constructor|exact Hx]|].
      rewrite h2_old in Hin by exact Hx. pose proof (Hclosed x c Hx Hin) as Hcl.
      destruct (IH Hr Ev Hcl) as [Hpt Hlt]. split; [|exact Hlt]. econstructor; eauto.
      intros Hh. apply Hs. unfold holds_value in *. rewrite h2_old by exact Hx. exact Hh. }
    inversion Hr as [|? c ? _ Hin Hc]; subst; [rewrite h2_node in Ev; discriminate|].
    rewrite h2_node in Hin. cbn in Hin. destruct Hin as [<-|[<-|[]]].
    - destruct (Hold root Hroot Hc) as [Hp Hl]. apply (Hno d). split; [exact Hp|]. exists v.
      rewrite h2_old in Ev by exact Hl. auto.
    - assert (d = size) as ->.
      { inversion Hc as [|? c0 ? _ Hin0 _]; subst; [reflexivity|]. rewrite h2_str in Hin0. destruct Hin0. }
      rewrite h2_str in Ev. injection Ev as <-. congruence.
  Qed.

  Lemma has_outcomes2 c items : c < size -> has_outcomes h c items <-> has_outcomes h2 c items.
  Proof using Hclosed.
    intros Hc. unfold has_outcomes. split; intros (nm & outs & ch & ty & Ec & Eo); exists nm, outs, ch, ty.
    - rewrite !h2_old; auto. apply (Hclosed c outs Hc). rewrite Ec. simpl. auto.
    - rewrite h2_old in Ec by exact Hc. split; [exact Ec|]. rewrite h2_old in Eo; auto.
      apply (Hclosed c outs Hc). rewrite Ec. simpl. auto.
  Qed.
  Lemma maps2 m w t : m < size -> maps hash_obj h m w t <-> maps hash_obj h2 m w t.
  Proof. intros Hm. unfold maps. rewrite h2_old by exact Hm. reflexivity. Qed.

  Lemma choices_ok2 : L_choicegraph.choices_ok hash_obj h root -> L_choicegraph.choices_ok hash_obj h2 n.
  Proof using Hclosed Hroot.
    intros [H1 H2 H3].
    assert (Hcase : forall x, part_of h2 n x -> is_expr (h2 x) = false -> children (h2 x) <> [] -> x < size /\ part_of h root x).
    { intros x Hx He Hch. destruct (part2 x Hx) as [->|[->|Hp]]; [rewrite h2_node in He; discriminate| |exact Hp].
      rewrite h2_str in Hch. contradiction. }
    split.
    - intros c nm outs ch Hp Ec. destruct (Hcase c Hp) as [Hl Hp']; [rewrite Ec; reflexivity|rewrite Ec; discriminate|].
      rewrite h2_old in Ec by exact Hl. destruct (H1 c nm outs ch Hp' Ec) as [items Hi]. exists items. apply has_outcomes2; auto.
    - intros x c m Hp Ex. destruct (Hcase x Hp) as [Hl Hp']; [rewrite Ex; reflexivity|rewrite Ex; discriminate|].
      rewrite h2_old in Ex by exact Hl.
      assert (Hc : c < size) by (apply (Hclosed x c Hl); rewrite Ex; simpl; auto).
      assert (Hm : m < size) by (apply (Hclosed x m Hl); rewrite Ex; simpl; auto).
      destruct (H2 x c m Hp' Ex) as (items & ty & entries & Hi & Em & Hw). exists items, ty, entries.
      split; [apply has_outcomes2; auto|]. split; [rewrite h2_old; auto|]. intros w Hin. destruct (Hw w Hin) as [t Ht].
      exists t. apply maps2; auto.
    - intros x c m t Hp Ex Ht. destruct (Hcase x Hp) as [Hl Hp']; [rewrite Ex; reflexivity|rewrite Ex; discriminate|].
      rewrite h2_old in Ex by exact Hl.
      assert (Hc : c < size) by (apply (Hclosed x c Hl); rewrite Ex; simpl; auto).
      assert (Hm : m < size) by (apply (Hclosed x m Hl); rewrite Ex; simpl; auto).
      rewrite h2_old in Ht by exact Hm. destruct (H3 x c m t Hp' Ex Ht) as [i Hi]. exists i.
      destruct Hi as [(-> & items & Ho & En)|(m' & items & w & Ex' & Ho & En & Hmw)].
      + left. split; [reflexivity|]. exists items. split; [apply has_outcomes2; auto|exact En].
      + right. assert (m' = m) as -> by congruence. exists m, items, w. rewrite h2_old by exact Hl.
        split; [exact Ex|]. split; [apply has_outcomes2; auto|]. split; [exact En|]. apply maps2; auto.
  Qed.

  (** *** The first apply step *)
  Lemma find2 : L_estimator3.choices_ok h root ->
    find_first_apply h2 (S n) n = find_first_apply h size root.
  Proof using Hclosed Hroot Hacyclic.
    intros Hok.
    set (g1 := find_handler (use_succ h) (applyb h)). set (g2 := find_handler (use_succ h2) (applyb h2)).
    assert (Hs2 : forall x, x < size -> use_succ h2 x = use_succ h x).
    { intros x Hx. unfold use_succ. rewrite h2_old by exact Hx. destruct (h x) eqn:Ex; try reflexivity.
      unfold nth_outcome. rewrite h2_old; [reflexivity|]. apply (Hclosed x outcomes Hx). rewrite Ex. simpl. auto. }
    assert (Hg : forall x, x < size -> g2 x = g1 x).
    { intros x Hx. unfold g1, g2, find_handler. rewrite Hs2 by exact Hx. unfold applyb. rewrite h2_old by exact Hx. reflexivity. }
    unfold find_first_apply, find_with. rewrite (visit_ext _ _ (first_is_find h2)), (visit_ext _ _ (first_is_find h)).
    fold g1 g2.
    destruct (visit g1 size [] root None) as [s r] eqn:Ev.
    assert (Hr : (exists v, r = TOk v) \/ (exists ex, r = TErr ex)).
    { apply (find_ends h size root Hclosed Hroot Hacyclic (use_succ h) (applyb h) s r (use_succ_edge h) Ev). }
    assert (Hreach : forall x, clos_refl_trans_1n oid (edge h) root x -> part_of h root x) by (intros x; apply edges_part).
    assert (Hv2 : visit g2 n [n] root None = (s, r)).
    { eapply (visit_move g1 g2 (edge h)); [| | | | |exact Ev| |].
      - intros o. apply gen_all_find. apply use_succ_edge.
      - unfold n. lia.
      - intros x Hx. apply Hg. eapply closed_part; eauto.
      - intros x Hx Hcy. apply (Hacyclic x (Hreach x Hx)). apply edges_cycle. exact Hcy.
      - intros x Hx [<-|[]]. assert (n < size) by (eapply closed_part; eauto). unfold n in *. lia.
      - intros c ->. destruct Hr as [[? ?]|[? ?]]; discriminate.
      - intros ->. destruct Hr as [[? ?]|[? ?]]; discriminate. }
    assert (En : g2 n = GYield root (fun _ => GYield size (fun _ => GRet tt))).
    { unfold g2, find_handler, applyb, use_succ. rewrite h2_node. reflexivity. }
    assert (Es : g2 size = GRet tt).
    { unfold g2, find_handler, applyb, use_succ. rewrite h2_str. reflexivity. }
    assert (Hv3 : forall s0, visit g2 n [n] size s0 = (s0, TOk tt)).
    { intros s0. unfold n at 1. cbn [visit]. rewrite Es. reflexivity. }
    assert (Hne : mem root [n] = false).
    { apply mem_false. intros [E|[]]. unfold n in E. lia. }
    assert (Hne2 : @mem oid _ size [n] = false).
    { apply mem_false. intros [E|[]]. unfold n in E. lia. }
    assert (Hv4 : visit g2 (S n) [] n None = (s, r)).
    { change (run_gen (visit g2 n [n]) [n] (g2 n) None = (s, r)). rewrite En. cbn [run_gen]. rewrite Hne, Hv2.
      destruct Hr as [[[] ->]|[ex ->]]; [|reflexivity]. cbn [run_gen]. rewrite Hne2, Hv3. reflexivity. }
    rewrite Hv4. reflexivity.
  Qed.

  (** *** Evaluating *)
  Variable f : oid -> option (fit_attr V F).
  Notation md := "preview".

  Lemma den2 c d r : c < size -> den ext h [] md f d c = Some r -> den ext h2 [] md f d c = Some r.
  Proof using Hclosed.
    intros Hc E. eapply (den_extend ext h h2 size Hclosed); [intros x Hx; apply h2_old; exact Hx|reflexivity|exact Hc|exact E].
  Qed.
  Lemma denV2 c r : c < size -> DenV ext h [] md f c r -> DenV ext h2 [] md f c r.
  Proof using Hclosed.
    intros Hc [d E]. exists d. unfold ev in *.
    destruct (den ext h [] md f d c) as [x|] eqn:Ed; [|discriminate]. rewrite (den2 c d x Hc Ed). exact E.
  Qed.

  Lemma nothing2 : nothing_fitted ext h [] md f root -> nothing_fitted ext h2 [] md f n.
  Proof using Hclosed Hroot.
    intros Hn o Ho Hst. destruct (part2 o Ho) as [->|[->|[Hl Hp]]].
    - unfold stateful in Hst. rewrite h2_node in Hst. destruct Hst.
    - unfold stateful in Hst. rewrite h2_str in Hst. destruct Hst.
    - unfold stateful in Hst. rewrite h2_old in Hst by exact Hl.
      destruct (Hn o Hp Hst) as (t & ex & Hnd & Hd).
      assert (Ht : t < size) by (eapply closed_part; [exact Hclosed|exact Hl|apply edge_part; eapply needs_edge; exact Hnd]).
      exists t, ex. split; [|apply denV2; assumption].
      unfold needs in *. rewrite h2_old by exact Hl.
      destruct (h o) as [i nm x y| | | | | | | |]; try contradiction. destruct i; try contradiction; exact Hnd.
  Qed.

  Lemma node_fails ex : DenV ext h [] md f root (Err ex) -> Den ext h2 [] md f n (Err ex).
  Proof using Hclosed Hroot.
    intros Hd. apply (denV2 root _ Hroot) in Hd. destruct Hd as [d E]. exists (S d). cbn [den]. rewrite h2_node.
    unfold node. change (provided [] (IOp "GetAttr" [("source_object", root); ("attr_name", size)]) None false false) with (@None V).
    cbv iota. cbn [fields dmapM fst snd]. unfold ev in E. rewrite E. reflexivity.
  Qed.

  Lemma inv_new s : Inv ext h2 [] md f n s -> Inv ext h2 [] md f n (new_node s n).
  Proof.
    intros Hi. split.
    - intros o v Ho He Hno E. cbn in E |- *. unfold upd in E. destruct (eqd o n); [discriminate|].
      eapply (inv_cache _ _ _ _ _ _ _ Hi); eauto.
    - intros o. cbn. apply (inv_fit _ _ _ _ _ _ _ Hi).
  Qed.

  (** Building the attribute: nothing kept by the steps changes. *)
  Lemma getattr_calm (s : st V F) :
    no_conflict h root -> (forall d, ~ bare_dataframe is_df h root d) -> L_choicegraph.choices_ok hash_obj h root ->
    nothing_fitted ext h [] md f root -> DenV ext h [] md f root (Err UninitializedVariable) ->
    Inv ext h2 [] md f n s ->
    let out := getattr_expr ext hash_obj is_df str h size root name s in
    snd out = Ok tt /\ (forall x, fitted (fst out) x = fitted s x) /\ Inv ext h2 [] md f n (fst out).
  Proof using Hclosed Hroot Hacyclic Hstr.
    intros Hnc Hbare Hch Hno Hd Hi out. unfold out, getattr_expr, check_expr. fold h2 n.
    assert (Hln : n < S n) by lia.
    destruct (conflicts_found h2 (S n) n closed2 Hln acyclic2) as (c & Ec & Hc).
    destruct (find_arg_spec is_df h2 (S n) n closed2 Hln acyclic2) as (a & Ea & Haa).
    destruct (choice_graph_spec hash_obj h2 (S n) n closed2 Hln acyclic2 (choices_ok2 Hch) (no_conflict2 Hnc)) as (short & G & Eg & _).
    rewrite Ec, (proj2 Hc (no_conflict2 Hnc)), Ea. destruct a as [a|]; [exfalso; exact (bare2 a Hbare Haa)|]. rewrite Eg.
    apply inv_new in Hi. unfold evaluate. change (eqb_of "preview" "fit") with false. cbv iota.
    set (s0 := new_node s n) in *.
    pose proof (visit_calm ext h2 [] md f n eq_refl (nothing2 Hno) (S n) [] n s0 (reach_refl _ _ _) Hi) as [Hs Hi'].
    pose proof (visit_good ext h2 [] md f n (fun s => (s, TOk tt)) (cb_ok md) (S n) [] n s0 (reach_refl _ _ _) Hi) as Hg.
    destruct (visit (eval_handler ext h2 [] md (fun s => (s, TOk tt))) (S n) [] n s0) as [s' r] eqn:Ev.
    cbn [fst snd] in *.
    pose proof (eval_no_circ_no_fuel ext h2 (S n) n closed2 Hln acyclic2 [] md _ s0 s' r Ev) as Hr.
    pose proof (node_fails _ Hd) as Hdn.
    destruct Hr as [[v ->]|[ex ->]]; cbn [Good] in Hg.
    - destruct Hg as (f' & Hd' & _). pose proof (Den_det _ _ _ _ _ _ _ _ Hdn Hd'). discriminate.
    - pose proof (Den_det _ _ _ _ _ _ _ _ Hdn Hg) as E. injection E as <-. cbn [to_res fst snd].
      split; [reflexivity|]. split; [intros x; rewrite Hs; reflexivity|exact Hi'].
  Qed.
End Attr.
