(** Cloning. *)
From Verif Require Import Base L_dict M_traverse L_traverse M_expr L_expr1 L_expr2 L_expr3 L_expr4 L_expr5 L_expr6 L_expr7 M_clone.
Open Scope string_scope.
Open Scope list_scope.
Open Scope nat_scope.

(** ** Specification *)
Section Spec.
  Context {V K : Type} `{EqD K}.
  Notation heap := (heap V K).
  Notation obj := (obj V K).
  Variable copy : V -> res V.
  Variable drop : bool.
  (** [R n o]: [n] takes the place of [o]. *)
  Variable R : oid -> oid -> Prop.

  Inductive impl_like : impl -> impl -> Prop :=
  | like_var : impl_like (IVar None) (IVar None)
  | like_var_kept n o : drop = false -> R n o -> impl_like (IVar (Some n)) (IVar (Some o))
  | like_var_dropped o : drop = true -> impl_like (IVar None) (IVar (Some o))
  | like_value n o : R n o -> impl_like (IValue n) (IValue o)
  | like_ifelse n1 n2 n3 o1 o2 o3 : R n1 o1 -> R n2 o2 -> R n3 o3 ->
      impl_like (IIfElse n1 n2 n3) (IIfElse o1 o2 o3)
  | like_match n1 n2 o1 o2 : R n1 o1 -> R n2 o2 ->
      impl_like (IMatch n1 n2 None) (IMatch o1 o2 None)
  | like_match_default n1 n2 n3 o1 o2 o3 : R n1 o1 -> R n2 o2 -> R n3 o3 ->
      impl_like (IMatch n1 n2 (Some n3)) (IMatch o1 o2 (Some o3))
  | like_freeze n o : R n o -> impl_like (IFreeze n) (IFreeze o)
  | like_apply n1 n2 n3 n4 n5 n6 o1 o2 o3 o4 o5 o6 u :
      R n1 o1 -> R n2 o2 -> R n3 o3 -> R n4 o4 -> R n5 o5 -> R n6 o6 ->
      impl_like (IApply n1 n2 n3 n4 n5 n6 u) (IApply o1 o2 o3 o4 o5 o6 u)
  | like_applied n o : R n o -> impl_like (IApplied n) (IApplied o)
  | like_concat n1 n2 o1 o2 : R n1 o1 -> R n2 o2 -> impl_like (IConcat n1 n2) (IConcat o1 o2)
  | like_op op fs fs' : Forall2 (fun n o => fst n = fst o /\ R (snd n) (snd o)) fs' fs ->
      impl_like (IOp op fs') (IOp op fs).

  (** The first object is a copy of the second. *)
  Inductive obj_like : obj -> obj -> Prop :=
  | like_expr i' i name isX isY : impl_like i' i ->
      obj_like (OExpr i' name isX isY) (OExpr i name isX isY)
  | like_map ty items' items :
      Forall2 (fun n o => fst n = fst o /\ R (snd n) (snd o)) items' items ->
      obj_like (OMap ty items') (OMap ty items)
  | like_seq ty items' items : Forall2 R items' items -> obj_like (OSeq ty items') (OSeq ty items)
  | like_slice n1 n2 n3 o1 o2 o3 : R n1 o1 -> R n2 o2 -> R n3 o3 ->
      obj_like (OSlice n1 n2 n3) (OSlice o1 o2 o3)
  | like_choice name n o chosen : R n o -> obj_like (OChoice name n chosen) (OChoice name o chosen)
  | like_num name default chosen :
      obj_like (ONumChoice name default chosen) (ONumChoice name default chosen)
  | like_choice_match n1 n2 o1 o2 : R n1 o1 -> R n2 o2 ->
      obj_like (OChoiceMatch n1 n2) (OChoiceMatch o1 o2)
  | like_estimator cls n o : R n o -> obj_like (OEstimator cls n) (OEstimator cls o)
  | like_plain v v' : copy v = Ok v' -> obj_like (OValue v') (OValue v).
End Spec.

Section SpecClone.
  Context {V K : Type} `{EqD K}.
  Notation heap := (heap V K).
  (** Expressions and choices: the objects whose sharing matters. *)
  Definition is_node (h : heap) (o : oid) : Prop :=
    match h o with OExpr _ _ _ _ | OChoice _ _ _ | ONumChoice _ _ _ => True | _ => False end.

  (** In memory [h'], [root'] is a clone of [root] in memory [h] whose objects are below
      [size]; [f] gives the object of which each new object is the copy. *)
  Record is_clone (copy : V -> res V) (drop : bool) (h : heap) (size : nat) (root : oid)
    (h' : heap) (size' : nat) (root' : oid) (f : oid -> oid) : Prop := {
    clone_old : forall o, o < size -> h' o = h o;
    clone_closed : closed h' size';
    clone_root_lt : root' < size';
    clone_root : f root' = root;
    clone_new : forall n, part_of h' root' n -> size <= n;
    clone_part : forall n, part_of h' root' n -> part_of h root (f n);
    clone_like : forall n, part_of h' root' n -> obj_like copy drop (fun n' o' => f n' = o') (h' n) (h (f n));
    clone_sharing : forall n m, part_of h' root' n -> part_of h' root' m ->
      f n = f m -> is_node h (f n) -> n = m;
    clone_complete : drop = false -> forall o, part_of h root o ->
      exists n, part_of h' root' n /\ f n = o;
    clone_acyclic : acyclic h' root'
  }.
End SpecClone.

(** ** Proofs *)
Section Like.
  Context {V K : Type} `{EqD K}.
  Variable copy : V -> res V.
  Variables new_seq new_map new_estimator : string -> res unit.
  Variable drop : bool.

  Lemma combine_rel {A} (R : oid -> oid -> Prop) : forall (l : list (A * oid)) vs,
    Forall2 R vs (map snd l) ->
    Forall2 (fun n o => fst n = fst o /\ R (snd n) (snd o)) (combine (map fst l) vs) l.
  Proof.
    induction l as [|[a o] l IH]; intros vs Hf; simpl in *; inversion Hf; subst; constructor; auto.
  Qed.

  Ltac inv2 := repeat match goal with
    | Hx : Forall2 _ _ [] |- _ => inversion Hx; subst; clear Hx
    | Hx : Forall2 _ _ (_ :: _) |- _ => inversion Hx; subst; clear Hx
    end.

  Lemma replace_like R i vs i' :
    Forall2 R vs (map snd (fields i)) -> replace_fields drop i vs = Ok i' -> impl_like drop R i' i.
  Proof.
    intros Hf E.
    destruct i as [[w|]|w|c t e|q t [d|]|t|x e y c hw a u|t|fi ot|op fs]; simpl in Hf;
      try (inv2; simpl in E; injection E as <-; constructor; assumption).
    - inv2. simpl in E. injection E as <-. destruct drop eqn:Ed; constructor; auto.
    - simpl in E. destruct (length fs =? length vs); [|discriminate]. injection E as <-.
      constructor. apply combine_rel. exact Hf.
  Qed.

  Lemma rebuild_like R (ob : obj V K) vs ob' :
    Forall2 R vs (children ob) -> rebuild copy new_seq new_map new_estimator drop ob vs = Ok ob' ->
    obj_like copy drop R ob' ob.
  Proof.
    intros Hf E. destruct ob as [i name isX isY|ty items|ty items|a b c|name o ch|name d ch|c m|cls p|v];
      simpl in Hf.
    - simpl in E. destruct (replace_fields drop i vs) eqn:Er; [|discriminate]. injection E as <-.
      constructor. eapply replace_like; eauto.
    - simpl in E. destruct (new_map ty); [|discriminate]. cbn [bind] in E.
      destruct (length items =? length vs); [|discriminate]. injection E as <-.
      constructor. apply combine_rel. exact Hf.
    - simpl in E. destruct (new_seq ty); [|discriminate]. injection E as <-. constructor. exact Hf.
    - inv2. simpl in E. injection E as <-. constructor; assumption.
    - inv2. simpl in E. injection E as <-. constructor; assumption.
    - inv2. simpl in E. injection E as <-. constructor; assumption.
    - inv2. simpl in E. injection E as <-. constructor; assumption.
    - inv2. simpl in E. destruct (new_estimator cls); [|discriminate]. injection E as <-. constructor; assumption.
    - inv2. simpl in E. destruct (copy v) eqn:Ec; [|discriminate]. injection E as <-. constructor; assumption.
  Qed.

  Lemma impl_like_mono (R R' : oid -> oid -> Prop) i' i :
    (forall n o, R n o -> R' n o) -> impl_like drop R i' i -> impl_like drop R' i' i.
  Proof.
    intros HR Hl. destruct Hl; constructor; auto.
    induction H0 as [|x y l l' [Hn Hs] _ IH]; constructor; auto.
  Qed.
  Lemma obj_like_mono (R R' : oid -> oid -> Prop) (ob' ob : obj V K) :
    (forall n o, R n o -> R' n o) -> obj_like copy drop R ob' ob -> obj_like copy drop R' ob' ob.
  Proof.
    intros HR Hl. destruct Hl; try (constructor; auto; fail).
    - constructor. eapply impl_like_mono; eauto.
    - constructor. induction H0 as [|x y l l' [Hn Hs] _ IH]; constructor; auto.
    - constructor. induction H0; constructor; auto.
  Qed.

End Like.

Section LikeChildren.
  Context {V K : Type}.
  Variable copy : V -> res V.
  Variable drop : bool.
  (** Every child of the copy is a copy of a child. *)
  Lemma like_children_l R (ob' ob : obj V K) : obj_like copy drop R ob' ob ->
    forall n, In n (children ob') -> exists o, In o (children ob) /\ R n o.
  Proof.
    assert (H2 : forall A (l' l : list (A * oid)),
      Forall2 (fun n o => fst n = fst o /\ R (snd n) (snd o)) l' l ->
      forall n, In n (map snd l') -> exists o, In o (map snd l) /\ R n o).
    { intros A l' l Hf. induction Hf as [|x y l' l [_ Hxy] _ IH]; simpl; [intros n []|].
      intros n [<-|Hn]; [exists (snd y); auto|]. destruct (IH n Hn) as (o & Ho & Hr). exists o. auto. }
    intros Hl n Hn. destruct Hl as [i' i name isX isY Hi| | | | | | | |]; simpl in *.
    - destruct Hi; simpl in *; try (eapply H2; eauto; fail); intuition (subst; eauto 12).
    - eapply H2; eauto.
    - clear H2. induction H as [|x y l l' Hxy _ IH]; simpl in *; [contradiction|].
      destruct Hn as [<-|Hn]; [exists y; auto|]. destruct (IH Hn) as (o & Ho & Hr). exists o. auto.
    - intuition (subst; eauto 12).
    - intuition (subst; eauto 12).
    - contradiction.
    - intuition (subst; eauto 12).
    - intuition (subst; eauto 12).
    - contradiction.
  Qed.
  Lemma like_children_r R (ob' ob : obj V K) : drop = false -> obj_like copy drop R ob' ob ->
    forall o, In o (children ob) -> exists n, In n (children ob') /\ R n o.
  Proof.
    intros Hd.
    assert (H2 : forall A (l' l : list (A * oid)),
      Forall2 (fun n o => fst n = fst o /\ R (snd n) (snd o)) l' l ->
      forall o, In o (map snd l) -> exists n, In n (map snd l') /\ R n o).
    { intros A l' l Hf. induction Hf as [|x y l' l [_ Hxy] _ IH]; simpl; [intros n []|].
      intros n [<-|Hn]; [exists (snd x); auto|]. destruct (IH n Hn) as (o & Ho & Hr). exists o. auto. }
    intros Hl n Hn. destruct Hl as [i' i name isX isY Hi| | | | | | | |]; simpl in *.
    - destruct Hi; simpl in *; try congruence; try (eapply H2; eauto; fail); intuition (subst; eauto 12).
    - eapply H2; eauto.
    - clear H2. induction H as [|x y l l' Hxy _ IH]; simpl in *; [contradiction|].
      destruct Hn as [<-|Hn]; [exists x; auto|]. destruct (IH Hn) as (o & Ho & Hr). exists o. auto.
    - intuition (subst; eauto 12).
    - intuition (subst; eauto 12).
    - contradiction.
    - intuition (subst; eauto 12).
    - intuition (subst; eauto 12).
    - contradiction.
  Qed.
End LikeChildren.

Section Proofs.
  Context {V K : Type} `{EqD K}.
  Notation heap := (heap V K).
  Variable copy : V -> res V.
  Variables new_seq new_map new_estimator : string -> res unit.
  Variable h : heap.
  Variable size : nat.
  Variable drop : bool.
  Variable root : oid.
  Notation handler := (clone_handler copy new_seq new_map new_estimator h size drop).
  Notation cst := (clone_st V K).

  Definition R (orig : list oid) (n o : oid) : Prop :=
    size <= n /\ nth_error orig (n - size) = Some o.
  Lemma R_app orig more n o : R orig n o -> R (orig ++ more) n o.
  Proof.
    intros [Hn E]. split; [exact Hn|]. rewrite nth_error_app1; [exact E|].
    apply nth_error_Some. congruence.
  Qed.
  Lemma R_new orig o : R (orig ++ [o]) (size + length orig) o.
  Proof.
    split; [lia|]. replace (size + length orig - size) with (length orig) by lia.
    rewrite nth_error_app2; [|lia]. rewrite Nat.sub_diag. reflexivity.
  Qed.
  Lemma R_fun orig n o o' : R orig n o -> R orig n o' -> o = o'.
  Proof. intros [_ E] [_ E']. congruence. Qed.

  Record CInv (orig : list oid) (s : cst) : Prop := {
    ci_len : length orig = length (c_objs s);
    ci_like : forall i ob, nth_error (c_objs s) i = Some ob ->
      exists o, nth_error orig i = Some o /\ part_of h root o /\
        obj_like copy drop (fun n c => R orig n c /\ n < size + i) ob (h o);
    ci_memo : forall o n, dget o (c_memo s) = Some n -> R orig n o;
    ci_shared : forall i o, nth_error orig i = Some o -> is_node h o ->
      dget o (c_memo s) = Some (size + i)
  }.

  Lemma CInv_alloc orig s o ob (b : bool) :
    CInv orig s -> part_of h root o ->
    obj_like copy drop (R orig) ob (h o) ->
    (is_node h o -> b = true) -> dget o (c_memo s) = None ->
    CInv (orig ++ [o])
      (mk_cst (c_objs s ++ [ob])
         (if b then dset o (size + length (c_objs s)) (c_memo s) else c_memo s)).
  Proof.
    intros [Hl Hk Hm Hs] Hp Hob Hb Hn. split; cbn [c_objs c_memo].
    - rewrite !app_length. simpl. congruence.
    - intros i ob1 E. destruct (lt_dec i (length (c_objs s))) as [Hi|Hi].
      + rewrite nth_error_app1 in E; [|exact Hi]. destruct (Hk i ob1 E) as (o1 & E1 & Hp1 & Hl1).
        exists o1. split; [|split; [exact Hp1|]].
        * rewrite nth_error_app1; [exact E1|]. congruence.
        * eapply obj_like_mono; [|exact Hl1]. intros n c [HR Hlt]. split; [apply R_app; exact HR|exact Hlt].
      + rewrite nth_error_app2 in E; [|lia].
        destruct (i - length (c_objs s)) as [|k] eqn:Ek; [|destruct k; discriminate].
        simpl in E. injection E as <-. assert (i = length (c_objs s)) by lia. subst i.
        exists o. split; [|split; [exact Hp|]].
        * rewrite <- Hl, nth_error_app2, Nat.sub_diag; [reflexivity|lia].
        * eapply obj_like_mono; [|exact Hob]. intros n c HR. split; [apply R_app; exact HR|].
          destruct HR as [Hge E]. assert (n - size < length orig) by (apply nth_error_Some; congruence). lia.
    - intros o1 n E. destruct b.
      + destruct (eqd o1 o) as [->|Hne].
        * rewrite dget_dset_eq in E. injection E as <-. rewrite <- Hl. apply R_new.
        * rewrite dget_dset_neq in E; [|exact Hne]. apply R_app. apply Hm. exact E.
      + apply R_app. apply Hm. exact E.
    - intros i o1 E Hno. destruct (lt_dec i (length orig)) as [Hi|Hi].
      + rewrite nth_error_app1 in E; [|exact Hi]. specialize (Hs i o1 E Hno).
        destruct b; [|exact Hs]. rewrite dget_dset_neq; [exact Hs|]. intros ->. congruence.
      + rewrite nth_error_app2 in E; [|lia].
        destruct (i - length orig) as [|k] eqn:Ek; [|destruct k; discriminate].
        simpl in E. injection E as <-. rewrite (Hb Hno). rewrite dget_dset_eq. f_equal. lia.
  Qed.

  Definition post (path : list oid) (orig : list oid) (s s' : cst) (more : list oid) : Prop :=
    CInv (orig ++ more) s' /\ forall x, In x path -> dget x (c_memo s') = dget x (c_memo s).

  Lemma visit_all_clone vc path
    (Hvc : forall o s s' n orig, ~ In o path -> part_of h root o -> CInv orig s ->
       vc o s = (s', TOk n) -> exists more, post path orig s s' more /\ R (orig ++ more) n o) :
    forall items s s' vs orig, (forall o, In o items -> part_of h root o) -> CInv orig s ->
      visit_all vc path items s = (s', TOk vs) ->
      exists more, post path orig s s' more /\ Forall2 (R (orig ++ more)) vs items.
  Proof.
    induction items as [|o items IH]; intros s s' vs orig Hp Hi Ev.
    - injection Ev as <- <-. exists []. split; [split; [rewrite app_nil_r; exact Hi|auto]|constructor].
    - apply visit_all_cons_ok in Ev. destruct Ev as (v & s1 & vs' & Hno & E1 & E2 & ->).
      destruct (Hvc o s s1 v orig Hno (Hp o (or_introl eq_refl)) Hi E1) as (m1 & [Hi1 Hm1] & HR1).
      destruct (IH s1 s' vs' (orig ++ m1) (fun o' Ho' => Hp o' (or_intror Ho')) Hi1 E2) as (m2 & [Hi2 Hm2] & HR2).
      exists (m1 ++ m2). unfold post. rewrite app_assoc. split; [split; [exact Hi2|]|].
      + intros x Hx. rewrite Hm2, Hm1; auto.
      + constructor; [apply R_app; exact HR1|exact HR2].
  Qed.

  Definition is_choice (h : heap) (o : oid) : bool :=
    match h o with OChoice _ _ _ | ONumChoice _ _ _ => true | _ => false end.

  Lemma clone_visit_S d path o s :
    visit handler (S d) path o s
    = let finish b := obind (visit_all (visit handler d (o :: path)) (o :: path) (children (h o)) s)
         (fun vs s1 => run_gen (visit handler d (o :: path)) (o :: path) (b vs s1) s1) in
      let al m vs := alloc copy new_seq new_map new_estimator h size drop o m vs in
      match h o with
      | OExpr _ _ _ _ => finish (fun vs s1 => match dget o (c_memo s1) with
                                   | Some n => GRet n | None => al true vs end)
      | OChoice _ _ _ | ONumChoice _ _ _ =>
          match dget o (c_memo s) with
          | Some n => (s, TOk n)
          | None => finish (fun vs _ => al true vs)
          end
      | _ => finish (fun vs _ => al false vs)
      end.
  Proof.
    cbn [visit]. generalize (visit handler d (o :: path)). intros vc. cbn zeta. unfold clone_handler.
    destruct (h o) eqn:Eh; try (rewrite run_gen_yield_all; reflexivity).
    - cbn [run_gen]. destruct (dget o (c_memo s)); [reflexivity|]. rewrite run_gen_yield_all. reflexivity.
    - cbn [run_gen]. destruct (dget o (c_memo s)); [reflexivity|]. rewrite run_gen_yield_all. reflexivity.
  Qed.

  Lemma is_node_dec o : is_node h o \/ ~ is_node h o.
  Proof. unfold is_node. destruct (h o); auto. Qed.

  Lemma alloc_ok vc path o m vs s s' n orig :
    CInv orig s -> part_of h root o -> Forall2 (R orig) vs (children (h o)) ->
    (is_node h o -> m = true) -> dget o (c_memo s) = None ->
    run_gen vc path (alloc copy new_seq new_map new_estimator h size drop o m vs) s = (s', TOk n) ->
    CInv (orig ++ [o]) s' /\ R (orig ++ [o]) n o /\
    forall x, x <> o -> dget x (c_memo s') = dget x (c_memo s).
  Proof.
    intros Hi Hp Hf Hm Hn E. unfold alloc in E.
    destruct (rebuild _ _ _ _ _ _ _) as [ob|ex] eqn:Er; [|discriminate].
    cbn [run_gen] in E. injection E as <- <-. split; [|split].
    - apply CInv_alloc; auto. eapply rebuild_like; eauto.
    - rewrite <- (ci_len _ _ Hi). apply R_new.
    - intros x Hx. cbn [c_memo]. destruct m; [apply dget_dset_neq; exact Hx|reflexivity].
  Qed.

  Lemma clone_visit : forall d path o s s' n orig,
    ~ In o path -> part_of h root o -> CInv orig s -> visit handler d path o s = (s', TOk n) ->
    exists more, post path orig s s' more /\ R (orig ++ more) n o.
  Proof.
    induction d as [|d IH]; intros path o s s' n orig Hno Hp Hi Ev; [discriminate|].
    rewrite clone_visit_S in Ev. cbn zeta in Ev.
    assert (Hch : forall s1 vs, visit_all (visit handler d (o :: path)) (o :: path) (children (h o)) s = (s1, TOk vs) ->
      exists more, post (o :: path) orig s s1 more /\ Forall2 (R (orig ++ more)) vs (children (h o))).
    { intros s1 vs E. eapply visit_all_clone; [|intros c Hc|exact Hi|exact E].
      - intros o1 s0 s0' n1 orig1 Hno1 Hp1 Hi1 Ev1. eapply IH; eauto.
      - eapply reach_trans; [exact Hp|]. apply part_child. exact Hc. }
    assert (Hfin : forall m b,
      (forall vs s1, b vs s1 = alloc copy new_seq new_map new_estimator h size drop o m vs) ->
      (is_node h o -> m = true) -> dget o (c_memo s) = None ->
      obind (visit_all (visit handler d (o :: path)) (o :: path) (children (h o)) s)
         (fun vs s1 => run_gen (visit handler d (o :: path)) (o :: path) (b vs s1) s1) = (s', TOk n) ->
      exists more, post path orig s s' more /\ R (orig ++ more) n o).
    { intros m b Hb Hm Hn E. apply obind_ok in E. destruct E as (vs & s1 & E1 & E2). rewrite Hb in E2.
      destruct (Hch s1 vs E1) as (more & [Hi1 Hm1] & Hf).
      eapply alloc_ok in E2; eauto; [|rewrite Hm1; [exact Hn|left; reflexivity]].
      destruct E2 as (Hi2 & HR & Hother). exists (more ++ [o]). unfold post. rewrite app_assoc.
      split; [split; [exact Hi2|]|exact HR].
      intros x Hx. rewrite Hother; [|intros ->; contradiction]. apply Hm1. right. exact Hx. }
    assert (Hmemo : forall n1, dget o (c_memo s) = Some n1 -> (s, TOk n1) = (s', TOk n) ->
      exists more, post path orig s s' more /\ R (orig ++ more) n o).
    { intros n1 En E. injection E as <- <-. exists []. unfold post. rewrite app_nil_r. split; [split; [exact Hi|auto]|].
      apply (ci_memo _ _ Hi). exact En. }
    assert (Hnn : ~ is_node h o -> dget o (c_memo s) = None \/ exists n1, dget o (c_memo s) = Some n1).
    { intros _. destruct (dget o (c_memo s)); eauto. }
    destruct (is_node_dec o) as [Hnode|Hnode].
    - unfold is_node in Hnode. destruct (h o) as [i name isX isY| | | |name outs ch|name df ch| | |] eqn:Eh; try contradiction.
      + apply obind_ok in Ev. destruct Ev as (vs & s1 & E1 & E2).
        destruct (Hch s1 vs E1) as (more & [Hi1 Hm1] & Hf).
        destruct (dget o (c_memo s1)) as [n1|] eqn:En.
        * cbn [run_gen] in E2. injection E2 as <- <-. exists more. split; [split; [exact Hi1|]|].
          -- intros x Hx. apply Hm1. right. exact Hx.
          -- apply (ci_memo _ _ Hi1). exact En.
        * assert (Hn : dget o (c_memo s) = None) by (rewrite <- Hm1; [exact En|left; reflexivity]).
          eapply (Hfin true (fun vs _ => alloc copy new_seq new_map new_estimator h size drop o true vs)); auto.
          rewrite E1. cbn [obind]. exact E2.
      + destruct (dget o (c_memo s)) as [n1|] eqn:En; [eapply Hmemo; eauto|].
        eapply (Hfin true (fun vs _ => alloc copy new_seq new_map new_estimator h size drop o true vs)); auto; exact Ev.
      + destruct (dget o (c_memo s)) as [n1|] eqn:En; [eapply Hmemo; eauto|].
        eapply (Hfin true (fun vs _ => alloc copy new_seq new_map new_estimator h size drop o true vs)); auto; exact Ev.
    - (* containers are never in the memo *)
      assert (Hn : dget o (c_memo s) = None \/ dget o (c_memo s) <> None) by (destruct (dget o (c_memo s)); auto; right; discriminate).
      unfold is_node in Hnode.
      assert (Hplain : forall b, (forall vs s1, b vs s1 = alloc copy new_seq new_map new_estimator h size drop o false vs) ->
        obind (visit_all (visit handler d (o :: path)) (o :: path) (children (h o)) s)
         (fun vs s1 => run_gen (visit handler d (o :: path)) (o :: path) (b vs s1) s1) = (s', TOk n) ->
        exists more, post path orig s s' more /\ R (orig ++ more) n o).
      { intros b Hb E. apply obind_ok in E. destruct E as (vs & s1 & E1 & E2). rewrite Hb in E2.
        destruct (Hch s1 vs E1) as (more & [Hi1 Hm1] & Hf).
        unfold alloc in E2. destruct (rebuild _ _ _ _ _ _ _) as [ob|ex] eqn:Er; [|discriminate].
        cbn [run_gen] in E2. injection E2 as <- <-. exists (more ++ [o]). unfold post. rewrite app_assoc.
        assert (Hlike : obj_like copy drop (R (orig ++ more)) ob (h o)) by (eapply rebuild_like; eauto).
        split; [split|].
        - destruct Hi1 as [Hl Hk Hmm Hs]. split; cbn [c_objs c_memo].
          + rewrite !app_length. rewrite app_length in Hl. simpl. lia.
          + intros i ob1 E. destruct (lt_dec i (length (c_objs s1))) as [Hlt|Hlt].
            * rewrite nth_error_app1 in E; [|exact Hlt]. destruct (Hk i ob1 E) as (o1 & Eo1 & Hp1 & Hl1).
              exists o1. split; [|split; [exact Hp1|]].
              -- rewrite nth_error_app1; [exact Eo1|]. rewrite Hl. exact Hlt.
              -- eapply obj_like_mono; [|exact Hl1]. intros n c [HR Hc]. split; [apply R_app; exact HR|exact Hc].
            * rewrite nth_error_app2 in E; [|lia].
              destruct (i - length (c_objs s1)) as [|k] eqn:Ek; [|destruct k; discriminate].
              simpl in E. injection E as <-. assert (i = length (c_objs s1)) by lia. subst i.
              exists o. split; [|split; [exact Hp|]].
              -- rewrite <- Hl, nth_error_app2, Nat.sub_diag; [reflexivity|lia].
              -- eapply obj_like_mono; [|exact Hlike]. intros n c HR. split; [apply R_app; exact HR|].
                 destruct HR as [Hge E]. assert (n - size < length (orig ++ more)) by (apply nth_error_Some; congruence). lia.
          + intros o1 n E. apply R_app. apply Hmm. exact E.
          + intros i o1 E Hno1. destruct (lt_dec i (length (orig ++ more))) as [Hlt|Hlt].
            * rewrite nth_error_app1 in E; [|exact Hlt]. apply Hs; assumption.
            * rewrite nth_error_app2 in E; [|lia].
              destruct (i - length (orig ++ more)) as [|k] eqn:Ek; [|destruct k; discriminate].
              simpl in E. injection E as <-. contradiction.
        - intros x Hx. cbn [c_memo]. apply Hm1. right. exact Hx.
        - rewrite <- (ci_len _ _ Hi1). apply R_new. }
      destruct (h o) eqn:Eh; try (exfalso; apply Hnode; exact I); (eapply Hplain; [|exact Ev]; reflexivity).
  Qed.

  Lemma clone_handler_edges o : gen_all (child h o) (handler o).
  Proof.
    unfold clone_handler, child.
    assert (Hal : forall m vs P, gen_all P (alloc copy new_seq new_map new_estimator h size drop o m vs)).
    { intros m vs P. unfold alloc. destruct (rebuild _ _ _ _ _ _ _); simpl; auto. }
    assert (Hy : forall k, (forall vs, gen_all (fun t => In t (children (h o))) (k vs)) ->
                gen_all (fun t => In t (children (h o)))
                (yield_all (V := oid) (S := cst) (children (h o)) k)).
    { intros k Hk. apply gen_all_yield_all; auto. }
    destruct (h o) eqn:Eh; try (apply Hy; intros; apply Hal).
    - apply Hy. intros vs. simpl. intros s. destruct (dget o (c_memo s)); [exact I|apply Hal].
    - simpl gen_all. intros s. destruct (dget o (c_memo s)); [exact I|]. apply Hy; intros; apply Hal.
    - simpl gen_all. intros s. destruct (dget o (c_memo s)); [exact I|]. apply Hal.
  Qed.

  Definition origin (orig : list oid) (n : oid) : oid :=
    if n <? size then n else match nth_error orig (n - size) with Some o => o | None => n end.
  Lemma origin_R orig n o : R orig n o -> origin orig n = o.
  Proof.
    intros [Hn E]. unfold origin. destruct (n <? size) eqn:Eb; [apply Nat.ltb_lt in Eb; lia|].
    rewrite E. reflexivity.
  Qed.

  Theorem clone_is_clone h' size' root' :
    closed h size -> root < size ->
    clone copy new_seq new_map new_estimator h size root drop = Ok (h', size', root') ->
    exists f, is_clone copy drop h size root h' size' root' f.
  Proof.
    intros Hc Hr E. unfold clone in E.
    destruct (visit handler size [] root (mk_cst [] [])) as [s r] eqn:Ev.
    destruct r as [n|ex|t|]; try discriminate. cbn [to_res bind] in E. injection E as <- <- <-.
    assert (Hi0 : CInv [] (mk_cst [] [])).
    { split; cbn [c_objs c_memo].
      - reflexivity.
      - intros i ob E. destruct i; discriminate.
      - intros o n' E. discriminate.
      - intros i o E. destruct i; discriminate. }
    destruct (clone_visit size [] root _ s n [] ltac:(intros []) (reach_refl _ _ _) Hi0 Ev) as (orig & [Hi _] & HR).
    cbn [app] in *. set (h' := extend h size (c_objs s)) in *.
    assert (Hobj : forall n o, R orig n o -> exists ob, nth_error (c_objs s) (n - size) = Some ob /\ h' n = ob /\
              part_of h root o /\ obj_like copy drop (fun m c => R orig m c /\ m < n) ob (h o)).
    { intros m o [Hm Em]. assert (Hlt : m - size < length (c_objs s)).
      { rewrite <- (ci_len _ _ Hi). apply nth_error_Some. congruence. }
      destruct (nth_error (c_objs s) (m - size)) as [ob|] eqn:Eo; [|apply nth_error_None in Eo; lia].
      exists ob. split; [reflexivity|]. split.
      - unfold h', extend. destruct (m <? size) eqn:Eb; [apply Nat.ltb_lt in Eb; lia|]. rewrite Eo. reflexivity.
      - destruct (ci_like _ _ Hi _ _ Eo) as (o1 & Eo1 & Hp & Hl). assert (o1 = o) by congruence. subst o1.
        split; [exact Hp|]. eapply obj_like_mono; [|exact Hl]. intros x c [Hx Hlt']. split; [exact Hx|lia]. }
    assert (Hpart : forall a b, part_of h' a b -> forall o, R orig a o -> exists o', R orig b o').
    { intros a b Hab. induction Hab as [a|a c b Hs Hch Hcb IH]; intros o HRa; [eauto|].
      destruct (Hobj a o HRa) as (ob & _ & Eh & _ & Hl). rewrite Eh in Hch.
      destruct (like_children_l copy drop _ _ _ Hl c Hch) as (o' & _ & [HRc _]). eapply IH; eauto. }
    assert (HRn : forall m, part_of h' n m -> R orig m (origin orig m)).
    { intros m Hm. destruct (Hpart n m Hm root HR) as (o & Ho). rewrite (origin_R _ _ _ Ho). exact Ho. }
    exists (origin orig). split.
    - intros o Ho. unfold h', extend. apply Nat.ltb_lt in Ho. rewrite Ho. reflexivity.
    - intros o c Ho Hch. destruct (lt_dec o size) as [Hlt|Hge].
      + assert (E : h' o = h o) by (unfold h', extend; apply Nat.ltb_lt in Hlt; rewrite Hlt; reflexivity).
        rewrite E in Hch. pose proof (Hc o c Hlt Hch). lia.
      + assert (Hlt : o - size < length orig) by (rewrite (ci_len _ _ Hi); lia).
        destruct (nth_error orig (o - size)) as [o1|] eqn:Eo; [|apply nth_error_None in Eo; lia].
        destruct (Hobj o o1) as (ob & _ & Eh & _ & Hl); [split; [lia|exact Eo]|]. rewrite Eh in Hch.
        destruct (like_children_l copy drop _ _ _ Hl c Hch) as (o' & _ & [_ Hlt']). lia.
    - destruct HR as [Hn En]. assert (n - size < length orig) by (apply nth_error_Some; congruence).
      rewrite <- (ci_len _ _ Hi). lia.
    - apply origin_R. exact HR.
    - intros m Hm. apply (HRn m Hm).
    - intros m Hm. destruct (Hobj m _ (HRn m Hm)) as (ob & _ & _ & Hp & _). exact Hp.
    - intros m Hm. destruct (Hobj m _ (HRn m Hm)) as (ob & _ & -> & _ & Hl).
      eapply obj_like_mono; [|exact Hl]. intros x c [Hx _]. apply origin_R. exact Hx.
    - intros a b Ha Hb Hab Hnode. pose proof (HRn a Ha) as [Hga Ea]. pose proof (HRn b Hb) as [Hgb Eb].
      pose proof (ci_shared _ _ Hi _ _ Ea Hnode) as E1. rewrite <- Hab in Eb.
      pose proof (ci_shared _ _ Hi _ _ Eb Hnode) as E2. rewrite E1 in E2. injection E2 as E2. lia.
    - intros Hd.
      assert (Hgen : forall a b, part_of h a b -> forall m, part_of h' n m -> origin orig m = a ->
                 exists m', part_of h' n m' /\ origin orig m' = b).
      { intros a b Hab. induction Hab as [a|a c b Hs Hch Hcb IH]; intros m Hm Em; [eauto|].
        destruct (Hobj m _ (HRn m Hm)) as (ob & _ & Eh & _ & Hl). rewrite Em in Hl.
        destruct (like_children_r copy drop _ _ _ Hd Hl c Hch) as (m' & Hin & [HRm _]).
        apply (IH m'); [|apply origin_R; exact HRm].
        eapply reach_trans; [exact Hm|]. apply part_child. rewrite Eh. exact Hin. }
      intros o Ho. eapply Hgen; [exact Ho|constructor|apply origin_R; exact HR].
    - intros m Hm. assert (Hw : forall x y, part_of h' x y -> part_of h' n x -> y <= x).
      { intros x y Hxy. induction Hxy as [x|x c y Hs Hch Hcy IH]; intros Hx; [lia|].
        destruct (Hobj x _ (HRn x Hx)) as (ob & _ & Eh & _ & Hl). pose proof Hch as Hch'. rewrite Eh in Hch.
        destruct (like_children_l copy drop _ _ _ Hl c Hch) as (o' & _ & [_ Hlt']).
        assert (y <= c); [|lia]. apply IH. eapply reach_trans; [exact Hx|]. apply part_child. exact Hch'. }
      intros (c & Hch & Hcm).
      destruct (Hobj m _ (HRn m Hm)) as (ob & _ & Eh & _ & Hl). pose proof Hch as Hch'. rewrite Eh in Hch.
      destruct (like_children_l copy drop _ _ _ Hl c Hch) as (o' & _ & [_ Hlt']).
      assert (m <= c); [|lia]. apply (Hw c m Hcm). eapply reach_trans; [exact Hm|]. apply part_child. exact Hch'.
  Qed.
End Proofs.
