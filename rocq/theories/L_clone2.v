(** Cloning succeeds; the clone evaluates like the original. *)
From Verif Require Import Base L_dict M_traverse L_traverse M_expr L_expr1 L_expr2 L_expr3 L_expr4 L_expr5 L_expr6 L_expr7 M_clone L_clone.
Open Scope string_scope.
Open Scope list_scope.
Open Scope nat_scope.

Lemma visit_all_len {V S} (vc : oid -> S -> S * outcome V) path : forall items s s' vs,
  visit_all vc path items s = (s', TOk vs) -> length vs = length items.
Proof.
  induction items as [|t items IH]; intros s s' vs E.
  - injection E as _ <-. reflexivity.
  - apply visit_all_cons_ok in E. destruct E as (v & s1 & vs' & _ & _ & E & ->).
    simpl. f_equal. eapply IH; eauto.
Qed.

Section Success.
  Context {V K : Type} `{EqD K}.
  Notation heap := (heap V K).
  Variable copy : V -> res V.
  Variables new_seq new_map new_estimator : string -> res unit.
  Variable h : heap.
  Variable size : nat.
  Variable drop : bool.
  Variable root : oid.
  Notation handler := (clone_handler copy new_seq new_map new_estimator h size drop).
  Notation cst := (clone_st V K).

  (** The parts of the expression that Python has to copy can be copied. *)
  Definition copyable (o : oid) : Prop :=
    match h o with
    | OMap ty _ => exists u, new_map ty = Ok u
    | OSeq ty _ => exists u, new_seq ty = Ok u
    | OEstimator cls _ => exists u, new_estimator cls = Ok u
    | OValue v => exists v', copy v = Ok v'
    | _ => True
    end.

  Ltac lens vs := repeat (destruct vs as [|? vs]; simpl in *; try discriminate).

  Lemma replace_total i vs : length vs = length (fields i) -> exists i', replace_fields drop i vs = Ok i'.
  Proof.
    intros E. destruct i as [[w|]|w|c t e|q t [d|]|t|x e y c hw a u|t|fi ot|op fs];
      [..|simpl in *; rewrite E, Nat.eqb_refl; eauto]; lens vs; simpl; eauto.
  Qed.

  Lemma rebuild_total o vs : copyable o -> length vs = length (children (h o)) ->
    exists ob, rebuild copy new_seq new_map new_estimator drop (h o) vs = Ok ob.
  Proof.
    unfold copyable. intros Hc E.
    destruct (h o) as [i name isX isY|ty items|ty items|a b c|name ou ch|name d ch|c m|cls p|v]; simpl in E.
    - rewrite map_length in E. destruct (replace_total i vs E) as (i' & Ei). simpl. rewrite Ei. simpl. eauto.
    - destruct Hc as [u Eu]. rewrite map_length in E. simpl. rewrite Eu. cbn [bind]. rewrite E, Nat.eqb_refl. eauto.
    - destruct Hc as [u Eu]. simpl. rewrite Eu. simpl. eauto.
    - lens vs. eauto.
    - lens vs. eauto.
    - lens vs. eauto.
    - lens vs. eauto.
    - destruct Hc as [u Eu]. lens vs. rewrite Eu. simpl. eauto.
    - destruct Hc as [v' Ev]. lens vs. rewrite Ev. simpl. eauto.
  Qed.

  Lemma clone_not_err : (forall o, part_of h root o -> copyable o) ->
    forall d path o s s' ex, part_of h root o -> visit handler d path o s <> (s', TErr ex).
  Proof.
    intros Hc. induction d as [|d IH]; intros path o s s' ex Hp; [discriminate|].
    rewrite clone_visit_S. cbn zeta.
    assert (Hall : forall items s s' ex, (forall c, In c items -> part_of h root c) ->
      visit_all (visit handler d (o :: path)) (o :: path) items s <> (s', TErr ex)).
    { induction items as [|t items IHi]; intros s0 s0' ex0 Hit E0; [discriminate|].
      cbn [visit_all] in E0. unfold vchk in E0. destruct (mem t (o :: path)); [discriminate|].
      destruct (visit handler d (o :: path) t s0) as [s1 [v|e1|t1|]] eqn:Ev; cbn [obind] in E0; try discriminate.
      - destruct (visit_all _ _ items s1) as [s2 [vs|e2|t2|]] eqn:Ea; cbn [obind] in E0; try discriminate.
        injection E0 as -> ->. eapply IHi; [|exact Ea]. intros c Hin. apply Hit. right. exact Hin.
      - injection E0 as -> ->. eapply IH; [|exact Ev]. apply Hit. left. reflexivity. }
    assert (Hal : forall m vs s1, length vs = length (children (h o)) ->
      run_gen (visit handler d (o :: path)) (o :: path)
        (alloc copy new_seq new_map new_estimator h size drop o m vs) s1 <> (s', TErr ex)).
    { intros m vs s1 El. unfold alloc. destruct (rebuild_total o vs (Hc o Hp) El) as (ob & ->).
      cbn [run_gen]. discriminate. }
    assert (Hfin : forall b, (forall vs s1, length vs = length (children (h o)) ->
         run_gen (visit handler d (o :: path)) (o :: path) (b vs s1) s1 <> (s', TErr ex)) ->
      obind (visit_all (visit handler d (o :: path)) (o :: path) (children (h o)) s)
         (fun vs s1 => run_gen (visit handler d (o :: path)) (o :: path) (b vs s1) s1) <> (s', TErr ex)).
    { intros b Hb E. destruct (visit_all _ _ (children (h o)) s) as [s1 [vs|e1|t1|]] eqn:Ea; cbn [obind] in E; try discriminate.
      - apply (Hb vs s1); [eapply visit_all_len; eauto|exact E].
      - injection E as -> ->. eapply Hall; [|exact Ea]. intros c Hin.
        eapply reach_trans; [exact Hp|]. apply part_child. exact Hin. }
    destruct (h o) eqn:Eh; try (apply Hfin; intros; apply Hal; assumption).
    - apply Hfin. intros vs s1 El. destruct (dget o (c_memo s1)); [discriminate|apply Hal; exact El].
    - destruct (dget o (c_memo s)); [discriminate|]. apply Hfin; intros; apply Hal; assumption.
    - destruct (dget o (c_memo s)); [discriminate|]. apply Hfin; intros; apply Hal; assumption.
  Qed.

  Theorem clone_succeeds : closed h size -> root < size -> acyclic h root ->
    (forall o, part_of h root o -> copyable o) ->
    exists x, clone copy new_seq new_map new_estimator h size root drop = Ok x.
  Proof.
    intros Hcl Hr Ha Hc. unfold clone.
    destruct (visit handler size [] root (mk_cst [] [])) as [s r] eqn:Ev.
    destruct r as [n|ex|t|]; cbn [to_res bind]; eauto.
    - exfalso. eapply (clone_not_err Hc); [constructor|exact Ev].
    - exfalso. apply (visit_circ handler (child h)) in Ev;
        [|intros o; apply clone_handler_edges].
      destruct Ev as [Ht Hrt]. apply (Ha t); [apply rt_part; exact Hrt|].
      apply trans_on_cycle. exact Ht.
    - exfalso. apply (visit_no_fuel_heap handler size root (mk_cst [] [])); auto.
      + apply closed_handler with (h := h); [exact Hcl|]. intros o. apply clone_handler_edges.
      + rewrite Ev. reflexivity.
  Qed.
End Success.

Section Evaluation.
  Context {V K F : Type} `{EqD K}.
  Notation heap := (heap V K).
  Variable ext : externals V K F.
  Variable copy : V -> res V.
  Variable drop : bool.
  Variables h h' : heap.
  Variable root root' : oid.
  Variable f : oid -> oid.
  Hypothesis Hcopy : forall v v', copy v = Ok v' -> v' = v.
  (** [f] gives the object of which each part of [root'] is the copy. *)
  Hypothesis Hpart : forall n, part_of h' root' n -> part_of h root (f n).
  Hypothesis Hlike : forall n, part_of h' root' n -> obj_like copy drop (fun n' o' => f n' = o') (h' n) (h (f n)).
  Variable e : env V.
  Variable mode : string.
  (** Values dropped from the variables are not needed. *)
  Definition values_unused : Prop :=
    drop = true -> mode <> "preview" /\ dget "_skrub_use_var_values" e = None /\
      forall o c name isX isY, part_of h root o -> h o = OExpr (IVar (Some c)) name isX isY ->
        exists v, h c = OValue v.
  Hypothesis Hunused : values_unused.
  Variables f0 f0' : oid -> option (fit_attr V F).
  Hypothesis Hf0 : forall n, part_of h' root' n -> f0' n = f0 (f n).

  Lemma clone_child n c : part_of h' root' n -> In c (children (h' n)) -> part_of h' root' c.
  Proof. intros Hn Hc. eapply reach_trans; [exact Hn|]. apply part_child. exact Hc. Qed.

  Lemma dget_rel (l' l : list (K * oid)) k :
    Forall2 (fun n o => fst n = fst o /\ f (snd n) = snd o) l' l ->
    dget k l = option_map f (dget k l').
  Proof.
    intros Hf. induction Hf as [|[k' n] [k0 o] l' l [Hk Hn] _ IH]; [reflexivity|].
    simpl in *. subst. destruct (eqd k k0); [reflexivity|exact IH].
  Qed.

  Lemma dle_args {A} (g g' : oid -> dres V) (l' l : list (A * oid)) :
    Forall2 (fun n o => fst n = fst o /\ f (snd n) = snd o) l' l ->
    (forall c, In c (map snd l') -> dle (g (f c)) (g' c)) ->
    dle (dmapM (fun nc => dbind (g (snd nc)) (fun v => Some (Ok (fst nc, v)))) l)
        (dmapM (fun nc => dbind (g' (snd nc)) (fun v => Some (Ok (fst nc, v)))) l').
  Proof.
    intros Hf. induction Hf as [|[k' n] [k0 o] l' l [Hk Hn] _ IH]; intros Hg; [apply dle_refl|].
    simpl in *. subst. apply dle_bind.
    - apply dle_bind; [apply Hg; auto|intros; apply dle_refl].
    - intros b. apply dle_bind; [apply IH; auto|intros; apply dle_refl].
  Qed.
  Lemma dle_items (g g' : oid -> dres V) (l' l : list oid) :
    Forall2 (fun n o => f n = o) l' l -> (forall c, In c l' -> dle (g (f c)) (g' c)) ->
    dle (dmapM g l) (dmapM g' l').
  Proof.
    intros Hf. induction Hf as [|n o l' l Hn _ IH]; intros Hg; [apply dle_refl|].
    subst. simpl. apply dle_bind; [apply Hg; simpl; auto|].
    intros b. apply dle_bind; [apply IH; intros c Hc; apply Hg; right; exact Hc|intros; apply dle_refl].
  Qed.

  Lemma clone_den : forall d n, part_of h' root' n ->
    dle (den ext h e mode f0 d (f n)) (den ext h' e mode f0' d n).
  Proof.
    induction d as [|d IH]; intros n Hn; [intros r E; discriminate|].
    pose proof (Hlike n Hn) as Hl.
    pose proof (Hf0 n Hn) as Hfn.
    assert (Hden : forall c, In c (children (h' n)) ->
              dle (den ext h e mode f0 d (f c)) (den ext h' e mode f0' d c)).
    { intros c Hc. apply IH. eapply clone_child; eauto. }
    assert (Hev : forall c, In c (children (h' n)) ->
              dle (dbind (den ext h e mode f0 d (f c)) (fun vf => Some (Ok (fst vf))))
                  (dbind (den ext h' e mode f0' d c) (fun vf => Some (Ok (fst vf))))).
    { intros c Hc. apply dle_bind; [apply Hden; exact Hc|intros; apply dle_refl]. }
    set (g := fun c => dbind (den ext h e mode f0 d c) (fun vf => Some (Ok (fst vf)))) in *.
    set (g' := fun c => dbind (den ext h' e mode f0' d c) (fun vf => Some (Ok (fst vf)))) in *.
    assert (Hargs : forall (A : Type) (l' l : list (A * oid)),
      Forall2 (fun n o => fst n = fst o /\ f (snd n) = snd o) l' l ->
      (forall c, In c (map snd l') -> In c (children (h' n))) ->
      dle (dmapM (fun nc => dbind (g (snd nc)) (fun v => Some (Ok (fst nc, v)))) l)
          (dmapM (fun nc => dbind (g' (snd nc)) (fun v => Some (Ok (fst nc, v)))) l')).
    { intros A l' l Hf Hin. apply dle_args; [exact Hf|]. intros c Hc. apply Hev. apply Hin. exact Hc. }
    assert (Hlookup : forall (B : Type) m key (k k' : option oid -> dres B), In m (children (h' n)) ->
       (k None = k' None) ->
       (forall c, part_of h' root' c -> dle (k (Some (f c))) (k' (Some c))) ->
       dle (match h (f m) with OMap _ items => k (dget key items) | _ => Some (Err TypeError) end)
           (match h' m with OMap _ items => k' (dget key items) | _ => Some (Err TypeError) end)).
    { intros B m key k k' Hm Hk0 Hk. pose proof (clone_child n m Hn Hm) as Hpm.
      pose proof (Hlike m Hpm) as Hlm.
      remember (h (f m)) as om eqn:Em. remember (h' m) as om' eqn:Em'. symmetry in Em'.
      destruct Hlm as [i' i1 name1 isX1 isY1 Hi|ty1 items' items1 Hits|ty1 items' items1 Hits
        |n1 n2 n3 o1 o2 o3 R1 R2 R3|name1 n1 o1 ch1 R1|name1 df1 ch1
        |n1 n2 o1 o2 R1 R2|cls1 n1 o1 R1|v v' Hcp]; try apply dle_refl.
      pose proof (dget_rel _ _ key Hits) as Hg.
      rewrite Hg. destruct (dget key items') as [c|] eqn:Ec; simpl.
      - apply Hk. apply (clone_child m); [exact Hpm|]. rewrite Em'. simpl. apply in_map_iff.
        exists (key, c). split; [reflexivity|]. apply dget_In_weak. exact Ec.
      - rewrite Hk0. apply dle_refl. }
    cbn [den]. rewrite <- Hfn in *.
    destruct (h (f n)) as [i name isX isY|ty items|ty items|a b c|name outs ch|name df ch|c m|cls p|w] eqn:Eo;
      inversion Hl as [i' i1 name1 isX1 isY1 Hi E1 E2|ty1 items' items1 Hits E1 E2|ty1 items' items1 Hits E1 E2
        |n1 n2 n3 o1 o2 o3 R1 R2 R3 E1 E2|name1 n1 o1 ch1 R1 E1 E2|name1 df1 ch1 E1 E2
        |n1 n2 o1 o2 R1 R2 E1 E2|cls1 n1 o1 R1 E1 E2|v v' Hcp E1 E2]; subst.
    - replace (provided e i' name isX isY) with (provided e i name isX isY)
        by (unfold provided; destruct Hi; reflexivity).
      destruct (provided e i name isX isY); [apply dle_refl|].
      rewrite <- E1 in Hden, Hev.
      assert (Hin : forall c, In c (map snd (fields i')) -> In c (children (h' n)))
        by (rewrite <- E1; simpl; auto).
      destruct Hi as [|n1 o1 Hd R1|o1 Hd|n1 o1 R1|n1 n2 n3 o1 o2 o3 R1 R2 R3|n1 n2 o1 o2 R1 R2
        |n1 n2 n3 o1 o2 o3 R1 R2 R3|n1 o1 R1|n1 n2 n3 n4 n5 n6 o1 o2 o3 o4 o5 o6 u R1 R2 R3 R4 R5 R6
        |n1 o1 R1|n1 n2 o1 o2 R1 R2|op fs fs' Hfs]; subst.
      + unfold with_slot. rewrite Hfn. apply dle_refl.
      + apply dle_bind; [apply Hev; simpl; auto|]. intros v. unfold with_slot. rewrite Hfn. apply dle_refl.
      + destruct (Hunused Hd) as (Hm & Huse & Hplain).
        destruct (Hplain (f n) o1 name isX isY (Hpart n Hn) Eo) as (v & Ev).
        destruct d as [|d]; [intros r E; discriminate|].
        intros r E. cbn [den] in E. rewrite Ev in E. cbn [dbind fst] in E. rewrite <- E. f_equal. f_equal.
        unfold with_slot. rewrite Hfn. f_equal. unfold spec_var. rewrite Huse.
        rewrite (proj2 (eqb_of_false mode "preview") Hm). destruct name as [nm|]; [destruct (dget nm e)|]; reflexivity.
      + apply dle_bind; [apply Hev; simpl; auto|]. intros. apply dle_refl.
      + apply dle_bind; [apply Hev; simpl; auto|]. intros cv. apply dle_bind; [apply dle_refl|].
        intros [|]; (apply dle_bind; [apply Hev; simpl; auto|intros; apply dle_refl]).
      + apply dle_bind; [apply Hev; simpl; auto|]. intros qv. apply dle_bind; [apply dle_refl|].
        intros key. apply dle_bind; [|intros; apply dle_refl].
        apply (Hlookup V n2 key (fun t => match t with Some t' => dbind (den ext h e mode f0 d t') (fun vf => Some (Ok (fst vf))) | None => Some (Err KeyError) end)
          (fun t => match t with Some t' => dbind (den ext h' e mode f0' d t') (fun vf => Some (Ok (fst vf))) | None => Some (Err KeyError) end)); [apply Hin; simpl; auto|reflexivity|].
        intros c Hc. apply dle_bind; [apply IH; exact Hc|intros; apply dle_refl].
      + apply dle_bind; [apply Hev; simpl; auto|]. intros qv. apply dle_bind; [apply dle_refl|].
        intros key. apply dle_bind; [|intros; apply dle_refl].
        pose proof (clone_child n n2 Hn ltac:(rewrite <- E1; simpl; auto)) as Hpm.
        pose proof (Hlike n2 Hpm) as Hlm.
        remember (h (f n2)) as om eqn:Em. remember (h' n2) as om' eqn:Em'. symmetry in Em'.
        destruct Hlm as [i' i1 name1 isX1 isY1 Hi|ty1 items' items1 Hits|ty1 items' items1 Hits
          |? ? ? ? ? ? ? ? ?|? ? ? ? ?|? ? ?|? ? ? ? ? ?|? ? ? ?|? ? ?]; try apply dle_refl.
        pose proof (dget_rel _ _ key Hits) as Hg.
        rewrite Hg. destruct (dget key items') as [c|] eqn:Ec; cbn [option_map].
        * apply dle_bind; [|intros; apply dle_refl]. apply IH. apply (clone_child n2); [exact Hpm|].
          rewrite Em'. simpl. apply in_map_iff.
          exists (key, c). split; [reflexivity|]. apply dget_In_weak. exact Ec.
        * apply Hev. simpl. auto.
      + destruct (fit_mode mode).
        * apply dle_bind; [apply Hev; simpl; auto|intros; apply dle_refl].
        * rewrite Hfn. apply dle_refl.
      + destruct (fit_mode mode).
        * destruct u; (apply dle_bind; [|intros; apply dle_refl]); apply Hargs;
            try (simpl; repeat constructor; simpl; reflexivity);
            (intros c Hc; apply Hin; simpl in *; tauto).
        * destruct (eqb_of mode "score"); (apply dle_bind; [|intros; unfold with_slot; rewrite Hfn; apply dle_refl]);
            apply Hargs; try (simpl; repeat constructor; simpl; reflexivity);
            (intros c Hc; apply Hin; simpl in *; tauto).
      + apply dle_bind; [apply Hden; simpl; auto|]. intros vf. rewrite Hfn.
        pose proof (clone_child n n1 Hn ltac:(rewrite <- E1; simpl; auto)) as Hp1.
        pose proof (Hlike n1 Hp1) as Hl1.
        destruct (h (f n1)) as [i1 nm1 x1 y1| | | | | | | |]; inversion Hl1; subst; try apply dle_refl.
        match goal with Hx : impl_like _ _ _ _ |- _ => destruct Hx end; apply dle_refl.
      + apply dle_bind.
        * apply Hargs; [simpl; repeat constructor; simpl; reflexivity|].
          intros c Hc. apply Hin. simpl in *. tauto.
        * intros a. unfold with_slot. rewrite Hfn. apply dle_refl.
      + apply dle_bind.
        * apply Hargs; [exact Hfs|]. intros c Hc. apply Hin. simpl. exact Hc.
        * intros a. unfold with_slot. rewrite Hfn. apply dle_refl.
    - apply dle_bind; [|intros; apply dle_refl]. apply dle_bind; [|intros; apply dle_refl].
      apply Hargs; [exact Hits|]. intros c Hc. rewrite <- E1. exact Hc.
    - apply dle_bind; [|intros; apply dle_refl]. apply dle_bind; [|intros; apply dle_refl].
      apply (dle_items g g'); [exact Hits|]. intros c Hc. apply Hev. rewrite <- E1. exact Hc.
    - rewrite <- E1 in Hev. apply dle_bind; [|intros; apply dle_refl].
      apply dle_bind; [apply Hev; simpl; auto|]. intros x. apply dle_bind; [apply Hev; simpl; auto|].
      intros y. apply dle_bind; [apply Hev; simpl; auto|]. intros; apply dle_refl.
    - destruct (match name with Some n0 => dget n0 e | None => None end); [apply dle_refl|].
      apply dle_bind; [|intros; apply dle_refl].
      pose proof (clone_child n n1 Hn ltac:(rewrite <- E1; simpl; auto)) as Hpm.
      pose proof (Hlike n1 Hpm) as Hlm.
      remember (h (f n1)) as om eqn:Em. remember (h' n1) as om' eqn:Ey.
      destruct Hlm as [i' i1 name1' isX1 isY1 Hi|ty1 items' items1 Hits|ty1 items' items1 Hits
          |? ? ? ? ? ? ? ? ?|? ? ? ? ?|? ? ?|? ? ? ? ? ?|? ? ? ?|? ? ?]; try apply dle_refl.
      generalize (if eqb_of mode "preview" then 0 else match ch with Some i => i | None => 0 end).
      clear -Hits Ey IH Hpm. 
      assert (Hin : forall c, In c items' -> part_of h' root' c).
      { intros c Hc. apply (clone_child n1); [exact Hpm|]. rewrite <- Ey. exact Hc. }
      clear Ey Hpm. induction Hits as [|n0 o0 l' l Hn0 _ IHl]; intros idx.
      + destruct idx; apply dle_refl.
      + destruct idx as [|idx]; simpl.
        * subst. apply dle_bind; [apply IH; apply Hin; left; reflexivity|intros; apply dle_refl].
        * apply IHl. intros c Hc. apply Hin. right. exact Hc.
    - apply dle_refl.
    - rewrite <- E1 in Hev. apply dle_bind; [apply Hev; simpl; auto|]. intros ov.
      apply dle_bind; [apply dle_refl|]. intros key. apply dle_bind; [|intros; apply dle_refl].
      apply (Hlookup V n2 key (fun t => match t with Some t' => dbind (den ext h e mode f0 d t') (fun vf => Some (Ok (fst vf))) | None => Some (Err KeyError) end)
          (fun t => match t with Some t' => dbind (den ext h' e mode f0' d t') (fun vf => Some (Ok (fst vf))) | None => Some (Err KeyError) end)); [rewrite <- E1; simpl; auto|reflexivity|].
      intros c Hc. apply dle_bind; [apply IH; exact Hc|intros; apply dle_refl].
    - rewrite <- E1 in Hev. apply dle_bind; [|intros; apply dle_refl].
      apply dle_bind; [apply Hev; simpl; auto|]. intros; apply dle_refl.
    - rewrite (Hcopy _ _ Hcp). apply dle_refl.
  Qed.

  Lemma clone_Den n r : part_of h' root' n -> Den ext h e mode f0 (f n) r -> Den ext h' e mode f0' n r.
  Proof. intros Hn [d E]. exists d. apply (clone_den d n Hn). exact E. Qed.
End Evaluation.

Section Result.
  Context {V K F : Type} `{EqD K}.
  Notation heap := (heap V K).
  Variable ext : externals V K F.
  Variable copy : V -> res V.
  Variables new_seq new_map new_estimator : string -> res unit.

  Theorem clone_evaluates (h : heap) size root drop h' size' root' e requested (s s' : st V F) :
    (forall v v', copy v = Ok v' -> v' = v) ->
    closed h size -> root < size -> acyclic h root ->
    clone copy new_seq new_map new_estimator h size root drop = Ok (h', size', root') ->
    values_unused drop h root e (real_mode requested) ->
    (forall o, part_of h root o -> fitted s o = None) ->
    (forall n, part_of h' root' n -> fitted s' n = None) ->
    snd (evaluate ext h' size' root' requested e true s')
    = snd (evaluate ext h size root requested e true s).
  Proof.
    intros Hcopy Hc Hr Ha E Hun Hf Hf'.
    destruct (clone_is_clone copy new_seq new_map new_estimator h size drop root h' size' root' Hc Hr E) as (f & Hcl).
    destruct (evaluate_value ext h size root e requested s Hc Hr Ha) as (r & D & ->).
    destruct (evaluate_value ext h' size' root' e requested s' (clone_closed _ _ _ _ _ _ _ _ _ Hcl)
                (clone_root_lt _ _ _ _ _ _ _ _ _ Hcl) (clone_acyclic _ _ _ _ _ _ _ _ _ Hcl)) as (r' & D' & ->).
    f_equal. eapply Den_det; [exact D'|].
    eapply (clone_Den ext copy drop h h' root root' f Hcopy (clone_part _ _ _ _ _ _ _ _ _ Hcl) (clone_like _ _ _ _ _ _ _ _ _ Hcl) e (real_mode requested) Hun (fitted s) (fitted s')).
    - intros n Hn. rewrite Hf', Hf; auto. apply (clone_part _ _ _ _ _ _ _ _ _ Hcl). exact Hn.
    - constructor.
    - rewrite (clone_root _ _ _ _ _ _ _ _ _ Hcl). exact D.
  Qed.

  (** Evaluating (fitting) the clone does not change what is stored in the original. *)
  Theorem clone_independent (h : heap) size root drop h' size' root' e requested (s : st V F) :
    closed h size -> root < size ->
    clone copy new_seq new_map new_estimator h size root drop = Ok (h', size', root') ->
    let s2 := fst (evaluate ext h' size' root' requested e true s) in
    (forall o, o < size -> h' o = h o) /\
    forall o, o < size -> fitted s2 o = fitted s o /\
      forall m, results s2 o m = results s o m /\ errors s2 o m = errors s o m.
  Proof.
    intros Hc Hr E.
    destruct (clone_is_clone copy new_seq new_map new_estimator h size drop root h' size' root' Hc Hr E) as (f & Hcl).
    cbn zeta. split; [apply (clone_old _ _ _ _ _ _ _ _ _ Hcl)|].
    intros o Ho.
    assert (Hno : ~ (part_of h' root' o /\ is_expr_at h' o)).
    { intros [Hp _]. pose proof (clone_new _ _ _ _ _ _ _ _ _ Hcl o Hp). lia. }
    destruct (nothing_left ext h' size' root' e requested s (clone_closed _ _ _ _ _ _ _ _ _ Hcl)
                (clone_root_lt _ _ _ _ _ _ _ _ _ Hcl) (clone_acyclic _ _ _ _ _ _ _ _ _ Hcl)) as (_ & H2 & H3).
    split; [apply H3; exact Hno|]. intros m. apply H2. right. exact Hno.
  Qed.
End Result.
