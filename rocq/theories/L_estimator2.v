(** Evaluations as a whole: what they change, and that fitting does not depend on earlier
    fits. *)
From Verif Require Import Base M_traverse L_traverse M_expr L_expr1 L_expr2 L_expr3 L_expr4
  L_expr5 L_expr6 L_expr7 L_estimator1.
Open Scope string_scope.
Open Scope list_scope.
Open Scope nat_scope.

Section Eval.
  Context {V K F : Type} `{EqD K}.
  Notation heap := (heap V K).
  Notation st := (st V F).
  Variable ext : externals V K F.
  Variable h : heap.
  Variable size : nat.

  Lemma prune_same root mode ns (s : st) :
    fitted (fst (prune h size root mode ns s)) = fitted s /\
    trace (fst (prune h size root mode ns s)) = trace s.
  Proof.
    unfold prune. destruct (visit _ _ _ _ _) as [l [u|ex|t|]]; cbn [fst]; auto.
    destruct (fold_prune mode l ns s) as (A & _ & B & _). auto.
  Qed.

  Lemma evaluate_keeps root requested e clear (s : st) :
    let out := fst (evaluate ext h size root requested e clear s) in
    keeps h (real_mode requested) s out.
  Proof.
    cbn zeta. unfold evaluate. fold (real_mode requested). set (mode := real_mode requested).
    destruct clear.
    - destruct (nodes h size root) as [ns|ex]; [|apply keeps_refl].
      destruct (clear_spec mode ns s) as (C1 & C2 & _).
      pose proof (visit_keeps ext h e mode (prune h size root mode ns) (prune_same root mode ns)
                    size [] root (clear_nodes ns mode s)) as Hk.
      destruct (visit _ _ _ _ _) as [s2 r]. cbn [fst] in *.
      destruct (clear_spec mode ns s2) as (D1 & D2 & _).
      destruct Hk as [H1 H2]. split.
      + rewrite D2. rewrite C2 in H1. exact H1.
      + intros x. specialize (H2 x). rewrite D1, D2. rewrite C1 in H2. exact H2.
    - pose proof (visit_keeps ext h e mode (fun s => (s, TOk tt)) (fun s => conj eq_refl eq_refl)
                    size [] root s) as Hk.
      destruct (visit _ _ _ _ _) as [s2 r]. exact Hk.
  Qed.

  Lemma evaluate_exact root requested e (s : st) v :
    closed h size -> root < size -> acyclic h root -> trace s = [] ->
    snd (evaluate ext h size root requested e true s) = Ok v ->
    forall x, In x (trace (fst (evaluate ext h size root requested e true s))) ->
      exists w, Den ext h e (real_mode requested) (fitted s) x
        (Ok (w, fitted (fst (evaluate ext h size root requested e true s)) x)).
  Proof.
    intros Hc Hr Ha Ht E x.
    destruct (acyclic_nodes h size root Hc Hr Ha) as (ns & En & Hnd & Hns).
    unfold evaluate in *. fold (real_mode requested) in *. set (mode := real_mode requested) in *.
    rewrite En in *.
    destruct (clear_spec mode ns s) as (C1 & C2 & C3 & C4).
    set (s1 := clear_nodes ns mode s) in *.
    pose proof (prune_cb h size root Hc Hr Ha (V := V) (F := F) ns mode Hns) as Hcb.
    assert (Hcb' : forall s : st, exists s', prune h size root mode ns s = (s', TOk tt) /\
      (forall o, fitted s' o = fitted s o) /\
      (forall o v, results s' o mode = Some v -> results s o mode = Some v) /\ trace s' = trace s).
    { intros s0. destruct (Hcb s0) as (s' & E' & Hf & _ & Htr & _ & Hrr). exists s'.
      split; [exact E'|]. split; [intros o; rewrite Hf; reflexivity|]. split; [|exact Htr].
      intros o w Ew. destruct (Hrr o) as [Er|Er]; congruence. }
    assert (Hi : Inv ext h e mode (fitted s) root s1).
    { split.
      - intros o w Ho Hex _ Er. rewrite C3, eqb_of_refl in Er.
        assert (Hin : In o ns) by (apply Hns; auto).
        apply mem_true in Hin. rewrite Hin in Er. discriminate.
      - intros o. left. rewrite C1. reflexivity. }
    pose proof (visit_exact ext h e mode (fitted s) root _ Hcb' size [] root s1 (reach_refl _ _ _) Hi) as Hx.
    destruct (visit _ _ _ _ _) as [s2 [w|ex|t|]]; cbn [fst snd to_res] in *; try discriminate.
    destruct (clear_spec mode ns s2) as (D1 & D2 & _). rewrite D1, D2. intros Hin.
    cbn [GoodT] in Hx. destruct (Hx x Hin) as [Hin'|Hin']; [|exact Hin'].
    rewrite C2, Ht in Hin'. contradiction.
  Qed.
End Eval.

(** ** In a fitting mode, what is computed does not depend on what was fitted before *)
Section Indep.
  Context {V K F : Type} `{EqD K}.
  Notation heap := (heap V K).
  Variable ext : externals V K F.
  Variable h : heap.
  Variable e : env V.
  Variable mode : string.
  Hypothesis Hfit : fit_mode mode = true.
  Variable root : oid.

  (** No step whose fitted estimator is used ([.skb.applied_estimator]) is replaced by a
      value of the environment. *)
  Definition applied_computed : Prop :=
    forall o t name isX isY, part_of h root o -> h o = OExpr (IApplied t) name isX isY ->
      given h e t = None.
  Hypothesis Happ : applied_computed.

  Variables f1 f2 : oid -> option (fit_attr V F).
  Notation den1 := (den ext h e mode f1).
  Notation den2 := (den ext h e mode f2).

  Definition same_slot (o : oid) (a b : option (fit_attr V F)) : Prop :=
    stateful h o -> given h e o = None -> a = b.
  Definition samed (o : oid) (x y : dres (V * option (fit_attr V F))) : Prop :=
    match x, y with
    | None, None => True
    | Some (Err ex), Some (Err ex') => ex = ex'
    | Some (Ok (v, a)), Some (Ok (w, b)) => v = w /\ same_slot o a b
    | _, _ => False
    end.

  Lemma samed_plain o (x y : dres V) : ~ stateful h o \/ given h e o <> None -> x = y ->
    samed o (dbind x (fun v => Some (Ok (v, f1 o)))) (dbind y (fun v => Some (Ok (v, f2 o)))).
  Proof.
    intros Hs <-. destruct x as [[v|ex]|]; cbn; auto. split; [reflexivity|].
    intros Hst Hg. destruct Hs; contradiction.
  Qed.

  Lemma dmapM_ext {A B} (f g : A -> dres B) l : (forall a, In a l -> f a = g a) -> dmapM f l = dmapM g l.
  Proof.
    induction l as [|a l IH]; intros Hfg; [reflexivity|]. cbn [dmapM].
    rewrite (Hfg a (or_introl eq_refl)), IH; [reflexivity|]. intros b Hb. apply Hfg. right. exact Hb.
  Qed.
  Lemma dbind_ext {A B} (x : dres A) (f g : A -> dres B) : (forall a, f a = g a) -> dbind x f = dbind x g.
  Proof. intros Hfg. destruct x as [[a|ex]|]; cbn; auto. Qed.

  Lemma samed_ev o x y : samed o x y ->
    dbind x (fun vf => Some (Ok (fst vf))) = dbind y (fun vf => Some (Ok (fst vf))).
  Proof.
    destruct x as [[[v a]|ex]|], y as [[[w b]|ex']|]; cbn; try contradiction; auto.
    - intros [-> _]. reflexivity.
    - intros ->. reflexivity.
  Qed.

  Lemma samed_refl_shown o (r : res (V * option (fit_attr V F))) :
    samed o (Some (shown ext mode r)) (Some (shown ext mode r)).
  Proof. destruct r as [[v a]|ex]; cbn; auto. split; [reflexivity|]. intros _ _. reflexivity. Qed.
  Lemma samed_slot o (r : res V) : ~ stateful h o \/ given h e o <> None ->
    samed o (Some (shown ext mode (with_slot f1 o r))) (Some (shown ext mode (with_slot f2 o r))).
  Proof.
    intros Hs. destruct r; cbn; auto. split; [reflexivity|].
    intros Hst Hg. destruct Hs; contradiction.
  Qed.

  Lemma den_indep : forall d o, part_of h root o -> samed o (den1 d o) (den2 d o).
  Proof.
    induction d as [|d IH]; intros o Ho; [exact I|]. cbn [den].
    assert (Hev : forall t, edge h o t ->
      dbind (den1 d t) (fun vf => Some (Ok (fst vf))) = dbind (den2 d t) (fun vf => Some (Ok (fst vf)))).
    { intros t Ht. apply (samed_ev t). apply IH. eapply reach_trans; [exact Ho|]. apply edge_part. exact Ht. }
    assert (Hec : forall t, In t (children (h o)) ->
      dbind (den1 d t) (fun vf => Some (Ok (fst vf))) = dbind (den2 d t) (fun vf => Some (Ok (fst vf)))).
    { intros t Ht. apply Hev. left. exact Ht. }
    assert (Hns : ~ stateful h o -> ~ stateful h o \/ given h e o <> None) by auto.
    destruct (h o) as [i name isX isY|ty items|ty items|a b c|name outs ch|name df ch|c m|cls p|v] eqn:Eh.
    - destruct (provided e i name isX isY) as [v|] eqn:Ep.
      { cbn. split; [reflexivity|]. intros _ Hg. unfold given in Hg. rewrite Eh in Hg. congruence. }
      assert (Hargs : forall l : list (string * oid), (forall nc, In nc l -> In (snd nc) (children (OExpr (V := V) (K := K) i name isX isY))) ->
        dmapM (fun nc => dbind (dbind (den1 d (snd nc)) (fun vf => Some (Ok (fst vf)))) (fun v => Some (Ok (fst nc, v)))) l
        = dmapM (fun nc => dbind (dbind (den2 d (snd nc)) (fun vf => Some (Ok (fst vf)))) (fun v => Some (Ok (fst nc, v)))) l).
      { intros l Hl. apply dmapM_ext. intros nc Hnc. rewrite (Hec (snd nc)); [reflexivity|]. apply Hl. exact Hnc. }
      destruct i as [value|value|cnd it fa|q tg default|tgt|X est y cols how allow unsup|tgt|fi ot|op fs].
      + assert (Hs : ~ stateful h o) by (unfold stateful; rewrite Eh; auto).
        destruct value as [c|]; [|apply samed_slot; auto].
        rewrite (Hec c); [|simpl; auto].
        destruct (dbind (den2 d c) _) as [[w|ex]|]; cbn [dbind samed]; auto. apply samed_slot; auto.
      + assert (Hs : ~ stateful h o) by (unfold stateful; rewrite Eh; auto).
        apply samed_plain; auto. apply Hec. simpl. auto.
      + assert (Hs : ~ stateful h o) by (unfold stateful; rewrite Eh; auto).
        rewrite (Hec cnd); [|simpl; auto].
        destruct (dbind (den2 d cnd) _) as [[w|ex]|]; cbn [dbind samed]; auto.
        destruct (truthy ext w) as [b|ex]; cbn [dbind samed]; auto.
        apply samed_plain; auto. apply Hec. destruct b; simpl; auto.
      + assert (Hs : ~ stateful h o) by (unfold stateful; rewrite Eh; auto).
        rewrite (Hec q); [|destruct default; simpl; auto].
        destruct (dbind (den2 d q) _) as [[w|ex]|]; cbn [dbind samed]; auto.
        destruct (key_of ext w) as [key|ex]; cbn [dbind samed]; auto.
        apply samed_plain; auto. destruct (h tg) eqn:Etg; auto.
        destruct (dget key items) as [t|] eqn:Ed.
        * apply Hev. right. exists tg. unfold child. rewrite Eh. split; [destruct default; simpl; auto|].
          rewrite Etg. split; [reflexivity|]. simpl. eapply in_dget; eauto.
        * destruct default; auto. apply Hec. simpl. auto.
      + rewrite Hfit. rewrite (Hec tgt); [|simpl; auto].
        destruct (dbind (den2 d tgt) _) as [[w|ex]|]; cbn [dbind samed]; auto.
        split; [reflexivity|]. intros _ _. reflexivity.
      + rewrite Hfit. rewrite Hargs.
        * destruct (dmapM _ _) as [[a|ex]|]; cbn [dbind samed]; auto. apply samed_refl_shown.
        * intros [n t] Hin. cbn [snd fst]. simpl in Hin |- *.
          destruct unsup; simpl in Hin; intuition congruence.
      + assert (Hs : ~ stateful h o) by (unfold stateful; rewrite Eh; auto).
        assert (Ht : part_of h root tgt).
        { eapply reach_trans; [exact Ho|]. apply part_child. unfold child. rewrite Eh. simpl. auto. }
        pose proof (IH tgt Ht) as Hd.
        pose proof (Happ o tgt name isX isY Ho Eh) as Hg.
        destruct (den1 d tgt) as [[[v1 a1]|x1]|], (den2 d tgt) as [[[v2 a2]|x2]|];
          cbn [samed dbind] in *; try contradiction; auto.
        destruct Hd as [-> Hslot]. cbn [snd].
        destruct (h tgt) as [[]| | | | | | | |] eqn:Et; try apply (samed_refl_shown o (Err AttributeError)).
        rewrite <- (Hslot ltac:(unfold stateful; rewrite Et; exact I) Hg).
        destruct (fitted_with a1); [|apply (samed_refl_shown o (Err AttributeError))].
        apply (samed_slot o (Ok (applied ext f))). auto.
      + rewrite Hfit. rewrite Hargs.
        * destruct (dmapM _ _) as [[a|ex]|]; cbn [dbind samed]; auto. apply samed_refl_shown.
        * intros [n t] Hin. simpl in *. intuition congruence.
      + assert (Hs : ~ stateful h o) by (unfold stateful; rewrite Eh; auto).
        rewrite Hargs.
        * destruct (dmapM _ _) as [[a|ex]|]; cbn [dbind samed]; auto. apply samed_slot; auto.
        * intros nc Hin. simpl. apply in_map. exact Hin.
    - apply samed_plain; [left; unfold stateful; rewrite Eh; auto|]. f_equal. apply dmapM_ext.
      intros kc Hkc. rewrite (Hec (snd kc)); [reflexivity|]. simpl. apply in_map. exact Hkc.
    - apply samed_plain; [left; unfold stateful; rewrite Eh; auto|]. f_equal. apply dmapM_ext.
      intros c Hc. apply Hec. exact Hc.
    - apply samed_plain; [left; unfold stateful; rewrite Eh; auto|].
      rewrite (Hec a), (Hec b), (Hec c); simpl; auto.
    - assert (Hs : ~ stateful h o) by (unfold stateful; rewrite Eh; auto).
      destruct (match name with Some n => dget n e | None => None end) as [v|].
      { apply (samed_plain o (Some (Ok v)) (Some (Ok v))); auto. }
      apply samed_plain; auto. destruct (h outs) eqn:Eo; auto.
      destruct (nth_error items _) as [t|] eqn:En; auto.
      apply Hev. right. exists outs. unfold child. rewrite Eh. split; [simpl; auto|].
      rewrite Eo. split; [reflexivity|]. simpl. eapply nth_error_In; eauto.
    - assert (Hs : ~ stateful h o) by (unfold stateful; rewrite Eh; auto).
      apply (samed_plain o (Some (Ok _)) (Some (Ok _))); auto.
    - assert (Hs : ~ stateful h o) by (unfold stateful; rewrite Eh; auto).
      rewrite (Hec c); [|simpl; auto].
      destruct (dbind (den2 d c) _) as [[w|ex]|]; cbn [dbind samed]; auto.
      destruct (key_of ext w) as [key|ex]; cbn [dbind samed]; auto.
      apply samed_plain; auto. destruct (h m) eqn:Em; auto.
      destruct (dget key items) as [t|] eqn:Ed; auto.
      apply Hev. right. exists m. unfold child. rewrite Eh. split; [simpl; auto|].
      rewrite Em. split; [reflexivity|]. simpl. eapply in_dget; eauto.
    - assert (Hs : ~ stateful h o) by (unfold stateful; rewrite Eh; auto).
      apply samed_plain; auto. rewrite (Hec p); simpl; auto.
    - assert (Hs : ~ stateful h o) by (unfold stateful; rewrite Eh; auto).
      apply (samed_plain o (Some (Ok _)) (Some (Ok _))); auto.
  Qed.

  Lemma Den_indep_ok o v a : part_of h root o -> Den ext h e mode f1 o (Ok (v, a)) ->
    exists b, Den ext h e mode f2 o (Ok (v, b)) /\ same_slot o a b.
  Proof.
    intros Ho [d E]. pose proof (den_indep d o Ho) as Hd. rewrite E in Hd. cbn [samed] in Hd.
    destruct (den2 d o) as [[[w b]|ex]|] eqn:E2; try contradiction. destruct Hd as [<- Hs].
    exists b. split; [exists d; exact E2|exact Hs].
  Qed.
  Lemma Den_indep_err o ex : part_of h root o -> Den ext h e mode f1 o (Err ex) ->
    Den ext h e mode f2 o (Err ex).
  Proof.
    intros Ho [d E]. pose proof (den_indep d o Ho) as Hd. rewrite E in Hd. cbn [samed] in Hd.
    destruct (den2 d o) as [[[w b]|ex']|] eqn:E2; try contradiction. subst. exists d. exact E2.
  Qed.
  Lemma DenV_indep o v : part_of h root o -> DenV ext h e mode f1 o (Ok v) -> DenV ext h e mode f2 o (Ok v).
  Proof.
    intros Ho [d E]. pose proof (samed_ev o _ _ (den_indep d o Ho)) as Hd.
    exists d. unfold ev in *. rewrite <- Hd. exact E.
  Qed.

  Lemma needs_indep o t : part_of h root o -> needs ext h e mode f1 o t -> needs ext h e mode f2 o t.
  Proof.
    intros Ho. unfold needs.
    destruct (h o) as [i name isX isY|ty items|ty items|a b c|name outs ch|name df ch|c m|cls p|v] eqn:Eh; auto.
    - intros [Hp Hn]. split; [exact Hp|].
      assert (Hch : forall t, In t (children (h o)) -> part_of h root t).
      { intros t0 Ht. eapply reach_trans; [exact Ho|]. apply part_child. exact Ht. }
      rewrite Eh in Hch.
      destruct i as [value|value|cnd it fa|q tg default|tgt|X est y cols how allow unsup|tgt|fi ot|op fs]; auto.
      + destruct Hn as [->|(cv & Hd & Hn)]; [auto|]. right. exists cv. split; [|exact Hn].
        apply DenV_indep; [|exact Hd]. apply Hch. simpl. auto.
      + destruct Hn as [->|(qv & key & ty & items & Hd & Hn)]; [auto|]. right.
        exists qv, key, ty, items. split; [|exact Hn].
        apply DenV_indep; [|exact Hd]. apply Hch. destruct default; simpl; auto.
    - intros [->|(v & key & ty & items & Hd & Hn)]; [auto|]. right.
      exists v, key, ty, items. split; [|exact Hn]. apply DenV_indep; [|exact Hd].
      eapply reach_trans; [exact Ho|]. apply part_child. unfold child. rewrite Eh. simpl. auto.
  Qed.

  Lemma needed_part (f : oid -> option (fit_attr V F)) x : needed ext h e mode f root x -> part_of h root x.
  Proof.
    intros Hn. induction Hn as [|x t Hn IH Ht]; [constructor|].
    eapply reach_trans; [exact IH|]. apply edge_part. eapply needs_edge; eauto.
  Qed.
  Lemma needed_indep x : needed ext h e mode f1 root x -> needed ext h e mode f2 root x.
  Proof.
    intros Hn. induction Hn as [|x t Hn IH Ht]; [constructor|].
    econstructor; [exact IH|]. apply needs_indep; [|exact Ht]. eapply needed_part; eauto.
  Qed.
End Indep.
