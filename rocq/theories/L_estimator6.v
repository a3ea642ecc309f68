(** A report in a fitting mode fits the same attributes as the method; an example. *)
From Verif Require Import Base M_traverse L_traverse M_expr L_expr1 L_expr2 L_expr3 L_expr4
  L_expr5 L_expr6 L_expr7 M_estimator L_estimator1 L_estimator2 L_estimator3 L_estimator4 L_estimator5.
Open Scope string_scope.
Open Scope list_scope.
Open Scope nat_scope.

Section Report.
  Context {V K F : Type} `{EqD K}.
  Notation heap := (heap V K).
  Notation st := (st V F).
  Variable ext : externals V K F.
  Variable h : heap.
  Variable size : nat.
  Variable root : oid.
  Hypothesis Hclosed : closed h size.
  Hypothesis Hroot : root < size.
  Hypothesis Hacyclic : acyclic h root.

  (** Keeping the results, from a state that has none. *)
  Lemma keep_exact requested e (s : st) v : trace s = [] ->
    (forall x, part_of h root x -> is_expr_at h x -> results s x (real_mode requested) = None) ->
    let out := evaluate ext h size root requested e false s in
    snd out = Ok v ->
    (forall x, needed ext h e (real_mode requested) (fitted s) root x -> to_compute h e x ->
       In x (trace (fst out))) /\
    (forall x, In x (trace (fst out)) ->
       needed ext h e (real_mode requested) (fitted s) root x /\ to_compute h e x /\
       exists w, Den ext h e (real_mode requested) (fitted s) x (Ok (w, fitted (fst out) x))).
  Proof.
    intros Ht Hempty out. unfold out, evaluate. fold (real_mode requested). set (mode := real_mode requested) in *.
    pose proof (none_cb (V := V) (F := F) h root mode) as Hcb.
    set (cb := fun s : st => (s, TOk tt)) in *.
    assert (Hi : Inv ext h e mode (fitted s) root s).
    { split.
      - intros o w Ho Hex _ Er. rewrite Hempty in Er; [discriminate|exact Ho|exact Hex].
      - intros o. left. reflexivity. }
    assert (HI : Inv25 ext h root e mode (fitted s) True [] s).
    { split; rewrite ?Ht; try (intros x []); try constructor.
      intros x Hx Hpx Hr. exfalso. apply Hr. apply Hempty; [exact Hpx|]. eapply to_compute_expr; eauto. }
    pose proof (visit25 ext h root e mode (fitted s) cb Hcb True size s Hi HI) as H25.
    assert (Hcb' : forall s : st, exists s', cb s = (s', TOk tt) /\
      (forall o, fitted s' o = fitted s o) /\
      (forall o v, results s' o mode = Some v -> results s o mode = Some v) /\ trace s' = trace s).
    { intros s0. exists s0. repeat split; auto. }
    pose proof (visit_exact ext h e mode (fitted s) root cb Hcb' size [] root s (reach_refl _ _ _) Hi) as Hx.
    destruct (visit _ _ _ _ _) as [s2 [w|ex|t|]]; cbn [fst snd to_res] in *; try discriminate.
    intros _. destruct H25 as (HI2 & _ & Hcomp). split.
    - intros x Hn Htc. apply Hcomp; auto.
    - intros x Hin. destruct (i_needed _ _ _ _ _ _ _ _ _ HI2 x Hin) as [Hn Htc]. split; [exact Hn|].
      split; [exact Htc|]. cbn [GoodT] in Hx. destruct (Hx x Hin) as [Hin'|Hin']; [|exact Hin'].
      rewrite Ht in Hin'. contradiction.
  Qed.
End Report.

Section Report2.
  Context {V K F : Type} `{EqD K}.
  Notation heap := (heap V K).
  Notation st := (st V F).
  Variable ext : externals V K F.
  Variable h : heap.
  Variable size : nat.
  Variable root : oid.
  Hypothesis Hclosed : closed h size.
  Hypothesis Hroot : root < size.
  Hypothesis Hacyclic : acyclic h root.
  Notation report := (report ext h size).

  Lemma report_fitted b m e (s : st) v : m <> "fit" -> fitting m || b = true ->
    snd (report root b m e s) = Ok (Ok v) ->
    forall x, fitted (fst (fst (report root b m e s))) x
              = fitted (fst (evaluate ext h size root m e true (reset s))) x.
  Proof.
    intros Hm Hb. unfold M_estimator.report.
    replace (negb (fitting m) && negb b) with false by (destruct (fitting m), b; auto; discriminate).
    destruct (acyclic_nodes h size root Hclosed Hroot Hacyclic) as (ns & En & _ & Hns). rewrite En.
    set (s1 := clear_nodes ns m (reset s)).
    destruct (clear_spec m ns (reset s)) as (C1 & C2 & C3 & _). fold s1 in C1, C2, C3.
    assert (Hrm : real_mode m = m).
    { unfold real_mode. destruct (eqb_of m "fit") eqn:E; [|reflexivity].
      apply (proj1 (eqb_of_true _ _)) in E. contradiction. }
    assert (Hempty : forall x, part_of h root x -> is_expr_at h x -> results s1 x (real_mode m) = None).
    { intros x Hx Hex. rewrite Hrm, C3, eqb_of_refl. assert (Hin : In x ns) by (apply Hns; auto).
      apply mem_true in Hin. rewrite Hin. reflexivity. }
    pose proof (keep_exact ext h size root m e s1 v) as Hk. cbn zeta in Hk.
    pose proof (evaluate_keeps ext h size root m e false s1) as Kk. cbn zeta in Kk.
    assert (Hval : snd (evaluate ext h size root m e false s1) = Ok v ->
                   snd (evaluate ext h size root m e true (reset s)) = Ok v).
    { intros E1.
      assert (Hi : Inv ext h e (real_mode m) (fitted s) root s1).
      { split.
        - intros o w Ho Hex _ Er. rewrite Hempty in Er; [discriminate|exact Ho|exact Hex].
        - intros o. left. rewrite C1. reflexivity. }
      destruct (keep_value ext h size root e m (fitted s) s1 Hclosed Hroot Hacyclic Hi) as (r1 & D1 & A1).
      destruct (evaluate_value ext h size root e m (reset s) Hclosed Hroot Hacyclic) as (r2 & D2 & A2).
      cbn [fitted reset] in D2. pose proof (Den_det _ _ _ _ _ _ _ _ D1 D2) as Er. subst r2. congruence. }
    destruct (evaluate ext h size root m e false s1) as [s2 r2]. cbn [fst snd] in *.
    intros E. injection E as ->. intros x.
    destruct (clear_spec m ns s2) as (D1 & _). rewrite D1.
    specialize (Hk C2 Hempty eq_refl). destruct Hk as [Hk1 Hk2]. specialize (Hval eq_refl).
    rewrite C1 in Hk1, Hk2. cbn [fitted reset] in Hk1, Hk2.
    pose proof (computed_exactly_needed ext h size root e m (reset s) Hclosed Hroot Hacyclic eq_refl) as [N1 N2].
    pose proof (evaluate_exact ext h size root m e (reset s) v Hclosed Hroot Hacyclic eq_refl Hval) as X2.
    pose proof (evaluate_keeps ext h size root m e true (reset s)) as K2. cbn zeta in K2.
    destruct (evaluate ext h size root m e true (reset s)) as [s3 r3]. cbn [fst snd fitted reset] in *. subst r3.
    destruct (mem x (trace s2)) eqn:Ex.
    - apply mem_true in Ex. destruct (Hk2 x Ex) as (Hn & Htc & w & Dw).
      assert (Hx3 : In x (trace s3)) by (eapply N2; eauto).
      destruct (X2 x Hx3) as (w3 & Dw3). pose proof (Den_det _ _ _ _ _ _ _ _ Dw Dw3) as Er.
      injection Er as _ ->. reflexivity.
    - apply mem_false in Ex. destruct Kk as [_ Kk]. destruct K2 as [_ K2].
      destruct (Kk x) as [->|(_ & _ & Hc)]; [|contradiction]. rewrite C1. cbn [fitted reset].
      destruct (K2 x) as [->|(_ & _ & Hc)]; [reflexivity|].
      exfalso. apply Ex. destruct (N1 x Hc). apply Hk1; auto.
  Qed.
End Report2.

(** ** Pipelines without conditional steps *)
Section Straight.
  Context {V K F : Type} `{EqD K}.
  Notation heap := (heap V K).
  Notation st := (st V F).
  Variable ext : externals V K F.
  Variable h : heap.
  Variable size : nat.
  Variable has_method : F -> string -> bool.
  Variable declares : oid -> string -> bool.
  Notation step := (step ext h size has_method declares).
  Notation run := (run ext h size has_method declares).
  Notation fresh := (fresh (V := V) (F := F)).
  Variable root : oid.
  Hypothesis Hclosed : closed h size.
  Hypothesis Hroot : root < size.
  Hypothesis Hacyclic : acyclic h root.

  (** No part depends on the value of another to choose what is computed. *)
  Definition no_branch : Prop := forall o, part_of h root o ->
    match h o with
    | OExpr (IIfElse _ _ _) _ _ _ | OExpr (IMatch _ _ _) _ _ _ | OChoiceMatch _ _ => False
    | _ => True
    end.
  (** What was given when fitting is given again. *)
  Definition regiven (e e' : env V) : Prop := forall o, part_of h root o ->
    given h e o <> None -> given h e' o <> None.
  (** No step ignores the target. *)
  Definition supervised : Prop := forall o X est y cols how allow name isX isY, part_of h root o ->
    h o <> OExpr (IApply X est y cols how allow true) name isX isY.

  (** [.skb.applied_estimator] is only available on the result of [.skb.apply()]. *)
  Definition applied_steps : Prop := forall o t name isX isY, part_of h root o ->
    h o = OExpr (IApplied t) name isX isY -> stateful h t.

  Lemma needs_fit e e' m f f' o t : no_branch -> regiven e e' -> In m using_methods ->
    (m = "score" -> supervised) -> part_of h root o ->
    needs ext h e' m f o t -> needs ext h e "fit_transform" f' o t.
  Proof.
    intros Hb Hr Hm Hs Ho. specialize (Hb o Ho). pose proof (Hr o Ho) as Hg.
    destruct (using_not_fit m Hm) as (Hf & _ & _ & _ & _ & Hpv).
    unfold needs, used_by_apply. rewrite Hf.
    assert (Hg' : given h e' o = None -> given h e o = None).
    { destruct (given h e o); [|auto]. intros E. exfalso. apply Hg; [discriminate|exact E]. }
    unfold given in Hg'.
    destruct (h o) as [i name isX isY|ty items|ty items|a b c|name outs ch|name df ch|c m0|cls p|v0] eqn:Eh; auto;
      try contradiction.
    - intros [Hp Hn]. split; [auto|].
      destruct i as [value|value|cnd it fa|q tg default|tgt|X est y cols how allow unsup|tgt|fi ot|op fs]; auto;
        try contradiction.
      + destruct Hn. discriminate.
      + change (fit_mode "fit_transform") with true. cbn iota. destruct Hn as [<-|Hn]; [simpl; auto|].
        destruct (eqb_of m "score") eqn:Em; [|contradiction]. destruct Hn as [<-|[]].
        apply (proj1 (eqb_of_true _ _)) in Em. destruct unsup; [|simpl; tauto].
        exfalso. exact (Hs Em o X est y cols how allow name isX isY Ho Eh).
    - intros [Hp (ty & items & E1 & E2)]. split; [auto|]. exists ty, items. split; [exact E1|].
      destruct (eqb_of m "preview") eqn:Em; [apply (proj1 (eqb_of_true _ _)) in Em; contradiction|].
      exact E2.
  Qed.

  Theorem straight_last_fit hist e w1 a :
    step (run hist (fresh root)) (Method 0 "fit" e) = (w1, Ok a) ->
    is_apply h root -> no_branch -> applied_steps ->
    (forall o, part_of h root o -> stateful h o -> given h e o = None) ->
    forall later m e', Forall uses later -> In m using_methods -> regiven e e' ->
      (m = "score" -> supervised) ->
      snd (step (run later w1) (Method 0 m e'))
      = snd (step (run [Method 0 "fit" e] (fresh root)) (Method 0 m e')).
  Proof.
    intros E Ha Hb Hap Hst later m e' Hl Hm Hr Hs.
    assert (Happ : applied_computed h e root).
    { intros o t name isX isY Ho Eo. apply Hst; [|exact (Hap o t name isX isY Ho Eo)].
      eapply reach_trans; [exact Ho|]. apply edge_part. unfold edge, child. rewrite Eo. left. simpl. auto. }
    destruct (last_fit ext h size has_method declares root Hclosed Hroot Hacyclic hist e w1 a E Happ) as [_ Hlast].
    destruct (root_handle ext h size has_method declares root hist) as [b Eb].
    unfold M_estimator.step in E. rewrite Eb in E.
    destruct (method ext h size has_method declares root b "fit" e (w_st (run hist (fresh root)))) as [[s1 b1] r1] eqn:Em.
    injection E as Ew1 Ea. destruct r1 as [a1|]; [|discriminate].
    destruct (method_fit ext h size has_method declares _ _ _ _ _ _ _ Em) as (-> & -> & _ & v & Ev).
    pose proof (computed_exactly_needed ext h size root e "fit_transform" (reset (w_st (run hist (fresh root))))
                  Hclosed Hroot Hacyclic eq_refl) as [_ N2].
    rewrite Ev in N2. cbn [fst snd] in N2. 
    assert (Htr : forall x, needed ext h e "fit_transform" (fitted (w_st (run hist (fresh root)))) root x ->
              stateful h x -> In x (trace s1)).
    { intros x Hn Hx. eapply N2; [reflexivity|exact Hn|].
      assert (Hp : part_of h root x) by (eapply needed_part; eauto).
      pose proof (Hst x Hp Hx) as Hg. unfold given in Hg. unfold to_compute. unfold stateful in Hx.
      destruct (h x); try contradiction. exact Hg. }
    apply Hlast; auto; rewrite <- Ew1; cbn [w_st].
    - intros x Hn Hx. apply Htr; [|exact Hx]. clear Hx.
      induction Hn as [|x t Hn IH Ht]; [constructor|]. eapply needed_more; [exact IH|].
      eapply needs_fit; eauto. eapply needed_part; eauto.
    - intros o Eo.
      assert (o = root) as ->.
      { unfold find_first_apply, find_with in Eo. destruct size as [|sz]; [lia|].
        cbn [visit] in Eo. unfold first_apply_handler at 2 in Eo. unfold is_apply in Ha.
        destruct (h root) as [[] ? ? ?| | | | | | | |]; try contradiction. cbn in Eo. congruence. }
      apply Htr; [constructor|]. unfold is_apply in Ha. unfold stateful.
      destruct (h root) as [[] ? ? ?| | | | | | | |]; try contradiction. exact I.
  Qed.
End Straight.

(** ** An example
    Values are numbers. Fitting an estimator on 0 fails, otherwise remembers its input; using
    it adds what it remembers to its input, and 100 more for predictions. "check" fails on 10. *)
Definition lx_arg (args : list (string * nat)) : nat :=
  match dget "X" args with Some x => x | None => 0 end.
Definition lx_ext : externals nat nat nat := {|
  truthy v := Ok (negb (v =? 0));
  key_of v := Ok v;
  mk_seq _ vs := Ok (fold_right plus 0 vs);
  mk_map _ kvs := Ok (fold_right (fun a b => snd a + b) 0 kvs);
  mk_slice a b c := a + b + c;
  mk_estimator cls p := Ok p;
  op_sem op mode args := if lx_arg args =? 10 then Err ZeroDivisionError else Ok (lx_arg args);
  apply_fit args _ := if lx_arg args =? 0 then Err ZeroDivisionError else Ok (lx_arg args, lx_arg args);
  apply_failed _ _ f := f;
  apply_use mode f args :=
    match f with
    | Some n => Ok (n + lx_arg args + (if eqb_of mode "predict" then 100 else 0))
    | None => Err NotFittedError
    end;
  concat_fit args := Ok (lx_arg args, 0);
  concat_use _ args := Ok (lx_arg args);
  applied f := f;
  has_add_note := true |}.

(** [X] and [flag] are variables. 5 and 6 apply an estimator to X; 7 chooses between them; 8
    checks the output of 5 and 9 applies an estimator to it. 10 is a value named "X", 11
    applies an estimator to it. *)
Definition lx_heap : heap nat nat := fun o =>
  match o with
  | 0 => OValue 5
  | 1 => OExpr (IVar None) (Some "X") false false
  | 2 => OExpr (IVar None) (Some "flag") false false
  | 3 => OEstimator "Scaler" 4
  | 4 => OMap "dict" []
  | 5 => OExpr (IApply 1 3 0 0 0 0 true) (Some "first") false false
  | 6 => OExpr (IApply 1 3 0 0 0 0 true) None false false
  | 7 => OExpr (IIfElse 2 5 6) None false false
  | 8 => OExpr (IOp "check" [("X", 5)]) None false false
  | 9 => OExpr (IApply 8 3 0 0 0 0 true) (Some "last") false false
  | 10 => OExpr (IValue 0) (Some "X") false false
  | 11 => OExpr (IApply 10 3 0 0 0 0 true) None false false
  | _ => OValue 0
  end.
Definition lx_size := 12.
Definition lx_has (f : nat) (m : string) : bool := true.
Definition lx_declares (o : oid) (m : string) : bool := negb (eqb_of m "score").
Definition lx_step := step lx_ext lx_heap lx_size lx_has lx_declares.
Definition lx_run := run lx_ext lx_heap lx_size lx_has lx_declares.
Definition lx_fresh (r : oid) : world nat nat := fresh r.

Lemma lx_closed : closed lx_heap lx_size.
Proof. apply closed_by_check. reflexivity. Qed.
Lemma lx_acyclic r : r < lx_size -> acyclic lx_heap r.
Proof.
  intros Hr. unfold lx_size in Hr.
  do 12 (destruct r as [|r]; [eapply acyclic_by_nodes; [apply lx_closed|unfold lx_size; lia|vm_compute; reflexivity]|]).
  lia.
Qed.
