(** What users of an estimator may rely on, and what they may not. *)
From Verif Require Import Base M_traverse L_traverse M_expr L_expr1 L_expr2 L_expr3 L_expr4
  L_expr5 L_expr6 L_expr7 M_estimator L_estimator1 L_estimator2 L_estimator3 L_estimator4.
Open Scope string_scope.
Open Scope list_scope.
Open Scope nat_scope.

Section Life.
  Context {V K F : Type} `{EqD K}.
  Notation heap := (heap V K).
  Notation st := (st V F).
  Variable ext : externals V K F.
  Variable h : heap.
  Variable size : nat.
  Variable has_method : F -> string -> bool.
  Variable declares : oid -> string -> bool.
  Notation step := (step ext h size has_method declares).
  Notation run := (run ext h size has_method declares).
  Notation world := (world V F).
  Notation supported := (supported_modes (V := V) (F := F) h size has_method declares).
  Notation method := (method ext h size has_method declares).
  Notation report := (report ext h size).
  Notation fresh := (fresh (V := V) (F := F)).

  Variable root : oid.
  Hypothesis Hclosed : closed h size.
  Hypothesis Hroot : root < size.
  Hypothesis Hacyclic : acyclic h root.

  Lemma reachable_good ops : wgood h root (run ops (fresh root)).
  Proof. apply run_good; auto. apply fresh_good. Qed.

  (** *** The last fit *)
  Lemma supported_fit r f ms : supported r f = Ok ms -> In "fit_transform" ms.
  Proof.
    unfold supported_modes. destruct (find_first_apply h size r) as [[o|]|]; cbn [bind];
      try discriminate; intros E; injection E as <-; simpl; auto.
  Qed.
  Lemma supported_ok r f f' ms : supported r f = Ok ms -> exists ms', supported r f' = Ok ms'.
  Proof.
    unfold supported_modes. destruct (find_first_apply h size r) as [[o|]|]; cbn [bind]; try discriminate; eauto.
  Qed.

  Lemma method_fit r b e (s s' : st) b' a : method r b "fit" e s = (s', b', Ok a) ->
    a = TheExpr /\ b' = true /\ (exists ms, supported r (fitted s) = Ok ms) /\
    exists v, evaluate ext h size r "fit_transform" e true (reset s) = (s', Ok v).
  Proof.
    unfold M_estimator.method. change (eqb_of "fit" "fit") with true. cbn iota.
    unfold getattr_call. destruct (supported r (fitted s)) as [ms|] eqn:Es; [|discriminate].
    pose proof (supported_fit _ _ _ Es) as Hin. apply mem_true in Hin. rewrite Hin.
    unfold eval_in_mode. change (fitting "fit_transform") with true. cbn [negb andb].
    destruct (evaluate ext h size r "fit_transform" e true (reset s)) as [s1 [v|ex]] eqn:Ev; [|discriminate].
    intros E. injection E as <- <- <-. split; [reflexivity|]. split; [apply orb_true_r|]. eauto.
  Qed.
  Lemma method_fit_does r b e (s s' : st) v ms : supported r (fitted s) = Ok ms ->
    evaluate ext h size r "fit_transform" e true (reset s) = (s', Ok v) ->
    method r b "fit" e s = (s', true, Ok TheExpr).
  Proof.
    intros Es Ev. unfold M_estimator.method. change (eqb_of "fit" "fit") with true. cbn iota.
    unfold getattr_call. rewrite Es.
    pose proof (supported_fit _ _ _ Es) as Hin. apply mem_true in Hin. rewrite Hin.
    unfold eval_in_mode. change (fitting "fit_transform") with true. cbn [negb andb].
    rewrite Ev. cbn [is_ok]. rewrite orb_true_r. reflexivity.
  Qed.

  (** Fitting from two states: same outcome, and same attributes where it computes them. *)
  Lemma fit_twice e (s1 s2 t1 : st) v : trace s1 = [] -> trace s2 = [] ->
    applied_computed h e root ->
    evaluate ext h size root "fit_transform" e true s1 = (t1, Ok v) ->
    exists t2, evaluate ext h size root "fit_transform" e true s2 = (t2, Ok v) /\
      forall x, In x (trace t1) -> stateful h x -> fitted t1 x = fitted t2 x.
  Proof.
    intros T1 T2 Happ E1.
    assert (Hfm : fit_mode (real_mode "fit_transform") = true) by reflexivity.
    destruct (evaluate_value ext h size root e "fit_transform" s1 Hclosed Hroot Hacyclic) as (r1 & D1 & A1).
    destruct (evaluate_value ext h size root e "fit_transform" s2 Hclosed Hroot Hacyclic) as (r2 & D2 & A2).
    rewrite E1 in A1. cbn [snd] in A1. destruct r1 as [[v1 a1]|ex]; [|discriminate].
    destruct (Den_indep_ok ext h e _ Hfm root Happ (fitted s1) (fitted s2) root v1 a1 (reach_refl _ _ _) D1)
      as (b1 & D2' & _).
    pose proof (Den_det _ _ _ _ _ _ _ _ D2 D2') as Er. subst r2.
    destruct (evaluate ext h size root "fit_transform" e true s2) as [t2 o2] eqn:E2.
    cbn [snd] in A2.
    assert (Eo2 : o2 = Ok v) by (rewrite A2, A1; reflexivity). clear A2. subst o2. exists t2. split; [reflexivity|].
    intros x Hx Hs.
    pose proof (computed_exactly_needed ext h size root e "fit_transform" s1 Hclosed Hroot Hacyclic T1) as [N1 _].
    pose proof (computed_exactly_needed ext h size root e "fit_transform" s2 Hclosed Hroot Hacyclic T2) as [_ N2].
    rewrite E1 in N1. rewrite E2 in N2. cbn [fst snd] in N1, N2.
    destruct (N1 x Hx) as [Hn Htc].
    assert (Hpx : part_of h root x) by (eapply needed_part; eauto).
    assert (Hx2 : In x (trace t2)).
    { eapply N2; [reflexivity| |exact Htc]. eapply needed_indep; eauto. }
    destruct (evaluate_exact ext h size root "fit_transform" e s1 v Hclosed Hroot Hacyclic T1
                ltac:(rewrite E1; reflexivity) x ltac:(rewrite E1; exact Hx)) as (w1 & X1).
    destruct (evaluate_exact ext h size root "fit_transform" e s2 v Hclosed Hroot Hacyclic T2
                ltac:(rewrite E2; reflexivity) x ltac:(rewrite E2; exact Hx2)) as (w2 & X2).
    rewrite E1 in X1. rewrite E2 in X2. cbn [fst] in X1, X2.
    destruct (Den_indep_ok ext h e _ Hfm root Happ (fitted s1) (fitted s2) x _ _ Hpx X1) as (b & X2' & Hslot).
    pose proof (Den_det _ _ _ _ _ _ _ _ X2 X2') as Er. injection Er as _ Er. rewrite Er.
    apply Hslot; [exact Hs|].
    unfold given. unfold to_compute in Htc. destruct (h x); try contradiction. exact Htc.
  Qed.

  Lemma evaluate_needed_same m e (s1 s2 : st) :
    (forall x, needed ext h e (real_mode m) (fitted s1) root x -> fitted s1 x = fitted s2 x) ->
    snd (evaluate ext h size root m e true s1) = snd (evaluate ext h size root m e true s2).
  Proof.
    intros Hs. apply evaluate_agree; auto. intros o Hn. split; [apply Hs; exact Hn|].
    destruct (given h e o) as [v|] eqn:Eg.
    - left. exists v. auto.
    - right. split; [reflexivity|]. split; [reflexivity|]. split; [reflexivity|].
      split; [auto|]. unfold same_reads. destruct (h o) as [[] ? ? ?| | | | | | | |]; auto.
      split; [tauto|]. split; auto.
  Qed.

  Lemma root_handle ops : exists b,
    nth_error (w_estimators (run ops (fresh root))) 0 = Some (root, b).
  Proof.
    assert (Hg : forall ops w b, nth_error (w_estimators w) 0 = Some (root, b) ->
              exists b', nth_error (w_estimators (run ops w)) 0 = Some (root, b')).
    { induction ops0 as [|o ops0 IH]; intros w b E; [eauto|]. cbn [M_estimator.run fold_left].
      destruct (step_roots ext h size has_method declares w o 0 root b E) as [b' E']. eapply IH; eauto. }
    apply (Hg ops (fresh root) false). reflexivity.
  Qed.

  Lemma stateful_dec x : {stateful h x} + {~ stateful h x}.
  Proof. unfold stateful. destruct (h x) as [[] ? ? ?| | | | | | | |]; auto. Qed.

  Theorem last_fit hist e w1 a :
    step (run hist (fresh root)) (Method 0 "fit" e) = (w1, Ok a) ->
    applied_computed h e root ->
    snd (step (fresh root) (Method 0 "fit" e)) = Ok a /\
    forall later m e', Forall uses later -> In m using_methods ->
      (forall x, needed ext h e' m (fitted (w_st w1)) root x -> stateful h x -> In x (trace (w_st w1))) ->
      (forall o, find_first_apply h size root = Ok (Some o) -> In o (trace (w_st w1))) ->
      snd (step (run later w1) (Method 0 m e'))
      = snd (step (run [Method 0 "fit" e] (fresh root)) (Method 0 m e')).
  Proof.
    set (w := run hist (fresh root)). intros E Happ.
    pose proof (reachable_good hist) as Hg. fold w in Hg.
    destruct (root_handle hist) as [b Eb]. fold w in Eb.
    unfold M_estimator.step in E. rewrite Eb in E.
    destruct (method root b "fit" e (w_st w)) as [[s1 b1] r1] eqn:Em.
    injection E as Ew1 Ea. destruct r1 as [a1|]; [|discriminate]. cbn [bind] in Ea. injection Ea as <-.
    destruct (method_fit _ _ _ _ _ _ _ Em) as (-> & -> & (ms & Ems) & v & Ev).
    set (s0 := w_st (fresh root)).
    destruct (fit_twice e (reset (w_st w)) (reset s0) s1 v eq_refl eq_refl Happ Ev) as (t2 & Ev2 & Hsame).
    destruct (supported_ok root (fitted (w_st w)) (fitted s0) ms Ems) as [ms' Ems'].
    pose proof (method_fit_does root false e s0 t2 v ms' Ems' Ev2) as Em2.
    assert (Estep : step (fresh root) (Method 0 "fit" e)
                    = (mk_world t2 [(root, true)], Ok (Result TheExpr))).
    { unfold M_estimator.step. cbn [M_estimator.fresh w_estimators nth_error].
      change (w_st (M_estimator.fresh root)) with s0. fold s0. rewrite Em2. reflexivity. }
    split; [rewrite Estep; reflexivity|].
    intros later m e' Hl Hm Hn Hfirst. cbn [M_estimator.run fold_left]. rewrite Estep. cbn [fst].
    assert (Hw1 : wgood h root w1).
    { rewrite <- Ew1. pose proof (step_good ext h size has_method declares root Hclosed Hroot Hacyclic w
        (Method 0 "fit" e) Hg) as Hg1. unfold M_estimator.step in Hg1. rewrite Eb, Em in Hg1. exact Hg1. }
    assert (E1 : nth_error (w_estimators w1) 0 = Some (root, true)).
    { rewrite <- Ew1. destruct (w_estimators w); [discriminate Eb|reflexivity]. }
    assert (Hw2 : wgood h root (mk_world t2 [(root, true)])).
    { pose proof (step_good ext h size has_method declares root Hclosed Hroot Hacyclic (fresh root)
        (Method 0 "fit" e) (fresh_good h root)) as Hg2. rewrite Estep in Hg2. exact Hg2. }
    assert (Hf : forall x, (stateful h x -> In x (trace s1)) -> fitted s1 x = fitted t2 x).
    { intros x Hx. destruct (stateful_dec x) as [Hs|Hs].
      - apply Hsame; auto.
      - pose proof (g_none _ _ _ Hw1 x Hs) as N1. rewrite <- Ew1 in N1. cbn [w_st] in N1. rewrite N1.
        symmetry. exact (g_none _ _ _ Hw2 x Hs). }
    rewrite (same_world_outcome ext h size has_method declares root Hclosed Hroot Hacyclic w1 (run later w1)
               (Method 0 m e') Hw1 (uses_same ext h size has_method declares later w1 Hl));
      [|cbn; apply nth_error_Some; rewrite E1; discriminate|exact I].
    assert (Eout : snd (step w1 (Method 0 m e')) = snd (step (mk_world t2 [(root, true)]) (Method 0 m e'))).
    { unfold M_estimator.step. rewrite E1. cbn [w_estimators nth_error].
      destruct (using_not_fit m Hm) as (_ & Hnf & Hrm & Hneq & _ & _).
      rewrite <- Ew1. cbn [w_st]. unfold M_estimator.method. rewrite Hneq. unfold getattr_call.
      assert (Esup : supported root (fitted s1) = supported root (fitted t2)).
      { unfold supported_modes. destruct (find_first_apply h size root) as [[o|]|] eqn:Ef; cbn [bind]; auto.
        rewrite (Hf o); [reflexivity|]. intros _.
        specialize (Hfirst o eq_refl). rewrite <- Ew1 in Hfirst. exact Hfirst. }
      rewrite <- Esup. destruct (supported root (fitted s1)) as [ms1|]; [|reflexivity].
      destruct (mem m ms1); [|reflexivity]. unfold eval_in_mode. rewrite Hnf. cbn [negb andb].
      assert (Eev : snd (evaluate ext h size root m e' true (reset s1))
                    = snd (evaluate ext h size root m e' true (reset t2))).
      { apply evaluate_needed_same. intros x Hx. cbn [fitted reset] in *. apply Hf. intros Hs.
        rewrite Hrm in Hx. specialize (Hn x). rewrite <- Ew1 in Hn. cbn [w_st] in Hn. apply Hn; auto. }
      destruct (evaluate ext h size root m e' true (reset s1)) as [u1 o1].
      destruct (evaluate ext h size root m e' true (reset t2)) as [u2 o2]. cbn [snd] in *. subst. reflexivity. }
    rewrite Eout. unfold reply_like. destruct (snd (step (mk_world t2 [(root, true)]) (Method 0 m e'))) as [[x|x|j]|ex] eqn:Ex; try reflexivity.
    exfalso. unfold M_estimator.step in Ex. cbn [w_estimators nth_error] in Ex.
    cbn [w_st] in Ex. destruct (method root true m e' t2) as [[u1 u2] [u3|u3]]; cbn [snd bind] in Ex; discriminate Ex.
  Qed.

  (** *** The mark *)
  (** A call in a fitting mode that returned. *)
  Definition fit_returned (i : nat) (w : world) (o : op V) : Prop :=
    match o with
    | Method j m _ | Report j m _ => j = i /\ (m = "fit" \/ m = "fit_transform")
    | Sub _ _ => False
    end /\ exists a, snd (step w o) = Ok a.

  Definition marked (i : nat) (w : world) : Prop :=
    exists r, nth_error (w_estimators w) i = Some (r, true).

  Lemma fitting_iff m : fitting m = true <-> m = "fit" \/ m = "fit_transform".
  Proof.
    unfold fitting. rewrite mem_true. simpl. intuition.
  Qed.

  Lemma eval_in_mode_mark r b m e (s : st) :
    snd (fst (eval_in_mode ext h size r b m e s)) = true <->
    b = true \/ (fitting m = true /\ exists a, snd (eval_in_mode ext h size r b m e s) = Ok a).
  Proof.
    unfold eval_in_mode. destruct (negb (fitting m) && negb b) eqn:Eg; cbn [fst snd].
    - apply andb_true_iff in Eg. destruct Eg as [Eg1 Eg2]. split; [auto|].
      intros [->|[E _]]; [reflexivity|]. rewrite E in Eg1. discriminate.
    - destruct (evaluate _ _ _ _ _ _ _ _) as [s1 [a|ex]]; cbn [fst snd is_ok].
      + rewrite andb_true_r, orb_true_iff. split; intros [Hb|Hf]; auto.
        * right. eauto.
        * destruct Hf. auto.
      + rewrite andb_false_r, orb_false_r. split; [auto|]. intros [Hb|[_ [a Ea]]]; [auto|discriminate].
  Qed.
  Lemma getattr_mark r b m e (s : st) :
    snd (fst (getattr_call ext h size has_method declares r b m e s)) = true <->
    b = true \/ (fitting m = true /\ exists a, snd (getattr_call ext h size has_method declares r b m e s) = Ok a).
  Proof.
    unfold getattr_call. destruct (supported r (fitted s)) as [ms|]; [destruct (mem m ms)|];
      [apply eval_in_mode_mark| |]; cbn [fst snd]; (split; [auto|]); intros [Hb|[_ [a Ea]]]; auto; discriminate.
  Qed.
  Lemma method_mark r b m e (s : st) :
    snd (fst (method r b m e s)) = true <->
    b = true \/ (fitting m = true /\ exists a, snd (method r b m e s) = Ok a).
  Proof.
    unfold M_estimator.method. destruct (eqb_of m "fit") eqn:Em; [|apply getattr_mark].
    apply (proj1 (eqb_of_true _ _)) in Em. subst m.
    pose proof (getattr_mark r b "fit_transform" e s) as Hk.
    destruct (getattr_call _ _ _ _ _ r b "fit_transform" e s) as [[s1 b1] [v|ex]]; cbn [fst snd] in *; rewrite Hk.
    - split; intros [Hb|Hb]; auto; right; (split; [reflexivity|eauto]).
    - split; intros [Hb|[_ [a Ea]]]; auto; discriminate.
  Qed.
  Lemma report_mark r b m e (s : st) :
    snd (fst (report r b m e s)) = true <->
    b = true \/ (fitting m = true /\ exists a, snd (report r b m e s) = Ok a).
  Proof.
    unfold M_estimator.report. destruct (negb (fitting m) && negb b) eqn:Eg; cbn [fst snd].
    - apply andb_true_iff in Eg. destruct Eg as [Eg1 Eg2]. split; [auto|].
      intros [->|[E _]]; [reflexivity|]. rewrite E in Eg1. discriminate.
    - destruct (nodes h size r) as [ns|]; cbn [fst snd].
      + destruct (evaluate _ _ _ _ _ _ _ _) as [s1 o1]; cbn [fst snd].
        rewrite orb_true_iff. split; intros [Hb|Hf]; auto.
        * right. eauto.
        * destruct Hf. auto.
      + split; [auto|]. intros [Hb|[_ [a Ea]]]; auto; discriminate.
  Qed.

  Lemma step_mark (w : world) i o : i < List.length (w_estimators w) ->
    (marked i (fst (step w o)) <-> marked i w \/ fit_returned i w o).
  Proof.
    intros Hi. unfold marked, fit_returned, M_estimator.step. fold (index_of o).
    destruct (nth_error (w_estimators w) (index_of o)) as [[r b]|] eqn:E0.
    2:{ cbn [fst snd]. split; [auto|]. intros [Hb|[_ [a Ea]]]; [auto|discriminate]. }
    assert (Hset : forall b1 (P : Prop), (b1 = true <-> b = true \/ P) ->
      ((exists r0, nth_error (set_nth (index_of o) (r, b1) (w_estimators w)) i = Some (r0, true)) <->
       (exists r0, nth_error (w_estimators w) i = Some (r0, true)) \/ (index_of o = i /\ P))).
    { intros b1 P Hb1. rewrite set_nth_nth. destruct (Nat.eqb (index_of o) i) eqn:Ei.
      - apply Nat.eqb_eq in Ei. rewrite <- Ei, E0. split.
        + intros [r0 Er]. injection Er as <- ->. destruct (proj1 Hb1 eq_refl) as [->|HP]; [left; eauto|auto].
        + intros [[r0 Er]|[_ HP]].
          * injection Er as <- ->. exists r. rewrite (proj2 Hb1); auto.
          * exists r. rewrite (proj2 Hb1); auto.
      - apply Nat.eqb_neq in Ei. split; [auto|]. intros [Hm|[Hc _]]; [exact Hm|contradiction]. }
    destruct o as [j m e|j m e|j n]; cbn [index_of] in *.
    - pose proof (method_mark r b m e (w_st w)) as Hm.
      destruct (method r b m e (w_st w)) as [[s1 b1] o1]. cbn [fst snd w_estimators] in *.
      rewrite (Hset b1 _ Hm). rewrite fitting_iff. split; intros [Hb|Hb]; auto; right.
      + destruct Hb as (-> & Hf & a & ->). split; [auto|]. cbn [bind]. eauto.
      + destruct Hb as [[-> Hf] [a Ea]]. split; [reflexivity|]. split; [exact Hf|].
        destruct o1; [eauto|discriminate].
    - pose proof (report_mark r b m e (w_st w)) as Hm.
      destruct (report r b m e (w_st w)) as [[s1 b1] o1]. cbn [fst snd w_estimators] in *.
      rewrite (Hset b1 _ Hm). rewrite fitting_iff. split; intros [Hb|Hb]; auto; right.
      + destruct Hb as (-> & Hf & a & ->). split; [auto|]. cbn [bind]. eauto.
      + destruct Hb as [[-> Hf] [a Ea]]. split; [reflexivity|]. split; [exact Hf|].
        destruct o1; [eauto|discriminate].
    - assert (Hno : ~ (False /\ exists a : reply V, snd (match find_node_by_name h size r n with
                  | Ok (Some node) => (mk_world (w_st w) (w_estimators w ++ [(node, b)]),
                                       Ok (NewEstimator (List.length (w_estimators w))))
                  | Ok None => (w, Err KeyError) | Err ex => (w, Err ex) end) = Ok a)) by tauto.
      split.
      + intros Hm. left. destruct (find_node_by_name h size r n) as [[y|]|]; cbn [fst w_estimators] in Hm; auto.
        rewrite nth_error_app1 in Hm; auto.
      + intros [Hm|Hm]; [|contradiction].
        destruct (find_node_by_name h size r n) as [[y|]|]; cbn [fst w_estimators]; auto.
        rewrite nth_error_app1; auto.
  Qed.

  Lemma run_length ops : forall w : world, List.length (w_estimators w) <= List.length (w_estimators (run ops w)).
  Proof.
    induction ops as [|o ops IH]; intros w; [reflexivity|]. cbn [M_estimator.run fold_left].
    etransitivity; [|apply IH]. unfold M_estimator.step.
    destruct (nth_error _ _) as [[r b]|]; [|reflexivity].
    destruct o as [j m e|j m e|j n].
    - destruct (method r b m e (w_st w)) as [[s1 b1] o1]. cbn. rewrite set_nth_length. reflexivity.
    - destruct (report r b m e (w_st w)) as [[s1 b1] o1]. cbn. rewrite set_nth_length. reflexivity.
    - destruct (find_node_by_name h size r n) as [[y|]|]; cbn [fst w_estimators]; auto.
      rewrite app_length. lia.
  Qed.

  Theorem marked_iff ops : forall (w : world) i, i < List.length (w_estimators w) ->
    (marked i (run ops w) <->
     marked i w \/ exists before o after, ops = before ++ o :: after /\ fit_returned i (run before w) o).
  Proof.
    induction ops as [|o ops IH]; intros w i Hi.
    - cbn. split; [auto|]. intros [Hm|([|o1 l1] & o2 & after & E & _)]; [exact Hm|discriminate|discriminate].
    - cbn [M_estimator.run fold_left].
      assert (Hi' : i < List.length (w_estimators (fst (step w o)))).
      { pose proof (run_length [o] w) as Hl. cbn in Hl. lia. }
      change (fold_left (fun w0 o0 => fst (step w0 o0)) ops (fst (step w o))) with (run ops (fst (step w o))).
      rewrite (IH _ i Hi'), (step_mark w i o Hi). split.
      + intros [[Hm|Hf]|(before & o' & after & -> & Hf)]; [auto| |].
        * right. exists [], o, ops. auto.
        * right. exists (o :: before), o', after. auto.
      + intros [Hm|([|o1 before] & o' & after & E & Hf)]; [auto| |].
        * cbn in E. injection E as <- <-. auto.
        * cbn in E. injection E as <- ->. right. exists before, o', after. auto.
  Qed.

  Theorem unmarked_refuses (w : world) i r o : nth_error (w_estimators w) i = Some (r, false) ->
    uses o -> index_of o = i ->
    match o with
    | Report _ _ _ => step w o = (w, Err NotFittedError)
    | Method _ m _ => exists ex, step w o = (w, Err ex) /\
        (choices_ok h r -> part_of h root r -> ex = NotFittedError \/ ex = AttributeError)
    | Sub _ _ => True
    end.
  Proof.
    intros E Hu Hi. unfold M_estimator.step. fold (index_of o). rewrite Hi, E.
    assert (Hsame : mk_world (w_st w) (set_nth i (r, false) (w_estimators w)) = w).
    { rewrite set_nth_same; auto. destruct w; reflexivity. }
    destruct o as [j m e|j m e|j n]; cbn [uses index_of] in *; auto.
    - destruct (using_not_fit m Hu) as (_ & Hf & _ & Hneq & _).
      unfold M_estimator.method. rewrite Hneq. unfold getattr_call.
      destruct (supported r (fitted (w_st w))) as [ms|ex] eqn:Es.
      + destruct (mem m ms).
        * unfold eval_in_mode. rewrite Hf. cbn [negb andb]. exists NotFittedError. rewrite Hsame. auto.
        * exists AttributeError. rewrite Hsame. auto.
      + exists ex. rewrite Hsame. split; [reflexivity|]. intros Hc Hp. exfalso.
        unfold supported_modes in Es.
        destruct (find_first_ok h size r Hclosed (part_lt h size root Hclosed Hroot r Hp)
                    (part_acyclic h root Hacyclic r Hp) Hc) as [(o1 & Eo & _)|(Eo & _)]; rewrite Eo in Es; discriminate.
    - destruct (using_not_fit m Hu) as (_ & Hf & _).
      rewrite report_refused; [|rewrite Hf; reflexivity]. rewrite Hsame. reflexivity.
  Qed.

  (** *** Sub-estimators *)
  Theorem sub_spec (w : world) i r b n : wgood h root w -> nth_error (w_estimators w) i = Some (r, b) ->
    (exists o, step w (Sub i n) = (mk_world (w_st w) (w_estimators w ++ [(o, b)]),
                                   Ok (NewEstimator (List.length (w_estimators w)))) /\
               part_of h r o /\ has_name h o n) \/
    (step w (Sub i n) = (w, Err KeyError) /\ forall o, part_of h r o -> ~ has_name h o n).
  Proof.
    intros Hg E. pose proof (g_parts _ _ _ Hg _ _ _ E) as Hp.
    unfold M_estimator.step. rewrite E.
    destruct (find_by_name h size r Hclosed (part_lt h size root Hclosed Hroot r Hp)
                (part_acyclic h root Hacyclic r Hp) n) as [(o & Eo & Ho & Hn)|(Eo & Hno)]; rewrite Eo; eauto.
  Qed.

  (** *** Feeding the output of a step by its name *)
  Lemma den_slot e m f : fit_mode m = false -> forall d o v a,
    den ext h e m f d o = Some (Ok (v, a)) -> a = f o.
  Proof.
    intros Hm [|d] o v a E; [discriminate|]. cbn [den] in E.
    assert (Hp : forall x : dres V, dbind x (fun v => Some (Ok (v, f o))) = Some (Ok (v, a)) -> a = f o).
    { intros [[u|ex]|] Ex; cbn in Ex; try discriminate. injection Ex as _ <-. reflexivity. }
    assert (Hw : forall x : res V, Some (shown ext m (with_slot f o x)) = Some (Ok (v, a)) -> a = f o).
    { intros [u|ex] Ex; cbn in Ex; try discriminate. injection Ex as _ <-. reflexivity. }
    assert (Hb : forall A (x : dres A) (k : A -> dres (V * option (fit_attr V F))),
              (forall u, k u = Some (Ok (v, a)) -> a = f o) -> dbind x k = Some (Ok (v, a)) -> a = f o).
    { intros A [[u|ex]|] k Hk Ex; cbn in Ex; try discriminate. eapply Hk; eauto. }
    destruct (h o) as [i name isX isY|ty items|ty items|a0 b c|name outs ch|name df ch|c m0|cls p|v0].
    - destruct (provided e i name isX isY); [injection E as _ <-; reflexivity|].
      destruct i as [value|value|cnd it fa|q tg default|tgt|X est y cols how allow unsup|tgt|fi ot|op fs];
        rewrite ?Hm in E.
      + destruct value as [c|]; [|apply (Hw _ E)]. revert E. apply Hb. intros u. apply Hw.
      + apply (Hp _ E).
      + revert E. apply Hb. intros u. apply Hb. intros u'. apply Hp.
      + revert E. apply Hb. intros u. apply Hb. intros u'. apply Hp.
      + destruct (f o) as [[u|u]|]; cbn in E; try discriminate. injection E as _ <-. reflexivity.
      + revert E. apply Hb. intros u. apply Hw.
      + revert E. apply Hb. intros u. destruct (h tgt) as [[]| | | | | | | |]; cbn; try discriminate.
        destruct (fitted_with (snd u)); cbn; [|discriminate]. intros E. injection E as _ <-. reflexivity.
      + revert E. apply Hb. intros u. apply Hw.
      + revert E. apply Hb. intros u. apply Hw.
    - apply (Hp _ E).
    - apply (Hp _ E).
    - apply (Hp _ E).
    - destruct (match name with Some n => dget n e | None => None end); [injection E as _ <-; reflexivity|].
      apply (Hp _ E).
    - injection E as _ <-. reflexivity.
    - revert E. apply Hb. intros u. apply Hb. intros u'. apply Hp.
    - apply (Hp _ E).
    - injection E as _ <-. reflexivity.
  Qed.

  Definition reserved : list string := ["_skrub_X"; "_skrub_y"; "_skrub_use_var_values"].

  Lemma dget_other n n' (v : V) (e : env V) : n' <> n -> dget n' ((n, v) :: e) = dget n' e.
  Proof. intros Hne. cbn. destruct (eqd n' n); congruence. Qed.

  Theorem feed_step r o n i isX isY e m v (s : st) :
    part_of h root r -> part_of h r o -> h o = OExpr i (Some n) isX isY ->
    (forall value, i <> IVar value) -> given h e o = None ->
    (forall x, part_of h r x -> has_name h x n -> x = o) ->
    ~ In n reserved -> In m using_methods -> e <> [] ->
    snd (evaluate ext h size o m e true s) = Ok (TheValue v) ->
    snd (evaluate ext h size r m ((n, v) :: e) true s) = snd (evaluate ext h size r m e true s).
  Proof.
    intros Hr Ho Eh Hnv Hg Huniq Hres Hm Hne Eo.
    assert (Hpo : part_of h root o) by (eapply reach_trans; eauto).
    pose proof (part_lt h size root Hclosed Hroot r Hr) as Lr.
    pose proof (part_acyclic h root Hacyclic r Hr) as Ar.
    pose proof (part_lt h size root Hclosed Hroot o Hpo) as Lo.
    pose proof (part_acyclic h root Hacyclic o Hpo) as Ao.
    destruct (using_not_fit m Hm) as (Hfm & _ & Hrm & Hneq & _ & _).
    destruct (evaluate_value ext h size o e m s Hclosed Lo Ao) as (ro & Do & Ao').
    rewrite Eo in Ao'. destruct ro as [[v' a]|ex]; [|discriminate]. cbn [answer] in Ao'. rewrite Hneq in Ao'.
    injection Ao' as <-. rewrite Hrm in Do.
    destruct (evaluate_value ext h size r e m s Hclosed Lr Ar) as (r1 & D1 & ->).
    destruct (evaluate_value ext h size r ((n, v) :: e) m s Hclosed Lr Ar) as (r2 & D2 & ->).
    f_equal. rewrite Hrm in *. destruct D1 as [d1 E1].
    set (e2 := (n, v) :: e) in *.
    assert (Hkeys : forall k, In k ["_skrub_X"; "_skrub_y"] -> dget k e = dget k e2).
    { intros k Hk. unfold e2. rewrite dget_other; [reflexivity|]. intros ->. apply Hres. unfold reserved.
      simpl in Hk |- *. tauto. }
    assert (Hg2 : given h e2 o = Some v).
    { unfold given in *. rewrite Eh in *. unfold provided in *.
      assert (Hn : dget n e2 = Some v) by (unfold e2; cbn; destruct (eqd n n); [reflexivity|congruence]).
      assert (Hlast : match i, Some n with IVar _, _ => [] | _, Some n0 => [n0] | _, None => [] end = [n]).
      { destruct i; try reflexivity. exfalso. eapply Hnv. reflexivity. }
      rewrite Hlast in *. destruct isX, isY; cbn [app first_provided] in *;
        rewrite <- ?(Hkeys "_skrub_X") by (simpl; auto); rewrite <- ?(Hkeys "_skrub_y") by (simpl; auto);
        repeat match goal with |- context [dget ?k e] => destruct (dget k e); [discriminate Hg|] end;
        rewrite Hn; reflexivity. }
    assert (E2 : den ext h e2 m (fitted s) d1 r = Some r1).
    { apply (agree_den_gen ext m h h e e2 (fitted s) (fitted s) r); [|constructor|exact E1].
      intros x Hnx. assert (Hpx : part_of h r x).
      { clear -Hnx. induction Hnx as [|x t Hn IH Ht]; [constructor|].
        eapply reach_trans; [exact IH|]. apply edge_part. eapply needs_edge; eauto. }
      destruct (Nat.eq_dec x o) as [->|Hxo].
      - right. intros d rr Ed. destruct d as [|d]; [discriminate|].
        assert (Hrr : rr = Ok (v, a)) by (eapply Den_det; [exists (S d); exact Ed|exact Do]). subst rr.
        rewrite (given_den ext m h e2 (fitted s) o v d Hg2). rewrite (den_slot e m (fitted s) Hfm _ _ _ _ Ed).
        reflexivity.
      - left. split; [reflexivity|].
        assert (Hnn : forall n', named h x n' -> n' <> n).
        { intros n' Hn' ->. apply Hxo. apply Huniq; [exact Hpx|]. unfold named in Hn'. unfold has_name.
          destruct (h x) as [? [n0|] ? ?| | | |[n0|] ? ?|[n0|] ? ?| | |]; try contradiction; subst; reflexivity. }
        assert (Hgx : given h e x = given h e2 x).
        { apply named_given; [|exact Hkeys]. intros n' Hn'. unfold e2. rewrite dget_other; auto. }
        destruct (given h e x) as [u|] eqn:Eg.
        + left. exists u. auto.
        + right. split; [reflexivity|]. split; [reflexivity|]. split; [auto|]. split; [auto|].
          unfold same_reads. destruct (h x) as [[] name ? ?| | | | | | | |] eqn:Ehx; auto.
          split; [split; [intros ->; contradiction|discriminate]|]. split.
          * unfold e2. rewrite dget_other; [reflexivity|]. intros <-. apply Hres. unfold reserved. simpl. tauto.
          * intros n0 ->. unfold e2. rewrite dget_other; [reflexivity|]. apply Hnn. unfold named. rewrite Ehx. reflexivity. }
    eapply Den_det; [exact D2|]. exists d1. exact E2.
  Qed.

  (** *** Methods that are offered *)
  Definition estimator_has (f : oid -> option (fit_attr V F)) (o : oid) (m : string) : bool :=
    match fitted_with (f o) with Some est => has_method est m | None => declares o m end.

  Lemma supported_spec r f : part_of h root r -> choices_ok h r ->
    (exists o, in_use h r o /\ is_apply h o /\
       (is_apply h r -> o = r) /\
       supported r f = Ok (["preview"; "fit_transform"; "transform"] ++
                           filter (estimator_has f o) ["predict"; "predict_proba"; "decision_function"; "score"])) \/
    ((forall o, in_use h r o -> ~ is_apply h o) /\
     supported r f = Ok ["preview"; "fit_transform"; "transform"]).
  Proof.
    intros Hp Hc. pose proof (part_lt h size root Hclosed Hroot r Hp) as Lr.
    pose proof (part_acyclic h root Hacyclic r Hp) as Ar.
    destruct (find_first_ok h size r Hclosed Lr Ar Hc) as [(o & Eo & Hu & Ha)|(Eo & Hno)].
    - left. exists o. split; [exact Hu|]. split; [exact Ha|]. split.
      + intros Hr. unfold find_first_apply, find_with in Eo. destruct size as [|sz]; [lia|].
        cbn [visit] in Eo. unfold first_apply_handler at 2 in Eo. unfold is_apply in Hr.
        destruct (h r) as [[] ? ? ?| | | | | | | |]; try contradiction. cbn in Eo. congruence.
      + unfold supported_modes. rewrite Eo. cbn [bind]. do 2 f_equal. unfold predictor_methods, estimator_has.
        destruct (fitted_with (f o)); reflexivity.
    - right. split; [exact Hno|]. unfold supported_modes. rewrite Eo. reflexivity.
  Qed.

  (** A method that is offered is evaluated, one that is not is an AttributeError. *)
  Lemma method_offered (w : world) i r b m e ms : nth_error (w_estimators w) i = Some (r, b) ->
    m <> "fit" -> supported r (fitted (w_st w)) = Ok ms ->
    (~ In m ms -> step w (Method i m e) = (w, Err AttributeError)) /\
    (In m ms -> fitting m || b = true ->
       snd (step w (Method i m e))
       = let! a := snd (evaluate ext h size r m e true (reset (w_st w))) in Ok (Result a)).
  Proof.
    intros E Hm Es. unfold M_estimator.step. rewrite E. unfold M_estimator.method.
    destruct (eqb_of m "fit") eqn:Em; [apply (proj1 (eqb_of_true _ _)) in Em; contradiction|].
    unfold getattr_call. rewrite Es. split.
    - intros Hn. apply mem_false in Hn. rewrite Hn. cbn [bind]. rewrite set_nth_same; auto. destruct w; reflexivity.
    - intros Hin Hb. apply mem_true in Hin. rewrite Hin. unfold eval_in_mode.
      replace (negb (fitting m) && negb b) with false by (destruct (fitting m), b; auto; discriminate).
      destruct (evaluate _ _ _ _ _ _ _ _) as [s1 o1]. reflexivity.
  Qed.
End Life.
