(** Evaluations in which no step that keeps something is computed. *)
From Verif Require Import Base M_traverse L_traverse M_expr L_expr1 L_expr2 L_expr3 L_expr4 L_expr5 L_expr6 L_expr7.
From Verif Require Import M_clone L_estimator1 L_namespace3 M_estimator L_estimator3 L_describe3.
From Coq Require Import Relations.Relation_Operators Relations.Operators_Properties.
Open Scope string_scope.
Open Scope list_scope.
Open Scope nat_scope.
Set Default Proof Using "Type".

(** ** Specification *)
Section Spec.
  Context {V K F : Type} `{EqD K}.
  Variable ext : externals V K F.
  Variable h : heap V K.
  Variable e : env V.
  Variable mode : string.
  Variable f0 : oid -> option (fit_attr V F).

  (** Something that [o] needs cannot be computed. *)
  Definition lacks_input (o : oid) : Prop :=
    exists t ex, needs ext h e mode f0 o t /\ DenV ext h e mode f0 t (Err ex).

  (** No step that keeps something (an applied estimator, a frozen value, the names of joined
      columns) can be computed. *)
  Definition nothing_fitted (root : oid) : Prop :=
    forall o, part_of h root o -> stateful h o -> lacks_input o.
End Spec.

Section Calm.
  Context {V K F : Type} `{EqD K}.
  Notation heap := (heap V K).
  Notation st := (st V F).
  Variable ext : externals V K F.
  Variable h : heap.
  Variable e : env V.
  Variable mode : string.
  Variable f0 : oid -> option (fit_attr V F).
  Variable root : oid.
  Hypothesis Hfit : fit_mode mode = true.
  Hypothesis Hnothing : nothing_fitted ext h e mode f0 root.

  Let cb : st -> st * outcome unit := fun s => (s, TOk tt).
  Notation handler := (eval_handler ext h e mode cb).
  Notation Q := (part_of h root).
  Notation Inv := (Inv ext h e mode f0 root).
  Notation DenV := (DenV ext h e mode f0).
  Notation Good := (Good ext h e mode f0 root).

  Definition same_fit (s s' : st) : Prop := forall x, fitted s' x = fitted s x.
  Lemma same_fit_refl s : same_fit s s. Proof. intros x. reflexivity. Qed.
  Lemma same_fit_trans a b c : same_fit a b -> same_fit b c -> same_fit a c.
  Proof. intros H1 H2 x. rewrite H2. apply H1. Qed.

  Fixpoint calm (s : st) (g : gen V st) : Prop :=
    match g with
    | GRet _ | GRaise _ => True
    | GYield t k => Q t /\ forall v s', DenV t (Ok v) -> Inv s' -> same_fit s s' -> calm s' (k v)
    | GGet k => calm s (k s)
    | GPut s' g' => same_fit s s' /\ ((Inv s' /\ calm s' g') \/ exists v, g' = GRet v)
    end.

  Lemma run_gen_calm vc path
    (Hvc : forall t s, Q t -> Inv s -> Good t s (vc t s) /\ same_fit s (fst (vc t s)) /\ Inv (fst (vc t s))) :
    forall g s, calm s g -> Inv s ->
      same_fit s (fst (run_gen vc path g s)) /\
      (Inv (fst (run_gen vc path g s)) \/ exists v, snd (run_gen vc path g s) = TOk v).
  Proof.
    intros g. induction g as [v|ex|t k IH|k IH|s1 g IH]; intros s Hc Hi.
    - split; [apply same_fit_refl|left; exact Hi].
    - split; [apply same_fit_refl|left; exact Hi].
    - destruct Hc as [Ht Hk]. rewrite run_gen_yield. unfold vchk.
      destruct (mem t path); [split; [apply same_fit_refl|left; exact Hi]|].
      destruct (Hvc t s Ht Hi) as (Hg & Hs & Hi').
      destruct (vc t s) as [s' [v|ex|t'|]]; cbn [obind fst snd] in *; auto.
      destruct Hg as (f & Hd & _). assert (Hdv : DenV t (Ok v)) by (eapply Den_V; eauto).
      destruct (IH v s' (Hk v s' Hdv Hi' Hs) Hi') as [H1 H2].
      split; [eapply same_fit_trans; eauto|exact H2].
    - cbn [run_gen calm] in *. apply IH; assumption.
    - cbn [run_gen calm] in *. destruct Hc as [Hs [[Hi1 Hc]|[v ->]]].
      + destruct (IH s1 Hc Hi1) as [H1 H2]. split; [eapply same_fit_trans; eauto|exact H2].
      + cbn [run_gen fst snd]. split; [exact Hs|right; eauto].
  Qed.

  Lemma calm_yield_all : forall items k s, (forall t, In t items -> Q t) -> Inv s ->
    (forall vs s', Forall2 (fun t v => DenV t (Ok v)) items vs -> Inv s' -> same_fit s s' -> calm s' (k vs)) ->
    calm s (yield_all items k).
  Proof.
    induction items as [|t items IH]; intros k s Hq Hi Hk; cbn [yield_all calm].
    - apply Hk; [constructor|exact Hi|apply same_fit_refl].
    - split; [apply Hq; left; reflexivity|]. intros v s' Hd Hi' Hs. apply IH; [intros; apply Hq; right; assumption|exact Hi'|].
      intros vs s2 Hvs Hi2 Hs2. apply Hk; [constructor; assumption|exact Hi2|]. eapply same_fit_trans; eauto.
  Qed.

  Lemma calm_of s (r : res V) : calm s (gen_of r).
  Proof. destruct r; exact I. Qed.

  Lemma inv_same s s' : Inv s -> same_fit s s' -> (forall x, results s' x mode = results s x mode) -> Inv s'.
  Proof.
    intros Hi Hs Hr. split.
    - intros o v Ho He Hno E. rewrite Hs. eapply (inv_cache _ _ _ _ _ _ _ Hi); eauto. rewrite <- Hr. exact E.
    - intros o. rewrite Hs. apply (inv_fit _ _ _ _ _ _ _ Hi).
  Qed.

  Lemma needs_field o i n x y t : h o = OExpr i n x y -> stateful h o -> needs ext h e mode f0 o t ->
    In t (map snd (fields_for_eval i mode)).
  Proof using Hfit.
    intros Eo Hst Hn. unfold needs in Hn. unfold stateful in Hst. rewrite Eo in Hn, Hst. destruct Hn as [_ Hn].
    destruct i; try contradiction; cbn [fields_for_eval]; rewrite ?Hfit.
    - destruct Hn as [_ ->]. simpl. auto.
    - unfold used_by_apply in Hn. rewrite Hfit in Hn. destruct unsupervised; simpl in *; intuition.
    - exact Hn.
  Qed.

  Lemma DenV_det t a b : DenV t a -> DenV t b -> a = b.
  Proof.
    intros [d1 E1] [d2 E2]. apply (ev_mono ext h e mode f0 d1 (d1 + d2)) in E1; [|lia].
    apply (ev_mono ext h e mode f0 d2 (d1 + d2)) in E2; [|lia]. congruence.
  Qed.

  Lemma calm_handler o s : Q o -> Inv s -> calm s (handler o).
  Proof using Hfit Hnothing.
    intros Ho Hi. unfold eval_handler.
    destruct (h o) as [i name isX isY|ty items|ty items|a b c|n ou chs|n d chs|c m|cls ps|v] eqn:Eo.
    - cbn [calm]. destruct (fetch e mode s o i name isX isY); [exact I|]. cbn [calm].
      assert (Hl : same_fit s (log s o)) by (intros x; reflexivity).
      split; [exact Hl|]. left. split; [apply (inv_same s); auto|].
      assert (Hi1 : Inv (log s o)) by (apply (inv_same s); auto).
      set (kk := fun v : V => GGet _).
      assert (Hk : forall s1 v, calm s1 (kk v)).
      { intros s1 v. cbn. split; [intros x; reflexivity|]. right. eauto. }
      clearbody kk. generalize dependent (log s o). intros s0 _ Hi1. unfold eval_impl.
      assert (Hq : forall c, In c (children (h o)) -> Q c).
      { intros c Hc. eapply Q_child; [exact Ho|exact Hc]. }
      rewrite Eo in Hq.
      assert (Hdef : calm s0 (yield_all (map snd (fields_for_eval i mode)) (fun vs =>
          compute_result ext h e mode o i name (combine (map fst (fields_for_eval i mode)) vs) kk))).
      { apply calm_yield_all; [|exact Hi1|].
        - intros t Ht. apply Hq. simpl. apply in_map_iff in Ht. destruct Ht as ([nn c] & <- & Hin).
          apply fields_for_eval_in in Hin. apply in_map_iff. exists (nn, c). auto.
        - intros vs s1 Hvs Hi2 _.
          assert (Hns : ~ stateful h o).
          { intros Hst. destruct (Hnothing o Ho Hst) as (t & ex & Hn & Hd).
            pose proof (needs_field o i name isX isY t Eo Hst Hn) as Hin.
            destruct (Forall2_in_l _ _ _ t Hvs Hin) as (v & _ & Hdv).
            pose proof (DenV_det _ _ _ Hd Hdv). discriminate. }
          unfold compute_result. cbn [calm].
          destruct (compute ext e mode h (fitted s1) o i name _) as [[v [f|]]|ex] eqn:Ec; cbn [calm].
          + exfalso. apply Hns. unfold stateful. rewrite Eo. destruct i; cbn [compute] in Ec; try exact I;
              repeat match type of Ec with
              | (let! _ := ?r in _) = _ => destruct r; cbn [bind] in Ec
              | match ?x with _ => _ end = _ => destruct x
              end; discriminate.
          + apply Hk.
          + assert (Hse : fitted_on_error ext mode i (combine (map fst (fields_for_eval i mode)) vs) (fitted s1 o) = fitted s1 o).
            { destruct i; try reflexivity. exfalso. apply Hns. unfold stateful. rewrite Eo. exact I. }
            rewrite Hse.
            assert (Hsf : same_fit s1 (set_error (set_fitted s1 o (fitted s1 o)) o mode (Some ex))).
            { intros x. cbn. unfold upd. destruct (eqd x o) as [->|]; reflexivity. }
            split; [exact Hsf|]. left. split; [|exact I]. apply (inv_same s1); auto. }
      destruct i as [value|value|cnd it fa|q tg default|tgt|X est y cols how allow unsup|tgt|fi ot|op fs]; try exact Hdef.
      + cbn [calm]. split; [apply Hq; simpl; auto|]. intros cv s1 _ Hi2 _.
        destruct (truthy ext cv) as [[|]|]; cbn [calm]; auto; (split; [apply Hq; simpl; auto|auto]).
      + cbn [calm]. split; [apply Hq; destruct default; simpl; auto|]. intros qv s1 _ Hi2 _.
        unfold map_lookup. destruct (key_of ext qv) as [key|]; cbn [bind calm]; auto.
        assert (Hd : calm s1 match default with Some d => GYield d kk | None => GRaise KeyError end).
        { destruct default; cbn [calm]; auto. split; [apply Hq; simpl; auto|auto]. }
        destruct (h tg) eqn:Etg; cbn [calm]; auto.
        destruct (dget key items) eqn:Ed; [|exact Hd]. cbn [calm]. split; [|auto].
        apply (Q_child2 h root o tg); [exact Ho| |]; unfold child.
        * rewrite Eo. destruct default; simpl; auto.
        * rewrite Etg. simpl. eapply in_dget; eauto.
    - apply calm_yield_all; auto; [|intros; apply calm_of]. intros t Ht. eapply Q_child; [exact Ho|]. unfold child. rewrite Eo. exact Ht.
    - apply calm_yield_all; auto; [|intros; apply calm_of]. intros t Ht. eapply Q_child; [exact Ho|]. unfold child. rewrite Eo. exact Ht.
    - assert (Hq : forall c', In c' [a; b; c] -> Q c').
      { intros c' Hc. eapply Q_child; [exact Ho|]. unfold child. rewrite Eo. exact Hc. }
      cbn. repeat (split; [apply Hq; simpl; auto|intros]). exact I.
    - unfold eval_choice. destruct (name_in_env e n); [exact I|].
      assert (Hn : forall idx, calm s (yield_res (V := V) (F := F) (nth_outcome h ou idx) GRet)).
      { intros idx. unfold yield_res, nth_outcome. destruct (h ou) eqn:Eu; cbn [calm]; auto.
        destruct (nth_error items idx) eqn:En; cbn [calm]; auto. split; [|auto].
        apply (Q_child2 h root o ou); [exact Ho| |]; unfold child.
        - rewrite Eo. simpl. auto.
        - rewrite Eu. simpl. eapply nth_error_In; eauto. }
      destruct (eqb_of mode "preview"); apply Hn.
    - unfold eval_choice. destruct (name_in_env e n); [exact I|]. destruct (eqb_of mode "preview"); exact I.
    - unfold eval_choice_match. cbn [calm]. split; [eapply Q_child; [exact Ho|]; unfold child; rewrite Eo; simpl; auto|].
      intros v s1 _ _ _. unfold map_lookup. destruct (key_of ext v) as [key|]; cbn [bind calm]; auto.
      destruct (h m) eqn:Em; cbn [calm]; auto. destruct (dget key items) eqn:Ed; cbn [calm]; auto. split; [|auto].
      apply (Q_child2 h root o m); [exact Ho| |]; unfold child.
      + rewrite Eo. simpl. auto.
      + rewrite Em. simpl. eapply in_dget; eauto.
    - cbn [eval_container calm]. split; [eapply Q_child; [exact Ho|]; unfold child; rewrite Eo; simpl; auto|]. intros. apply calm_of.
    - exact I.
  Qed.

  Lemma cb_ok : forall s, exists s', cb s = (s', TOk tt) /\
    (forall o, fitted s' o = fitted s o) /\ (forall o v, results s' o mode = Some v -> results s o mode = Some v).
  Proof. intros s. exists s. auto. Qed.

  Lemma visit_calm : forall d path o s, Q o -> Inv s ->
    same_fit s (fst (visit handler d path o s)) /\ Inv (fst (visit handler d path o s)).
  Proof using Hfit Hnothing.
    induction d as [|d IH]; intros path o s Ho Hi; [split; [apply same_fit_refl|exact Hi]|].
    pose proof (visit_good ext h e mode f0 root cb cb_ok (S d) path o s Ho Hi) as Hg. cbn [visit] in Hg |- *.
    destruct (run_gen_calm (visit handler d (o :: path)) (o :: path)) with (g := handler o) (s := s) as [H1 H2].
    - intros t s1 Ht Hi1. split; [apply (visit_good ext h e mode f0 root cb cb_ok); assumption|]. apply IH; assumption.
    - apply calm_handler; assumption.
    - exact Hi.
    - split; [exact H1|]. destruct H2 as [H2|[v H2]]; [exact H2|].
      destruct (run_gen _ _ (handler o) s) as [s' r]. cbn [snd fst] in *. subst r. cbn [L_expr3.Good] in Hg.
      destruct Hg as (f & _ & Hi' & _). exact Hi'.
  Qed.
End Calm.
