(** [evaluate]: value, number of computations, what is left in the nodes. *)
From Verif Require Import Base M_traverse L_traverse M_expr L_expr1 L_expr2 L_expr3 L_expr4.
From Coq Require Import Relations.Relation_Operators Relations.Operators_Properties.
Open Scope string_scope.
Open Scope list_scope.
Open Scope nat_scope.

Lemma mem_cons {A} `{EqD A} (x y : A) l : mem x (y :: l) = eqb_of x y || mem x l.
Proof.
  destruct (mem x (y :: l)) eqn:E.
  - apply mem_true in E. symmetry. apply orb_true_iff. destruct E as [->|E].
    + left. apply eqb_of_refl.
    + right. apply mem_true. exact E.
  - apply mem_false in E. symmetry. apply orb_false_iff. split.
    + apply eqb_of_false. intros ->. apply E. left. reflexivity.
    + apply mem_false. intros Hx. apply E. right. exact Hx.
Qed.

Section Prune.
  Context {V K F : Type} `{EqD K}.
  Notation heap := (heap V K).
  Notation st := (st V F).

  (** No part of the expression contains itself. *)
  Definition acyclic (h : heap) (root : oid) : Prop :=
    forall x, part_of h root x -> ~ on_cycle h x.

  Lemma acyclic_nodes (h : heap) size root : closed h size -> root < size -> acyclic h root ->
    exists ns, nodes h size root = Ok ns /\ NoDup ns /\
       (forall x, In x ns <-> part_of h root x /\ is_expr_at h x).
  Proof.
    intros Hc Hr Ha. destruct (nodes_spec h size root Hc Hr) as [(ns & E & Hnd & Hin & _)|(_ & x & Hx & Hcy)].
    - exists ns. auto.
    - exfalso. exact (Ha x Hx Hcy).
  Qed.

  Lemma reach_same (h : heap) (stop stop' : oid -> Prop) root :
    (forall x, reach h stop root x -> stop x -> stop' x) ->
    forall y, reach h stop' root y -> reach h stop root y.
  Proof.
    intros Hs.
    assert (Hg : forall a b, reach h stop' a b -> reach h stop root a -> reach h stop root b).
    { intros a b Hr. induction Hr as [|a c b Hns Hc Hr IH]; intros Ha; [exact Ha|].
      apply IH. eapply reach_trans; [exact Ha|]. econstructor; [|exact Hc|constructor].
      intros Hst. apply Hns. apply Hs; assumption. }
    intros y Hy. eapply Hg; [exact Hy|constructor].
  Qed.

  Definition reachable_from_root (h : heap) (mode : string) (root : oid) (s : st) (x : oid) : Prop :=
    reach h (stops h (results s) mode) root x.

  Lemma fold_prune mode reachable ns : forall s : st,
    let s' := fold_left (fun s n => if mem n reachable then s else set_result s n mode None) ns s in
    fitted s' = fitted s /\ errors s' = errors s /\ trace s' = trace s /\
    forall o m, results s' o m
      = if mem o ns && negb (mem o reachable) && eqb_of m mode then None else results s o m.
  Proof.
    induction ns as [|n ns IH]; intros s; cbn zeta; [cbn; auto|].
    cbn [fold_left]. specialize (IH (if mem n reachable then s else set_result s n mode None)).
    cbn zeta in IH. destruct IH as (H1 & H2 & H3 & H4).
    assert (Hk : forall A (f : st -> A), (forall s', f (set_result s' n mode None) = f s') ->
       f (if mem n reachable then s else set_result s n mode None) = f s).
    { intros A f Hf. destruct (mem n reachable); auto. }
    split; [rewrite H1; destruct (mem n reachable); reflexivity|].
    split; [rewrite H2; destruct (mem n reachable); reflexivity|].
    split; [rewrite H3; destruct (mem n reachable); reflexivity|].
    intros o m. rewrite H4. clear H1 H2 H3 H4 Hk.
    rewrite (mem_cons o n ns).
    destruct (mem o ns && negb (mem o reachable) && eqb_of m mode) eqn:E1.
    - apply andb_true_iff in E1. destruct E1 as [E1 E2]. apply andb_true_iff in E1. destruct E1 as [E0 E1].
      rewrite E0, E1, E2. rewrite orb_true_r. reflexivity.
    - destruct (eqb_of o n) eqn:Eo.
      + apply eqb_of_eq in Eo. subst n. cbn [orb andb].
        destruct (mem o reachable) eqn:Er; cbn [negb andb]; [reflexivity|].
        simpl. unfold upd2. destruct (eqd o o); [|congruence].
        unfold eqb_of. destruct (eqd m mode); reflexivity.
      + cbn [orb]. rewrite E1.
        destruct (mem n reachable); [reflexivity|]. simpl. unfold upd2.
        destruct (eqd o n) as [->|]; [|reflexivity].
        rewrite eqb_of_refl in Eo. discriminate.
  Qed.

  Lemma reach_result (h : heap) size root mode res : closed h size -> root < size -> acyclic h root ->
    exists l, visit (reach_handler h mode res) size [] root [] = (l, TOk tt) /\
      forall x, In x l <-> reach h (stops h res mode) root x /\ is_expr_at h x.
  Proof.
    intros Hc Hr Ha.
    destruct (visit (reach_handler h mode res) size [] root []) as [l [[]|ex|t|]] eqn:Ev.
    - exists l. split; [reflexivity|]. apply reach_visit_ok in Ev. destruct Ev as (_ & H1 & H2).
      intros x. split.
      + intros Hx. apply H2 in Hx. destruct Hx as [[]|Hx]. exact Hx.
      + intros [Hx1 Hx2]. apply H1; assumption.
    - exfalso. eapply reach_visit_not_err; eauto.
    - exfalso. apply (visit_circ (reach_handler h mode res) (child h)) in Ev;
        [|intros o; apply reach_handler_edges].
      destruct Ev as [Ht Hrt]. apply (Ha t); [apply rt_part; exact Hrt|]. apply trans_on_cycle. exact Ht.
    - exfalso. apply (visit_no_fuel_heap (reach_handler h mode res) size root []); auto.
      + apply closed_handler with (h := h); [exact Hc|]. intros o. apply reach_handler_edges.
      + rewrite Ev. reflexivity.
  Qed.

  Lemma prune_spec (h : heap) size root mode ns s : closed h size -> root < size -> acyclic h root ->
    (forall x, In x ns -> is_expr_at h x) ->
    exists s', prune h size root mode ns s = (s', TOk tt) /\
      fitted s' = fitted s /\ errors s' = errors s /\ trace s' = trace s /\
      (forall o m, m <> mode \/ ~ In o ns \/ reachable_from_root h mode root s o -> results s' o m = results s o m) /\
      (forall o, In o ns -> ~ reachable_from_root h mode root s o -> results s' o mode = None).
  Proof.
    intros Hc Hr Ha Hns. unfold prune.
    destruct (reach_result h size root mode (results s) Hc Hr Ha) as (l & -> & Hl).
    destruct (fold_prune mode l ns s) as (H1 & H2 & H3 & H4).
    eexists. split; [reflexivity|]. split; [exact H1|]. split; [exact H2|]. split; [exact H3|].
    split.
    - intros o m Hom. rewrite H4. destruct (mem o ns) eqn:En; [|reflexivity].
      destruct (mem o l) eqn:El; [reflexivity|]. cbn [negb andb].
      destruct (eqb_of m mode) eqn:Em; [|reflexivity].
      apply mem_true in En. apply mem_false in El. apply eqb_of_eq in Em.
      exfalso. destruct Hom as [Hm|[Hn|HR]]; [congruence|contradiction|].
      apply El. apply Hl. split; [exact HR|apply Hns; exact En].
    - intros o Ho HR. rewrite H4. apply mem_true in Ho. rewrite Ho, eqb_of_refl.
      destruct (mem o l) eqn:El; [|reflexivity]. apply mem_true in El. apply Hl in El.
      exfalso. apply HR. apply El.
  Qed.

  Lemma clear_spec mode ns : forall s : st,
    fitted (clear_nodes ns mode s) = fitted s /\ trace (clear_nodes ns mode s) = trace s /\
    (forall o m, results (clear_nodes ns mode s) o m
       = if mem o ns && eqb_of m mode then None else results s o m) /\
    (forall o m, errors (clear_nodes ns mode s) o m
       = if mem o ns && eqb_of m mode then None else errors s o m).
  Proof.
    unfold clear_nodes.
    induction ns as [|n ns IH]; intros s; [cbn; auto|].
    cbn [fold_left].
    destruct (IH (set_error (set_result s n mode None) n mode None)) as (H1 & H2 & H3 & H4).
    rewrite H1, H2. split; [reflexivity|]. split; [reflexivity|].
    assert (Hg : forall A (f : oid -> string -> option A) o m,
       (if mem o ns && eqb_of m mode then None else upd2 f n mode None o m)
       = if mem o (n :: ns) && eqb_of m mode then None else f o m).
    { intros A f o m. rewrite (mem_cons o n ns).
      destruct (mem o ns); cbn [andb orb].
      - rewrite orb_true_r. cbn [andb]. destruct (eqb_of m mode) eqn:Em; [reflexivity|].
        unfold upd2. destruct (eqd o n); [|reflexivity]. unfold eqb_of in Em. destruct (eqd m mode); [discriminate|reflexivity].
      - rewrite orb_false_r. unfold upd2, eqb_of. destruct (eqd o n); cbn [andb]; [|reflexivity].
        destruct (eqd m mode); reflexivity. }
    split; intros o m.
    - rewrite H3. apply Hg.
    - rewrite H4. apply Hg.
  Qed.
End Prune.

Section Evaluate.
  Context {V K F : Type} `{EqD K}.
  Notation heap := (heap V K).
  Notation st := (st V F).
  Variable ext : externals V K F.
  Variable h : heap.
  Variable size : nat.
  Variable root : oid.
  Hypothesis Hclosed : closed h size.
  Hypothesis Hroot : root < size.
  Hypothesis Hacyclic : acyclic h root.
  Variable e : env V.

  Section AnyCallback.
    Variable mode : string.
    Variable f0 : oid -> option (fit_attr V F).
    Variable cb : st -> st * outcome unit.
    Notation Den := (Den ext h e mode f0).
    Notation needed := (needed ext h e mode f0).
    Notation needs := (needs ext h e mode f0).
    Notation to_compute := (to_compute h e).
    Notation Rs := (reachable_from_root (F := F) h mode root).

    (** What is used about the callback: it only discards results for this mode, of nodes
        that are not reachable any more. *)
    Hypothesis Hcb : forall s, exists s', cb s = (s', TOk tt) /\
      fitted s' = fitted s /\ errors s' = errors s /\ trace s' = trace s /\
      (forall o m, m <> mode \/ ~ (part_of h root o /\ is_expr_at h o) \/ Rs s o ->
         results s' o m = results s o m) /\
      (forall o, results s' o mode = results s o mode \/ results s' o mode = None).

    Lemma Hcb_sim : forall s, exists s', cb s = (s', TOk tt) /\
      (forall o, fitted s' o = fitted s o) /\
      (forall o v, results s' o mode = Some v -> results s o mode = Some v).
    Proof.
      intros s. destruct (Hcb s) as (s' & E & Hf & _ & _ & _ & Hr). exists s'.
      split; [exact E|]. split; [intros o; rewrite Hf; reflexivity|].
      intros o v Ev. destruct (Hr o) as [Er|Er]; congruence.
    Qed.

    (** Results already present may only be used if [fresh] does not hold. *)
    Variable fresh : Prop.

    Definition complete (o : oid) (s : st) : Prop :=
      fresh -> forall y, needed o y -> to_compute y -> In y (trace s).

    Record Inv25 (path : list oid) (s : st) : Prop := {
      i_nodup : NoDup (trace s);
      i_done : forall x, In x (trace s) -> In x path \/ results s x mode <> None \/ ~ Rs s x;
      i_path : forall p, In p path -> ~ stops h (results s) mode p;
      i_needed : forall x, In x (trace s) -> needed root x /\ to_compute x;
      i_logged : forall p, In p path -> to_compute p -> In p (trace s);
      i_cached : forall x, to_compute x -> part_of h root x -> results s x mode <> None -> complete x s
    }.
    Definition Err25 (s : st) : Prop :=
      NoDup (trace s) /\ forall x, In x (trace s) -> needed root x /\ to_compute x.

    Lemma edge_reach (stop : oid -> Prop) a b :
      (forall x, stop x -> is_expr_at h x) -> ~ stop a -> edge h a b -> reach h stop a b.
    Proof.
      intros Hst Ha [Hc|(m & Hm & Hx & Hc)].
      - econstructor; [exact Ha|exact Hc|constructor].
      - econstructor; [exact Ha|exact Hm|]. econstructor; [|exact Hc|constructor].
        intros Hs. apply Hst in Hs. unfold is_expr_at in Hs. congruence.
    Qed.

    Lemma vpath_R s : forall path o, vpath ext h e mode f0 root o path ->
      (forall p, In p path -> ~ stops h (results s) mode p) -> Rs s o.
    Proof.
      induction path as [|p path IH]; intros o Hv Hp; simpl in Hv.
      - subst. constructor.
      - destruct Hv as [Hn Hv]. unfold reachable_from_root. eapply reach_trans.
        + apply (IH p Hv). intros q Hq. apply Hp. right. exact Hq.
        + apply edge_reach.
          * intros x [Hx _]. exact Hx.
          * apply Hp. left. reflexivity.
          * eapply needs_edge; eauto.
    Qed.

    Lemma to_compute_expr o : to_compute o -> is_expr_at h o.
    Proof. unfold to_compute, is_expr_at. destruct (h o); simpl; intros []; reflexivity. Qed.

    Lemma R_shrinks s s' :
      (forall o, results s o mode <> None -> results s' o mode <> None \/ ~ Rs s o) ->
      forall x, Rs s' x -> Rs s x.
    Proof.
      intros Hk. apply reach_same. intros x Hx [He Hcx]. split; [exact He|].
      destruct (Hk x Hcx) as [Hk'|Hk']; [exact Hk'|]. contradiction.
    Qed.

    Lemma visit25 d s : Inv ext h e mode f0 root s -> Inv25 [] s ->
      match visit (eval_handler ext h e mode cb) d [] root s with
      | (s', TOk v) => Inv25 [] s' /\ incl (trace s) (trace s') /\ complete root s'
      | (s', _) => Err25 s'
      end.
    Proof.
      intros Hi HI.
      apply (visit_hoare ext h e mode f0 root cb Hcb_sim Inv25 Err25 complete
               (fun s s' => incl (trace s) (trace s'))); auto.
      - intros s0 x Hx. exact Hx.
      - intros a b c Hab Hbc x Hx. auto.
      - intros o s1 s2 Hle HP Hf y Hy Hty. apply Hle. apply HP; assumption.
      - intros path s1 [H1 H2 H3 H4 H5 H6]. split; assumption.
      - (* enter *)
        intros o path s1 Hv Hno Hx [H1 H2 H3 H4 H5 H6]. split; auto.
        + intros x Hxt. destruct (H2 x Hxt) as [Hp|Hp]; [left; right; exact Hp|right; exact Hp].
        + intros p [<-|Hp]; [|auto]. intros [He _]. unfold is_expr_at in He. congruence.
        + intros p [<-|Hp] Htc; [|auto]. apply to_compute_expr in Htc. unfold is_expr_at in Htc. congruence.
      - (* leave *)
        intros o path s1 Hv Hno Hx [H1 H2 H3 H4 H5 H6] HP.
        assert (Hnt : ~ to_compute o).
        { intros Htc. apply to_compute_expr in Htc. unfold is_expr_at in Htc. congruence. }
        split.
        + split; auto.
          * intros x Hxt. destruct (H2 x Hxt) as [[<-|Hp]|Hp]; auto.
            exfalso. apply Hnt. apply (H4 o Hxt).
          * intros p Hp. apply H3. right. exact Hp.
          * intros p Hp. apply H5. right. exact Hp.
        + intros Hf y Hy Hty. apply needed_first in Hy. destruct Hy as [<-|(b & Hb & Hby)]; [contradiction|].
          apply (HP b Hb Hf y Hby Hty).
      - (* given *)
        intros o path s1 Hv Hnt Hx HI1 Hf y Hy Hty. exfalso.
        apply needed_first in Hy. destruct Hy as [<-|(b & Hb & _)]; [contradiction|].
        apply Hnt. unfold L_expr4.needs in Hb. unfold L_expr4.to_compute.
        destruct (h o); try discriminate. apply Hb.
      - (* cached *)
        intros o path s1 v Hv Htc Er HI1. apply (i_cached _ _ HI1); auto; [|congruence].
        apply (needed_part ext h e mode f0). eapply vpath_needed; eauto.
      - (* log *)
        intros o path s1 Hv Hno Htc Er [H1 H2 H3 H4 H5 H6]. split; [|intros x Hx; right; exact Hx].
        assert (HR : Rs s1 o) by (eapply vpath_R; eauto).
        split; cbn [log trace results].
        + constructor; [|exact H1]. intros Hin. destruct (H2 o Hin) as [Hp|[Hp|Hp]]; contradiction.
        + intros x [<-|Hx]; [left; left; reflexivity|].
          destruct (H2 x Hx) as [Hp|Hp]; [left; right; exact Hp|right; exact Hp].
        + intros p [<-|Hp]; [|auto]. intros [_ Hc]. unfold cached in Hc. congruence.
        + intros x [<-|Hx]; [|auto]. split; [eapply vpath_needed; eauto|exact Htc].
        + intros p [<-|Hp] Hpt; [left; reflexivity|right; auto].
        + intros x Hx Hpx Hcx Hf y Hy Hty. right. apply (H6 x Hx Hpx Hcx Hf y Hy Hty).
      - (* fit *)
        intros o path s1 f Hv Htc [H1 H2 H3 H4 H5 H6]. split; [|intros x Hx; exact Hx].
        split; assumption.
      - intros o path s1 f ex Hv Htc [H1 H2 H3 H4 H5 H6]. split; assumption.
      - (* store *)
        intros o path s1 v s2 Hv Hno Htc [H1 H2 H3 H4 H5 H6] HP Ec.
        set (s1' := set_result s1 o mode (Some v)) in *.
        destruct (Hcb s1') as (s2' & Ec' & Hf & He & Ht & Hkeep & Honly).
        rewrite Ec in Ec'. injection Ec' as <-.
        change (trace s1') with (trace s1) in Ht.
        assert (Hs1 : forall x, results s1' x mode = if eqd x o then Some v else results s1 x mode).
        { intros x. simpl. unfold upd2. destruct (eqd x o); [|reflexivity].
          destruct (eqd mode mode); [reflexivity|congruence]. }
        assert (HR1 : forall x, Rs s1' x -> Rs s1 x).
        { apply R_shrinks. intros x Hx. left. rewrite Hs1. destruct (eqd x o); [discriminate|exact Hx]. }
        assert (HR2 : forall x, Rs s2 x -> Rs s1' x).
        { intros x Hx. 
          assert (Hg : forall y, reach h (stops h (results s2) mode) root y -> Rs s1' y).
          { apply reach_same. intros y Hy [Hey Hcy]. split; [exact Hey|].
            unfold cached in *. rewrite Hkeep; [exact Hcy|]. auto. }
          apply Hg. exact Hx. }
        assert (Hup : forall x, results s1' x mode <> None -> results s2 x mode <> None \/ ~ Rs s2 x).
        { intros x Hx. destruct (Honly x) as [E2|E2]; [left; congruence|].
          right. intros Hr. apply HR2 in Hr. apply Hx. rewrite <- E2. symmetry. apply Hkeep. auto. }
        assert (Hdown : forall x, results s2 x mode <> None -> results s1' x mode <> None).
        { intros x Hx. destruct (Honly x) as [E2|E2]; congruence. }
        assert (Hcomp : forall x s0, trace s0 = trace s1 -> complete x s1 -> complete x s0).
        { intros x s0 E0 Hcx Hfr y Hy Hty. rewrite E0. apply Hcx; assumption. }
        assert (Ho : complete o s1).
        { intros Hfr y Hy Hty. apply needed_first in Hy. destruct Hy as [<-|(b & Hb & Hby)].
          - apply H5; [left; reflexivity|exact Htc].
          - apply (HP b Hb Hfr y Hby Hty). }
        split; [|split].
        + split; try rewrite Ht; auto.
          * intros x Hx. destruct (H2 x Hx) as [[<-|Hp]|[Hp|Hp]].
            -- right. apply Hup. rewrite Hs1. destruct (eqd o o); congruence.
            -- left. exact Hp.
            -- right. apply Hup. rewrite Hs1. destruct (eqd x o); [discriminate|exact Hp].
            -- right. right. intros Hr. apply Hp. apply HR1, HR2. exact Hr.
          * intros p Hp [Hep Hcp]. apply (H3 p (or_intror Hp)). split; [exact Hep|].
            unfold cached in *. apply Hdown in Hcp. rewrite Hs1 in Hcp.
            destruct (eqd p o) as [->|]; [contradiction|exact Hcp].
          * intros p Hp. apply H5. right. exact Hp.
          * intros x Hx Hpx Hcx. apply (Hcomp x s2 Ht). apply Hdown in Hcx. rewrite Hs1 in Hcx.
            destruct (eqd x o) as [->|]; [exact Ho|]. apply H6; assumption.
        + rewrite Ht. intros x Hx. exact Hx.
        + apply (Hcomp o s2 Ht). exact Ho.
      - reflexivity.
    Qed.

    (** What is outside the expression, or about another mode, does not change. *)
    Section Outside.
      Variable s0 : st.
      Definition outside (s : st) : Prop :=
        forall x m,
          (m <> mode \/ ~ (part_of h root x /\ is_expr_at h x) ->
             results s x m = results s0 x m /\ errors s x m = errors s0 x m) /\
          (~ (part_of h root x /\ is_expr_at h x) -> fitted s x = fitted s0 x).

      Lemma upd2_other {A} (f : oid -> string -> option A) o x m a :
        part_of h root o -> is_expr_at h o ->
        m <> mode \/ ~ (part_of h root x /\ is_expr_at h x) ->
        upd2 f o mode a x m = f x m.
      Proof.
        intros Ho He Hx. unfold upd2. destruct (eqd x o) as [->|]; [|reflexivity].
        destruct (eqd m mode) as [->|]; [|reflexivity].
        exfalso. destruct Hx as [Hx|Hx]; [congruence|]. apply Hx. auto.
      Qed.

      Lemma visit_outside d s : Inv ext h e mode f0 root s -> outside s ->
        outside (fst (visit (eval_handler ext h e mode cb) d [] root s)).
      Proof.
        intros Hi HI.
        assert (Hp : Post (fun _ => outside) outside (fun _ _ => True) (fun _ _ => True) [] root s
                  (visit (eval_handler ext h e mode cb) d [] root s)).
        { apply (visit_hoare ext h e mode f0 root cb Hcb_sim); auto.
          - intros o path s1 f Hv Htc Ho. split; [|exact I]. intros x m.
            destruct (Ho x m) as [Ha Hb]. split; [exact Ha|].
            intros Hx. simpl. unfold upd. destruct (eqd x o) as [->|]; [|auto].
            exfalso. apply Hx. split; [|apply to_compute_expr; exact Htc].
            apply (needed_part ext h e mode f0). eapply vpath_needed; eauto.
          - intros o path s1 f ex Hv Htc Ho x m. destruct (Ho x m) as [Ha Hb].
            assert (Hpo : part_of h root o).
            { apply (needed_part ext h e mode f0). eapply vpath_needed; eauto. }
            apply to_compute_expr in Htc.
            split.
            + intros Hx. destruct (Ha Hx) as [Ha1 Ha2]. split; [exact Ha1|].
              simpl. rewrite upd2_other; auto.
            + intros Hx. simpl. unfold upd. destruct (eqd x o) as [->|]; [|auto].
              exfalso. apply Hx. auto.
          - intros o path s1 v s2 Hv Hno Htc Ho _ Ec. split; [|auto].
            assert (Hpo : part_of h root o).
            { apply (needed_part ext h e mode f0). eapply vpath_needed; eauto. }
            apply to_compute_expr in Htc.
            destruct (Hcb (set_result s1 o mode (Some v))) as (s2' & Ec' & Hf & He & Ht & Hkeep & _).
            rewrite Ec in Ec'. injection Ec' as <-.
            intros x m. destruct (Ho x m) as [Ha Hb]. split.
            + intros Hx. destruct (Ha Hx) as [Ha1 Ha2]. split.
              * rewrite Hkeep; [|tauto]. simpl. rewrite upd2_other; auto.
              * rewrite He. exact Ha2.
            + intros Hx. rewrite Hf. simpl. apply Hb. exact Hx.
          - reflexivity. }
        destruct (visit (eval_handler ext h e mode cb) d [] root s) as [s' [v|ex|t|]]; cbn in *;
          [apply Hp|exact Hp|exact Hp|exact Hp].
      Qed.
    End Outside.
  End AnyCallback.

  Definition real_mode (requested : string) : string :=
    if eqb_of requested "fit" then "fit_transform" else requested.
  Definition answer (requested : string) (r : res (V * option (fit_attr V F))) : res evaluated :=
    match r with
    | Ok (v, _) => Ok (if eqb_of requested "fit" then TheExpr else TheValue v)
    | Err ex => Err ex
    end.

  Lemma eval_no_circ_no_fuel mode cb s s' r :
    visit (eval_handler ext h e mode cb) size [] root s = (s', r) ->
    (exists v, r = TOk v) \/ (exists ex, r = TErr ex).
  Proof.
    intros Ev. destruct r as [v|ex|t|]; eauto.
    - exfalso. apply (visit_circ (eval_handler ext h e mode cb) (edge h)) in Ev;
        [|intros o; apply eval_handler_edges].
      destruct Ev as [Ht Hrt]. apply (Hacyclic t); [apply edges_part; exact Hrt|].
      apply edges_cycle. exact Ht.
    - exfalso. apply (visit_no_fuel_heap (eval_handler ext h e mode cb) size root s); auto.
      + apply closed_edges with (h := h); [exact Hclosed|]. intros o. apply eval_handler_edges.
      + rewrite Ev. reflexivity.
  Qed.

  (** ** With [clear=True] *)
  Lemma prune_cb ns mode :
    (forall x, In x ns <-> part_of h root x /\ is_expr_at h x) ->
    forall s : st, exists s', prune h size root mode ns s = (s', TOk tt) /\
      fitted s' = fitted s /\ errors s' = errors s /\ trace s' = trace s /\
      (forall o m, m <> mode \/ ~ (part_of h root o /\ is_expr_at h o) \/ reachable_from_root h mode root s o ->
         results s' o m = results s o m) /\
      (forall o, results s' o mode = results s o mode \/ results s' o mode = None).
  Proof.
    intros Hns s.
    destruct (prune_spec h size root mode ns s Hclosed Hroot Hacyclic) as (s' & E & H1 & H2 & H3 & H4 & H5).
    { intros x Hx. apply Hns. exact Hx. }
    exists s'. split; [exact E|]. split; [exact H1|]. split; [exact H2|]. split; [exact H3|]. split.
    - intros o m Hom. apply H4. destruct Hom as [Hm|[Hn|HR]]; auto. right. left. rewrite Hns. exact Hn.
    - intros o. unfold prune in E.
      destruct (reach_result h size root mode (results s) Hclosed Hroot Hacyclic) as (l & El & Hl).
      rewrite El in E. injection E as <-.
      destruct (fold_prune mode l ns s) as (_ & _ & _ & Hf). rewrite Hf.
      destruct (_ && _); auto.
  Qed.

  Lemma none_cb mode : forall s : st, exists s', (s, TOk tt) = (s', TOk tt) /\
      fitted s' = fitted s /\ errors s' = errors s /\ trace s' = trace s /\
      (forall o m, m <> mode \/ ~ (part_of h root o /\ is_expr_at h o) \/ reachable_from_root h mode root s o ->
         results s' o m = results s o m) /\
      (forall o, results s' o mode = results s o mode \/ results s' o mode = None).
  Proof. intros s. exists s. repeat split; auto. Qed.

  Theorem evaluate_clear requested (s : st) :
    trace s = [] ->
    let mode := real_mode requested in
    let out := evaluate ext h size root requested e true s in
    exists r, Den ext h e mode (fitted s) root r /\ snd out = answer requested r /\
      NoDup (trace (fst out)) /\
      (forall x, In x (trace (fst out)) ->
         needed ext h e mode (fitted s) root x /\ to_compute h e x) /\
      ((exists vf, r = Ok vf) ->
         (forall x, needed ext h e mode (fitted s) root x -> to_compute h e x ->
            In x (trace (fst out))) /\
         (forall vf, r = Ok vf -> fitted (fst out) root = snd vf) /\
         (forall x, fitted (fst out) x = fitted s x \/
            exists v, Den ext h e mode (fitted s) x (Ok (v, fitted (fst out) x)))) /\
      (forall x m, part_of h root x -> is_expr_at h x -> m = mode ->
         results (fst out) x m = None /\ errors (fst out) x m = None) /\
      outside mode s (fst out).
  Proof.
    intros Ht mode out.
    destruct (acyclic_nodes h size root Hclosed Hroot Hacyclic) as (ns & En & Hnd & Hns).
    unfold out, evaluate. fold (real_mode requested). fold mode. rewrite En.
    destruct (clear_spec mode ns s) as (C1 & C2 & C3 & C4).
    set (s1 := clear_nodes ns mode s) in *.
    pose proof (prune_cb ns mode Hns) as Hcb.
    set (cb := prune h size root mode ns) in *.
    set (f0 := fitted s).
    assert (Hempty : forall x, part_of h root x -> is_expr_at h x -> results s1 x mode = None).
    { intros x Hx Hex. rewrite C3, eqb_of_refl. assert (Hin : In x ns) by (apply Hns; auto).
      apply mem_true in Hin. rewrite Hin. reflexivity. }
    assert (Hi : Inv ext h e mode f0 root s1).
    { split.
      - intros o v Ho Hex _ Er. rewrite Hempty in Er; [discriminate|exact Ho|exact Hex].
      - intros o. left. rewrite C1. reflexivity. }
    assert (HI : Inv25 mode f0 True [] s1).
    { split; rewrite ?C2, ?Ht; try (intros x []); try constructor.
      intros x Hx Hpx Hr. exfalso. apply Hr. apply Hempty; [exact Hpx|]. eapply to_compute_expr; eauto. }
    pose proof (visit25 mode f0 cb Hcb True size s1 Hi HI) as H25.
    pose proof (visit_good ext h e mode f0 root cb (Hcb_sim mode cb Hcb) size [] root s1
                  (reach_refl _ _ _) Hi) as Hg.
    assert (Hos : outside mode s s1).
    { intros x m. rewrite C3, C4, C1. split; [|reflexivity].
      intros Hx. destruct (mem x ns) eqn:Ex; [|auto]. destruct (eqb_of m mode) eqn:Em; [|auto].
      apply mem_true in Ex. apply Hns in Ex. apply eqb_of_eq in Em.
      exfalso. destruct Hx; [congruence|contradiction]. }
    pose proof (visit_outside mode f0 cb Hcb s size s1 Hi Hos) as Hout.
    destruct (visit (eval_handler ext h e mode cb) size [] root s1) as [s2 r] eqn:Ev.
    pose proof (eval_no_circ_no_fuel mode cb s1 s2 r Ev) as Hr.
    destruct (clear_spec mode ns s2) as (D1 & D2 & D3 & D4).
    cbn [fst snd] in *.
    assert (Hcl : forall x m, part_of h root x -> is_expr_at h x -> m = mode ->
         results (clear_nodes ns mode s2) x m = None /\ errors (clear_nodes ns mode s2) x m = None).
    { intros x m Hx Hex ->. assert (Hin : In x ns) by (apply Hns; auto).
      apply mem_true in Hin. rewrite D3, D4, Hin, eqb_of_refl. auto. }
    assert (Hout2 : outside mode s (clear_nodes ns mode s2)).
    { intros x m. rewrite D1, D3, D4. destruct (Hout x m) as [Ha Hb]. split; [|exact Hb].
      intros Hx. destruct (mem x ns) eqn:Ex; [|auto]. destruct (eqb_of m mode) eqn:Em; [|auto].
      apply mem_true in Ex. apply Hns in Ex. apply eqb_of_eq in Em.
      exfalso. destruct Hx; [congruence|contradiction]. }
    destruct Hr as [[v ->]|[ex ->]].
    - cbn [Good] in Hg. destruct Hg as (f & Hd & Hi2 & _ & Hf). destruct H25 as (HI2 & _ & Hcomp).
      exists (Ok (v, f)). split; [exact Hd|]. split; [reflexivity|].
      split; [rewrite D2; apply (i_nodup _ _ _ _ _ HI2)|].
      split; [rewrite D2; apply (i_needed _ _ _ _ _ HI2)|].
      split; [|split; assumption].
      intros _. split; [|split].
      + intros x Hx Hcx. rewrite D2. apply Hcomp; auto.
      + intros vf E. injection E as <-. rewrite D1. exact Hf.
      + intros x. rewrite D1. apply (inv_fit _ _ _ _ _ _ _ Hi2).
    - exists (Err ex). split; [exact Hg|]. split; [reflexivity|]. destruct H25 as [Hn1 Hn2].
      split; [rewrite D2; exact Hn1|]. split; [rewrite D2; exact Hn2|].
      split; [|split; assumption]. intros [vf E]. discriminate.
  Qed.

  (** ** With [clear=False]: results already stored must be those of this environment. *)
  Theorem evaluate_keep requested f0 (s : st) :
    trace s = [] -> let mode := real_mode requested in Inv ext h e mode f0 root s ->
    let out := evaluate ext h size root requested e false s in
    exists r, Den ext h e mode f0 root r /\ snd out = answer requested r /\
      NoDup (trace (fst out)) /\
      (forall x, In x (trace (fst out)) ->
         needed ext h e mode f0 root x /\ to_compute h e x /\ results s x mode = None) /\
      outside mode s (fst out) /\
      (forall v f, r = Ok (v, f) -> Inv ext h e mode f0 root (fst out) /\
         (to_compute h e root -> results (fst out) root mode = Some v)).
  Proof.
    intros Ht mode Hi out.
    unfold out, evaluate. fold (real_mode requested). fold mode.
    pose proof (none_cb mode) as Hcb.
    set (cb := fun s : st => (s, TOk tt)) in *.
    assert (HI : Inv25 mode f0 False [] s).
    { split; rewrite ?Ht; try (intros x []); try constructor.
      intros x Hx Hpx Hr []. }
    pose proof (visit25 mode f0 cb Hcb False size s Hi HI) as H25.
    pose proof (visit_good ext h e mode f0 root cb (Hcb_sim mode cb Hcb) size [] root s
                  (reach_refl _ _ _) Hi) as Hg.
    assert (Hos : outside mode s s) by (intros x m; auto).
    pose proof (visit_outside mode f0 cb Hcb s size s Hi Hos) as Hout.
    assert (Hold : Post
              (fun _ s' => (forall x, results s x mode <> None -> results s' x mode <> None) /\
                          (forall x, In x (trace s') -> results s x mode = None))
              (fun s' => forall x, In x (trace s') -> results s x mode = None)
              (fun o s' => to_compute h e o -> results s' o mode <> None)
              (fun s1 s2 => forall x, results s1 x mode <> None -> results s2 x mode <> None)
              [] root s (visit (eval_handler ext h e mode cb) size [] root s)).
    { apply (visit_hoare ext h e mode f0 root cb (Hcb_sim mode cb Hcb)); auto.
      - intros path s1 [_ H2]. exact H2.
      - intros o path s1 _ _ Hx HI1 _. split; [exact HI1|]. intros Htc.
        apply to_compute_expr in Htc. unfold is_expr_at in Htc. congruence.
      - intros o path s1 v _ _ Er _ _. congruence.
      - intros o path s1 _ _ _ Er [H1 H2]. split; [|auto]. split; [exact H1|].
        intros x [<-|Hx]; [|apply H2; exact Hx].
        destruct (results s o mode) eqn:E0; [|reflexivity]. exfalso. apply (H1 o); congruence.
      - intros o path s1 f ex _ _ [_ H2]. exact H2.
      - intros o path s1 v s2 _ _ _ [H1 H2] _ Ec. unfold cb in Ec. injection Ec as <-.
        assert (Hup : forall x, results s1 x mode <> None ->
                  results (set_result s1 o mode (Some v)) x mode <> None).
        { intros x Hx. simpl. unfold upd2. destruct (eqd x o); [|exact Hx].
          destruct (eqd mode mode); [discriminate|congruence]. }
        split; [split; auto|]. split; [exact Hup|]. intros _. simpl. unfold upd2.
        destruct (eqd o o); [|congruence]. destruct (eqd mode mode); [discriminate|congruence].
      - reflexivity.
      - rewrite Ht. split; [auto|]. intros x []. }
    destruct (visit (eval_handler ext h e mode cb) size [] root s) as [s2 r] eqn:Ev.
    pose proof (eval_no_circ_no_fuel mode cb s s2 r Ev) as Hr.
    cbn [fst snd] in *.
    destruct Hr as [[v ->]|[ex ->]].
    - cbn [Good] in Hg. destruct Hg as (f & Hd & Hi2 & _ & Hf). destruct H25 as (HI2 & _ & _).
      destruct Hold as ((_ & Hold) & _ & Hst).
      exists (Ok (v, f)). split; [exact Hd|]. split; [reflexivity|].
      split; [apply (i_nodup _ _ _ _ _ HI2)|]. split.
      { intros x Hx. destruct (i_needed _ _ _ _ _ HI2 x Hx). auto. }
      split; [exact Hout|]. intros v' f' E. injection E as <- <-. split; [exact Hi2|].
      intros Htc. destruct (results s2 root mode) as [w|] eqn:Ew; [|exfalso; apply Hst; auto].
      assert (Hdw : Den ext h e mode f0 root (Ok (w, fitted s2 root))).
      { apply (inv_cache _ _ _ _ _ _ _ Hi2); auto.
        - constructor.
        - apply to_compute_expr. exact Htc.
        - unfold overridden. unfold to_compute in Htc. destruct (h root); auto. }
      pose proof (Den_det _ _ _ _ _ _ _ _ Hd Hdw) as E. injection E as <- _. reflexivity.
    - exists (Err ex). split; [exact Hg|]. split; [reflexivity|]. destruct H25 as [Hn1 Hn2].
      split; [exact Hn1|]. split.
      { intros x Hx. destruct (Hn2 x Hx). split; auto. }
      split; [exact Hout|]. intros v f E. discriminate.
  Qed.
End Evaluate.
