(** What the evaluation for a report leaves, and the pages written from it. *)
From Coq Require Import Relations Lia.
From Verif Require Import Base L_str M_str M_traverse L_traverse M_expr L_expr1 L_expr2 L_expr3 L_expr4 L_expr5
  M_choicegraph M_graph L_graph L_graph2 M_pages L_pages.
Open Scope string_scope.
Open Scope list_scope.
Open Scope nat_scope.
Set Default Proof Using "Type".

Section Left.
  Context {V K F : Type} `{EqD K}.
  Notation heap := (heap V K).
  Notation st := (st V F).
  Variable ext : externals V K F.
  Variable h : heap.
  Variable size : nat.
  Variable root : oid.
  Variable e : env V.
  Variable mode : string.
  Variable f0 : oid -> option (fit_attr V F).
  Hypothesis Hclosed : closed h size.
  Hypothesis Hroot : root < size.
  Hypothesis Hacyclic : acyclic h root.
  Notation DenV := (DenV ext h e mode f0).
  Notation needed := (needed ext h e mode f0).
  Notation to_compute := (to_compute h e).
  Notation step_of x := (part_of h root x /\ is_expr_at h x).

  (** The results of a mode after an evaluation that began without results. *)
  Definition left_ok (s2 : st) (r : res V) : Prop :=
    DenV root r /\
    (forall x, step_of x -> results s2 x mode <> None -> needed root x /\ to_compute x) /\
    (forall x w, step_of x -> results s2 x mode = Some w -> DenV x (Ok w)) /\
    match r with
    | Ok _ =>
        (forall x, needed root x -> to_compute x -> results s2 x mode <> None) /\
        (forall x, step_of x -> errors s2 x mode = None)
    | Err ex =>
        exists y, needed root y /\ culprit ext h e mode f0 y ex /\
          ((computing h y /\ to_compute y /\ results s2 y mode = None /\
            exists ex', ex = shown_error ext mode ex' /\ errors s2 y mode = Some ex' /\
            forall x, step_of x -> x <> y -> errors s2 x mode = None) \/
           (~ computing h y /\ forall x, step_of x -> errors s2 x mode = None))
    end.

  Lemma eval_left s1 s2 r0 :
    trace s1 = [] -> fitted s1 = f0 ->
    (forall x, step_of x -> results s1 x mode = None /\ errors s1 x mode = None) ->
    visit (eval_handler ext h e mode (fun s => (s, TOk tt))) size [] root s1 = (s2, r0) ->
    left_ok s2 (to_res r0).
  Proof using Hclosed Hroot Hacyclic.
    intros Ht Hf Hempty Ev.
    change (fun s : st => (s, TOk tt)) with (keep (V := V) (F := F)) in Ev.
    assert (Hi : Inv ext h e mode f0 root s1).
    { split.
      - intros o v Ho Hex _ Er. destruct (Hempty o (conj Ho Hex)) as [E _]. congruence.
      - intros o. left. rewrite Hf. reflexivity. }
    pose proof (none_cb (F := F) h root mode) as Hcb.
    change (fun s : st => (s, TOk tt)) with (keep (V := V) (F := F)) in Hcb.
    assert (HI : Inv25 ext h root e mode f0 True [] s1).
    { split; rewrite ?Ht; try (intros x []); try constructor.
      intros x Hx Hpx Hr. exfalso. apply Hr. apply Hempty. split; [exact Hpx|]. eapply to_compute_expr; eauto. }
    pose proof (visit25 ext h root e mode f0 (keep (V := V) (F := F)) Hcb True size s1 Hi HI) as H25.
    pose proof (visit_good ext h e mode f0 root keep (Hcb_sim h root mode keep Hcb) size [] root s1 (reach_refl _ _ _) Hi) as Hg.
    pose proof (visit_blame ext h e mode f0 root size [] root s1 (reach_refl _ _ _) Hi) as Hb.
    assert (Htr : Post
       (fun path s => (forall x, In x (trace s) -> is_expr (h x) = true /\ (In x path \/ results s x mode <> None)) /\
                      (forall x, step_of x -> results s x mode <> None -> In x (trace s) /\ ~ In x path) /\
                      (forall x, In x path -> to_compute x -> In x (trace s)))
       (fun s => forall x, step_of x -> results s x mode <> None -> In x (trace s))
       (fun _ _ => True) (fun s s' => incl (trace s) (trace s')) [] root s1
       (visit (eval_handler ext h e mode keep) size [] root s1)).
    { apply (visit_hoare ext h e mode f0 root keep (Hcb_sim h root mode keep Hcb)); auto.
      - intros s x Hx. exact Hx.
      - intros a b c H1 H2 x Hx. auto.
      - intros path s (_ & H2 & _) x Hx Hr. apply H2; auto.
      - intros o path s Hv Hno Hx (H1 & H2 & H5). split; [|split].
        + intros x Hxt. destruct (H1 x Hxt) as [He [Hin|Hr]]; simpl; auto.
        + intros x Hs Hr. destruct (H2 x Hs Hr) as [H3 H4]. split; [exact H3|]. intros [<-|Hin]; [|auto].
          destruct Hs as [_ Hs]. unfold is_expr_at in Hs. congruence.
        + intros x [<-|Hin] Htc; [|auto]. apply (to_compute_expr h e) in Htc. unfold is_expr_at in Htc. congruence.
      - intros o path s Hv Hno Hx (H1 & H2 & H5) _. split; [|exact I]. split; [|split].
        + intros x Hxt. destruct (H1 x Hxt) as [He [[<-|Hin]|Hr]]; auto. congruence.
        + intros x Hs Hr. destruct (H2 x Hs Hr) as [H3 H4]. split; [exact H3|]. intros Hin. apply H4. simpl. auto.
        + intros x Hin Htc. apply H5; simpl; auto.
      - intros o path s Hv Hno Htc Er (H1 & H2 & H5). split; [|intros x Hx; simpl; auto]. split; [|split].
        + intros x [<-|Hxt].
          * split; [apply (to_compute_expr h e); exact Htc|]. left. simpl. auto.
          * destruct (H1 x Hxt) as [He [Hin|Hr]]; simpl; auto.
        + intros x Hs Hr. destruct (H2 x Hs Hr) as [H3 H4]. split; [simpl; auto|].
          intros [<-|Hin]; [|auto]. cbn in Hr. congruence.
        + intros x [<-|Hin] Htx; simpl; auto.
      - intros o path s f Hv Htc HI1. split; [exact HI1|intros x Hx; exact Hx].
      - intros o path s f ex Hv Htc (H1 & H2 & H5) x Hs Hr. apply H2; auto.
      - intros o path s v s' Hv Hno Htc (H1 & H2 & H5) _ Ec. unfold keep in Ec. injection Ec as <-.
        split; [|split; [intros x Hx; exact Hx|exact I]]. split; [|split].
        + intros x Hxt. cbn in Hxt. destruct (H1 x Hxt) as [He [[<-|Hin]|Hr]]; (split; [exact He|]); auto.
          * right. cbn. unfold upd2. destruct (eqd o o); [|congruence]. destruct (eqd mode mode); congruence.
          * right. cbn. unfold upd2. destruct (eqd x o); [|exact Hr]. destruct (eqd mode mode); congruence.
        + intros x Hs Hr. cbn in Hr. unfold upd2 in Hr. destruct (eqd x o) as [->|Hxo].
          * split; [|exact Hno]. cbn. apply H5; simpl; auto.
          * destruct (H2 x Hs Hr) as [H3 H4]. split; [exact H3|]. intros Hin. apply H4. simpl. auto.
        + intros x Hin Htx. cbn. apply H5; simpl; auto.
      - reflexivity.
      - split; [|split].
        + intros x. rewrite Ht. intros [].
        + intros x Hs Hr. exfalso. apply Hr. apply Hempty. exact Hs.
        + intros x []. }
    rewrite Ev in *. pose proof (eval_no_circ_no_fuel ext h size root Hclosed Hroot Hacyclic e mode keep s1 s2 r0 Ev) as Hr.
    destruct Hr as [[v ->]|[ex ->]]; cbn [to_res].
    - destruct Hg as (f & Hd & Hi2 & _ & _). destruct H25 as (HI2 & _ & Hcomp). destruct Htr as ((H1 & H2 & _) & _ & _).
      cbn [Blame] in Hb. split; [eapply Den_V; exact Hd|]. split; [|split; [|split]].
      + intros x Hs Hrx. apply (i_needed _ _ _ _ _ _ _ _ _ HI2). apply H2; auto.
      + intros x w Hs Hrx. assert (Hn : needed root x /\ to_compute x).
        { apply (i_needed _ _ _ _ _ _ _ _ _ HI2). apply H2; auto. congruence. }
        apply (inv_values ext h e mode f0 root s2 Hi2 x w); tauto.
      + intros x Hn Htc. destruct (H1 x) as [_ [[]|Hrx]]; [|exact Hrx]. apply Hcomp; auto.
      + intros x Hs. rewrite Hb. apply Hempty. exact Hs.
    - cbn [Good Blame Post] in *. destruct H25 as [_ Hn2]. destruct Hb as (Hv & y & Hy & Hcul & Hb).
      split; [apply Den_V_err; exact Hg|]. split; [|split].
      + intros x Hs Hrx. apply Hn2. apply Htr; auto.
      + intros x w Hs Hrx. apply Hv; [apply Hs| |exact Hrx]. apply Hn2. apply Htr; auto. congruence.
      + exists y. split; [exact Hy|]. split; [exact Hcul|].
        destruct Hb as [(Hsame & Hnc)|(ex' & Hone & -> & Htc & Hc)].
        * right. split; [exact Hnc|]. intros x Hs. rewrite Hsame. apply Hempty. exact Hs.
        * left. split; [exact Hc|]. split; [exact Htc|]. 
          assert (Hys : step_of y) by (split; [apply (needed_part ext h e mode f0); exact Hy|apply (to_compute_expr h e); exact Htc]).
          split.
          { destruct (results s2 y mode) as [w|] eqn:Ew; [|reflexivity]. exfalso.
            pose proof (Hv y w (proj1 Hys) Htc Ew) as [d1 E1]. destruct Hcul as [Hce _]. apply Den_V_err in Hce. destruct Hce as [d2 E2].
            apply (ev_mono _ _ _ _ _ _ (d1 + d2)) in E1; [|lia]. apply (ev_mono _ _ _ _ _ _ (d1 + d2)) in E2; [|lia]. congruence. }
          exists ex'. split; [reflexivity|]. split.
          -- rewrite Hone. unfold upd2. destruct (eqd y y); [|congruence]. destruct (eqd mode mode); [reflexivity|congruence].
          -- intros x Hs Hxy. rewrite Hone. unfold upd2. destruct (eqd x y); [congruence|]. apply Hempty. exact Hs.
  Qed.
End Left.
