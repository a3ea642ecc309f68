(** C103, first part: evaluating a copy of an expression, whatever has been fitted. *)
From Verif Require Import Base L_dict M_traverse L_traverse M_expr L_expr1 L_expr2 L_expr3 L_expr4 L_expr5 L_expr6 L_expr7.
From Verif Require Import M_clone L_clone L_clone2 M_grid M_choicegraph L_conflicts M_estimator L_estimator1 L_estimator2 L_estimator3 L_estimator4 L_search1 M_search L_search2.
From Coq Require Import Relations.Relation_Operators Relations.Operators_Properties.
Set Default Proof Using "Type".
Open Scope string_scope.
Open Scope list_scope.
Open Scope nat_scope.

Section Transfer.
  Context {V K F : Type} `{EqD K}.
  Notation heap := (heap V K).
  Notation st := (st V F).
  Variable ext : externals V K F.
  Variable copy : V -> res V.
  Variable drop : bool.
  Variables (h h' : heap) (size size' : nat) (root root' : oid) (f : oid -> oid).
  Hypothesis Hcopy : forall v v', copy v = Ok v' -> v' = v.
  Hypothesis Hclone : copy_of copy drop h root h' size' root' f.
  Hypothesis Hclosed : closed h size.
  Hypothesis Hroot : root < size.
  Hypothesis Hacyclic : acyclic h root.

  Section Mode.
  Variable e : env V.
  Variable mode : string.
  Hypothesis Hunused : values_unused drop h root e mode.
  Variables f0 f0' : oid -> option (fit_attr V F).
  Hypothesis Hf0 : forall n, part_of h' root' n -> f0' n = f0 (f n).
  Notation Den := (L_expr2.Den ext h e mode f0).
  Notation Den' := (L_expr2.Den ext h' e mode f0').
  Notation DenV := (L_expr2.DenV ext h e mode f0).
  Notation DenV' := (L_expr2.DenV ext h' e mode f0').
  Notation needs := (L_expr4.needs ext h e mode f0).
  Notation needs' := (L_expr4.needs ext h' e mode f0').
  Notation needed := (L_expr4.needed ext h e mode f0).
  Notation needed' := (L_expr4.needed ext h' e mode f0').
  Notation part' := (part_of h' root').

  Lemma real_Den (g : heap) sz r (ff : oid -> option (fit_attr V F)) : mode <> "fit" -> closed g sz -> r < sz -> acyclic g r -> exists x, L_expr2.Den ext g e mode ff r x.
  Proof.
    intros M C R A. destruct (evaluate_value ext g sz r e mode (mk_st (fun _ _ => None) (fun _ _ => None) ff []) C R A) as (x & D & _).
    exists x. unfold real_mode in D. rewrite (proj2 (eqb_of_false mode "fit") M) in D. exact D.
  Qed.
  Hypothesis Hmode : mode <> "fit".

  Lemma t_Den n r : part' n -> Den (f n) r <-> Den' n r.
  Proof using Hcopy Hclone Hunused Hf0 Hclosed Hroot Hacyclic Hmode. clear - Hcopy Hclone Hunused Hf0 Hclosed Hroot Hacyclic Hmode.
    intros P. assert (C : forall x, Den (f n) x -> Den' n x).
    { intros x. eapply (clone_Den ext copy drop h h' root root' f Hcopy (co_part _ _ _ _ _ _ _ _ Hclone) (co_like _ _ _ _ _ _ _ _ Hclone) e mode Hunused f0 f0'); auto. }
    split; [apply C|]. intros D. pose proof (co_part _ _ _ _ _ _ _ _ Hclone n P) as Pf.
    destruct (real_Den h size (f n) f0 Hmode Hclosed (closed_part _ _ _ _ Hclosed Hroot Pf) (acyclic_sub _ _ _ Hacyclic Pf)) as (x & Dx).
    rewrite (Den_det _ _ _ _ _ _ _ _ D (C x Dx)). exact Dx.
  Qed.
  Lemma DenV_Den (g : heap) ff c v : L_expr2.DenV ext g e mode ff c (Ok v) <-> exists a, L_expr2.Den ext g e mode ff c (Ok (v, a)).
  Proof. clear.
    split; [|intros [a D]; eapply Den_V; exact D]. intros [d E]. unfold ev in E. destruct (den ext g e mode ff d c) as [[[w a]|]|] eqn:Ed; cbn [dbind fst] in E; try discriminate.
    injection E as <-. exists a. exists d. exact Ed.
  Qed.
  Lemma t_DenV n v : part' n -> DenV (f n) (Ok v) <-> DenV' n (Ok v).
  Proof using Hcopy Hclone Hunused Hf0 Hclosed Hroot Hacyclic Hmode. clear - Hcopy Hclone Hunused Hf0 Hclosed Hroot Hacyclic Hmode.
    intros P. rewrite !DenV_Den. split; intros [a D]; exists a; apply (t_Den n _ P); exact D.
  Qed.

  Lemma f2_in_l {A B} (R : A -> B -> Prop) l' l x : Forall2 R l' l -> In x l' -> exists y, In y l /\ R x y.
  Proof. clear. intros F2. induction F2 as [|a b l' l Rab F2 IH]; [intros []|]. intros [<-|I]; [exists b; simpl; auto|]. destruct (IH I) as (y & Iy & Ry). exists y. simpl. auto. Qed.
  Lemma f2_in_r {A B} (R : A -> B -> Prop) l' l y : Forall2 R l' l -> In y l -> exists x, In x l' /\ R x y.
  Proof. clear. intros F2. induction F2 as [|a b l' l Rab F2 IH]; [intros []|]. intros [<-|I]; [exists a; simpl; auto|]. destruct (IH I) as (x & Ix & Rx). exists x. simpl. auto. Qed.
  Lemma f2_snd {A} (l' l : list (A * oid)) : Forall2 (fun n o => fst n = fst o /\ f (snd n) = snd o) l' l -> Forall2 (fun n o => f n = o) (map snd l') (map snd l).
  Proof. clear. intros F2. induction F2 as [|a b l' l [_ R] F2 IH]; constructor; auto. Qed.
  Lemma f2_nth (l' l : list oid) i : Forall2 (fun n o => f n = o) l' l -> nth_error l i = option_map f (nth_error l' i).
  Proof. clear. intros F2. revert i. induction F2 as [|a b l' l R F2 IH]; intros [|i]; cbn; try rewrite R; auto. Qed.

  (** what a copy requires is copies of what the original requires *)
  Lemma needs_down n t : part' n -> needs' n t -> needs (f n) (f t).
  Proof using Hcopy Hclone Hunused Hf0 Hclosed Hroot Hacyclic Hmode. clear - Hcopy Hclone Hunused Hf0 Hclosed Hroot Hacyclic Hmode.
    intros P N. pose proof (co_like _ _ _ _ _ _ _ _ Hclone n P) as L.
    assert (Pc : forall c, In c (children (h' n)) -> part' c) by (intros c Ic; eapply reach_trans; [exact P|]; apply part_child; exact Ic).
    unfold L_expr4.needs in *.
    inversion L as [i' i name isX isY I E1 E2|ty b' b F1 E1 E2|ty b' b F1 E1 E2|n1 n2 n3 o1 o2 o3 R1 R2 R3 E1 E2|name m o ch R1 E1 E2|name df ch E1 E2|n1 n2 o1 o2 R1 R2 E1 E2|cls m o R1 E1 E2|v v' Ev E1 E2];
      rewrite <- E1 in N, Pc; cbn [children] in *.
    - destruct N as [Np N]. split; [replace (provided e i name isX isY) with (provided e i' name isX isY) by (unfold provided; destruct I; reflexivity); exact Np|].
      destruct I as [|m o D R1|o D|m o R1|n1 n2 n3 o1 o2 o3 R1 R2 R3|n1 n2 o1 o2 R1 R2|n1 n2 n3 o1 o2 o3 R1 R2 R3|m o R1|n1 n2 n3 n4 n5 n6 o1 o2 o3 o4 o5 o6 u R1 R2 R3 R4 R5 R6|m o R1|n1 n2 o1 o2 R1 R2|op fs fs' F1]; cbn [fields map snd] in *; subst.
      + exact N.
      + destruct N as [<-|[]]. left. reflexivity.
      + destruct N.
      + destruct N as [<-|[]]. left. reflexivity.
      + destruct N as [->|(cv & Dc & N)]; [left; reflexivity|]. right. exists cv. split; [apply t_DenV; [apply Pc; simpl; auto|exact Dc]|]. destruct N as [[T ->]|[T ->]]; auto.
      + destruct N as [->|(qv & key & ty & items & Dq & Ek & Em & N)]; [left; reflexivity|]. right.
        pose proof (co_like _ _ _ _ _ _ _ _ Hclone n2 (Pc n2 ltac:(simpl; auto))) as L2. rewrite Em in L2. inversion L2 as [|ty2 b' b F1 E3 E4| | | | | | |]; subst.
        exists qv, key, ty, b. split; [apply t_DenV; [apply Pc; simpl; auto|exact Dq]|]. split; [exact Ek|]. split; [auto|].
        rewrite (dget_rel f _ _ key F1). destruct N as [N|[N N2]]; rewrite N; [left; reflexivity|discriminate].
      + destruct N as [->|(qv & key & ty & items & Dq & Ek & Em & N)]; [left; reflexivity|]. right.
        pose proof (co_like _ _ _ _ _ _ _ _ Hclone n2 (Pc n2 ltac:(simpl; auto))) as L2. rewrite Em in L2. inversion L2 as [|ty2 b' b F1 E3 E4| | | | | | |]; subst.
        exists qv, key, ty, b. split; [apply t_DenV; [apply Pc; simpl; auto|exact Dq]|]. split; [exact Ek|]. split; [auto|].
        rewrite (dget_rel f _ _ key F1). destruct N as [N|[N N2]]; rewrite N; [left; reflexivity|]. right. injection N2 as ->. auto.
      + destruct N as [M ->]. auto.
      + unfold used_by_apply in *. destruct (fit_mode mode); [destruct u|destruct (eqb_of mode "score")]; simpl in *; intuition (subst; auto).
      + destruct N as [<-|[]]. left. reflexivity.
      + simpl in *. intuition (subst; auto).
      + destruct (f2_in_l _ _ _ t (f2_snd _ _ F1) N) as (y & Iy & <-). exact Iy.
    - destruct (f2_in_l _ _ _ t (f2_snd _ _ F1) N) as (y & Iy & <-). exact Iy.
    - destruct (f2_in_l _ _ _ t F1 N) as (y & Iy & <-). exact Iy.
    - simpl in *. intuition (subst; auto).
    - destruct N as [Nn (ty & items & Em & N)]. split; [exact Nn|].
      pose proof (co_like _ _ _ _ _ _ _ _ Hclone m (Pc m ltac:(simpl; auto))) as L2. rewrite Em in L2. inversion L2 as [| |ty2 b' b F1 E3 E4| | | | | |]; subst.
      exists ty, b. split; [auto|]. rewrite (f2_nth _ _ _ F1), N. reflexivity.
    - exact N.
    - destruct N as [->|(qv & key & ty & items & Dq & Ek & Em & N)]; [left; auto|]. right.
      pose proof (co_like _ _ _ _ _ _ _ _ Hclone n2 (Pc n2 ltac:(simpl; auto))) as L2. rewrite Em in L2. inversion L2 as [|ty2 b' b F1 E3 E4| | | | | | |]; subst.
      exists qv, key, ty, b. split; [apply t_DenV; [apply Pc; simpl; auto|exact Dq]|]. split; [exact Ek|]. split; [auto|]. rewrite (dget_rel f _ _ key F1), N. reflexivity.
    - destruct N as [<-|[]]. left. auto.
    - exact N.
  Qed.

  Lemma needs_up n o : part' n -> needs (f n) o -> (exists t, needs' n t /\ f t = o) \/ exists v, h o = OValue v.
  Proof using Hcopy Hclone Hunused Hf0 Hclosed Hroot Hacyclic Hmode. clear - Hcopy Hclone Hunused Hf0 Hclosed Hroot Hacyclic Hmode.
    intros P N. pose proof (co_like _ _ _ _ _ _ _ _ Hclone n P) as L.
    assert (Pc : forall c, In c (children (h' n)) -> part' c) by (intros c Ic; eapply reach_trans; [exact P|]; apply part_child; exact Ic).
    unfold L_expr4.needs in *.
    inversion L as [i' i name isX isY I E1 E2|ty b' b F1 E1 E2|ty b' b F1 E1 E2|n1 n2 n3 o1 o2 o3 R1 R2 R3 E1 E2|name m q ch R1 E1 E2|name df ch E1 E2|n1 n2 o1 o2 R1 R2 E1 E2|cls m q R1 E1 E2|v v' Ev E1 E2];
      rewrite <- E1 in Pc; rewrite <- E2 in N; cbn [children] in *.
    - destruct N as [Np N]. replace (provided e i name isX isY) with (provided e i' name isX isY) in Np by (unfold provided; destruct I; reflexivity).
      destruct I as [|m q D R1|q D|m q R1|n1 n2 n3 o1 o2 o3 R1 R2 R3|n1 n2 o1 o2 R1 R2|n1 n2 n3 o1 o2 o3 R1 R2 R3|m q R1|n1 n2 n3 n4 n5 n6 o1 o2 o3 o4 o5 o6 u R1 R2 R3 R4 R5 R6|m q R1|n1 n2 o1 o2 R1 R2|op fs fs' F1]; cbn [fields map snd] in *; subst.
      + destruct N.
      + destruct N as [<-|[]]. left. exists m. simpl. auto.
      + destruct N as [<-|[]]. right. destruct (Hunused eq_refl) as (_ & _ & Hp). eapply Hp; [apply (co_part _ _ _ _ _ _ _ _ Hclone n P)|symmetry; exact E2].
      + destruct N as [<-|[]]. left. exists m. simpl. auto.
      + left. destruct N as [->|(cv & Dc & N)]; [exists n1; auto|]. apply t_DenV in Dc; [|apply Pc; simpl; auto].
        destruct N as [[T ->]|[T ->]]; [exists n2|exists n3]; (split; [|reflexivity]); split; auto; right; exists cv; auto.
      + left. destruct N as [->|(qv & key & ty & items & Dq & Ek & Em & N)]; [exists n1; auto|]. apply t_DenV in Dq; [|apply Pc; simpl; auto].
        pose proof (co_like _ _ _ _ _ _ _ _ Hclone n2 (Pc n2 ltac:(simpl; auto))) as L2. rewrite Em in L2. inversion L2 as [|ty2 b' b F1 E3 E4| | | | | | |]; subst.
        rewrite (dget_rel f _ _ key F1) in N. destruct (dget key b') as [t|] eqn:Eg; cbn [option_map] in N; destruct N as [N|[N N2]]; try discriminate.
        injection N as <-. exists t. split; [|reflexivity]. split; auto. right. exists qv, key, ty, b'. auto 8.
      + left. destruct N as [->|(qv & key & ty & items & Dq & Ek & Em & N)]; [exists n1; auto|]. apply t_DenV in Dq; [|apply Pc; simpl; auto].
        pose proof (co_like _ _ _ _ _ _ _ _ Hclone n2 (Pc n2 ltac:(simpl; auto))) as L2. rewrite Em in L2. inversion L2 as [|ty2 b' b F1 E3 E4| | | | | | |]; subst.
        rewrite (dget_rel f _ _ key F1) in N. destruct (dget key b') as [t|] eqn:Eg; cbn [option_map] in N; destruct N as [N|[N N2]]; try discriminate.
        * injection N as <-. exists t. split; [|reflexivity]. split; auto. right. exists qv, key, ty, b'. auto 8.
        * injection N2 as <-. exists n3. split; [|reflexivity]. split; auto. right. exists qv, key, ty, b'. auto 8.
      + left. destruct N as [M ->]. exists m. auto.
      + left. assert (G : exists t, In t (used_by_apply mode n1 n2 n3 n4 n5 n6 u) /\ f t = o).
        { unfold used_by_apply in *. destruct (fit_mode mode); [destruct u|destruct (eqb_of mode "score")]; simpl in *;
            repeat match goal with N : _ \/ _ |- _ => destruct N as [N|N] end; try contradiction; subst; eexists; (split; [|reflexivity]); auto 8. }
        destruct G as (t & It & <-). exists t. auto.
      + destruct N as [<-|[]]. left. exists m. simpl. auto.
      + left. destruct N as [<-|[<-|[]]]; [exists n1|exists n2]; simpl; auto.
      + left. destruct (f2_in_r _ _ _ o (f2_snd _ _ F1) N) as (x & Ix & <-). exists x. auto.
    - left. destruct (f2_in_r _ _ _ o (f2_snd _ _ F1) N) as (x & Ix & <-). exists x. auto.
    - left. destruct (f2_in_r _ _ _ o F1 N) as (x & Ix & <-). exists x. auto.
    - left. subst. destruct N as [<-|[<-|[<-|[]]]]; [exists n1|exists n2|exists n3]; simpl; auto.
    - left. destruct N as [Nn (ty & items & Em & N)]. subst.
      pose proof (co_like _ _ _ _ _ _ _ _ Hclone m (Pc m ltac:(simpl; auto))) as L2. rewrite Em in L2. inversion L2 as [| |ty2 b' b F1 E3 E4| | | | | |]; subst.
      rewrite (f2_nth _ _ _ F1) in N. destruct (nth_error b' _) as [t|] eqn:Et; [|discriminate]. injection N as <-. exists t. split; [|reflexivity]. split; [exact Nn|]. exists ty, b'. auto.
    - destruct N.
    - left. subst. destruct N as [->|(qv & key & ty & items & Dq & Ek & Em & N)]; [exists n1; auto|]. apply t_DenV in Dq; [|apply Pc; simpl; auto].
      pose proof (co_like _ _ _ _ _ _ _ _ Hclone n2 (Pc n2 ltac:(simpl; auto))) as L2. rewrite Em in L2. inversion L2 as [|ty2 b' b F1 E3 E4| | | | | | |]; subst.
      rewrite (dget_rel f _ _ key F1) in N. destruct (dget key b') as [t|] eqn:Eg; cbn [option_map] in N; [|discriminate].
      injection N as <-. exists t. split; [|reflexivity]. right. exists qv, key, ty, b'. auto 8.
    - left. subst. destruct N as [<-|[]]. exists m. simpl. auto.
    - destruct N.
  Qed.

  Lemma needed_down n : needed' root' n -> needed root (f n).
  Proof using Hcopy Hclone Hunused Hf0 Hclosed Hroot Hacyclic Hmode. clear - Hcopy Hclone Hunused Hf0 Hclosed Hroot Hacyclic Hmode.
    intros N. induction N as [|x t N IH Nt]; [rewrite (co_root _ _ _ _ _ _ _ _ Hclone); constructor|].
    econstructor; [exact IH|]. apply needs_down; [|exact Nt]. eapply L_expr4.needed_part; exact N.
  Qed.
  Lemma needed_up o : needed root o -> (exists n, needed' root' n /\ f n = o) \/ exists v, h o = OValue v.
  Proof using Hcopy Hclone Hunused Hf0 Hclosed Hroot Hacyclic Hmode. clear - Hcopy Hclone Hunused Hf0 Hclosed Hroot Hacyclic Hmode.
    intros N. induction N as [|x t N IH Nt]; [left; exists root'; split; [constructor|apply (co_root _ _ _ _ _ _ _ _ Hclone)]|].
    destruct IH as [(n & N' & <-)|(v & Ev)].
    - destruct (needs_up n t (L_expr4.needed_part _ _ _ _ _ _ _ N') Nt) as [(m & Nm & <-)|C]; [|right; exact C]. left. exists m. split; [econstructor; eauto|reflexivity].
    - unfold L_expr4.needs in Nt. rewrite Ev in Nt. destruct Nt.
  Qed.
  End Mode.

  (** ** Evaluations *)
  Definition linked (s' s : st) : Prop := forall n, part_of h' root' n -> fitted s' n = fitted s (f n).

  Lemma real_not_fit requested : real_mode requested <> "fit".
  Proof. clear. unfold real_mode. destruct (eqb_of requested "fit") eqn:E; [discriminate|]. apply eqb_of_false in E. exact E. Qed.

  Lemma t_answer requested e (s' s : st) : values_unused drop h root e (real_mode requested) -> linked s' s ->
    snd (evaluate ext h' size' root' requested e true s') = snd (evaluate ext h size root requested e true s).
  Proof using Hcopy Hclone Hclosed Hroot Hacyclic. clear - Hcopy Hclone Hclosed Hroot Hacyclic.
    intros Hun L. destruct (evaluate_value ext h size root e requested s Hclosed Hroot Hacyclic) as (r & D & ->).
    destruct (evaluate_value ext h' size' root' e requested s' (co_closed _ _ _ _ _ _ _ _ Hclone) (co_root_lt _ _ _ _ _ _ _ _ Hclone) (co_acyclic _ _ _ _ _ _ _ _ Hclone)) as (r' & D' & ->).
    f_equal. eapply Den_det; [exact D'|]. apply (t_Den e _ Hun (fitted s) (fitted s') L (real_not_fit requested) root' r (reach_refl _ _ _)).
    rewrite (co_root _ _ _ _ _ _ _ _ Hclone). exact D.
  Qed.

  Lemma stateful_like n : part_of h' root' n -> stateful h' n <-> stateful h (f n).
  Proof using Hclone. clear - Hclone.
    intros P. pose proof (co_like _ _ _ _ _ _ _ _ Hclone n P) as L. unfold stateful. destruct L as [i' i name isX isY I| | | | | | | |]; try tauto. destruct I; tauto.
  Qed.
  Lemma stateful_node (g : heap) o : stateful g o -> is_node g o.
  Proof. clear. unfold stateful, is_node. destruct (g o); auto. Qed.
  Lemma to_compute_like e n : part_of h' root' n -> to_compute h' e n <-> to_compute h e (f n).
  Proof using Hclone. clear - Hclone.
    intros P. pose proof (co_like _ _ _ _ _ _ _ _ Hclone n P) as L. unfold to_compute. destruct L as [i' i name isX isY I| | | | | | | |]; try tauto.
    unfold provided. destruct I; tauto.
  Qed.
  Lemma stateful_decide (g : heap) o : {stateful g o} + {~ stateful g o}.
  Proof. clear. unfold stateful. destruct (g o) as [[]| | | | | | | |]; auto. Qed.

  Lemma t_fitted requested e (s' s : st) v : values_unused drop h root e (real_mode requested) -> linked s' s ->
    trace s' = [] -> trace s = [] -> snd (evaluate ext h size root requested e true s) = Ok v ->
    linked (fst (evaluate ext h' size' root' requested e true s')) (fst (evaluate ext h size root requested e true s)).
  Proof using Hcopy Hclone Hclosed Hroot Hacyclic. clear - Hcopy Hclone Hclosed Hroot Hacyclic.
    intros Hun L T' T E. pose proof (t_answer requested e s' s Hun L) as E'. rewrite E in E'.
    pose proof (co_closed _ _ _ _ _ _ _ _ Hclone) as Hc1. pose proof (co_root_lt _ _ _ _ _ _ _ _ Hclone) as Hr1. pose proof (co_acyclic _ _ _ _ _ _ _ _ Hclone) as Ha1.
    destruct (computed_exactly_needed ext h size root e requested s Hclosed Hroot Hacyclic T) as [N1 N2].
    destruct (computed_exactly_needed ext h' size' root' e requested s' Hc1 Hr1 Ha1 T') as [N1' N2'].
    destruct (evaluate_keeps ext h size root requested e true s) as [_ Hk]. destruct (evaluate_keeps ext h' size' root' requested e true s') as [_ Hk'].
    pose proof (evaluate_exact ext h size root requested e s v Hclosed Hroot Hacyclic T E) as X. pose proof (evaluate_exact ext h' size' root' requested e s' v Hc1 Hr1 Ha1 T' E') as X'.
    set (out := fst (evaluate ext h size root requested e true s)) in *. set (out' := fst (evaluate ext h' size' root' requested e true s')) in *.
    intros n P. destruct (stateful_decide h (f n)) as [S|S].
    2:{ destruct (Hk (f n)) as [->|(_ & C & _)]; [|contradiction]. destruct (Hk' n) as [->|(_ & C & _)]; [apply L; exact P|]. apply stateful_like in C; [contradiction|exact P]. }
    assert (TR : In n (trace out') <-> In (f n) (trace out)).
    { split; intros I.
      - destruct (N1' n I) as [Nn Cn]. apply (N2 v E); [|apply to_compute_like; assumption]. apply (needed_down e _ Hun (fitted s) (fitted s') L (real_not_fit requested)). exact Nn.
      - destruct (N1 (f n) I) as [Nn Cn]. apply (N2' v E'); [|apply to_compute_like; assumption].
        destruct (needed_up e _ Hun (fitted s) (fitted s') L (real_not_fit requested) _ Nn) as [(m & Nm & Em)|(w & Ew)].
        + rewrite (co_sharing _ _ _ _ _ _ _ _ Hclone n m P (L_expr4.needed_part _ _ _ _ _ _ _ Nm)); [exact Nm|symmetry; exact Em|apply stateful_node; exact S].
        + unfold stateful in S. rewrite Ew in S. destruct S. }
    destruct (in_dec Nat.eq_dec n (trace out')) as [I|I].
    - destruct (X' n I) as (w' & D'). destruct (X (f n) (proj1 TR I)) as (w & D).
      apply (t_Den e _ Hun (fitted s) (fitted s') L (real_not_fit requested) n _ P) in D. pose proof (Den_det _ _ _ _ _ _ _ _ D D') as Q. injection Q as _ Q. symmetry. exact Q.
    - destruct (Hk (f n)) as [->|(_ & _ & C)]; [|tauto]. destruct (Hk' n) as [->|(_ & _ & C)]; [apply L; exact P|contradiction].
  Qed.

  (** ** The first applied estimator, and methods *)
  Hypothesis Hvalues : plain_values drop h root.
  Variable has_method : F -> string -> bool.
  Variables declares declares' : oid -> string -> bool.
  Hypothesis Hdeclares : forall n, part_of h' root' n -> declares' n = declares (f n).

  Lemma first_plain x : plain_at h x -> first_apply_handler h x = yield_all (children (h x)) (fun _ => GRet tt).
  Proof. clear. unfold plain_at, first_apply_handler. destruct (h x); try contradiction; reflexivity. Qed.
  Lemma first_edges (g : heap) o : gen_all (fun t => clos_trans oid (child g) o t) (first_apply_handler g o).
  Proof. clear.
    assert (D : gen_all (fun t => clos_trans oid (child g) o t) (yield_all (children (g o)) (fun _ => GRet tt) : gen unit (option oid))).
    { apply gen_all_yield_all; [|intros; exact Logic.I]. intros t It. apply t_step. exact It. }
    unfold first_apply_handler. destruct (g o) as [[]| | | |nm outs ch| | | |] eqn:Eo; try exact D; try exact Logic.I.
    unfold nth_outcome. destruct (g outs) as [| |ty items| | | | | |] eqn:Eu; try exact Logic.I. destruct (nth_error items (default_or 0 ch)) as [t|] eqn:Et; [|exact Logic.I].
    split; [|intros; exact Logic.I]. eapply t_trans; apply t_step; unfold child; [rewrite Eo; left; reflexivity|]. rewrite Eu. cbn [children]. eapply nth_error_In. exact Et.
  Qed.
  Lemma first_sim n o : Rn h' root' f n o -> gsim (first_apply_handler h) (RO h' root' f) (Rn h' root' f) (first_apply_handler h' n) (first_apply_handler h o).
  Proof using Hclone Hclosed Hroot Hacyclic Hvalues. clear - Hclone Hclosed Hroot Hacyclic Hvalues.
    intros [P <-]. pose proof (co_like _ _ _ _ _ _ _ _ Hclone n P) as L.
    pose proof (sim_children copy drop h h' size size' root root' f Hclone Hclosed Hroot Hacyclic Hvalues (first_apply_handler h) first_plain (first_edges h) (RO h' root' f) n (fun _ => GRet tt) (fun _ => GRet tt) P (fun _ _ => sim_ret _ _ _ _)) as SC.
    unfold first_apply_handler at 2 3.
    inversion L as [i' i name isX isY I E1 E2|ty b' b F1 E1 E2|ty b' b F1 E1 E2|n1 n2 n3 o1 o2 o3 R1 R2 R3 E1 E2|name m o ch R1 E1 E2|name df ch E1 E2|n1 n2 o1 o2 R1 R2 E1 E2|cls m o R1 E1 E2|v v' Ev E1 E2];
      rewrite <- E1, <- E2 in SC; try exact SC.
    - destruct I; try exact SC. apply sim_put; [split; [exact P|reflexivity]|constructor].
    - assert (Pm : part_of h' root' m) by (eapply reach_trans; [exact P|]; apply part_child; rewrite <- E1; left; reflexivity). subst o.
      pose proof (co_like _ _ _ _ _ _ _ _ Hclone m Pm) as L2. unfold nth_outcome. inversion L2 as [? ? ? ? ? ? E3 E4|? ? ? ? E3 E4|ty b' b F1 E3 E4| | | | | |]; try constructor.
      rewrite (f2_nth _ _ _ F1). destruct (nth_error b' (default_or 0 ch)) as [t|] eqn:Et; cbn [option_map]; [|constructor].
      apply sim_yield; [split; [|reflexivity]|constructor]. eapply reach_trans; [exact Pm|]. apply part_child. rewrite <- E3. cbn [children]. eapply nth_error_In. exact Et.
  Qed.
  Lemma t_first : find_first_apply h size root = match find_first_apply h' size' root' with Ok o => Ok (option_map f o) | Err x => Err x end /\
    (forall n, find_first_apply h' size' root' = Ok (Some n) -> part_of h' root' n).
  Proof using Hclone Hclosed Hroot Hacyclic Hvalues. clear - Hclone Hclosed Hroot Hacyclic Hvalues.
    assert (R0 : Rn h' root' f root' root) by (split; [apply reach_refl|apply (co_root _ _ _ _ _ _ _ _ Hclone)]).
    assert (E' : exists s1 r, visit (first_apply_handler h') size' [] root' None = (s1, r) /\ ((exists v, r = TOk v) \/ exists e, r = TErr e)).
    { destruct (ends h' size' _ (first_edges h') root' None) as [(s1 & v & E)|(s1 & e & E)]; try rewrite E; eauto 7; [apply (co_closed _ _ _ _ _ _ _ _ Hclone)|apply (co_root_lt _ _ _ _ _ _ _ _ Hclone)|apply (co_acyclic _ _ _ _ _ _ _ _ Hclone)]. }
    assert (E : exists s1 r, visit (first_apply_handler h) size [] root None = (s1, r) /\ ((exists v, r = TOk v) \/ exists e, r = TErr e)).
    { destruct (ends h size _ (first_edges h) root None Hclosed Hroot Hacyclic) as [(s1 & v & E)|(s1 & e & E)]; rewrite E; eauto 7. }
    destruct E' as (s1' & r' & E' & C'), E as (s1 & r & E & C).
    pose proof (visit_big _ _ _ _ _ _ _ E' C') as B'. pose proof (visit_big _ _ _ _ _ _ _ E C) as B.
    destruct (simulation _ _ (RO h' root' f) (Rn h' root' f) first_sim _ _ _ _ B' _ (first_sim _ _ R0) None Logic.I) as (s2 & B2 & R2).
    destruct (big_det _ _ _ _ _ B _ _ B2) as [-> ->]. unfold find_first_apply, find_with. rewrite E, E'. destruct s1' as [n|], s2 as [o|]; try contradiction.
    - destruct R2 as [P <-]. destruct C' as [[v ->]|[x ->]]; cbn; (split; [reflexivity|]); [discriminate|]. intros q Q. injection Q as <-. exact P.
    - destruct C' as [[v ->]|[x ->]]; (split; [reflexivity|discriminate]).
  Qed.

  Lemma t_supported (s' s : st) : linked s' s ->
    supported_modes h' size' has_method declares' root' (fitted s') = supported_modes h size has_method declares root (fitted s).
  Proof using Hclone Hclosed Hroot Hacyclic Hvalues Hdeclares. clear - Hclone Hclosed Hroot Hacyclic Hvalues Hdeclares.
    intros L. destruct t_first as [E P]. unfold supported_modes. rewrite E. destruct (find_first_apply h' size' root') as [[n|]|x]; cbn [bind option_map]; try reflexivity.
    rewrite (L n (P n eq_refl)), (Hdeclares n (P n eq_refl)). reflexivity.
  Qed.

  Lemma t_getattr flag m e (s' s : st) : values_unused drop h root e (real_mode m) -> linked s' s ->
    let out' := getattr_call ext h' size' has_method declares' root' flag m e s' in
    let out := getattr_call ext h size has_method declares root flag m e s in
    snd out' = snd out /\ snd (fst out') = snd (fst out) /\ (forall v, snd out = Ok v -> linked (fst (fst out')) (fst (fst out))).
  Proof using Hcopy Hclone Hclosed Hroot Hacyclic Hvalues Hdeclares. clear - Hcopy Hclone Hclosed Hroot Hacyclic Hvalues Hdeclares.
    intros Hun L. cbn zeta. unfold getattr_call. rewrite (t_supported s' s L). destruct (supported_modes h size has_method declares root (fitted s)) as [ms|x]; [|repeat split; discriminate].
    destruct (mem m ms); [|repeat split; discriminate]. unfold eval_in_mode. destruct (negb (fitting m) && negb flag); [repeat split; discriminate|].
    pose proof (t_answer m e (reset s') (reset s) Hun L) as A. pose proof (t_fitted m e (reset s') (reset s)) as T.
    destruct (evaluate ext h' size' root' m e true (reset s')) as [o' r'], (evaluate ext h size root m e true (reset s)) as [o r]. cbn [fst snd] in *. subst r'.
    split; [reflexivity|]. split; [reflexivity|]. intros v ->. apply (T v Hun L); reflexivity.
  Qed.
  Lemma t_method flag m e (s' s : st) : values_unused drop h root e (real_mode m) -> linked s' s ->
    let out' := method ext h' size' has_method declares' root' flag m e s' in
    let out := method ext h size has_method declares root flag m e s in
    snd out' = snd out /\ snd (fst out') = snd (fst out) /\ (forall v, snd out = Ok v -> linked (fst (fst out')) (fst (fst out))).
  Proof using Hcopy Hclone Hclosed Hroot Hacyclic Hvalues Hdeclares. clear - Hcopy Hclone Hclosed Hroot Hacyclic Hvalues Hdeclares.
    intros Hun L. cbn zeta. unfold method. destruct (eqb_of m "fit") eqn:Em; [|apply t_getattr; assumption].
    apply eqb_of_eq in Em. subst m. pose proof (t_getattr flag "fit_transform" e s' s Hun L) as T. cbn zeta in T.
    destruct (getattr_call ext h' size' has_method declares' root' flag "fit_transform" e s') as [[o' b'] r'], (getattr_call ext h size has_method declares root flag "fit_transform" e s) as [[o b] r].
    cbn [fst snd] in T. destruct T as (-> & -> & T). destruct r as [v|x]; cbn [fst snd]; (split; [reflexivity|]); (split; [reflexivity|]); [|discriminate]. intros _ _. apply (T v eq_refl).
  Qed.
End Transfer.
