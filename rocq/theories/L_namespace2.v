(** Evaluating with the data of the variables: [get_data] and [eval]. *)
From Verif Require Import Base L_dict M_traverse L_traverse M_expr L_expr1 L_expr2 L_expr3 L_expr4 L_expr5 L_expr6 L_expr7.
From Verif Require Import M_grid M_choicegraph L_conflicts M_clone M_check M_namespace L_estimator1 L_estimator2 L_namespace.
From Coq Require Import Relations.Relation_Operators Relations.Operators_Properties.
Open Scope string_scope.
Open Scope list_scope.
Open Scope nat_scope.
Set Default Proof Using "Type".

(** ** Specification *)
Section Spec.
  Context {V K : Type}.
  Variable h : heap V K.
  Variable root : oid.

  (** [n] is the name of a variable of the expression, created with the value [c]. *)
  Definition variable (n : string) (c : option oid) : Prop :=
    exists o isX isY, part_of h root o /\ h o = OExpr (IVar c) (Some n) isX isY.

  (** The environment has the name of a variable. *)
  Definition names_variable (e : env V) : Prop :=
    exists n c, variable n c /\ dget n e <> None.
End Spec.

(** The same objects, except that variables may have been created with other values. *)
Definition same_but_values {V K} (h1 h2 : heap V K) : Prop :=
  forall o, match h1 o with
            | OExpr (IVar _) name isX isY => exists value, h2 o = OExpr (IVar value) name isX isY
            | ob => h2 o = ob
            end.

(** ** Proofs *)
Lemma uniform {A} (P : nat -> A -> Prop) : (forall k k' o, k <= k' -> P k o -> P k' o) ->
  forall l, (forall o, In o l -> exists k, P k o) -> exists k, forall o, In o l -> P k o.
Proof.
  intros Hm. induction l as [|a l IH]; intros Hl; [exists 0; intros o []|].
  destruct IH as [k1 H1]; [intros o Ho; apply Hl; right; exact Ho|]. destruct (Hl a (or_introl eq_refl)) as [k2 H2].
  exists (k1 + k2). intros o [<-|Ho].
  - eapply Hm; [|exact H2]. lia.
  - eapply Hm; [|apply H1; exact Ho]. lia.
Qed.

Lemma inner_part {V K} (h : heap V K) root o : reach h (var_at h) root o -> part_of h root o.
Proof. intros Hr. induction Hr; [constructor|]. econstructor; eauto; intros []. Qed.

Section Data.
  Context {V K F : Type} `{EqD K}.
  Variable ext : externals V K F.
  Variable raw : oid -> V.
  Variable h : heap V K.
  Variable size : nat.
  Variable root : oid.
  Hypothesis Hc : closed h size.
  Hypothesis Hr : root < size.
  Hypothesis Ha : acyclic h root.

  Lemma add_sound : forall l d n v, dget n (fold_left (add_value raw h) l d) = Some v ->
    dget n d = Some v \/ exists o c isX isY, In o l /\ h o = OExpr (IVar (Some c)) (Some n) isX isY /\ v = raw c.
  Proof.
    induction l as [|o l IH]; intros d n v E; [left; exact E|]. cbn [fold_left] in E.
    apply IH in E. destruct E as [E|(o' & c & x & y & Hin & Eo & ->)].
    - unfold add_value in E. destruct (h o) as [[[c|]| | | | | | | |] [m|] x y| | | | | | | |] eqn:Eo; auto.
      destruct (eqd m n) as [->|Hne].
      + rewrite dget_dset_eq in E. injection E as <-. right. exists o, c, x, y. split; [left; reflexivity|]. auto.
      + rewrite dget_dset_neq in E by auto. auto.
    - right. exists o', c, x, y. split; [right; exact Hin|]. auto.
  Qed.

  Lemma add_keeps : forall l d n, dget n d <> None -> dget n (fold_left (add_value raw h) l d) <> None.
  Proof.
    induction l as [|o l IH]; intros d n Hd; [exact Hd|]. cbn [fold_left]. apply IH.
    unfold add_value. destruct (h o) as [[[c|]| | | | | | | |] [m|] x y| | | | | | | |]; auto.
    destruct (eqd m n) as [->|Hne]; [rewrite dget_dset_eq; discriminate|]. rewrite dget_dset_neq by auto. exact Hd.
  Qed.

  Lemma add_complete : forall l d n o c x y, In o l -> h o = OExpr (IVar (Some c)) (Some n) x y ->
    dget n (fold_left (add_value raw h) l d) <> None.
  Proof.
    induction l as [|o' l IH]; intros d n o c x y Hin Eo; [contradiction|]. cbn [fold_left].
    destruct Hin as [->|Hin]; [|eapply IH; eauto].
    apply add_keeps. unfold add_value. rewrite Eo. rewrite dget_dset_eq. discriminate.
  Qed.

  Lemma get_data_ok (Hn : no_conflict h root) : exists data, get_data raw h size root = Ok data /\
    forall n v, dget n data = Some v <-> exists c, variable h root n (Some c) /\ v = raw c.
  Proof using Hc Hr Ha.
    destruct (acyclic_nodes h size root Hc Hr Ha) as (ns & En & _ & Hns).
    unfold get_data. rewrite En. cbn [bind]. eexists. split; [reflexivity|]. intros n v. split.
    - intros E. apply add_sound in E. destruct E as [E|(o & c & x & y & Hin & Eo & ->)]; [discriminate|].
      exists c. split; [|reflexivity]. exists o, x, y. split; [apply Hns; exact Hin|exact Eo].
    - intros (c & (o & x & y & Ho & Eo) & ->).
      assert (Hin : In o ns) by (apply Hns; split; [exact Ho|unfold is_expr_at; rewrite Eo; reflexivity]).
      pose proof (add_complete ns [] n o c x y Hin Eo) as Hne.
      destruct (dget n (fold_left (add_value raw h) ns [])) as [v|] eqn:E; [|contradiction].
      apply add_sound in E. destruct E as [E|(o' & c' & x' & y' & Hin' & Eo' & ->)]; [discriminate|].
      assert (o' = o).
      { apply (Hn o' o (Named n)); [apply Hns; exact Hin'|exact Ho| |]; unfold carries; [rewrite Eo'|rewrite Eo]; reflexivity. }
      subst o'. rewrite Eo in Eo'. injection Eo' as <- _ _. reflexivity.
  Qed.

  Lemma provided_ok e : exists b, var_values_provided h size root e = Ok b /\ (b = true <-> names_variable h root e).
  Proof using Hc Hr Ha.
    destruct (acyclic_nodes h size root Hc Hr Ha) as (ns & En & _ & Hns).
    unfold var_values_provided. rewrite En. cbn [bind]. eexists. split; [reflexivity|].
    rewrite existsb_exists. unfold var_names. split.
    - intros (n & Hin & Hm). apply in_flat_map in Hin. destruct Hin as (o & Ho & Hin).
      destruct (h o) as [[c| | | | | | | |] [m|] x y| | | | | | | |] eqn:Eo; try contradiction.
      destruct Hin as [->|[]]. exists n, c. split; [exists o, x, y; split; [apply Hns; exact Ho|exact Eo]|].
      apply mem_true in Hm. apply dget_in_keys in Hm. destruct Hm as [v ->]. discriminate.
    - intros (n & c & (o & x & y & Ho & Eo) & Hne). exists n. split.
      + apply in_flat_map. exists o. rewrite Eo. split; [|left; reflexivity].
        apply Hns. split; [exact Ho|unfold is_expr_at; rewrite Eo; reflexivity].
      + apply mem_true. apply dget_in_keys. destruct (dget n e) as [v|]; [eauto|contradiction].
  Qed.
End Data.

Section Eval.
  Context {V K F : Type} `{EqD K}.
  Variable ext : externals V K F.
  Variable of_bool : bool -> V.
  Hypothesis Hbool : forall b, truthy ext (of_bool b) = Ok b.
  Notation FLAG := "_skrub_use_var_values".

  Definition valid (h : heap V K) (size : nat) (root : oid) : Prop :=
    closed h size /\ root < size /\ acyclic h root.

  Lemma first_provided_dset (e : env V) k v names : ~ In k names ->
    first_provided (dset k v e) names = first_provided e names.
  Proof.
    induction names as [|n names IH]; intros Hn; [reflexivity|]. cbn [first_provided].
    rewrite dget_dset_neq by (intros ->; apply Hn; left; reflexivity).
    rewrite IH by (intros Hin; apply Hn; right; exact Hin). reflexivity.
  Qed.

  (** Reserved names and the names of nodes. *)
  Lemma given_flag (h : heap V K) root e v o : user_names h root -> part_of h root o ->
    given h (dset FLAG v e) o = given h e o.
  Proof.
    intros Hu Ho. unfold given. pose proof (Hu o) as Huo. unfold carries in Huo.
    destruct (h o) as [i name isX isY|ty items|ty items|a b c|name outs ch|name df ch|c m|cls p|w]; auto.
    - unfold provided. apply first_provided_dset. rewrite !in_app_iff. intros [Hx|[Hy|Hn]].
      + destruct isX; [|contradiction]. destruct Hx as [Hx|[]]. discriminate.
      + destruct isY; [|contradiction]. destruct Hy as [Hy|[]]. discriminate.
      + assert (name = Some FLAG) as ->.
        { destruct i, name; try contradiction; destruct Hn as [->|[]]; reflexivity. }
        apply (Huo FLAG Ho eq_refl). simpl. tauto.
    - destruct name as [n|]; auto. rewrite dget_dset_neq; [reflexivity|]. intros ->.
      apply (Huo FLAG Ho eq_refl). simpl. tauto.
    - destruct name as [n|]; auto. rewrite dget_dset_neq; [reflexivity|]. intros ->.
      apply (Huo FLAG Ho eq_refl). simpl. tauto.
  Qed.

  Lemma plain_depth (h : heap V K) size root raw e mode f : valid h size root -> plain_data ext h root raw ->
    exists k, forall o c name isX isY, part_of h root o -> h o = OExpr (IVar (Some c)) name isX isY ->
      den ext h e mode f k c = Some (Ok (raw c, f c)).
  Proof.
    intros (Hc & Hr & Ha) Hp. destruct (acyclic_nodes h size root Hc Hr Ha) as (ns & _ & _ & Hns).
    destruct (uniform (fun k o => forall c name isX isY, h o = OExpr (IVar (Some c)) name isX isY ->
      den ext h e mode f k c = Some (Ok (raw c, f c)))) with (l := ns) as [k Hk].
    - intros k k' o Hle Hk c name isX isY Eo. eapply den_mono; [exact Hle|]. eapply Hk; eauto.
    - intros o Hin. destruct (h o) as [[[c|]| | | | | | | |] name isX isY| | | | | | | |] eqn:Eo;
        try (exists 0; intros; congruence).
      destruct (Hp o c name isX isY (proj1 (proj1 (Hns o) Hin)) Eo e mode f) as [k Hk]. exists k.
      intros c' name' x y E. injection E as <- _ _ _. exact Hk.
    - exists k. intros o c name isX isY Ho Eo. eapply Hk; eauto. apply Hns. split; [exact Ho|].
      unfold is_expr_at. rewrite Eo. reflexivity.
  Qed.

  Lemma plain_det (h : heap V K) root raw e mode f o c name isX isY :
    plain_data ext h root raw -> part_of h root o -> h o = OExpr (IVar (Some c)) name isX isY ->
    forall d r, den ext h e mode f d c = Some r -> exists a, r = Ok (raw c, a).
  Proof.
    intros Hp Ho Eo d r Ed. exists (f c).
    eapply (Den_det ext h e mode f c); [exists d; exact Ed|]. eapply Hp; eauto.
  Qed.

  Lemma mode_ok_same m (ob : obj V K) : mode_ok ext m m ob.
  Proof. destruct ob as [[]| | | |? ? []|? ? []| | |]; cbn; auto. Qed.

  (** *** The preview and the data *)
  Lemma eval_on_data (h : heap V K) size root raw f0 s1 s2 :
    valid h size root -> no_conflict h root -> user_names h root -> vars_named h root ->
    plain_data ext h root raw -> mode_blind ext h root -> Inv ext h [] "preview" f0 root s1 ->
    exists data, get_data raw h size root = Ok data /\
      (forall n v, dget n data = Some v <-> exists c, variable h root n (Some c) /\ v = raw c) /\
      same_outcome ext (snd (eval ext of_bool h size root None s1))
                       (snd (eval ext of_bool h size root (Some data) s2)).
  Proof using Hbool.
    intros Hval Hn Hu Hnam Hp Hb Hi. destruct Hval as (Hc & Hr & Ha).
    destruct (get_data_ok raw h size root Hc Hr Ha Hn) as (data & Ed & Hd).
    exists data. split; [exact Ed|]. split; [exact Hd|].
    destruct (provided_ok h size root Hc Hr Ha data) as (b & Eb & _).
    unfold eval. rewrite Eb. set (e := dset FLAG (of_bool (negb b)) data).
    destruct (keep_value ext h size root [] "preview" f0 s1 Hc Hr Ha Hi) as (r1 & D1 & ->).
    destruct (evaluate_value ext h size root e "fit_transform" s2 Hc Hr Ha) as (r2 & D2 & ->).
    change (real_mode "preview") with "preview" in D1. change (real_mode "fit_transform") with "fit_transform" in D2.
    destruct (plain_depth h size root raw e "fit_transform" (fitted s2) (conj Hc (conj Hr Ha)) Hp) as [k Hk].
    assert (Hname : forall n v, dget n data = Some v -> exists o c x y, part_of h root o /\ h o = OExpr (IVar (Some c)) (Some n) x y).
    { intros n v En. apply Hd in En. destruct En as (c & (o & x & y & Ho & Eo) & _). eauto 6. }
    assert (Hres : forall n, In n ["_skrub_X"; "_skrub_y"; FLAG] -> dget n data = None).
    { intros n Hin. destruct (dget n data) as [v|] eqn:En; [|reflexivity]. exfalso.
      destruct (Hname n v En) as (o & c & x & y & Ho & Eo). apply (Hu o n Ho); [|exact Hin].
      unfold carries. rewrite Eo. reflexivity. }
    assert (Hoth : forall o n, part_of h root o -> carries h o (Named n) -> ~ var_at h o -> dget n data = None).
    { intros o n Ho Hca Hnv. destruct (dget n data) as [v|] eqn:En; [|reflexivity]. exfalso.
      destruct (Hname n v En) as (o' & c & x & y & Ho' & Eo'). apply Hnv.
      rewrite (Hn o o' (Named n) Ho Ho' Hca); [unfold var_at; rewrite Eo'; exact I|].
      unfold carries. rewrite Eo'. reflexivity. }
    assert (Hgiv : forall o, part_of h root o -> given h e o = None).
    { intros o Ho. unfold e. rewrite (given_flag h root data _ o Hu Ho). unfold given.
      pose proof (Hoth o) as Hoo. unfold carries, var_at in Hoo.
      destruct (h o) as [i name isX isY|ty items|ty items|a b' c|name outs ch|name df ch|c m|cls p|w]; auto.
      - unfold provided.
        assert (Hn1 : forall l, (forall n, In n l -> dget n data = None) -> first_provided data l = None).
        { induction l as [|n l IH]; intros Hl; [reflexivity|]. cbn. rewrite (Hl n (or_introl eq_refl)).
          apply IH. intros; apply Hl; right; assumption. }
        apply Hn1. intros n. rewrite !in_app_iff. intros [Hx|[Hy|Hnn]].
        + destruct isX; [|contradiction]. destruct Hx as [<-|[]]. apply Hres. simpl. tauto.
        + destruct isY; [|contradiction]. destruct Hy as [<-|[]]. apply Hres. simpl. tauto.
        + destruct i, name as [m|]; try contradiction; destruct Hnn as [<-|[]]; apply Hoo; auto.
      - destruct name; auto.
      - destruct name; auto. }
    assert (Hgiv0 : forall o, part_of h root o -> given h ([] : env V) o = None).
    { intros o Ho. unfold given. destruct (h o) as [i name isX isY| | | |[]|[]| | |]; auto.
      unfold provided. destruct isX, isY, i, name; reflexivity. }
    apply (Den_two ext h h [] e "preview" "fit_transform" f0 (fitted s2) raw raw root k eq_refl eq_refl (or_introl eq_refl)
      ) with (requested1 := "preview") (requested2 := "fit_transform"); auto.
    - intros o Ho. apply inner_part in Ho. pose proof (Hb o Ho) as Hbo.
      destruct (h o) as [[value| | | | | | | |] name isX isY| | | |nm outs ch|nm df ch| | |] eqn:Eo;
        try (split; [reflexivity|exact I]); try (split; [reflexivity|exact Hbo]).
      2:{ subst ch. split; [reflexivity|exact I]. }
      2:{ subst ch. split; [reflexivity|exact I]. }
      exists value. split; [reflexivity|]. split; [|split].
      + intros c ->. eapply plain_det; eauto.
      + intros c ->. exists (fitted s2 c). eapply Hk; eauto.
      + destruct (Hnam o value name isX isY Ho Eo) as [n ->]. unfold spec_var. cbn [eqb_of].
        change (eqb_of "preview" "preview") with true. change (eqb_of "fit_transform" "preview") with false. cbn match.
        assert (Hnf : n <> FLAG).
        { intros ->. apply (Hu o FLAG Ho); [unfold carries; rewrite Eo; reflexivity|simpl; tauto]. }
        unfold e. rewrite dget_dset_neq by exact Hnf. rewrite dget_dset_eq, Hbool.
        destruct value as [c|]; cbn [option_map].
        * assert (E : dget n data = Some (raw c)).
          { apply Hd. exists c. split; [|reflexivity]. exists o, isX, isY. auto. }
          rewrite E. reflexivity.
        * assert (E : dget n data = None).
          { destruct (dget n data) as [v|] eqn:En; [|reflexivity]. exfalso.
            destruct (Hname n v En) as (o' & c & x & y & Ho' & Eo').
            assert (o' = o). { apply (Hn o' o (Named n) Ho' Ho); unfold carries; [rewrite Eo'|rewrite Eo]; reflexivity. }
            subst o'. congruence. }
          rewrite E. destruct (negb b); reflexivity.
    - intros o Ho. apply inner_part in Ho. rewrite Hgiv, Hgiv0; auto.
    - intros o t name isX isY Ho Eo. left. apply Hgiv0. apply inner_part in Ho.
      eapply reach_trans; [exact Ho|]. apply part_child. unfold child. rewrite Eo. simpl. auto.
  Qed.

  (** *** The environment and the example values *)
  Lemma same_both (A : Type) (r1 r2 : res A) : same_outcome ext r1 r2 -> same_outcome ext r2 r1 -> r1 = r2.
  Proof.
    intros [->|(_ & ex & -> & ->)]; [reflexivity|]. intros [->|(_ & ex' & _ & E)]; [reflexivity|]. congruence.
  Qed.

  Lemma Den_var_change (h1 h2 : heap V K) size root raw1 raw2 e1 e2 f1 f2 r1 r2 :
    valid h2 size root -> same_but_values h1 h2 ->
    plain_data ext h1 root raw1 -> plain_data ext h2 root raw2 ->
    (forall o, reach h1 (var_at h1) root o -> part_of h2 root o) ->
    (forall o, f1 o = f2 o) ->
    (forall o, part_of h1 root o -> given h1 e1 o = given h2 e2 o) ->
    (forall o value value' name isX isY, part_of h1 root o -> h1 o = OExpr (IVar value) name isX isY ->
       h2 o = OExpr (IVar value') name isX isY ->
       spec_var ext e1 "fit_transform" name (option_map raw1 value) = spec_var ext e2 "fit_transform" name (option_map raw2 value')) ->
    Den ext h1 e1 "fit_transform" f1 root r1 -> Den ext h2 e2 "fit_transform" f2 root r2 ->
    same_outcome ext (answer "fit_transform" r1) (answer "fit_transform" r2).
  Proof.
    intros Hval Hsame Hp1 Hp2 Hin Hf Hg Hsv D1 D2.
    destruct (plain_depth h2 size root raw2 e2 "fit_transform" f2 Hval Hp2) as [k Hk].
    apply (Den_two ext h1 h2 e1 e2 "fit_transform" "fit_transform" f1 f2 raw1 raw2 root k eq_refl eq_refl (or_intror eq_refl)); auto.
    - intros o Ho. pose proof (Hin o Ho) as Ho2. apply inner_part in Ho. pose proof (Hsame o) as Hso.
      destruct (h1 o) as [[value| | | | | | | |] name isX isY| | | | | | | |] eqn:Eo;
        try (split; [exact Hso|apply mode_ok_same]).
      destruct Hso as [value' Eo2]. exists value'. split; [exact Eo2|]. split; [|split].
      + intros c ->. eapply plain_det; eauto.
      + intros c ->. exists (f2 c). eapply Hk; eauto.
      + eapply Hsv; eauto.
    - intros o Ho. apply Hg. apply inner_part in Ho. exact Ho.
  Qed.

  Lemma same_sym (h1 h2 : heap V K) : same_but_values h1 h2 -> same_but_values h2 h1.
  Proof.
    intros Hs o. pose proof (Hs o) as Ho. destruct (h1 o) as [[]| | | | | | | |]; try (rewrite Ho; reflexivity).
    destruct Ho as [v' ->]. eauto.
  Qed.

  Lemma inner_other (h1 h2 : heap V K) root o : same_but_values h1 h2 ->
    reach h1 (var_at h1) root o -> part_of h2 root o.
  Proof.
    intros Hs Hr. induction Hr as [|a b c Hnv Hin _ IH]; [constructor|].
    econstructor; [intros []| |exact IH].
    pose proof (Hs a) as Ha. unfold var_at in Hnv. destruct (h1 a) as [[]| | | | | | | |]; try (rewrite Ha; exact Hin).
    exfalso. apply Hnv. exact I.
  Qed.

  Lemma given_other (h1 h2 : heap V K) e o : same_but_values h1 h2 -> given h1 e o = given h2 e o.
  Proof.
    intros Hs. pose proof (Hs o) as Ho. unfold given.
    destruct (h1 o) as [[]| | | | | | | |]; try (rewrite Ho; reflexivity). destruct Ho as [v' ->]. reflexivity.
  Qed.

  Lemma eval_given (h : heap V K) size root e s : valid h size root ->
    exists b r, (b = true <-> names_variable h root e) /\
      Den ext h (dset FLAG (of_bool (negb b)) e) "fit_transform" (fitted s) root r /\
      snd (eval ext of_bool h size root (Some e) s) = answer "fit_transform" r.
  Proof.
    intros (Hc & Hr & Ha). destruct (provided_ok h size root Hc Hr Ha e) as (b & Eb & Hb).
    unfold eval. rewrite Eb.
    destruct (evaluate_value ext h size root (dset FLAG (of_bool (negb b)) e) "fit_transform" s Hc Hr Ha) as (r & D & ->).
    exists b, r. auto.
  Qed.

  Lemma spec_var_false e name v1 v2 : 
    spec_var ext (dset FLAG (of_bool false) e) "fit_transform" name v1
    = spec_var ext (dset FLAG (of_bool false) e) "fit_transform" name v2.
  Proof using Hbool. unfold spec_var. rewrite dget_dset_eq, Hbool. reflexivity. Qed.

  (** With the name of a variable in the environment, the example values do not matter. *)
  Lemma eval_ignores_values (h1 h2 : heap V K) size root raw1 raw2 e s1 s2 :
    valid h1 size root -> valid h2 size root -> same_but_values h1 h2 ->
    plain_data ext h1 root raw1 -> plain_data ext h2 root raw2 ->
    names_variable h1 root e -> names_variable h2 root e -> (forall o, fitted s1 o = fitted s2 o) ->
    snd (eval ext of_bool h1 size root (Some e) s1) = snd (eval ext of_bool h2 size root (Some e) s2).
  Proof using Hbool.
    intros V1 V2 Hs P1 P2 N1 N2 Hf.
    destruct (eval_given h1 size root e s1 V1) as (b1 & r1 & B1 & D1 & ->).
    destruct (eval_given h2 size root e s2 V2) as (b2 & r2 & B2 & D2 & ->).
    apply B1 in N1. apply B2 in N2. subst b1 b2. cbn [negb] in *.
    apply same_both.
    - eapply (Den_var_change h1 h2 size root raw1 raw2); eauto.
      + intros o Ho. eapply inner_other; eauto.
      + intros o _. apply given_other. exact Hs.
      + intros. apply spec_var_false.
    - refine (Den_var_change h2 h1 size root raw2 raw1 _ _ (fitted s2) (fitted s1) _ _ V1 (same_sym _ _ Hs) P2 P1 _ _ _ _ D2 D1).
      + intros o Ho. exact (inner_other h2 h1 root o (same_sym _ _ Hs) Ho).
      + intros o. symmetry. apply Hf.
      + intros o _. apply given_other. apply same_sym. exact Hs.
      + intros. apply spec_var_false.
  Qed.

  Lemma same_refl (h : heap V K) : same_but_values h h.
  Proof. intros o. destruct (h o) as [[]| | | | | | | |]; eauto. Qed.

  (** Without the name of any variable, the example values are used. *)
  Lemma eval_uses_values (h : heap V K) size root raw e data s1 s2 :
    valid h size root -> no_conflict h root -> user_names h root -> vars_named h root ->
    plain_data ext h root raw -> ~ names_variable h root e -> (forall o, fitted s1 o = fitted s2 o) ->
    get_data raw h size root = Ok data ->
    snd (eval ext of_bool h size root (Some e) s1)
    = snd (eval ext of_bool h size root (Some (data ++ e : env V)) s2).
  Proof using Hbool.
    intros Hval Hn Hu Hnam Hp Hne Hf Ed. pose proof Hval as (Hc & Hr & Ha).
    destruct (get_data_ok raw h size root Hc Hr Ha Hn) as (data' & Ed' & Hd).
    rewrite Ed in Ed'. injection Ed' as <-.
    destruct (eval_given h size root e s1 Hval) as (b1 & r1 & B1 & D1 & ->).
    destruct (eval_given h size root (data ++ e : env V) s2 Hval) as (b2 & r2 & _ & D2 & E2).
    unfold env in E2 |- *. rewrite E2. clear E2.
    assert (b1 = false) as -> by (destruct b1; [exfalso; apply Hne; apply B1; reflexivity|reflexivity]).
    cbn [negb] in *.
    assert (Hname : forall n v, dget n data = Some v -> exists o c x y, part_of h root o /\ h o = OExpr (IVar (Some c)) (Some n) x y).
    { intros n v En. apply Hd in En. destruct En as (c & (o & x & y & Ho & Eo) & _). eauto 6. }
    assert (Happ : forall n, dget n (data ++ e) = match dget n data with Some v => Some v | None => dget n e end).
    { intros n. clear. induction data as [|[m w] data IH]; [reflexivity|]. cbn. destruct (eqd n m); auto. }
    assert (Hres : forall n, In n ["_skrub_X"; "_skrub_y"; FLAG] -> dget n data = None).
    { intros n Hin. destruct (dget n data) as [v|] eqn:En; [|reflexivity]. exfalso.
      destruct (Hname n v En) as (o & c & x & y & Ho & Eo). apply (Hu o n Ho); [|exact Hin].
      unfold carries. rewrite Eo. reflexivity. }
    assert (Hoth : forall o n, part_of h root o -> carries h o (Named n) -> ~ var_at h o -> dget n data = None).
    { intros o n Ho Hca Hnv. destruct (dget n data) as [v|] eqn:En; [|reflexivity]. exfalso.
      destruct (Hname n v En) as (o' & c & x & y & Ho' & Eo'). apply Hnv.
      rewrite (Hn o o' (Named n) Ho Ho' Hca); [unfold var_at; rewrite Eo'; exact I|].
      unfold carries. rewrite Eo'. reflexivity. }
    assert (Hgiv : forall o, part_of h root o ->
      given h (dset FLAG (of_bool true) e) o = given h (dset FLAG (of_bool (negb b2)) (data ++ e)) o).
    { intros o Ho. rewrite !(given_flag h root) by assumption. unfold given.
      pose proof (Hoth o) as Hoo. unfold carries, var_at in Hoo.
      destruct (h o) as [i name isX isY|ty items|ty items|a b' c|name outs ch|name df ch|c m|cls p|w]; auto.
      - unfold provided.
        assert (Hn1 : forall l, (forall n, In n l -> dget n data = None) -> first_provided e l = first_provided (data ++ e) l).
        { induction l as [|n l IH]; intros Hl; [reflexivity|]. cbn [first_provided]. rewrite Happ, (Hl n (or_introl eq_refl)).
          rewrite IH; [reflexivity|]. intros; apply Hl; right; assumption. }
        apply Hn1. intros n. rewrite !in_app_iff. intros [Hx|[Hy|Hnn]].
        + destruct isX; [|contradiction]. destruct Hx as [<-|[]]. apply Hres. simpl. tauto.
        + destruct isY; [|contradiction]. destruct Hy as [<-|[]]. apply Hres. simpl. tauto.
        + destruct i, name as [m|]; try contradiction; destruct Hnn as [<-|[]]; apply Hoo; auto.
      - destruct name as [n|]; auto. rewrite Happ, Hoo; auto.
      - destruct name as [n|]; auto. rewrite Happ, Hoo; auto. }
    assert (Hsv : forall o value name isX isY, part_of h root o -> h o = OExpr (IVar value) name isX isY ->
      spec_var ext (dset FLAG (of_bool true) e) "fit_transform" name (option_map raw value)
      = spec_var ext (dset FLAG (of_bool (negb b2)) (data ++ e)) "fit_transform" name (option_map raw value)).
    { intros o value name isX isY Ho Eo. destruct (Hnam o value name isX isY Ho Eo) as [n ->]. unfold spec_var.
      change (eqb_of "fit_transform" "preview") with false. cbn match.
      assert (Hnf : n <> FLAG).
      { intros ->. apply (Hu o FLAG Ho); [unfold carries; rewrite Eo; reflexivity|simpl; tauto]. }
      rewrite (dget_dset_neq e) by exact Hnf. rewrite (dget_dset_neq (data ++ e)) by exact Hnf. rewrite !dget_dset_eq, !Hbool. rewrite Happ.
      assert (Ene : dget n e = None).
      { destruct (dget n e) as [v|] eqn:En; [|reflexivity]. exfalso. apply Hne. exists n, value. split; [|congruence].
        exists o, isX, isY. auto. }
      rewrite Ene. destruct value as [c|]; cbn [option_map].
      - assert (E : dget n data = Some (raw c)).
        { apply Hd. exists c. split; [|reflexivity]. exists o, isX, isY. auto. }
        rewrite E. reflexivity.
      - assert (E : dget n data = None).
        { destruct (dget n data) as [v|] eqn:En; [|reflexivity]. exfalso.
          destruct (Hname n v En) as (o' & c & x & y & Ho' & Eo').
          assert (o' = o). { apply (Hn o' o (Named n) Ho' Ho); unfold carries; [rewrite Eo'|rewrite Eo]; reflexivity. }
          subst o'. congruence. }
        rewrite E. destruct b2; reflexivity. }
    assert (Hin : forall o, reach h (var_at h) root o -> part_of h root o) by (intros o Ho; apply inner_part; exact Ho).
    apply same_both.
    - refine (Den_var_change h h size root raw raw _ _ _ _ _ _ Hval (same_refl h) Hp Hp Hin Hf Hgiv _ D1 D2).
      intros o value value' name isX isY Ho Eo Eo'. rewrite Eo in Eo'. injection Eo' as <-. eapply Hsv; eauto.
    - refine (Den_var_change h h size root raw raw _ _ _ _ _ _ Hval (same_refl h) Hp Hp Hin _ _ _ D2 D1).
      + intros o. symmetry. apply Hf.
      + intros o Ho. symmetry. apply Hgiv. exact Ho.
      + intros o value value' name isX isY Ho Eo Eo'. rewrite Eo in Eo'. injection Eo' as <-. symmetry. eapply Hsv; eauto.
  Qed.

  (** A report is about the same evaluation when the environment has the name of a variable. *)
  Lemma report_same (h : heap V K) size root raw e s1 s2 :
    valid h size root -> user_names h root -> plain_data ext h root raw ->
    names_variable h root e -> dget FLAG e = None -> (forall o, fitted s1 o = fitted s2 o) ->
    snd (report_value ext h size root (Some e) s1) = snd (eval ext of_bool h size root (Some e) s2).
  Proof using Hbool.
    intros Hval Hu Hp Hn Hfl Hf.
    destruct (eval_given h size root e s2 Hval) as (b & r & Hb & D & ->). apply Hb in Hn. subst b. cbn [negb] in D.
    pose proof Hval as (Hc & Hr & Ha). unfold report_value.
    destruct (evaluate_value ext h size root e "fit_transform" s1 Hc Hr Ha) as (r1 & D1 & ->).
    change (real_mode "fit_transform") with "fit_transform" in D1.
    assert (Hsv : forall o value name isX isY, part_of h root o -> h o = OExpr (IVar value) name isX isY ->
      spec_var ext e "fit_transform" name (option_map raw value)
      = spec_var ext (dset FLAG (of_bool false) e) "fit_transform" name (option_map raw value)).
    { intros o value name isX isY Ho Eo. unfold spec_var. rewrite dget_dset_eq, Hbool, Hfl.
      destruct name as [n|]; [|reflexivity]. rewrite dget_dset_neq; [reflexivity|].
      intros ->. apply (Hu o FLAG Ho); [unfold carries; rewrite Eo; reflexivity|simpl; tauto]. }
    assert (Hin : forall o, reach h (var_at h) root o -> part_of h root o) by (intros o Ho; apply inner_part; exact Ho).
    apply same_both.
    - refine (Den_var_change h h size root raw raw _ _ _ _ _ _ Hval (same_refl h) Hp Hp Hin Hf _ _ D1 D).
      + intros o Ho. symmetry. apply (given_flag h root); assumption.
      + intros o value value' name isX isY Ho Eo Eo'. rewrite Eo in Eo'. injection Eo' as <-. eapply Hsv; eauto.
    - refine (Den_var_change h h size root raw raw _ _ _ _ _ _ Hval (same_refl h) Hp Hp Hin _ _ _ D D1).
      + intros o. symmetry. apply Hf.
      + intros o Ho. apply (given_flag h root); assumption.
      + intros o value value' name isX isY Ho Eo Eo'. rewrite Eo in Eo'. injection Eo' as <-. symmetry. eapply Hsv; eauto.
  Qed.
End Eval.
