(** Evaluating with the data of the variables. *)
From Verif Require Import Base L_dict M_traverse L_traverse M_expr L_expr1 L_expr2 L_expr3 L_expr4 L_expr5 L_expr6 L_expr7.
From Verif Require Import M_grid M_choicegraph L_conflicts M_clone M_check M_namespace L_estimator1 L_estimator2.
From Coq Require Import Relations.Relation_Operators Relations.Operators_Properties.
Open Scope string_scope.
Open Scope list_scope.
Open Scope nat_scope.
Set Default Proof Using "Type".

(** ** Specification *)
Section Spec.
  Context {V K F : Type} `{EqD K}.
  Variable ext : externals V K F.
  Variable h : heap V K.
  Variable root : oid.

  (** Evaluating the object [c] gives [v], whatever the environment: [c] is a plain value or
      a collection of plain values. *)
  Definition stands_for (c : oid) (v : V) : Prop :=
    forall e mode f, Den ext h e mode f c (Ok (v, f c)).

  (** The values of the variables are plain. *)
  Definition plain_data (raw : oid -> V) : Prop :=
    forall o c name isX isY, part_of h root o -> h o = OExpr (IVar (Some c)) name isX isY ->
      stands_for c (raw c).

  (** No name is reserved ([skrub.var] and [set_name] refuse names that start with "_skrub_"). *)
  Definition user_names : Prop :=
    forall o n, part_of h root o -> carries h o (Named n) ->
      ~ In n ["_skrub_X"; "_skrub_y"; "_skrub_use_var_values"].

  (** All variables have a name. *)
  Definition vars_named : Prop :=
    forall o value name isX isY, part_of h root o -> h o = OExpr (IVar value) name isX isY ->
      exists n, name = Some n.

  (** No step depends on the mode itself ([skrub.eval_mode()]) nor on a choice whose outcome
      has been set. *)
  Definition mode_blind : Prop :=
    forall o, part_of h root o ->
      match h o with
      | OExpr (IOp op _) _ _ _ => forall a, op_sem ext op "preview" a = op_sem ext op "fit_transform" a
      | OChoice _ _ chosen => chosen = None
      | ONumChoice _ _ chosen => chosen = None
      | _ => True
      end.

  (** The same outcome, except that before Python 3.11 errors of the computation of a step
      become [RuntimeError]. *)
  Definition same_outcome {A} (r1 r2 : res A) : Prop :=
    r1 = r2 \/ (has_add_note ext = false /\ exists ex, r1 = Err ex /\ r2 = Err RuntimeError).
End Spec.

(** ** Comparing two evaluations in fitting modes *)
Section TwoHeaps.
  Context {V K F : Type} `{EqD K}.
  Notation heap := (heap V K).
  Variable ext : externals V K F.
  Variables h1 h2 : heap.
  Variables e1 e2 : env V.
  Variables m1 m2 : string.
  Variables f1 f2 : oid -> option (fit_attr V F).
  Variables raw1 raw2 : oid -> V.
  Variable root : oid.
  (** A depth at which the values of the variables can be evaluated. *)
  Variable k : nat.
  Hypothesis Hm1 : fit_mode m1 = true.
  Hypothesis Hm2 : fit_mode m2 = true.
  Hypothesis Hm : m1 = "preview" \/ m1 = m2.
  Notation den1 := (den ext h1 e1 m1 f1).
  Notation den2 := (den ext h2 e2 m2 f2).

  (** The parts of the expression, without those of the values of the variables. *)
  Definition var_at (h : heap) (o : oid) : Prop :=
    match h o with OExpr (IVar _) _ _ _ => True | _ => False end.
  Notation inner := (reach h1 (var_at h1) root).

  Definition var_ok (value value' : option oid) (name : option string) : Prop :=
    (forall c, value = Some c -> forall d r, den1 d c = Some r -> exists a, r = Ok (raw1 c, a)) /\
    (forall c, value' = Some c -> exists a, den2 k c = Some (Ok (raw2 c, a))) /\
    spec_var ext e1 m1 name (option_map raw1 value) = spec_var ext e2 m2 name (option_map raw2 value').

  Definition mode_ok (ob : obj V K) : Prop :=
    match ob with
    | OExpr (IOp op _) _ _ _ => forall a, op_sem ext op m1 a = op_sem ext op m2 a
    | OChoice _ _ (Some i) => (if eqb_of m1 "preview" then 0 else i) = (if eqb_of m2 "preview" then 0 else i)
    | ONumChoice _ df (Some v) => (if eqb_of m1 "preview" then df else v) = (if eqb_of m2 "preview" then df else v)
    | _ => True
    end.

  Hypothesis Hobj : forall o, inner o ->
    match h1 o with
    | OExpr (IVar value) name isX isY =>
        exists value', h2 o = OExpr (IVar value') name isX isY /\ var_ok value value' name
    | ob => h2 o = ob /\ mode_ok ob
    end.
  Hypothesis Hgiven : forall o, inner o -> given h1 e1 o = given h2 e2 o.
  Hypothesis Happ : forall o t name isX isY, inner o -> h1 o = OExpr (IApplied t) name isX isY ->
    given h1 e1 t = None \/ f1 t = f2 t.

  Definition erel (x y : exn) : Prop := x = y \/ (has_add_note ext = false /\ y = RuntimeError).
  Definition dsim {A B} (P : A -> B -> Prop) (x : dres A) (y : dres B) : Prop :=
    match x with
    | None => True
    | Some (Ok a) => exists b, y = Some (Ok b) /\ P a b
    | Some (Err ex) => exists ex', y = Some (Err ex') /\ erel ex ex'
    end.
  Lemma dsim_bind {A B A' B'} (P : A -> B -> Prop) (Q : A' -> B' -> Prop) x y f g :
    dsim P x y -> (forall a b, P a b -> dsim Q (f a) (g b)) -> dsim Q (dbind x f) (dbind y g).
  Proof.
    intros Hx Hf. destruct x as [[a|ex]|]; cbn in *; auto.
    - destruct Hx as (b & -> & Hab). apply Hf. exact Hab.
    - destruct Hx as (ex' & -> & He). exists ex'. auto.
  Qed.
  Lemma dsim_same {A} (r : dres A) : dsim eq r r.
  Proof. destruct r as [[a|ex]|]; cbn; eauto. exists ex. split; [reflexivity|left; reflexivity]. Qed.
  Lemma dsim_mapM {A B} (f g : A -> dres B) l : (forall a, In a l -> dsim eq (f a) (g a)) ->
    dsim eq (dmapM f l) (dmapM g l).
  Proof.
    induction l as [|a l IH]; intros Hl; [cbn; eauto|]. cbn [dmapM].
    eapply dsim_bind; [apply Hl; left; reflexivity|]. intros b _ <-.
    eapply dsim_bind; [apply IH; intros; apply Hl; right; assumption|]. intros bs _ <-. cbn. eauto.
  Qed.

  Definition is_apply (o : oid) : Prop :=
    match h1 o with OExpr (IApply _ _ _ _ _ _ _) _ _ _ => True | _ => False end.
  Definition slots (o : oid) (a b : V * option (fit_attr V F)) : Prop :=
    fst a = fst b /\ (is_apply o -> given h1 e1 o = None \/ f1 o = f2 o -> snd a = snd b).

  Lemma rel_plain o (x y : dres V) : ~ is_apply o -> dsim eq x y ->
    dsim (slots o) (dbind x (fun v => Some (Ok (v, f1 o)))) (dbind y (fun v => Some (Ok (v, f2 o)))).
  Proof.
    intros Hn Hxy. eapply dsim_bind; [exact Hxy|]. intros a _ <-. cbn. eexists. split; [reflexivity|].
    split; [reflexivity|contradiction].
  Qed.
  Lemma rel_shown o (r1 r2 : res (V * option (fit_attr V F))) :
    match r1, r2 with Ok a, Ok b => slots o a b | Err x, Err y => x = y | _, _ => False end ->
    dsim (slots o) (Some (shown ext m1 r1)) (Some (shown ext m2 r2)).
  Proof using Hm Hm1 Hm2.
    destruct r1 as [a|x], r2 as [b|y]; cbn; try contradiction; eauto. intros <-.
    eexists. split; [reflexivity|]. destruct Hm as [->|<-]; [|left; reflexivity].
    change (eqb_of "preview" "preview") with true. cbn [orb].
    destruct (eqb_of m2 "preview"); [left; reflexivity|]. cbn [orb].
    destruct (has_add_note ext) eqn:En; [left; reflexivity|]. right. auto.
  Qed.
  Lemma rel_slot o (r : res V) : ~ is_apply o ->
    dsim (slots o) (Some (shown ext m1 (with_slot f1 o r))) (Some (shown ext m2 (with_slot f2 o r))).
  Proof using Hm Hm1 Hm2.
    intros Hn. apply rel_shown. destruct r as [v|x]; cbn; auto. split; [reflexivity|contradiction].
  Qed.

  Lemma den_two : forall d o, inner o -> dsim (slots o) (den1 d o) (den2 (d + k) o).
  Proof using Hobj Hgiven Happ Hm Hm1 Hm2.
    induction d as [|d IH]; intros o Ho; [exact I|]. cbn [Nat.add den].
    assert (Hin : forall t, ~ var_at h1 o -> In t (children (h1 o)) -> inner t).
    { intros t Hn Ht. eapply reach_trans; [exact Ho|]. econstructor; [exact Hn|exact Ht|constructor]. }
    assert (Hev : forall t, inner t ->
      dsim eq (dbind (den1 d t) (fun vf => Some (Ok (fst vf)))) (dbind (den2 (d + k) t) (fun vf => Some (Ok (fst vf))))).
    { intros t Ht. eapply dsim_bind; [apply IH; exact Ht|].
      intros [v a] [w b] [Hv _]. cbn in *. subst. eauto. }
    assert (Hec : forall t, ~ var_at h1 o -> In t (children (h1 o)) ->
      dsim eq (dbind (den1 d t) (fun vf => Some (Ok (fst vf)))) (dbind (den2 (d + k) t) (fun vf => Some (Ok (fst vf))))).
    { intros t Hn Ht. apply Hev. apply Hin; assumption. }
    pose proof (Hgiven o Ho) as Hg. pose proof (Hobj o Ho) as Hob.
    assert (Htab : forall t, inner t -> match h1 t with OExpr _ _ _ _ => is_expr (h2 t) = true | ob => h2 t = ob end).
    { intros t Ht. pose proof (Hobj t Ht) as Hobt.
      destruct (h1 t) as [[]| | | | | | | |]; try apply Hobt; destruct Hobt as [Hobt]; try destruct H0; try rewrite H0;
        try rewrite Hobt; reflexivity. }
    destruct (h1 o) as [i name isX isY|ty items|ty items|a b c|name outs ch|name df ch|c m|cls p|v] eqn:Eh.
    - assert (Eh2 : exists i', h2 o = OExpr i' name isX isY).
      { destruct i; try (exists value; exact (proj1 Hob)); try (eexists; exact (proj1 Hob)).
        destruct Hob as (value' & E2 & _). eauto. }
      destruct Eh2 as [i2 Eh2]. rewrite Eh2.
      unfold given in Hg. rewrite Eh, Eh2 in Hg. rewrite <- Hg.
      destruct (provided e1 i name isX isY) as [v|] eqn:Ep.
      { cbn. eexists. split; [reflexivity|]. split; [reflexivity|]. intros _ [Hn|Hn]; [|exact Hn].
        unfold given in Hn. rewrite Eh in Hn. congruence. }
      assert (Hargs : ~ var_at h1 o -> forall l : list (string * oid), (forall nc, In nc l -> In (snd nc) (children (OExpr (V := V) (K := K) i name isX isY))) ->
        dsim eq (dmapM (fun nc => dbind (dbind (den1 d (snd nc)) (fun vf => Some (Ok (fst vf)))) (fun v => Some (Ok (fst nc, v)))) l)
                (dmapM (fun nc => dbind (dbind (den2 (d + k) (snd nc)) (fun vf => Some (Ok (fst vf)))) (fun v => Some (Ok (fst nc, v)))) l)).
      { intros Hnv l Hl. apply dsim_mapM. intros nc Hnc. eapply dsim_bind; [apply Hec; [exact Hnv|]; apply Hl; exact Hnc|].
        intros v _ <-. cbn. eauto. }
      assert (Hnv : (forall value, i <> IVar value) -> ~ var_at h1 o).
      { intros Hi. unfold var_at. rewrite Eh. destruct i; auto. exfalso. eapply Hi. reflexivity. }
      destruct i as [value|value|cnd it fa|q tg default|tgt|X est y cols how allow unsup|tgt|fi ot|op fs];
        try (specialize (Hnv ltac:(intros; discriminate)));
        try (destruct Hob as [Hob Hmode]; rewrite Eh2 in Hob; injection Hob as ->).
      + assert (Hs : ~ is_apply o) by (unfold is_apply; rewrite Eh; auto).
        destruct Hob as (value' & E2 & Hv1 & Hv2 & Hsv). rewrite Eh2 in E2. injection E2 as ->.
        assert (G : dsim (slots o)
          (Some (shown ext m1 (with_slot f1 o (spec_var ext e1 m1 name (option_map raw1 value)))))
          match value' with
          | Some c => dbind (dbind (den2 (d + k) c) (fun vf => Some (Ok (fst vf))))
              (fun v => Some (shown ext m2 (with_slot f2 o (spec_var ext e2 m2 name (Some v)))))
          | None => Some (shown ext m2 (with_slot f2 o (spec_var ext e2 m2 name None)))
          end).
        { rewrite Hsv. destruct value' as [c|].
          - destruct (Hv2 c eq_refl) as [a Ea]. rewrite (den_mono _ _ _ _ _ k (d + k) c _ ltac:(lia) Ea).
            cbn [dbind fst]. apply rel_slot. exact Hs.
          - apply rel_slot. exact Hs. }
        destruct value as [c|]; [|exact G].
        destruct (den1 d c) as [r|] eqn:Ed; [|exact I]. destruct (Hv1 c eq_refl d r Ed) as [a ->].
        cbn [dbind fst]. exact G.
      + assert (Hs : ~ is_apply o) by (unfold is_apply; rewrite Eh; auto).
        apply rel_plain; auto. apply Hec; simpl; auto.
      + assert (Hs : ~ is_apply o) by (unfold is_apply; rewrite Eh; auto).
        eapply dsim_bind; [apply Hec; simpl; auto|]. intros cv _ <-.
        eapply dsim_bind; [apply dsim_same|]. intros b _ <-.
        apply rel_plain; auto. apply Hec; [auto|]. destruct b; simpl; auto.
      + assert (Hs : ~ is_apply o) by (unfold is_apply; rewrite Eh; auto).
        eapply dsim_bind; [apply Hec; [auto|destruct default; simpl; auto]|]. intros qv _ <-.
        eapply dsim_bind; [apply dsim_same|]. intros key _ <-.
        apply rel_plain; auto.
        assert (Htg : inner tg) by (apply Hin; [exact Hnv|destruct default; simpl; auto]).
        pose proof (Htab tg Htg) as Ht2.
        destruct (h1 tg) eqn:Etg; try (rewrite Ht2; apply dsim_same).
        * destruct (h2 tg); try discriminate. apply dsim_same.
        * rewrite Ht2. destruct (dget key items) as [t|] eqn:Ed.
          -- apply Hev. eapply reach_trans; [exact Htg|]. econstructor; [|rewrite Etg; simpl; eapply in_dget; eauto|constructor].
             unfold var_at. rewrite Etg. auto.
          -- destruct default; [|apply dsim_same]. apply Hec; simpl; auto.
      + rewrite Hm1, Hm2.
        eapply dsim_bind; [apply Hec; simpl; auto|]. intros v _ <-. cbn. eexists. split; [reflexivity|].
        split; [reflexivity|]. intros _ _. reflexivity.
      + rewrite Hm1, Hm2.
        eapply dsim_bind.
        * apply Hargs; [exact Hnv|]. intros [n t] Hit. cbn [snd fst]. simpl in Hit |- *.
          destruct unsup; simpl in Hit; intuition congruence.
        * intros a _ <-. apply rel_shown. destruct (apply_fit ext a unsup) as [[v f]|x]; cbn; auto.
          split; reflexivity.
      + assert (Hs : ~ is_apply o) by (unfold is_apply; rewrite Eh; auto).
        assert (Ht : inner tgt) by (apply Hin; simpl; auto).
        pose proof (Happ o tgt name isX isY Ho Eh) as Hap.
        eapply dsim_bind; [apply IH; exact Ht|]. intros [v1 a1] [v2 a2] [Hv Ha]. cbn [fst snd] in *.
        pose proof (Hobj tgt Ht) as Hot. unfold is_apply in Ha.
        destruct (h1 tgt) as [[]| | | | | | | |] eqn:Et;
          try (destruct Hot as [Hot _]; rewrite Hot; try (apply rel_shown; reflexivity)).
        * destruct Hot as (value' & Hot & _). rewrite Hot. apply rel_shown. reflexivity.
        * rewrite <- (Ha I Hap). destruct (fitted_with a1); apply rel_shown; [|reflexivity].
          cbn. split; [reflexivity|contradiction].
      + rewrite Hm1, Hm2.
        eapply dsim_bind.
        * apply Hargs; [exact Hnv|]. intros [n t] Hit. simpl in *. intuition congruence.
        * intros a _ <-. apply rel_shown. destruct (concat_fit ext a) as [[v f]|x]; cbn; auto.
          split; [reflexivity|]. intros _ _. reflexivity.
      + assert (Hs : ~ is_apply o) by (unfold is_apply; rewrite Eh; auto).
        eapply dsim_bind; [apply Hargs; [exact Hnv|intros nc Hit; simpl; apply in_map; exact Hit]|].
        intros a _ <-. cbn in Hmode. rewrite Hmode. apply rel_slot. exact Hs.
    - destruct Hob as [-> _]. assert (Hnv : ~ var_at h1 o) by (unfold var_at; rewrite Eh; auto).
      apply rel_plain; [unfold is_apply; rewrite Eh; auto|].
      eapply dsim_bind; [|intros kvs _ <-; apply dsim_same]. apply dsim_mapM. intros kc Hkc.
      eapply dsim_bind; [apply Hec; [exact Hnv|simpl; apply in_map; exact Hkc]|]. intros v _ <-. cbn. eauto.
    - destruct Hob as [-> _]. assert (Hnv : ~ var_at h1 o) by (unfold var_at; rewrite Eh; auto).
      apply rel_plain; [unfold is_apply; rewrite Eh; auto|].
      eapply dsim_bind; [|intros kvs _ <-; apply dsim_same]. apply dsim_mapM. intros c Hc. apply Hec; [exact Hnv|exact Hc].
    - destruct Hob as [-> _]. assert (Hnv : ~ var_at h1 o) by (unfold var_at; rewrite Eh; auto).
      apply rel_plain; [unfold is_apply; rewrite Eh; auto|].
      eapply dsim_bind; [apply Hec; simpl; auto|]. intros x _ <-.
      eapply dsim_bind; [apply Hec; simpl; auto|]. intros y _ <-.
      eapply dsim_bind; [apply Hec; simpl; auto|]. intros z _ <-. cbn. eauto.
    - destruct Hob as [Eh2 Hmode]. rewrite Eh2. assert (Hnv : ~ var_at h1 o) by (unfold var_at; rewrite Eh; auto).
      assert (Hs : ~ is_apply o) by (unfold is_apply; rewrite Eh; auto).
      unfold given in Hg. rewrite Eh, Eh2 in Hg.
      assert (En : match name with Some n => dget n e1 | None => None end = match name with Some n => dget n e2 | None => None end)
        by (destruct name; auto).
      rewrite <- En. destruct (match name with Some n => dget n e1 | None => None end) as [v|].
      { cbn. eexists. split; [reflexivity|]. split; [reflexivity|contradiction]. }
      apply rel_plain; auto.
      assert (Ei : (if eqb_of m1 "preview" then 0 else match ch with Some i => i | None => 0 end)
                 = (if eqb_of m2 "preview" then 0 else match ch with Some i => i | None => 0 end)).
      { destruct ch; [exact Hmode|]. destruct (eqb_of m1 _), (eqb_of m2 _); reflexivity. }
      rewrite <- Ei.
      assert (Hou : inner outs) by (apply Hin; simpl; auto).
      pose proof (Htab outs Hou) as Ht2.
      destruct (h1 outs) eqn:Eo; try (rewrite Ht2; apply dsim_same).
      + destruct (h2 outs); try discriminate. apply dsim_same.
      + rewrite Ht2. destruct (nth_error items _) as [t|] eqn:En0; [|apply dsim_same].
        apply Hev. eapply reach_trans; [exact Hou|]. econstructor; [|rewrite Eo; simpl; eapply nth_error_In; eauto|constructor].
        unfold var_at. rewrite Eo. auto.
    - destruct Hob as [Eh2 Hmode]. rewrite Eh2.
      assert (Hs : ~ is_apply o) by (unfold is_apply; rewrite Eh; auto).
      unfold given in Hg. rewrite Eh, Eh2 in Hg.
      assert (En : match name with Some n => dget n e1 | None => None end = match name with Some n => dget n e2 | None => None end)
        by (destruct name; auto).
      rewrite <- En. destruct (match name with Some n => dget n e1 | None => None end) as [v|].
      { cbn. eexists. split; [reflexivity|]. split; [reflexivity|contradiction]. }
      assert (Ei : (if eqb_of m1 "preview" then df else match ch with Some i => i | None => df end)
                 = (if eqb_of m2 "preview" then df else match ch with Some i => i | None => df end)).
      { destruct ch; [exact Hmode|]. destruct (eqb_of m1 _), (eqb_of m2 _); reflexivity. }
      rewrite <- Ei. cbn. eexists. split; [reflexivity|]. split; [reflexivity|contradiction].
    - destruct Hob as [-> _]. assert (Hnv : ~ var_at h1 o) by (unfold var_at; rewrite Eh; auto).
      assert (Hs : ~ is_apply o) by (unfold is_apply; rewrite Eh; auto).
      eapply dsim_bind; [apply Hec; simpl; auto|]. intros w _ <-.
      eapply dsim_bind; [apply dsim_same|]. intros key _ <-.
      apply rel_plain; auto.
      assert (Hmi : inner m) by (apply Hin; simpl; auto).
      pose proof (Htab m Hmi) as Ht2.
      destruct (h1 m) eqn:Em; try (rewrite Ht2; apply dsim_same).
      + destruct (h2 m); try discriminate. apply dsim_same.
      + rewrite Ht2. destruct (dget key items) as [t|] eqn:Ed; [|apply dsim_same].
        apply Hev. eapply reach_trans; [exact Hmi|]. econstructor; [|rewrite Em; simpl; eapply in_dget; eauto|constructor].
        unfold var_at. rewrite Em. auto.
    - destruct Hob as [-> _]. assert (Hnv : ~ var_at h1 o) by (unfold var_at; rewrite Eh; auto).
      assert (Hs : ~ is_apply o) by (unfold is_apply; rewrite Eh; auto).
      apply rel_plain; auto. eapply dsim_bind; [apply Hec; simpl; auto|]. intros w _ <-. apply dsim_same.
    - destruct Hob as [-> _]. cbn. eexists. split; [reflexivity|]. split; [reflexivity|].
      unfold is_apply. rewrite Eh. contradiction.
  Qed.

  Lemma Den_two r1 r2 : Den ext h1 e1 m1 f1 root r1 -> Den ext h2 e2 m2 f2 root r2 ->
    forall requested1 requested2, eqb_of requested1 "fit" = eqb_of requested2 "fit" ->
    same_outcome ext (answer requested1 r1) (answer requested2 r2).
  Proof using Hobj Hgiven Happ Hm Hm1 Hm2.
    intros [d E1] D2 q1 q2 Hq. pose proof (den_two d root (reach_refl _ _ _)) as Hd. rewrite E1 in Hd.
    unfold same_outcome. destruct r1 as [[v a]|x]; cbn in Hd.
    - destruct Hd as ([w b] & E2 & Hv & _). cbn in Hv. subst w.
      rewrite (Den_det ext h2 e2 m2 f2 root r2 (Ok (v, b)) D2 (ex_intro _ _ E2)).
      cbn. rewrite Hq. left. reflexivity.
    - destruct Hd as (y & E2 & He). rewrite (Den_det ext h2 e2 m2 f2 root r2 (Err y) D2 (ex_intro _ _ E2)).
      cbn. destruct He as [->|[Hn ->]]; [left; reflexivity|]. right. split; [exact Hn|]. eauto.
  Qed.
End TwoHeaps.
