(** Matching on choices. *)
From Verif Require Import Base L_dict M_match L_choicegraph2.
Open Scope list_scope.
Open Scope nat_scope.

(** ** Specification *)
Section Spec.
  Context {V K : Type} `{EqD K}.
  Variable key : V -> res K.

  (** The value given for [v] by [m], else [default]. *)
  Definition picks (m : dict K V) (default : option V) (v x : V) : Prop :=
    exists k, key v = Ok k /\ (dget k m = Some x \/ (dget k m = None /\ default = Some x)).

  (** Which mappings are accepted for the values [vs]: keys are among the values, and each
      value has one unless there is a default. *)
  Definition suitable (vs : list V) (m : dict K V) (default : option V) : Prop :=
    (forall k, In k (dkeys m) -> exists v, In v vs /\ key v = Ok k) /\
    (default = None -> forall v k, In v vs -> key v = Ok k -> In k (dkeys m)).

  Definition hashable (vs : list V) : Prop := forall v, In v vs -> exists k, key v = Ok k.

  (** [mt] selects a value for each outcome according to [f]. *)
  Definition selects (mt : ematch) (f : V -> V -> Prop) : Prop :=
    forall o, In o (outcomes (of_choice mt)) ->
      exists k x, key o = Ok k /\ dget k (mapping mt) = Some x /\ f o x.
End Spec.

(** ** Proofs *)
Section Proofs.
  Context {V K : Type} `{EqD K}.
  Variable key : V -> res K.
  Hypothesis key_err : forall v e, key v = Err e -> e = TypeError.
  Notation hashable := (hashable key).
  Notation suitable := (suitable key).
  Notation picks := (picks key).

  Lemma mapM_key_ok vs : hashable vs -> exists ks, mapM key vs = Ok ks /\ forall k, In k ks <-> exists v, In v vs /\ key v = Ok k.
  Proof.
    intros Hh. destruct (mapM_ok_exists key vs Hh) as [ks E]. exists ks. split; [exact E|]. intros k.
    apply (mapM_in key vs ks k E).
  Qed.

  Lemma mapM_key_err vs : ~ hashable vs -> mapM key vs = Err TypeError.
  Proof.
    induction vs as [|v vs IH]; intros Hn; [exfalso; apply Hn; intros v []|]. cbn.
    destruct (key v) as [k|e] eqn:E; cbn; [|rewrite (key_err v e E); reflexivity].
    rewrite IH; [reflexivity|]. intros Hh. apply Hn. intros w [<-|Hw]; eauto.
  Qed.

  Lemma filter_nil {A} (p : A -> bool) l : filter p l = [] <-> forall x, In x l -> p x = false.
  Proof.
    induction l as [|a l IH]; cbn; [split; [intros _ x []|reflexivity]|]. destruct (p a) eqn:E.
    - split; [discriminate|]. intros Hx. rewrite (Hx a (or_introl eq_refl)) in E. discriminate.
    - rewrite IH. split; [intros Hx x [<-|Hi]; auto|auto].
  Qed.

  Lemma check_ok vs m default : check_match_keys key vs (dkeys m) (is_given default) = Ok tt <->
    hashable vs /\ suitable vs m default.
  Proof.
    unfold check_match_keys.
    destruct (mapM key vs) as [ks|e] eqn:E.
    2:{ cbn. split; [discriminate|]. intros [Hh _]. destruct (mapM_key_ok vs Hh) as (ks & E' & _). congruence. }
    assert (Hh : hashable vs).
    { intros v Hv. apply mapM_Forall2 in E. clear -E Hv. induction E as [|a b l1 l2 Hab _ IH]; [destruct Hv|].
      destruct Hv as [<-|Hv]; eauto. }
    assert (Hin : forall k, In k ks <-> exists v, In v vs /\ key v = Ok k) by (intros k; apply (mapM_in key vs ks k E)).
    cbn [bind].
    destruct (filter (fun k => negb (mem k ks)) (dkeys m)) as [|k0 l0] eqn:E1.
    - rewrite filter_nil in E1.
      assert (Hsub : forall k, In k (dkeys m) -> exists v, In v vs /\ key v = Ok k).
      { intros k Hk. apply Hin. specialize (E1 k Hk). apply negb_false_iff in E1. apply mem_true in E1. exact E1. }
      destruct default as [d|]; cbn [is_given].
      + split; [|reflexivity]. intros _. split; [exact Hh|]. split; [exact Hsub|discriminate].
      + destruct (filter (fun k => negb (mem k (dkeys m))) ks) as [|k1 l1] eqn:E2.
        * split; [|reflexivity]. intros _. split; [exact Hh|]. split; [exact Hsub|]. intros _ v k Hv Hk.
          rewrite filter_nil in E2. specialize (E2 k (proj2 (Hin k) (ex_intro _ v (conj Hv Hk)))).
          apply negb_false_iff in E2. apply mem_true in E2. exact E2.
        * split; [discriminate|]. intros [_ [_ Hc]]. exfalso.
          assert (Hk1 : In k1 (filter (fun k => negb (mem k (dkeys m))) ks)) by (rewrite E2; left; reflexivity).
          apply filter_In in Hk1. destruct Hk1 as [Hk Hm]. apply negb_true_iff in Hm. apply mem_false in Hm.
          apply Hin in Hk. destruct Hk as (v & Hv & Ek). apply Hm. eapply Hc; eauto.
    - split; [discriminate|]. intros [_ [Hc _]]. exfalso.
      assert (Hk1 : In k0 (filter (fun k => negb (mem k ks)) (dkeys m))) by (rewrite E1; left; reflexivity).
      apply filter_In in Hk1. destruct Hk1 as [Hk Hm]. apply negb_true_iff in Hm. apply mem_false in Hm.
      apply Hm. apply Hin. apply Hc. exact Hk.
  Qed.

  Lemma check_result vs ks b : check_match_keys key vs ks b = Ok tt \/
    (check_match_keys key vs ks b = Err TypeError /\ ~ hashable vs) \/ (check_match_keys key vs ks b = Err ValueError /\ hashable vs).
  Proof.
    unfold check_match_keys. destruct (mapM key vs) as [os|e] eqn:E; cbn.
    - assert (Hh : hashable vs).
      { intros v Hv. apply mapM_Forall2 in E. clear -E Hv. induction E as [|a c l1 l2 Hab _ IH]; [destruct Hv|].
        destruct Hv as [<-|Hv]; eauto. }
      destruct (filter _ ks); [|auto]. destruct b; [auto|]. destruct (filter _ os); auto.
    - right. left. assert (Hn : ~ hashable vs).
      { intros Hh. destruct (mapM_key_ok vs Hh) as (x & Ex & _). congruence. }
      rewrite (mapM_key_err vs Hn) in E. injection E as <-. auto.
  Qed.

  Lemma get_or_picks vs m default v : hashable vs -> suitable vs m default -> In v vs ->
    exists x, get_or key m v default = Ok x /\ picks m default v x.
  Proof.
    intros Hh [Hs Hc] Hv. destruct (Hh v Hv) as [k Hk]. unfold get_or, L_match.picks. rewrite Hk. cbn.
    destruct (dget k m) as [x|] eqn:Eg; [exists x; split; [reflexivity|]; exists k; auto|].
    destruct default as [d|]; [exists d; split; [reflexivity|]; exists k; auto|].
    exfalso. apply dget_None_keys in Eg. apply Eg. eapply Hc; eauto.
  Qed.

  Lemma fold_dset_get : forall (es : list (K * V)) (d0 : dict K V) k x,
    (forall k1 x1 x2, In (k1, x1) es -> In (k1, x2) es -> x1 = x2) -> In (k, x) es ->
    dget k (fold_left (fun d kx => dset (fst kx) (snd kx) d) es d0) = Some x.
  Proof.
    induction es as [|[k1 x1] es IH]; intros d0 k x Hu Hin; [destruct Hin|]. cbn [fold_left fst snd].
    destruct (in_dec (eqd (A := K)) k (map fst es)) as [Hi|Hn].
    - apply in_map_iff in Hi. destruct Hi as ([k2 x2] & E & Hi). cbn in E. subst k2.
      assert (x2 = x) by (eapply Hu; [right; exact Hi|exact Hin]). subst x2.
      apply IH; [|exact Hi]. intros; eapply Hu; right; eauto.
    - destruct Hin as [E|Hin]; [|exfalso; apply Hn; apply (in_map fst) in Hin; exact Hin].
      injection E as -> ->.
      assert (Hout : forall es (d : dict K V), ~ In k (map fst es) ->
        dget k (fold_left (fun d kx => dset (fst kx) (snd kx) d) es d) = dget k d).
      { clear. induction es as [|[k1 x1] es IH]; intros d Hn; [reflexivity|]. cbn [fold_left fst snd].
        rewrite IH; [|intros Hi; apply Hn; right; exact Hi]. apply dget_dset_neq. intros ->. apply Hn. left. reflexivity. }
      rewrite Hout; [|exact Hn]. apply dget_dset_eq.
  Qed.

  Lemma fold_dset_keys : forall (es : list (K * V)) (d0 : dict K V) k,
    In k (dkeys (fold_left (fun d kx => dset (fst kx) (snd kx) d) es d0)) <-> In k (dkeys d0) \/ In k (map fst es).
  Proof.
    induction es as [|[k1 x1] es IH]; intros d0 k; cbn [fold_left fst snd map In]; [tauto|].
    rewrite IH, dkeys_dset_iff. intuition congruence.
  Qed.

  Lemma fold_dset_nodup : forall (es : list (K * V)) (d0 : dict K V), NoDup (dkeys d0) ->
    NoDup (dkeys (fold_left (fun d kx => dset (fst kx) (snd kx) d) es d0)).
  Proof. induction es as [|[k1 x1] es IH]; intros d0 Hn; [exact Hn|]. cbn. apply IH. apply dset_NoDup. exact Hn. Qed.

  (** The keys of the mapping of a match are the outcomes. *)
  Definition proper (mt : ematch) : Prop :=
    NoDup (dkeys (mapping mt)) /\ hashable (outcomes (of_choice mt)) /\
    forall k, In k (dkeys (mapping mt)) <-> exists o, In o (outcomes (of_choice mt)) /\ key o = Ok k.

  Theorem choice_match_spec c m default : NoDup (dkeys m) ->
    (exists mt, choice_match key c m default = Ok mt /\ of_choice mt = c /\ proper mt /\
       selects key mt (picks m default) /\ hashable (outcomes c) /\ suitable (outcomes c) m default) \/
    (choice_match key c m default = Err TypeError /\ ~ hashable (outcomes c)) \/
    (choice_match key c m default = Err ValueError /\ hashable (outcomes c) /\ ~ suitable (outcomes c) m default).
  Proof.
    intros Hnd. unfold choice_match.
    destruct (check_result (outcomes c) (dkeys m) (is_given default)) as [Ec|[[Ec Hn]|[Ec Hh]]]; rewrite Ec; cbn [bind].
    2:{ auto. }
    2:{ right. right. split; [reflexivity|]. split; [exact Hh|]. intros Hs.
        assert (Ec' : check_match_keys key (outcomes c) (dkeys m) (is_given default) = Ok tt) by (apply check_ok; auto). congruence. }
    apply check_ok in Ec. destruct Ec as [Hh Hs]. left.
    destruct default as [d|].
    - set (f := fun o => let! k := key o in let! x := get_or key m o (Some d) in Ok (k, x)).
      assert (Hf : forall o, In o (outcomes c) -> exists k x, key o = Ok k /\ f o = Ok (k, x) /\ picks m (Some d) o x).
      { intros o Ho. destruct (Hh o Ho) as [k Hk]. destruct (get_or_picks _ _ _ o Hh Hs Ho) as (x & Ex & Hx).
        exists k, x. split; [exact Hk|]. split; [|exact Hx]. unfold f. rewrite Hk. cbn [bind]. rewrite Ex. reflexivity. }
      destruct (mapM_ok_exists f (outcomes c)) as [es Ees].
      { intros o Ho. destruct (Hf o Ho) as (k & x & _ & E & _). eauto. }
      fold f. rewrite Ees. cbn [bind]. eexists. split; [reflexivity|]. cbn [of_choice mapping]. split; [reflexivity|].
      assert (Hes : forall k x, In (k, x) es <-> exists o, In o (outcomes c) /\ f o = Ok (k, x)).
      { intros k x. apply (mapM_in f _ es (k, x) Ees). }
      assert (Huniq : forall k1 x1 x2, In (k1, x1) es -> In (k1, x2) es -> x1 = x2).
      { intros k1 x1 x2 H1 H2. apply Hes in H1, H2. destruct H1 as (o1 & _ & E1), H2 as (o2 & _ & E2).
        unfold f, get_or in E1, E2.
        destruct (key o1) as [k3|]; [|discriminate]. destruct (key o2) as [k4|]; [|discriminate]. cbn [bind] in E1, E2.
        destruct (dget k3 m) as [y|] eqn:G1; cbn [bind] in E1; injection E1 as -> <-;
          destruct (dget k4 m) as [z|] eqn:G2; cbn [bind] in E2; injection E2 as -> <-; congruence. }
      split; [|split; [|auto]].
      + split; [apply fold_dset_nodup; constructor|]. split; [exact Hh|]. intros k. cbn [mapping of_choice]. rewrite fold_dset_keys. cbn [dkeys map In].
        split.
        * intros [[]|Hk]. apply in_map_iff in Hk. destruct Hk as ([k' x] & E & Hin). cbn in E. subst k'.
          apply Hes in Hin. destruct Hin as (o & Ho & Eo). destruct (Hf o Ho) as (k2 & x2 & Hk2 & Ef & _).
          rewrite Ef in Eo. injection Eo as -> ->. eauto.
        * intros (o & Ho & Hk). right. destruct (Hf o Ho) as (k2 & x2 & Hk2 & Ef & _).
          rewrite Hk in Hk2. injection Hk2 as <-. apply in_map_iff. exists (k, x2). split; [reflexivity|]. apply Hes. eauto.
      + intros o Ho. cbn [of_choice] in Ho. destruct (Hf o Ho) as (k & x & Hk & Ef & Hx). exists k, x. split; [exact Hk|]. split; [|exact Hx].
        cbn [mapping]. apply fold_dset_get; [exact Huniq|]. apply Hes. eauto.
    - eexists. split; [reflexivity|]. split; [reflexivity|]. cbn [mapping of_choice]. split; [|split; [|auto]].
      + split; [exact Hnd|]. split; [exact Hh|]. intros k. cbn [mapping of_choice]. destruct Hs as [Hs Hc]. split.
        * intros Hk. destruct (Hs k Hk) as (v & Hv & Ek). eauto.
        * intros (o & Ho & Hk). eapply Hc; eauto.
      + intros o Ho. cbn [of_choice] in Ho. destruct (Hh o Ho) as [k Hk]. destruct (get_or_picks _ _ _ o Hh Hs Ho) as (x & _ & (k' & Hk' & Hx)).
        rewrite Hk in Hk'. injection Hk' as <-. exists k, x. split; [exact Hk|]. cbn [mapping].
        destruct Hx as [Hx|[_ Hx]]; [|discriminate]. split; [exact Hx|]. exists k. auto.
  Qed.

  Theorem match_match_spec mt m default : proper mt ->
    (exists mt', match_match key mt m default = Ok mt' /\ of_choice mt' = of_choice mt /\ proper mt' /\
       (forall o, In o (outcomes (of_choice mt)) ->
          exists k x y, key o = Ok k /\ dget k (mapping mt) = Some x /\ dget k (mapping mt') = Some y /\ picks m default x y) /\
       hashable (map snd (mapping mt)) /\ suitable (map snd (mapping mt)) m default) \/
    (match_match key mt m default = Err TypeError /\ ~ hashable (map snd (mapping mt))) \/
    (match_match key mt m default = Err ValueError /\ hashable (map snd (mapping mt)) /\ ~ suitable (map snd (mapping mt)) m default).
  Proof.
    intros (Hnd & Hho & Hkeys). unfold match_match.
    destruct (check_result (map snd (mapping mt)) (dkeys m) (is_given default)) as [Ec|[[Ec Hn]|[Ec Hh]]]; rewrite Ec; cbn [bind].
    2:{ auto. }
    2:{ right. right. split; [reflexivity|]. split; [exact Hh|]. intros Hs.
        assert (Ec' : check_match_keys key (map snd (mapping mt)) (dkeys m) (is_given default) = Ok tt) by (apply check_ok; auto). congruence. }
    apply check_ok in Ec. destruct Ec as [Hh Hs]. left.
    set (f := fun kv : K * V => let! x := get_or key m (snd kv) default in Ok (fst kv, x)).
    assert (Hf : forall k v, In (k, v) (mapping mt) -> exists x, f (k, v) = Ok (k, x) /\ picks m default v x).
    { intros k v Hin. destruct (get_or_picks _ _ _ v Hh Hs) as (x & Ex & Hx); [apply (in_map snd) in Hin; exact Hin|].
      exists x. split; [|exact Hx]. unfold f. cbn [fst snd]. rewrite Ex. reflexivity. }
    destruct (mapM_ok_exists f (mapping mt)) as [es Ees].
    { intros [k v] Hin. destruct (Hf k v Hin) as (x & E & _). eauto. }
    fold f. rewrite Ees. cbn [bind].
    assert (Hfst : map fst es = dkeys (mapping mt)).
    { apply mapM_Forall2 in Ees. clear -Ees. unfold dkeys. induction Ees as [|a b l1 l2 Hab _ IH]; [reflexivity|].
      cbn. f_equal; [|exact IH]. unfold f in Hab. destruct (get_or key m (snd a) default); [|discriminate]. cbn in Hab. injection Hab as <-. reflexivity. }
    set (m' := fold_left (fun d kx => dset (fst kx) (snd kx) d) es []).
    assert (Hnd' : NoDup (dkeys m')) by (apply fold_dset_nodup; constructor).
    assert (Hk' : forall k, In k (dkeys m') <-> In k (dkeys (mapping mt))).
    { intros k. unfold m'. rewrite fold_dset_keys. cbn. rewrite Hfst. tauto. }
    assert (Hsuit : suitable (outcomes (of_choice mt)) m' None).
    { split.
      - intros k Hk. apply Hk' in Hk. apply Hkeys. exact Hk.
      - intros _ v k Hv Ek. apply Hk'. apply Hkeys. eauto. }
    destruct (choice_match_spec (of_choice mt) m' None Hnd') as [(mt' & E & Eo & Hp & Hsel & _)|[[_ Hn]|[_ [_ Hn]]]];
      [|contradiction|contradiction].
    exists mt'. split; [exact E|]. split; [exact Eo|]. split; [exact Hp|]. split; [|auto].
    intros o Ho. rewrite <- Eo in Ho. destruct (Hsel o Ho) as (k & y & Hk & Hy & (k2 & Hk2 & Hy2)). rewrite Hk in Hk2. injection Hk2 as <-.
    destruct Hy2 as [Hy2|[_ Hy2]]; [|discriminate].
    rewrite Eo in Ho. assert (Hin : In k (dkeys (mapping mt))) by (apply Hkeys; eauto).
    apply dget_in_keys in Hin. destruct Hin as [x Ex]. exists k, x, y. split; [exact Hk|]. split; [exact Ex|]. split; [exact Hy|].
    apply dget_In_iff in Ex; [|exact Hnd]. destruct (Hf k x Ex) as (y' & Ef & Hp').
    assert (Hes : In (k, y') es) by (apply (mapM_in f _ es (k, y') Ees); eauto).
    assert (E2 : dget k m' = Some y').
    { unfold m'. apply fold_dset_get; [|exact Hes]. intros k1 x1 x2 H1 H2.
      assert (Hne : NoDup (map fst es)) by (rewrite Hfst; exact Hnd).
      apply (dget_In_iff es k1 x1) in H1; [|exact Hne]. apply (dget_In_iff es k1 x2) in H2; [|exact Hne]. congruence. }
    congruence.
  Qed.

  Theorem match_value_spec mt o f : proper mt -> selects key mt f -> chosen_outcome (of_choice mt) = Ok o ->
    exists x, match_value key mt = Ok x /\ f o x.
  Proof.
    intros Hp Hs Eo. unfold match_value. rewrite Eo. cbn [bind].
    assert (Ho : In o (outcomes (of_choice mt))).
    { unfold chosen_outcome in Eo. destruct (nth_error _ _) eqn:En; [|discriminate]. injection Eo as ->. eapply nth_error_In; eauto. }
    destruct (Hs o Ho) as (k & x & Ek & Eg & Hx). rewrite Ek. cbn [bind]. rewrite Eg. eauto.
  Qed.

  Theorem match_composition c m1 d1 m2 d2 mt1 mt2 o : NoDup (dkeys m1) ->
    choice_match key c m1 d1 = Ok mt1 -> match_match key mt1 m2 d2 = Ok mt2 -> chosen_outcome c = Ok o ->
    exists x y, match_value key mt1 = Ok x /\ picks m1 d1 o x /\
                match_value key mt2 = Ok y /\ picks m2 d2 x y.
  Proof.
    intros Hnd E1 E2 Eo.
    destruct (choice_match_spec c m1 d1 Hnd) as [(mt & E & Ec & Hp & Hs & _)|[[E _]|[E _]]]; rewrite E in E1; try discriminate.
    injection E1 as ->.
    destruct (match_match_spec mt1 m2 d2 Hp) as [(mt & E' & Ec' & Hp' & Hs' & _)|[[E' _]|[E' _]]]; rewrite E' in E2; try discriminate.
    injection E2 as ->. subst c.
    destruct (match_value_spec mt1 o _ Hp Hs Eo) as (x & Ex & Hx).
    assert (Ho : In o (outcomes (of_choice mt1))).
    { unfold chosen_outcome in Eo. destruct (nth_error _ _) eqn:En; [|discriminate]. injection Eo as ->. eapply nth_error_In; eauto. }
    destruct (Hs' o Ho) as (k & x' & y & Hk & Gx & Gy & Hy).
    assert (x' = x).
    { unfold match_value in Ex. rewrite Eo in Ex. cbn [bind] in Ex. rewrite Hk in Ex. cbn [bind] in Ex. rewrite Gx in Ex. congruence. }
    subst x'. exists x, y. split; [exact Ex|]. split; [exact Hx|]. split; [|exact Hy].
    unfold match_value. rewrite Ec', Eo. cbn [bind]. rewrite Hk. cbn [bind]. rewrite Gy. reflexivity.
  Qed.

  Theorem match_default outs m default : NoDup (dkeys m) ->
    (outs = [] -> make_choice outs = Err ValueError) /\
    forall o others c mt, outs = o :: others -> make_choice outs = Ok c -> choice_match key c m default = Ok mt ->
      exists x, match_value key mt = Ok x /\ picks m default o x.
  Proof.
    intros Hnd. split; [intros ->; reflexivity|]. intros o others c mt -> Ec Em. cbn in Ec. injection Ec as <-.
    destruct (choice_match_spec (mk_echoice (o :: others) None) m default Hnd) as [(mt' & E & Eo & Hp & Hs & _)|[[E _]|[E _]]];
      rewrite E in Em; try discriminate.
    injection Em as ->. eapply match_value_spec; [exact Hp|exact Hs|]. rewrite Eo. reflexivity.
  Qed.
End Proofs.
