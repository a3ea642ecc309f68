(** The graph of choices describes how choices are nested. *)
From Verif Require Import Base L_dict M_traverse L_traverse M_expr L_expr1 L_expr5 M_grid L_grid M_choicegraph L_conflicts.
From Coq Require Import Relations.Relation_Operators Relations.Operators_Properties.
Open Scope string_scope.
Open Scope list_scope.
Open Scope nat_scope.

(** ** Specification *)
Section Spec.
  Context {V K : Type} `{EqD K}.
  Variable hash_obj : oid -> res K.
  Variable h : heap V K.

  Definition is_choice (o : oid) : Prop :=
    match h o with OChoice _ _ _ | ONumChoice _ _ _ => True | _ => False end.

  Definition has_outcomes (c : oid) (items : list oid) : Prop :=
    exists name outs chosen ty, h c = OChoice name outs chosen /\ h outs = OSeq ty items.

  (** [m] maps the outcome [w] to [t]. *)
  Definition maps (m w t : oid) : Prop :=
    exists key ty entries, hash_obj w = Ok key /\ h m = OMap ty entries /\ dget key entries = Some t.

  (** [t] is only used by [x] when outcome [i] of the choice [d] is selected. *)
  Definition opens (x d i t : oid) : Prop :=
    (x = d /\ exists items, has_outcomes d items /\ nth_error items i = Some t) \/
    (exists m items w, h x = OChoiceMatch d m /\ has_outcomes d items /\
       nth_error items i = Some w /\ maps m w t).

  (** [t] is used by [x] whatever the choices. *)
  Definition stays (x t : oid) : Prop :=
    match h x with
    | OChoice _ _ _ | ONumChoice _ _ _ => False
    | OChoiceMatch c _ => t = c
    | ob => In t (children ob)
    end.

  Inductive visited (o : oid) : oid -> Prop :=
  | visited_self : visited o o
  | visited_stays x t : stays o t -> visited t x -> visited o x
  | visited_opens x d i t : opens o d i t -> visited t x -> visited o x.

  (** [c] is a choice used by [o] outside of the outcomes of other choices. *)
  Inductive direct : oid -> oid -> Prop :=
  | direct_self o : is_choice o -> direct o o
  | direct_stays o t c : stays o t -> direct t c -> direct o c.

  (** Choices have outcomes; what [.match()] gets is an entry for each outcome, and nothing
      else. *)
  Record choices_ok (root : oid) : Prop := {
    ok_outcomes : forall c name outs chosen, part_of h root c -> h c = OChoice name outs chosen ->
      exists items, has_outcomes c items;
    ok_match : forall x c m, part_of h root x -> h x = OChoiceMatch c m ->
      exists items ty entries, has_outcomes c items /\ h m = OMap ty entries /\
        forall w, In w items -> exists t, maps m w t;
    ok_full : forall x c m t, part_of h root x -> h x = OChoiceMatch c m -> In t (children (h m)) ->
      exists i, opens x c i t
  }.

  (** What the grid is told about a choice. *)
  Definition describes (c : oid) (k : choice V) : Prop :=
    match h c with
    | OChoice _ _ chosen => exists items, has_outcomes c items /\ k = Enum (length items) chosen
    | ONumChoice _ default chosen => k = Numeric default chosen
    | _ => False
    end.
End Spec.

(** ** Proofs *)
Section Unique.
  Lemma unique_in : forall l (x : oid), In x (unique l) <-> In x l.
  Proof.
    induction l as [|a l IH]; intros x; cbn; [tauto|]. rewrite filter_In, IH.
    split; [intros [->|[Hx _]]; auto|]. intros [->|Hx]; [auto|].
    destruct (eqd x a) as [->|Hne]; [auto|]. right. split; [exact Hx|].
    apply negb_true_iff. apply eqb_of_false. exact Hne.
  Qed.

  Lemma index_of_nth : forall l (c : oid) i, index_of c l = Ok i -> nth_error l i = Some c.
  Proof.
    induction l as [|x l IH]; intros c i; cbn; [discriminate|]. destruct (eqd c x) as [->|Hne].
    - intros E. injection E as <-. reflexivity.
    - destruct (index_of c l) as [j|] eqn:Ej; [|discriminate]. cbn [bind]. intros E. injection E as <-. cbn. apply IH. exact Ej.
  Qed.

  Lemma index_of_in : forall l (c : oid), In c l -> exists i, index_of c l = Ok i.
  Proof.
    induction l as [|x l IH]; intros c Hc; [destruct Hc|]. destruct Hc as [->|Hin]; cbn.
    - destruct (eqd c c); [eauto|contradiction].
    - destruct (eqd c x); [eauto|]. destruct (IH c Hin) as [i ->]. cbn. eauto.
  Qed.

  Lemma nth_index l (c : oid) i : NoDup l -> nth_error l i = Some c -> index_of c l = Ok i.
  Proof.
    intros Hnd E. destruct (index_of_in l c) as [j Ej]; [eapply nth_error_In; eauto|].
    rewrite Ej. f_equal. apply index_of_nth in Ej. rewrite NoDup_nth_error in Hnd. apply Hnd.
    - apply nth_error_Some. congruence.
    - congruence.
  Qed.
End Unique.

Section Visit.
  Context {V K : Type} `{EqD K}.
  Variable hash_obj : oid -> res K.
  Variable h : heap V K.
  Notation handler := (cg_handler hash_obj h).
  Notation opens := (opens hash_obj h).
  Notation stays := (stays h).
  Notation visited := (visited hash_obj h).
  Notation direct := (direct h).
  Notation is_choice := (is_choice h).

  Definition cedge (o t : oid) : Prop := stays o t \/ exists d i, opens o d i t.

  Lemma outcomes_of_iff c items : outcomes_of h c = Ok items <-> has_outcomes h c items.
  Proof.
    unfold outcomes_of, has_outcomes. split.
    - destruct (h c) as [| | | |name outs ch| | | |] eqn:Ec; try discriminate.
      destruct (h outs) as [| |ty its| | | | | |] eqn:Eo; try discriminate. intros E. injection E as ->.
      exists name, outs, ch, ty. auto.
    - intros (name & outs & ch & ty & -> & ->). reflexivity.
  Qed.

  Lemma mapped_iff m w t : mapped hash_obj h m w = Ok t <-> maps hash_obj h m w t.
  Proof.
    unfold mapped, maps. split.
    - destruct (hash_obj w) as [key|]; [|discriminate]. cbn [bind].
      destruct (h m) as [|ty entries| | | | | | |]; try discriminate.
      destruct (dget key entries) eqn:Ed; [|discriminate]. intros E. injection E as ->. eauto 6.
    - intros (key & ty & entries & -> & -> & Ed). cbn [bind]. rewrite Ed. reflexivity.
  Qed.

  Lemma gen_all_each (P : oid -> Prop) c : forall items idx k,
    (forall t, In (Ok t) items -> P t) -> gen_all P k -> gen_all P (each_outcome c idx items k).
  Proof.
    induction items as [|r items IH]; intros idx k Hi Hk; cbn; [exact Hk|]. intros s.
    destruct r as [t|e]; cbn; [|exact I]. split; [apply Hi; left; reflexivity|]. intros _ s'.
    apply IH; [|exact Hk]. intros t' Ht'. apply Hi. right. exact Ht'.
  Qed.

  Lemma cg_handler_edges o : gen_all (cedge o) (handler o).
  Proof.
    unfold cg_handler. destruct (h o) as [i name isX isY|ty items|ty items|a b c|name outs ch|name df ch|c m|cls p|w] eqn:Eh.
    5:{ cbn. intros s. destruct (outcomes_of h o) as [items|e] eqn:Eo; [|exact I].
        apply gen_all_each; [|cbn; auto]. intros t Ht. apply in_map_iff in Ht. destruct Ht as (u & E & Hu).
        injection E as ->. apply In_nth_error in Hu. destruct Hu as [i Hi]. right. exists o, i. left.
        split; [reflexivity|]. exists items. split; [apply outcomes_of_iff; exact Eo|exact Hi]. }
    5:{ cbn. auto. }
    5:{ cbn. split; [left; unfold L_choicegraph.stays; rewrite Eh; reflexivity|]. intros _.
        destruct (outcomes_of h c) as [items|e] eqn:Eo; [|exact I].
        apply gen_all_each; [|exact I]. intros t Ht. apply in_map_iff in Ht. destruct Ht as (u & E & Hu).
        apply mapped_iff in E. apply In_nth_error in Hu. destruct Hu as [i Hi].
        right. exists c, i. right. exists m, items, u. split; [exact Eh|]. split; [apply outcomes_of_iff; exact Eo|auto]. }
    all: apply gen_all_yield_all; [|intros; exact I]; intros t Ht; left; unfold L_choicegraph.stays; rewrite Eh; exact Ht.
  Qed.

  Lemma cedge_child o t : cedge o t -> clos_trans oid (child h) o t.
  Proof.
    intros [Hs|(d & i & [(-> & items & (n & outs & ch & ty & Ed & Eo) & Hn)|(m & items & w & Ex & _ & _ & (key & ty & entries & _ & Em & Hg))])].
    - apply t_step. unfold L_choicegraph.stays in Hs. unfold child. destruct (h o); try contradiction; try exact Hs.
      subst. left. reflexivity.
    - eapply t_trans with outs; apply t_step; unfold child; [rewrite Ed; left; reflexivity|].
      rewrite Eo. cbn. eapply nth_error_In; eauto.
    - eapply t_trans with m; apply t_step; unfold child; [rewrite Ex; right; left; reflexivity|].
      rewrite Em. cbn. apply dget_In_weak in Hg. apply (in_map snd) in Hg. exact Hg.
  Qed.

  Lemma visited_part o x : visited o x -> part_of h o x.
  Proof.
    assert (Hct : forall a b, clos_trans oid (child h) a b -> part_of h a b).
    { intros a b Hab. apply rt_part. apply clos_rt_rt1n. clear -Hab. induction Hab; [apply rt_step; assumption|].
      eapply rt_trans; eauto. }
    intros Hv. induction Hv as [o|o x t Hs Hv IH|o x d i t Ho Hv IH]; [constructor| |];
      (eapply reach_trans; [|exact IH]; apply Hct; apply cedge_child).
    - left. exact Hs.
    - right. eauto.
  Qed.

  Lemma visited_trans a b c : visited a b -> visited b c -> visited a c.
  Proof.
    intros H1 H2. induction H1; auto.
    - eapply visited_stays; eauto.
    - eapply visited_opens; eauto.
  Qed.

  Lemma visited_edge a b : cedge a b -> visited a b.
  Proof. intros [Hs|(d & i & Ho)]; [eapply visited_stays|eapply visited_opens]; eauto; constructor. Qed.

  Lemma direct_visited o c : direct o c -> visited o c /\ is_choice c.
  Proof.
    intros Hd. induction Hd as [o Hc|o t c Hs Hd [IH Hc]].
    - split; [constructor|exact Hc].
    - split; [eapply visited_stays; eauto|exact Hc].
  Qed.

  (** *** The effect of a visit *)
  Definition kids (q : ckey) (s : cg_st) : list oid :=
    match dget q (cs_children s) with Some l => l | None => [] end.

  Record Step (A : oid -> Prop) (B : ckey -> oid -> Prop) (s s' : cg_st) : Prop := {
    st_cur : cs_current s' = cs_current s;
    st_choices : forall c, In c (cs_choices s') <-> In c (cs_choices s) \/ A c;
    st_nodup : NoDup (cs_choices s) -> NoDup (cs_choices s');
    st_keys : NoDup (dkeys (cs_children s)) -> NoDup (dkeys (cs_children s'));
    st_kids : forall q c, In c (kids q s') <-> In c (kids q s) \/ B q c;
    st_nonempty : (forall q l, dget q (cs_children s) = Some l -> l <> []) ->
                  forall q l, dget q (cs_children s') = Some l -> l <> []
  }.

  Lemma Step_refl s : Step (fun _ => False) (fun _ _ => False) s s.
  Proof. split; auto; intros; intuition. Qed.

  Lemma Step_trans A1 B1 A2 B2 A B s1 s2 s3 :
    Step A1 B1 s1 s2 -> Step A2 B2 s2 s3 ->
    (forall c, A c <-> A1 c \/ A2 c) -> (forall q c, B q c <-> B1 q c \/ B2 q c) ->
    Step A B s1 s3.
  Proof.
    intros H1 H2 HA HB. split.
    - rewrite (st_cur _ _ _ _ H2). apply (st_cur _ _ _ _ H1).
    - intros c. rewrite (st_choices _ _ _ _ H2), (st_choices _ _ _ _ H1), HA. tauto.
    - intros Hn. apply (st_nodup _ _ _ _ H2), (st_nodup _ _ _ _ H1), Hn.
    - intros Hn. apply (st_keys _ _ _ _ H2), (st_keys _ _ _ _ H1), Hn.
    - intros q c. rewrite (st_kids _ _ _ _ H2), (st_kids _ _ _ _ H1), HB. tauto.
    - intros Hn. apply (st_nonempty _ _ _ _ H2), (st_nonempty _ _ _ _ H1), Hn.
  Qed.

  Lemma Step_iff A1 B1 A B s1 s2 : Step A1 B1 s1 s2 ->
    (forall c, A c <-> A1 c) -> (forall q c, B q c <-> B1 q c) -> Step A B s1 s2.
  Proof.
    intros H1 HA HB. destruct H1 as [h1 h2 h3 h4 h5 h6]. split; auto.
    - intros c. rewrite HA. apply h2.
    - intros q c. rewrite HB. apply h5.
  Qed.

  Lemma Step_note c k rest s : cs_current s = k :: rest ->
    Step (fun _ => False) (fun q x => q = k /\ x = c) s (note_child c s).
  Proof.
    intros Ec. unfold note_child. rewrite Ec. split; cbn; auto.
    - tauto.
    - intros Hn. apply dset_NoDup. exact Hn.
    - intros q x. unfold kids. cbn. rewrite dget_dset_if. destruct (eqd q k) as [->|Hne].
      + destruct (dget k (cs_children s)) as [l|]; cbn.
        * rewrite in_app_iff. cbn. intuition.
        * intuition.
      + intuition.
    - intros Hn q l. rewrite dget_dset_if. destruct (eqd q k) as [->|Hne]; [|apply Hn].
      intros E. injection E as <-. destruct (dget k (cs_children s)) as [l'|]; [destruct l'; discriminate|discriminate].
  Qed.

  Lemma Step_register c s : Step (fun x => x = c) (fun _ _ => False) s (register c s).
  Proof.
    unfold register. destruct (mem c (cs_choices s)) eqn:Em; split; cbn; auto.
    - apply mem_true in Em. intros x. intuition. subst. exact Em.
    - intros q x. unfold kids. cbn. tauto.
    - intros x. rewrite in_app_iff. cbn. intuition.
    - apply mem_false in Em. intros Hn. apply NoDup_app_intro; auto; [constructor; [intros []|constructor]|].
      intros x Hx [<-|[]]. auto.
    - intros q x. unfold kids. cbn. tauto.
  Qed.

  Lemma Step_in_context A B k s s1 : Step A B (push k s) s1 -> Step A B s (pop s1).
  Proof.
    intros [h1 h2 h3 h4 h5 h6]. split; cbn in *; auto.
    - rewrite h1. reflexivity.
  Qed.

  (** What visiting [o] in the context [k] adds. *)
  Definition adds_choice (o c : oid) : Prop := visited o c /\ is_choice c.
  Definition adds_nested (o : oid) (q : ckey) (c : oid) : Prop :=
    exists x d i t, visited o x /\ opens x d i t /\ q = Some (d, i) /\ direct t c.
  Definition adds (o : oid) (k q : ckey) (c : oid) : Prop := (q = k /\ direct o c) \/ adds_nested o q c.

  Definition good (vc : oid -> cg_st -> cg_st * outcome unit) : Prop :=
    forall o s s' u k rest, cs_current s = k :: rest -> vc o s = (s', TOk u) ->
      Step (adds_choice o) (adds o k) s s'.

  Fixpoint visit_outcomes (vc : oid -> cg_st -> cg_st * outcome unit) (path : list oid) (c : oid) (idx : nat)
    (items : list (res oid)) (s : cg_st) : cg_st * outcome unit :=
    match items with
    | [] => (s, TOk tt)
    | Err e :: _ => (push (Some (c, idx)) s, TErr e)
    | Ok t :: items' =>
        obind (vchk vc path t (push (Some (c, idx)) s))
          (fun _ s1 => visit_outcomes vc path c (S idx) items' (pop s1))
    end.

  Lemma run_gen_each vc path c : forall items idx k s,
    run_gen vc path (each_outcome c idx items k) s
    = obind (visit_outcomes vc path c idx items s) (fun _ s1 => run_gen vc path k s1).
  Proof.
    induction items as [|[t|e] items IH]; intros idx k s; [reflexivity| |reflexivity].
    cbn [each_outcome visit_outcomes]. unfold gmodify at 1. cbn [run_gen].
    rewrite obind_assoc. unfold vchk. destruct (mem t path); [reflexivity|].
    destruct (vc t (push (Some (c, idx)) s)) as [s1 [v|e|t'|]]; cbn [obind]; try reflexivity.
    apply IH.
  Qed.

  Lemma cg_visit_S d path o s :
    visit handler (S d) path o s =
    match h o with
    | OChoice _ _ _ =>
        match outcomes_of h o with
        | Ok items => obind (visit_outcomes (visit handler d (o :: path)) (o :: path) o 0 (map Ok items) (note_child o s))
                        (fun _ s1 => (register o s1, TOk tt))
        | Err e => (note_child o s, TErr e)
        end
    | ONumChoice _ _ _ => (register o (note_child o s), TOk tt)
    | OChoiceMatch c m =>
        obind (vchk (visit handler d (o :: path)) (o :: path) c s) (fun _ s1 =>
          match outcomes_of h c with
          | Ok items => visit_outcomes (visit handler d (o :: path)) (o :: path) c 0 (map (mapped hash_obj h m) items) s1
          | Err e => (s1, TErr e)
          end)
    | ob => obind (visit_all (visit handler d (o :: path)) (o :: path) (children ob) s) (fun _ s1 => (s1, TOk tt))
    end.
  Proof.
    cbn [visit]. generalize (visit handler d (o :: path)). intros vc. unfold cg_handler.
    destruct (h o) as [i name isX isY|ty items|ty items|a b c|name outs ch|name df ch|c m|cls p|w] eqn:Eh;
      try (rewrite run_gen_yield_all; reflexivity).
    - unfold gmodify at 1. cbn [run_gen]. destruct (outcomes_of h o) as [items|e]; [|reflexivity].
      rewrite run_gen_each. reflexivity.
    - reflexivity.
    - rewrite run_gen_yield. apply obind_ext. intros u s1. destruct (outcomes_of h c) as [items|e]; [|reflexivity].
      rewrite run_gen_each. destruct (visit_outcomes vc (o :: path) c 0 (map (mapped hash_obj h m) items) s1) as [s2 [[]|e|t|]]; reflexivity.
  Qed.

  Lemma visit_outcomes_step vc path c : good vc -> forall items idx s s' k rest,
    cs_current s = k :: rest -> visit_outcomes vc path c idx items s = (s', TOk tt) ->
    Step (fun x => exists i t, nth_error items i = Some (Ok t) /\ adds_choice t x)
         (fun q x => exists i t, nth_error items i = Some (Ok t) /\ adds t (Some (c, idx + i)) q x) s s'.
  Proof.
    intros Hg. induction items as [|[t|e] items IH]; intros idx s s' k rest Ec E; cbn [visit_outcomes] in E.
    - injection E as <-. eapply Step_iff; [apply Step_refl| |].
      + intros x. split; [intros (i & t & En & _); destruct i; discriminate|intros []].
      + intros q x. split; [intros (i & t & En & _); destruct i; discriminate|intros []].
    - apply obind_ok in E. destruct E as (u & s1 & E1 & E2). unfold vchk in E1. destruct (mem t path); [discriminate|].
      pose proof (Hg t (push (Some (c, idx)) s) s1 u (Some (c, idx)) (cs_current s) eq_refl E1) as H1.
      apply Step_in_context in H1.
      assert (Ec1 : cs_current (pop s1) = k :: rest) by (rewrite (st_cur _ _ _ _ H1); exact Ec).
      pose proof (IH (S idx) (pop s1) s' k rest Ec1 E2) as H2.
      eapply Step_trans; [exact H1|exact H2| |].
      + intros x. split.
        * intros ([|i] & w & En & Hx); cbn in En; [injection En as ->; auto|]. right. exists i, w. auto.
        * intros [Hx|(i & w & En & Hx)]; [exists 0, t; auto|exists (S i), w; auto].
      + intros q x. split.
        * intros ([|i] & w & En & Hx); cbn in En.
          -- injection En as ->. rewrite Nat.add_0_r in Hx. auto.
          -- right. exists i, w. split; [exact En|]. replace (S idx + i) with (idx + S i) by lia. exact Hx.
        * intros [Hx|(i & w & En & Hx)].
          -- exists 0, t. rewrite Nat.add_0_r. auto.
          -- exists (S i), w. split; [exact En|]. replace (idx + S i) with (S idx + i) by lia. exact Hx.
    - discriminate.
  Qed.

  Lemma visit_all_step vc path : good vc -> forall items s s' vs k rest,
    cs_current s = k :: rest -> visit_all vc path items s = (s', TOk vs) ->
    Step (fun x => exists t, In t items /\ adds_choice t x)
         (fun q x => exists t, In t items /\ adds t k q x) s s'.
  Proof.
    intros Hg. induction items as [|t items IH]; intros s s' vs k rest Ec E.
    - cbn in E. injection E as <- _. eapply Step_iff; [apply Step_refl| |].
      + intros x. split; [intros (t & [] & _)|intros []].
      + intros q x. split; [intros (t & [] & _)|intros []].
    - apply visit_all_cons_ok in E. destruct E as (v & s1 & vs' & _ & E1 & E2 & _).
      pose proof (Hg t s s1 v k rest Ec E1) as H1.
      assert (Ec1 : cs_current s1 = k :: rest) by (rewrite (st_cur _ _ _ _ H1); exact Ec).
      pose proof (IH s1 s' vs' k rest Ec1 E2) as H2.
      eapply Step_trans; [exact H1|exact H2| |].
      + intros x. split; [intros (w & [<-|Hw] & Hx); eauto|]. intros [Hx|(w & Hw & Hx)]; [exists t|exists w]; cbn; auto.
      + intros q x. split; [intros (w & [<-|Hw] & Hx); eauto|]. intros [Hx|(w & Hw & Hx)]; [exists t|exists w]; cbn; auto.
  Qed.

  Lemma visited_inv o x : visited o x <-> x = o \/ (exists t, stays o t /\ visited t x) \/ (exists d i t, opens o d i t /\ visited t x).
  Proof.
    split.
    - intros Hv. inversion Hv; subst; eauto 10.
    - intros [->|[(t & Hs & Hv)|(d & i & t & Ho & Hv)]]; [constructor|eapply visited_stays; eauto|eapply visited_opens; eauto].
  Qed.

  Lemma direct_inv o x : direct o x <-> (is_choice o /\ x = o) \/ exists t, stays o t /\ direct t x.
  Proof.
    split.
    - intros Hd. inversion Hd; subst; eauto.
    - intros [[Hc ->]|(t & Hs & Hd)]; [constructor; exact Hc|eapply direct_stays; eauto].
  Qed.

  Lemma adds_choice_inv o x : adds_choice o x <->
    (is_choice o /\ x = o) \/ (exists t, stays o t /\ adds_choice t x) \/ (exists d i t, opens o d i t /\ adds_choice t x).
  Proof.
    unfold adds_choice. rewrite visited_inv. split.
    - intros [[->|[(t & Hs & Hv)|(d & i & t & Ho & Hv)]] Hc]; eauto 10.
    - intros [[Hc ->]|[(t & Hs & Hv & Hc)|(d & i & t & Ho & Hv & Hc)]]; split; eauto 10.
  Qed.

  Lemma adds_inv o k q x : adds o k q x <->
    (q = k /\ is_choice o /\ x = o) \/ (exists t, stays o t /\ adds t k q x) \/
    (exists d i t, opens o d i t /\ adds t (Some (d, i)) q x).
  Proof.
    unfold adds, adds_nested. split.
    - intros [[-> Hd]|(y & d & i & t & Hv & Ho & -> & Hd)].
      + apply direct_inv in Hd. destruct Hd as [Hd|(t & Hs & Hd)]; eauto 10.
      + apply visited_inv in Hv. destruct Hv as [->|[(w & Hs & Hv)|(d' & i' & w & Ho' & Hv)]].
        * right. right. exists d, i, t. eauto 10.
        * right. left. exists w. split; [exact Hs|]. right. eauto 10.
        * right. right. exists d', i', w. split; [exact Ho'|]. right. eauto 10.
    - intros [(-> & Hc & ->)|[(t & Hs & [[-> Hd]|(y & d & i & w & Hv & Ho & -> & Hd)])|(d & i & t & Ho & [[-> Hd]|(y & d' & i' & w & Hv & Ho' & -> & Hd)])]].
      + left. split; [reflexivity|constructor; exact Hc].
      + left. split; [reflexivity|eapply direct_stays; eauto].
      + right. exists y, d, i, w. split; [eapply visited_stays; eauto|auto].
      + right. exists o, d, i, t. split; [constructor|auto].
      + right. exists y, d', i', w. split; [eapply visited_opens; eauto|auto].
  Qed.

  Lemma opens_choice o name outs ch items d i t : h o = OChoice name outs ch -> has_outcomes h o items ->
    (opens o d i t <-> d = o /\ nth_error items i = Some t).
  Proof.
    intros Eo (n & ou & c' & ty & E1 & E2). split.
    - intros [(-> & its & (n' & ou' & c'' & ty' & E1' & E2') & Hn)|(m & its & w & E & _)]; [|congruence].
      split; [reflexivity|]. congruence.
    - intros [-> Hn]. left. split; [reflexivity|]. exists items. split; [|exact Hn]. exists n, ou, c', ty. auto.
  Qed.

  Lemma opens_match x c m items d i t : h x = OChoiceMatch c m -> has_outcomes h c items ->
    (opens x d i t <-> d = c /\ exists w, nth_error items i = Some w /\ maps hash_obj h m w t).
  Proof.
    intros Ex (n & ou & c' & ty & E1 & E2). split.
    - intros [(-> & its & (n' & ou' & c'' & ty' & E1' & E2') & Hn)|(m' & its & w & E & (n' & ou' & c'' & ty' & E1' & E2') & Hn & Hm)]; [congruence|].
      rewrite Ex in E. injection E as -> ->. split; [reflexivity|]. exists w. split; [congruence|exact Hm].
    - intros [-> (w & Hn & Hm)]. right. exists m, items, w. split; [exact Ex|]. split; [exists n, ou, c', ty; auto|auto].
  Qed.

  Lemma opens_other x d i t : (forall name outs ch, h x <> OChoice name outs ch) -> (forall c m, h x <> OChoiceMatch c m) ->
    ~ opens x d i t.
  Proof.
    intros H1 H2 [(-> & its & (n' & ou' & c'' & ty' & E1' & E2') & Hn)|(m & its & w & E & _)]; [eapply H1|eapply H2]; eauto.
  Qed.

  Lemma cg_visit_good : forall d path, good (visit handler d path).
  Proof.
    induction d as [|d IH]; intros path o s s' u k rest Ec E; [discriminate|].
    rewrite cg_visit_S in E. specialize (IH (o :: path)).
    assert (Hplain : forall items, (forall t, stays o t <-> In t items) -> ~ is_choice o ->
      (forall d i t, ~ opens o d i t) -> forall vs, visit_all (visit handler d (o :: path)) (o :: path) items s = (s', TOk vs) ->
      Step (adds_choice o) (adds o k) s s').
    { intros items Hst Hnc Hno vs Ev. eapply Step_iff; [eapply visit_all_step; eauto| |].
      - intros x. rewrite adds_choice_inv. split.
        + intros [[Hc _]|[(t & Hs & Hx)|(d' & i & t & Ho & _)]]; [contradiction| |destruct (Hno _ _ _ Ho)].
          exists t. split; [apply Hst; exact Hs|exact Hx].
        + intros (t & Ht & Hx). right. left. exists t. split; [apply Hst; exact Ht|exact Hx].
      - intros q x. rewrite adds_inv. split.
        + intros [(_ & Hc & _)|[(t & Hs & Hx)|(d' & i & t & Ho & _)]]; [contradiction| |destruct (Hno _ _ _ Ho)].
          exists t. split; [apply Hst; exact Hs|exact Hx].
        + intros (t & Ht & Hx). right. left. exists t. split; [apply Hst; exact Ht|exact Hx]. }
    destruct (h o) as [i name isX isY|ty items|ty items|a b c|name outs ch|name df ch|c m|cls p|w] eqn:Eh;
      try (apply obind_ok in E; destruct E as (vs & s1 & E & E'); injection E' as <- _;
           eapply Hplain; [| | |exact E];
           [intros t; unfold L_choicegraph.stays; rewrite Eh; reflexivity
           |unfold L_choicegraph.is_choice; rewrite Eh; auto
           |intros; apply opens_other; rewrite Eh; discriminate]).
    - (* Choice *)
      destruct (outcomes_of h o) as [items|e] eqn:Eo; [|discriminate].
      apply outcomes_of_iff in Eo.
      apply obind_ok in E. destruct E as ([] & s1 & E & E'). injection E' as <- _.
      pose proof (Step_note o k rest s Ec) as H1.
      assert (Ec1 : cs_current (note_child o s) = k :: rest) by (rewrite (st_cur _ _ _ _ H1); exact Ec).
      pose proof (visit_outcomes_step _ (o :: path) o IH _ _ _ _ _ _ Ec1 E) as H2.
      pose proof (Step_register o s1) as H3.
      assert (Hc : is_choice o) by (unfold L_choicegraph.is_choice; rewrite Eh; exact I).
      assert (Hns : forall t, ~ stays o t) by (intros t; unfold L_choicegraph.stays; rewrite Eh; auto).
      assert (Hnth : forall i t, nth_error (map (@Ok oid) items) i = Some (Ok t) <-> nth_error items i = Some t).
      { intros i t. rewrite nth_error_map. destruct (nth_error items i) as [w|]; cbn; split; congruence. }
      eapply Step_trans; [exact H1|eapply Step_trans; [exact H2|exact H3|intros x; apply iff_refl|intros q x; apply iff_refl]| |].
      + intros x. rewrite adds_choice_inv. cbn beta. split.
        * intros [[_ ->]|[(t & Hs & _)|(d' & i & t & Ho & Hx)]]; [auto|destruct (Hns _ Hs)|].
          apply (opens_choice _ _ _ _ _ _ _ _ Eh Eo) in Ho. destruct Ho as [-> Hn].
          right. left. exists i, t. split; [apply Hnth; exact Hn|exact Hx].
        * intros [[]|[(i & t & Hn & Hx)| ->]]; [|auto]. apply Hnth in Hn. right. right. exists o, i, t.
          split; [apply (opens_choice _ _ _ _ _ _ _ _ Eh Eo); auto|exact Hx].
      + intros q x. rewrite adds_inv. cbn beta. split.
        * intros [(-> & _ & ->)|[(t & Hs & _)|(d' & i & t & Ho & Hx)]]; [auto|destruct (Hns _ Hs)|].
          apply (opens_choice _ _ _ _ _ _ _ _ Eh Eo) in Ho. destruct Ho as [-> Hn].
          right. left. exists i, t. split; [apply Hnth; exact Hn|exact Hx].
        * intros [[-> ->]|[(i & t & Hn & Hx)|[]]]; [auto|]. apply Hnth in Hn. right. right. exists o, i, t.
          split; [apply (opens_choice _ _ _ _ _ _ _ _ Eh Eo); auto|exact Hx].
    - (* numeric choice *)
      injection E as <- _. pose proof (Step_note o k rest s Ec) as H1. pose proof (Step_register o (note_child o s)) as H3.
      assert (Hc : is_choice o) by (unfold L_choicegraph.is_choice; rewrite Eh; exact I).
      assert (Hns : forall t, ~ stays o t) by (intros t; unfold L_choicegraph.stays; rewrite Eh; auto).
      assert (Hno : forall d i t, ~ opens o d i t) by (intros; apply opens_other; rewrite Eh; discriminate).
      eapply Step_trans; [exact H1|exact H3| |].
      + intros x. rewrite adds_choice_inv. split.
        * intros [[_ ->]|[(t & Hs & _)|(d' & i & t & Ho & Hx)]]; [auto|destruct (Hns _ Hs)|destruct (Hno _ _ _ Ho)].
        * intros [[]| ->]. auto.
      + intros q x. rewrite adds_inv. split.
        * intros [(-> & _ & ->)|[(t & Hs & _)|(d' & i & t & Ho & Hx)]]; [auto|destruct (Hns _ Hs)|destruct (Hno _ _ _ Ho)].
        * intros [[-> ->]|[]]. auto.
    - (* match *)
      apply obind_ok in E. destruct E as (v & s1 & E1 & E2). unfold vchk in E1. destruct (mem c (o :: path)); [discriminate|].
      destruct (outcomes_of h c) as [items|e] eqn:Eo; [|discriminate]. apply outcomes_of_iff in Eo.
      pose proof (IH c s s1 v k rest Ec E1) as H1.
      assert (Ec1 : cs_current s1 = k :: rest) by (rewrite (st_cur _ _ _ _ H1); exact Ec). destruct u.
      pose proof (visit_outcomes_step _ (o :: path) c IH _ _ _ _ _ _ Ec1 E2) as H2.
      assert (Hnc : ~ is_choice o) by (unfold L_choicegraph.is_choice; rewrite Eh; auto).
      assert (Hst : forall t, stays o t <-> t = c) by (intros t; unfold L_choicegraph.stays; rewrite Eh; tauto).
      assert (Hnth : forall i t, nth_error (map (mapped hash_obj h m) items) i = Some (Ok t) <->
        exists w, nth_error items i = Some w /\ maps hash_obj h m w t).
      { intros i t. rewrite nth_error_map. destruct (nth_error items i) as [w|]; cbn; split.
        - intros E. injection E as E. exists w. split; [reflexivity|apply mapped_iff; exact E].
        - intros (w' & E & Hm). injection E as ->. f_equal. apply mapped_iff. exact Hm.
        - discriminate.
        - intros (w' & E & _). discriminate. }
      eapply Step_trans; [exact H1|exact H2| |].
      + intros x. rewrite adds_choice_inv. cbn beta. split.
        * intros [[Hc _]|[(t & Hs & Hx)|(d' & i & t & Ho & Hx)]]; [contradiction|apply Hst in Hs; subst; auto|].
          apply (opens_match _ _ _ _ _ _ _ Eh Eo) in Ho. destruct Ho as [-> Hn]. right. exists i, t. split; [apply Hnth; exact Hn|exact Hx].
        * intros [Hx|(i & t & Hn & Hx)]; [right; left; exists c; split; [apply Hst; reflexivity|exact Hx]|].
          right. right. exists c, i, t. split; [apply (opens_match _ _ _ _ _ _ _ Eh Eo); split; [reflexivity|apply Hnth; exact Hn]|exact Hx].
      + intros q x. rewrite adds_inv. cbn beta. split.
        * intros [(_ & Hc & _)|[(t & Hs & Hx)|(d' & i & t & Ho & Hx)]]; [contradiction|apply Hst in Hs; subst; auto|].
          apply (opens_match _ _ _ _ _ _ _ Eh Eo) in Ho. destruct Ho as [-> Hn]. right. exists i, t. split; [apply Hnth; exact Hn|exact Hx].
        * intros [Hx|(i & t & Hn & Hx)]; [right; left; exists c; split; [apply Hst; reflexivity|exact Hx]|].
          right. right. exists c, i, t. split; [apply (opens_match _ _ _ _ _ _ _ Eh Eo); split; [reflexivity|apply Hnth; exact Hn]|exact Hx].
  Qed.
End Visit.
