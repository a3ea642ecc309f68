(** Choices that are not active do not matter. *)
From Verif Require Import Base L_dict M_traverse L_traverse M_expr L_expr1 L_expr2 L_expr3 L_expr4 L_expr5 L_expr6
  M_grid L_grid M_choicegraph L_conflicts L_choicegraph L_choicegraph2.
From Coq Require Import Relations.Relation_Operators Relations.Operators_Properties.
Open Scope string_scope.
Open Scope list_scope.
Open Scope nat_scope.

(** ** Specification *)
Section Spec.
  Context {V K F : Type} `{EqD K}.

  (** The same expression with other settings of the choices. *)
  Definition same_but_settings (h1 h2 : heap V K) : Prop :=
    forall o,
      match h1 o, h2 o with
      | OChoice n outs _, OChoice n' outs' _ => n = n' /\ outs = outs'
      | ONumChoice n d _, ONumChoice n' d' _ => n = n' /\ d = d'
      | a, b => a = b
      end.

  (** The outcome that each numbered choice is set to. *)
  Definition setting (h : heap V K) (short : list oid) (i : nat) : nat :=
    match nth_error short i with
    | Some c => match h c with OChoice _ _ (Some k) => k | _ => 0 end
    | None => 0
    end.

  (** The environment does not give the value of a choice. *)
  Definition choices_free (h : heap V K) (root : oid) (e : env V) : Prop :=
    forall c n, part_of h root c -> is_choice h c -> carries h c (Named n) -> dget n e = None.

  (** Looking up an outcome finds the same entry as looking up its value. *)
  Definition lookup_by_value (ext : externals V K F) (hash_obj : oid -> res K) (h : heap V K)
    (root : oid) (e : env V) (mode : string) (f : oid -> option (fit_attr V F)) : Prop :=
    forall x c m items w v key, part_of h root x -> h x = OChoiceMatch c m -> has_outcomes h c items ->
      In w items -> DenV ext h e mode f w (Ok v) -> key_of ext v = Ok key -> hash_obj w = Ok key.
End Spec.

(** ** Proofs *)
Section Inactive.
  Context {V K F : Type} `{EqD K}.
  Variable ext : externals V K F.
  Variable hash_obj : oid -> res K.
  Variables h1 h2 : heap V K.
  Variable root : oid.
  Variable e : env V.
  Variable mode : string.
  Variable f : oid -> option (fit_attr V F).
  Variable short : list oid.
  Variable G : cgraph V.
  Hypothesis Hsame : same_but_settings h1 h2.
  Hypothesis Hok : choices_ok hash_obj h1 root.
  Hypothesis HG : graph_of hash_obj h1 root short G.
  Hypothesis Hfree : choices_free h1 root e.
  Hypothesis Hlook : lookup_by_value ext hash_obj h1 root e mode f.
  Hypothesis Hmode : mode <> "preview".
  Notation needs := (needs ext h1 e mode f).
  Notation needed := (needed ext h1 e mode f).
  Notation sigma := (setting h1 short).

  Definition set_to (c : oid) : nat := match h1 c with OChoice _ _ (Some k) => k | _ => 0 end.

  (** What is used with the current settings. *)
  Inductive azone : oid -> Prop :=
  | az_root : azone root
  | az_stays x t : azone x -> stays h1 x t -> azone t
  | az_opens x d t : azone x -> opens hash_obj h1 x d (set_to d) t -> azone t.

  Lemma azone_part x : azone x -> part_of h1 root x.
  Proof.
    intros Hx. induction Hx as [|x t Hx IH Hs|x d t Hx IH Ho]; [constructor| |];
      (eapply reach_trans; [exact IH|]; apply (visited_part hash_obj h1); apply visited_edge).
    - left. exact Hs.
    - right. eauto.
  Qed.

  Lemma not_given c name outs ch : part_of h1 root c -> h1 c = OChoice name outs ch ->
    match name with Some n => dget n e | None => None end = None.
  Proof.
    intros Hp Ec. destruct name as [n|]; [|reflexivity]. apply (Hfree c n Hp).
    - unfold is_choice. rewrite Ec. exact I.
    - unfold carries. rewrite Ec. reflexivity.
  Qed.

  Lemma eqb_mode : eqb_of mode "preview" = false.
  Proof. apply eqb_of_false. exact Hmode. Qed.

  Lemma choice_value c name outs ch items v : part_of h1 root c -> h1 c = OChoice name outs ch ->
    has_outcomes h1 c items -> DenV ext h1 e mode f c (Ok v) ->
    exists w, nth_error items (set_to c) = Some w /\ DenV ext h1 e mode f w (Ok v).
  Proof.
    intros Hp Ec (n' & outs' & ch' & ty & Ec' & Eo) [d Ed]. rewrite Ec in Ec'. injection Ec' as <- <- <-.
    unfold ev in Ed. destruct d as [|d]; [discriminate|]. cbn [den] in Ed. rewrite Ec in Ed.
    rewrite (not_given c name outs ch Hp Ec), eqb_mode, Eo in Ed.
    unfold set_to. rewrite Ec.
    assert (E : (match ch with Some i => i | None => 0 end) = match ch with Some k => k | None => 0 end) by reflexivity.
    destruct (nth_error items (match ch with Some i => i | None => 0 end)) as [w|].
    - exists w. split; [reflexivity|]. exists d. unfold ev. destruct (den ext h1 e mode f d w) as [[[v' fa]|ex]|]; cbn in *; congruence.
    - cbn in Ed. discriminate.
  Qed.

  Lemma needs_azone o t : azone o -> needs o t -> azone t.
  Proof.
    intros Ho Hn. pose proof (azone_part o Ho) as Hp. unfold L_expr4.needs in Hn.
    assert (Hst : stays h1 o t -> azone t) by (intros Hs; eapply az_stays; eauto).
    unfold stays in Hst.
    destruct (h1 o) as [i name isX isY|ty items|ty items|a b c|name outs ch|name df ch|c m|cls p|w] eqn:Eh; auto.
    - destruct Hn as [_ Hn].
      destruct i as [value|value|cnd it fa|q tg default|tgt|X est y cols how allow unsup|tgt|fi ot|op fs]; auto.
      + apply Hst. destruct Hn as [->|(cv & _ & [[_ ->]|[_ ->]])]; cbn; auto.
      + destruct Hn as [->|(qv & key & ty & items & _ & _ & Et & [Hd|[_ ->]])].
        * apply Hst. destruct default; cbn; auto.
        * assert (Htg : azone tg).
          { apply az_stays with o; [exact Ho|]. unfold stays. rewrite Eh. destruct default; cbn; auto. }
          apply az_stays with tg; [exact Htg|]. unfold stays. rewrite Et. cbn. eapply in_dget; eauto.
        * apply Hst. cbn. auto.
      + destruct Hn as [_ ->]. apply Hst. cbn. auto.
      + apply Hst. unfold used_by_apply in Hn. destruct (fit_mode mode).
        * destruct unsup; cbn in *; intuition.
        * destruct (eqb_of mode "score"); cbn in *; intuition.
    - destruct Hn as [_ (ty & items & Eo & Hn)]. rewrite eqb_mode in Hn. apply az_opens with o o; [exact Ho|].
      assert (Hi : has_outcomes h1 o items) by (exists name, outs, ch, ty; auto).
      apply (opens_choice _ _ _ _ _ _ _ _ _ _ Eh Hi). split; [reflexivity|]. unfold set_to. rewrite Eh. exact Hn.
    - destruct Hn as [->|(v & key & ty & items & Hv & Hk & Em & Hd)]; [auto|].
      destruct (ok_match _ _ _ Hok o c m Hp Eh) as (outs & ty' & entries & Hi & Em' & _).
      rewrite Em in Em'. injection Em' as <- <-. pose proof Hi as (n & ou & ch & ty2 & Ec & Eo).
      assert (Hpc : part_of h1 root c).
      { eapply reach_trans; [exact Hp|]. apply part_child. rewrite Eh. cbn. auto. }
      destruct (choice_value c n ou ch outs v Hpc Ec Hi Hv) as (w & Hw & Hvw).
      apply az_opens with o c; [exact Ho|]. apply (opens_match _ _ _ _ _ _ _ _ _ Eh Hi). split; [reflexivity|].
      exists w. split; [exact Hw|]. exists key, ty, items. split; [|auto].
      apply (Hlook o c m outs w v key Hp Eh Hi (nth_error_In _ _ Hw) Hvw Hk).
  Qed.

  Lemma needed_azone o : needed root o -> azone o.
  Proof. intros Hn. induction Hn as [|x t Hn IH Ht]; [constructor|]. eapply needs_azone; eauto. Qed.

  Lemma azone_active x : azone x -> forall c, direct h1 x c ->
    exists i, nth_error short i = Some c /\ active G sigma i.
  Proof.
    assert (Hidx : forall y c, azone y -> direct h1 y c -> exists i, nth_error short i = Some c).
    { intros y c Hy Hd. apply In_nth_error. apply (go_short _ _ _ _ _ HG). apply (direct_visited hash_obj h1) in Hd.
      destruct Hd as [Hv Hc]. split; [|exact Hc]. eapply reach_trans; [apply azone_part; exact Hy|]. eapply visited_part; exact Hv. }
    intros Hx. induction Hx as [|x t Hx IH Hs|x d t Hx IH Ho]; intros c Hd.
    - destruct (Hidx root c az_root Hd) as [i Hi]. exists i. split; [exact Hi|]. apply active_top.
      apply (go_top _ _ _ _ _ HG). eauto.
    - apply IH. eapply direct_stays; eauto.
    - assert (Ht : azone t) by (eapply az_opens; eauto).
      destruct (Hidx t c Ht Hd) as [i Hi]. exists i. split; [exact Hi|].
      assert (Hxd : direct h1 x d).
      { destruct Ho as [(-> & its & (n & ou & ch & ty & E1 & E2) & _)|(m & its & w & Ex & (n & ou & ch & ty & E1 & E2) & _)].
        - apply direct_self. unfold is_choice. rewrite E1. exact I.
        - apply direct_stays with d; [unfold stays; rewrite Ex; reflexivity|].
          apply direct_self. unfold is_choice. rewrite E1. exact I. }
      destruct (IH d Hxd) as (j & Hj & Haj). apply active_below with j; [exact Haj|].
      apply (go_below _ _ _ _ _ HG). exists d, c, x, t. split; [exact Hj|]. split; [exact Hi|].
      split; [apply azone_part; exact Hx|]. split; [|exact Hd].
      replace (setting h1 short j) with (set_to d); [exact Ho|]. unfold setting, set_to. rewrite Hj. reflexivity.
  Qed.

  Hypothesis Hactive : forall i c, active G sigma i -> nth_error short i = Some c -> h1 c = h2 c.

  Lemma azone_same x : azone x -> h1 x = h2 x.
  Proof.
    intros Hx. assert (Hc : is_choice h1 x -> h1 x = h2 x).
    { intros Hc. destruct (azone_active x Hx x (direct_self _ x Hc)) as (i & Hi & Ha). eauto. }
    unfold is_choice in Hc. pose proof (Hsame x) as Hs. destruct (h1 x) eqn:E1, (h2 x) eqn:E2; auto.
  Qed.

  Lemma not_choice_same x : ~ is_choice h1 x -> h1 x = h2 x.
  Proof.
    intros Hc. unfold is_choice in Hc. pose proof (Hsame x) as Hs. destruct (h1 x) eqn:E1, (h2 x) eqn:E2; tauto.
  Qed.

  Lemma needed_agree o : needed root o -> agree h1 h2 e e f f o.
  Proof.
    intros Hn. pose proof (needed_azone o Hn) as Ha. pose proof (azone_same o Ha) as Es. pose proof (azone_part o Ha) as Hp.
    split; [reflexivity|].
    assert (Eg : given h2 e o = given h1 e o) by (unfold given; rewrite Es; reflexivity).
    destruct (given h1 e o) as [v|] eqn:Eg1; [left; exists v; auto|]. right. split; [exact Es|]. split; [reflexivity|].
    split; [exact Eg|]. split.
    - intros t Ht. unfold table in Ht.
      assert (Hst : stays h1 o t -> h1 t = h2 t) by (intros Hs; apply azone_same; eapply az_stays; eauto).
      unfold stays in Hst. destruct (h1 o) as [i name isX isY|ty items|ty items|a b c|name outs ch|name df ch|c m|cls p|w] eqn:Eh; try contradiction.
      + apply Hst. destruct i; try contradiction; subst; cbn; auto. destruct default; cbn; auto.
      + subst t. apply not_choice_same. destruct (ok_outcomes _ _ _ Hok o name outs ch Hp Eh) as (its & n & ou & ch' & ty & E1 & E2).
        rewrite Eh in E1. injection E1 as <- <- <-. unfold is_choice. rewrite E2. auto.
      + subst t. apply not_choice_same. destruct (ok_match _ _ _ Hok o c m Hp Eh) as (its & ty & entries & _ & Em & _).
        unfold is_choice. rewrite Em. auto.
    - unfold same_reads. destruct (h1 o) as [[]| | | | | | | |]; auto. repeat split; auto.
  Qed.
End Inactive.

Section SettingsShape.
  Context {V K : Type}.
  Variables h1 h2 : heap V K.
  Hypothesis Hsame : same_but_settings h1 h2.

  Lemma settings_children o : children (h2 o) = children (h1 o).
  Proof.
    pose proof (Hsame o) as Hs. destruct (h1 o) eqn:E1, (h2 o) eqn:E2; try (injection Hs; intros; subst; reflexivity);
      try discriminate; try congruence.
    - destruct Hs as [-> ->]. reflexivity.
    - reflexivity.
  Qed.

  Lemma settings_part a b : part_of h2 a b <-> part_of h1 a b.
  Proof.
    unfold part_of. split; intros Hp; induction Hp as [|o c x Hns Hc Hp IH]; econstructor; eauto.
    - rewrite <- settings_children. exact Hc.
    - rewrite settings_children. exact Hc.
  Qed.

  Lemma settings_closed size : closed h1 size -> closed h2 size.
  Proof. intros Hc o c Ho Hin. apply (Hc o c Ho). rewrite <- settings_children. exact Hin. Qed.

  Lemma settings_acyclic root : acyclic h1 root -> acyclic h2 root.
  Proof.
    intros Ha x Hx (c & Hc & Hp). apply (Ha x); [apply settings_part; exact Hx|].
    exists c. split; [rewrite <- settings_children; exact Hc|apply settings_part; exact Hp].
  Qed.
End SettingsShape.

Section Theorems.
  Context {V K F : Type} `{EqD K}.
  Variable ext : externals V K F.
  Variable hash_obj : oid -> res K.

  Theorem inactive_choices (h1 h2 : heap V K) size root e requested (s : st V F) short G :
    closed h1 size -> root < size -> acyclic h1 root ->
    choices_ok hash_obj h1 root -> graph_of hash_obj h1 root short G ->
    choices_free h1 root e -> real_mode requested <> "preview" ->
    lookup_by_value ext hash_obj h1 root e (real_mode requested) (fitted s) ->
    same_but_settings h1 h2 ->
    (forall i c, active G (setting h1 short) i -> nth_error short i = Some c -> h1 c = h2 c) ->
    snd (evaluate ext h1 size root requested e true s) = snd (evaluate ext h2 size root requested e true s).
  Proof.
    intros Hc Hr Ha Hok HG Hfree Hmode Hlook Hsame Hact.
    apply evaluate_agree; auto.
    - eapply settings_closed; eauto.
    - eapply settings_acyclic; eauto.
    - intros o Hn. eapply (needed_agree ext hash_obj h1 h2 root e (real_mode requested) (fitted s) short G); eauto.
  Qed.

  (** Each setting is in one sub-grid, and what the sub-grid does not list does not matter. *)
  Theorem grid_exhaustive (h1 : heap V K) size root :
    closed h1 size -> root < size -> acyclic h1 root ->
    choices_ok hash_obj h1 root -> no_conflict h1 root ->
    exists short G gs, choice_graph hash_obj h1 size root = Ok (short, G) /\ param_grid G = Ok gs /\
      (valid G (setting h1 short) ->
       exists before g after, gs = before ++ g :: after /\ covered (setting h1 short) g /\
         (forall g', In g' (before ++ after) -> ~ covered (setting h1 short) g') /\
         forall h2 e requested (s : st V F),
           choices_free h1 root e -> real_mode requested <> "preview" ->
           lookup_by_value ext hash_obj h1 root e (real_mode requested) (fitted s) ->
           same_but_settings h1 h2 ->
           (forall i c, In i (dkeys g) -> nth_error short i = Some c -> h1 c = h2 c) ->
           snd (evaluate ext h1 size root requested e true s) = snd (evaluate ext h2 size root requested e true s)).
  Proof.
    intros Hc Hr Ha Hok Hnc.
    destruct (choice_graph_spec hash_obj h1 size root Hc Hr Ha Hok Hnc) as (short & G & EG & HG).
    pose proof (graph_well_formed _ _ _ _ _ HG) as Hwf.
    destruct (param_grid_spec G Hwf) as (gs & Eg & _ & Hcov).
    exists short, G, gs. split; [exact EG|]. split; [exact Eg|]. intros Hv.
    destruct (Hcov (setting h1 short) Hv) as (before & g & after & E & Hcv & Hk & Hno).
    exists before, g, after. split; [exact E|]. split; [exact Hcv|]. split; [exact Hno|].
    intros h2 e requested s Hfree Hmode Hlook Hsame Hag.
    eapply inactive_choices; eauto. intros i c Hi. apply Hag. apply Hk. exact Hi.
  Qed.
End Theorems.
