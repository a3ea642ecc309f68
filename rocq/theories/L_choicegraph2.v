(** The graph of choices of an expression: result of [choice_graph]. *)
From Verif Require Import Base L_dict M_traverse L_traverse M_expr L_expr1 L_expr5 M_grid L_grid M_choicegraph L_conflicts L_choicegraph L_tablevec3.
From Coq Require Import Relations.Relation_Operators Relations.Operators_Properties.
Open Scope string_scope.
Open Scope list_scope.
Open Scope nat_scope.

(** ** Specification *)
Section Spec.
  Context {V K : Type} `{EqD K}.
  Variable hash_obj : oid -> res K.
  Variable h : heap V K.

  (** [G] is the graph of the choices of the expression [root], numbered in the order of
      [short]. *)
  Record graph_of (root : oid) (short : list oid) (G : cgraph V) : Prop := {
    go_nodup : NoDup short;
    go_short : forall c, In c short <-> part_of h root c /\ is_choice h c;
    go_keys : dkeys (cg_choices G) = seq 0 (length short);
    go_kind : forall i c, nth_error short i = Some c ->
      exists k, dget i (cg_choices G) = Some k /\ describes h c k;
    go_top : forall i, In i (at_top G) <-> exists c, nth_error short i = Some c /\ direct h root c;
    go_below : forall d i j, In j (below G d i) <->
      exists dd c x t, nth_error short d = Some dd /\ nth_error short j = Some c /\
        part_of h root x /\ opens hash_obj h x dd i t /\ direct h t c;
    go_Xy : forall i, In i (cg_Xy G) <->
      exists c n, nth_error short i = Some c /\ part_of h root n /\ (carries h n IsX \/ carries h n IsY) /\
        part_of h n c
  }.
End Spec.

(** ** Proofs *)
Section MapM.
  Lemma mapM_ok_exists {A B} (f : A -> res B) : forall l,
    (forall a, In a l -> exists b, f a = Ok b) -> exists bs, mapM f l = Ok bs.
  Proof.
    induction l as [|a l IH]; intros Hf; [exists []; reflexivity|].
    destruct (Hf a (or_introl eq_refl)) as [b Eb].
    destruct IH as [bs Ebs]; [intros x Hx; apply Hf; right; exact Hx|].
    exists (b :: bs). cbn. rewrite Eb. cbn. rewrite Ebs. reflexivity.
  Qed.

  Lemma mapM_in {A B} (f : A -> res B) l bs b : mapM f l = Ok bs -> (In b bs <-> exists a, In a l /\ f a = Ok b).
  Proof.
    intros E. apply mapM_Forall2 in E. split.
    - intros Hb. destruct (Forall2_in_r _ _ _ _ E Hb) as (a & Ha & Ef). eauto.
    - intros (a & Ha & Ef). destruct (Forall2_in_l _ _ _ _ E Ha) as (b' & Hb & Ef'). congruence.
  Qed.

  Lemma combine_seq_get {A} : forall (l : list A) n i x, nth_error l i = Some x ->
    dget (n + i) (combine (seq n (length l)) l) = Some x.
  Proof.
    induction l as [|a l IH]; intros n i x E; [destruct i; discriminate|]. cbn [length seq combine dget].
    destruct i as [|i]; cbn in E.
    - injection E as ->. rewrite Nat.add_0_r. destruct (eqd n n); [reflexivity|contradiction].
    - destruct (eqd (n + S i) n) as [Hn|_]; [exfalso; lia|].
      replace (n + S i) with (S n + i) by lia. apply IH. exact E.
  Qed.

  Lemma combine_seq_keys {A} : forall (l : list A) n, dkeys (combine (seq n (length l)) l) = seq n (length l).
  Proof. induction l as [|a l IH]; intros n; [reflexivity|]. cbn. f_equal. apply IH. Qed.
End MapM.

Section Graph.
  Context {V K : Type} `{EqD K}.
  Variable hash_obj : oid -> res K.
  Variable h : heap V K.
  Notation handler := (cg_handler hash_obj h).
  Notation opens := (opens hash_obj h).
  Notation stays := (stays h).
  Notation visited := (visited hash_obj h).
  Notation direct := (direct h).
  Notation is_choice := (is_choice h).

  Definition ok_here (x : oid) : Prop :=
    match h x with
    | OChoice _ _ _ => exists items, has_outcomes h x items
    | OChoiceMatch c m => exists items, has_outcomes h c items /\ forall w, In w items -> exists t, maps hash_obj h m w t
    | _ => True
    end.

  Definition no_err {A} (r : cg_st * outcome A) : Prop := match snd r with TErr _ => False | _ => True end.

  Lemma visit_outcomes_no_err vc path c : forall items idx s,
    (forall r, In r items -> exists t, r = Ok t /\ forall s, no_err (vc t s)) ->
    no_err (visit_outcomes vc path c idx items s).
  Proof.
    induction items as [|r items IH]; intros idx s Hi; [exact I|]. cbn [visit_outcomes].
    destruct (Hi r (or_introl eq_refl)) as (t & -> & Ht). unfold vchk. destruct (mem t path); [exact I|].
    specialize (Ht (push (Some (c, idx)) s)). unfold no_err in *. destruct (vc t _) as [s1 [u|e|x|]]; cbn in *; auto.
    apply IH. intros r' Hr'. apply Hi. right. exact Hr'.
  Qed.

  Lemma visit_all_no_err (vc : oid -> cg_st -> cg_st * outcome unit) path : forall items s,
    (forall t, In t items -> forall s, no_err (vc t s)) -> no_err (visit_all vc path items s).
  Proof.
    induction items as [|t items IH]; intros s Hi; [exact I|]. cbn [visit_all]. unfold vchk.
    destruct (mem t path); [exact I|].
    pose proof (Hi t (or_introl eq_refl) s) as Ht. unfold no_err in *.
    destruct (vc t s) as [s1 [u|e|x|]]; cbn in *; auto.
    assert (Hx : forall t0, In t0 items -> forall s0, match snd (vc t0 s0) with TErr _ => False | _ => True end).
    { intros t' Ht'. apply Hi. right. exact Ht'. }
    pose proof (IH s1 Hx) as Hr. destruct (visit_all vc path items s1) as [s2 [vs|e|x|]]; cbn in *; auto.
  Qed.

  Lemma cg_visit_no_err : forall d path o s, (forall x, visited o x -> ok_here x) -> no_err (visit handler d path o s).
  Proof.
    induction d as [|d IH]; intros path o s Hok; [exact I|]. rewrite cg_visit_S.
    pose proof (Hok o (visited_self _ _ o)) as Hh.
    assert (Hst : forall t, stays o t -> forall s, no_err (visit handler d (o :: path) t s)).
    { intros t Ht s'. apply IH. intros x Hx. apply Hok. eapply visited_stays; eauto. }
    assert (Hop : forall d' i t, opens o d' i t -> forall s, no_err (visit handler d (o :: path) t s)).
    { intros d' i t Ht s'. apply IH. intros x Hx. apply Hok. eapply visited_opens; eauto. }
    assert (Hplain : forall items, (forall t, In t items -> stays o t) ->
      no_err (obind (visit_all (visit handler d (o :: path)) (o :: path) items s) (fun _ s1 => (s1, TOk tt)))).
    { intros items Hs. pose proof (visit_all_no_err (visit handler d (o :: path)) (o :: path) items s) as Hn.
      unfold no_err in Hn |- *. destruct (visit_all _ _ items s) as [s1 [vs|e|x|]]; cbn in *; auto.
      apply Hn. intros t Ht. apply Hst. apply Hs. exact Ht. }
    unfold ok_here in Hh.
    destruct (h o) as [i name isX isY|ty items|ty items|a b c|name outs ch|name df ch|c m|cls p|w] eqn:Eh;
      try (apply Hplain; intros t Ht; unfold L_choicegraph.stays; rewrite Eh; exact Ht).
    - destruct Hh as [items Hi]. pose proof Hi as Hi'. apply outcomes_of_iff in Hi'. rewrite Hi'.
      assert (Hn : no_err (visit_outcomes (visit handler d (o :: path)) (o :: path) o 0 (map Ok items) (note_child o s))).
      { apply visit_outcomes_no_err. intros r Hr. apply in_map_iff in Hr. destruct Hr as (t & <- & Ht).
        exists t. split; [reflexivity|]. apply In_nth_error in Ht. destruct Ht as [i Ht].
        apply (Hop o i). apply (opens_choice _ _ _ _ _ _ _ _ _ _ Eh Hi). auto. }
      unfold no_err in *. destruct (visit_outcomes _ _ o 0 _ _) as [s1 [vs|e|x|]]; cbn in *; auto.
    - exact I.
    - destruct Hh as (items & Hi & Hm). pose proof Hi as Hi'. apply outcomes_of_iff in Hi'. rewrite Hi'.
      unfold vchk. destruct (mem c (o :: path)); [exact I|].
      assert (Hn : no_err (visit handler d (o :: path) c s)) by (apply Hst; unfold L_choicegraph.stays; rewrite Eh; reflexivity).
      unfold no_err in Hn. destruct (visit handler d (o :: path) c s) as [s1 [vs|e|x|]]; cbn in *; auto; try exact I.
      apply visit_outcomes_no_err. intros r Hr. apply in_map_iff in Hr. destruct Hr as (w & <- & Hw).
      destruct (Hm w Hw) as [t Ht]. exists t. split; [apply mapped_iff; exact Ht|].
      apply In_nth_error in Hw. destruct Hw as [i Hw].
      apply (Hop c i). apply (opens_match _ _ _ _ _ _ _ _ _ Eh Hi). eauto.
  Qed.

  Lemma ct_part a b : clos_trans oid (child h) a b -> part_of h a b.
  Proof.
    intros Hab. apply rt_part. apply clos_rt_rt1n. induction Hab; [apply rt_step; assumption|]. eapply rt_trans; eauto.
  Qed.

  Lemma ct_cycle x : clos_trans oid (child h) x x -> on_cycle h x.
  Proof.
    intros Hx. apply clos_trans_t1n in Hx. unfold on_cycle. inversion Hx as [y Hc|y z Hc Ht]; subst.
    - exists x. split; [exact Hc|constructor].
    - exists y. split; [exact Hc|]. apply ct_part. apply clos_t1n_trans. exact Ht.
  Qed.

  Lemma cedge_ct a b : clos_trans oid (cedge hash_obj h) a b -> clos_trans oid (child h) a b.
  Proof. intros Hab. induction Hab; [apply cedge_child with (1:=H0) || (eapply cedge_child; eauto)|]. eapply t_trans; eauto. Qed.

  Lemma cedge_rt a b : clos_refl_trans_1n oid (cedge hash_obj h) a b -> part_of h a b.
  Proof.
    intros Hab. induction Hab as [a|a b c Hab Hbc IH]; [constructor|].
    eapply reach_trans; [|exact IH]. apply ct_part. eapply cedge_child; eauto.
  Qed.

  Lemma opens_nested o x d i t : visited o x -> opens x d i t -> visited o d /\ is_choice d.
  Proof.
    intros Hv [(-> & items & (n & ou & ch & ty & E1 & E2) & Hn)|(m & items & w & Ex & (n & ou & ch & ty & E1 & E2) & _)].
    - split; [exact Hv|]. unfold L_choicegraph.is_choice. rewrite E1. exact I.
    - split; [|unfold L_choicegraph.is_choice; rewrite E1; exact I].
      eapply visited_trans; [exact Hv|]. eapply visited_stays; [|constructor].
      unfold L_choicegraph.stays. rewrite Ex. reflexivity.
  Qed.

  Lemma short_key_inj short k1 k2 k' : short_key short k1 = Ok k' -> short_key short k2 = Ok k' -> k1 = k2.
  Proof.
    unfold short_key. destruct k1 as [[c1 i1]|], k2 as [[c2 i2]|]; cbn.
    - destruct (index_of c1 short) as [j1|] eqn:E1; [|discriminate]. destruct (index_of c2 short) as [j2|] eqn:E2; [|discriminate].
      cbn. intros E E'. apply index_of_nth in E1, E2. congruence.
    - destruct (index_of c1 short); cbn; congruence.
    - destruct (index_of c2 short); cbn; congruence.
    - reflexivity.
  Qed.

  (** The graph computed by one traversal; [used o] are the choices found. *)
  Record run_of (o : oid) (short : list oid) (kinds : dict nat (choice V)) (ch : childdict) : Prop := {
    ro_nodup : NoDup short;
    ro_short : forall c, In c short <-> visited o c /\ is_choice c;
    ro_keys : dkeys kinds = seq 0 (length short);
    ro_kind : forall i c, nth_error short i = Some c -> exists k, dget i kinds = Some k /\ describes h c k;
    ro_child : forall k' j, In j (match dget k' ch with Some l => l | None => [] end) <->
      exists k c, short_key short k = Ok k' /\ nth_error short j = Some c /\ adds hash_obj h o None k c
  }.

  Lemma run_choice_graph_spec size o : closed h size -> o < size -> acyclic h o ->
    (forall x, visited o x -> ok_here x) ->
    exists short kinds ch, run_choice_graph hash_obj h size o = Ok (short, (kinds, ch)) /\ run_of o short kinds ch.
  Proof.
    intros Hc Hr Ha Hok. unfold run_choice_graph.
    assert (Hcl : forall o0, In o0 (seq 0 size) -> gen_all (fun t => In t (seq 0 size)) (handler o0)).
    { intros o0 Ho0. apply in_seq in Ho0. eapply gen_all_impl; [|apply cg_handler_edges].
      intros t Ht. apply in_seq. split; [lia|]. cbn. apply cedge_child in Ht. apply ct_part in Ht.
      apply (closed_part h size o0 t Hc); [lia|exact Ht]. }
    pose proof (visit_no_fuel_heap handler size o cg_init Hcl Hr) as Hf.
    pose proof (cg_visit_no_err size [] o cg_init Hok) as He.
    destruct (visit handler size [] o cg_init) as [s [[]|e|x|]] eqn:Ev; cbn [no_err snd] in *.
    2:{ destruct He. }
    2:{ exfalso. apply (visit_circ handler (cedge hash_obj h)) in Ev; [|apply cg_handler_edges].
        destruct Ev as [Hx Hox]. apply (Ha x); [apply cedge_rt; exact Hox|]. apply ct_cycle. apply cedge_ct. exact Hx. }
    2:{ contradiction. }
    pose proof (cg_visit_good hash_obj h size [] o cg_init s tt None [] eq_refl Ev) as [_ Hch Hnd Hks Hkids Hne].
    specialize (Hnd (NoDup_nil _)). specialize (Hks (NoDup_nil _)).
    assert (Hne' : forall q l, dget q (cs_children s) = Some l -> l <> []) by (apply Hne; discriminate).
    assert (Hshort : forall c, In c (cs_choices s) <-> visited o c /\ is_choice c).
    { intros c. rewrite Hch. cbn. unfold adds_choice. tauto. }
    assert (Hk : forall q c, In c (kids q s) <-> adds hash_obj h o None q c).
    { intros q c. rewrite Hkids. unfold kids. cbn. tauto. }
    assert (Hadd : forall q c, adds hash_obj h o None q c -> In c (cs_choices s) /\
       match q with None => True | Some (d, _) => In d (cs_choices s) end).
    { intros q c [[-> Hd]|(x & d & i & t & Hv & Ho & -> & Hd)].
      - split; [|exact I]. apply Hshort. apply (direct_visited hash_obj h). exact Hd.
      - apply (direct_visited hash_obj h) in Hd. destruct Hd as [Hd Hcc]. split.
        + apply Hshort. split; [|exact Hcc]. eapply visited_trans; [exact Hv|]. eapply visited_opens; eauto.
        + apply Hshort. eapply opens_nested; eauto. }
    cbn [to_res bind].
    assert (Hkind : forall c, In c (cs_choices s) -> exists k, choice_kind h c = Ok k /\ describes h c k).
    { intros c Hin. apply Hshort in Hin. destruct Hin as [Hv Hcc]. pose proof (Hok c Hv) as Ho.
      unfold choice_kind, describes, ok_here, L_choicegraph.is_choice in *.
      destruct (h c) eqn:Eh; try contradiction; [|eauto].
      destruct Ho as [items Hi]. pose proof Hi as Hi'. apply outcomes_of_iff in Hi'. rewrite Hi'. cbn. eauto. }
    destruct (mapM_ok_exists (choice_kind h) (cs_choices s)) as [kinds Ek].
    { intros c Hin. destruct (Hkind c Hin) as (k & E & _). eauto. }
    rewrite Ek. cbn [bind].
    match goal with |- context [mapM ?f (cs_children s)] => set (fch := f) end.
    destruct (mapM_ok_exists fch (cs_children s)) as [ch Ech].
    { intros [q l] Hin. unfold fch. cbn [fst snd].
      assert (El : dget q (cs_children s) = Some l) by (apply dget_In_iff; auto).
      assert (Hl : forall c, In c l -> adds hash_obj h o None q c).
      { intros c Hcl'. apply Hk. unfold kids. rewrite El. exact Hcl'. }
      assert (Hq : exists k', short_key (cs_choices s) q = Ok k').
      { destruct l as [|c0 l0]; [destruct (Hne' q [] El); reflexivity|].
        destruct (Hadd q c0 (Hl c0 (or_introl eq_refl))) as [_ Hq]. unfold short_key.
        destruct q as [[d i]|]; [|eauto]. destruct (index_of_in _ _ Hq) as [j ->]. cbn. eauto. }
      destruct Hq as [k' ->]. cbn [bind].
      destruct (mapM_ok_exists (fun c => index_of c (cs_choices s)) (unique l)) as [l' ->].
      { intros c Hcu. apply (proj1 (unique_in _ _)) in Hcu. apply index_of_in. apply (Hadd q). apply Hl. exact Hcu. }
      cbn. eauto. }
    rewrite Ech. cbn [bind].
    exists (cs_choices s). eexists. exists ch. split; [reflexivity|].
    apply mapM_Forall2 in Ek.
    split; auto.
    - rewrite combine_seq_keys. rewrite (Forall2_len _ _ _ Ek). reflexivity.
    - intros i c En. destruct (nth_error kinds i) as [k|] eqn:Eki.
      + exists k. split; [change i with (0 + i); apply combine_seq_get; exact Eki|].
        assert (E : choice_kind h c = Ok k).
        { clear -Ek En Eki. revert i En Eki. induction Ek as [|a b l1 l2 Hab _ IH]; intros [|i] En Eki; cbn in *; try discriminate; eauto. congruence. }
        destruct (Hkind c) as (k0 & E0 & Hd); [eapply nth_error_In; eauto|]. congruence.
      + exfalso. apply nth_error_None in Eki. assert (i < length (cs_choices s)) by (apply nth_error_Some; congruence).
        rewrite (Forall2_len _ _ _ Ek) in H0. lia.
    - intros k' j.
      assert (Hin : forall kk l', In (kk, l') ch <-> exists q l, In (q, l) (cs_children s) /\
        short_key (cs_choices s) q = Ok kk /\ mapM (fun c => index_of c (cs_choices s)) (unique l) = Ok l').
      { intros kk l'. rewrite (mapM_in fch _ _ (kk, l') Ech). split.
        - intros ([q l] & Hi & E). exists q, l. split; [exact Hi|]. unfold fch in E. cbn [fst snd] in E.
          destruct (short_key (cs_choices s) q) as [k2|]; [|discriminate]. cbn [bind] in E.
          destruct (mapM _ (unique l)) as [l2|]; [|discriminate]. cbn [bind] in E. injection E as -> ->. auto.
        - intros (q & l & Hi & E1 & E2). exists (q, l). split; [exact Hi|]. unfold fch. cbn [fst snd]. rewrite E1. cbn [bind]. rewrite E2. reflexivity. }
      assert (Hget : forall l', dget k' ch = Some l' -> exists q l, dget q (cs_children s) = Some l /\
        short_key (cs_choices s) q = Ok k' /\ mapM (fun c => index_of c (cs_choices s)) (unique l) = Ok l').
      { intros l' E. apply dget_In_weak in E. apply Hin in E. destruct E as (q & l & Hi & E1 & E2).
        exists q, l. split; [apply dget_In_iff; auto|auto]. }
      split.
      + destruct (dget k' ch) as [l'|] eqn:Eg; [|intros []]. intros Hj.
        destruct (Hget l' eq_refl) as (q & l & El & E1 & E2).
        apply (mapM_in _ _ _ j E2) in Hj. destruct Hj as (c & Hcu & Ej). apply (proj1 (unique_in _ _)) in Hcu.
        exists q, c. split; [exact E1|]. split; [apply index_of_nth; exact Ej|]. apply Hk. unfold kids. rewrite El. exact Hcu.
      + intros (q & c & E1 & En & Had). apply Hk in Had. unfold kids in Had.
        destruct (dget q (cs_children s)) as [l|] eqn:El; [|destruct Had].
        assert (Hex : exists l', dget k' ch = Some l').
        { apply dget_in_keys. apply dget_In_weak in El.
          destruct (mapM_ok_exists (fun c => index_of c (cs_choices s)) (unique l)) as [l' E2].
          { intros x Hx. apply (proj1 (unique_in _ _)) in Hx. apply index_of_in. apply (Hadd q). apply Hk. unfold kids.
            apply dget_In_iff in El; [|exact Hks]. rewrite El. exact Hx. }
          assert (Hi : In (k', l') ch) by (apply Hin; eauto). apply (in_map fst) in Hi. exact Hi. }
        destruct Hex as [l' El']. rewrite El'. destruct (Hget l' El') as (q2 & l2 & El2 & E2 & E3).
        assert (q2 = q) by (eapply short_key_inj; eauto). subst q2. rewrite El in El2. injection El2 as <-.
        apply (mapM_in _ _ _ j E3). exists c. split; [apply unique_in; exact Had|]. apply nth_index; auto.
  Qed.

  (** *** Parts of the expression are visited *)
  Lemma part_visited root x : choices_ok hash_obj h root -> part_of h root x ->
    visited root x \/ (exists c n ch, visited root c /\ h c = OChoice n x ch) \/
    (exists y c, visited root y /\ h y = OChoiceMatch c x).
  Proof.
    intros Hok Hp. apply rt_part in Hp. apply clos_rt1n_rt, clos_rt_rtn1 in Hp.
    induction Hp as [|y x Hyx Hry IH]; [left; constructor|]. unfold child in Hyx.
    destruct IH as [Hv|[(c & n & ch & Hv & Ec)|(z & c & Hv & Ez)]].
    - assert (Hst : stays y x -> visited root x).
      { intros Hs. eapply visited_trans; [exact Hv|]. apply visited_edge. left. exact Hs. }
      unfold L_choicegraph.stays in Hst.
      destruct (h y) as [i name isX isY|ty items|ty items|a b c|name outs ch|name df ch|c m|cls p|w] eqn:Eh; auto.
      + destruct Hyx as [<-|[]]. right. left. exists y, name, ch. auto.
      + destruct Hyx as [<-|[<-|[]]]; [auto|]. right. right. exists y, c. auto.
    - destruct (ok_outcomes _ _ _ Hok c n y ch) as [items Hi]; [eapply visited_part; exact Hv|exact Ec|].
      pose proof Hi as (n' & ou & ch' & ty & E1 & E2). rewrite Ec in E1. injection E1 as <- <- <-.
      rewrite E2 in Hyx. cbn in Hyx. apply In_nth_error in Hyx. destruct Hyx as [i Hi'].
      left. eapply visited_trans; [exact Hv|]. eapply visited_opens; [|constructor].
      apply (opens_choice _ _ _ _ _ _ _ _ _ _ Ec Hi). eauto.
    - destruct (ok_full _ _ _ Hok z c y x) as [i Hi]; [eapply visited_part; exact Hv|exact Ez|exact Hyx|].
      left. eapply visited_trans; [exact Hv|]. eapply visited_opens; [exact Hi|constructor].
  Qed.

  Lemma part_visited_other root x : choices_ok hash_obj h root -> part_of h root x ->
    match h x with OSeq _ _ | OMap _ _ => False | _ => True end -> visited root x.
  Proof.
    intros Hok Hp Hx. destruct (part_visited root x Hok Hp) as [Hv|[(c & n & ch & Hv & Ec)|(z & c & Hv & Ez)]]; [exact Hv| |]; exfalso.
    - destruct (ok_outcomes _ _ _ Hok c n x ch) as [items (n' & ou & ch' & ty & E1 & E2)]; [eapply visited_part; exact Hv|exact Ec|].
      rewrite Ec in E1. injection E1 as <- <- <-. rewrite E2 in Hx. exact Hx.
    - destruct (ok_match _ _ _ Hok z c x) as (its & ty & entries & _ & E & _); [eapply visited_part; exact Hv|exact Ez|].
      rewrite E in Hx. exact Hx.
  Qed.

  Lemma choices_ok_sub root n : choices_ok hash_obj h root -> part_of h root n -> choices_ok hash_obj h n.
  Proof.
    intros [H1 H2 H3] Hn. split.
    - intros c name outs ch Hp. apply H1. eapply reach_trans; eauto.
    - intros x c m Hp. apply H2. eapply reach_trans; eauto.
    - intros x c m t Hp. apply H3. eapply reach_trans; eauto.
  Qed.

  Lemma choices_ok_here root : choices_ok hash_obj h root -> forall x, visited root x -> ok_here x.
  Proof.
    intros Hok x Hx. apply visited_part in Hx. unfold ok_here. destruct (h x) eqn:Eh; auto.
    - eapply ok_outcomes; eauto.
    - destruct (ok_match _ _ _ Hok _ _ _ Hx Eh) as (items & ty & entries & Hi & _ & Hm). eauto.
  Qed.

  Lemma is_choice_visited root c : choices_ok hash_obj h root ->
    (part_of h root c /\ is_choice c <-> visited root c /\ is_choice c).
  Proof.
    intros Hok. split; intros [Hp Hc]; (split; [|exact Hc]); [|eapply visited_part; exact Hp].
    apply part_visited_other; auto. unfold L_choicegraph.is_choice in Hc. destruct (h c); auto.
  Qed.

  Lemma is_choice_marked n l : carries h n l -> match h n with OSeq _ _ | OMap _ _ => False | _ => True end.
  Proof. unfold carries. destruct (h n), l; auto. Qed.

  Lemma nth_seq_in short i (c : oid) : nth_error short i = Some c -> In i (seq 0 (length short)).
  Proof. intros E. apply in_seq. assert (i < length short) by (apply nth_error_Some; congruence). lia. Qed.

  (** *** The result of [choice_graph] *)
  Theorem choice_graph_spec size root : closed h size -> root < size -> acyclic h root ->
    choices_ok hash_obj h root -> no_conflict h root ->
    exists short G, choice_graph hash_obj h size root = Ok (short, G) /\ graph_of hash_obj h root short G.
  Proof.
    intros Hc Hr Ha Hok Hnc. unfold choice_graph.
    destruct (run_choice_graph_spec size root Hc Hr Ha (choices_ok_here root Hok)) as (short & kinds & ch & Er & Hrun).
    rewrite Er. cbn [bind].
    assert (Hin : forall c, In c short <-> part_of h root c /\ is_choice c).
    { intros c. rewrite (ro_short _ _ _ _ Hrun), <- (is_choice_visited root c Hok). reflexivity. }
    (* the marked nodes *)
    assert (Hmark : forall pred l, (forall n, candidate h n -> (pred (h n) = true <-> carries h n l)) -> (l = IsX \/ l = IsY) ->
      exists r ids, find_node h pred size root = Ok r /\ choices_of_node hash_obj h size short r = Ok ids /\
        forall i, In i ids <-> exists c n, nth_error short i = Some c /\ part_of h root n /\ carries h n l /\ part_of h n c).
    { intros pred l Hpred Hl. pose proof (find_node_spec h pred size root Hc Hr) as Hf.
      assert (Hcand : forall n, carries h n l -> candidate h n).
      { intros n. unfold carries, candidate. destruct Hl; subst l; destruct (h n); auto. }
      destruct (find_node h pred size root) as [[n|]|e].
      - destruct Hf as (Hp & Hcd & Hpn). exists (Some n). cbn [choices_of_node].
        assert (Hcn : carries h n l) by (apply Hpred; auto).
        pose proof (choices_ok_sub root n Hok Hp) as Hokn.
        assert (Hn : n < size) by (eapply closed_part; eauto).
        assert (Han : acyclic h n) by (intros x Hx; apply Ha; eapply reach_trans; eauto).
        destruct (run_choice_graph_spec size n Hc Hn Han (choices_ok_here n Hokn)) as (short' & kinds' & ch' & Er' & Hrun').
        rewrite Er'. cbn [bind].
        assert (Hin' : forall c, In c short' <-> part_of h n c /\ is_choice c).
        { intros c. rewrite (ro_short _ _ _ _ Hrun'), <- (is_choice_visited n c Hokn). reflexivity. }
        destruct (mapM_ok_exists (fun c => index_of c short) short') as [ids Ei].
        { intros c Hcs. apply Hin' in Hcs. apply index_of_in. apply Hin. destruct Hcs as [Hpc Hcc]. split; [eapply reach_trans; eauto|exact Hcc]. }
        exists ids. split; [reflexivity|]. split; [exact Ei|]. intros i. rewrite (mapM_in _ _ _ i Ei). split.
        + intros (c & Hcs & E). apply Hin' in Hcs. exists c, n. split; [apply index_of_nth; exact E|]. tauto.
        + intros (c & n' & En & Hp' & Hcn' & Hpc). assert (n' = n) by (eapply Hnc; eauto). subst n'.
          exists c. assert (Hcs : In c short) by (eapply nth_error_In; eauto). apply Hin in Hcs. split; [apply Hin'; tauto|].
          apply nth_index; [apply (ro_nodup _ _ _ _ Hrun)|exact En].
      - exists None, []. split; [reflexivity|]. split; [reflexivity|]. intros i. split; [intros []|].
        intros (c & n & En & Hp & Hcn & Hpc). pose proof (Hcand n Hcn) as Hcd. specialize (Hf n Hp Hcd).
        apply Hpred in Hcn; [congruence|exact Hcd].
      - exfalso. destruct Hf as (_ & x & Hx & Hcy). apply (Ha x Hx Hcy). }
    destruct (Hmark marked_X IsX) as (rx & ix & Efx & Ecx & Hix).
    { intros n Hcd. unfold marked_X, carries, candidate in *. destruct (h n); try tauto; split; try discriminate; tauto. }
    { auto. }
    destruct (Hmark marked_y IsY) as (ry & iy & Efy & Ecy & Hiy).
    { intros n Hcd. unfold marked_y, carries, candidate in *. destruct (h n); try tauto; split; try discriminate; tauto. }
    { auto. }
    unfold find_X, find_y. rewrite Efx. cbn [bind]. rewrite Efy. cbn [bind]. rewrite Ecx. cbn [bind]. rewrite Ecy. cbn [bind].
    eexists. eexists. split; [reflexivity|]. destruct Hrun as [R1 R2 R3 R4 R5]. split; cbn [cg_choices cg_children cg_Xy]; auto.
    - intros i. unfold at_top. cbn [cg_children]. rewrite R5. split.
      + intros (k & c & Ek & En & Hd). exists c. split; [exact En|]. destruct k as [[d j]|]; cbn in Ek.
        * destruct (index_of d short); discriminate.
        * destruct Hd as [[_ Hd]|(x & d & j & t & _ & _ & E & _)]; [exact Hd|discriminate].
      + intros (c & En & Hd). exists None, c. split; [reflexivity|]. split; [exact En|]. left. auto.
    - intros d i j. unfold below. cbn [cg_children]. rewrite R5. split.
      + intros (k & c & Ek & En & Hd). destruct k as [[d' j']|]; cbn in Ek; [|discriminate].
        destruct (index_of d' short) as [d''|] eqn:Ed; [|discriminate]. cbn in Ek. injection Ek as <- <-.
        destruct Hd as [[E _]|(x & d & j0 & t & Hv & Ho & E & Hd)]; [discriminate|]. injection E as <- <-.
        exists d', c, x, t. split; [apply index_of_nth; exact Ed|]. split; [exact En|]. split; [eapply visited_part; exact Hv|auto].
      + intros (dd & c & x & t & Ed & En & Hp & Ho & Hd). exists (Some (dd, i)), c. split.
        * cbn. rewrite (nth_index short dd d R1 Ed). reflexivity.
        * split; [exact En|]. right. exists x, dd, i, t. split; [|auto]. apply part_visited_other; auto.
          destruct Ho as [(-> & its & (n1 & ou & ch1 & ty & E1 & E2) & _)|(m & its & w & Ex & _)]; [rewrite E1|rewrite Ex]; exact I.
    - intros i. rewrite in_app_iff, Hix, Hiy. split.
      + intros [(c & n & E1 & E2 & E3 & E4)|(c & n & E1 & E2 & E3 & E4)]; exists c, n; auto.
      + intros (c & n & E1 & E2 & [E3|E3] & E4); [left|right]; exists c, n; auto.
  Qed.

  Theorem graph_well_formed root short G : graph_of hash_obj h root short G -> well_formed G.
  Proof.
    intros [H1 H2 H3 H4 H5 H6 H7]. split.
    - rewrite H3. apply seq_NoDup.
    - intros c Hc. apply H5 in Hc. destruct Hc as (x & En & _). rewrite H3. eapply nth_seq_in; eauto.
    - intros d i c Hc. apply H6 in Hc. destruct Hc as (dd & c' & x & t & Ed & En & _ & Ho & _). split.
      + rewrite H3. eapply nth_seq_in; eauto.
      + destruct (H4 d dd Ed) as (k & Ek & Hd). rewrite Ek. unfold describes in Hd.
        assert (Hi : exists items, has_outcomes h dd items).
        { destruct Ho as [(-> & its & Hi & _)|(m & its & w & _ & Hi & _)]; eauto. }
        destruct Hi as (its & n1 & ou & ch1 & ty & E1 & E2). rewrite E1 in Hd. destruct Hd as (its' & _ & ->). eauto.
  Qed.
End Graph.
