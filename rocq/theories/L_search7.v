(** C103: the best estimator of a search. *)
From Verif Require Import Base L_dict M_traverse L_traverse M_expr L_expr1 L_expr2 L_expr3 L_expr4 L_expr5 L_expr6 L_expr7.
From Verif Require Import M_clone L_clone L_clone2 M_grid L_grid L_grid2 M_choicegraph L_choicegraph L_choicegraph2 L_choicegraph3 L_conflicts M_estimator L_estimator1 L_estimator2 L_estimator3 L_estimator4 L_estimator5 L_search1 M_search L_search2 L_search4 L_search5 L_search6.
Set Default Proof Using "Type".
Open Scope string_scope.
Open Scope list_scope.
Open Scope nat_scope.

(** ** Specification *)
Section Spec.
  Context {V K F : Type} `{EqD K}.
  Notation heap := (heap V K).

  (** The parameters are drawn from one of the grids. *)
  Definition drawn (gs : list (grid V)) (params : list (nat * param V)) : Prop :=
    exists g, In g gs /\ forall k p, In (k, p) params ->
      match dget k g, p with
      | Some (Indices l), PIndex i => In i l
      | Some Whole, PNumber _ => True
      | Some (Single u), PNumber v => v = u
      | _, _ => False
      end.

  (** [o] is used to compute X or y. *)
  Definition upstream (h : heap) (root o : oid) : Prop :=
    exists z, part_of h root z /\ (carries h z IsX \/ carries h z IsY) /\ part_of h z o.

  (** No name is one of those reserved for X and y. *)
  Definition names_free (h : heap) (root : oid) : Prop :=
    forall o n, part_of h root o -> carries h o (Named n) -> n <> X_NAME /\ n <> Y_NAME.

  (** The values given to the variables are plain. *)
  Definition variables_plain (h : heap) (root : oid) : Prop :=
    forall o c name isX isY, part_of h root o -> h o = OExpr (IVar (Some c)) name isX isY ->
      exists v, h c = OValue v.

  (** Copies have the hash of the original; copies of apply steps have the methods of the
      original. *)
  Definition copies_hash (copy : V -> res V) (hash_obj : heap -> oid -> res K) (h : heap) (root : oid) : Prop :=
    forall drop h' size' root' f, copy_of copy drop h root h' size' root' f ->
      forall n, part_of h' root' n -> hash_obj h' n = hash_obj h (f n).
  Definition copies_declare (copy : V -> res V) (declares : heap -> oid -> string -> bool) (h : heap) (root : oid) : Prop :=
    forall drop hs h' size' root' f, same_but_settings h hs -> copy_of copy drop hs root h' size' root' f ->
      forall n, part_of h' root' n -> declares h' n = declares hs (f n).
End Spec.

(** ** Proofs *)
Section Params.
  Context {V K : Type} `{EqD K}.
  Notation heap := (heap V K).
  Variable hash_obj : oid -> res K.
  Variables (h : heap) (root : oid) (short : list oid) (G : cgraph V).
  Hypothesis Hgraph : graph_of hash_obj h root short G.

  Lemma same_effect_refl (ob : obj V K) : same_effect ob ob.
  Proof. destruct ob; cbn; auto. Qed.

  (** One setting drawn from the grid keeps what is used for X and y. *)
  Lemma drawn_kept g : (forall c r, dget c g = Some r -> entry_ok G c r) -> forall params,
    (forall k p, In (k, p) params -> match dget k g, p with
      | Some (Indices l), PIndex i => In i l | Some Whole, PNumber _ => True | Some (Single u), PNumber v => v = u | _, _ => False end) ->
    forall h0 hs, (forall o, upstream h root o -> same_effect (h o) (h0 o)) -> set_numbered short params h0 = Ok hs ->
    forall o, upstream h root o -> same_effect (h o) (hs o).
  Proof using Hgraph. clear - Hgraph.
    intros Hg. induction params as [|[k p] params IH]; intros Hp h0 hs H0 E o U; cbn [set_numbered] in E; [injection E as <-; apply H0; exact U|].
    destruct (nth_error short k) as [c|] eqn:Ek; [|discriminate]. destruct (set_choice p (h0 c)) as [ob|] eqn:Es; cbn [bind] in E; [|discriminate].
    apply (IH (fun k' p' I => Hp k' p' (or_intror I)) (upd_heap h0 c ob) hs); [|exact E|exact U].
    clear - Hgraph Hg Hp H0 Ek Es. intros o U. unfold upd_heap. destruct (eqd o c) as [->|]; [|apply H0; exact U].
    pose proof (Hp k p (or_introl eq_refl)) as D. destruct (go_kind _ _ _ _ _ Hgraph k c Ek) as (kd & Ed & Kd).
    assert (X : mem k (cg_Xy G) = true). { apply mem_true. apply (go_Xy _ _ _ _ _ Hgraph). destruct U as (z & Pz & Cz & Pc). exists c, z. auto. }
    pose proof (H0 c U) as Sc. destruct (dget k g) as [r|] eqn:Er; [|destruct p; contradiction]. pose proof (Hg k r Er) as Ok'. unfold entry_ok in Ok'. rewrite Ed in Ok'.
    unfold describes in Kd. unfold set_choice in Es. destruct (h c) as [| | | |name outs ch|name df ch| | |] eqn:Eh; try contradiction.
    - destruct Kd as (items & _ & ->). destruct Ok' as (l & -> & Hl). unfold same_effect in Sc. destruct (h0 c) as [| | | |name' outs' ch'| | | |]; try discriminate. destruct Sc as (<- & <- & Sc).
      destruct p as [i|v]; [|discriminate]. injection Es as <-. cbn. split; [reflexivity|]. split; [reflexivity|]. destruct (Hl i D) as (n & chosen & En & Ei). rewrite Ed in En. injection En as <- <-. rewrite X in Ei. subst i. destruct ch; reflexivity.
    - subst kd. rewrite X in Ok'. subst r. unfold same_effect in Sc. destruct (h0 c) as [| | | | |name' df' ch'| | |]; try discriminate. destruct Sc as (<- & <- & Sc).
      destruct p as [i|v]; [contradiction|]. injection Es as <-. subst v. cbn. split; [reflexivity|]. split; [reflexivity|]. destruct ch; reflexivity.
  Qed.
  Lemma drawn_upstream gs params hs : param_grid G = Ok gs -> drawn gs params -> set_numbered short params h = Ok hs ->
    forall o, upstream h root o -> same_effect (h o) (hs o).
  Proof using Hgraph.
    intros Eg (g & Ig & D) Es. destruct (param_grid_spec G (graph_well_formed _ _ _ _ _ Hgraph)) as (gs' & Eg' & Hok & _). rewrite Eg in Eg'. injection Eg' as <-.
    apply (drawn_kept g (fun c r => Hok g c r Ig) params D h hs); [intros; apply same_effect_refl|exact Es].
  Qed.
End Params.

Section Best.
  Context {V K F : Type} `{EqD K}.
  Notation heap := (heap V K).
  Notation st := (st V F).
  Notation env := (env V).
  Variable ext : externals V K F.
  Variable hash_obj : heap -> oid -> res K.
  Variable has_method : F -> string -> bool.
  Variable declares : heap -> oid -> string -> bool.
  Variable copy : V -> res V.
  Variables new_seq new_map new_estimator : string -> res unit.
  Variable is_none : V -> bool.
  Notation clone := (M_clone.clone copy new_seq new_map new_estimator).
  Notation compute_Xy := (M_search.compute_Xy ext copy new_seq new_map new_estimator is_none).
  Notation refit := (M_search.refit ext hash_obj has_method declares copy new_seq new_map new_estimator).
  Notation new_est := (M_search.new_est hash_obj copy new_seq new_map new_estimator).
  Notation call := (M_search.call ext has_method declares).
  Notation none := (fun _ : oid => @None (fit_attr V F)).

  Variables (h : heap) (size : nat) (root : oid).
  Hypothesis Hcopy : forall v v', copy v = Ok v' -> v' = v.
  Hypothesis Hclosed : closed h size.
  Hypothesis Hroot : root < size.
  Hypothesis Hacyclic : acyclic h root.
  Hypothesis Hconflict : no_conflict h root.
  Hypothesis Hnames : names_free h root.
  Hypothesis Hplain : variables_plain h root.

  (** *** The same settings on the original, seen as a memory of its own *)
  Section WithSettings.
    Variable hs : heap.
    Hypothesis Hsame : same_but_settings h hs.

    Lemma s_carries o l : carries hs o l <-> carries h o l.
    Proof using Hsame. clear - Hsame. pose proof (Hsame o) as S. unfold carries. destruct (h o), (hs o); cbn in S; try discriminate; try tauto; first [injection S as <- <- <- <-; tauto|destruct S as [-> _]; tauto]. Qed.
    Lemma s_stateful o : stateful hs o <-> stateful h o.
    Proof using Hsame. clear - Hsame. pose proof (Hsame o) as S. unfold stateful. destruct (h o), (hs o); cbn in S; try discriminate; try tauto. injection S as <- <- <- <-. tauto. Qed.
    Lemma s_plain : variables_plain hs root.
    Proof using Hsame Hplain. clear - Hsame Hplain. intros o c name isX isY P E. apply (settings_part _ _ Hsame) in P. pose proof (Hsame o) as S. rewrite E in S.
      destruct (h o) eqn:Eo; cbn in S; try discriminate; [|contradiction..]. injection S as -> -> -> ->. destruct (Hplain o c name isX isY P Eo) as [v Ev]. exists v. pose proof (Hsame c) as S. rewrite Ev in S. destruct (hs c); cbn in S; congruence. Qed.

    Lemma s_unused e mode : values_unused true h root e mode -> values_unused true hs root e mode.
    Proof using Hsame Hplain. intros U D. destruct (U D) as (A & B & _). split; [exact A|]. split; [exact B|]. exact s_plain. Qed.

    (** *** What is given when X and y are given *)
    Variables (e : env) (vx : V) (vy : option V).
    Hypothesis He : e <> [].
    Hypothesis Hunused : values_unused true h root e "fit_transform".
    Hypothesis HXy : snd (compute_Xy h size root e) = Ok (vx, vy).
    Hypothesis Hkept : forall o, upstream h root o -> same_effect (h o) (hs o).
    Hypothesis Hstateless : forall o, upstream h root o -> ~ stateful h o.

    Definition marked (o : oid) : Prop := carries h o IsX \/ (carries h o IsY /\ vy <> None).
    Lemma get_env_ne : get_env e vx vy <> [].
    Proof. clear. unfold get_env. intros E. assert (G : forall (n : string) (v : V) d, dset n v d <> []) by (intros n v [|[a b] d]; cbn; [discriminate|destruct (eqd n a); discriminate]). destruct vy; apply G in E; exact E. Qed.
    Lemma get_env_other n : n <> X_NAME -> n <> Y_NAME -> dget n (get_env e vx vy) = dget n e.
    Proof. clear. intros A B. unfold get_env. destruct vy; rewrite ?dget_dset_neq by auto; reflexivity. Qed.
    Lemma get_env_X : dget X_NAME (get_env e vx vy) = Some vx.
    Proof. clear. unfold get_env. destruct vy; [rewrite dget_dset_neq by discriminate|]; apply dget_dset_eq. Qed.
    Lemma get_env_Y w : vy = Some w -> dget Y_NAME (get_env e vx vy) = Some w.
    Proof. clear. intros ->. unfold get_env. apply dget_dset_eq. Qed.
    Lemma get_env_no_Y : vy = None -> dget Y_NAME (get_env e vx vy) = dget Y_NAME e.
    Proof. clear. intros ->. unfold get_env. apply dget_dset_neq. discriminate. Qed.

    Lemma upstream_slot z v a : part_of h root z -> carries h z IsX \/ carries h z IsY ->
      Den ext h e "fit_transform" none z (Ok (v, a)) -> Den ext hs e "fit_transform" none z (Ok (v, None)).
    Proof using Hsame Hkept Hstateless. clear - Hsame Hkept Hstateless.
      intros P C D. assert (U : upstream h root z) by (exists z; split; [exact P|]; split; [exact C|apply reach_refl]).
      assert (a = None) by (destruct D as [d D]; eapply plain_slot; [apply Hstateless; exact U|exact D]). subst a.
      apply (effect_Den ext h hs (fun o => part_of h z o)); [|intros o Po; apply Hkept; exists z; auto|apply reach_refl|exact D].
      intros o c Po Ic. eapply reach_trans; [exact Po|]. apply part_child. exact Ic.
    Qed.

    Lemma s_mark o : part_of hs root o ->
      (marked o /\ exists v, given hs (get_env e vx vy) o = Some v /\ Den ext hs e "fit_transform" none o (Ok (v, None))) \/
      (given hs (get_env e vx vy) o = given hs e o /\ same_reads hs e (get_env e vx vy) o).
    Proof using Hsame Hplain Hcopy Hclosed Hroot Hacyclic Hconflict Hnames He Hunused HXy Hkept Hstateless.
      intros P. apply (settings_part _ _ Hsame) in P.
      destruct (compute_Xy_sound ext copy new_seq new_map new_estimator is_none h size root e Hcopy Hclosed Hroot Hacyclic Hunused vx vy HXy) as (x & fx & Px & Cx & Dx & Y).
      assert (Dec : carries h o IsX \/ ~ carries h o IsX) by (unfold carries; destruct (h o) as [? ? [] ?| | | | | | | |]; auto).
      assert (DecY : carries h o IsY \/ ~ carries h o IsY) by (unfold carries; destruct (h o) as [? ? ? []| | | | | | | |]; auto).
      destruct Dec as [C|C].
      { left. split; [left; exact C|]. exists vx. assert (o = x) by (eapply Hconflict; eauto). subst o. split; [|eapply upstream_slot; eauto].
        apply s_carries in C. unfold carries in C. unfold given. destruct (hs x) as [i name isX isY| | | | | | | |]; try contradiction. subst isX. unfold provided. cbn [app first_provided]. fold X_NAME. rewrite get_env_X. reflexivity. }
      destruct DecY as [CY|CY].
      - destruct Y as [(y & w & fy & Py & Cy & Dy & Ev)|(Ev & No)]; [|exfalso; apply (No o P CY)]. assert (o = y) by (eapply Hconflict; eauto). subst o.
        destruct (is_none w).
        + right. clear Dx Dy.
          assert (G : forall n, carries hs y (Named n) -> dget n (get_env e vx vy) = dget n e) by (intros n Cn; apply s_carries in Cn; destruct (Hnames y n P Cn); apply get_env_other; assumption).
          pose proof (get_env_no_Y Ev) as GY. assert (CX' : ~ carries hs y IsX) by (rewrite s_carries; exact C).
          unfold given, same_reads, carries in *. destruct (hs y) as [i name [] isY|ty items|ty items|? ? ?|name outs ch|name df ch|? ?|? ?|?]; try (exfalso; apply CX'; reflexivity); try (split; [reflexivity|exact Logic.I]).
          * split.
            { unfold provided. assert (N : first_provided (get_env e vx vy) (match i, name with IVar _, _ => [] | _, Some n => [n] | _, None => [] end) = first_provided e (match i, name with IVar _, _ => [] | _, Some n => [n] | _, None => [] end)).
              { destruct i, name; cbn [first_provided]; try reflexivity; rewrite G by reflexivity; reflexivity. }
              destruct isY; cbn [app first_provided]; [fold Y_NAME; rewrite GY|]; rewrite N; reflexivity. }
            destruct i; try exact Logic.I. split; [split; [intros X; contradiction (He X)|intros X; contradiction (get_env_ne X)]|].
            split; [symmetry; apply get_env_other; discriminate|]. intros n ->. symmetry. apply G. reflexivity.
          * split; [|exact Logic.I]. destruct name; [apply G|]; reflexivity.
          * split; [|exact Logic.I]. destruct name; [apply G|]; reflexivity.
        + left. split; [right; split; [exact CY|rewrite Ev; discriminate]|]. exists w. split; [|eapply upstream_slot; eauto].
          assert (CX' : ~ carries hs y IsX) by (rewrite s_carries; exact C). apply s_carries in CY. unfold carries in *. unfold given. destruct (hs y) as [i name [] isY| | | | | | | |]; try contradiction; try (exfalso; apply CX'; reflexivity).
          subst isY. unfold provided. cbn [app first_provided]. fold Y_NAME. rewrite (get_env_Y w Ev). reflexivity.
      - right. clear Dx.
        assert (G : forall n, carries hs o (Named n) -> dget n (get_env e vx vy) = dget n e) by (intros n Cn; apply s_carries in Cn; destruct (Hnames o n P Cn); apply get_env_other; assumption).
        assert (CX' : ~ carries hs o IsX) by (rewrite s_carries; exact C). assert (CY' : ~ carries hs o IsY) by (rewrite s_carries; exact CY).
        unfold given, same_reads, carries in *. destruct (hs o) as [i name [] []|ty items|ty items|? ? ?|name outs ch|name df ch|? ?|? ?|?]; try (exfalso; apply CX'; reflexivity); try (exfalso; apply CY'; reflexivity); try (split; [reflexivity|exact Logic.I]).
        + split.
          { unfold provided. cbn [app]. destruct i, name; cbn [first_provided]; try reflexivity; rewrite G by reflexivity; reflexivity. }
          destruct i; try exact Logic.I. split; [split; [intros X; contradiction (He X)|intros X; contradiction (get_env_ne X)]|].
          split; [symmetry; apply get_env_other; discriminate|]. intros n ->. symmetry. apply G. reflexivity.
        + split; [|exact Logic.I]. destruct name; [apply G|]; reflexivity.
        + split; [|exact Logic.I]. destruct name; [apply G|]; reflexivity.
    Qed.

    Lemma s_fits :
      let out1 := evaluate ext hs size root "fit_transform" e true (empty_st (F := F)) in
      let out2 := evaluate ext hs size root "fit_transform" (get_env e vx vy) true (empty_st (F := F)) in
      snd out1 = snd out2 /\ forall v, snd out1 = Ok v -> forall x, fitted (fst out1) x = fitted (fst out2) x.
    Proof using Hsame Hplain Hcopy Hclosed Hroot Hacyclic Hconflict Hnames He Hunused HXy Hkept Hstateless.
      apply (fits_agree ext hs size root (settings_closed _ _ Hsame _ Hclosed) Hroot (settings_acyclic _ _ Hsame _ Hacyclic) e (get_env e vx vy) marked s_mark).
      intros o (z & M & Pz & Po). rewrite s_stateful. apply Hstateless. exists z. split; [apply (settings_part _ _ Hsame); exact Pz|]. split; [destruct M as [M|[M _]]; auto|apply (settings_part _ _ Hsame); exact Po].
    Qed.
  End WithSettings.

  (** *** The best estimator *)
  Hypothesis Hhash : copies_hash copy hash_obj h root.
  Hypothesis Hdeclares : copies_declare copy declares h root.
  Hypothesis Hchoices : L_choicegraph.choices_ok (hash_obj h) h root.

  Lemma set_on_copy drop h' size' root' f params : copy_of copy drop h root h' size' root' f ->
    exists short G, choice_graph (hash_obj h) h size root = Ok (short, G) /\ graph_of (hash_obj h) h root short G /\
    match set_params hash_obj h' size' root' params, set_numbered short params h with
    | Ok hs', Ok hs => copy_of copy drop hs root hs' size' root' f /\ same_but_settings h hs
    | Err a, Err b => a = b
    | _, _ => False
    end.
  Proof using Hcopy Hclosed Hroot Hacyclic Hconflict Hplain Hhash Hchoices. clear - Hcopy Hclosed Hroot Hacyclic Hconflict Hplain Hhash Hchoices.
    intros C. destruct (choice_graph_spec (hash_obj h) h size root Hclosed Hroot Hacyclic Hchoices Hconflict) as (short & G & Eg & Hg). exists short, G. split; [exact Eg|]. split; [exact Hg|].
    assert (PV : plain_values drop h root).
    { intros _ o v name isX isY x P E Px. destruct (Hplain o v name isX isY P E) as [w Ew].
      inversion Px as [|? c ? Hs Hc Hr]; subst; [rewrite Ew; exact Logic.I|]. rewrite Ew in Hc. destruct Hc. }
    destruct (clone_run copy drop h h' size size' root root' f C Hclosed Hroot Hacyclic (hash_obj h) (hash_obj h') (Hhash drop h' size' root' f C) PV root' (reach_refl _ _ _)) as [Er Fc].
    rewrite (co_root _ _ _ _ _ _ _ _ C) in Er. unfold choice_graph in Eg. rewrite Er in Eg. unfold set_params.
    destruct (run_choice_graph (hash_obj h') h' size' root') as [[short' g']|ex]; cbn [bind] in *; [|discriminate]. specialize (Fc short' g' eq_refl).
    assert (map f short' = short).
    { destruct g' as [kinds ch]. destruct (find_X h size root); cbn [bind] in Eg; [|discriminate]. destruct (find_y h size root); cbn [bind] in Eg; [|discriminate].
      destruct (choices_of_node _ _ _ _ _); cbn [bind] in Eg; [|discriminate]. destruct (choices_of_node _ _ _ _ _); cbn [bind] in Eg; [|discriminate]. injection Eg as <- _. reflexivity. }
    subst short. pose proof (set_copy copy drop h h' root size' root' f short' params C Fc) as S.
    destruct (set_numbered short' params h'), (set_numbered (map f short') params h); tauto.
  Qed.

  Theorem best_estimator_spec e x y G short gs params b :
    e <> [] -> values_unused true h root e "fit_transform" ->
    snd (compute_Xy h size root e) = Ok (x, y) ->
    choice_graph (hash_obj h) h size root = Ok (short, G) -> param_grid G = Ok gs -> drawn gs params ->
    (forall o, upstream h root o -> ~ stateful h o) ->
    refit h size root e x y params = Ok b ->
    exists b0 b1, new_est h size root params = Ok b0 /\ call b0 "fit" e = (b1, Ok TheExpr) /\
      forall mode e2, values_unused true h root e2 (real_mode mode) -> snd (call b mode e2) = snd (call b1 mode e2).
  Proof using Hcopy Hclosed Hroot Hacyclic Hconflict Hnames Hplain Hhash Hdeclares Hchoices.
    intros He Hun HXy Eg Egs Hd Hst E. unfold M_search.refit in E.
    destruct (clone h size root false) as [[[ha sa] ra]|] eqn:Ea; cbn [bind] in E; [|discriminate].
    destruct (clone ha sa ra false) as [[[h2 size2] root2]|] eqn:Eb; cbn [bind] in E; [|discriminate].
    destruct (clone_is_clone _ _ _ _ _ _ _ _ _ _ _ Hclosed Hroot Ea) as (f1 & C1). apply clone_copy in C1.
    destruct (clone_is_clone _ _ _ _ _ _ _ _ _ _ _ (co_closed _ _ _ _ _ _ _ _ C1) (co_root_lt _ _ _ _ _ _ _ _ C1) Eb) as (f2 & C2). apply clone_copy in C2.
    pose proof (copy_trans copy Hcopy _ _ _ _ _ _ _ _ _ _ C1 C2) as C12. set (g := fun n => f1 (f2 n)) in *.
    assert (Et : exists h1 size1 root1, clone h size root true = Ok (h1, size1, root1)).
    { unfold M_search.compute_Xy in HXy. destruct (clone h size root true) as [[[h1 size1] root1]|]; cbn [bind] in HXy; [eauto|discriminate]. }
    destruct Et as (h1 & size1 & root1 & Et). destruct (clone_is_clone _ _ _ _ _ _ _ _ _ _ _ Hclosed Hroot Et) as (f & C). apply clone_copy in C.
    destruct (set_on_copy _ _ _ _ _ params C12) as (short' & G' & Eg' & Hg & S2). rewrite Eg in Eg'. injection Eg' as <- <-.
    destruct (set_on_copy _ _ _ _ _ params C) as (short' & G' & Eg' & _ & S1). rewrite Eg in Eg'. injection Eg' as <- <-.
    destruct (set_params hash_obj h2 size2 root2 params) as [hs2|] eqn:Es2; cbn [bind] in E; [|discriminate].
    destruct (set_numbered short params h) as [hs|] eqn:Es; [|contradiction].
    destruct (set_params hash_obj h1 size1 root1 params) as [hs1|] eqn:Es1; [|contradiction].
    destruct S2 as [K2 Hsame], S1 as [K1 _].
    pose proof (drawn_upstream _ _ _ _ _ Hg gs params hs Egs Hd Es) as Hkept.
    pose proof (s_fits hs Hsame e x y He Hun HXy Hkept Hst) as SF. cbn zeta in SF.
    assert (Hclosed' : closed hs size) by (eapply settings_closed; eauto). assert (Hacyclic' : acyclic hs root) by (eapply settings_acyclic; eauto).
    assert (PV : forall drop, plain_values drop hs root).
    { intros drop _ o v name isX isY z P Eo Px. destruct (s_plain hs Hsame o v name isX isY P Eo) as [w Ew].
      inversion Px as [|? c ? Hs Hc Hr]; subst; [rewrite Ew; exact Logic.I|]. rewrite Ew in Hc. destruct Hc. }
    pose proof (Hdeclares _ _ _ _ _ _ Hsame K2) as D2. pose proof (Hdeclares _ _ _ _ _ _ Hsame K1) as D1.
    assert (L0 : forall (hh : heap) rr ff, linked hh rr ff (empty_st (V := V) (F := F)) empty_st) by (intros hh rr ff n _; reflexivity).
    rewrite (t_supported copy false hs hs2 size size2 root root2 g K2 Hclosed' Hroot Hacyclic' (PV false) has_method (declares hs) (declares hs2) D2 empty_st empty_st (L0 _ _ _)) in E.
    destruct (supported_modes hs size has_method (declares hs) root (fitted empty_st)) as [ms|ex] eqn:Em; cbn [bind] in E; [|discriminate].
    assert (U2 : forall e0 m, values_unused false hs root e0 m) by (intros e0 m X; discriminate X).
    pose proof (t_answer ext copy false hs hs2 size size2 root root2 g Hcopy K2 Hclosed' Hroot Hacyclic' "fit_transform" (get_env e x y) empty_st empty_st (U2 _ _) (L0 _ _ _)) as A2.
    pose proof (t_fitted ext copy false hs hs2 size size2 root root2 g Hcopy K2 Hclosed' Hroot Hacyclic' "fit_transform" (get_env e x y) empty_st empty_st) as T2.
    pose proof (s_unused hs Hsame e "fit_transform" Hun) as Hun'.
    pose proof (t_answer ext copy true hs hs1 size size1 root root1 f Hcopy K1 Hclosed' Hroot Hacyclic' "fit_transform" e empty_st empty_st Hun' (L0 _ _ _)) as A1.
    pose proof (t_fitted ext copy true hs hs1 size size1 root root1 f Hcopy K1 Hclosed' Hroot Hacyclic' "fit_transform" e empty_st empty_st) as T1.
    destruct (evaluate ext hs2 size2 root2 "fit_transform" (get_env e x y) true empty_st) as [s2 r2] eqn:E2.
    destruct r2 as [v|ex]; cbn [bind] in E; [|discriminate]. injection E as <-.
    destruct SF as [SA SF]. cbn [fst snd] in A2, T2. rewrite <- A2 in SA. specialize (SF v SA).
    specialize (T2 v (U2 _ _) (L0 _ _ _) eq_refl eq_refl (eq_sym A2)). specialize (T1 v Hun' (L0 _ _ _) eq_refl eq_refl SA).
    rewrite SA in A1.
    destruct (evaluate ext hs1 size1 root1 "fit_transform" e true empty_st) as [s1 r1] eqn:E1. cbn [fst snd] in A1, T1. subst r1.
    exists (mk_est hs1 size1 root1 empty_st false), (mk_est hs1 size1 root1 s1 true).
    split; [unfold M_search.new_est; rewrite Et; cbn [bind]; rewrite Es1; reflexivity|]. split.
    - unfold M_search.call. cbn [e_heap e_size e_root e_fitted e_st].
      rewrite (method_fit_does ext hs1 size1 has_method (declares hs1) root1 false e empty_st s1 v ms); [reflexivity| |exact E1].
      rewrite (t_supported copy true hs hs1 size size1 root root1 f K1 Hclosed' Hroot Hacyclic' (PV true) has_method (declares hs) (declares hs1) D1 empty_st empty_st (L0 _ _ _)). exact Em.
    - intros mode e2 Hun2. unfold M_search.call. cbn [e_heap e_size e_root e_fitted e_st].
      pose proof (t_method ext copy false hs hs2 size size2 root root2 g Hcopy K2 Hclosed' Hroot Hacyclic' (PV false) has_method (declares hs) (declares hs2) D2 true mode e2 s2 _ (U2 _ _) T2) as [M2 _].
      pose proof (t_method ext copy true hs hs1 size size1 root root1 f Hcopy K1 Hclosed' Hroot Hacyclic' (PV true) has_method (declares hs) (declares hs1) D1 true mode e2 s1 _ (s_unused hs Hsame e2 _ Hun2) T1) as [M1 _].
      pose proof (method_same ext hs size has_method (declares hs) root Hclosed' Hroot Hacyclic' root true mode e2 _ _ (reach_refl _ _ _) SF) as [M _].
      destruct (method ext hs2 size2 has_method (declares hs2) root2 true mode e2 s2) as [[? ?] ra2]. destruct (method ext hs1 size1 has_method (declares hs1) root1 true mode e2 s1) as [[? ?] ra1].
      cbn [fst snd] in *. congruence.
  Qed.
End Best.
