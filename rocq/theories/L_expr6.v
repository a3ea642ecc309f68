(** The value of an expression depends only on what it needs; termination and circular
    references. *)
From Verif Require Import Base M_traverse L_traverse M_expr L_expr1 L_expr2 L_expr3 L_expr4 L_expr5.
From Coq Require Import Relations.Relation_Operators Relations.Operators_Properties.
Open Scope string_scope.
Open Scope list_scope.
Open Scope nat_scope.

Section Agree.
  Context {V K F : Type} `{EqD K}.
  Notation heap := (heap V K).
  Notation st := (st V F).
  Variable ext : externals V K F.
  Variable mode : string.

  (** Value given by the environment to the object [o]. *)
  Definition given (h : heap) (e : env V) (o : oid) : option V :=
    match h o with
    | OExpr i name isX isY => provided e i name isX isY
    | OChoice (Some n) _ _ | ONumChoice (Some n) _ _ => dget n e
    | _ => None
    end.

  (** Containers in which [o] looks up an object without evaluating them. *)
  Definition table (h : heap) (o t : oid) : Prop :=
    match h o with
    | OExpr (IMatch _ targets _) _ _ _ => t = targets
    | OExpr (IApplied target) _ _ _ => t = target
    | OChoice _ outcomes _ => t = outcomes
    | OChoiceMatch _ mapping => t = mapping
    | _ => False
    end.

  Variables h1 h2 : heap.
  Variables e1 e2 : env V.
  Variables f1 f2 : oid -> option (fit_attr V F).

  (** What a variable reads from the environment. *)
  Definition same_reads (o : oid) : Prop :=
    match h1 o with
    | OExpr (IVar _) name _ _ =>
        (e1 = [] <-> e2 = []) /\
        dget "_skrub_use_var_values" e1 = dget "_skrub_use_var_values" e2 /\
        (forall n, name = Some n -> dget n e1 = dget n e2)
    | _ => True
    end.

  (** The two situations agree about [o] itself. *)
  Definition agree (o : oid) : Prop :=
    f1 o = f2 o /\
    ((exists v, given h1 e1 o = Some v /\ given h2 e2 o = Some v) \/
     (h1 o = h2 o /\ given h1 e1 o = None /\ given h2 e2 o = None /\
      (forall t, table h1 o t -> h1 t = h2 t) /\ same_reads o)).

  Notation den1 := (den ext h1 e1 mode f1).
  Notation den2 := (den ext h2 e2 mode f2).
  Notation needed1 := (needed ext h1 e1 mode f1).
  Notation needs1 := (needs ext h1 e1 mode f1).

  Lemma given_den h e f o v d : given h e o = Some v ->
    den ext h e mode f (S d) o = Some (Ok (v, f o)).
  Proof.
    unfold given. cbn [den]. destruct (h o) as [i name isX isY|ty items|ty items|a b c|name outs ch|name df ch|c m|cls p|w];
      try discriminate.
    - intros ->. reflexivity.
    - destruct name as [n|]; [|discriminate]. intros ->. reflexivity.
    - destruct name as [n|]; [|discriminate]. intros ->. reflexivity.
  Qed.

  Lemma agree_den_gen root
    (Hag : forall o, needed1 root o ->
       agree o \/ forall d r, den1 d o = Some r -> den2 d o = Some r) :
    forall d o r, needed1 root o -> den1 d o = Some r -> den2 d o = Some r.
  Proof.
    induction d as [|d IH]; intros o r Hn E; [discriminate|].
    destruct (Hag o Hn) as [[Hf [(v & G1 & G2)|(Eh & G1 & G2 & Htab & Hreads)]]|Hdir];
      [| |apply Hdir; exact E].
    { rewrite (given_den h1 e1 f1 o v d G1) in E. rewrite (given_den h2 e2 f2 o v d G2).
      rewrite <- Hf. exact E. }
    assert (Hev : forall c, needs1 o c ->
              dle (dbind (den1 d c) (fun vf => Some (Ok (fst vf))))
                  (dbind (den2 d c) (fun vf => Some (Ok (fst vf))))).
    { intros c Hc. apply dle_bind; [|intros; apply dle_refl].
      intros r' E'. apply IH; [|exact E']. econstructor; eauto. }
    assert (Hevs : forall l, (forall c, In c l -> needs1 o c) ->
              dle (dmapM (fun c => dbind (den1 d c) (fun vf => Some (Ok (fst vf)))) l)
                  (dmapM (fun c => dbind (den2 d c) (fun vf => Some (Ok (fst vf)))) l)).
    { induction l as [|c l IHl]; intros Hl; [apply dle_refl|]. cbn [dmapM].
      apply dle_bind; [apply Hev; apply Hl; left; reflexivity|]. intros b.
      apply dle_bind; [apply IHl; intros; apply Hl; right; assumption|intros; apply dle_refl]. }
    assert (Hargs : forall A (l : list (A * oid)), (forall c, In c (map snd l) -> needs1 o c) ->
              dle (dmapM (fun nc => dbind (dbind (den1 d (snd nc)) (fun vf => Some (Ok (fst vf))))
                                   (fun v => Some (Ok (fst nc, v)))) l)
                  (dmapM (fun nc => dbind (dbind (den2 d (snd nc)) (fun vf => Some (Ok (fst vf))))
                                   (fun v => Some (Ok (fst nc, v)))) l)).
    { intros A. induction l as [|[n c] l IHl]; intros Hl; [apply dle_refl|]. cbn [dmapM].
      apply dle_bind.
      - apply dle_bind; [apply Hev; apply Hl; left; reflexivity|intros; apply dle_refl].
      - intros b. apply dle_bind; [apply IHl; intros; apply Hl; right; assumption|intros; apply dle_refl]. }
    assert (Hdv : forall c v, dbind (den1 d c) (fun vf => Some (Ok (fst vf))) = Some (Ok v) ->
              DenV ext h1 e1 mode f1 c (Ok v)) by (intros c v E'; exists d; exact E').
    (* binds where the continuation may use the value *)
    assert (Hbv : forall B c (k1 k2 : V -> dres B) r', needs1 o c ->
              (forall v, DenV ext h1 e1 mode f1 c (Ok v) -> dle (k1 v) (k2 v)) ->
              dbind (dbind (den1 d c) (fun vf => Some (Ok (fst vf)))) k1 = Some r' ->
              dbind (dbind (den2 d c) (fun vf => Some (Ok (fst vf)))) k2 = Some r').
    { intros B c k1 k2 r' Hc Hk E'.
      destruct (dbind (den1 d c) (fun vf => Some (Ok (fst vf)))) as [[v|ex]|] eqn:Ev; cbn [dbind] in E'.
      - rewrite (Hev c Hc _ Ev). cbn [dbind]. apply (Hk v (Hdv c v Ev)). exact E'.
      - rewrite (Hev c Hc _ Ev). cbn [dbind]. exact E'.
      - discriminate. }
    revert E. cbn [den]. unfold given in G1, G2. unfold table in Htab. unfold same_reads in Hreads.
    pose proof (fun t => eq_refl (needs1 o t)) as Hneeds. unfold needs at 2 in Hneeds.
    rewrite <- Eh in G2. rewrite <- Eh. unfold with_slot. rewrite <- !Hf.
    destruct (h1 o) as [i name isX isY|ty items|ty items|a b c|name outs ch|name df ch|c m|cls p|w] eqn:Eh1.
    - (* expressions *)
      rewrite G1, G2.
      assert (Hplain : forall t, needs1 o t <-> match i with
             | IIfElse c a b =>
                 t = c \/
                 exists cv, DenV ext h1 e1 mode f1 c (Ok cv) /\
                   ((truthy ext cv = Ok true /\ t = a) \/ (truthy ext cv = Ok false /\ t = b))
             | IMatch q targets default =>
                 t = q \/
                 exists qv key ty items, DenV ext h1 e1 mode f1 q (Ok qv) /\ key_of ext qv = Ok key /\
                   h1 targets = OMap ty items /\
                   (dget key items = Some t \/ (dget key items = None /\ default = Some t))
             | IFreeze target => fit_mode mode = true /\ t = target
             | IApply X est y cols how allow unsup =>
                 In t (used_by_apply mode X est y cols how allow unsup)
             | _ => In t (map snd (fields i))
             end).
      { intros t. rewrite Hneeds. cbn [children]. rewrite G1. destruct i; tauto. }
      clear Hneeds.
      destruct i as [value|value|cnd it fa|q tg default|tgt|X est y cols how allow unsup|tgt|fi ot|op fs].
      + (* Var *)
        destruct Hreads as (He & Huse & Hname).
        assert (Hsv : forall val, spec_var ext e1 mode name val = spec_var ext e2 mode name val).
        { intros val. unfold spec_var. rewrite Huse.
          assert (Hnm : match name with Some n => dget n e1 | None => None end
                        = match name with Some n => dget n e2 | None => None end).
          { destruct name as [n|]; [apply Hname; reflexivity|reflexivity]. }
          rewrite Hnm. destruct (eqb_of mode "preview"); [|reflexivity].
          destruct e1, e2; try reflexivity.
          - destruct He as [He _]. discriminate (He eq_refl).
          - destruct He as [_ He]. discriminate (He eq_refl). }
        destruct value as [c|].
        * apply Hbv; [apply Hplain; simpl; auto|]. intros v _. rewrite Hsv. apply dle_refl.
        * rewrite Hsv. intros E. exact E.
      + apply dle_bind; [apply Hev; apply Hplain; simpl; auto|intros; apply dle_refl].
      + (* IfElse *)
        apply Hbv; [apply Hplain; auto|]. intros cv Hcv.
        destruct (truthy ext cv) as [[|]|ex] eqn:Et; cbn [dbind]; [| |apply dle_refl].
        * apply dle_bind; [apply Hev; apply Hplain; right; exists cv; split; [exact Hcv|]; auto|intros; apply dle_refl].
        * apply dle_bind; [apply Hev; apply Hplain; right; exists cv; split; [exact Hcv|]; auto|intros; apply dle_refl].
      + (* Match *)
        apply Hbv; [apply Hplain; auto|]. intros qv Hqv.
        destruct (key_of ext qv) as [key|ex] eqn:Ek; cbn [dbind]; [|apply dle_refl].
        apply dle_bind; [|intros; apply dle_refl].
        rewrite <- (Htab tg eq_refl).
        destruct (h1 tg) as [| ty items| | | | | | |] eqn:Etg; try apply dle_refl.
        destruct (dget key items) as [t|] eqn:Ed.
        * apply Hev. apply Hplain. right. exists qv, key, ty, items. auto 8.
        * destruct default as [dd|]; [|apply dle_refl].
          apply Hev. apply Hplain. right. exists qv, key, ty, items. auto 8.
      + (* Freeze *)
        destruct (fit_mode mode) eqn:Em; [|auto].
        apply dle_bind; [apply Hev; apply Hplain; auto|intros; apply dle_refl].
      + (* Apply *)
        destruct (fit_mode mode) eqn:Em.
        * apply dle_bind; [|intros; apply dle_refl]. apply Hargs. intros c Hc. apply Hplain.
          unfold used_by_apply. rewrite Em. destruct unsup; simpl in *; intuition.
        * apply dle_bind; [|intros; apply dle_refl]. apply Hargs. intros c Hc. apply Hplain.
          unfold used_by_apply. rewrite Em. destruct (eqb_of mode "score"); simpl in *; intuition.
      + (* Applied *)
        rewrite <- (Htab tgt eq_refl).
        apply dle_bind; [|intros; apply dle_refl]. intros r' E'. apply IH; [|exact E'].
        econstructor; [exact Hn|]. apply Hplain. simpl. auto.
      + apply dle_bind; [|intros; apply dle_refl]. apply Hargs. intros c Hc. apply Hplain. exact Hc.
      + apply dle_bind; [|intros; apply dle_refl]. apply Hargs. intros c Hc. apply Hplain. exact Hc.
    - apply dle_bind; [|intros; apply dle_refl].
      apply dle_bind; [|intros; apply dle_refl]. apply Hargs. intros c Hc. rewrite Hneeds. exact Hc.
    - apply dle_bind; [|intros; apply dle_refl].
      apply dle_bind; [|intros; apply dle_refl]. apply Hevs. intros c Hc. rewrite Hneeds. exact Hc.
    - apply dle_bind; [|intros; apply dle_refl].
      apply dle_bind; [apply Hev; rewrite Hneeds; simpl; auto|intros x].
      apply dle_bind; [apply Hev; rewrite Hneeds; simpl; auto|intros y].
      apply dle_bind; [apply Hev; rewrite Hneeds; simpl; auto|intros; apply dle_refl].
    - assert (N1 : match name with Some n => dget n e1 | None => None end = None) by (destruct name; auto).
      assert (N2 : match name with Some n => dget n e2 | None => None end = None) by (destruct name; auto).
      rewrite N1, N2. rewrite N1 in Hneeds.
      apply dle_bind; [|intros; apply dle_refl].
      rewrite <- (Htab outs eq_refl).
      destruct (h1 outs) as [| |ty items| | | | | |] eqn:Eo; try apply dle_refl.
      destruct (nth_error items _) as [c|] eqn:Ei; [|apply dle_refl].
      apply Hev. rewrite Hneeds. split; [reflexivity|]. exists ty, items. auto.
    - assert (N1 : match name with Some n => dget n e1 | None => None end = None) by (destruct name; auto).
      assert (N2 : match name with Some n => dget n e2 | None => None end = None) by (destruct name; auto).
      rewrite N1, N2. auto.
    - apply Hbv; [rewrite Hneeds; auto|]. intros ov Hov.
      destruct (key_of ext ov) as [key|ex] eqn:Ek; cbn [dbind]; [|apply dle_refl].
      apply dle_bind; [|intros; apply dle_refl].
      rewrite <- (Htab m eq_refl).
      destruct (h1 m) as [| ty items| | | | | | |] eqn:Em; try apply dle_refl.
      destruct (dget key items) as [t|] eqn:Ed; [|apply dle_refl].
      apply Hev. rewrite Hneeds. right. exists ov, key, ty, items. auto 8.
    - apply dle_bind; [|intros; apply dle_refl].
      apply dle_bind; [apply Hev; rewrite Hneeds; simpl; auto|intros; apply dle_refl].
    - auto.
  Qed.
  Lemma agree_den root (Hag : forall o, needed1 root o -> agree o) :
    forall d o r, needed1 root o -> den1 d o = Some r -> den2 d o = Some r.
  Proof. apply agree_den_gen. intros o Hn. left. apply Hag. exact Hn. Qed.
End Agree.

Section Theorems.
  Context {V K F : Type} `{EqD K}.
  Notation heap := (heap V K).
  Notation st := (st V F).
  Variable ext : externals V K F.

  Theorem evaluate_value (h : heap) size root e requested (s : st) :
    closed h size -> root < size -> acyclic h root ->
    exists r, Den ext h e (real_mode requested) (fitted s) root r /\
      snd (evaluate ext h size root requested e true s) = answer requested r.
  Proof.
    intros Hclosed Hroot Hacyclic.
    destruct (acyclic_nodes h size root Hclosed Hroot Hacyclic) as (ns & En & Hnd & Hns).
    unfold evaluate. fold (real_mode requested). set (mode := real_mode requested). rewrite En.
    destruct (clear_spec mode ns s) as (C1 & C2 & C3 & C4).
    set (s1 := clear_nodes ns mode s) in *.
    pose proof (prune_cb h size root Hclosed Hroot Hacyclic (V := V) (F := F) ns mode Hns) as Hcb.
    assert (Hi : Inv ext h e mode (fitted s) root s1).
    { split.
      - intros o v Ho Hex _ Er. rewrite C3, eqb_of_refl in Er.
        assert (Hin : In o ns) by (apply Hns; auto).
        apply mem_true in Hin. rewrite Hin in Er. discriminate.
      - intros o. left. rewrite C1. reflexivity. }
    pose proof (visit_good ext h e mode (fitted s) root (prune h size root mode ns)
                  (Hcb_sim h root mode _ Hcb) size [] root s1 (reach_refl _ _ _) Hi) as Hg.
    destruct (visit _ size [] root s1) as [s2 r] eqn:Ev.
    pose proof (eval_no_circ_no_fuel ext h size root Hclosed Hroot Hacyclic e mode _ s1 s2 r Ev) as Hr.
    destruct Hr as [[v ->]|[ex ->]]; cbn [Good] in Hg.
    - destruct Hg as (f & Hd & _). exists (Ok (v, f)). split; [exact Hd|reflexivity].
    - exists (Err ex). split; [exact Hg|reflexivity].
  Qed.

  (** Two evaluations that agree on everything that the first one needs have the same
      outcome. *)
  Theorem evaluate_agree (h1 h2 : heap) size1 size2 root e1 e2 requested (s1 s2 : st) :
    closed h1 size1 -> root < size1 -> acyclic h1 root ->
    closed h2 size2 -> root < size2 -> acyclic h2 root ->
    (forall o, needed ext h1 e1 (real_mode requested) (fitted s1) root o ->
       agree h1 h2 e1 e2 (fitted s1) (fitted s2) o) ->
    snd (evaluate ext h1 size1 root requested e1 true s1)
    = snd (evaluate ext h2 size2 root requested e2 true s2).
  Proof.
    intros C1 R1 A1 C2 R2 A2 Hag.
    destruct (evaluate_value h1 size1 root e1 requested s1 C1 R1 A1) as (r1 & [d E1] & ->).
    destruct (evaluate_value h2 size2 root e2 requested s2 C2 R2 A2) as (r2 & D2 & ->).
    f_equal. apply (Den_det ext h2 e2 (real_mode requested) (fitted s2) root); [|exact D2]. exists d.
    eapply agree_den; eauto. constructor.
  Qed.

  (** *** Nodes marked as X and y *)

  (** The environment gives the value of a node marked as X or y. *)
  Definition split_node (h : heap) (e : env V) (o : oid) : Prop :=
    match h o with
    | OExpr _ _ isX isY =>
        (isX = true /\ dget "_skrub_X" e <> None) \/ (isY = true /\ dget "_skrub_y" e <> None)
    | _ => False
    end.

  Definition named (h : heap) (o : oid) (n : string) : Prop :=
    match h o with
    | OExpr _ (Some n') _ _ | OChoice (Some n') _ _ | ONumChoice (Some n') _ _ => n' = n
    | _ => False
    end.

  (** Parts of the expression used otherwise than through X and y. *)
  Definition used_besides (h : heap) (e : env V) (root o : oid) : Prop :=
    reach h (split_node h e) root o.

  Lemma split_given h e o : split_node h e o -> exists v, given h e o = Some v /\
      forall e', (forall k, In k ["_skrub_X"; "_skrub_y"] -> dget k e = dget k e') ->
        given h e' o = Some v.
  Proof.
    unfold split_node, given. destruct (h o) as [i name isX isY| | | | | | | |]; try contradiction.
    unfold provided. intros Hs.
    assert (Hx : forall e', (forall k, In k ["_skrub_X"; "_skrub_y"] -> dget k e = dget k e') ->
              first_provided e' ((if isX then ["_skrub_X"] else []) ++ (if isY then ["_skrub_y"] else []) ++
                 match i, name with IVar _, _ => [] | _, Some n => [n] | _, None => [] end)
              = match (if isX then dget "_skrub_X" e else None) with
                | Some v => Some v
                | None => match (if isY then dget "_skrub_y" e else None) with
                          | Some v => Some v
                          | None => first_provided e' (match i, name with IVar _, _ => [] | _, Some n => [n] | _, None => [] end)
                          end
                end).
    { intros e' He. rewrite (He "_skrub_X"), (He "_skrub_y") by (simpl; auto).
      destruct isX, isY; cbn [app first_provided]; try reflexivity;
        destruct (dget "_skrub_X" e'); try reflexivity; destruct (dget "_skrub_y" e'); reflexivity. }
    assert (Hv : exists v, match (if isX then dget "_skrub_X" e else None) with
                | Some v => Some v
                | None => match (if isY then dget "_skrub_y" e else None) with
                          | Some v => Some v
                          | None => None
                          end
                end = Some v).
    { destruct Hs as [[-> Hs]|[-> Hs]].
      - destruct (dget "_skrub_X" e) as [v|]; [exists v; reflexivity|congruence].
      - destruct isX.
        + destruct (dget "_skrub_X" e) as [v|]; [exists v; reflexivity|].
          destruct (dget "_skrub_y" e) as [v|]; [exists v; reflexivity|congruence].
        + destruct (dget "_skrub_y" e) as [v|]; [exists v; reflexivity|congruence]. }
    destruct Hv as [v Hv]. exists v.
    assert (Hall : forall e', (forall k, In k ["_skrub_X"; "_skrub_y"] -> dget k e = dget k e') ->
              first_provided e' ((if isX then ["_skrub_X"] else []) ++ (if isY then ["_skrub_y"] else []) ++
                 match i, name with IVar _, _ => [] | _, Some n => [n] | _, None => [] end) = Some v).
    { intros e' He. rewrite (Hx e' He).
      destruct (if isX then dget "_skrub_X" e else None); [exact Hv|].
      destruct (if isY then dget "_skrub_y" e else None); [exact Hv|discriminate]. }
    split; [apply Hall; reflexivity|exact Hall].
  Qed.

  Lemma needs_not_split h e mode f o t : needs ext h e mode f o t -> ~ split_node h e o.
  Proof.
    intros Hn Hs. destruct (split_given h e o Hs) as (v & Hg & _).
    unfold given in Hg. unfold needs in Hn. unfold split_node in Hs.
    destruct (h o); try contradiction. destruct Hn as [Hn _]. congruence.
  Qed.

  Lemma needed_used_besides h e mode f root x :
    needed ext h e mode f root x -> used_besides h e root x.
  Proof.
    intros Hn. induction Hn as [|x t Hn IH Ht]; [constructor|].
    eapply reach_trans; [exact IH|]. apply edge_reach.
    - intros y Hy. unfold split_node in Hy. unfold is_expr_at. destruct (h y); try contradiction. reflexivity.
    - eapply needs_not_split; eauto.
    - eapply needs_edge; eauto.
  Qed.

  Lemma named_given h e1 e2 o :
    (forall n, named h o n -> dget n e1 = dget n e2) ->
    (forall k, In k ["_skrub_X"; "_skrub_y"] -> dget k e1 = dget k e2) ->
    given h e1 o = given h e2 o.
  Proof.
    unfold named, given. destruct (h o) as [i name isX isY| | | |name outs ch|name df ch| | |]; auto.
    - intros Hn Hk. unfold provided.
      assert (Hfp : forall l, (forall k, In k l -> dget k e1 = dget k e2) ->
                first_provided e1 l = first_provided e2 l).
      { induction l as [|k l IH]; intros Hl; [reflexivity|]. cbn [first_provided].
        rewrite (Hl k (or_introl eq_refl)). destruct (dget k e2); [reflexivity|].
        apply IH. intros k' Hk'. apply Hl. right. exact Hk'. }
      apply Hfp. intros k Hin. rewrite !in_app_iff in Hin. destruct Hin as [Hin|[Hin|Hin]].
      + destruct isX; [|destruct Hin]. apply Hk. destruct Hin as [<-|[]]. simpl. auto.
      + destruct isY; [|destruct Hin]. apply Hk. destruct Hin as [<-|[]]. simpl. auto.
      + destruct i, name as [n|]; try destruct Hin as [<-|[]]; try destruct Hin; apply Hn; reflexivity.
    - destruct name as [n|]; [|reflexivity]. intros Hn _. apply Hn. reflexivity.
    - destruct name as [n|]; [|reflexivity]. intros Hn _. apply Hn. reflexivity.
  Qed.

  (** Two environments with the same X and y that differ on names that occur only in the
      parts of the expression used to compute X and y. *)
  Theorem evaluate_split (h : heap) size root e1 e2 requested (s1 s2 : st) :
    closed h size -> root < size -> acyclic h root ->
    fitted s1 = fitted s2 ->
    (exists k, In k ["_skrub_X"; "_skrub_y"] /\ dget k e1 <> None) ->
    (forall k, In k ["_skrub_X"; "_skrub_y"; "_skrub_use_var_values"] -> dget k e1 = dget k e2) ->
    (forall o n, used_besides h e1 root o -> ~ split_node h e1 o -> named h o n ->
       dget n e1 = dget n e2) ->
    snd (evaluate ext h size root requested e1 true s1)
    = snd (evaluate ext h size root requested e2 true s2).
  Proof.
    intros Hc Hr Ha Hf (k0 & Hk0 & Hne) Hkeys Hnames.
    assert (Hxy : forall k, In k ["_skrub_X"; "_skrub_y"] -> dget k e1 = dget k e2).
    { intros k Hk. apply Hkeys. simpl in *. tauto. }
    apply evaluate_agree; auto.
    intros o Hn. apply needed_used_besides in Hn. split; [rewrite Hf; reflexivity|].
    assert (Hdec : split_node h e1 o \/ ~ split_node h e1 o).
    { unfold split_node. destruct (h o) as [i name isX isY| | | | | | | |]; auto.
      destruct isX, isY, (dget "_skrub_X" e1), (dget "_skrub_y" e1);
        try (left; (left + right); split; congruence); right; intros [[? ?]|[? ?]]; congruence. }
    destruct Hdec as [Hs|Hs].
    - left. destruct (split_given h e1 o Hs) as (v & G1 & G2). exists v. auto.
    - assert (Hg : given h e1 o = given h e2 o).
      { apply named_given; [|exact Hxy]. intros n Hno. eapply Hnames; eauto. }
      destruct (given h e1 o) as [v|] eqn:G1.
      + left. exists v. auto.
      + right. split; [reflexivity|]. split; [reflexivity|]. split; [auto|]. split; [auto|].
        unfold same_reads. destruct (h o) as [[]| | | | | | | |] eqn:Eh; auto.
        split; [|split].
        * split; intros E.
          -- subst e1. exfalso. apply Hne. reflexivity.
          -- subst e2. exfalso. apply Hne. rewrite (Hxy k0 Hk0). reflexivity.
        * apply Hkeys. simpl. auto.
        * intros n ->. eapply Hnames; eauto. unfold named. rewrite Eh. reflexivity.
  Qed.

  (** *** Circular references *)
  Theorem eval_machine (h : heap) size root e mode cb (s : st) :
    closed h size -> root < size ->
    let r := visit (eval_handler ext h e mode cb) size [] root s in
    snd r <> TFuel /\
    (exists n, forall m, n <= m ->
       steps (eval_handler ext h e mode cb) m (start root s) = Finished (fst r) (snd r)) /\
    (forall x, snd r = TCirc x -> part_of h root x /\ on_cycle h x).
  Proof.
    intros Hc Hr. cbn zeta.
    destruct (machine_visit (eval_handler ext h e mode cb) (seq 0 size) root s) as [H1 H2].
    - apply closed_edges with (h := h); [exact Hc|]. intros o. apply eval_handler_edges.
    - apply in_seq. lia.
    - rewrite seq_length in H1, H2. split; [exact H1|]. split; [exact H2|].
      intros x Hx. destruct (visit _ size [] root s) as [s' r] eqn:Ev. cbn [snd] in Hx. subst r.
      apply (visit_circ (eval_handler ext h e mode cb) (edge h)) in Ev;
        [|intros o; apply eval_handler_edges].
      destruct Ev as [Ht Hrt]. split; [apply edges_part; exact Hrt|apply edges_cycle; exact Ht].
  Qed.

  Theorem evaluate_cyclic (h : heap) size root e requested (s : st) :
    closed h size -> root < size ->
    (evaluate ext h size root requested e true s = (s, Err ValueError) /\
       exists x, part_of h root x /\ on_cycle h x) \/
    (acyclic h root).
  Proof.
    intros Hc Hr. destruct (nodes_spec h size root Hc Hr) as [(ns & En & _ & _ & Hw)|(En & Hx)].
    - right. intros x Hx. eapply wf_no_cycle; eauto.
    - left. split; [|exact Hx]. unfold evaluate. rewrite En. reflexivity.
  Qed.
End Theorems.
