(** Which objects an evaluation needs, and reasoning about all the states it goes through. *)
From Verif Require Import Base M_traverse L_traverse M_expr L_expr1 L_expr2 L_expr3.
From Coq Require Import Relations.Relation_Operators Relations.Operators_Properties.
Open Scope string_scope.
Open Scope list_scope.
Open Scope nat_scope.

Section Need.
  Context {V K F : Type} `{EqD K}.
  Notation heap := (heap V K).
  Notation st := (st V F).
  Variable ext : externals V K F.
  Variable h : heap.
  Variable e : env V.
  Variable mode : string.
  Variable f0 : oid -> option (fit_attr V F).

  Notation Den := (Den ext h e mode f0).
  Notation DenL := (DenL ext h e mode f0).
  Notation DenV := (DenV ext h e mode f0).

  (** ** Specification: what the value of [o] directly requires *)

  (** Parts of an applied estimator that are looked at: an estimator is fitted with
      everything but an unused target; once fitted only its input matters, with the target
      for a score. *)
  Definition used_by_apply (X est y cols how allow : oid) (unsup : bool) : list oid :=
    if fit_mode mode
    then [X; est; cols; how; allow] ++ (if unsup then [] else [y])
    else X :: (if eqb_of mode "score" then [y] else []).

  Definition needs (o t : oid) : Prop :=
    match h o with
    | OExpr i name isX isY =>
        provided e i name isX isY = None /\
        match i with
        | IIfElse c a b =>
            t = c \/
            exists cv, DenV c (Ok cv) /\
              ((truthy ext cv = Ok true /\ t = a) \/ (truthy ext cv = Ok false /\ t = b))
        | IMatch q targets default =>
            t = q \/
            exists qv key ty items, DenV q (Ok qv) /\ key_of ext qv = Ok key /\
              h targets = OMap ty items /\
              (dget key items = Some t \/ (dget key items = None /\ default = Some t))
        | IFreeze target => fit_mode mode = true /\ t = target
        | IApply X est y cols how allow unsup => In t (used_by_apply X est y cols how allow unsup)
        | _ => In t (children (h o))
        end
    | OChoice name outs ch =>
        (match name with Some n => dget n e | None => None end) = None /\
        exists ty items, h outs = OSeq ty items /\
          nth_error items (if eqb_of mode "preview" then 0
                           else match ch with Some i => i | None => 0 end) = Some t
    | OChoiceMatch c m =>
        t = c \/
        exists v key ty items, DenV c (Ok v) /\ key_of ext v = Ok key /\
          h m = OMap ty items /\ dget key items = Some t
    | _ => In t (children (h o))
    end.

  (** [x] is required, directly or not, by [o]. *)
  Inductive needed (o : oid) : oid -> Prop :=
  | needed_self : needed o o
  | needed_more x t : needed o x -> needs x t -> needed o t.

  (** Nodes that have to be computed: their value is not given by the environment. *)
  Definition to_compute (o : oid) : Prop :=
    match h o with
    | OExpr i name isX isY => provided e i name isX isY = None
    | _ => False
    end.

  Lemma needed_trans a b c : needed a b -> needed b c -> needed a c.
  Proof. intros Hab Hbc. induction Hbc; [exact Hab|]. econstructor; eauto. Qed.
  Lemma needed_first a c : needed a c -> a = c \/ exists b, needs a b /\ needed b c.
  Proof.
    intros Hn. induction Hn as [|x t Hn IH Ht]; [auto|]. right. destruct IH as [<-|(b & Hb & Hbx)].
    - exists t. split; [exact Ht|constructor].
    - exists b. split; [exact Hb|]. econstructor; eauto.
  Qed.

  Lemma needs_edge o t : needs o t -> edge h o t.
  Proof.
    unfold needs, edge, child.
    destruct (h o) as [i name isX isY|ty items|ty items|a b c|name outs ch|name df ch|c m|cls p|w] eqn:Eh; auto.
    - intros [_ Hn]. destruct i as [value|value|cnd it fa|q tg default|tgt|X est y cols how allow unsup|tgt|fi ot|op fs]; auto.
      + destruct Hn as [->|(cv & _ & [[_ ->]|[_ ->]])]; left; simpl; auto.
      + destruct Hn as [->|(qv & key & ty & items & _ & _ & Ht & [Hd|[_ ->]])].
        * left. destruct default; simpl; auto.
        * right. exists tg. split; [destruct default; simpl; auto|]. rewrite Ht. split; [reflexivity|].
          simpl. eapply in_dget; eauto.
        * left. simpl. auto.
      + destruct Hn as [_ ->]. left. simpl. auto.
      + left. unfold used_by_apply in Hn. destruct (fit_mode mode).
        * destruct unsup; simpl in *; intuition.
        * destruct (eqb_of mode "score"); simpl in *; intuition.
    - intros [_ (ty & items & Ho & Hn)]. right. exists outs. split; [simpl; auto|]. rewrite Ho.
      split; [reflexivity|]. simpl. eapply nth_error_In; eauto.
    - intros [->|(v & key & ty & items & _ & _ & Hm & Hd)].
      + left. simpl. auto.
      + right. exists m. split; [simpl; auto|]. rewrite Hm. split; [reflexivity|].
        simpl. eapply in_dget; eauto.
  Qed.

  Lemma needed_part o x : needed o x -> part_of h o x.
  Proof.
    intros Hn. induction Hn as [|x t Hn IH Ht]; [constructor|].
    eapply reach_trans; [exact IH|]. apply edge_part. apply needs_edge. exact Ht.
  Qed.

  Lemma used_by_apply_fields X est y cols how allow unsup t :
    In t (used_by_apply X est y cols how allow unsup) <->
    In t (map snd (fields_for_eval (IApply X est y cols how allow unsup) mode)).
  Proof.
    unfold used_by_apply. cbn [fields_for_eval]. destruct (fit_mode mode).
    - destruct unsup; simpl; intuition.
    - destruct (eqb_of mode "score"); simpl; intuition.
  Qed.

  (** ** The states of an evaluation *)
  Section Hoare.
    Variable root : oid.
    Variable cb : st -> st * outcome unit.
    Hypothesis Hcb : forall s, exists s', cb s = (s', TOk tt) /\
      (forall o, fitted s' o = fitted s o) /\
      (forall o v, results s' o mode = Some v -> results s o mode = Some v).
    Notation Q := (part_of h root).
    Notation Inv := (Inv ext h e mode f0 root).

    (** [o] is required by the head of [path], which is required by the next, ..., which
        is the root. *)
    Fixpoint vpath (o : oid) (path : list oid) : Prop :=
      match path with
      | [] => o = root
      | p :: path' => needs p o /\ vpath p path'
      end.
    Lemma vpath_needed : forall path o, vpath o path -> needed root o.
    Proof.
      induction path as [|p path IH]; intros o Hv; simpl in Hv; [subst; constructor|].
      destruct Hv as [Hn Hv]. econstructor; [apply IH; exact Hv|exact Hn].
    Qed.

    (** [I path s]: [s] may be the state when the objects of [path] are being evaluated;
        [E s]: when an exception has been raised; [P o s]: the value of [o] has been
        obtained in [s] or before. *)
    Variable I : list oid -> st -> Prop.
    Variable E : st -> Prop.
    Variable P : oid -> st -> Prop.
    Variable le : st -> st -> Prop.
    Hypothesis le_refl : forall s, le s s.
    Hypothesis le_trans : forall a b c, le a b -> le b c -> le a c.
    Hypothesis P_le : forall o s s', le s s' -> P o s -> P o s'.
    Hypothesis H_err : forall path s, I path s -> E s.
    Hypothesis H_enter : forall o path s, vpath o path -> ~ In o path -> is_expr (h o) = false ->
      I path s -> I (o :: path) s.
    Hypothesis H_leave : forall o path s, vpath o path -> ~ In o path -> is_expr (h o) = false ->
      I (o :: path) s -> (forall t, needs o t -> P t s) -> I path s /\ P o s.
    Hypothesis H_given : forall o path s, vpath o path -> ~ to_compute o -> is_expr (h o) = true ->
      I path s -> P o s.
    Hypothesis H_cached : forall o path s v, vpath o path -> to_compute o ->
      results s o mode = Some v -> I path s -> P o s.
    Hypothesis H_log : forall o path s, vpath o path -> ~ In o path -> to_compute o ->
      results s o mode = None -> I path s -> I (o :: path) (log s o) /\ le s (log s o).
    Hypothesis H_fit : forall o path s f, vpath o path -> to_compute o ->
      I (o :: path) s -> I (o :: path) (set_fitted s o f) /\ le s (set_fitted s o f).
    Hypothesis H_seterr : forall o path s f ex, vpath o path -> to_compute o ->
      I (o :: path) s -> E (set_error (set_fitted s o f) o mode ex).
    Hypothesis H_store : forall o path s v s', vpath o path -> ~ In o path -> to_compute o ->
      I (o :: path) s -> (forall t, needs o t -> P t s) ->
      cb (set_result s o mode (Some v)) = (s', TOk tt) ->
      I path s' /\ le s s' /\ P o s'.

    Definition Post (path : list oid) (o : oid) (s : st) (x : st * outcome V) : Prop :=
      match x with
      | (s', TOk v) => I path s' /\ le s s' /\ P o s'
      | (s', _) => E s'
      end.

    (** Child visits. *)
    Definition child_ok (vc : oid -> st -> st * outcome V) (path1 : list oid) : Prop :=
      forall t s, vpath t path1 -> ~ In t path1 -> Inv s -> I path1 s ->
        Good ext h e mode f0 root t s (vc t s) /\ Post path1 t s (vc t s).

    Lemma yield_h vc o path s s1 t (k : V -> gen V st) (X := Post path o s) :
      child_ok vc (o :: path) -> vpath o path -> needs o t ->
      Inv s1 -> I (o :: path) s1 -> le s s1 ->
      (forall v s2, DenV t (Ok v) -> Inv s2 -> I (o :: path) s2 -> le s1 s2 -> le s s2 -> P t s2 ->
        X (run_gen vc (o :: path) (k v) s2)) ->
      X (run_gen vc (o :: path) (GYield t k) s1).
    Proof.
      intros Hvc Hv Hn Hi HI Hle Hk. rewrite run_gen_yield. unfold vchk.
      destruct (mem t (o :: path)) eqn:Em; [cbn [obind]; apply (H_err _ _ HI)|].
      apply mem_false in Em.
      destruct (Hvc t s1 (conj Hn Hv) Em Hi HI) as [Hg Hp].
      destruct (vc t s1) as [s2 [v|ex|x|]]; cbn [obind] in *; try exact Hp.
      destruct Hg as (f & Hd & Hi2 & _ & _). destruct Hp as (HI2 & Hle2 & HP).
      apply Hk; auto; [eapply Den_V; exact Hd|exact (le_trans _ _ _ Hle Hle2)].
    Qed.

    Lemma yield_all_h vc o path s (X := Post path o s) :
      child_ok vc (o :: path) -> vpath o path ->
      forall l s1 k, (forall t, In t l -> needs o t) ->
      Inv s1 -> I (o :: path) s1 -> le s s1 ->
      (forall vs s2, Inv s2 -> I (o :: path) s2 -> le s1 s2 -> le s s2 -> (forall t, In t l -> P t s2) ->
        X (run_gen vc (o :: path) (k vs) s2)) ->
      X (run_gen vc (o :: path) (yield_all l k) s1).
    Proof.
      intros Hvc Hv. induction l as [|t l IH]; intros s1 k Hl Hi HI Hle Hk.
      - cbn [yield_all]. apply Hk; auto. intros t [].
      - cbn [yield_all]. apply yield_h; auto; [apply Hl; simpl; auto|].
        intros v s2 _ Hi2 HI2 Hle2 Hle2' HP. apply IH; auto.
        + intros t' Ht'. apply Hl. simpl. auto.
        + intros vs s3 Hi3 HI3 Hle3 Hle3' HP3. apply Hk; auto; [exact (le_trans _ _ _ Hle2 Hle3)|].
          intros t' [<-|Ht']; [exact (P_le _ _ _ Hle3 HP)|auto].
    Qed.

    Lemma store_h vc o path s s1 v :
      vpath o path -> ~ In o path -> to_compute o -> I (o :: path) s1 -> le s s1 ->
      (forall t, needs o t -> P t s1) ->
      Post path o s (run_gen vc (o :: path) (store_k mode cb o v) s1).
    Proof.
      intros Hv Hno Hc HI Hle HP. unfold store_k. cbn [run_gen].
      destruct (Hcb (set_result s1 o mode (Some v))) as (s2 & Ec & _ & _). rewrite Ec.
      cbn [run_gen Post]. destruct (H_store o path s1 v s2) as (H1 & H2 & H3); auto.
      split; [exact H1|]. split; [exact (le_trans _ _ _ Hle H2)|exact H3].
    Qed.

    Lemma ret_h vc o path s s1 v :
      vpath o path -> ~ In o path -> is_expr (h o) = false -> I (o :: path) s1 -> le s s1 ->
      (forall t, needs o t -> P t s1) ->
      Post path o s (run_gen vc (o :: path) (GRet v) s1).
    Proof.
      intros Hv Hno Hx HI Hle HP. cbn [run_gen Post].
      destruct (H_leave o path s1 Hv Hno Hx HI HP) as [H1 H2]. auto.
    Qed.

    Lemma visit_hoare : forall d path o s, vpath o path -> ~ In o path -> Inv s -> I path s ->
      Post path o s (visit (eval_handler ext h e mode cb) d path o s).
    Proof.
      induction d as [|d IH]; intros path o s Hv Hno Hi HI; [cbn [visit Post]; apply (H_err _ _ HI)|].
      assert (Hvc0 : child_ok (visit (eval_handler ext h e mode cb) d (o :: path)) (o :: path)).
      { intros t s1 Ht Hnt Hi1 HI1. split; [|apply IH; auto].
        apply visit_good; auto. apply needed_part. eapply vpath_needed; eauto. }
      cbn [visit]. revert Hvc0. generalize (visit (eval_handler ext h e mode cb) d (o :: path)).
      intros vc Hvc. 
      unfold eval_handler. pose proof (fun t => eq_refl (needs o t)) as Hneeds.
      unfold needs at 2 in Hneeds.
      assert (Hcont : is_expr (h o) = false -> (forall t, needs o t = In t (children (h o))) ->
        forall g : list V -> res V,
        Post path o s (run_gen vc (o :: path) (yield_all (children (h o)) (fun vs => gen_of (g vs))) s)).
      { intros Hx Hch g. apply yield_all_h; auto.
        - intros t Ht. rewrite Hch. exact Ht.
        - intros vs s2 Hi2 HI2 Hle2 _ HP. destruct (g vs) as [v|ex]; cbn [gen_of].
          + apply ret_h; auto. intros t Ht. rewrite Hch in Ht. auto.
          + cbn [run_gen Post]. apply (H_err _ _ HI2). }
      destruct (h o) as [i name isX isY|ty items|ty items|a b c|name outs ch|name df ch|c m|cls p|w] eqn:Eh.
      - (* expressions *)
        cbn [run_gen]. unfold fetch. rewrite fetch_env_provided.
        destruct (provided e i name isX isY) as [v|] eqn:Ep.
        { cbn [run_gen Post]. split; [exact HI|]. split; [apply le_refl|].
          apply (H_given o path); auto; [unfold to_compute|]; rewrite Eh; [congruence|reflexivity]. }
        assert (Htc : to_compute o) by (unfold to_compute; rewrite Eh; exact Ep).
        destruct (results s o mode) as [v|] eqn:Er.
        { cbn [run_gen Post]. split; [exact HI|]. split; [apply le_refl|]. eapply H_cached; eauto. }
        cbn [run_gen]. change (fun v => GGet _) with (store_k mode cb o).
        destruct (H_log o path s Hv Hno Htc Er HI) as [HI1 Hle1].
        assert (Hi1 : Inv (log s o)).
        { constructor; [intros x v Hx Hex Hnov Er'; apply (inv_cache _ _ _ _ _ _ s Hi x v Hx Hex Hnov Er')|
                        apply (inv_fit _ _ _ _ _ _ s Hi)]. }
        unfold eval_impl.
        assert (Hdefault : (forall t, needs o t <-> In t (map snd (fields_for_eval i mode))) ->
          Post path o s (run_gen vc (o :: path) (yield_all (map snd (fields_for_eval i mode)) (fun vs =>
            compute_result ext h e mode o i name (combine (map fst (fields_for_eval i mode)) vs)
              (store_k mode cb o))) (log s o))).
        { intros Hf. apply yield_all_h; auto.
          - intros t Ht. apply Hf. exact Ht.
          - intros vs s2 Hi2 HI2 Hle2 Hle2' HP. unfold compute_result. cbn [run_gen].
            destruct (compute ext e mode h (fitted s2) o i name _) as [[v [f|]]|ex]; cbn [run_gen].
            + destruct (H_fit o path s2 (Some f) Hv Htc HI2) as [HI3 Hle3].
              apply store_h; auto; [exact (le_trans _ _ _ Hle2' Hle3)|].
              intros t Ht. apply (P_le t s2); [exact Hle3|]. apply HP. apply Hf. exact Ht.
            + apply store_h; auto. intros t Ht. apply HP. apply Hf. exact Ht.
            + cbn [Post]. eapply H_seterr; eauto. }
        assert (Hplain : forall t, needs o t <-> match i with
             | IIfElse c a b =>
                 t = c \/
                 exists cv, DenV c (Ok cv) /\
                   ((truthy ext cv = Ok true /\ t = a) \/ (truthy ext cv = Ok false /\ t = b))
             | IMatch q targets default =>
                 t = q \/
                 exists qv key ty items, DenV q (Ok qv) /\ key_of ext qv = Ok key /\
                   h targets = OMap ty items /\
                   (dget key items = Some t \/ (dget key items = None /\ default = Some t))
             | IFreeze target => fit_mode mode = true /\ t = target
             | IApply X est y cols how allow unsup => In t (used_by_apply X est y cols how allow unsup)
             | _ => In t (map snd (fields i))
             end).
        { intros t. rewrite Hneeds. cbn [children]. destruct i; tauto. }
        clear Hneeds Hcont.
        destruct i as [value|value|cnd it fa|q tg default|tgt|X est y cols how allow unsup|tgt|fi ot|op fs];
          try (apply Hdefault; exact Hplain).
        + (* IfElse *)
          apply yield_h; auto; [apply Hplain; auto|].
          intros cv s2 Hcv Hi2 HI2 Hle2 Hle2' HP.
          destruct (truthy ext cv) as [[|]|ex] eqn:Et.
          * apply yield_h; auto.
            { apply Hplain. right. exists cv. auto. }
            intros v s3 Hv3 Hi3 HI3 Hle3 Hle3' HP3. apply store_h; auto.
            intros t Ht. apply Hplain in Ht. destruct Ht as [->|(cv' & Hcv' & Ht)].
            -- exact (P_le _ _ _ Hle3 HP).
            -- assert (cv' = cv) as ->.
               { destruct Hcv as [d1 E1], Hcv' as [d2 E2].
                 apply (ev_mono _ _ _ _ _ _ (d1 + d2)) in E1; [|lia].
                 apply (ev_mono _ _ _ _ _ _ (d1 + d2)) in E2; [|lia]. congruence. }
               destruct Ht as [[_ ->]|[Ht _]]; [exact HP3|congruence].
          * apply yield_h; auto.
            { apply Hplain. right. exists cv. auto. }
            intros v s3 Hv3 Hi3 HI3 Hle3 Hle3' HP3. apply store_h; auto.
            intros t Ht. apply Hplain in Ht. destruct Ht as [->|(cv' & Hcv' & Ht)].
            -- exact (P_le _ _ _ Hle3 HP).
            -- assert (cv' = cv) as ->.
               { destruct Hcv as [d1 E1], Hcv' as [d2 E2].
                 apply (ev_mono _ _ _ _ _ _ (d1 + d2)) in E1; [|lia].
                 apply (ev_mono _ _ _ _ _ _ (d1 + d2)) in E2; [|lia]. congruence. }
               destruct Ht as [[Ht _]|[_ ->]]; [congruence|exact HP3].
          * cbn [run_gen Post]. apply (H_err _ _ HI2).
        + (* Match *)
          apply yield_h; auto; [apply Hplain; auto|].
          intros qv s2 Hqv Hi2 HI2 Hle2 Hle2' HP. unfold map_lookup.
          destruct (key_of ext qv) as [key|ex] eqn:Ek; cbn [bind];
            [|cbn [run_gen Post]; apply (H_err _ _ HI2)].
          assert (Hdet : forall t, needs o t -> t = q \/ exists ty items, h tg = OMap ty items /\
                    (dget key items = Some t \/ (dget key items = None /\ default = Some t))).
          { intros t Ht. apply Hplain in Ht. destruct Ht as [->|(qv' & key' & ty & items & Hq' & Hk' & Ht & Hd)]; [auto|].
            assert (qv' = qv) as ->.
            { destruct Hqv as [d1 E1], Hq' as [d2 E2].
              apply (ev_mono _ _ _ _ _ _ (d1 + d2)) in E1; [|lia].
              apply (ev_mono _ _ _ _ _ _ (d1 + d2)) in E2; [|lia]. congruence. }
            rewrite Ek in Hk'. injection Hk' as <-. right. exists ty, items. auto. }
          destruct (h tg) as [| ty items| | | | | | |] eqn:Etg;
            try (cbn [run_gen Post]; apply (H_err _ _ HI2)).
          destruct (dget key items) as [t|] eqn:Ed.
          * apply yield_h; auto.
            { apply Hplain. right. exists qv, key, ty, items. repeat split; auto. }
            intros v s3 Hv3 Hi3 HI3 Hle3 Hle3' HP3. apply store_h; auto.
            intros t' Ht'. apply Hdet in Ht'. destruct Ht' as [->|(ty' & items' & Et & Hd)].
            -- exact (P_le _ _ _ Hle3 HP).
            -- injection Et as <- <-. destruct Hd as [Hd|[Hd _]]; [|congruence].
               rewrite Ed in Hd. injection Hd as <-. exact HP3.
          * destruct default as [dd|]; [|cbn [run_gen Post]; apply (H_err _ _ HI2)].
            apply yield_h; auto.
            { apply Hplain. right. exists qv, key, ty, items. repeat split; auto. }
            intros v s3 Hv3 Hi3 HI3 Hle3 Hle3' HP3. apply store_h; auto.
            intros t' Ht'. apply Hdet in Ht'. destruct Ht' as [->|(ty' & items' & Et & Hd)].
            -- exact (P_le _ _ _ Hle3 HP).
            -- injection Et as <- <-. destruct Hd as [Hd|[_ Hd]]; [congruence|].
               injection Hd as <-. exact HP3.
        + (* Freeze *)
          apply Hdefault. intros t. rewrite Hplain. cbn [fields_for_eval fields].
          destruct (fit_mode mode); simpl; intuition; discriminate.
        + (* Apply *)
          apply Hdefault. intros t. rewrite Hplain. apply used_by_apply_fields.
      - apply (Hcont eq_refl (fun t => Hneeds t) (fun vs => mk_map ext ty (combine (map fst items) vs))).
      - apply (Hcont eq_refl (fun t => Hneeds t) (fun vs => mk_seq ext ty vs)).
      - specialize (Hcont eq_refl (fun t => Hneeds t)
          (fun vs => match vs with [x; y; z] => Ok (mk_slice ext x y z) | _ => Err TypeError end)).
        exact Hcont.
      - (* Choice *)
        clear Hcont. unfold eval_choice, name_in_env.
        assert (Hx : is_expr (h o) = false) by (rewrite Eh; reflexivity).
        pose proof (H_enter o path s Hv Hno Hx HI) as HI1.
        destruct (match name with Some n => dget n e | None => None end) as [v|] eqn:En.
        { apply ret_h; auto. intros t Ht. rewrite Hneeds in Ht. destruct Ht as [Ht _]. congruence. }
        set (idx := if eqb_of mode "preview" then 0 else match ch with Some i => i | None => 0 end) in *.
        assert (Eg : (if eqb_of mode "preview" then yield_res (nth_outcome h outs 0) GRet
                      else yield_res (nth_outcome h outs (default_or 0 ch)) GRet)
                     = yield_res (V := V) (F := F) (nth_outcome h outs idx) GRet).
        { unfold idx. destruct (eqb_of mode "preview"); reflexivity. }
        rewrite Eg. unfold yield_res, nth_outcome.
        destruct (h outs) as [| |ty items| | | | | |] eqn:Eo;
          try (cbn [run_gen Post]; apply (H_err _ _ HI1)).
        destruct (nth_error items idx) as [c|] eqn:Ei;
          [|cbn [run_gen Post]; apply (H_err _ _ HI1)].
        apply yield_h; auto.
        { rewrite Hneeds. split; [reflexivity|]. exists ty, items. auto. }
        intros v s2 _ Hi2 HI2 Hle2 _ HP. apply ret_h; auto.
        intros t Ht. rewrite Hneeds in Ht. destruct Ht as [_ (ty' & items' & Eo' & Ht)].
        injection Eo' as <- <-. rewrite Ei in Ht. injection Ht as <-. exact HP.
      - clear Hcont. unfold eval_choice, name_in_env.
        assert (Hx : is_expr (h o) = false) by (rewrite Eh; reflexivity).
        pose proof (H_enter o path s Hv Hno Hx HI) as HI1.
        assert (Hr : forall v, Post path o s (run_gen vc (o :: path) (GRet v) s)).
        { intros v. apply ret_h; auto. intros t Ht. rewrite Hneeds in Ht. destruct Ht. }
        destruct (match name with Some n => dget n e | None => None end); [apply Hr|].
        destruct (eqb_of mode "preview"); apply Hr.
      - clear Hcont. unfold eval_choice_match.
        assert (Hx : is_expr (h o) = false) by (rewrite Eh; reflexivity).
        pose proof (H_enter o path s Hv Hno Hx HI) as HI1.
        apply yield_h; auto; [rewrite Hneeds; auto|].
        intros ov s2 Hov Hi2 HI2 Hle2 _ HP. unfold map_lookup.
        destruct (key_of ext ov) as [key|ex] eqn:Ek; cbn [bind];
          [|cbn [run_gen Post]; apply (H_err _ _ HI2)].
        destruct (h m) as [| ty items| | | | | | |] eqn:Em;
          try (cbn [run_gen Post]; apply (H_err _ _ HI2)).
        destruct (dget key items) as [t|] eqn:Ed;
          [|cbn [run_gen Post]; apply (H_err _ _ HI2)].
        apply yield_h; auto.
        { rewrite Hneeds. right. exists ov, key, ty, items. repeat split; auto. }
        intros v s3 _ Hi3 HI3 Hle3 Hle3' HP3. apply ret_h; auto.
        intros t' Ht'. rewrite Hneeds in Ht'.
        destruct Ht' as [->|(ov' & key' & ty' & items' & Hov' & Hk' & Em' & Hd)].
        + exact (P_le _ _ _ Hle3 HP).
        + assert (ov' = ov) as ->.
          { destruct Hov as [d1 E1], Hov' as [d2 E2].
            apply (ev_mono _ _ _ _ _ _ (d1 + d2)) in E1; [|lia].
            apply (ev_mono _ _ _ _ _ _ (d1 + d2)) in E2; [|lia]. congruence. }
          rewrite Ek in Hk'. injection Hk' as <-. injection Em' as <- <-.
          rewrite Ed in Hd. injection Hd as <-. exact HP3.
      - specialize (Hcont eq_refl (fun t => Hneeds t)
          (fun vs => match vs with [x] => mk_estimator ext cls x | _ => Err TypeError end)).
        exact Hcont.
      - specialize (Hcont eq_refl (fun t => Hneeds t) (fun _ => Ok w)). exact Hcont.
    Qed.
  End Hoare.
End Need.
