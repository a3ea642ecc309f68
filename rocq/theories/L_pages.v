(** Which step an evaluation fails in, and what it leaves in the results and errors of the steps. *)
From Coq Require Import Relations Lia.
From Verif Require Import Base M_traverse L_traverse M_expr L_expr1 L_expr2 L_expr3 L_expr4.
Open Scope string_scope.
Open Scope list_scope.
Open Scope nat_scope.
Set Default Proof Using "Type".

Section Blame.
  Context {V K F : Type} `{EqD K}.
  Notation heap := (heap V K).
  Notation st := (st V F).
  Variable ext : externals V K F.
  Variable h : heap.
  Variable e : env V.
  Variable mode : string.
  Variable f0 : oid -> option (fit_attr V F).
  Variable root : oid.
  Notation Den := (Den ext h e mode f0).
  Notation DenV := (DenV ext h e mode f0).
  Notation needs := (needs ext h e mode f0).
  Notation needed := (needed ext h e mode f0).
  Notation to_compute := (to_compute h e).
  Notation Q := (part_of h root).
  Notation Inv := (Inv ext h e mode f0 root).
  Definition keep (s : st) : st * outcome unit := (s, TOk tt).
  Notation handler := (eval_handler ext h e mode keep).

  (** ** Specification *)

  (** Steps that compute something: not [if_else] and [match], which choose another step. *)
  Definition computing (x : oid) : Prop :=
    match h x with
    | OExpr (IIfElse _ _ _) _ _ _ | OExpr (IMatch _ _ _) _ _ _ => False
    | OExpr _ _ _ _ => True
    | _ => False
    end.
  (** [x] fails, though everything it needs has a value. *)
  Definition culprit (x : oid) (ex : exn) : Prop :=
    Den x (Err ex) /\ forall t, needs x t -> exists v, DenV t (Ok v).

  (** ** Lemmas *)
  Definition same_err (s s' : st) : Prop := forall x m, errors s' x m = errors s x m.
  Definition one_err (s s' : st) (x : oid) (ex : exn) : Prop :=
    forall y m, errors s' y m = upd2 (errors s) x mode (Some ex) y m.
  Definition values_ok (s : st) : Prop := forall x v, Q x -> to_compute x ->
    results s x mode = Some v -> DenV x (Ok v).
  Lemma inv_values s : Inv s -> values_ok s.
  Proof.
    intros Hi x v Hx Htc Er. eapply Den_V. apply (inv_cache _ _ _ _ _ _ s Hi); eauto.
    - unfold is_expr_at. unfold L_expr4.to_compute in Htc. destruct (h x); try contradiction. reflexivity.
    - unfold overridden. unfold L_expr4.to_compute in Htc. destruct (h x); try contradiction. congruence.
  Qed.

  Definition inputs_ok (x : oid) : Prop := forall t, needs x t -> exists v, DenV t (Ok v).

  Definition Blame (o : oid) (s : st) (x : st * outcome V) : Prop :=
    match x with
    | (s', TErr ex) => values_ok s' /\ exists y, needed o y /\ culprit y ex /\
        ((same_err s s' /\ ~ computing y) \/
         (exists ex', one_err s s' y ex' /\ ex = shown_error ext mode ex' /\ to_compute y /\ computing y))
    | (s', _) => same_err s s'
    end.
  (** The same before it is known that the failing step itself has no value. *)
  Definition Blame0 (o : oid) (s : st) (x : st * outcome V) : Prop :=
    match x with
    | (s', TErr ex) => values_ok s' /\
        ((inputs_ok o /\ same_err s s' /\ ~ computing o) \/
         (inputs_ok o /\ exists ex', one_err s s' o ex' /\ ex = shown_error ext mode ex' /\ to_compute o /\ computing o) \/
         (exists t, needs o t /\ exists y, needed t y /\ culprit y ex /\
           ((same_err s s' /\ ~ computing y) \/
            (exists ex', one_err s s' y ex' /\ ex = shown_error ext mode ex' /\ to_compute y /\ computing y))))
    | (s', _) => same_err s s'
    end.

  Lemma needed_by o t y : needs o t -> needed t y -> needed o y.
  Proof. intros Hn Hy. eapply needed_trans; [|exact Hy]. econstructor; [constructor|exact Hn]. Qed.

  Lemma Blame_of0 o s x : Good ext h e mode f0 root o s x -> Blame0 o s x -> Blame o s x.
  Proof.
    destruct x as [s' [v|ex|t|]]; cbn [Good Blame0 Blame]; auto. intros Hd [Hv Hb]. split; [exact Hv|].
    destruct Hb as [(Hok & Hs & Hc)|[(Hok & ex' & H1 & H2 & H3 & H4)|(t & Hn & y & Hy & Hcul & Hb)]].
    - exists o. split; [constructor|]. split; [split; assumption|]. auto.
    - exists o. split; [constructor|]. split; [split; assumption|]. right. exists ex'. auto.
    - exists y. split; [eapply needed_by; eauto|]. auto.
  Qed.

  Lemma same_trans s1 s2 s3 : same_err s1 s2 -> same_err s2 s3 -> same_err s1 s3.
  Proof. intros H1 H2 x m. rewrite H2. apply H1. Qed.
  Lemma same_one s1 s2 s3 y ex : same_err s1 s2 -> one_err s2 s3 y ex -> one_err s1 s3 y ex.
  Proof. intros H1 H2 x m. rewrite H2. unfold upd2. destruct (eqd x y); [destruct (eqd m mode); [reflexivity|]|]; apply H1. Qed.

  Section Step.
    Variable vc : oid -> st -> st * outcome V.
    Variable path1 : list oid.
    Variable o : oid.
    Hypothesis Ho : Q o.
    Hypothesis Hvc : forall c s, Q c -> Inv s -> Good ext h e mode f0 root c s (vc c s) /\ Blame c s (vc c s).

    Lemma Q_needs t : needs o t -> Q t.
    Proof using Ho. intros Hn. eapply reach_trans; [exact Ho|]. apply edge_part. eapply needs_edge; eauto. Qed.

    Lemma yield_b s s1 t (k : V -> gen V st) (X := Blame0 o s) :
      needs o t -> Inv s1 -> same_err s s1 ->
      (forall v s2, DenV t (Ok v) -> Inv s2 -> same_err s s2 -> X (run_gen vc path1 (k v) s2)) ->
      X (run_gen vc path1 (GYield t k) s1).
    Proof using Ho Hvc.
      intros Hn Hi Hs Hk. rewrite run_gen_yield. unfold vchk.
      destruct (mem t path1) eqn:Em; [cbn [obind]; exact Hs|].
      destruct (Hvc t s1 (Q_needs t Hn) Hi) as [Hg Hb].
      destruct (vc t s1) as [s2 [v|ex|x|]]; cbn [obind Blame Good] in *.
      - destruct Hg as (f & Hd & Hi2 & _ & _). apply Hk; [eapply Den_V; exact Hd|exact Hi2|exact (same_trans _ _ _ Hs Hb)].
      - destruct Hb as (Hv & y & Hy & Hcul & Hb). split; [exact Hv|]. right. right. exists t. split; [exact Hn|].
        exists y. split; [exact Hy|]. split; [exact Hcul|].
        destruct Hb as [(H1 & H2)|(ex' & H1 & H2)].
        + left. split; [exact (same_trans _ _ _ Hs H1)|exact H2].
        + right. exists ex'. split; [exact (same_one _ _ _ _ _ Hs H1)|exact H2].
      - exact (same_trans _ _ _ Hs Hb).
      - exact (same_trans _ _ _ Hs Hb).
    Qed.

    Lemma yield_all_b s (X := Blame0 o s) : forall l s1 k, (forall t, In t l -> needs o t) -> Inv s1 -> same_err s s1 ->
      (forall vs s2, Inv s2 -> same_err s s2 -> (forall t, In t l -> exists v, DenV t (Ok v)) ->
        X (run_gen vc path1 (k vs) s2)) ->
      X (run_gen vc path1 (yield_all l k) s1).
    Proof using Ho Hvc.
      induction l as [|t l IH]; intros s1 k Hl Hi Hs Hk.
      - cbn [yield_all]. apply Hk; auto. intros t [].
      - cbn [yield_all]. apply yield_b; auto; [apply Hl; simpl; auto|].
        intros v s2 Hd Hi2 Hs2. apply IH; auto.
        + intros t' Ht'. apply Hl. simpl. auto.
        + intros vs s3 Hi3 Hs3 Hall. apply Hk; auto.
          intros t' [<-|Ht']; [exists v; exact Hd|auto].
    Qed.

    Lemma store_b s s1 v : same_err s s1 -> Blame0 o s (run_gen vc path1 (store_k mode keep o v) s1).
    Proof. intros Hs. unfold store_k, keep. cbn [run_gen Blame0]. intros x m. cbn. apply Hs. Qed.
    Lemma raise_b s s1 ex : Inv s1 -> same_err s s1 -> inputs_ok o -> ~ computing o ->
      Blame0 o s (run_gen vc path1 (GRaise ex) s1).
    Proof. intros Hi Hs Hok Hc. cbn [run_gen Blame0]. split; [apply inv_values; exact Hi|]. left. auto. Qed.
  End Step.

  Lemma visit_blame : forall d path o s, Q o -> Inv s -> Blame o s (visit handler d path o s).
  Proof.
    induction d as [|d IH]; intros path o s Ho Hi; [intros x m; reflexivity|].
    assert (Hcb : forall s : st, exists s', keep s = (s', TOk tt) /\ (forall o, fitted s' o = fitted s o) /\
              (forall o v, results s' o mode = Some v -> results s o mode = Some v)).
    { intros s1. exists s1. unfold keep. auto. }
    apply Blame_of0; [apply visit_good; auto|].
    assert (Hvc : forall c s, Q c -> Inv s -> Good ext h e mode f0 root c s (visit handler d (o :: path) c s) /\
              Blame c s (visit handler d (o :: path) c s)).
    { intros c s1 Hc Hi1. split; [apply visit_good; auto|apply IH; auto]. }
    cbn [visit]. revert Hvc. generalize (visit handler d (o :: path)). intros vc Hvc.
    set (path1 := o :: path). clearbody path1.
    assert (Hs0 : same_err s s) by (intros x m; reflexivity).
    unfold eval_handler. pose proof (fun t => eq_refl (needs o t)) as Hneeds.
    unfold L_expr4.needs at 2 in Hneeds.
    assert (Hcomp := eq_refl (computing o)). unfold computing at 2 in Hcomp.
    assert (Hcont : ~ computing o -> (forall t, needs o t = In t (children (h o))) ->
        forall g : list V -> res V,
        Blame0 o s (run_gen vc path1 (yield_all (children (h o)) (fun vs => gen_of (g vs))) s)).
    { intros Hx Hch g. apply yield_all_b; auto.
      - intros t Ht. rewrite Hch. exact Ht.
      - intros vs s2 Hi2 Hs2 Hall. destruct (g vs) as [v|ex]; cbn [gen_of]; [cbn [run_gen Blame0]; exact Hs2|].
        apply raise_b; auto. intros t Ht. rewrite Hch in Ht. auto. }
    destruct (h o) as [i name isX isY|ty items|ty items|a b c|name outs ch|name df ch|c m|cls p|w] eqn:Eh.
    - (* expressions *)
      cbn [run_gen]. unfold fetch. rewrite fetch_env_provided.
      destruct (provided e i name isX isY) as [v|] eqn:Ep; [exact Hs0|].
      assert (Htc : to_compute o) by (unfold L_expr4.to_compute; rewrite Eh; exact Ep).
      destruct (results s o mode) as [v|] eqn:Er; [exact Hs0|].
      cbn [run_gen]. change (fun v => GGet _) with (store_k mode keep o).
      assert (Hi1 : Inv (log s o)).
      { constructor; [intros x v Hx Hex Hnov Er'; apply (inv_cache _ _ _ _ _ _ s Hi x v Hx Hex Hnov Er')|
                      apply (inv_fit _ _ _ _ _ _ s Hi)]. }
      assert (Hs1 : same_err s (log s o)) by (intros x m; reflexivity).
      unfold eval_impl.
      assert (Hdefault : computing o -> (forall t, needs o t <-> In t (map snd (fields_for_eval i mode))) ->
        Blame0 o s (run_gen vc path1 (yield_all (map snd (fields_for_eval i mode)) (fun vs =>
          compute_result ext h e mode o i name (combine (map fst (fields_for_eval i mode)) vs)
            (store_k mode keep o))) (log s o))).
      { intros Hc Hf. apply yield_all_b; auto.
        - intros t Ht. apply Hf. exact Ht.
        - intros vs s2 Hi2 Hs2 Hall. unfold compute_result. cbn [run_gen].
          destruct (compute ext e mode h (fitted s2) o i name _) as [[v [f|]]|ex]; cbn [run_gen].
          + apply store_b. intros x m. cbn. apply Hs2.
          + apply store_b. exact Hs2.
          + cbn [Blame0]. split.
            * intros x v Hx Htx Erx. cbn in Erx. exact (inv_values s2 Hi2 x v Hx Htx Erx).
            * right. left. split; [intros t Ht; apply Hall; apply Hf; exact Ht|].
              exists ex. split; [|auto]. intros y m. cbn. unfold upd2.
              destruct (eqd y o); [destruct (eqd m mode); [reflexivity|]|]; apply Hs2. }
      assert (Hplain : forall t, needs o t <-> match i with
           | IIfElse c a b =>
               t = c \/
               exists cv, DenV c (Ok cv) /\
                 ((truthy ext cv = Ok true /\ t = a) \/ (truthy ext cv = Ok false /\ t = b))
           | IMatch q targets default =>
               t = q \/
               exists qv key ty items, DenV q (Ok qv) /\ key_of ext qv = Ok key /\
                 h targets = OMap ty items /\
                 (dget key items = Some t \/ (dget key items = None /\ default = Some t))
           | IFreeze target => fit_mode mode = true /\ t = target
           | IApply X est y cols how allow unsup => In t (used_by_apply mode X est y cols how allow unsup)
           | _ => In t (map snd (fields i))
           end).
      { intros t. rewrite Hneeds. cbn [children]. destruct i; tauto. }
      clear Hneeds Hcont.
      destruct i as [value|value|cnd it fa|q tg default|tgt|X est y cols how allow unsup|tgt|fi ot|op fs];
        try (apply Hdefault; [rewrite Hcomp; exact I|exact Hplain]).
      + (* IfElse *)
        assert (Hnc : ~ computing o) by (rewrite Hcomp; auto).
        apply yield_b; auto; [apply Hplain; auto|].
        intros cv s2 Hcv Hi2 Hs2.
        destruct (truthy ext cv) as [[|]|ex] eqn:Et.
        * apply yield_b; auto; apply Hplain; right; exists cv; auto.
        * apply yield_b; auto; apply Hplain; right; exists cv; auto.
        * apply raise_b; auto. intros t Ht. apply Hplain in Ht. destruct Ht as [->|(cv' & Hcv' & Ht)]; [eauto|].
          assert (cv' = cv) as ->.
          { destruct Hcv as [d1 E1], Hcv' as [d2 E2].
            apply (ev_mono _ _ _ _ _ _ (d1 + d2)) in E1; [|lia].
            apply (ev_mono _ _ _ _ _ _ (d1 + d2)) in E2; [|lia]. congruence. }
          destruct Ht as [[Ht _]|[Ht _]]; congruence.
      + (* Match *)
        assert (Hnc : ~ computing o) by (rewrite Hcomp; auto).
        apply yield_b; auto; [apply Hplain; auto|].
        intros qv s2 Hqv Hi2 Hs2. unfold map_lookup.
        assert (Hdet : forall t, needs o t -> t = q \/ exists key ty items, key_of ext qv = Ok key /\ h tg = OMap ty items /\
                  (dget key items = Some t \/ (dget key items = None /\ default = Some t))).
        { intros t Ht. apply Hplain in Ht. destruct Ht as [->|(qv' & key' & ty & items & Hq' & Hk' & Ht & Hd)]; [auto|].
          assert (qv' = qv) as ->.
          { destruct Hqv as [d1 E1], Hq' as [d2 E2].
            apply (ev_mono _ _ _ _ _ _ (d1 + d2)) in E1; [|lia].
            apply (ev_mono _ _ _ _ _ _ (d1 + d2)) in E2; [|lia]. congruence. }
          right. exists key', ty, items. auto. }
        destruct (key_of ext qv) as [key|ex] eqn:Ek; cbn [bind].
        2:{ apply raise_b; auto. intros t Ht. apply Hdet in Ht.
            destruct Ht as [->|(k' & _ & _ & Hk' & _)]; [eauto|discriminate]. }
        destruct (h tg) as [| ty items| | | | | | |] eqn:Etg;
          try (apply raise_b; auto; intros t Ht; apply Hdet in Ht;
               destruct Ht as [->|(k' & ty' & it' & _ & Ht & _)]; [eauto|discriminate]).
        destruct (dget key items) as [t|] eqn:Ed.
        * apply yield_b; auto. apply Hplain. right. exists qv, key, ty, items. repeat split; auto.
        * destruct default as [dd|].
          -- apply yield_b; auto. apply Hplain. right. exists qv, key, ty, items. repeat split; auto.
          -- apply raise_b; auto. intros t Ht. apply Hdet in Ht.
             destruct Ht as [->|(k' & ty' & it' & Hk' & Ht & Hd)]; [eauto|].
             injection Hk' as <-. injection Ht as <- <-. destruct Hd as [Hd|[_ Hd]]; congruence.
      + (* Freeze *)
        apply Hdefault; [rewrite Hcomp; exact I|]. intros t. rewrite Hplain. cbn [fields_for_eval fields].
        destruct (fit_mode mode); simpl; intuition; discriminate.
      + (* Apply *)
        apply Hdefault; [rewrite Hcomp; exact I|]. intros t. rewrite Hplain. apply (used_by_apply_fields (V := V) (F := F)); exact f0.
    - assert (Hnc : ~ computing o) by (rewrite Hcomp; auto).
      apply (Hcont Hnc (fun t => Hneeds t) (fun vs => mk_map ext ty (combine (map fst items) vs))).
    - assert (Hnc : ~ computing o) by (rewrite Hcomp; auto).
      apply (Hcont Hnc (fun t => Hneeds t) (fun vs => mk_seq ext ty vs)).
    - assert (Hnc : ~ computing o) by (rewrite Hcomp; auto).
      specialize (Hcont Hnc (fun t => Hneeds t)
        (fun vs => match vs with [x; y; z] => Ok (mk_slice ext x y z) | _ => Err TypeError end)).
      exact Hcont.
    - (* Choice *)
      assert (Hnc : ~ computing o) by (rewrite Hcomp; auto).
      clear Hcont. unfold eval_choice, name_in_env.
      destruct (match name with Some n => dget n e | None => None end) as [v|] eqn:En; [exact Hs0|].
      set (idx := if eqb_of mode "preview" then 0 else match ch with Some i => i | None => 0 end) in *.
      assert (Eg : (if eqb_of mode "preview" then yield_res (nth_outcome h outs 0) GRet
                    else yield_res (nth_outcome h outs (default_or 0 ch)) GRet)
                   = yield_res (V := V) (F := F) (nth_outcome h outs idx) GRet).
      { unfold idx. destruct (eqb_of mode "preview"); reflexivity. }
      rewrite Eg. unfold yield_res, nth_outcome.
      assert (Hno : forall s1 ex, Inv s1 -> same_err s s1 -> (forall ty items c, h outs = OSeq ty items -> nth_error items idx <> Some c) ->
                Blame0 o s (run_gen vc path1 (GRaise ex) s1)).
      { intros s1 ex Hi1 Hs1 Hn. apply raise_b; auto. intros t Ht. rewrite Hneeds in Ht.
        destruct Ht as [_ (ty & items & Eo & Ht)]. exfalso. eapply Hn; eauto. }
      destruct (h outs) as [| |ty items| | | | | |] eqn:Eo;
        try (apply Hno; auto; intros; discriminate).
      destruct (nth_error items idx) as [c|] eqn:Ei.
      2:{ apply Hno; auto. intros ty' items' c E. injection E as <- <-. congruence. }
      apply yield_b; auto. rewrite Hneeds. split; [reflexivity|]. exists ty, items. auto.
    - clear Hcont. unfold eval_choice, name_in_env.
      destruct (match name with Some n => dget n e | None => None end); [exact Hs0|].
      destruct (eqb_of mode "preview"); exact Hs0.
    - assert (Hnc : ~ computing o) by (rewrite Hcomp; auto).
      clear Hcont. unfold eval_choice_match.
      apply yield_b; auto; [rewrite Hneeds; auto|].
      intros ov s2 Hov Hi2 Hs2. unfold map_lookup.
      assert (Hdet : forall t, needs o t -> t = c \/ exists key ty items, key_of ext ov = Ok key /\ h m = OMap ty items /\
                dget key items = Some t).
      { intros t Ht. rewrite Hneeds in Ht. destruct Ht as [->|(qv' & key' & ty & items & Hq' & Hk' & Ht & Hd)]; [auto|].
        assert (qv' = ov) as ->.
        { destruct Hov as [d1 E1], Hq' as [d2 E2].
          apply (ev_mono _ _ _ _ _ _ (d1 + d2)) in E1; [|lia].
          apply (ev_mono _ _ _ _ _ _ (d1 + d2)) in E2; [|lia]. congruence. }
        right. exists key', ty, items. auto. }
      destruct (key_of ext ov) as [key|ex] eqn:Ek; cbn [bind].
      2:{ apply raise_b; auto. intros t Ht. apply Hdet in Ht.
          destruct Ht as [->|(k' & _ & _ & Hk' & _)]; [eauto|discriminate]. }
      destruct (h m) as [| ty items| | | | | | |] eqn:Em;
        try (apply raise_b; auto; intros t Ht; apply Hdet in Ht;
             destruct Ht as [->|(k' & ty' & it' & _ & Ht & _)]; [eauto|discriminate]).
      destruct (dget key items) as [t|] eqn:Ed.
      2:{ apply raise_b; auto. intros t Ht. apply Hdet in Ht.
          destruct Ht as [->|(k' & ty' & it' & Hk' & Ht & Hd)]; [eauto|].
          injection Hk' as <-. injection Ht as <- <-. congruence. }
      apply yield_b; auto. rewrite Hneeds. right. exists ov, key, ty, items. repeat split; auto.
    - assert (Hnc : ~ computing o) by (rewrite Hcomp; auto).
      specialize (Hcont Hnc (fun t => Hneeds t)
        (fun vs => match vs with [x] => mk_estimator ext cls x | _ => Err TypeError end)).
      exact Hcont.
    - exact Hs0.
  Qed.
End Blame.
