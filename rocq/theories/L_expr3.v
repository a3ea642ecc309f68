(** The evaluator, with its cache and whatever its callback discards from the cache,
    returns what naive evaluation returns. *)
From Verif Require Import Base M_traverse L_traverse M_expr L_expr1 L_expr2.
From Coq Require Import Relations.Relation_Operators Relations.Operators_Properties.
Open Scope string_scope.
Open Scope list_scope.
Open Scope nat_scope.

Section Edges.
  Context {V K F : Type} `{EqD K}.
  Notation heap := (heap V K).

  (** What the evaluator may go to from [o]: an element, or an element of a container
      that is an element (a target of [match], an outcome of a choice). *)
  Definition edge (h : heap) (o c : oid) : Prop :=
    child h o c \/ exists m, child h o m /\ is_expr (h m) = false /\ child h m c.

  Lemma edge_part h o c : edge h o c -> part_of h o c.
  Proof.
    intros [Hc|(m & Hm & _ & Hc)]; [apply part_child; exact Hc|].
    eapply reach_trans; apply part_child; eassumption.
  Qed.

  Lemma edges_part h o x : clos_refl_trans_1n oid (edge h) o x -> part_of h o x.
  Proof.
    intros Hr. induction Hr as [|o c x Hc Hr IH]; [constructor|].
    eapply reach_trans; [apply edge_part; exact Hc|exact IH].
  Qed.

  Lemma edges_cycle h x : clos_trans oid (edge h) x x -> on_cycle h x.
  Proof.
    intros Ht. apply trans_on_cycle.
    assert (Hg : forall a b, clos_trans oid (edge h) a b -> clos_trans oid (child h) a b).
    { intros a b Hab. induction Hab as [a b Hab|a b c H1 I1 H2 I2].
      - destruct Hab as [Hab|(m & Hm & _ & Hb)]; [apply t_step; exact Hab|].
        eapply t_trans; apply t_step; eassumption.
      - eapply t_trans; eassumption. }
    apply Hg. exact Ht.
  Qed.

  Lemma in_dget {A B} `{EqD A} (k : A) (d : list (A * B)) v : dget k d = Some v -> In v (map snd d).
  Proof.
    induction d as [|[k' v'] d IH]; simpl; [discriminate|].
    destruct (eqd k k'); [intros E; injection E as ->; auto|auto].
  Qed.

  Lemma fields_for_eval_in i mode n c : In (n, c) (fields_for_eval i mode) -> In (n, c) (fields i).
  Proof.
    destruct i; simpl; auto.
    - destruct (fit_mode mode); simpl; tauto.
    - destruct (fit_mode mode).
      + destruct unsupervised; simpl; tauto.
      + destruct (eqb_of mode "score"); simpl; intuition.
  Qed.

  Variable ext : externals V K F.

  Lemma eval_handler_edges h e mode cb o :
    gen_all (edge h o) (eval_handler ext h e mode cb o).
  Proof.
    unfold eval_handler. unfold edge, child. destruct (h o) as
      [i name isX isY|ty items|ty items|a b c|name outs ch|name df ch|c m|cls p|v] eqn:Eh.
    - cbn [gen_all]. intros s. destruct (fetch e mode s o i name isX isY); [exact I|].
      cbn [gen_all].
      match goal with |- gen_all ?Q (eval_impl _ _ _ _ _ _ _ ?kk) =>
        set (P := Q); set (k := kk) end.
      assert (Hk : forall v, gen_all P (k v)).
      { intros v. unfold k. cbn [gen_all]. intros s1.
        destruct (cb _) as [s2 [u|ex|t|]]; exact I. }
      unfold eval_impl.
      assert (Hdef : gen_all P (yield_all (map snd (fields_for_eval i mode)) (fun vs =>
          compute_result ext h e mode o i name (combine (map fst (fields_for_eval i mode)) vs) k))).
      { apply gen_all_yield_all.
        - intros t Ht. left. simpl. apply in_map_iff in Ht. destruct Ht as ([n c] & <- & Hin).
          apply fields_for_eval_in in Hin. apply in_map_iff. exists (n, c). auto.
        - intros vs. unfold compute_result. cbn [gen_all]. intros s1.
          destruct (compute ext e mode h (fitted s1) o i name _) as [[v [f|]]|ex]; cbn [gen_all]; auto. }
      destruct i as [value|value|cnd it fa|q tg default|tgt|X est y cols how allow unsup|tgt|fi ot|op fs];
        try exact Hdef.
      + cbn [gen_all]. split; [left; simpl; auto|]. intros cv.
        destruct (truthy ext cv) as [[|]|]; cbn [gen_all]; auto; (split; [left; simpl; auto|auto]).
      + cbn [gen_all]. split; [left; destruct default; simpl; auto|]. intros qv.
        unfold map_lookup. destruct (key_of ext qv) as [key|]; cbn [bind gen_all]; auto.
        assert (Hd : gen_all P match default with Some d => GYield d k | None => GRaise KeyError end).
        { destruct default; cbn [gen_all]; auto. split; [left; simpl; auto|auto]. }
        destruct (h tg) eqn:Etg; cbn [gen_all]; auto.
        destruct (dget key items) eqn:Ed; [|exact Hd].
        cbn [gen_all]. split; [|auto]. right. exists tg. split; [destruct default; simpl; auto|].
        rewrite Etg. split; [reflexivity|]. simpl. eapply in_dget; eauto.
    - unfold eval_container. apply gen_all_yield_all; [intros t Ht; left; exact Ht|].
      intros vs. apply gen_all_of.
    - unfold eval_container. apply gen_all_yield_all; [intros t Ht; left; exact Ht|].
      intros vs. apply gen_all_of.
    - cbn. repeat (split; [left; auto|intros ?]); auto.
    - unfold eval_choice. destruct (name_in_env e name); [exact I|].
      assert (Hn : forall idx, gen_all
        (fun t => In t [outs] \/ exists m, In m [outs] /\ is_expr (h m) = false /\ In t (children (h m)))
        (yield_res (V := V) (F := F) (nth_outcome h outs idx) GRet)).
      { intros idx. unfold yield_res, nth_outcome. destruct (h outs) eqn:Eo; cbn [gen_all]; auto.
        destruct (nth_error items idx) eqn:En; cbn [gen_all]; auto. split; [|auto]. right.
        exists outs. split; [simpl; auto|]. rewrite Eo. split; [reflexivity|]. simpl.
        eapply nth_error_In; eauto. }
      destruct (eqb_of mode "preview"); apply Hn.
    - unfold eval_choice. destruct (name_in_env e name); [exact I|].
      destruct (eqb_of mode "preview"); exact I.
    - unfold eval_choice_match. cbn [gen_all]. split; [left; simpl; auto|]. intros outcome.
      unfold map_lookup. destruct (key_of ext outcome) as [key|]; cbn [bind gen_all]; auto.
      destruct (h m) eqn:Em; cbn [gen_all]; auto.
      destruct (dget key items) eqn:Ed; cbn [gen_all]; auto.
      split; [|auto]. right. exists m. split; [simpl; auto|]. rewrite Em. split; [reflexivity|].
      simpl. eapply in_dget; eauto.
    - unfold eval_container. cbn [gen_all]. split; [left; simpl; auto|]. intros ps. apply gen_all_of.
    - exact I.
  Qed.

  Lemma closed_edges {A S} (handler : oid -> gen A S) h size :
    closed h size -> (forall o, gen_all (edge h o) (handler o)) ->
    forall o, In o (seq 0 size) -> gen_all (fun t => In t (seq 0 size)) (handler o).
  Proof.
    intros Hc He o Ho. apply in_seq in Ho. eapply gen_all_impl; [|apply He].
    intros t Ht. apply in_seq. split; [lia|]. simpl.
    eapply (closed_part h size o t Hc); [lia|]. apply edge_part. exact Ht.
  Qed.
End Edges.

Section Sim.
  Context {V K F : Type} `{EqD K}.
  Notation heap := (heap V K).
  Notation st := (st V F).
  Variable ext : externals V K F.
  Variable h : heap.
  Variable e : env V.
  Variable mode : string.
  Variable f0 : oid -> option (fit_attr V F).
  Variable root : oid.
  Variable cb : st -> st * outcome unit.

  Notation Den := (Den ext h e mode f0).
  Notation DenL := (DenL ext h e mode f0).
  Notation DenV := (DenV ext h e mode f0).
  Notation den := (den ext h e mode f0).
  Notation Q := (part_of h root).

  Definition overridden (o : oid) : Prop :=
    match h o with
    | OExpr i name isX isY => provided e i name isX isY <> None
    | _ => False
    end.

  Lemma fetch_env_provided i name isX isY : fetch_env e i name isX isY = provided e i name isX isY.
  Proof.
    unfold fetch_env, provided, X_NAME, Y_NAME, is_var.
    destruct isX, isY; cbn [app first_provided];
      repeat match goal with |- context [match dget ?k e with _ => _ end] => destruct (dget k e) end;
      try reflexivity; destruct i; try reflexivity; destruct name as [n|]; try reflexivity;
      cbn [first_provided]; destruct (dget n e); reflexivity.
  Qed.

  Record Inv (s : st) : Prop := {
    inv_cache : forall o v, Q o -> is_expr_at h o -> ~ overridden o ->
      results s o mode = Some v -> Den o (Ok (v, fitted s o));
    inv_fit : forall o, fitted s o = f0 o \/ exists v, Den o (Ok (v, fitted s o))
  }.

  Definition fmono (s s' : st) : Prop :=
    forall o v f, Den o (Ok (v, f)) -> fitted s o = f -> fitted s' o = f.

  Lemma fmono_refl s : fmono s s.
  Proof. intros o v f _ E. exact E. Qed.
  Lemma fmono_trans s1 s2 s3 : fmono s1 s2 -> fmono s2 s3 -> fmono s1 s3.
  Proof. intros H1 H2 o v f Hd E. eapply H2; eauto. Qed.

  Hypothesis Hcb : forall s, exists s', cb s = (s', TOk tt) /\
    (forall o, fitted s' o = fitted s o) /\
    (forall o v, results s' o mode = Some v -> results s o mode = Some v).

  (** What a visit of [o] from [s] must have done. *)
  Definition Good (o : oid) (s : st) (x : st * outcome V) : Prop :=
    match x with
    | (s', TOk v) => exists f, Den o (Ok (v, f)) /\ Inv s' /\ fmono s s' /\ fitted s' o = f
    | (_, TErr ex) => Den o (Err ex)
    | _ => True
    end.
  Definition GoodL (l : list oid) (s : st) (x : st * outcome (list V)) : Prop :=
    match x with
    | (s', TOk vs) => DenL l (Ok vs) /\ Inv s' /\ fmono s s'
    | (_, TErr ex) => DenL l (Err ex)
    | _ => True
    end.

  Lemma fitted_unchanged o s v : Inv s -> Den o (Ok (v, f0 o)) -> fitted s o = f0 o.
  Proof.
    intros Hi Hd. destruct (inv_fit s Hi o) as [E|[v' Hd']]; [exact E|].
    pose proof (Den_det _ _ _ _ _ _ _ _ Hd Hd') as E. injection E as _ E. symmetry. exact E.
  Qed.

  Lemma visit_all_good vc path (Hvc : forall c s, Q c -> Inv s -> Good c s (vc c s)) :
    forall l s, (forall c, In c l -> Q c) -> Inv s -> GoodL l s (visit_all vc path l s).
  Proof.
    induction l as [|c l IH]; intros s Hl Hi.
    - simpl. split; [apply DenL_nil|]. split; [exact Hi|apply fmono_refl].
    - cbn [visit_all]. unfold vchk. destruct (mem c path); [exact I|].
      pose proof (Hvc c s (Hl c (or_introl eq_refl)) Hi) as Hc.
      destruct (vc c s) as [s1 [v|ex|t|]]; cbn [obind Good] in *; auto.
      + destruct Hc as (f & Hd & Hi1 & Hm & _).
        pose proof (IH s1 (fun c' Hc' => Hl c' (or_intror Hc')) Hi1) as Hrest.
        destruct (visit_all vc path l s1) as [s2 [vs|ex|t|]]; cbn [obind GoodL] in *; auto.
        * destruct Hrest as (Hds & Hi2 & Hm2). split; [apply DenL_cons; [eapply Den_V; eauto|exact Hds]|].
          split; [exact Hi2|eapply fmono_trans; eauto].
        * eapply DenL_tail_err; [eapply Den_V; eauto|exact Hrest].
      + apply DenL_cons_err. apply Den_V_err. exact Hc.
  Qed.

  (** Storing the result and calling the callback. *)
  Definition store_k (o : oid) (v : V) : gen V st :=
    GGet (fun s1 =>
      match cb (set_result s1 o mode (Some v)) with
      | (s2, TOk _) => GPut s2 (GRet v)
      | (s2, TErr ex) => GPut s2 (GRaise ex)
      | (s2, TCirc _) => GPut s2 (GRaise ValueError)
      | (s2, TFuel) => GPut s2 (GRaise RuntimeError)
      end).

  Lemma store_good vc path o s s1 v f :
    Inv s1 -> fmono s s1 -> Den o (Ok (v, f)) -> fitted s1 o = f ->
    Good o s (run_gen vc path (store_k o v) s1).
  Proof.
    intros Hi Hm Hd Hf. unfold store_k. cbn [run_gen].
    destruct (Hcb (set_result s1 o mode (Some v))) as (s2 & -> & Hf2 & Hr2).
    cbn [run_gen Good]. exists f. split; [exact Hd|].
    assert (Hfs : forall x, fitted s2 x = fitted s1 x) by (intros x; rewrite Hf2; reflexivity).
    split; [|split].
    - constructor.
      + intros x w Hx Hex Hno Er. rewrite Hfs. apply Hr2 in Er. simpl in Er. unfold upd2 in Er.
        destruct (eqd x o) as [->|Hxo].
        * destruct (eqd mode mode); [|congruence]. injection Er as <-. rewrite Hf. exact Hd.
        * eapply inv_cache; eauto.
      + intros x. rewrite Hfs. apply inv_fit. exact Hi.
    - intros x w g Hdx Ex. rewrite Hfs. eapply Hm; eauto.
    - rewrite Hfs. exact Hf.
  Qed.

  (** A node computed from its fields. *)
  Lemma compute_result_good vc path o i name args s s1
    (Hok : forall v nf, compute ext e mode h (fitted s1) o i name args = Ok (v, nf) ->
             Den o (Ok (v, match nf with Some f => Some f | None => f0 o end)))
    (Herr : forall ex, compute ext e mode h (fitted s1) o i name args = Err ex ->
             Den o (Err (shown_error ext mode ex))) :
    Inv s1 -> fmono s s1 ->
    Good o s (run_gen vc path (compute_result ext h e mode o i name args (store_k o)) s1).
  Proof.
    intros Hi Hm. unfold compute_result. cbn [run_gen].
    destruct (compute ext e mode h (fitted s1) o i name args) as [[v [f|]]|ex] eqn:Ec.
    - pose proof (Hok _ _ eq_refl) as Hd. cbn [run_gen].
      apply (store_good vc path o s (set_fitted s1 o (Some f)) v (Some f)); auto.
      + assert (Hf' : forall x w g, Den x (Ok (w, g)) -> fitted s1 x = g ->
                  fitted (set_fitted s1 o (Some f)) x = g).
        { intros x w g Hdx Ex. simpl. unfold upd. destruct (eqd x o) as [->|]; [|exact Ex].
          pose proof (Den_det _ _ _ _ _ _ _ _ Hd Hdx) as E. injection E as _ <-. reflexivity. }
        constructor.
        * intros x w Hx Hex Hno Er. simpl in Er.
          pose proof (inv_cache s1 Hi x w Hx Hex Hno Er) as Hdx.
          rewrite (Hf' x w _ Hdx eq_refl). exact Hdx.
        * intros x. simpl. unfold upd. destruct (eqd x o) as [->|]; [right; exists v; exact Hd|].
          apply inv_fit. exact Hi.
      + intros x w g Hdx Ex. simpl. unfold upd. destruct (eqd x o) as [->|]; [|eapply Hm; eauto].
        pose proof (Den_det _ _ _ _ _ _ _ _ Hd Hdx) as E. injection E as _ <-. reflexivity.
      + simpl. unfold upd. destruct (eqd o o); congruence.
    - pose proof (Hok _ _ eq_refl) as Hd. cbn [run_gen].
      apply (store_good vc path o s s1 v (f0 o)); auto. eapply fitted_unchanged; eauto.
    - cbn [run_gen Good]. apply Herr. reflexivity.
  Qed.

  Lemma shown_error_eq ex :
    shown_error ext mode ex = (if eqb_of mode "preview" || has_add_note ext then ex else RuntimeError).
  Proof. unfold shown_error. destruct (eqb_of mode "preview"); reflexivity. Qed.

  (** The values of the fields determine the value of the node. *)
  Lemma den_of_fields o i name isX isY :
    h o = OExpr i name isX isY -> provided e i name isX isY = None ->
    (forall c t f, i <> IIfElse c t f) -> (forall q t d, i <> IMatch q t d) ->
    (forall t, i <> IApplied t) ->
    forall fit, fit_mode mode = true \/ fit o = f0 o ->
    (forall vs, DenL (map snd (fields_for_eval i mode)) (Ok vs) ->
       match compute ext e mode h fit o i name (combine (map fst (fields_for_eval i mode)) vs) with
       | Ok (v, nf) => Den o (Ok (v, match nf with Some f => Some f | None => f0 o end))
       | Err ex => Den o (Err (shown_error ext mode ex))
       end) /\
    (forall ex, DenL (map snd (fields_for_eval i mode)) (Err ex) -> Den o (Err ex)).
  Proof.
    intros Eh Hp Hni Hnm Hna fit Hfit.
    destruct i as [value|value|cnd it fa|q tg default|tgt|X est y cols how allow unsup|tgt|fi ot|op fs];
      try (exfalso; eapply Hni; reflexivity); try (exfalso; eapply Hnm; reflexivity);
      try (exfalso; eapply Hna; reflexivity).
    - (* Var *)
      assert (Hvar : forall val, compute_var ext e mode name val = spec_var ext e mode name val).
      { intros val. unfold compute_var, spec_var. destruct (eqb_of mode "preview").
        - destruct e; reflexivity.
        - destruct (match name with Some n => dget n e | None => None end); [reflexivity|].
          destruct (dget "_skrub_use_var_values" e) as [b|]; cbn [bind].
          + destruct (truthy ext b) as [[|]|]; cbn [bind]; destruct val; reflexivity.
          + destruct val; reflexivity. }
      destruct value as [c|]; cbn [fields_for_eval fields map fst snd].
      + split.
        * intros vs [d E]. cbn [dmapM] in E.
          destruct (ev ext h e mode f0 d c) as [[v|ex]|] eqn:Ev; cbn [dbind] in E; try discriminate.
          injection E as <-. cbn [combine compute dget].
          change (if eqd "value" "value" then Some v else None) with (Some v).
          rewrite Hvar.
          assert (Hd : Den o (shown ext mode (with_slot f0 o (spec_var ext e mode name (Some v))))).
          { exists (S d). cbn [L_expr2.den]. rewrite Eh, Hp. fold (ev ext h e mode f0 d c).
            rewrite Ev. reflexivity. }
          destruct (spec_var ext e mode name (Some v)); cbn in *; [exact Hd|].
          rewrite shown_error_eq. exact Hd.
        * intros ex [d E]. cbn [dmapM] in E.
          destruct (ev ext h e mode f0 d c) as [[v|ex']|] eqn:Ev; cbn [dbind] in E; try discriminate.
          injection E as <-. exists (S d). cbn [L_expr2.den]. rewrite Eh, Hp.
          fold (ev ext h e mode f0 d c). rewrite Ev. reflexivity.
      + split.
        * intros vs [d E]. cbn [dmapM] in E. injection E as <-. cbn [combine compute dget].
          rewrite Hvar.
          assert (Hd : Den o (shown ext mode (with_slot f0 o (spec_var ext e mode name None)))).
          { exists 1. cbn [L_expr2.den]. rewrite Eh, Hp. reflexivity. }
          destruct (spec_var ext e mode name None); cbn in *; [exact Hd|].
          rewrite shown_error_eq. exact Hd.
        * intros ex [d E]. discriminate.
    - (* Value *)
      cbn [fields_for_eval fields map fst snd]. split.
      + intros vs [d E]. cbn [dmapM] in E.
        destruct (ev ext h e mode f0 d value) as [[v|ex]|] eqn:Ev; cbn [dbind] in E; try discriminate.
        injection E as <-. cbn [combine compute dget].
        change (if eqd "value" "value" then Some v else None) with (Some v). cbn.
        exists (S d). cbn [L_expr2.den]. rewrite Eh, Hp. fold (ev ext h e mode f0 d value).
        rewrite Ev. reflexivity.
      + intros ex [d E]. cbn [dmapM] in E.
        destruct (ev ext h e mode f0 d value) as [[v|ex']|] eqn:Ev; cbn [dbind] in E; try discriminate.
        injection E as <-. exists (S d). cbn [L_expr2.den]. rewrite Eh, Hp.
        fold (ev ext h e mode f0 d value). rewrite Ev. reflexivity.
    - (* FreezeAfterFit *)
      cbn [fields_for_eval compute]. destruct (fit_mode mode) eqn:Em; cbn [fields map fst snd].
      + split.
        * intros vs [d E]. cbn [dmapM] in E.
          destruct (ev ext h e mode f0 d tgt) as [[v|ex]|] eqn:Ev; cbn [dbind] in E; try discriminate.
          injection E as <-. cbn [combine dget].
          change (if eqd "target" "target" then Some v else None) with (Some v). cbn.
          exists (S d). cbn [L_expr2.den]. rewrite Eh, Hp, Em. fold (ev ext h e mode f0 d tgt).
          rewrite Ev. reflexivity.
        * intros ex [d E]. cbn [dmapM] in E.
          destruct (ev ext h e mode f0 d tgt) as [[v|ex']|] eqn:Ev; cbn [dbind] in E; try discriminate.
          injection E as <-. exists (S d). cbn [L_expr2.den]. rewrite Eh, Hp, Em.
          fold (ev ext h e mode f0 d tgt). rewrite Ev. reflexivity.
      + destruct Hfit as [Hfit|Hfit]; [discriminate|]. split.
        * intros vs _. rewrite Hfit.
          assert (Hd : Den o (shown ext mode (match f0 o with
                                | Some (Frozen v) => Ok (v, f0 o)
                                | _ => Err AttributeError
                                end))).
          { exists 1. cbn [L_expr2.den]. rewrite Eh, Hp, Em. reflexivity. }
          destruct (f0 o) as [[w|w]|]; cbn in *; [exact Hd| |]; rewrite shown_error_eq; exact Hd.
        * intros ex [d E]. discriminate.
    - (* Apply *)
      assert (Hargs : fields_for_eval (IApply X est y cols how allow unsup) mode
        = if fit_mode mode then [("X", X); ("estimator", est)] ++
                             (if unsup then [] else [("y", y)]) ++
                             [("cols", cols); ("how", how); ("allow_reject", allow)]
          else ("X", X) :: if eqb_of mode "score" then [("y", y)] else []).
      { cbn [fields_for_eval]. destruct (fit_mode mode).
        - destruct unsup; reflexivity.
        - destruct (eqb_of mode "score"); reflexivity. }
      rewrite Hargs. cbn [compute]. destruct (fit_mode mode) eqn:Em.
      + set (fs := [("X", X); ("estimator", est)] ++ (if unsup then [] else [("y", y)]) ++
                             [("cols", cols); ("how", how); ("allow_reject", allow)]) in *.
        split.
        * intros vs [d E]. apply args_ok in E.
          assert (Hd : Den o (shown ext mode (
                     let! (v, f) := apply_fit ext (combine (map fst fs) vs) unsup in
                     Ok (v, Some (FittedWith f))))).
          { exists (S d). cbn [L_expr2.den]. rewrite Eh, Hp, Em. fold fs.
            unfold ev in E. rewrite E. reflexivity. }
          destruct (apply_fit ext (combine (map fst fs) vs) unsup) as [[v f]|ex]; cbn in *; [exact Hd|].
          rewrite shown_error_eq. exact Hd.
        * intros ex [d E]. apply args_err in E.
          exists (S d). cbn [L_expr2.den]. rewrite Eh, Hp, Em. fold fs. unfold ev in E.
          rewrite E. reflexivity.
      + destruct Hfit as [Hfit|Hfit]; [discriminate|]. rewrite Hfit.
        set (fs := ("X", X) :: if eqb_of mode "score" then [("y", y)] else []) in *.
        split.
        * intros vs [d E]. apply args_ok in E.
          assert (Hd : Den o (shown ext mode (with_slot f0 o
                     (apply_use ext mode (fitted_with (f0 o)) (combine (map fst fs) vs))))).
          { exists (S d). cbn [L_expr2.den]. rewrite Eh, Hp, Em. fold fs.
            unfold ev in E. rewrite E. reflexivity. }
          destruct (apply_use _ _ _ _) as [v|ex]; cbn in *; [exact Hd|].
          rewrite shown_error_eq. exact Hd.
        * intros ex [d E]. apply args_err in E.
          exists (S d). cbn [L_expr2.den]. rewrite Eh, Hp, Em. fold fs. unfold ev in E.
          rewrite E. reflexivity.
    - (* ConcatHorizontal *)
      cbn [fields_for_eval fields compute].
      set (fs := [("first", fi); ("others", ot)]).
      split.
      + intros vs [d E]. apply args_ok in E.
        assert (Hd : Den o (shown ext mode (
                if fit_mode mode
                then let! (v, f) := concat_fit ext (combine (map fst fs) vs) in Ok (v, Some (FittedWith f))
                else with_slot f0 o (concat_use ext (fitted_with (f0 o)) (combine (map fst fs) vs))))).
        { exists (S d). cbn [L_expr2.den]. rewrite Eh, Hp. fold fs. unfold ev in E. rewrite E. reflexivity. }
        destruct (fit_mode mode).
        * destruct (concat_fit _ _) as [[v f]|ex]; cbn in *; [exact Hd|].
          rewrite shown_error_eq. exact Hd.
        * destruct Hfit as [Hfit|Hfit]; [discriminate|]. rewrite Hfit.
          destruct (concat_use _ _ _) as [v|ex]; cbn in *; [exact Hd|].
          rewrite shown_error_eq. exact Hd.
      + intros ex [d E]. apply args_err in E.
        exists (S d). cbn [L_expr2.den]. rewrite Eh, Hp. fold fs. unfold ev in E. rewrite E. reflexivity.
    - (* other operations *)
      cbn [fields_for_eval fields compute]. split.
      + intros vs [d E]. apply args_ok in E.
        assert (Hd : Den o (shown ext mode (with_slot f0 o (op_sem ext op mode (combine (map fst fs) vs))))).
        { exists (S d). cbn [L_expr2.den]. rewrite Eh, Hp. unfold ev in E. rewrite E. reflexivity. }
        destruct (op_sem _ _ _ _) as [v|ex]; cbn in *; [exact Hd|].
        rewrite shown_error_eq. exact Hd.
      + intros ex [d E]. apply args_err in E.
        exists (S d). cbn [L_expr2.den]. rewrite Eh, Hp. unfold ev in E. rewrite E. reflexivity.
  Qed.

  Lemma Good_weaken o s s1 x : fmono s s1 -> Good o s1 x -> Good o s x.
  Proof.
    intros Hm. destruct x as [s' [v|ex|t|]]; cbn [Good]; auto.
    intros (f & Hd & Hi & Hm' & Hf). exists f. split; [exact Hd|]. split; [exact Hi|].
    split; [eapply fmono_trans; eauto|exact Hf].
  Qed.

  Lemma Den_S o r : (exists d, L_expr2.den ext h e mode f0 (S d) o = Some r) -> Den o r.
  Proof. intros [d E]. exists (S d). exact E. Qed.

  (** Going to another object whose value becomes the value of [o]. *)
  Lemma yield_last vc path o c s s1 (k : V -> gen V st)
    (Hvc : forall c s, Q c -> Inv s -> Good c s (vc c s))
    (Hk : forall v s2, DenV c (Ok v) -> Inv s2 -> fmono s s2 -> Good o s (run_gen vc path (k v) s2))
    (He : forall ex, DenV c (Err ex) -> Den o (Err ex)) :
    Q c -> Inv s1 -> fmono s s1 -> Good o s (run_gen vc path (GYield c k) s1).
  Proof.
    intros Hc Hi Hm. rewrite run_gen_yield. unfold vchk. destruct (mem c path); [exact I|].
    pose proof (Hvc c s1 Hc Hi) as Hg.
    destruct (vc c s1) as [s2 [v|ex|t|]]; cbn [obind Good] in *; auto.
    - destruct Hg as (f & Hd & Hi2 & Hm2 & _). apply Hk; auto.
      + eapply Den_V; eauto.
      + eapply fmono_trans; eauto.
    - apply He. apply Den_V_err. exact Hg.
  Qed.

  Lemma Q_child o c : Q o -> child h o c -> Q c.
  Proof. intros Ho Hc. eapply reach_trans; [exact Ho|apply part_child; exact Hc]. Qed.
  Lemma Q_child2 o m c : Q o -> child h o m -> child h m c -> Q c.
  Proof. intros Ho Hm Hc. eapply Q_child; [eapply Q_child|]; eauto. Qed.

  Lemma ret_good vc path o s s1 v :
    Inv s1 -> fmono s s1 -> Den o (Ok (v, f0 o)) -> Good o s (run_gen vc path (GRet v) s1).
  Proof.
    intros Hi Hm Hd. cbn [run_gen Good]. exists (f0 o). split; [exact Hd|].
    split; [exact Hi|]. split; [exact Hm|]. eapply fitted_unchanged; eauto.
  Qed.

  Lemma visit_good : forall d path o s, Q o -> Inv s ->
    Good o s (visit (eval_handler ext h e mode cb) d path o s).
  Proof.
    induction d as [|d IH]; intros path o s Ho Hi; [exact I|].
    cbn [visit]. set (vc := visit (eval_handler ext h e mode cb) d (o :: path)).
    assert (Hvc : forall c s, Q c -> Inv s -> Good c s (vc c s)).
    { intros c s1 Hc Hi1. apply IH; assumption. }
    clearbody vc. set (path1 := o :: path). clearbody path1.
    unfold eval_handler.
    destruct (h o) as [i name isX isY|ty items|ty items|a b c|name outs ch|name df ch|c m|cls p|w] eqn:Eh.
    - (* expressions *)
      cbn [run_gen]. unfold fetch. rewrite fetch_env_provided.
      destruct (provided e i name isX isY) as [v|] eqn:Ep.
      { apply ret_good; auto; [apply fmono_refl|]. exists 1. cbn [L_expr2.den].
        rewrite Eh, Ep. reflexivity. }
      destruct (results s o mode) as [v|] eqn:Er.
      { cbn [run_gen Good]. exists (fitted s o).
        assert (Hd : Den o (Ok (v, fitted s o))).
        { apply (inv_cache s Hi); auto.
          - unfold is_expr_at. rewrite Eh. reflexivity.
          - unfold overridden. rewrite Eh, Ep. congruence. }
        split; [exact Hd|]. split; [exact Hi|]. split; [apply fmono_refl|reflexivity]. }
      cbn [run_gen]. change (fun v => GGet _) with (store_k o).
      assert (Hi1 : Inv (log s o)).
      { constructor; [intros x v Hx Hex Hno Er'; apply (inv_cache s Hi x v Hx Hex Hno Er')|apply (inv_fit s Hi)]. }
      assert (Hm1 : fmono s (log s o)) by (intros x v f _ Ex; exact Ex).
      assert (Hst : forall c (Hlast : forall r : V, DenV c (Ok r) -> Den o (Ok (r, f0 o)))
                       (Hlaste : forall ex, DenV c (Err ex) -> Den o (Err ex)) s1,
                 Q c -> Inv s1 -> fmono s s1 -> Good o s (run_gen vc path1 (GYield c (store_k o)) s1)).
      { intros c Hl Hle s1 Hc Hi2 Hm2. apply (yield_last vc path1 o c s s1); auto.
        intros v s2 Hd Hi3 Hm3. eapply store_good; eauto. eapply fitted_unchanged; eauto. }
      unfold eval_impl.
      assert (Hdefault : (forall c t f, i <> IIfElse c t f) -> (forall q t dd, i <> IMatch q t dd) ->
        (forall t, i <> IApplied t) ->
        Good o s (run_gen vc path1 (yield_all (map snd (fields_for_eval i mode)) (fun vs =>
          compute_result ext h e mode o i name (combine (map fst (fields_for_eval i mode)) vs) (store_k o)))
          (log s o))).
      { intros H1 H2 H3. rewrite run_gen_yield_all.
        assert (HQs : forall c, In c (map snd (fields_for_eval i mode)) -> Q c).
        { intros c Hc. apply (Q_child o); auto. unfold child. rewrite Eh. simpl.
          apply in_map_iff in Hc. destruct Hc as ([n c'] & <- & Hin).
          apply fields_for_eval_in in Hin. apply in_map_iff. exists (n, c'). auto. }
        pose proof (visit_all_good vc path1 Hvc (map snd (fields_for_eval i mode)) (log s o) HQs Hi1) as Hall.
        destruct (visit_all vc path1 (map snd (fields_for_eval i mode)) (log s o)) as [s1 [vs|ex|t|]];
          cbn [obind GoodL] in *.
        - destruct Hall as (Hds & Hi2 & Hm2).
          pose proof (fmono_trans _ _ _ Hm1 Hm2) as Hm3.
          assert (Hfit : fit_mode mode = true \/ fitted s1 o = f0 o).
          { destruct (fit_mode mode) eqn:Em; [auto|right].
            destruct (inv_fit s1 Hi2 o) as [E|[v Hd]]; [exact E|].
            eapply Den_slot_use; eauto. }
          destruct (den_of_fields o i name isX isY Eh Ep H1 H2 H3 (fitted s1) Hfit) as [Hok _].
          specialize (Hok vs Hds). apply compute_result_good; auto.
          + intros v nf Ec. rewrite Ec in Hok. exact Hok.
          + intros ex Ec. rewrite Ec in Hok. exact Hok.
        - cbn [Good].
          destruct (den_of_fields o i name isX isY Eh Ep H1 H2 H3 f0 (or_intror eq_refl)) as [_ He].
          apply He. exact Hall.
        - exact I.
        - exact I. }
      destruct i as [value|value|cnd it fa|q tg default|tgt|X est y cols how allow unsup|tgt|fi ot|op fs];
        try (apply Hdefault; discriminate).
      + (* IfElse *)
        assert (Hchild : forall c, In c [cnd; it; fa] -> Q c).
        { intros c Hc. apply (Q_child o); auto. unfold child. rewrite Eh. exact Hc. }
        apply (yield_last vc path1 o cnd s (log s o)); auto.
        * intros cv s2 Hcv Hi2 Hm2. destruct (truthy ext cv) as [[|]|ex] eqn:Et.
          -- apply Hst; auto; [| |apply Hchild; simpl; auto].
             ++ intros r [d2 E2]. destruct Hcv as [d1 E1]. exists (S (d1 + d2)).
                cbn [L_expr2.den]. rewrite Eh, Ep. fold (ev ext h e mode f0 (d1 + d2) cnd).
                rewrite (ev_mono _ _ _ _ _ d1 (d1+d2) _ _ ltac:(lia) E1). cbn [dbind]. rewrite Et. cbn [dbind].
                fold (ev ext h e mode f0 (d1 + d2) it).
                rewrite (ev_mono _ _ _ _ _ d2 (d1+d2) _ _ ltac:(lia) E2). reflexivity.
             ++ intros ex [d2 E2]. destruct Hcv as [d1 E1]. exists (S (d1 + d2)).
                cbn [L_expr2.den]. rewrite Eh, Ep. fold (ev ext h e mode f0 (d1 + d2) cnd).
                rewrite (ev_mono _ _ _ _ _ d1 (d1+d2) _ _ ltac:(lia) E1). cbn [dbind]. rewrite Et. cbn [dbind].
                fold (ev ext h e mode f0 (d1 + d2) it).
                rewrite (ev_mono _ _ _ _ _ d2 (d1+d2) _ _ ltac:(lia) E2). reflexivity.
          -- apply Hst; auto; [| |apply Hchild; simpl; auto].
             ++ intros r [d2 E2]. destruct Hcv as [d1 E1]. exists (S (d1 + d2)).
                cbn [L_expr2.den]. rewrite Eh, Ep. fold (ev ext h e mode f0 (d1 + d2) cnd).
                rewrite (ev_mono _ _ _ _ _ d1 (d1+d2) _ _ ltac:(lia) E1). cbn [dbind]. rewrite Et. cbn [dbind].
                fold (ev ext h e mode f0 (d1 + d2) fa).
                rewrite (ev_mono _ _ _ _ _ d2 (d1+d2) _ _ ltac:(lia) E2). reflexivity.
             ++ intros ex [d2 E2]. destruct Hcv as [d1 E1]. exists (S (d1 + d2)).
                cbn [L_expr2.den]. rewrite Eh, Ep. fold (ev ext h e mode f0 (d1 + d2) cnd).
                rewrite (ev_mono _ _ _ _ _ d1 (d1+d2) _ _ ltac:(lia) E1). cbn [dbind]. rewrite Et. cbn [dbind].
                fold (ev ext h e mode f0 (d1 + d2) fa).
                rewrite (ev_mono _ _ _ _ _ d2 (d1+d2) _ _ ltac:(lia) E2). reflexivity.
          -- cbn [run_gen Good]. destruct Hcv as [d1 E1]. exists (S d1).
             cbn [L_expr2.den]. rewrite Eh, Ep. fold (ev ext h e mode f0 d1 cnd).
             rewrite E1. cbn [dbind]. rewrite Et. reflexivity.
        * intros ex [d1 E1]. exists (S d1). cbn [L_expr2.den]. rewrite Eh, Ep.
          fold (ev ext h e mode f0 d1 cnd). rewrite E1. reflexivity.
        * apply Hchild. simpl. auto.
      + (* Match *)
        assert (HQq : Q q). { apply (Q_child o); auto. unfold child. rewrite Eh. destruct default; simpl; auto. }
        apply (yield_last vc path1 o q s (log s o)); auto.
        * intros qv s2 Hqv Hi2 Hm2. unfold map_lookup. destruct (key_of ext qv) as [key|ex] eqn:Ek.
          -- cbn [bind]. 
             assert (Hden : forall r, (exists d2, match h tg with
                       | OMap _ items =>
                           match dget key items, default with
                           | Some t', _ => ev ext h e mode f0 d2 t'
                           | None, Some dflt => ev ext h e mode f0 d2 dflt
                           | None, None => Some (Err KeyError)
                           end
                       | _ => Some (Err TypeError)
                       end = Some r) ->
                     Den o (let! v := r in Ok (v, f0 o))).
             { intros r [d2 E2]. destruct Hqv as [d1 E1]. exists (S (d1 + d2)).
               cbn [L_expr2.den]. rewrite Eh, Ep. fold (ev ext h e mode f0 (d1 + d2) q).
               rewrite (ev_mono _ _ _ _ _ d1 (d1+d2) _ _ ltac:(lia) E1). cbn [dbind]. rewrite Ek. cbn [dbind].
               match goal with |- dbind ?x _ = _ => assert (Hx : x = Some r) end.
               { destruct (h tg); try exact E2.
                 destruct (dget key items);
                   [|destruct default; [|exact E2]];
                   (eapply (ev_mono _ _ _ _ _ d2 (d1+d2)); [lia|exact E2]). }
               rewrite Hx. destruct r; reflexivity. }
             destruct (h tg) as [| |ty items| | | | | |] eqn:Etg;
               try (cbn [run_gen Good]; apply (Hden (Err TypeError)); exists 0; reflexivity).
             ++ destruct (dget key items) as [t|] eqn:Ed.
                ** apply Hst; auto.
                   --- intros r [d2 E2]. apply (Hden (Ok r)). exists d2. exact E2.
                   --- intros ex [d2 E2]. apply (Hden (Err ex)). exists d2. exact E2.
                   --- apply (Q_child2 o tg t); auto; unfold child.
                       +++ rewrite Eh. destruct default; simpl; auto.
                       +++ rewrite Etg. simpl. eapply in_dget; eauto.
                ** destruct default as [dd|].
                   --- apply Hst; auto.
                       +++ intros r [d2 E2]. apply (Hden (Ok r)). exists d2. exact E2.
                       +++ intros ex [d2 E2]. apply (Hden (Err ex)). exists d2. exact E2.
                       +++ apply (Q_child o); auto. unfold child. rewrite Eh. simpl. auto.
                   --- cbn [run_gen Good]. apply (Hden (Err KeyError)). exists 0. reflexivity.
          -- cbn [bind run_gen Good]. destruct Hqv as [d1 E1]. exists (S d1).
             cbn [L_expr2.den]. rewrite Eh, Ep. fold (ev ext h e mode f0 d1 q).
             rewrite E1. cbn [dbind]. rewrite Ek. reflexivity.
        * intros ex [d1 E1]. exists (S d1). cbn [L_expr2.den]. rewrite Eh, Ep.
          fold (ev ext h e mode f0 d1 q). rewrite E1. reflexivity.
      + (* AppliedEstimator *)
        cbn [fields_for_eval fields map snd fst]. cbn [yield_all]. rewrite run_gen_yield.
        unfold vchk. destruct (mem tgt path1); [exact I|].
        assert (HQ : Q tgt). { apply (Q_child o); auto. unfold child. rewrite Eh. simpl. auto. }
        pose proof (Hvc tgt (log s o) HQ Hi1) as Hg.
        destruct (vc tgt (log s o)) as [s1 [v|ex|t|]]; cbn [obind Good] in *; auto.
        * destruct Hg as (f & Hd & Hi2 & Hm2 & Hf). 
          assert (Hd' : Den o (shown ext mode (
                match h tgt, fitted_with f with
                | OExpr (IApply _ _ _ _ _ _ _) _ _ _, Some f => Ok (applied ext f, f0 o)
                | _, _ => Err AttributeError
                end))).
          { destruct Hd as [d1 E1]. exists (S d1). cbn [L_expr2.den]. rewrite Eh, Ep, E1. reflexivity. }
          apply compute_result_good; auto.
          -- intros w nf. cbn [compute]. rewrite Hf. 
             destruct (h tgt) as [[]| | | | | | | |]; try discriminate.
             destruct (fitted_with f); try discriminate. intros E. injection E as <- <-. exact Hd'.
          -- intros ex. cbn [compute]. rewrite Hf. rewrite shown_error_eq.
             destruct (h tgt) as [[]| | | | | | | |]; try (intros E; injection E as <-; exact Hd').
             destruct (fitted_with f); try discriminate. intros E. injection E as <-. exact Hd'.
        * destruct Hg as [d1 E1]. exists (S d1). cbn [L_expr2.den]. rewrite Eh, Ep, E1. reflexivity.
    - (* dict *)
      unfold eval_container. rewrite run_gen_yield_all.
      assert (HQs : forall c, In c (map snd items) -> Q c).
      { intros c Hc. apply (Q_child o); auto. unfold child. rewrite Eh. exact Hc. }
      pose proof (visit_all_good vc path1 Hvc (map snd items) s HQs Hi) as Hall.
      destruct (visit_all vc path1 (map snd items) s) as [s1 [vs|ex|t|]]; cbn [obind GoodL] in *.
      + destruct Hall as (Hds & Hi2 & Hm2).
        destruct Hds as [d1 E1]. apply args_ok in E1.
        assert (Hd : Den o (let! v := mk_map ext ty (combine (map fst items) vs) in Ok (v, f0 o))).
        { exists (S d1). cbn [L_expr2.den]. rewrite Eh. unfold ev in E1. rewrite E1. cbn [dbind].
          destruct (mk_map _ _ _); reflexivity. }
        destruct (mk_map _ _ _) as [v|ex]; cbn [gen_of bind] in *.
        * apply ret_good; auto.
        * exact Hd.
      + destruct Hall as [d1 E1]. apply args_err in E1. cbn [Good]. exists (S d1).
        cbn [L_expr2.den]. rewrite Eh. unfold ev in E1. rewrite E1. reflexivity.
      + exact I.
      + exact I.
    - (* sequence *)
      unfold eval_container. rewrite run_gen_yield_all.
      assert (HQs : forall c, In c items -> Q c).
      { intros c Hc. apply (Q_child o); auto. unfold child. rewrite Eh. exact Hc. }
      pose proof (visit_all_good vc path1 Hvc items s HQs Hi) as Hall.
      destruct (visit_all vc path1 items s) as [s1 [vs|ex|t|]]; cbn [obind GoodL] in *.
      + destruct Hall as (Hds & Hi2 & Hm2).
        destruct Hds as [d1 E1].
        assert (Hd : Den o (let! v := mk_seq ext ty vs in Ok (v, f0 o))).
        { exists (S d1). cbn [L_expr2.den]. rewrite Eh. unfold ev in E1. rewrite E1. cbn [dbind].
          destruct (mk_seq _ _ _); reflexivity. }
        destruct (mk_seq _ _ _) as [v|ex]; cbn [gen_of bind] in *.
        * apply ret_good; auto.
        * exact Hd.
      + destruct Hall as [d1 E1]. cbn [Good]. exists (S d1).
        cbn [L_expr2.den]. rewrite Eh. unfold ev in E1. rewrite E1. reflexivity.
      + exact I.
      + exact I.
    - (* slice *)
      assert (Hchild : forall x, In x [a; b; c] -> Q x).
      { intros x Hx. apply (Q_child o); auto. unfold child. rewrite Eh. exact Hx. }
      unfold eval_container.
      apply (yield_last vc path1 o a s s); auto; [| |apply Hchild; simpl; auto|apply fmono_refl].
      + intros x s1 [d1 E1] Hi1 Hm1. apply (yield_last vc path1 o b s s1); auto; [| |apply Hchild; simpl; auto].
        * intros y s2 [d2 E2] Hi2 Hm2. apply (yield_last vc path1 o c s s2); auto; [| |apply Hchild; simpl; auto].
          -- intros z s3 [d3 E3] Hi3 Hm3. apply ret_good; auto. exists (S (d1 + d2 + d3)).
             cbn [L_expr2.den]. rewrite Eh. fold (ev ext h e mode f0 (d1 + d2 + d3) a) (ev ext h e mode f0 (d1 + d2 + d3) b) (ev ext h e mode f0 (d1 + d2 + d3) c).
             rewrite (ev_mono _ _ _ _ _ d1 (d1+d2+d3) _ _ ltac:(lia) E1). cbn [dbind].
             rewrite (ev_mono _ _ _ _ _ d2 (d1+d2+d3) _ _ ltac:(lia) E2). cbn [dbind].
             rewrite (ev_mono _ _ _ _ _ d3 (d1+d2+d3) _ _ ltac:(lia) E3). reflexivity.
          -- intros ex [d3 E3]. exists (S (d1 + d2 + d3)).
             cbn [L_expr2.den]. rewrite Eh. fold (ev ext h e mode f0 (d1 + d2 + d3) a) (ev ext h e mode f0 (d1 + d2 + d3) b) (ev ext h e mode f0 (d1 + d2 + d3) c).
             rewrite (ev_mono _ _ _ _ _ d1 (d1+d2+d3) _ _ ltac:(lia) E1). cbn [dbind].
             rewrite (ev_mono _ _ _ _ _ d2 (d1+d2+d3) _ _ ltac:(lia) E2). cbn [dbind].
             rewrite (ev_mono _ _ _ _ _ d3 (d1+d2+d3) _ _ ltac:(lia) E3). reflexivity.
        * intros ex [d2 E2]. exists (S (d1 + d2)).
          cbn [L_expr2.den]. rewrite Eh. fold (ev ext h e mode f0 (d1 + d2) a) (ev ext h e mode f0 (d1 + d2) b).
          rewrite (ev_mono _ _ _ _ _ d1 (d1+d2) _ _ ltac:(lia) E1). cbn [dbind].
          rewrite (ev_mono _ _ _ _ _ d2 (d1+d2) _ _ ltac:(lia) E2). reflexivity.
      + intros ex [d1 E1]. exists (S d1). cbn [L_expr2.den]. rewrite Eh.
        fold (ev ext h e mode f0 d1 a). rewrite E1. reflexivity.
    - (* Choice *)
      unfold eval_choice, name_in_env.
      destruct (match name with Some n => dget n e | None => None end) as [v|] eqn:En.
      { apply ret_good; auto; [apply fmono_refl|]. exists 1. cbn [L_expr2.den]. rewrite Eh, En. reflexivity. }
      set (idx := if eqb_of mode "preview" then 0 else match ch with Some i => i | None => 0 end).
      assert (Eg : (if eqb_of mode "preview" then yield_res (nth_outcome h outs 0) GRet
                    else yield_res (nth_outcome h outs (default_or 0 ch)) GRet)
                   = yield_res (V := V) (F := F) (nth_outcome h outs idx) GRet).
      { unfold idx. destruct (eqb_of mode "preview"); reflexivity. }
      rewrite Eg. unfold yield_res, nth_outcome.
      assert (Hden : forall r, (exists d2, match h outs with
              | OSeq _ items =>
                  match nth_error items idx with Some c => ev ext h e mode f0 d2 c | None => Some (Err IndexError) end
              | _ => Some (Err TypeError) end = Some r) -> Den o (let! v := r in Ok (v, f0 o))).
      { intros r [d2 E2]. exists (S d2). cbn [L_expr2.den]. rewrite Eh, En.
        match goal with |- dbind ?x _ = _ => assert (Hx : x = Some r) by exact E2 end.
        rewrite Hx. destruct r; reflexivity. }
      destruct (h outs) as [| |ty items| | | | | |] eqn:Eo;
        try (cbn [run_gen Good]; apply (Hden (Err TypeError)); exists 0; reflexivity).
      destruct (nth_error items idx) as [c|] eqn:Ei.
      + apply (yield_last vc path1 o c s s); auto; [| | |apply fmono_refl].
        * intros v s2 [d2 E2] Hi2 Hm2. apply ret_good; auto. apply (Hden (Ok v)). exists d2. exact E2.
        * intros ex [d2 E2]. apply (Hden (Err ex)). exists d2. exact E2.
        * apply (Q_child2 o outs c); auto; unfold child.
          -- rewrite Eh. simpl. auto.
          -- rewrite Eo. simpl. eapply nth_error_In; eauto.
      + cbn [run_gen Good]. apply (Hden (Err IndexError)). exists 0. reflexivity.
    - (* numeric choice *)
      unfold eval_choice, name_in_env.
      destruct (match name with Some n => dget n e | None => None end) as [v|] eqn:En.
      { apply ret_good; auto; [apply fmono_refl|]. exists 1. cbn [L_expr2.den]. rewrite Eh, En. reflexivity. }
      destruct (eqb_of mode "preview") eqn:Epv.
      + apply ret_good; auto; [apply fmono_refl|]. exists 1. cbn [L_expr2.den]. rewrite Eh, En, Epv. reflexivity.
      + apply ret_good; auto; [apply fmono_refl|]. exists 1. cbn [L_expr2.den]. rewrite Eh, En, Epv. reflexivity.
    - (* match on a choice *)
      unfold eval_choice_match.
      apply (yield_last vc path1 o c s s); auto; [| | |apply fmono_refl].
      + intros outcome s2 Hov Hi2 Hm2. unfold map_lookup.
        destruct (key_of ext outcome) as [key|ex] eqn:Ek.
        * cbn [bind].
          assert (Hden : forall r, (exists d2, match h m with
                       | OMap _ items =>
                           match dget key items with
                           | Some t' => ev ext h e mode f0 d2 t'
                           | None => Some (Err KeyError)
                           end
                       | _ => Some (Err TypeError)
                       end = Some r) ->
                     Den o (let! v := r in Ok (v, f0 o))).
          { intros r [d2 E2]. destruct Hov as [d1 E1]. exists (S (d1 + d2)).
            cbn [L_expr2.den]. rewrite Eh. fold (ev ext h e mode f0 (d1 + d2) c).
            rewrite (ev_mono _ _ _ _ _ d1 (d1+d2) _ _ ltac:(lia) E1). cbn [dbind]. rewrite Ek. cbn [dbind].
            match goal with |- dbind ?x _ = _ => assert (Hx : x = Some r) end.
            { destruct (h m); try exact E2. destruct (dget key items); [|exact E2].
              eapply (ev_mono _ _ _ _ _ d2 (d1+d2)); [lia|exact E2]. }
            rewrite Hx. destruct r; reflexivity. }
          destruct (h m) as [|ty items| | | | | | |] eqn:Em;
            try (cbn [run_gen Good]; apply (Hden (Err TypeError)); exists 0; reflexivity).
          destruct (dget key items) as [t|] eqn:Ed.
          -- apply (yield_last vc path1 o t s s2); auto.
             ++ intros v s3 [d2 E2] Hi3 Hm3. apply ret_good; auto. apply (Hden (Ok v)). exists d2. exact E2.
             ++ intros ex [d2 E2]. apply (Hden (Err ex)). exists d2. exact E2.
             ++ apply (Q_child2 o m t); auto; unfold child.
                ** rewrite Eh. simpl. auto.
                ** rewrite Em. simpl. eapply in_dget; eauto.
          -- cbn [run_gen Good]. apply (Hden (Err KeyError)). exists 0. reflexivity.
        * cbn [bind run_gen Good]. destruct Hov as [d1 E1]. exists (S d1).
          cbn [L_expr2.den]. rewrite Eh. fold (ev ext h e mode f0 d1 c).
          rewrite E1. cbn [dbind]. rewrite Ek. reflexivity.
      + intros ex [d1 E1]. exists (S d1). cbn [L_expr2.den]. rewrite Eh.
        fold (ev ext h e mode f0 d1 c). rewrite E1. reflexivity.
      + apply (Q_child o); auto. unfold child. rewrite Eh. simpl. auto.
    - (* estimator *)
      unfold eval_container.
      apply (yield_last vc path1 o p s s); auto; [| | |apply fmono_refl].
      + intros ps s1 [d1 E1] Hi1 Hm1.
        assert (Hd : Den o (let! v := mk_estimator ext cls ps in Ok (v, f0 o))).
        { exists (S d1). cbn [L_expr2.den]. rewrite Eh. fold (ev ext h e mode f0 d1 p). rewrite E1.
          cbn [dbind]. destruct (mk_estimator _ _ _); reflexivity. }
        destruct (mk_estimator _ _ _) as [v|ex]; cbn [gen_of bind] in *.
        * apply ret_good; auto.
        * exact Hd.
      + intros ex [d1 E1]. exists (S d1). cbn [L_expr2.den]. rewrite Eh.
        fold (ev ext h e mode f0 d1 p). rewrite E1. reflexivity.
      + apply (Q_child o); auto. unfold child. rewrite Eh. simpl. auto.
    - (* value *)
      apply ret_good; auto; [apply fmono_refl|]. exists 1. cbn [L_expr2.den]. rewrite Eh. reflexivity.
  Qed.
End Sim.
