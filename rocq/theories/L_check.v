(** The checks made when an expression is created. *)
From Verif Require Import Base L_dict M_traverse L_traverse M_expr L_expr1 L_expr2 L_expr3 L_expr4 L_expr5.
From Verif Require Import M_grid M_choicegraph L_conflicts L_choicegraph L_choicegraph2 M_check.
From Coq Require Import Relations.Relation_Operators Relations.Operators_Properties.
Open Scope string_scope.
Open Scope list_scope.
Open Scope nat_scope.

(** ** Specification *)
Section Spec.
  Context {V K : Type}.
  Variable is_dataframe : V -> bool.
  Variable h : heap V K.

  (** Variables and values: the nodes that may hold a dataframe. *)
  Definition holds_value (o : oid) : Prop :=
    match h o with OExpr (IVar _) _ _ _ | OExpr (IValue _) _ _ _ => True | _ => False end.

  (** [o] uses a dataframe that is not held by a variable or a value. *)
  Definition bare_dataframe (o d : oid) : Prop :=
    reach h holds_value o d /\ exists v, h d = OValue v /\ is_dataframe v = true.
End Spec.

(** ** States changed by a generator *)
Section Keeps.
  Context {A St : Type}.
  Variable R : St -> St -> Prop.
  Hypothesis R_refl : forall s, R s s.
  Hypothesis R_trans : forall a b c, R a b -> R b c -> R a c.
  (** [F]: the last write before returning may be any. *)
  Variable F : Prop.

  Fixpoint gkeeps (s : St) (g : gen A St) : Prop :=
    match g with
    | GRet _ => True
    | GRaise _ => True
    | GYield _ k => forall v s', R s s' -> gkeeps s' (k v)
    | GGet k => gkeeps s (k s)
    | GPut s' g' => (R s s' /\ gkeeps s' g') \/ (F /\ exists v, g' = GRet v)
    end.

  Lemma run_gen_keeps vc path (Hvc : forall t s s' r, ~ In t path -> vc t s = (s', r) -> R s s') :
    forall g s s' r, gkeeps s g -> run_gen vc path g s = (s', r) -> R s s' \/ (F /\ exists v : A, r = TOk v).
  Proof.
    intros g. induction g as [v|e|t k IH|k IH|s1 g IH]; intros s s' r Hg E; cbn in E.
    - injection E as <- <-. left. apply R_refl.
    - injection E as <- <-. left. apply R_refl.
    - destruct (mem t path) eqn:Em; [injection E as <- <-; left; apply R_refl|].
      apply mem_false in Em. destruct (vc t s) as [s1 r1] eqn:Ev. pose proof (Hvc t s s1 r1 Em Ev) as Hs1.
      destruct r1 as [v|e|c|]; try (injection E as <- <-; left; exact Hs1).
      cbn in Hg. destruct (IH v s1 s' r (Hg v s1 Hs1) E) as [Hr|Hr]; [left; eapply R_trans; eauto|right; exact Hr].
    - cbn in Hg. eapply IH; eauto.
    - cbn in Hg. destruct Hg as [[H1 H2]|[HF [v ->]]].
      + destruct (IH s1 s' r H2 E) as [Hr|Hr]; [left; eapply R_trans; eauto|right; exact Hr].
      + cbn in E. injection E as <- <-. right. eauto.
  Qed.

  Lemma gkeeps_yield_all : forall items k s,
    (forall vs s', R s s' -> gkeeps s' (k vs)) -> gkeeps s (yield_all items k).
  Proof.
    induction items as [|t items IH]; intros k s Hk; cbn; [apply Hk; apply R_refl|].
    intros v s' Hs. apply IH. intros vs s2 Hs2. apply Hk. eapply R_trans; eauto.
  Qed.

  Lemma gkeeps_of s (r : res A) : gkeeps s (gen_of r).
  Proof. destruct r; exact I. Qed.
End Keeps.

(** ** Evaluation that fails does not set the result of the expression *)
Section Untouched.
  Context {V K F : Type} `{EqD K}.
  Variable ext : externals V K F.
  Variable h : heap V K.
  Variable e : env V.
  Variable mode : string.
  Let cb : st V F -> st V F * outcome unit := fun s => (s, TOk tt).
  Notation handler := (eval_handler ext h e mode cb).

  Definition same_at (x : oid) (s s' : st V F) : Prop := results s' x mode = results s x mode.
  Lemma same_at_refl x s : same_at x s s. Proof. reflexivity. Qed.
  Lemma same_at_trans x a b c : same_at x a b -> same_at x b c -> same_at x a c.
  Proof. unfold same_at. congruence. Qed.

  Lemma handler_keeps (Fin : Prop) x o s : (x <> o \/ Fin) -> gkeeps (same_at x) Fin s (handler o).
  Proof.
    intros Hx. unfold eval_handler.
    set (kk := fun v : V => GGet (fun s2 => match cb (set_result s2 o mode (Some v)) with
         | (s3, TOk _) => GPut s3 (GRet v)
         | (s3, TErr ex) => GPut s3 (GRaise ex)
         | (s3, TCirc _) => GPut s3 (GRaise ValueError)
         | (s3, TFuel) => GPut s3 (GRaise RuntimeError)
         end)).
    assert (Hk : forall s1 v, gkeeps (same_at x) Fin s1 (kk v)).
    { intros s1 v. cbn. destruct Hx as [Hx|HF]; [left|right; eauto]. split; [|exact I].
      unfold same_at, set_result. cbn. unfold upd2. destruct (eqd x o); [contradiction|reflexivity]. }
    clearbody kk.
    assert (Hcr : forall s1 i name args k, (forall s2 v, gkeeps (same_at x) Fin s2 (k v)) ->
      gkeeps (same_at x) Fin s1 (compute_result ext h e mode o i name args k)).
    { intros s1 i name args k Hkk. unfold compute_result. cbn [gkeeps].
      destruct (compute ext e mode h (fitted s1) o i name args) as [[v [f|]]|ex]; cbn [gkeeps].
      - left. split; [reflexivity|]. apply Hkk.
      - apply Hkk.
      - left. split; [reflexivity|exact I]. }
    destruct (h o) as [i name isX isY|ty items|ty items|a b c|n ou chs|n d chs|c m|cls ps|v] eqn:Eo.
    - cbn [gkeeps]. destruct (fetch e mode s o i name isX isY); [exact I|]. cbn [gkeeps]. left. split; [reflexivity|].
      unfold eval_impl.
      destruct i; try (apply gkeeps_yield_all; [apply same_at_refl|apply same_at_trans|];
        intros vs s' _; apply Hcr; intros; apply Hk).
      + cbn [gkeeps]. intros v s' _. destruct (truthy ext v) as [[|]|]; cbn [gkeeps]; auto.
      + cbn [gkeeps]. intros v s' _. destruct (bind _ _) as [[t|]|]; cbn [gkeeps]; auto. destruct default; cbn [gkeeps]; auto.
    - apply gkeeps_yield_all; [apply same_at_refl|apply same_at_trans|]. intros. apply gkeeps_of.
    - apply gkeeps_yield_all; [apply same_at_refl|apply same_at_trans|]. intros. apply gkeeps_of.
    - cbn. auto.
    - unfold eval_choice. destruct (name_in_env e n); [exact I|].
      destruct (eqb_of mode "preview"); unfold yield_res; destruct (nth_outcome _ _ _); cbn; auto.
    - unfold eval_choice. destruct (name_in_env e n); [exact I|]. destruct (eqb_of mode "preview"); exact I.
    - unfold eval_choice_match. cbn [gkeeps]. intros v s' _. destruct (bind _ _) as [[t|]|]; cbn [gkeeps]; auto.
    - cbn [eval_container gkeeps]. intros v s' _. apply gkeeps_of.
    - exact I.
  Qed.

  Lemma path_untouched : forall d path o s s' r x, ~ In o path -> In x path ->
    visit handler d path o s = (s', r) -> same_at x s s'.
  Proof.
    induction d as [|d IH]; intros path o s s' r x Ho Hx E; cbn [visit] in E; [injection E as <- <-; reflexivity|].
    assert (Hne : x <> o) by (intros ->; contradiction).
    destruct (run_gen_keeps (same_at x) (same_at_refl x) (same_at_trans x) False
               (visit handler d (o :: path)) (o :: path)) with (g := handler o) (s := s) (s' := s') (r := r) as [Hr|[[] _]]; auto.
    - intros t s1 s2 r1 Ht Ev. eapply IH; [exact Ht| |exact Ev]. right. exact Hx.
    - apply handler_keeps. auto.
  Qed.

  Lemma failed_untouched d o s s' r : visit handler d [] o s = (s', r) -> (forall v, r <> TOk v) -> same_at o s s'.
  Proof.
    destruct d as [|d]; intros E Hr; cbn [visit] in E; [injection E as <- <-; reflexivity|].
    destruct (run_gen_keeps (same_at o) (same_at_refl o) (same_at_trans o) True
               (visit handler d [o]) [o]) with (g := handler o) (s := s) (s' := s') (r := r) as [Hs|[_ [v Hv]]]; auto.
    - intros t s1 s2 r1 Ht Ev. eapply path_untouched; [exact Ht| |exact Ev]. left. reflexivity.
    - apply handler_keeps. auto.
    - exfalso. eapply Hr; eauto.
  Qed.
End Untouched.

(** ** Looking for dataframes *)
Section FindArg.
  Context {V K : Type} `{EqD K}.
  Variable is_df : V -> bool.
  Variable h : heap V K.
  Notation handler := (arg_handler is_df h).
  Notation stop := (holds_value h).

  Lemma arg_handler_edges o : gen_all (child h o) (handler o).
  Proof.
    assert (Hy : gen_all (child h o) (yield_all (V := unit) (S := option oid) (children (h o)) (fun _ => GRet tt))).
    { apply gen_all_yield_all; [auto|intros; exact I]. }
    unfold arg_handler. destruct (h o) as [i name isX isY|ty items|ty items|a b c|n ou chs|n d chs|c m|cls ps|v] eqn:Eh; try exact Hy.
    - destruct i; try exact Hy; exact I.
    - destruct (is_df v); exact I.
  Qed.

  Definition is_bare (o : oid) : Prop := exists v, h o = OValue v /\ is_df v = true.

  Definition ArgPost (P : oid -> Prop) {A} (x : option oid * outcome A) : Prop :=
    match x with
    | (_, TOk _) => forall a, P a -> ~ is_bare a
    | (s', TErr ex) => ex = UserError 1 /\ exists a, s' = Some a /\ P a /\ is_bare a
    | _ => True
    end.

  Lemma arg_visit_post : forall d path o s, ArgPost (reach h stop o) (visit handler d path o s).
  Proof.
    induction d as [|d IH]; intros path o s; [exact I|].
    assert (Hrec : ~ stop o -> ~ is_bare o -> ArgPost (reach h stop o)
      (run_gen (visit handler d (o :: path)) (o :: path) (yield_all (children (h o)) (fun _ => GRet tt)) s)).
    { intros Hns Hnb. rewrite run_gen_yield_all.
      assert (Hall : forall items s1, (ArgPost (fun a => exists c, In c items /\ reach h stop c a)
        (visit_all (visit handler d (o :: path)) (o :: path) items s1))).
      { induction items as [|c items IHi]; intros s1.
        - cbn. intros a (c & [] & _).
        - cbn [visit_all]. unfold vchk. destruct (mem c (o :: path)); [exact I|].
          pose proof (IH (o :: path) c s1) as Hc.
          destruct (visit handler d (o :: path) c s1) as [s2 [v|e|t|]]; cbn [obind ArgPost] in *; auto.
          + pose proof (IHi s2) as Hi.
            destruct (visit_all _ _ items s2) as [s3 [vs|e|t|]]; cbn [obind ArgPost] in *; auto.
            * intros a (c' & [<-|Hc'] & Hp); [auto|]. apply Hi. exists c'. auto.
            * destruct Hi as (-> & a & -> & (c' & Hc' & Hp) & Ha). split; [reflexivity|]. exists a.
              split; [reflexivity|]. split; [exists c'; split; [right; exact Hc'|exact Hp]|exact Ha].
          + destruct Hc as (-> & a & -> & Hp & Ha). split; [reflexivity|]. exists a.
            split; [reflexivity|]. split; [exists c; split; [left; reflexivity|exact Hp]|exact Ha]. }
      pose proof (Hall (children (h o)) s) as Ha.
      destruct (visit_all _ _ (children (h o)) s) as [s2 [vs|e|t|]]; cbn [obind ArgPost run_gen] in *; auto.
      + intros a Hp. inversion Hp as [|? c ? _ Hc Hcx]; subst; [exact Hnb|]. apply Ha. exists c. auto.
      + destruct Ha as (-> & a & -> & (c & Hc & Hp) & Ha). split; [reflexivity|]. exists a.
        split; [reflexivity|]. split; [econstructor; [exact Hns|exact Hc|exact Hp]|exact Ha]. }
    assert (Hself : (forall a, reach h stop o a -> a = o) -> ~ is_bare o ->
              forall s', ArgPost (reach h stop o) (s', @TOk unit tt)).
    { intros Hs Hb s' a Ha. rewrite (Hs a Ha). exact Hb. }
    cbn [visit]. revert Hrec. generalize (visit handler d (o :: path)). intros vc Hrec. unfold arg_handler.
    assert (Hstop : stop o -> forall a, reach h stop o a -> a = o).
    { intros Hs a Ha. inversion Ha as [|? c ? Hns _ _]; subst; [reflexivity|contradiction]. }
    destruct (h o) as [i name isX isY|ty items|ty items|a b c|n ou chs|n d0 chs|c m|cls ps|v] eqn:Eh;
      try (apply Hrec; [unfold holds_value; rewrite Eh; auto|intros (w & Ew & _); congruence]).
    - assert (Hnb : ~ is_bare o) by (intros (w & Ew & _); congruence).
      destruct i; try (apply Hrec; [unfold holds_value; rewrite Eh; auto|exact Hnb]);
        cbn [run_gen]; apply Hself; auto; apply Hstop; unfold holds_value; rewrite Eh; exact I.
    - destruct (is_df v) eqn:Ed; cbn [run_gen].
      + split; [reflexivity|]. exists o. split; [reflexivity|]. split; [constructor|]. exists v. auto.
      + apply Hself.
        * intros x Hx. inversion Hx as [|? c ? _ Hc _]; subst; [reflexivity|]. unfold child in Hc. rewrite Eh in Hc. destruct Hc.
        * intros (w & Ew & Hw). congruence.
  Qed.

  Theorem find_arg_spec size root : closed h size -> root < size -> acyclic h root ->
    exists r, find_arg is_df h size root = Ok r /\
      match r with
      | Some d => bare_dataframe is_df h root d
      | None => forall d, ~ bare_dataframe is_df h root d
      end.
  Proof.
    intros Hc Hr Ha. unfold find_arg.
    pose proof (visit_no_fuel_heap handler size root None (closed_handler _ h size Hc arg_handler_edges) Hr) as Hf.
    pose proof (arg_visit_post size [] root None) as Hp.
    destruct (visit handler size [] root None) as [s [v|e|t|]] eqn:Ev; cbn [ArgPost snd] in *.
    - exists None. split; [destruct s; reflexivity|]. intros d [Hd Hb]. exact (Hp d Hd Hb).
    - destruct Hp as (-> & a & -> & Pa & Hb). exists (Some a). split; [reflexivity|]. split; [exact Pa|exact Hb].
    - exfalso. apply (visit_circ _ (child h) arg_handler_edges) in Ev. destruct Ev as [H1 H2].
      apply (Ha t); [apply rt_part; exact H2|apply trans_on_cycle; exact H1].
    - congruence.
  Qed.
End FindArg.

(** ** The checks *)
Section Check.
  Context {V K F : Type} `{EqD K}.
  Variable ext : externals V K F.
  Variable hash_obj : oid -> res K.
  Variables is_df is_none : V -> bool.
  Variable h : heap V K.
  Variable size : nat.
  Variable root : oid.
  Hypothesis Hclosed : closed h size.
  Hypothesis Hroot : root < size.
  Hypothesis Hacyclic : acyclic h root.
  Hypothesis Hexpr : is_expr_at h root.

  Lemma no_env_to_compute : to_compute h [] root.
  Proof.
    unfold is_expr_at, is_expr in Hexpr. unfold to_compute.
    destruct (h root) as [i name isX isY| | | | | | | |]; try discriminate. unfold provided.
    assert (Hn : forall names, first_provided (V := V) [] names = None) by (induction names; auto). apply Hn.
  Qed.

  (** What calling a deferred function does: [r] is the value of the preview. *)
  Definition outcome_of_call (r : res (V * option (fit_attr V F))) : res returned :=
    match r with
    | Ok (v, _) => Ok (if is_none v then ReturnsNone else ReturnsExpr root)
    | Err (UserError 2) => Ok (ReturnsExpr root)
    | Err _ => Err RuntimeError
    end.

  Theorem call_spec f0 (s : st V F) : trace s = [] -> Inv ext h [] "preview" f0 root s ->
    let out := call ext hash_obj is_df is_none h size root s in
    (no_conflict h root \/ out = (s, Err ValueError)) /\
    (no_conflict h root -> (exists d, bare_dataframe is_df h root d) -> out = (s, Err TypeError)) /\
    (no_conflict h root -> (forall d, ~ bare_dataframe is_df h root d) -> choices_ok hash_obj h root ->
       exists r, Den ext h [] "preview" f0 root r /\ snd out = outcome_of_call r /\
         outside h root "preview" s (fst out) /\
         (forall v f, r = Ok (v, f) -> results (fst out) root "preview" = Some v /\
                                       Inv ext h [] "preview" f0 root (fst out)) /\
         (forall ex, r = Err ex -> results (fst out) root "preview" = None)).
  Proof.
    intros Ht Hi out.
    destruct (conflicts_found h size root Hclosed Hroot Hacyclic) as (c & Ec & Hc).
    destruct (find_arg_spec is_df h size root Hclosed Hroot Hacyclic) as (a & Ea & Haa).
    split; [|split].
    - destruct c as [c|]; [right|left; apply Hc; reflexivity]. unfold out, call, check_expr. rewrite Ec. reflexivity.
    - intros Hn [d Hd]. apply Hc in Hn. subst c. destruct a as [a|]; [|exfalso; exact (Haa d Hd)].
      unfold out, call, check_expr. rewrite Ec, Ea. reflexivity.
    - intros Hn Hd Hch.
      destruct (choice_graph_spec hash_obj h size root Hclosed Hroot Hacyclic Hch Hn) as (short & G & Eg & _).
      pose proof (proj2 Hc Hn) as ->. destruct a as [a|]; [exfalso; exact (Hd a Haa)|].
      pose proof (evaluate_keep ext h size root Hclosed Hroot Hacyclic [] "preview" f0 s Ht Hi) as Hev.
      cbn zeta in Hev. destruct Hev as (r & Hden & Hans & _ & _ & Hout & Hok).
      unfold out, call, check_expr. rewrite Ec, Ea, Eg.
      pose proof no_env_to_compute as Htc.
      destruct (evaluate ext h size root "preview" [] false s) as [s' r'] eqn:Ev. cbn [fst snd] in *.
      exists r. split; [exact Hden|]. destruct r as [[v f]|ex].
      + destruct (Hok v f eq_refl) as [Hi' Hres]. specialize (Hres Htc).
        cbn in Hans. subst r'. cbn [fst snd outcome_of_call]. change (real_mode "preview") with "preview" in *. rewrite Hres.
        split; [reflexivity|]. split; [exact Hout|]. split; [|discriminate]. intros v' f' E. injection E as <- <-. auto.
      + cbn in Hans. subst r'.
        assert (Hs0 : results s root "preview" = None).
        { destruct (results s root "preview") as [w|] eqn:Ew; [|reflexivity]. exfalso.
          assert (Hw : Den ext h [] "preview" f0 root (Ok (w, fitted s root))).
          { apply (inv_cache _ _ _ _ _ _ _ Hi); auto; [constructor|]. unfold overridden. unfold to_compute in Htc. destruct (h root); auto. }
          pose proof (Den_det _ _ _ _ _ _ _ _ Hden Hw). discriminate. }
        assert (Hs' : results s' root "preview" = None).
        { unfold evaluate in Ev. cbn [eqb_of] in Ev.
          destruct (visit (eval_handler ext h [] (if eqb_of "preview" "fit" then "fit_transform" else "preview") (fun s0 => (s0, TOk tt))) size [] root s) as [s2 r2] eqn:Ev2.
          injection Ev as -> Er. change (if eqb_of "preview" "fit" then "fit_transform" else "preview") with "preview" in *.
          apply failed_untouched in Ev2; [unfold same_at in Ev2; congruence|]. intros w ->. cbn in Er. discriminate. }
        split.
        * cbn [snd outcome_of_call]. destruct ex as [| | | | | | | | | | | | | |k]; try reflexivity. destruct k as [|[|[|k]]]; try reflexivity. cbn. rewrite Hs'. reflexivity.
        * assert (Hst : forall (q : res unit), fst (match (s', q) with (s1, Err e) => (s1, Err e) | (s1, Ok _) =>
            (s1, Ok match results s1 root "preview" with None => ReturnsExpr root | Some v => if is_none v then ReturnsNone else ReturnsExpr root end) end) = s')
            by (intros [u|u]; reflexivity).
          rewrite Hst. split; [exact Hout|]. split; [discriminate|]. intros. exact Hs'.
  Qed.

  (** Without cached previews, evaluation starts from the fitted attributes. *)
  Lemma fresh_inv (s : st V F) : (forall o, results s o "preview" = None) -> Inv ext h [] "preview" (fitted s) root s.
  Proof. intros Hs. split; [intros o v _ _ _ E; rewrite Hs in E; discriminate|auto]. Qed.
End Check.
