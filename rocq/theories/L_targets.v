(** What the answers of a fitted expression use. *)
From Verif Require Import Base L_dict M_traverse L_traverse M_expr L_expr1 L_expr2 L_expr3 L_expr4 L_expr5 L_expr6 L_expr7.
Open Scope string_scope.
Open Scope list_scope.
Open Scope nat_scope.
Set Default Proof Using "Type".

(** ** Specification *)
Inductive purpose : Type := Fitting | Scoring | Answering.
(** what the methods of estimators are for; "fit" evaluates in the mode "fit_transform" *)
Inductive for_purpose : string -> purpose -> Prop :=
| for_fit : for_purpose "fit" Fitting
| for_fit_transform : for_purpose "fit_transform" Fitting
| for_score : for_purpose "score" Scoring
| for_transform : for_purpose "transform" Answering
| for_predict : for_purpose "predict" Answering
| for_predict_proba : for_purpose "predict_proba" Answering
| for_predict_log_proba : for_purpose "predict_log_proba" Answering
| for_decision_function : for_purpose "decision_function" Answering.

Section Spec.
  Context {V K : Type} `{EqD K}.
  Variable h : heap V K.
  Variable e : env V.
  Variable p : purpose.
  (** the value of [o] may use the object [t]: estimators use their input, and the target to be scored or to be fitted (unless they
      are unsupervised); all else they use only to be fitted, as steps that are frozen after the fit. Nothing is used by what the
      environment gives. *)
  Definition uses (o t : oid) : Prop :=
    given h e o = None /\
    match h o with
    | OExpr (IFreeze target) _ _ _ => p = Fitting /\ t = target
    | OExpr (IApply X estimator y cols how allow_reject unsupervised) _ _ _ =>
        t = X \/ (t = y /\ (p = Scoring \/ (p = Fitting /\ unsupervised = false))) \/
        (p = Fitting /\ In t [estimator; cols; how; allow_reject])
    | ob => In t (children ob)
    end.
  Inductive used (root : oid) : oid -> Prop :=
  | used_root : used root root
  | used_more o t : used root o -> uses o t -> used root t.
End Spec.

Section Proofs.
  Context {V K F : Type} `{EqD K}.
  Variable ext : externals V K F.

  Lemma used_trans (h : heap V K) e p a b c : used h e p a b -> used h e p b c -> used h e p a c.
  Proof. intros Hab Hbc. induction Hbc as [|o t _ IH Ht]; [exact Hab|]. exact (used_more h e p a o t IH Ht). Qed.

  Lemma purpose_mode requested p : for_purpose requested p ->
    (fit_mode (real_mode requested) = true <-> p = Fitting) /\ (eqb_of (real_mode requested) "score" = true <-> p = Scoring) /\
    real_mode requested <> "preview".
  Proof. intros Hp. destruct Hp; vm_compute; repeat split; intros; congruence. Qed.

  Lemma needs_used h e f p requested o t : for_purpose requested p ->
    needs ext h e (real_mode requested) f o t -> used h e p o t.
  Proof.
    intros Hp Hn. destruct (purpose_mode requested p Hp) as (Hfit & Hscore & _).
    set (mode := real_mode requested) in *. clearbody mode.
    assert (Hone : uses h e p o t -> used h e p o t) by (intros Hu; exact (used_more h e p o o t (used_root h e p o) Hu)).
    assert (Htwo : forall m, uses h e p o m -> is_expr (h m) = false -> given h e m = None -> In t (children (h m)) -> used h e p o t).
    { intros m Hm Hex Hg Ht. apply (used_more h e p o m t (used_more h e p o o m (used_root h e p o) Hm)).
      split; [exact Hg|]. destruct (h m); try exact Ht. discriminate. }
    unfold needs in Hn. unfold uses in Hone, Htwo. unfold given in Hone, Htwo.
    destruct (h o) as [i name isX isY|ty items|ty items|a b c|name outs ch|name df ch|c m|cls q|w] eqn:Eh.
    - destruct Hn as [Hg Hn].
      destruct i as [value|value|cnd it fa|q tg default|tgt|X est y cols how allow unsup|tgt|fi ot|op fs]; try (apply Hone; split; assumption).
      + apply Hone. split; [exact Hg|]. destruct Hn as [->|(cv & _ & [[_ ->]|[_ ->]])]; simpl; auto.
      + destruct Hn as [->|(qv & key & ty & items & _ & _ & Ht & [Hd|[_ ->]])].
        * apply Hone. split; [exact Hg|]. destruct default; simpl; auto.
        * apply (Htwo tg); [split; [exact Hg|]; destruct default; simpl; auto|rewrite Ht; reflexivity|rewrite Ht; reflexivity|].
          rewrite Ht. simpl. eapply in_dget; eauto.
        * apply Hone. split; [exact Hg|]. simpl. auto.
      + apply Hone. split; [exact Hg|]. destruct Hn as [Hm ->]. split; [apply Hfit; exact Hm|reflexivity].
      + apply Hone. split; [exact Hg|]. unfold used_by_apply in Hn. destruct (fit_mode mode).
        * pose proof (proj1 Hfit eq_refl) as ->. destruct unsup; simpl in Hn |- *; intuition.
        * destruct (eqb_of mode "score").
          -- pose proof (proj1 Hscore eq_refl) as ->. simpl in Hn. intuition.
          -- simpl in Hn. intuition.
    - apply Hone. split; [reflexivity|exact Hn].
    - apply Hone. split; [reflexivity|exact Hn].
    - apply Hone. split; [reflexivity|exact Hn].
    - destruct Hn as [Hg (ty & items & Ho & Hn)].
      apply (Htwo outs); [split; [destruct name; exact Hg|simpl; auto]|rewrite Ho; reflexivity|rewrite Ho; reflexivity|].
      rewrite Ho. simpl. eapply nth_error_In; eauto.
    - destruct Hn.
    - destruct Hn as [->|(v & key & ty & items & _ & _ & Hm & Hd)].
      + apply Hone. split; [reflexivity|]. simpl. auto.
      + apply (Htwo m); [split; [reflexivity|simpl; auto]|rewrite Hm; reflexivity|rewrite Hm; reflexivity|].
        rewrite Hm. simpl. eapply in_dget; eauto.
    - apply Hone. split; [reflexivity|exact Hn].
    - apply Hone. split; [reflexivity|exact Hn].
  Qed.
  Lemma needed_used h e f p requested root x : for_purpose requested p ->
    needed ext h e (real_mode requested) f root x -> used h e p root x.
  Proof.
    intros Hp Hn. induction Hn as [|x t _ IH Ht]; [constructor|].
    exact (used_trans h e p root x t IH (needs_used h e f p requested x t Hp Ht)).
  Qed.

  Theorem computes_used (h : heap V K) size root e requested p (s : st V F) :
    closed h size -> root < size -> acyclic h root -> trace s = [] -> for_purpose requested p ->
    forall x, In x (trace (fst (evaluate ext h size root requested e true s))) -> used h e p root x.
  Proof.
    intros Hc Hr Ha Ht Hp x Hx. destruct (computed_exactly_needed ext h size root e requested s Hc Hr Ha Ht) as [Hn _].
    destruct (Hn x Hx) as [Hnx _]. exact (needed_used h e (fitted s) p requested root x Hp Hnx).
  Qed.

  Lemma first_provided_same (e1 e2 : env V) names : (forall n, In n names -> dget n e1 = dget n e2) ->
    first_provided e1 names = first_provided e2 names.
  Proof.
    induction names as [|n names IH]; intros Hn; [reflexivity|]. cbn [first_provided]. rewrite (Hn n (or_introl eq_refl)).
    rewrite IH; [reflexivity|]. intros n' Hn'. apply Hn. right. exact Hn'.
  Qed.
  Lemma given_same (h : heap V K) (e1 e2 : env V) o :
    (forall k, In k ["_skrub_X"; "_skrub_y"] -> dget k e1 = dget k e2) -> (forall n, named h o n -> dget n e1 = dget n e2) ->
    given h e1 o = given h e2 o.
  Proof.
    intros Hk Hn. unfold given, named in *. destruct (h o) as [i name isX isY|ty items|ty items|a b c|name outs ch|name df ch|c m|cls q|w]; try reflexivity.
    - apply first_provided_same. intros n Hin. apply in_app_or in Hin. destruct Hin as [Hin|Hin].
      { destruct isX; [|destruct Hin]. destruct Hin as [<-|[]]. apply Hk. simpl. auto. }
      apply in_app_or in Hin. destruct Hin as [Hin|Hin].
      { destruct isY; [|destruct Hin]. destruct Hin as [<-|[]]. apply Hk. simpl. auto. }
      destruct i, name as [n'|]; try (destruct Hin as [<-|[]]; apply Hn; reflexivity); destruct Hin.
    - destruct name as [n|]; [|reflexivity]. apply Hn. reflexivity.
    - destruct name as [n|]; [|reflexivity]. apply Hn. reflexivity.
  Qed.

  Theorem answers_depend_on_used (h1 h2 : heap V K) size1 size2 root (e1 e2 : env V) requested p (s1 s2 : st V F) :
    closed h1 size1 -> root < size1 -> acyclic h1 root -> closed h2 size2 -> root < size2 -> acyclic h2 root ->
    for_purpose requested p ->
    (forall k, In k ["_skrub_X"; "_skrub_y"; "_skrub_use_var_values"] -> dget k e1 = dget k e2) ->
    (e1 = [] <-> e2 = []) ->
    (forall o, used h1 e1 p root o -> h1 o = h2 o /\ fitted s1 o = fitted s2 o /\ forall n, named h1 o n -> dget n e1 = dget n e2) ->
    snd (evaluate ext h1 size1 root requested e1 true s1) = snd (evaluate ext h2 size2 root requested e2 true s2).
  Proof.
    intros C1 R1 A1 C2 R2 A2 Hp Hk Hemp Hu. apply evaluate_agree; try assumption. intros o Hn.
    assert (Hno : used h1 e1 p root o) by exact (needed_used h1 e1 (fitted s1) p requested root o Hp Hn).
    destruct (Hu o Hno) as (Eh & Ef & Hnames). split; [exact Ef|].
    assert (Eg : given h1 e1 o = given h2 e2 o).
    { rewrite (given_same h1 e1 e2 o); [unfold given; rewrite Eh; reflexivity| |exact Hnames].
      intros k Hin. apply Hk. simpl in *. intuition. }
    assert (E0 : exists g1, given h1 e1 o = g1) by (eexists; reflexivity). destruct E0 as ([v|] & E1); rewrite E1 in Eg.
    - left. exists v. split; [exact E1|symmetry; exact Eg].
    - right. split; [exact Eh|]. split; [exact E1|]. split; [symmetry; exact Eg|]. split.
      + intros t Ht. apply (Hu t). apply (used_more h1 e1 p root o t Hno). split; [exact E1|].
        unfold table in Ht. destruct (h1 o) as [i name isX isY|ty items|ty items|a b c|name outs ch|name df ch|c m|cls q|w]; try contradiction.
        * destruct i as [value|value|cnd it fa|q tg default|tgt|X est y cols how allow unsup|tgt|fi ot|op fs]; try contradiction; subst t.
          -- destruct default; simpl; auto.
          -- simpl. auto.
        * subst t. simpl. auto.
        * subst t. simpl. auto.
      + unfold same_reads. destruct (h1 o) as [i name isX isY|ty items|ty items|a b c|name outs ch|name df ch|c m|cls q|w] eqn:Eo; try exact I.
        destruct i; try exact I. split; [exact Hemp|]. split; [apply Hk; simpl; auto|].
        intros n ->. apply Hnames. unfold named. rewrite Eo. reflexivity.
  Qed.

  (** removing a name of the environment *)
  Lemma dget_filter_other (e : env V) n k : k <> n -> dget k (filter (fun x => negb (eqb_of (fst x) n)) e) = dget k e.
  Proof.
    intros Hne. induction e as [|[a v] e IH]; [reflexivity|]. cbn [filter fst]. destruct (eqb_of a n) eqn:E; cbn [negb].
    - apply eqb_of_eq in E. subst a. cbn [dget]. destruct (eqd k n); [contradiction|exact IH].
    - cbn [dget]. destruct (eqd k a); [reflexivity|exact IH].
  Qed.
  Theorem name_not_used (h : heap V K) size root (e : env V) requested p (s : st V F) n :
    closed h size -> root < size -> acyclic h root -> for_purpose requested p ->
    ~ In n ["_skrub_X"; "_skrub_y"; "_skrub_use_var_values"] ->
    (forall o, used h e p root o -> ~ named h o n) ->
    (exists k v, In (k, v) e /\ k <> n) ->
    snd (evaluate ext h size root requested (filter (fun x => negb (eqb_of (fst x) n)) e) true s)
    = snd (evaluate ext h size root requested e true s).
  Proof.
    intros Hc Hr Ha Hp Hk Hn (k0 & v0 & Hin & Hne). symmetry.
    apply answers_depend_on_used with (p := p); try assumption.
    - intros k Hik. symmetry. apply dget_filter_other. intros ->. exact (Hk Hik).
    - split; intros E; exfalso.
      + rewrite E in Hin. destruct Hin.
      + assert (Hf : In (k0, v0) (filter (fun x => negb (eqb_of (fst x) n)) e)).
        { apply filter_In. split; [exact Hin|]. cbn [fst]. destruct (eqb_of k0 n) eqn:E'; [|reflexivity].
          apply eqb_of_eq in E'. contradiction. }
        rewrite E in Hf. destruct Hf.
    - intros o Ho. split; [reflexivity|]. split; [reflexivity|]. intros n' Hn'. symmetry. apply dget_filter_other.
      intros ->. exact (Hn o Ho Hn').
  Qed.
End Proofs.
