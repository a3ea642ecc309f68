(** The cost of traversals. *)
From Verif Require Import Base L_dict M_traverse L_traverse M_expr L_expr1 L_expr5
  M_choicegraph M_graph L_graph.
Open Scope string_scope.
Open Scope list_scope.
Open Scope nat_scope.
Set Default Proof Using "Type".

(** A generator that yields exactly [l] and returns, whatever it receives. *)
Inductive yields {V S} : gen V S -> list oid -> Prop :=
| yields_ret v : yields (GRet v) []
| yields_yield t k l : (forall v, yields (k v) l) -> yields (GYield t k) (t :: l)
| yields_get k l : (forall s, yields (k s) l) -> yields (GGet k) l
| yields_put s g l : yields g l -> yields (GPut s g) l.

Lemma yields_all {V S} (items : list oid) : forall k : list V -> gen V S,
  (forall vs, yields (k vs) []) -> yields (yield_all items k) items.
Proof.
  induction items as [|t items IH]; intros k Hk; simpl; [apply Hk|].
  constructor. intros v. apply IH. intros vs. apply Hk.
Qed.

Section Cost.
  Context {V K W St : Type}.
  Variable h : heap V K.
  Variable handler : oid -> gen W St.
  Hypothesis Hst : forall o, yields (handler o) (children (h o)).

  (** All occurrences of objects below [o], once for each way to reach them. *)
  Inductive unfolds : oid -> list oid -> Prop :=
  | unfolds_node o ls : Forall2 unfolds (children (h o)) ls -> unfolds o (o :: concat ls).

  Lemma unfolds_total o : well_founded_at h o -> exists l, unfolds o l.
  Proof.
    intros Ha. induction Ha as [o _ IH].
    assert (Hl : exists ls, Forall2 unfolds (children (h o)) ls).
    { unfold child in IH. induction (children (h o)) as [|c cs IHc]; [exists []; constructor|].
      destruct (IH c (or_introl eq_refl)) as (l & Hl). destruct IHc as (ls & Hls).
      - intros y Hy. apply IH. right. exact Hy.
      - exists (l :: ls). constructor; assumption. }
    destruct Hl as (ls & Hls). exists (o :: concat ls). constructor. exact Hls.
  Qed.

  Fixpoint unfolds_part o l (U : unfolds o l) {struct U} : forall x, In x l -> part_of h o x.
  Proof.
    destruct U as [o ls F]. intros x [<-|Hx]; [constructor|].
    assert (Hex : exists c, In c (children (h o)) /\ part_of h c x).
    { revert F Hx. generalize (children (h o)). intros cs F. induction F as [|c l cs ls Hc F IH]; intros Hx; [destruct Hx|].
      simpl in Hx. apply in_app_iff in Hx. destruct Hx as [Hx|Hx].
      - exists c. split; [left; reflexivity|]. eapply unfolds_part; eauto.
      - destruct (IH Hx) as (c' & Hc' & Hp). exists c'. split; [right; exact Hc'|exact Hp]. }
    destruct Hex as (c & Hc & Hp). econstructor; [intros []|exact Hc|exact Hp].
  Qed.

  Definition apart (o : oid) (rest : list (item W St)) : Prop :=
    forall x, In x (targets rest) -> ~ part_of h o x.

  Lemma run_count o : well_founded_at h o -> forall l, unfolds o l -> forall rest s, apart o rest ->
    exists v s', steps handler (3 * length l - 1) (Running (IObj o :: rest) None s) = Running rest (Some v) s'.
  Proof using Hst.
    intros Ha. induction Ha as [o Ho IH]. intros l U rest s Hap. inversion U as [o' ls F]; subst o' l.
    assert (Hin : forall (g : gen W St) items, yields g items -> forall ls, Forall2 unfolds items ls ->
              incl items (children (h o)) -> forall s s0 last resume, send (resume last) s0 = send g s ->
              exists v s', steps handler (3 * length (concat ls) + 1) (Running (IComp o resume :: rest) last s0)
                = Running rest (Some v) s').
    { clear U F ls s. intros g items Y. induction Y as [v|t k items Hk IHk|k items Hk IHk|s1 g items Hg IHg];
        intros ls F Hincl s s0 last resume E; simpl in E.
      - inversion F; subst. exists v, s. cbn [concat length]. simpl. rewrite E. reflexivity.
      - inversion F as [|? l ? ls' Hl F']; subst.
        assert (Htc : child h o t) by (apply Hincl; left; reflexivity).
        assert (Em : mem t (o :: targets rest) = false).
        { apply mem_false. intros [E'|Hx].
          - subst t. assert (Hw : well_founded_at h o) by (constructor; exact Ho).
            apply (wf_no_cycle h o o Hw); [constructor|]. exists o. split; [exact Htc|constructor].
          - apply (Hap t Hx). apply part_child. exact Htc. }
        assert (E1 : steps handler 1 (Running (IComp o resume :: rest) last s0)
                     = Running (IObj t :: IComp o (resume_with k) :: rest) None s).
        { cbn [steps step]. rewrite E, Em. reflexivity. }
        destruct (IH t Htc l Hl (IComp o (resume_with k) :: rest) s) as (v & s' & E2).
        { intros x Hx Hp. simpl in Hx. destruct Hx as [<-|Hx].
          - assert (Hw : well_founded_at h o) by (constructor; exact Ho).
            apply (wf_no_cycle h o o Hw); [constructor|]. exists t. auto.
          - apply (Hap x Hx). econstructor; [intros []|exact Htc|exact Hp]. }
        destruct (IHk v ls' F' (fun x Hx => Hincl x (or_intror Hx)) s' s' (Some v) (resume_with k) eq_refl) as (v' & s'' & E3).
        exists v', s''. assert (Hpos : length l <> 0) by (inversion Hl; subst; discriminate).
        cbn [concat]. rewrite app_length.
        replace (3 * (length l + length (concat ls')) + 1) with (1 + ((3 * length l - 1) + (3 * length (concat ls') + 1))) by lia.
        rewrite steps_add, E1, steps_add, E2, E3. reflexivity.
      - eapply IHk; eauto.
      - eapply IHg; eauto. }
    cbn [length]. replace (3 * S (length (concat ls)) - 1) with (1 + (3 * length (concat ls) + 1)) by lia.
    rewrite steps_add. cbn [steps step]. eapply Hin; eauto. intros x Hx. exact Hx.
  Qed.

  Definition running (m : machine W St) : Prop := match m with Running _ _ _ => True | Finished _ _ => False end.

  Lemma running_before n : forall m x, running (steps handler (n + m) x) -> running (steps handler n x).
  Proof.
    intros m x. rewrite steps_add. destruct (steps handler n x) as [| s r]; [intros; exact I|].
    rewrite steps_finished. intros [].
  Qed.

  (** The loop of the traversal runs exactly three times per occurrence. *)
  Theorem iterations o s : well_founded_at h o ->
    exists l, unfolds o l /\
      (forall n, n < 3 * length l -> running (steps handler n (start o s))) /\
      exists s' v, steps handler (3 * length l) (start o s) = Finished s' (TOk v).
  Proof using Hst.
    intros Hw. destruct (unfolds_total o Hw) as (l & U). exists l. split; [exact U|].
    destruct (run_count o Hw l U [] s) as (v & s' & E); [intros x []|].
    assert (Hpos : length l <> 0) by (inversion U; subst; discriminate). split.
    - intros n Hn. apply (running_before n (3 * length l - 1 - n)).
      replace (n + (3 * length l - 1 - n)) with (3 * length l - 1) by lia. unfold start. rewrite E. exact I.
    - exists s', v. replace (3 * length l) with ((3 * length l - 1) + 1) by lia. unfold start. rewrite steps_add, E. reflexivity.
  Qed.

  (** When nothing is used twice, this is at most three times per object. *)
  Lemma linear o l size : closed h size -> o < size -> unfolds o l -> NoDup l -> length l <= size.
  Proof.
    intros Hc Ho U Hn. rewrite <- (seq_length size 0). apply NoDup_incl_length; [exact Hn|].
    intros x Hx. apply in_seq. split; [lia|]. simpl. eapply closed_part; eauto. eapply unfolds_part; eauto.
  Qed.
End Cost.

Section Static.
  Context {V K : Type}.
  Variable h : heap V K.

  Lemma graph_yields o : yields (graph_handler h o) (children (h o)).
  Proof.
    unfold graph_handler. destruct (h o); try (apply yields_all; intros; constructor).
    constructor. intros s. constructor. apply yields_all. intros vs. constructor. intros s2. constructor. constructor.
  Qed.
  Lemma print_yields o : yields (print_handler h o) (children (h o)).
  Proof.
    unfold print_handler. destruct (h o); try (apply yields_all; intros; constructor).
    intros s. constructor. constructor.
  Qed.

  (** A step that has no name and is not marked, and no choices. *)
  Definition anonymous (ob : obj V K) : Prop :=
    match ob with
    | OExpr _ name is_X is_y => name = None /\ is_X = false /\ is_y = false
    | OChoice _ _ _ | ONumChoice _ _ _ => False
    | _ => True
    end.
  Lemma conflict_yields : (forall o, anonymous (h o)) -> forall o, yields (fc_handler h o) (children (h o)).
  Proof.
    intros Ha o. specialize (Ha o). unfold fc_handler.
    destruct (h o); try (apply yields_all; intros; constructor); try (destruct Ha; fail).
    destruct Ha as (-> & -> & ->). constructor. intros s. unfold fc_add. constructor.
    apply yields_all. intros; constructor.
  Qed.
End Static.

(** *** Steps that use the previous one twice *)
Section Doubling.
  (** [x = skrub.as_expr(...)], then [n] times [x = x + x] *)
  Definition doubled (o : oid) : obj unit nat :=
    match o with
    | 0 => OExpr (IVar None) None false false
    | S o' => OExpr (IOp "+" [("left", o'); ("right", o')]) None false false
    end.
  Lemma doubled_closed size : closed doubled size.
  Proof. intros [|o] c Ho Hc; [destruct Hc|]. simpl in Hc. unfold oid in *. lia. Qed.
  Lemma doubled_wf o : well_founded_at doubled o.
  Proof.
    induction o as [|o IH]; constructor; intros c Hc; [destruct Hc|]. destruct Hc as [<-|[<-|[]]]; exact IH.
  Qed.
  Lemma doubled_anonymous o : anonymous (doubled o).
  Proof. destruct o; simpl; auto. Qed.
  Lemma doubled_unfolds : forall n l, unfolds doubled n l -> length l = 2 ^ (S n) - 1.
  Proof.
    induction n as [|n IH]; intros l U; inversion U as [o ls F E1 E2]; subst o; simpl in F.
    - inversion F; subst. reflexivity.
    - inversion F as [|? l1 ? ? U1 F1]; subst. inversion F1 as [|? l2 ? ? U2 F2]; subst. inversion F2; subst.
      apply IH in U1. apply IH in U2. cbn [concat]. rewrite app_nil_r. cbn [length]. rewrite app_length, U1, U2.
      rewrite !Nat.pow_succ_r'. assert (2 ^ n <> 0) by (apply Nat.pow_nonzero; discriminate). lia.
  Qed.

  Lemma doubled_iterations {W S} (handler : oid -> gen W S) n s :
    (forall o, yields (handler o) (children (doubled o))) ->
    forall m, m < 3 * (2 ^ (Datatypes.S n) - 1) -> running (steps handler m (start n s)).
  Proof.
    intros Hy m Hm. destruct (iterations doubled handler Hy n s (doubled_wf n)) as (l & U & Hr & _).
    apply Hr. rewrite (doubled_unfolds n l U). exact Hm.
  Qed.
End Doubling.
