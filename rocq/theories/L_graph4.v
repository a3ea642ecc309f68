(** The list of steps, and labels in drawings. *)
From Verif Require Import Base L_dict M_traverse L_traverse M_expr L_expr1 L_expr5
  M_choicegraph M_graph L_graph L_graph3.
Open Scope string_scope.
Open Scope list_scope.
Open Scope nat_scope.
Set Default Proof Using "Type".

Lemma yields_edges {V S} (g : gen V S) l : yields g l -> gen_all (fun t => In t l) g.
Proof.
  intros Y. induction Y as [v|t k l Hk IHk|k l Hk IHk|s g l Hg IHg]; simpl; auto.
  split; [left; reflexivity|]. intros v. eapply gen_all_impl; [|apply IHk]. intros x Hx. right. exact Hx.
Qed.

Section NoErr.
  Context {V K W St : Type}.
  Variable h : heap V K.
  Variable handler : oid -> gen W St.
  Hypothesis Hst : forall o, yields (handler o) (children (h o)).

  Lemma yields_not_err : forall d path o s s' e, visit handler d path o s <> (s', TErr e).
  Proof using Hst.
    induction d as [|d IH]; intros path o s s' e; [discriminate|]. cbn [visit].
    enough (Hg : forall (g : gen W St) l, yields g l -> forall s, run_gen (visit handler d (o :: path)) (o :: path) g s <> (s', TErr e)).
    { eapply Hg. apply Hst. }
    clear s. intros g l Y. induction Y as [v|t k l Hk IHk|k l Hk IHk|s1 g l Hg IHg]; intros s.
    - discriminate.
    - rewrite run_gen_yield. unfold vchk. destruct (mem t (o :: path)); [discriminate|].
      destruct (visit handler d (o :: path) t s) as [s2 [v|e'|t'|]] eqn:Ev; cbn [obind]; try discriminate.
      + apply IHk.
      + intros E. injection E as -> ->. exact (IH _ _ _ _ _ Ev).
    - cbn [run_gen]. apply IHk.
    - cbn [run_gen]. apply IHg.
  Qed.

  Lemma yields_ok size root s : closed h size -> root < size -> acyclic h root ->
    exists s' v, visit handler size [] root s = (s', TOk v).
  Proof using Hst.
    intros Hc Hr Hac. assert (Hed : forall o, gen_all (child h o) (handler o)).
    { intros o. eapply gen_all_impl; [|apply yields_edges, Hst]. intros t Ht. exact Ht. }
    pose proof (visit_no_fuel_heap handler size root s (closed_handler _ h size Hc Hed) Hr) as Hf.
    destruct (visit handler size [] root s) as [s' [v|e|t|]] eqn:Ev.
    - eauto.
    - exfalso. eapply yields_not_err; eauto.
    - exfalso. apply (visit_circ _ (child h) Hed) in Ev. destruct Ev as [H1 H2].
      apply (Hac t); [apply rt_part; exact H2|apply trans_on_cycle; exact H1].
    - exfalso. apply Hf. reflexivity.
  Qed.
End NoErr.

Section Printer.
  Context {V K : Type}.
  Variable h : heap V K.
  Notation handler := (print_handler h).

  Definition print_line (o : oid) (s : pr_st) : pr_st :=
    let is_seen := mem o (pr_seen s) in
    mk_pr (if is_seen then pr_seen s else pr_seen s ++ [o]) (pr_lines s ++ [(o, is_seen)])
      (if is_seen then true else pr_cached s).

  Lemma print_visit_S d path o s :
    visit handler (S d) path o s
    = obind (visit_all (visit handler d (o :: path)) (o :: path) (children (h o)) s)
        (fun _ s1 => (if is_expr (h o) then print_line o s1 else s1, TOk tt)).
  Proof.
    cbn [visit]. generalize (visit handler d (o :: path)). intros vc. unfold print_handler.
    destruct (h o) eqn:Eh; cbn [is_expr]; rewrite run_gen_yield_all; reflexivity.
  Qed.

  (** Marks are on the steps that were listed before. *)
  Definition marked_ok (l : list (oid * bool)) : Prop :=
    forall l1 o b l2, l = l1 ++ (o, b) :: l2 -> b = mem o (map fst l1).

  Definition inv (s : pr_st) : Prop :=
    (forall x, In x (pr_seen s) <-> In x (map fst (pr_lines s))) /\
    marked_ok (pr_lines s) /\
    pr_cached s = existsb snd (pr_lines s) /\
    inputs_first h (map fst (pr_lines s)).

  Lemma mem_ext (x : oid) l l' : (forall y, In y l <-> In y l') -> mem x l = mem x l'.
  Proof.
    intros E. destruct (mem x l) eqn:E1; destruct (mem x l') eqn:E2; try reflexivity.
    - apply mem_true in E1. apply mem_false in E2. exfalso. apply E2. apply E. exact E1.
    - apply mem_true in E2. apply mem_false in E1. exfalso. apply E1. apply E. exact E2.
  Qed.

  Lemma print_line_inv o s : inv s -> (forall c, uses h o c -> In c (map fst (pr_lines s))) ->
    inv (print_line o s).
  Proof.
    intros (H1 & H2 & H3 & H4) Hu. unfold print_line. assert (Em := mem_ext o _ _ H1).
    split; [|split; [|split]]; simpl.
    - intros x. rewrite map_app, in_app_iff. simpl. destruct (mem o (pr_seen s)) eqn:E.
      + apply mem_true in E. rewrite H1. split; [auto|]. intros [Hx|[<-|[]]]; [exact Hx|]. apply H1. exact E.
      + rewrite in_app_iff, H1. simpl. reflexivity.
    - intros l1 o' b l2 E. destruct l2 as [|y l2] using rev_ind.
      + apply app_inj_tail in E. destruct E as [<- E]. injection E as <- <-. exact Em.
      + rewrite app_comm_cons, app_assoc in E. apply app_inj_tail in E. destruct E as [E _]. eapply H2. exact E.
    - rewrite existsb_app. simpl. destruct (mem o (pr_seen s)); rewrite ?orb_true_r, ?orb_false_r; auto.
    - rewrite map_app. simpl. intros l1 x l2 E c U. destruct l2 as [|y l2] using rev_ind.
      + apply app_inj_tail in E. destruct E as [<- <-]. apply Hu. exact U.
      + rewrite app_comm_cons, app_assoc in E. apply app_inj_tail in E. destruct E as [E _]. eapply H4; eauto.
  Qed.

  Definition count (l : list oid) : nat := length (filter (fun x => is_expr (h x)) l).

  Lemma print_visit_ok : forall d path o s s', visit handler d path o s = (s', TOk tt) -> inv s ->
    inv s' /\ exists new, pr_lines s' = pr_lines s ++ new /\
      (forall x, In x (map fst new) <-> part_of h o x /\ is_expr_at h x) /\
      (forall l, unfolds h o l -> length new = count l).
  Proof.
    induction d as [|d IH]; intros path o s s' Hv Hi; [discriminate|].
    rewrite print_visit_S in Hv. apply obind_ok in Hv. destruct Hv as (vs & s1 & Hv & E1). injection E1 as E1.
    assert (Hall : forall items s s1 vs,
        visit_all (visit handler d (o :: path)) (o :: path) items s = (s1, TOk vs) -> inv s ->
        inv s1 /\ exists new, pr_lines s1 = pr_lines s ++ new /\
          (forall x, In x (map fst new) <-> exists i, In i items /\ part_of h i x /\ is_expr_at h x) /\
          (forall ls, Forall2 (unfolds h) items ls -> length new = count (concat ls))).
    { clear - IH. induction items as [|i items IHi]; intros s s1 vs Ha Hi.
      - cbn [visit_all] in Ha. injection Ha as -> _. split; [exact Hi|]. exists []. rewrite app_nil_r.
        split; [reflexivity|]. split; [|intros ls F; inversion F; reflexivity].
        intros x. split; [intros []|intros (i & [] & _)].
      - apply visit_all_cons_ok in Ha. destruct Ha as (v & s2 & vs' & _ & Hc & Hrest & _). destruct v.
        apply IH in Hc; [|exact Hi]. destruct Hc as (Hi2 & n1 & E1 & H1 & L1).
        apply IHi in Hrest; [|exact Hi2]. destruct Hrest as (Hi1 & n2 & E2 & H2 & L2).
        split; [exact Hi1|]. exists (n1 ++ n2). split; [rewrite E2, E1, app_assoc; reflexivity|]. split.
        + intros x. rewrite map_app, in_app_iff, H1, H2. split.
          * intros [Hx|(i' & Hx & Hy)]; [exists i; split; [left; reflexivity|exact Hx]|exists i'; split; [right; exact Hx|exact Hy]].
          * intros (i' & [<-|Hx] & Hy); [left; exact Hy|right; exists i'; auto].
        + intros ls F. inversion F as [|? l ? ls' Hl F']; subst. unfold count. cbn [concat].
          rewrite filter_app, !app_length. rewrite (L1 l Hl), (L2 ls' F'). reflexivity. }
    apply Hall in Hv; [|exact Hi]. destruct Hv as (Hi1 & new & En & Hn & Hl). clear Hall.
    assert (Hpart : forall x, part_of h o x /\ is_expr_at h x <->
              (x = o /\ is_expr_at h o) \/ (exists i, In i (children (h o)) /\ part_of h i x /\ is_expr_at h x)).
    { intros x. split.
      - intros [Hp Hx]. inversion Hp as [|? i ? _ Hi' Hix]; subst; [left; auto|]. right. exists i. auto.
      - intros [[-> Hx]|(i & Hi' & Hp & Hx)]; [split; [constructor|exact Hx]|].
        split; [econstructor; [intros []|exact Hi'|exact Hp]|exact Hx]. }
    rewrite <- E1. destruct (is_expr (h o)) eqn:Eo.
    - split.
      + apply print_line_inv; [exact Hi1|]. intros c U. apply uses_entry in U. destruct U as (i & Hi' & Hent).
        apply entry_part in Hent. rewrite En, map_app. apply in_or_app. right. apply Hn. exists i. auto.
      + exists (new ++ [(o, mem o (pr_seen s1))]). split; [unfold print_line; simpl; rewrite En, app_assoc; reflexivity|].
        split.
        * intros x. rewrite map_app, in_app_iff, Hn, Hpart. simpl. split.
          -- intros [Hx|[<-|[]]]; auto.
          -- intros [[-> _]|Hx]; auto.
        * intros l U. inversion U as [o' ls F]; subst o' l. unfold count. simpl. rewrite Eo. simpl.
          rewrite app_length, (Hl ls F). simpl. unfold count. lia.
    - split; [exact Hi1|]. exists new. split; [exact En|]. split.
      + intros x. rewrite Hn, Hpart. split; [auto|]. intros [[_ Hx]|Hx]; [|exact Hx]. unfold is_expr_at in Hx. congruence.
      + intros l U. inversion U as [o' ls F]; subst o' l. unfold count. simpl. rewrite Eo. apply (Hl ls F).
  Qed.

  Variable simple_repr : oid -> string.

  (** What [describe_steps] lists. *)
  Theorem describe_exact size root : closed h size -> root < size -> acyclic h root ->
    exists steps lines, describe_lines h simple_repr size root = Ok lines /\
      (forall x, In x steps <-> part_of h root x /\ is_expr_at h x) /\
      inputs_first h steps /\
      (forall i o, nth_error steps i = Some o ->
         nth_error lines i = Some (if mem o (firstn i steps) then ("( " ++ simple_repr o ++ " )*")%string
                                   else simple_repr o)) /\
      (NoDup steps -> length lines = length steps) /\
      (~ NoDup steps -> length lines = S (length steps) /\
         nth_error lines (length steps) = Some "* Cached, not recomputed") /\
      (forall l, unfolds h root l -> length steps = count l).
  Proof.
    intros Hc Hr Hac. destruct (yields_ok h handler (print_yields h) size root (mk_pr [] [] false) Hc Hr Hac) as (s & v & Ev).
    destruct v. unfold describe_lines. rewrite Ev. cbn [to_res bind].
    assert (H0 : inv (mk_pr [] [] false)).
    { split; [reflexivity|]. split; [intros l1 o b l2 E; destruct l1; discriminate|]. split; [reflexivity|].
      intros l1 o l2 E. destruct l1; discriminate. }
    apply print_visit_ok in Ev; [|exact H0]. destruct Ev as ((H1 & H2 & H3 & H4) & new & En & Hn & Hl).
    simpl in En. rewrite En in *. clear En.
    exists (map fst new). eexists. split; [reflexivity|]. split; [exact Hn|]. split; [exact H4|].
    set (f := fun l : oid * bool => _). assert (Hdup : NoDup (map fst new) <-> existsb snd new = false).
    { clear - H2. induction new as [|[o b] new IH] using rev_ind; [split; [reflexivity|constructor]|].
      assert (Hm : marked_ok new).
      { intros l1 o' b' l2 E. apply (H2 l1 o' b' (l2 ++ [(o, b)])). rewrite E, <- app_assoc. reflexivity. }
      pose proof (H2 new o b [] eq_refl) as Eb. specialize (IH Hm).
      rewrite map_app, existsb_app. simpl. rewrite orb_false_r, orb_false_iff, <- IH, Eb. split.
      - intros Hn. split; [eapply NoDup_app_l; exact Hn|]. apply mem_false. intros Hx.
        apply (NoDup_app_disj _ _ o Hn Hx). left. reflexivity.
      - intros [Hn Hx]. apply mem_false in Hx. apply NoDup_app_intro; [exact Hn|constructor; [intros []|constructor]|].
        intros x Hx' [<-|[]]. contradiction. }
    split; [|split; [|split]].
    - intros i o Eo. assert (Hi : i < length new).
      { rewrite <- (map_length fst new). apply nth_error_Some. rewrite Eo. discriminate. }
      rewrite nth_error_app1 by (rewrite map_length; exact Hi).
      rewrite nth_error_map in Eo. destruct (nth_error new i) as [[o' b]|] eqn:Ei; [|discriminate]. injection Eo as ->.
      rewrite (map_nth_error f i new Ei). destruct (nth_error_split _ _ Ei) as (l1 & l2 & E & El).
      pose proof (H2 l1 o b l2 E) as Eb. unfold f. simpl. rewrite Eb. f_equal.
      rewrite E, map_app, firstn_app, firstn_all2 by (rewrite map_length; lia).
      rewrite map_length, El, Nat.sub_diag. simpl. rewrite app_nil_r. reflexivity.
    - intros Hd. apply Hdup in Hd. rewrite H3, Hd, app_nil_r, !map_length. reflexivity.
    - intros Hd. assert (Ee : existsb snd new = true).
      { destruct (existsb snd new); [reflexivity|]. exfalso. apply Hd, Hdup. reflexivity. }
      rewrite H3, Ee, app_length, !map_length. simpl. split; [lia|].
      rewrite nth_error_app2 by (rewrite map_length; lia). rewrite map_length, Nat.sub_diag. reflexivity.
    - intros l U. rewrite map_length. apply Hl. exact U.
  Qed.
End Printer.

Lemma doubled_acyclic n : acyclic doubled n.
Proof. intros x Hx. eapply wf_no_cycle; [apply doubled_wf|exact Hx]. Qed.

Lemma doubled_steps n x : part_of doubled n x -> x <= n.
Proof.
  intros Hp. induction Hp as [|o c x _ Hc Hp IH]; [apply Nat.le_refl|].
  destruct o as [|o]; [destruct Hc|]. simpl in Hc. unfold oid in *. lia.
Qed.

Lemma doubled_describe repr n : exists lines, describe_lines doubled repr (S n) n = Ok lines /\ 2 ^ n <= length lines.
Proof.
  destruct (describe_exact doubled repr (S n) n (doubled_closed _) (Nat.lt_succ_diag_r n) (doubled_acyclic n))
    as (steps & lines & E & _ & _ & Hs & H1 & H2 & Hl).
  exists lines. split; [exact E|]. destruct (unfolds_total doubled n (doubled_wf n)) as (l & U).
  pose proof (Hl l U) as Es. unfold count in Es.
  assert (Ef : filter (fun x => is_expr (doubled x)) l = l).
  { clear. induction l as [|x l IH]; simpl; [reflexivity|]. destruct x; simpl; f_equal; exact IH. }
  rewrite Ef, (doubled_unfolds n l U) in Es.
  assert (Hlen : length steps <= length lines).
  { destruct (le_lt_dec (length steps) (length lines)) as [|Hlt]; [assumption|]. exfalso.
    destruct (nth_error steps (length lines)) as [o|] eqn:Eo; [|apply nth_error_None in Eo; lia].
    apply Hs in Eo. assert (length lines < length lines); [|lia]. apply nth_error_Some. rewrite Eo. discriminate. }
  rewrite Nat.pow_succ_r' in Es. assert (2 ^ n <> 0) by (apply Nat.pow_nonzero; discriminate). lia.
Qed.

(** *** Labels *)

(** Text that can be put in an XML document: no raw [<], and [&] only in entities. *)
Definition entities : list (string * ascii) :=
  [("&amp;", "&"%char); ("&lt;", "<"%char); ("&gt;", ">"%char); ("&quot;", """"%char); ("&#x27;", "'"%char)].
(** [shows s t]: [s] is displayed as [t]. *)
Inductive shows : string -> string -> Prop :=
| shows_nil : shows "" ""
| shows_char c s t : c <> "<"%char -> c <> "&"%char -> shows s t -> shows (String c s) (String c t)
| shows_entity e c s t : In (e, c) entities -> shows s t -> shows (e ++ s)%string (String c t).
Inductive shows_br : string -> string -> Prop :=
| shows_br_text s t : shows s t -> shows_br s t
| shows_br_break s1 t1 s2 t2 : shows s1 t1 -> shows_br s2 t2 ->
    shows_br (s1 ++ "<br />" ++ s2)%string (t1 ++ String newline t2)%string.

Lemma str_app_assoc (a b c : string) : ((a ++ b) ++ c = a ++ (b ++ c))%string.
Proof. induction a as [|x a IH]; simpl; [reflexivity|]. f_equal. exact IH. Qed.

Lemma shows_app s1 t1 s2 t2 : shows s1 t1 -> shows s2 t2 -> shows (s1 ++ s2)%string (t1 ++ t2)%string.
Proof.
  intros H1 H2. induction H1 as [|c s t Hc1 Hc2 H1 IH|e c s t He H1 IH]; simpl.
  - exact H2.
  - constructor; assumption.
  - rewrite str_app_assoc. constructor; assumption.
Qed.

Lemma eqb_of_char (a b : ascii) : eqb_of a b = true <-> a = b.
Proof. unfold eqb_of. destruct (eqd a b); split; congruence. Qed.

Lemma escape_shows s : shows (escape s) s.
Proof.
  induction s as [|c s IH]; simpl; [constructor|]. unfold escape_char.
  destruct (eqb_of c "&"%char) eqn:E1.
  { apply eqb_of_char in E1. subst. apply shows_entity; [unfold entities; simpl; auto|exact IH]. }
  destruct (eqb_of c "<"%char) eqn:E2.
  { apply eqb_of_char in E2. subst. apply shows_entity; [unfold entities; simpl; auto|exact IH]. }
  destruct (eqb_of c ">"%char) eqn:E3.
  { apply eqb_of_char in E3. subst. apply shows_entity; [unfold entities; simpl; auto|exact IH]. }
  destruct (eqb_of c """"%char) eqn:E4.
  { apply eqb_of_char in E4. subst. apply shows_entity; [unfold entities; simpl; auto|exact IH]. }
  destruct (eqb_of c "'"%char) eqn:E5.
  { apply eqb_of_char in E5. subst. apply shows_entity; [unfold entities; simpl; tauto|exact IH]. }
  simpl. constructor; [| |exact IH].
  - intros ->. discriminate.
  - intros ->. discriminate.
Qed.

(** No raw markup in the text. *)
Fixpoint plain_text (s : string) : Prop :=
  match s with
  | "" => True
  | String c s' => c <> "<"%char /\ c <> "&"%char /\ c <> newline /\ plain_text s'
  end.
Fixpoint no_newline (s : string) : Prop :=
  match s with "" => True | String c s' => c <> newline /\ no_newline s' end.

Lemma escape_no_newline s : no_newline s -> no_newline (escape s).
Proof.
  assert (Happ : forall a b, no_newline a -> no_newline b -> no_newline (a ++ b)%string).
  { induction a as [|c a IH]; simpl; [auto|]. intros b [H1 H2] H3. auto. }
  induction s as [|c s IH]; simpl; [auto|]. intros [Hc Hs]. apply Happ; [|auto]. unfold escape_char.
  destruct (eqb_of c "&"%char); [simpl; repeat split; discriminate|].
  destruct (eqb_of c "<"%char); [simpl; repeat split; discriminate|].
  destruct (eqb_of c ">"%char); [simpl; repeat split; discriminate|].
  destruct (eqb_of c """"%char); [simpl; repeat split; discriminate|].
  destruct (eqb_of c "'"%char); [simpl; repeat split; discriminate|]. simpl. auto.
Qed.

Lemma with_br_id s : no_newline s -> with_br s = s.
Proof.
  induction s as [|c s IH]; simpl; [reflexivity|]. intros [Hc Hs].
  destruct (eqb_of c newline) eqn:E; [apply eqb_of_char in E; congruence|]. rewrite IH by exact Hs. reflexivity.
Qed.
Lemma with_br_break a b : no_newline a -> with_br (a ++ String newline b)%string = (a ++ "<br />" ++ with_br b)%string.
Proof.
  induction a as [|c a IH]; intros Ha.
  - reflexivity.
  - destruct Ha as [Hc Ha]. cbn [append with_br]. destruct (eqb_of c newline) eqn:E; [apply eqb_of_char in E; congruence|].
    rewrite IH by exact Ha. reflexivity.
Qed.
Lemma plain_shows s : plain_text s -> shows s s /\ no_newline s.
Proof.
  induction s as [|c s IH]; simpl; [intros _; split; [constructor|exact I]|]. intros (H1 & H2 & H3 & H4).
  destruct (IH H4) as [H5 H6]. split; [constructor; assumption|auto].
Qed.

(** What is displayed for a step. *)
Definition shown_name (name : option string) : string :=
  match name with Some n => String newline n | None => "" end.
Definition shown_mark (is_X is_y : bool) : string :=
  if is_X then "X: " else if is_y then "y: " else "".

Theorem label_shows repr name is_X is_y : no_newline repr ->
  (forall n, name = Some n -> plain_text n) ->
  exists body, node_label repr name is_X is_y true = ("<<FONT COLOR=""#1a0dab""><B>" ++ body ++ "</B></FONT>>")%string /\
    shows_br body (shown_mark is_X is_y ++ repr ++ shown_name name)%string.
Proof.
  intros Hr Hn. unfold node_label. eexists. split; [reflexivity|].
  set (m := shown_mark is_X is_y).
  assert (Hm : plain_text m).
  { unfold m, shown_mark. destruct is_X; [|destruct is_y]; simpl; repeat split; discriminate. }
  destruct (plain_shows m Hm) as [Hms Hmn].
  assert (El : forall l, (if is_X then "X: " ++ l else if is_y then "y: " ++ l else l)%string = (m ++ l)%string).
  { intros l. unfold m, shown_mark. destruct is_X; [|destruct is_y]; reflexivity. }
  rewrite El. assert (Happ : forall a b, no_newline a -> no_newline b -> no_newline (a ++ b)%string).
  { induction a as [|c a IH]; simpl; [auto|]. intros b [H1 H2] H3. auto. }
  destruct name as [n|].
  - destruct (plain_shows n (Hn n eq_refl)) as [Hns Hnn].
    rewrite <- str_app_assoc, with_br_break by (apply Happ; [exact Hmn|apply escape_no_newline; exact Hr]).
    rewrite (with_br_id n Hnn). unfold shown_name. rewrite <- (str_app_assoc m repr). apply shows_br_break.
    + apply shows_app; [exact Hms|apply escape_shows].
    + constructor. exact Hns.
  - rewrite with_br_id by (apply Happ; [exact Hmn|apply escape_no_newline; exact Hr]). unfold shown_name.
    replace (m ++ repr ++ "")%string with (m ++ repr)%string.
    + constructor. apply shows_app; [exact Hms|apply escape_shows].
    + f_equal. clear. induction repr as [|c s IH]; simpl; congruence.
Qed.

(** A raw [<] starts a line break. *)
Fixpoint breaks_only (s : string) : bool :=
  match s with
  | "" => true
  | String c s' => (negb (eqb_of c "<"%char) || String.prefix "br />" s') && breaks_only s'
  end.
Lemma shows_breaks s t r : shows s t -> breaks_only r = true -> breaks_only (s ++ r)%string = true.
Proof.
  intros Hs Hr. induction Hs as [|c s t Hc1 Hc2 Hs IH|e c s t He Hs IH].
  - exact Hr.
  - cbn [append breaks_only]. rewrite IH. destruct (eqb_of c "<"%char) eqn:E; [apply eqb_of_char in E; congruence|reflexivity].
  - rewrite str_app_assoc. simpl in He.
    destruct He as [He|[He|[He|[He|[He|[]]]]]]; injection He as <- <-; simpl; exact IH.
Qed.
Lemma shows_br_breaks s t : shows_br s t -> breaks_only s = true.
Proof.
  assert (Hnil : forall s : string, (s ++ "" = s)%string) by (induction s0 as [|c s0 IH]; simpl; congruence).
  intros Hs. induction Hs as [s t Hs|s1 t1 s2 t2 H1 H2 IH].
  - rewrite <- (Hnil s). eapply shows_breaks; [exact Hs|reflexivity].
  - eapply shows_breaks; [exact H1|]. simpl. rewrite IH. destruct s2; reflexivity.
Qed.
