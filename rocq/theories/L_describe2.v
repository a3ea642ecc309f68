(** Descriptions of parameter grids: the configurations they show. *)
From Verif Require Import Base L_dict M_labels M_grid L_grid M_describe L_describe.
From Coq Require Import NArith List Lia.
Import ListNotations.
Open Scope string_scope.
Open Scope list_scope.
Open Scope nat_scope.
Set Default Proof Using "Type".

(** ** Specification *)
(** objects whose class names and integers have no line break; their [repr] can have some *)
Fixpoint tame (o : obj) : Prop :=
  match o with
  | OStr _ => True
  | OInt d => ~ In 10%N d
  | OInst c _ => ~ In 10%N c
  | OList l | OTuple l | OChoice _ _ l _ => (fix all (l : list obj) := match l with [] => True | x :: l' => tame x /\ all l' end) l
  | ODict l => (fix all (l : list (obj * obj)) := match l with [] => True | (x, v) :: l' => tame x /\ tame v /\ all l' end) l
  end.
Definition tame_info (c : info) : Prop :=
  match c with
  | Listed _ outcomes => Forall tame outcomes
  | Range _ low high _ n_steps _ => tame low /\ tame high /\ match n_steps with None => True | Some k => tame k end
  end.

Section Spec.
  Variable printable : N -> bool.
  (** short strings, and other short objects whose [repr] is an item by itself *)
  Inductive plain : obj -> item -> Prop :=
  | plain_str s : valid_text s -> length (repr_str printable s) <= 30 -> plain (OStr s) (Quoted s)
  | plain_int d : bare d -> length d <= 40 -> plain (OInt d) (Bare d)
  | plain_inst c r : bare r -> length r <= 50 -> ~ In 10%N r -> plain (OInst c r) (Bare r).

  (** the item that shows an outcome: its name, or its value *)
  Definition outcome_item (c : info) (i : nat) (it : item) : Prop :=
    match c with
    | Listed (Some ns) _ => exists n, nth_error ns i = Some n /\ valid_text n /\ it = Quoted n
    | Listed None os => exists o, nth_error os i = Some o /\ plain o it
    | Range _ _ _ _ _ _ => False
    end.
  (** choices whose outcomes are all shown, and differently *)
  Definition readable (c : info) : Prop :=
    match c with
    | Listed (Some ns) _ => NoDup ns /\ Forall valid_text ns
    | Listed None os => length os <= 6 /\ exists its, Forall2 plain os its /\ NoDup its
    | Range _ _ _ _ _ _ => True
    end.

  Context {V : Type}.
  Variable show_value : V -> text.

  (** what is known of a choice agrees with its place in the graph *)
  Definition agrees (ch : choice V) (c : info) : Prop :=
    match ch, c with
    | Enum n chosen, Listed names outcomes =>
        0 < n /\ length outcomes = n /\ (forall k, chosen = Some k -> k < n) /\
        match names with Some ns => length ns = n | None => True end
    | Numeric _ _, Range _ _ _ _ _ _ => True
    | _, _ => False
    end.

  (** the text [d] shows the range [v] of a choice *)
  Definition shown (c : info) (v : range V) (d : text) : Prop :=
    match c, v with
    | Range to_int low high log n_steps name, Whole => d = repr_numeric printable to_int low high log n_steps name
    | Range _ _ _ _ _ _, Single x => d = of_string "[" ++ show_value x ++ of_string "]"
    | Listed _ _, Indices l =>
        readable c -> exists its, read_items d = Some its /\ Forall2 (outcome_item c) l its
    | _, _ => False
    end.

  Variable G : cgraph V.
  Variable choices : dict nat info.
  Variable names : dict nat text.

  Record inputs_ok : Prop := {
    io_wf : well_formed G;
    io_choice : forall c ch, dget c (cg_choices G) = Some ch ->
      exists i n, dget c choices = Some i /\ agrees ch i /\ tame_info i /\ dget c names = Some n;
    io_clear : forall c n, dget c names = Some n -> ~ In 10%N n;
    io_value : forall x, ~ In 10%N (show_value x)
  }.

  (** the block shows a configuration: its lines are those of the choices that are active, and they show the outcomes *)
  Definition shows_configuration (sigma : nat -> nat) (b : block) : Prop :=
    (forall line, In line b -> exists c i n d, line = name_line n d /\
       active G sigma c /\ dget c names = Some n /\ dget c choices = Some i /\
       (forall nm os, i = Listed nm os ->
          exists its it, read_items d = Some its /\ outcome_item i (sigma c) it /\ In it its)) /\
    (forall c, active G sigma c -> exists n d, dget c names = Some n /\ In (name_line n d) b).

  (** the name at the beginning of a line is that of one choice *)
  Definition names_apart : Prop := forall c c' n n' d d', dget c names = Some n -> dget c' names = Some n' ->
    name_line n d = name_line n' d' -> c = c'.
End Spec.

(** ** Short representations fit on a line *)
Section NoNewline.
  Variable printable : N -> bool.
  Notation nl t := (~ In 10%N t).

  Lemma nl_app (a b : text) : nl a -> nl b -> nl (a ++ b).
  Proof. intros Ha Hb H. apply in_app_or in H. destruct H; auto. Qed.
  Lemma nl_firstn k (a : text) : nl a -> nl (firstn k a).
  Proof. intros Ha H. apply Ha. rewrite <- (firstn_skipn k a). apply in_or_app. auto. Qed.
  Lemma nl_skipn k (a : text) : nl a -> nl (skipn k a).
  Proof. intros Ha H. apply Ha. rewrite <- (firstn_skipn k a). apply in_or_app. auto. Qed.
  Ltac lit := cbn; intuition discriminate.
  Lemma nl_dots : nl dots. Proof. lit. Qed.
  Lemma nl_comma : nl comma. Proof. lit. Qed.
  Lemma nl_cut_ends k (a : text) : nl a -> nl (cut_ends k a).
  Proof. intros H. unfold cut_ends, tail_slice. cbv zeta. apply nl_app; [apply nl_firstn, H|apply nl_app; [exact nl_dots|apply nl_skipn, H]]. Qed.
  Lemma nl_cut k (a : text) : nl a -> nl (cut k a).
  Proof. intros H. unfold cut. destruct (k <? length a); [apply nl_cut_ends|]; exact H. Qed.
  Lemma nl_short_str k s : nl (short_str printable k s).
  Proof.
    unfold short_str. cbv zeta. destruct (_ <? _); [apply nl_cut_ends|]; apply repr_str_no_newline.
  Qed.
  Lemma nl_instance c r : nl c -> nl (short_instance c r).
  Proof.
    intros Hc. unfold short_instance. destruct (mem newline r) eqn:E; cbn [orb].
    - apply nl_app; [exact Hc|lit].
    - destruct (50 <? length r); [apply nl_app; [exact Hc|lit]|]. apply nl_cut. apply (proj1 (mem_false _ _)). exact E.
  Qed.
  Lemma nl_join l : (forall x, In x l -> nl x) -> nl (join comma l).
  Proof.
    induction l as [|x l IH]; intros H; [intros []|]. destruct l as [|y l].
    - apply H. left. reflexivity.
    - change (join comma (x :: y :: l)) with (x ++ comma ++ join comma (y :: l)).
      apply nl_app; [apply H; left; reflexivity|]. apply nl_app; [exact nl_comma|]. apply IH. intros z Hz. apply H. right. exact Hz.
  Qed.
  Lemma nl_pieces (l : list text) (b : bool) : (forall x, In x l -> nl x) ->
    forall x, In x (l ++ (if b then [dots] else [])) -> nl x.
  Proof.
    intros H x Hx. apply in_app_or in Hx. destruct Hx as [Hx|Hx]; [exact (H x Hx)|].
    destruct b; [destruct Hx as [<-|[]]; exact nl_dots|destruct Hx].
  Qed.
  Lemma nl_iterable level n mx pieces o c tr : (forall x, In x pieces -> nl x) -> nl o -> nl c -> nl tr ->
    nl (iterable level n mx pieces o c tr).
  Proof.
    intros H Ho Hc Ht. unfold iterable. destruct (_ && _).
    - apply nl_app; [exact Ho|apply nl_app; [exact nl_dots|exact Hc]].
    - apply nl_app; [exact Ho|]. apply nl_app; [apply nl_join, nl_pieces, H|].
      apply nl_app; [|exact Hc]. destruct (n =? 1); [exact Ht|intros []].
  Qed.
  Lemma nl_dict level n mx pieces : (forall x, In x pieces -> nl x) -> nl (repr_dict level n mx pieces).
  Proof.
    intros H. unfold repr_dict. destruct (n =? 0); [lit|]. destruct (level =? 0); [lit|].
    apply nl_app; [lit|]. apply nl_app; [apply nl_join, nl_pieces, H|lit].
  Qed.
  Lemma nl_with_name args name : (forall x, In x args -> nl x) -> nl (with_name printable args name).
  Proof.
    intros H. unfold with_name. apply nl_join. intros x Hx. apply in_app_or in Hx. destruct Hx as [Hx|Hx]; [exact (H x Hx)|].
    destruct name as [n|]; [|destruct Hx]. destruct Hx as [<-|[]]. apply nl_app; [lit|apply nl_short_str].
  Qed.

  Section ObjInd.
    Variable P : obj -> Prop.
    Hypothesis H1 : forall s, P (OStr s).
    Hypothesis H2 : forall d, P (OInt d).
    Hypothesis H3 : forall c r, P (OInst c r).
    Hypothesis H4 : forall l, Forall P l -> P (OList l).
    Hypothesis H5 : forall l, Forall P l -> P (OTuple l).
    Hypothesis H6 : forall l, Forall (fun kv => P (fst kv) /\ P (snd kv)) l -> P (ODict l).
    Hypothesis H7 : forall c ns l n, Forall P l -> P (OChoice c ns l n).
    Fixpoint obj_induction (o : obj) : P o :=
      let all := fix all (l : list obj) : Forall P l :=
        match l with [] => Forall_nil _ | x :: l' => Forall_cons x (obj_induction x) (all l') end in
      match o with
      | OStr s => H1 s
      | OInt d => H2 d
      | OInst c r => H3 c r
      | OList l => H4 l (all l)
      | OTuple l => H5 l (all l)
      | ODict l => H6 l ((fix go (l : list (obj * obj)) : Forall (fun kv => P (fst kv) /\ P (snd kv)) l :=
          match l with
          | [] => Forall_nil _
          | (x, v) :: l' => Forall_cons (x, v) (conj (obj_induction x) (obj_induction v)) (go l')
          end) l)
      | OChoice c ns l n => H7 c ns l n (all l)
      end.
  End ObjInd.

  Lemma nl_go lvl (l : list obj) : Forall (fun x => forall level, tame x -> nl (repr1 printable level x)) l ->
    (fix all (l : list obj) := match l with [] => True | x :: l' => tame x /\ all l' end) l -> forall k x,
    In x ((fix go k (l : list obj) := match k, l with S k', x :: l' => repr1 printable lvl x :: go k' l' | _, _ => [] end) k l) ->
    nl x.
  Proof.
    induction 1 as [|y l Hy _ IH]; intros Ht k x Hx; [destruct k; destruct Hx|].
    destruct k as [|k]; [destruct Hx|]. destruct Ht as [Hty Ht]. destruct Hx as [<-|Hx].
    - apply Hy. exact Hty.
    - exact (IH Ht k x Hx).
  Qed.

  Lemma nl_go_dict lvl (l : list (obj * obj)) :
    Forall (fun kv => (forall level, tame (fst kv) -> nl (repr1 printable level (fst kv))) /\
                      (forall level, tame (snd kv) -> nl (repr1 printable level (snd kv)))) l ->
    (fix all (l : list (obj * obj)) := match l with [] => True | (x, v) :: l' => tame x /\ tame v /\ all l' end) l -> forall k x,
    In x ((fix go k (l : list (obj * obj)) :=
              match k, l with
              | S k', (x, v) :: l' => (repr1 printable lvl x ++ of_string ": " ++ repr1 printable lvl v) :: go k' l'
              | _, _ => []
              end) k l) -> nl x.
  Proof.
    induction 1 as [|[x v] l [Hx Hv] _ IH]; intros Ht k y Hy; [destruct k; destruct Hy|].
    destruct k as [|k]; [destruct Hy|]. destruct Ht as (Tx & Tv & Ht). destruct Hy as [<-|Hy].
    - apply nl_app; [apply Hx, Tx|]. apply nl_app; [lit|apply Hv, Tv].
    - exact (IH Ht k y Hy).
  Qed.

  Lemma repr1_no_newline : forall o level, tame o -> nl (repr1 printable level o).
  Proof.
    apply (obj_induction (fun o => forall level, tame o -> nl (repr1 printable level o))).
    - intros s level _. apply nl_short_str.
    - intros d level H. apply nl_cut. exact H.
    - intros c r level H. apply nl_instance. exact H.
    - intros l Hl level Ht. cbn [repr1]. apply nl_iterable; [exact (nl_go _ l Hl Ht 6)|lit|lit|intros []].
    - intros l Hl level Ht. cbn [repr1]. apply nl_iterable; [exact (nl_go _ l Hl Ht 6)|lit|lit|lit].
    - intros l Hl level Ht. cbn [repr1]. apply nl_dict. exact (nl_go_dict _ l Hl Ht 4).
    - intros c ns l n Hl level Ht. destruct ns as [ns|].
      + replace (repr1 printable level (OChoice c (Some ns) l n)) with (repr1 printable level (OChoice Plain (Some ns) l n))
          by (destruct c; reflexivity).
        cbn [repr1]. apply nl_app; [lit|]. apply nl_app; [|lit]. apply nl_with_name. intros x [<-|[]].
        apply nl_dict. intros x Hx. apply in_map_iff in Hx. destruct Hx as (m & <- & _).
        apply nl_app; [apply nl_short_str|lit].
      + destruct c; cbn [repr1].
        * apply nl_app; [lit|]. apply nl_app; [|lit]. apply nl_with_name. intros x [<-|[]].
          apply nl_iterable; [exact (nl_go _ l Hl Ht 6)|lit|lit|intros []].
        * apply nl_app; [lit|]. apply nl_app; [|lit]. apply nl_with_name. intros x Hx.
          destruct l as [|y l]; [destruct Hx|]. destruct Hx as [<-|[]]. inversion Hl; subst. destruct Ht as [Ht _]. auto.
        * apply nl_app; [lit|]. apply nl_app; [|lit]. apply nl_with_name. intros x [].
  Qed.

  Lemma nl_numeric to_int low high log n_steps name : tame low -> tame high ->
    match n_steps with None => True | Some k => tame k end -> nl (repr_numeric printable to_int low high log n_steps name).
  Proof.
    intros Hl Hh Hn. unfold repr_numeric. apply nl_app; [destruct to_int; lit|]. apply nl_app; [|lit].
    apply nl_with_name. intros x Hx. cbn [app] in Hx. destruct Hx as [<-|[<-|Hx]]; [apply repr1_no_newline, Hl|apply repr1_no_newline, Hh|].
    apply in_app_or in Hx. destruct Hx as [Hx|Hx].
    - destruct log; [destruct Hx as [<-|[]]; lit|destruct Hx].
    - destruct n_steps as [k|]; [|destruct Hx]. destruct Hx as [<-|[]]. apply nl_app; [lit|apply repr1_no_newline, Hn].
  Qed.
End NoNewline.

(** ** Entries of sub-grids *)
Section Entries.
  Context {V : Type}.
  Variable G : cgraph V.
  Variable Q : nat -> range V -> Prop.
  Hypothesis HQ : forall c r, choice_range G c = Ok r -> Q c r.
  Hypothesis HQ1 : forall c l i, choice_range G c = Ok (Indices l) -> In i l -> Q c (Indices [i]).

  Definition entries (g : grid V) : Prop := NoDup (dkeys g) /\ forall c r, dget c g = Some r -> Q c r.
  Lemma entries_set g c r : entries g -> Q c r -> entries (dset c r g).
  Proof.
    intros [H1 H2] Hr. split; [apply dset_NoDup, H1|]. intros c' r'. rewrite dget_dset_if.
    destruct (eqd c' c) as [->|]; [intros E; injection E as <-; exact Hr|apply H2].
  Qed.
  Lemma extract_entries ch top : forall g g', entries g -> extract G ch top g = Ok g' -> entries g'.
  Proof using HQ.
    induction top as [|c top IH]; intros g g' H E; [injection E as <-; exact H|]. cbn [extract] in E.
    destruct (has_children G ch c) as [[|]|]; [|cbn [bind] in E|discriminate].
    - exact (IH _ _ H E).
    - destruct (choice_range G c) as [r|] eqn:Er; [|discriminate]. cbn [bind] in E.
      exact (IH _ _ (entries_set g c r H (HQ _ _ Er)) E).
  Qed.
  Lemma expand_entries : forall fuel ch g ch' gs, entries g -> expand G fuel ch g = (ch', Ok gs) -> Forall entries gs.
  Proof using HQ HQ1.
    induction fuel as [|fuel IH]; intros ch g ch' gs Hg E; [discriminate|]. cbn [expand] in E.
    destruct (dget None ch) as [top|]; [|injection E as _ <-; constructor; [exact Hg|constructor]].
    destruct (extract G ch top g) as [g1|] eqn:Ex; [|discriminate]. apply extract_entries in Ex; [|exact Hg].
    destruct (filter _ top) as [|c rest]; [injection E as _ <-; constructor; [exact Ex|constructor]|].
    destruct (choice_range G c) as [[l| |x]|] eqn:Er; try discriminate.
    assert (Hl : forall i, In i l -> Q c (Indices [i])) by (intros i Hi; exact (HQ1 _ _ _ Er Hi)). clear Er.
    revert ch ch' gs E. induction l as [|i l IHl]; intros ch ch' gs E; [injection E as _ <-; constructor|].
    destruct (expand G fuel _ _) as [ch2 [gs1|]] eqn:E1; [|discriminate].
    match goal with H : context [?f l ch2] |- _ => destruct (f l ch2) as [ch3 [gs2|]] eqn:E2; cbn [bind] in H; [|discriminate H] end.
    injection E as _ <-. apply Forall_app. split.
    - apply (IH _ _ _ _ (entries_set g1 c _ Ex (Hl i (or_introl eq_refl))) E1).
    - apply (IHl (fun j Hj => Hl j (or_intror Hj)) ch2 ch3 gs2). exact E2.
  Qed.
  Lemma param_grid_entries gs : param_grid G = Ok gs -> Forall entries gs.
  Proof using HQ HQ1.
    unfold param_grid. destruct (expand G _ _ _) as [ch r] eqn:E. cbn [snd]. intros ->.
    apply expand_entries in E; [exact E|]. split; [constructor|discriminate].
  Qed.
End Entries.
