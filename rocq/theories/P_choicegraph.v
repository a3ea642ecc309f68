(** Properties C31 and C62: the choices of an expression. *)
From Verif Require Import Base L_dict M_traverse M_expr L_expr1 L_expr2 L_expr5 L_expr7 M_grid L_grid M_choicegraph
  L_conflicts L_choicegraph L_choicegraph2 L_choicegraph3.
Open Scope string_scope.
Open Scope list_scope.
Open Scope nat_scope.

(** C31. The graph of choices from which grids are built describes the expression: all its
    choices are numbered, and a choice is below an outcome of another exactly if it is used
    there, directly or in what [.match()] gives for this outcome. *)
Theorem C31_graph_of_expression : forall {V K} `{EqD K} (hash_obj : oid -> res K) (h : heap V K) size root,
  closed h size -> root < size -> acyclic h root ->
  choices_ok hash_obj h root -> no_conflict h root ->
  exists short G, choice_graph hash_obj h size root = Ok (short, G) /\ graph_of hash_obj h root short G.
Proof. exact @choice_graph_spec. Qed.
Print Assumptions C31_graph_of_expression.

Theorem C31_graph_well_formed : forall {V K} `{EqD K} (hash_obj : oid -> res K) (h : heap V K) root short G,
  graph_of hash_obj h root short G -> well_formed G.
Proof. exact @graph_well_formed. Qed.
Print Assumptions C31_graph_well_formed.

(** C62. Settings of the choices of an expression that agree on the active ones are
    equivalent. *)
Theorem C62_inactive_choices_do_not_matter :
  forall {V K F} `{EqD K} (ext : externals V K F) (hash_obj : oid -> res K) (h1 h2 : heap V K) size root e
    requested (s : st V F) short G,
  closed h1 size -> root < size -> acyclic h1 root ->
  choices_ok hash_obj h1 root -> graph_of hash_obj h1 root short G ->
  choices_free h1 root e -> real_mode requested <> "preview" ->
  lookup_by_value ext hash_obj h1 root e (real_mode requested) (fitted s) ->
  same_but_settings h1 h2 ->
  (forall i c, active G (setting h1 short) i -> nth_error short i = Some c -> h1 c = h2 c) ->
  snd (evaluate ext h1 size root requested e true s) = snd (evaluate ext h2 size root requested e true s).
Proof. exact @inactive_choices. Qed.
Print Assumptions C62_inactive_choices_do_not_matter.

(** Consequence for searches: each setting belongs to one sub-grid, and has the same results
    as all the settings that agree on the choices listed there. *)
Theorem C62_grid_is_exhaustive :
  forall {V K F} `{EqD K} (ext : externals V K F) (hash_obj : oid -> res K) (h1 : heap V K) size root,
  closed h1 size -> root < size -> acyclic h1 root ->
  choices_ok hash_obj h1 root -> no_conflict h1 root ->
  exists short G gs, choice_graph hash_obj h1 size root = Ok (short, G) /\ param_grid G = Ok gs /\
    (valid G (setting h1 short) ->
     exists before g after, gs = before ++ g :: after /\ covered (setting h1 short) g /\
       (forall g', In g' (before ++ after) -> ~ covered (setting h1 short) g') /\
       forall h2 e requested (s : st V F),
         choices_free h1 root e -> real_mode requested <> "preview" ->
         lookup_by_value ext hash_obj h1 root e (real_mode requested) (fitted s) ->
         same_but_settings h1 h2 ->
         (forall i c, In i (dkeys g) -> nth_error short i = Some c -> h1 c = h2 c) ->
         snd (evaluate ext h1 size root requested e true s)
         = snd (evaluate ext h2 size root requested e true s)).
Proof. exact @grid_exhaustive. Qed.
Print Assumptions C62_grid_is_exhaustive.

(** The sum of a choice [top] (1) between the choice [inner] (3) and 40, and of
    [other.match({60: num, 90: 40})] where [other] (10) and [num] (12) are choices. *)
Definition exc_heap (top inner other : nat) : heap nat nat := fun o =>
  match o with
  | 0 => OExpr (IOp "add" [("a", 1); ("b", 7)]) None false false
  | 1 => OChoice (Some "top") 2 (Some top)
  | 2 => OSeq "list" [3; 4]
  | 3 => OChoice (Some "inner") 5 (Some inner)
  | 4 => OValue 40
  | 5 => OSeq "list" [6; 9]
  | 6 => OValue 60
  | 7 => OChoiceMatch 10 8
  | 8 => OMap "dict" [(60, 12); (90, 4)]
  | 9 => OValue 90
  | 10 => OChoice (Some "other") 5 (Some other)
  | 12 => ONumChoice (Some "num") 5 None
  | _ => OValue 0
  end.
Definition exc_hash (o : oid) : res nat :=
  match o with 6 => Ok 60 | 9 => Ok 90 | _ => Err TypeError end.
Lemma exc_closed a b c : closed (exc_heap a b c) 13.
Proof. apply closed_by_check. vm_compute. reflexivity. Qed.
Lemma exc_acyclic a b c : acyclic (exc_heap a b c) 0.
Proof. eapply (acyclic_by_nodes _ 13); [apply exc_closed|lia|vm_compute; reflexivity]. Qed.
Lemma exc_part a b c x : part_of (exc_heap a b c) 0 x -> x < 13.
Proof. intros Hp. eapply (closed_part _ 13); [apply exc_closed| |exact Hp]. lia. Qed.

Lemma exc_match a b c x d m : x < 13 -> exc_heap a b c x = OChoiceMatch d m -> x = 7 /\ d = 10 /\ m = 8.
Proof.
  intros Hx E. do 13 (destruct x as [|x]; [cbn in E; try discriminate; injection E as <- <-; auto|]). exfalso. lia.
Qed.

Lemma exc_choices_ok a b c : choices_ok exc_hash (exc_heap a b c) 0.
Proof.
  assert (Ho : forall x outs items, exc_heap a b c x = OChoice (match x with 1 => Some "top" | 3 => Some "inner" | _ => Some "other" end) outs
     (match x with 1 => Some a | 3 => Some b | _ => Some c end) -> exc_heap a b c outs = OSeq "list" items -> has_outcomes (exc_heap a b c) x items).
  { intros x outs items E1 E2. eexists. eexists. eexists. eexists. split; [exact E1|exact E2]. }
  split.
  - intros x name outs ch Hp E. apply exc_part in Hp.
    do 13 (destruct x as [|x]; [cbn in E; try discriminate; eexists; eapply Ho; reflexivity|]). exfalso. lia.
  - intros x d m Hp E. apply exc_part in Hp.
    destruct (exc_match a b c x d m Hp E) as (-> & -> & ->).
    exists [6; 9], "dict", [(60, 12); (90, 4)]. split; [eapply Ho; reflexivity|]. split; [reflexivity|].
    intros w [<-|[<-|[]]]; eexists; eexists; eexists; eexists; repeat split; reflexivity.
  - intros x d m t Hp E Ht. apply exc_part in Hp.
    destruct (exc_match a b c x d m Hp E) as (-> & -> & ->).
    assert (Hi : has_outcomes (exc_heap a b c) 10 [6; 9]) by (eapply Ho; reflexivity).
    destruct Ht as [<-|[<-|[]]]; [exists 0|exists 1]; right; eexists; eexists; eexists;
      (split; [reflexivity|split; [exact Hi|split; [reflexivity|]]]); eexists; eexists; eexists; repeat split; reflexivity.
Qed.

Lemma exc_no_conflict a b c : no_conflict (exc_heap a b c) 0.
Proof.
  intros x y l Px Py Cx Cy. apply exc_part in Px, Py.
  assert (E : forall z, z < 13 -> carries (exc_heap a b c) z l ->
     z = match l with Named n => if eqb_of n "top" then 1 else if eqb_of n "inner" then 3 else if eqb_of n "other" then 10 else 12 | _ => 0 end).
  { intros z Hz Hc. destruct l as [n| |]; do 13 (destruct z as [|z]; [cbn in Hc; try contradiction; try discriminate;
      try (injection Hc as <-; reflexivity)|]); exfalso; lia. }
  rewrite (E x Px Cx), (E y Py Cy). reflexivity.
Qed.

Lemma exc_lookup a b c e mode f : lookup_by_value ex_ext exc_hash (exc_heap a b c) 0 e mode f.
Proof.
  intros x d m items w v key Hp E Hi Hw [dd Ed] Hk. apply exc_part in Hp.
  destruct (exc_match a b c x d m Hp E) as (-> & -> & ->).
  destruct Hi as (n & ou & ch & ty & E1 & E2). cbn in E1. injection E1 as <- <- <-. cbn in E2. injection E2 as <- <-.
  unfold ev in Ed. destruct dd as [|dd]; [discriminate|].
  destruct Hw as [<-|[<-|[]]]; cbn in Ed; injection Ed as <-; cbn in Hk; injection Hk as <-; reflexivity.
Qed.

(** Choices are numbered 0: inner, 1: top, 2: other, 3: num. With [top] set to 40, [inner] is
    not active and has no influence. *)
Example C62_example :
  let h1 := exc_heap 1 0 1 in let h2 := exc_heap 1 1 1 in let h3 := exc_heap 0 1 1 in
  choice_graph exc_hash h1 13 0 = Ok ([3; 1; 10; 12], mk_cgraph
    [(0, Enum 2 (Some 0)); (1, Enum 2 (Some 1)); (2, Enum 2 (Some 1)); (3, Numeric 5 None)]
    [(None, [1; 2]); (Some (1, 0), [0]); (Some (2, 0), [3])] []) /\
  match choice_graph exc_hash h1 13 0 with
  | Ok (_, G) => param_grid G = Ok
      [[(1, Indices [0]); (0, Indices [0; 1]); (2, Indices [0]); (3, Whole)];
       [(1, Indices [0]); (0, Indices [0; 1]); (2, Indices [1])];
       [(1, Indices [1]); (2, Indices [0]); (3, Whole)];
       [(1, Indices [1]); (2, Indices [1])]]
  | Err _ => False
  end /\
  map (fun h => snd (evaluate ex_ext h 13 0 "transform" [] true ex_st)) [h1; h2; h3]
  = [Ok (TheValue 80); Ok (TheValue 80); Ok (TheValue 130)] /\
  choices_ok exc_hash h1 0 /\ no_conflict h1 0 /\ choices_free h1 0 [] /\ same_but_settings h1 h2 /\
  (forall e mode f, lookup_by_value ex_ext exc_hash h1 0 e mode f).
Proof.
  cbn zeta. split; [vm_compute; reflexivity|]. split; [vm_compute; reflexivity|]. split; [vm_compute; reflexivity|].
  split; [apply exc_choices_ok|]. split; [apply exc_no_conflict|]. split; [intros c n _ _ _; reflexivity|].
  split; [|intros; apply exc_lookup].
  intros o. do 13 (destruct o as [|o]; [cbn; auto|]). reflexivity.
Qed.
