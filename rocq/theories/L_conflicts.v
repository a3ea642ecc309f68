(** Looking for nodes and for conflicts between them. *)
From Verif Require Import Base L_dict M_traverse L_traverse M_expr L_expr1 L_expr5 M_grid M_choicegraph.
From Coq Require Import Relations.Relation_Operators.
Open Scope string_scope.
Open Scope list_scope.
Open Scope nat_scope.

(** ** Specification *)
Section Spec.
  Context {V K : Type} `{EqD K}.
  Variable h : heap V K.

  (** What must be unique: names, and being marked as X or y. *)
  Inductive label : Type := Named (n : string) | IsX | IsY.

  Definition carries (o : oid) (l : label) : Prop :=
    match h o, l with
    | OExpr _ name _ _, Named n | OChoice name _ _, Named n | ONumChoice name _ _, Named n =>
        name = Some n
    | OExpr _ _ is_X _, IsX => is_X = true
    | OExpr _ _ _ is_y, IsY => is_y = true
    | _, _ => False
    end.

  Definition no_conflict (root : oid) : Prop :=
    forall a b l, part_of h root a -> part_of h root b -> carries a l -> carries b l -> a = b.

  Definition label_of (r : reason) : label :=
    match r with SameName n => Named n | BothX => IsX | BothY => IsY end.

  (** Nodes and choices: what [find_node] considers. *)
  Definition candidate (o : oid) : Prop :=
    match h o with OExpr _ _ _ _ | OChoice _ _ _ | ONumChoice _ _ _ => True | _ => False end.
End Spec.

(** ** Proofs *)
Section Conflicts.
  Context {V K : Type} `{EqD K}.
  Variable h : heap V K.
  Notation handler := (fc_handler h).
  Notation carries := (carries h).

  Definition slot (s : fc_st) (l : label) : option oid :=
    match l with Named n => dget n (fc_names s) | IsX => fc_x s | IsY => fc_y s end.

  Lemma fc_handler_edges o : gen_all (child h o) (handler o).
  Proof.
    assert (Hy : gen_all (child h o) (yield_all (V := unit) (S := fc_st) (children (h o)) (fun _ => GRet tt))).
    { apply gen_all_yield_all; [auto|intros; exact I]. }
    assert (Ha : forall name x y s, gen_all (child h o)
      (fc_add o name x y s (yield_all (children (h o)) (fun _ => GRet tt)))).
    { intros name x y s. unfold fc_add.
      destruct (if x then add_to (fc_x s) o else inl (fc_x s)); [|exact I].
      destruct (if y then add_to (fc_y s) o else inl (fc_y s)); [|exact I].
      destruct name; [|exact Hy]. destruct (add_to _ o); [exact Hy|exact I]. }
    unfold fc_handler. destruct (h o) eqn:Eh; try exact Hy; cbn [gen_all]; intros s; apply Ha.
  Qed.

  (** The effect of [_add]. *)
  Definition entered (o : oid) (s s1 : fc_st) : Prop :=
    fc_found s1 = fc_found s /\
    (forall l, carries o l -> slot s1 l = Some o /\ (slot s l = None \/ slot s l = Some o)) /\
    (forall l, ~ carries o l -> slot s1 l = slot s l).

  Definition clash (o : oid) (s s' : fc_st) : Prop :=
    exists r a, fc_found s' = Some (r, (a, o)) /\ carries o (label_of r) /\
      slot s (label_of r) = Some a /\ a <> o.

  Lemma add_to_spec other o : match add_to other o with
    | inl x => x = Some o /\ (other = None \/ other = Some o)
    | inr a => other = Some a /\ a <> o
    end.
  Proof.
    unfold add_to. destruct other as [a|]; [|auto]. destruct (eqd a o) as [->|Hn]; auto.
  Qed.

  Lemma fc_add_run vc path o name x y s k :
    (forall l, carries o l <-> match l with Named n => name = Some n | IsX => x = true | IsY => y = true end) ->
    (exists s1, run_gen vc path (fc_add o name x y s k) s = run_gen vc path k s1 /\ entered o s s1) \/
    (exists s', run_gen vc path (fc_add o name x y s k) s = (s', TErr (UserError 1)) /\ clash o s s').
  Proof.
    intros Hc. unfold fc_add.
    pose proof (add_to_spec (fc_x s) o) as Hx. pose proof (add_to_spec (fc_y s) o) as Hy.
    destruct (if x then add_to (fc_x s) o else inl (fc_x s)) as [x'|a] eqn:Ex.
    2:{ right. destruct x; [|discriminate]. rewrite Ex in Hx. destruct Hx as [E Hne].
        eexists. split; [reflexivity|]. exists BothX, a. cbn. repeat split; auto. apply Hc. reflexivity. }
    destruct (if y then add_to (fc_y s) o else inl (fc_y s)) as [y'|a] eqn:Ey.
    2:{ right. destruct y; [|discriminate]. rewrite Ey in Hy. destruct Hy as [E Hne].
        eexists. split; [reflexivity|]. exists BothY, a. cbn. repeat split; auto. apply Hc. reflexivity. }
    assert (HX : (x = true -> x' = Some o /\ (fc_x s = None \/ fc_x s = Some o)) /\ (x <> true -> x' = fc_x s)).
    { destruct x; [rewrite Ex in Hx|injection Ex as <-]; split; intros; try congruence; try exact Hx. }
    assert (HY : (y = true -> y' = Some o /\ (fc_y s = None \/ fc_y s = Some o)) /\ (y <> true -> y' = fc_y s)).
    { destruct y; [rewrite Ey in Hy|injection Ey as <-]; split; intros; try congruence; try exact Hy. }
    destruct name as [n|].
    - pose proof (add_to_spec (dget n (fc_names s)) o) as Hn.
      destruct (add_to (dget n (fc_names s)) o) as [n'|a].
      + left. eexists. split; [reflexivity|]. split; [reflexivity|]. split.
        * intros [m| |] Hl; apply Hc in Hl; cbn.
          -- injection Hl as ->. rewrite dget_dset_eq. split; [reflexivity|apply Hn].
          -- apply HX. exact Hl.
          -- apply HY. exact Hl.
        * intros [m| |] Hl; cbn.
          -- apply dget_dset_neq. intros ->. apply Hl. apply Hc. reflexivity.
          -- apply HX. intros E. apply Hl. apply Hc. exact E.
          -- apply HY. intros E. apply Hl. apply Hc. exact E.
      + right. destruct Hn as [E Hne]. eexists. split; [reflexivity|]. exists (SameName n), a. cbn.
        repeat split; auto. apply Hc. reflexivity.
    - left. eexists. split; [reflexivity|]. split; [reflexivity|]. split.
      + intros [m| |] Hl; apply Hc in Hl; cbn.
        * discriminate.
        * apply HX. exact Hl.
        * apply HY. exact Hl.
      + intros [m| |] Hl; cbn.
        * reflexivity.
        * apply HX. intros E. apply Hl. apply Hc. exact E.
        * apply HY. intros E. apply Hl. apply Hc. exact E.
  Qed.

  Lemma fc_visit_S d path o s :
    (exists s1, entered o s s1 /\ visit handler (S d) path o s
       = obind (visit_all (visit handler d (o :: path)) (o :: path) (children (h o)) s1) (fun _ s2 => (s2, TOk tt))) \/
    (exists s', visit handler (S d) path o s = (s', TErr (UserError 1)) /\ clash o s s').
  Proof.
    cbn [visit]. generalize (visit handler d (o :: path)). intros vc. unfold fc_handler.
    assert (Hplain : (forall l, ~ carries o l) -> entered o s s).
    { intros Hn. split; [reflexivity|]. split; [intros l Hl; destruct (Hn l Hl)|auto]. }
    destruct (h o) as [i name isX isY|ty items|ty items|a b c|name outs ch|name df ch|c m|cls p|w] eqn:Eh.
    - cbn [run_gen]. destruct (fc_add_run vc (o :: path) o name isX isY s (yield_all (children (@OExpr V K i name isX isY)) (fun _ => GRet tt)))
        as [(s1 & E & He)|(s' & E & Hc)].
      + intros [n| |]; unfold L_conflicts.carries; rewrite Eh; tauto.
      + left. exists s1. split; [exact He|]. rewrite E, run_gen_yield_all. reflexivity.
      + right. exists s'. rewrite E. auto.
    - left. exists s. split; [apply Hplain; intros [n| |]; unfold L_conflicts.carries; rewrite Eh; auto|].
      rewrite run_gen_yield_all. reflexivity.
    - left. exists s. split; [apply Hplain; intros [n| |]; unfold L_conflicts.carries; rewrite Eh; auto|].
      rewrite run_gen_yield_all. reflexivity.
    - left. exists s. split; [apply Hplain; intros [n| |]; unfold L_conflicts.carries; rewrite Eh; auto|].
      rewrite run_gen_yield_all. reflexivity.
    - cbn [run_gen]. destruct (fc_add_run vc (o :: path) o name false false s (yield_all (children (@OChoice V K name outs ch)) (fun _ => GRet tt)))
        as [(s1 & E & He)|(s' & E & Hc)].
      + intros [n| |]; unfold L_conflicts.carries; rewrite Eh; split; (discriminate || tauto).
      + left. exists s1. split; [exact He|]. rewrite E, run_gen_yield_all. reflexivity.
      + right. exists s'. rewrite E. auto.
    - cbn [run_gen]. destruct (fc_add_run vc (o :: path) o name false false s (yield_all (children (@ONumChoice V K name df ch)) (fun _ => GRet tt)))
        as [(s1 & E & He)|(s' & E & Hc)].
      + intros [n| |]; unfold L_conflicts.carries; rewrite Eh; split; (discriminate || tauto).
      + left. exists s1. split; [exact He|]. rewrite E, run_gen_yield_all. reflexivity.
      + right. exists s'. rewrite E. auto.
    - left. exists s. split; [apply Hplain; intros [n| |]; unfold L_conflicts.carries; rewrite Eh; auto|].
      rewrite run_gen_yield_all. reflexivity.
    - left. exists s. split; [apply Hplain; intros [n| |]; unfold L_conflicts.carries; rewrite Eh; auto|].
      rewrite run_gen_yield_all. reflexivity.
    - left. exists s. split; [apply Hplain; intros [n| |]; unfold L_conflicts.carries; rewrite Eh; auto|].
      rewrite run_gen_yield_all. reflexivity.
  Qed.

  Definition FcPost (P : oid -> Prop) {A} (s : fc_st) (x : fc_st * outcome A) : Prop :=
    match x with
    | (s', TOk _) =>
        (forall l a, slot s l = Some a -> slot s' l = Some a) /\
        (forall l a, slot s' l = Some a -> slot s l = Some a \/ (P a /\ carries a l)) /\
        (forall a l, P a -> carries a l -> slot s' l = Some a)
    | (s', TErr e) =>
        e = UserError 1 /\
        exists r a b, fc_found s' = Some (r, (a, b)) /\ P b /\ carries b (label_of r) /\ a <> b /\
          (slot s (label_of r) = Some a \/ (P a /\ carries a (label_of r)))
    | _ => True
    end.

  Lemma carries_dec o l : carries o l \/ ~ carries o l.
  Proof.
    unfold L_conflicts.carries. destruct (h o) as [i name isX isY|ty items|ty items|a b c|name outs ch|name df ch|c m|cls p|w];
      destruct l as [n| |]; try (right; intros []; fail).
    - destruct (eqd name (Some n)); auto.
    - destruct isX; auto.
    - destruct isY; auto.
    - destruct (eqd name (Some n)); auto.
    - destruct (eqd name (Some n)); auto.
  Qed.

  Lemma fc_visit_post : forall d path o s, FcPost (part_of h o) s (visit handler d path o s).
  Proof.
    induction d as [|d IH]; intros path o s; [exact I|].
    assert (Hall : forall items s1, (FcPost (fun a => exists c, In c items /\ part_of h c a) s1
        (visit_all (visit handler d (o :: path)) (o :: path) items s1))).
    { induction items as [|c items IHi]; intros s1.
      - cbn [visit_all FcPost]. split; [auto|]. split; [auto|]. intros a l (c & [] & _).
      - cbn [visit_all]. unfold vchk. destruct (mem c (o :: path)); [exact I|].
        pose proof (IH (o :: path) c s1) as Hc.
        destruct (visit handler d (o :: path) c s1) as [s2 [v|e|t|]]; cbn [obind FcPost] in *; auto.
        + destruct Hc as (Hm & Hs & Hr). pose proof (IHi s2) as Hi.
          destruct (visit_all _ _ items s2) as [s3 [vs|e|t|]]; cbn [obind FcPost] in *; auto.
          * destruct Hi as (Hm2 & Hs2 & Hr2). split; [auto|]. split.
            -- intros l a Ha. apply Hs2 in Ha. destruct Ha as [Ha|((c' & Hc' & Hp) & Hl)].
               ++ apply Hs in Ha. destruct Ha as [Ha|[Hp Hl]]; [auto|]. right. split; [|exact Hl]. exists c. split; [left; reflexivity|exact Hp].
               ++ right. split; [|exact Hl]. exists c'. split; [right; exact Hc'|exact Hp].
            -- intros a l (c' & [<-|Hc'] & Hp) Hl; [apply Hm2, Hr; auto|]. apply Hr2; [|exact Hl]. exists c'. auto.
          * destruct Hi as (-> & r & a & b & Ef & (c' & Hc' & Hp) & Hl & Hne & Ha). split; [reflexivity|].
            exists r, a, b. split; [exact Ef|]. split; [exists c'; split; [right; exact Hc'|exact Hp]|].
            split; [exact Hl|]. split; [exact Hne|]. destruct Ha as [Ha|((c'' & Hc'' & Hp'') & Hl'')].
            -- apply Hs in Ha. destruct Ha as [Ha|[Hp' Hl']]; [auto|]. right. split; [|exact Hl'].
               exists c. split; [left; reflexivity|exact Hp'].
            -- right. split; [|exact Hl'']. exists c''. split; [right; exact Hc''|exact Hp''].
        + destruct Hc as (-> & r & a & b & Ef & Hp & Hl & Hne & Ha). split; [reflexivity|].
          exists r, a, b. split; [exact Ef|]. split; [exists c; split; [left; reflexivity|exact Hp]|].
          split; [exact Hl|]. split; [exact Hne|]. destruct Ha as [Ha|[Hp' Hl']]; [auto|]. right. split; [|exact Hl'].
          exists c. split; [left; reflexivity|exact Hp']. }
    assert (Hpart : forall a, part_of h o a <-> a = o \/ exists c, In c (children (h o)) /\ part_of h c a).
    { intros a. split.
      - intros Hp. inversion Hp as [|? c ? Hns Hc Hcx]; subst; [auto|]. right. exists c. auto.
      - intros [->|(c & Hc & Hp)]; [constructor|]. econstructor; [intros []|exact Hc|exact Hp]. }
    destruct (fc_visit_S d path o s) as [(s1 & (Hf & Hc & Hn) & E)|(s' & E & (r & a & Ef & Hc & Hs & Hne))]; rewrite E.
    - pose proof (Hall (children (h o)) s1) as Ha.
      assert (Hs1 : forall l a, slot s1 l = Some a -> slot s l = Some a \/ (a = o /\ carries o l)).
      { intros l a E1. destruct (carries_dec o l) as [Hy|Hno].
        - destruct (Hc l Hy) as [E2 _]. rewrite E1 in E2. injection E2 as ->. auto.
        - rewrite (Hn l Hno) in E1. auto. }
      destruct (visit_all _ _ (children (h o)) s1) as [s2 [vs|e|t|]]; cbn [obind FcPost] in *; auto.
      + destruct Ha as (Hm & Hs & Hr). split; [|split].
        * intros l a Hsa. apply Hm. destruct (carries_dec o l) as [Hy|Hno]; [|rewrite (Hn l Hno); exact Hsa].
          destruct (Hc l Hy) as [E1 [E2|E2]]; [congruence|]. rewrite E1. rewrite Hsa in E2. symmetry. exact E2.
        * intros l a Hsa. apply Hs in Hsa. destruct Hsa as [Hsa|[Hp Hl]].
          -- apply Hs1 in Hsa. destruct Hsa as [Hsa|[-> Hl]]; [auto|]. right. split; [constructor|exact Hl].
          -- right. split; [apply Hpart; auto|exact Hl].
        * intros a l Hp Hl. apply Hpart in Hp. destruct Hp as [->|Hp]; [apply Hm, Hc; exact Hl|]. apply Hr; assumption.
      + destruct Ha as (-> & r & a & b & Ef & Hp & Hl & Hne & Hsa). split; [reflexivity|]. exists r, a, b.
        split; [exact Ef|]. split; [apply Hpart; auto|]. split; [exact Hl|]. split; [exact Hne|].
        destruct Hsa as [Hsa|[Hp' Hl']].
        * apply Hs1 in Hsa. destruct Hsa as [Hsa|[-> Hl']]; [auto|]. right. split; [constructor|exact Hl'].
        * right. split; [apply Hpart; auto|exact Hl'].
    - cbn [FcPost]. split; [reflexivity|]. exists r, a, o. split; [exact Ef|]. split; [constructor|]. auto.
  Qed.

  Theorem find_conflicts_spec size root : closed h size -> root < size ->
    match find_conflicts h size root with
    | Ok None => no_conflict h root
    | Ok (Some (r, (a, b))) => part_of h root a /\ part_of h root b /\ a <> b /\
        carries a (label_of r) /\ carries b (label_of r)
    | Err e => e = ValueError /\ exists x, part_of h root x /\ on_cycle h x
    end.
  Proof.
    intros Hc Hr. unfold find_conflicts.
    pose proof (visit_no_fuel_heap handler size root fc_init
                  (closed_handler _ h size Hc fc_handler_edges) Hr) as Hf.
    pose proof (fc_visit_post size [] root fc_init) as Hp.
    destruct (visit handler size [] root fc_init) as [s [v|e|t|]] eqn:Ev; cbn [FcPost snd] in *.
    - cbn. destruct Hp as (_ & _ & Hp). intros a b l Pa Pb Ca Cb.
      pose proof (Hp a l Pa Ca) as E1. pose proof (Hp b l Pb Cb) as E2. congruence.
    - destruct Hp as (-> & r & a & b & Ef & Pb & Cb & Hne & Ha). rewrite Ef.
      destruct Ha as [Ha|[Pa Ca]].
      + destruct r; discriminate Ha.
      + auto.
    - cbn. split; [reflexivity|]. exists t.
      apply (visit_circ _ (child h) fc_handler_edges) in Ev. destruct Ev as [H1 H2].
      split; [apply rt_part; exact H2|apply trans_on_cycle; exact H1].
    - congruence.
  Qed.
End Conflicts.

(** ** Finding a node *)
Section Find.
  Context {V K : Type} `{EqD K}.
  Variable h : heap V K.
  Variable pred : obj V K -> bool.
  Notation handler := (find_handler h pred).

  Definition hit (o : oid) : bool :=
    match h o with
    | OExpr _ _ _ _ | OChoice _ _ _ | ONumChoice _ _ _ => pred (h o)
    | _ => false
    end.

  Lemma find_handler_edges o : gen_all (child h o) (handler o).
  Proof.
    assert (Hy : gen_all (child h o) (yield_all (V := unit) (S := option oid) (children (h o)) (fun _ => GRet tt))).
    { apply gen_all_yield_all; [auto|intros; exact I]. }
    unfold find_handler. destruct (h o) eqn:Eh; try exact Hy;
      match goal with |- context [pred ?x] => destruct (pred x); [exact I|exact Hy] end.
  Qed.

  Lemma find_visit_S d path o s :
    visit handler (S d) path o s
    = if hit o then (Some o, TErr (UserError 1))
      else obind (visit_all (visit handler d (o :: path)) (o :: path) (children (h o)) s) (fun _ s2 => (s2, TOk tt)).
  Proof.
    cbn [visit]. generalize (visit handler d (o :: path)). intros vc. unfold find_handler, hit.
    destruct (h o) eqn:Eh; try (rewrite run_gen_yield_all; reflexivity);
      match goal with |- context [pred ?x] => destruct (pred x); [reflexivity|rewrite run_gen_yield_all; reflexivity] end.
  Qed.

  Definition FindPost (P : oid -> Prop) {A} (x : option oid * outcome A) : Prop :=
    match x with
    | (_, TOk _) => forall a, P a -> hit a = false
    | (s', TErr e) => e = UserError 1 /\ exists a, s' = Some a /\ P a /\ hit a = true
    | _ => True
    end.

  Lemma find_visit_post : forall d path o s, FindPost (part_of h o) (visit handler d path o s).
  Proof.
    induction d as [|d IH]; intros path o s; [exact I|].
    rewrite find_visit_S. destruct (hit o) eqn:Eh.
    - cbn. split; [reflexivity|]. exists o. split; [reflexivity|]. split; [constructor|exact Eh].
    - assert (Hall : forall items s1, (FindPost (fun a => exists c, In c items /\ part_of h c a)
        (visit_all (visit handler d (o :: path)) (o :: path) items s1))).
      { induction items as [|c items IHi]; intros s1.
        - cbn. intros a (c & [] & _).
        - cbn [visit_all]. unfold vchk. destruct (mem c (o :: path)); [exact I|].
          pose proof (IH (o :: path) c s1) as Hc.
          destruct (visit handler d (o :: path) c s1) as [s2 [v|e|t|]]; cbn [obind FindPost] in *; auto.
          + pose proof (IHi s2) as Hi.
            destruct (visit_all _ _ items s2) as [s3 [vs|e|t|]]; cbn [obind FindPost] in *; auto.
            * intros a (c' & [<-|Hc'] & Hp); [auto|]. apply Hi. exists c'. auto.
            * destruct Hi as (-> & a & -> & (c' & Hc' & Hp) & Ha). split; [reflexivity|]. exists a.
              split; [reflexivity|]. split; [exists c'; split; [right; exact Hc'|exact Hp]|exact Ha].
          + destruct Hc as (-> & a & -> & Hp & Ha). split; [reflexivity|]. exists a.
            split; [reflexivity|]. split; [exists c; split; [left; reflexivity|exact Hp]|exact Ha]. }
      pose proof (Hall (children (h o)) s) as Ha.
      destruct (visit_all _ _ (children (h o)) s) as [s2 [vs|e|t|]]; cbn [obind FindPost] in *; auto.
      + intros a Hp. inversion Hp as [|? c ? Hns Hc Hcx]; subst; [exact Eh|]. apply Ha. exists c. auto.
      + destruct Ha as (-> & a & -> & (c & Hc & Hp) & Ha). split; [reflexivity|]. exists a.
        split; [reflexivity|]. split; [econstructor; [intros []|exact Hc|exact Hp]|exact Ha].
  Qed.

  Theorem find_node_spec size root : closed h size -> root < size ->
    match find_node h pred size root with
    | Ok None => forall a, part_of h root a -> candidate h a -> pred (h a) = false
    | Ok (Some a) => part_of h root a /\ candidate h a /\ pred (h a) = true
    | Err e => e = ValueError /\ exists x, part_of h root x /\ on_cycle h x
    end.
  Proof.
    intros Hc Hr. unfold find_node.
    pose proof (visit_no_fuel_heap handler size root None
                  (closed_handler _ h size Hc find_handler_edges) Hr) as Hf.
    pose proof (find_visit_post size [] root None) as Hp.
    destruct (visit handler size [] root None) as [s [v|e|t|]] eqn:Ev; cbn [FindPost snd] in *.
    - assert (Hn : forall a, part_of h root a -> candidate h a -> pred (h a) = false).
      { intros a Pa Ca. specialize (Hp a Pa). unfold hit in Hp. unfold candidate in Ca.
        destruct (h a); try contradiction; exact Hp. }
      destruct s; exact Hn.
    - destruct Hp as (-> & a & -> & Pa & Ha). unfold hit in Ha. unfold candidate.
      destruct (h a) eqn:Eh; try discriminate; cbn; auto.
    - assert (Hcirc : exists x, part_of h root x /\ on_cycle h x).
      { exists t. apply (visit_circ _ (child h) find_handler_edges) in Ev. destruct Ev as [H1 H2].
        split; [apply rt_part; exact H2|apply trans_on_cycle; exact H1]. }
      destruct s; cbn; auto.
    - congruence.
  Qed.
End Find.

Section Corollaries.
  Context {V K : Type} `{EqD K}.
  Variable h : heap V K.

  Lemma conflicts_found size root : closed h size -> root < size -> acyclic h root ->
    exists c, find_conflicts h size root = Ok c /\ (c = None <-> no_conflict h root).
  Proof.
    intros Hc Hr Ha. pose proof (find_conflicts_spec h size root Hc Hr) as Hs.
    destruct (find_conflicts h size root) as [[[r [a b]]|]|e].
    - eexists. split; [reflexivity|]. split; [discriminate|]. intros Hn. destruct Hs as (Pa & Pb & Hne & Ca & Cb).
      exfalso. apply Hne. eapply Hn; eauto.
    - exists None. split; [reflexivity|]. tauto.
    - exfalso. destruct Hs as (_ & x & Px & Cx). apply (Ha x Px Cx).
  Qed.

  Lemma marked_found size root n : closed h size -> root < size -> acyclic h root -> no_conflict h root ->
    part_of h root n ->
    (carries h n IsX -> find_X h size root = Ok (Some n)) /\
    (carries h n IsY -> find_y h size root = Ok (Some n)).
  Proof.
    intros Hc Hr Ha Hn Pn.
    assert (Hf : forall pred l, (forall x, candidate h x -> (pred (h x) = true <-> carries h x l)) ->
      candidate h n -> carries h n l -> find_node h pred size root = Ok (Some n)).
    { intros pred l Hp Hcd Hcr. pose proof (find_node_spec h pred size root Hc Hr) as Hs.
      destruct (find_node h pred size root) as [[m|]|e].
      - destruct Hs as (Pm & Cm & Em). f_equal. f_equal. eapply Hn; eauto. apply Hp; auto.
      - specialize (Hs n Pn Hcd). apply Hp in Hcr; [congruence|exact Hcd].
      - exfalso. destruct Hs as (_ & x & Px & Cx). apply (Ha x Px Cx). }
    split; intros Hcr.
    - apply (Hf _ IsX); [|unfold carries, candidate in *; destruct (h n); auto|exact Hcr].
      intros x Hx. unfold marked_X, carries, candidate in *. destruct (h x); try tauto; split; try discriminate; tauto.
    - apply (Hf _ IsY); [|unfold carries, candidate in *; destruct (h n); auto|exact Hcr].
      intros x Hx. unfold marked_y, carries, candidate in *. destruct (h x); try tauto; split; try discriminate; tauto.
  Qed.
End Corollaries.
