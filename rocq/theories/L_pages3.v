(** The files of a report. *)
From Coq Require Import Relations Lia.
From Verif Require Import Base L_dict L_str M_str M_traverse L_traverse M_expr L_expr1 L_expr2 L_expr3 L_expr4 L_expr5
  M_choicegraph M_graph L_graph L_graph2 M_pages L_pages L_pages2.
Open Scope string_scope.
Open Scope list_scope.
Open Scope nat_scope.
Set Default Proof Using "Type".

(** ** Specification *)

(** [q] is [p] or below it. *)
Definition under (p q : path) : Prop := exists r, q = p ++ r.
(** What is in a directory is in a directory: every file system is so. *)
Definition tree (d : fs) : Prop := forall p q, q <> [] -> d (p ++ q) <> None -> d p = Some Dir.

(** ** Paths *)
Lemma prefix_spec p q : prefix p q = true <-> under p q.
Proof.
  unfold prefix, under. split.
  - intros E. apply (proj1 (eqb_of_true _ _)) in E. exists (skipn (length p) q). rewrite <- E at 1. symmetry. apply firstn_skipn.
  - intros [r ->]. apply eqb_of_true. rewrite firstn_app, Nat.sub_diag, firstn_all, firstn_O, app_nil_r. reflexivity.
Qed.
Lemma fput_same d p x : fput d p x p = x.
Proof. unfold fput. destruct (eqd p p); congruence. Qed.
Lemma fput_other d p x q : q <> p -> fput d p x q = d q.
Proof. intros Hn. unfold fput. destruct (eqd q p); congruence. Qed.

Lemma mkdirs_spec : forall todo done d d' r, mkdirs done todo d = (d', r) ->
  (forall q, d' q = d q \/ (d q = None /\ d' q = Some Dir /\ under q (done ++ todo))) /\
  (r = Ok tt -> d (done ++ todo) = None \/ todo = [] ) /\
  (r = Ok tt -> d' (done ++ todo) = Some Dir) /\
  (forall ex, r = Err ex -> d' (done ++ todo) = d (done ++ todo)).
Proof.
  induction todo as [|name todo IH]; intros done d d' r E.
  - simpl in E. injection E as <- <-. split; [auto|]. split; [discriminate|]. split; [discriminate|auto].
  - destruct todo as [|name' todo].
    + simpl in E. destruct (d (done ++ [name])) as [x|] eqn:Ex; injection E as <- <-.
      * split; [auto|]. split; [discriminate|]. split; [discriminate|auto].
      * split; [|split; [auto|split; [intros _; apply fput_same|discriminate]]].
        intros q. unfold fput. destruct (eqd q (done ++ [name])) as [->|]; [|auto].
        right. split; [exact Ex|]. split; [reflexivity|]. exists []. rewrite app_nil_r. reflexivity.
    + assert (Eapp : done ++ name :: name' :: todo = (done ++ [name]) ++ name' :: todo) by (rewrite <- app_assoc; reflexivity).
      assert (Hne : done ++ name :: name' :: todo <> done ++ [name]).
      { rewrite Eapp. intros E'. apply (f_equal (@length string)) in E'. rewrite !app_length in E'. simpl in E'. lia. }
      change (mkdirs done (name :: name' :: todo) d) with
        (match d (done ++ [name]) with
         | Some Dir => mkdirs (done ++ [name]) (name' :: todo) d
         | Some (File _) => (d, Err OSError)
         | None => mkdirs (done ++ [name]) (name' :: todo) (fput d (done ++ [name]) (Some Dir)) end) in E.
      destruct (d (done ++ [name])) as [[|c]|] eqn:Ex.
      * apply IH in E. rewrite <- Eapp in E. destruct E as (H1 & H2 & H3 & H4). split; [exact H1|]. split; [|auto].
        intros Er. destruct (H2 Er) as [H2'|H2']; [auto|discriminate].
      * injection E as <- <-. split; [auto|]. split; [discriminate|]. split; [discriminate|auto].
      * apply IH in E. rewrite <- Eapp in E. destruct E as (H1 & H2 & H3 & H4). split; [|split; [|split]].
        -- intros q. destruct (eqd q (done ++ [name])) as [->|Hq].
           ++ right. split; [exact Ex|]. split; [|rewrite Eapp; exists (name' :: todo); reflexivity].
              destruct (H1 (done ++ [name])) as [E1|(E1 & _ & _)]; rewrite fput_same in E1; congruence.
           ++ destruct (H1 q) as [E1|(E1 & E2 & E3)]; rewrite fput_other in E1 by exact Hq; auto.
        -- intros Er. destruct (H2 Er) as [H2'|H2']; [|discriminate]. rewrite fput_other in H2'; auto.
        -- exact H3.
        -- intros ex Er. rewrite (H4 ex Er). rewrite fput_other; auto.
Qed.

(** The directory of a report. *)
Lemma output_dir_spec new_dir od ow d d' r : get_output_dir new_dir od ow d = (d', r) ->
  let p := match od with Some p => p | None => new_dir end in
  (forall q, ~ under p q -> d' q = d q \/ (d q = None /\ d' q = Some Dir /\ under q p)) /\
  (r = Ok p \/ exists ex, r = Err ex) /\
  (r = Ok p -> d' p = Some Dir) /\
  (r = Ok p -> tree d -> forall q, under p q -> q <> p -> d' q = None) /\
  (od = None \/ ow = false -> forall q, d' q = d q \/ (d q = None /\ d' q = Some Dir /\ under q p)) /\
  (od = None \/ ow = false -> r = Ok p -> tree d -> forall q, under p q -> d q = None) /\
  (od = None \/ ow = false -> forall ex, r = Err ex -> forall q, under p q -> d' q = d q).
Proof.
  intros E p. unfold get_output_dir in E.
  assert (Hself : forall q, under p q -> under q p -> q = p).
  { intros q [a Ha] [b Hb]. rewrite Ha, <- app_assoc in Hb. rewrite <- (app_nil_r p) in Hb at 1.
    apply app_inv_head in Hb. symmetry in Hb. apply app_eq_nil in Hb. destruct Hb as [-> _]. rewrite app_nil_r in Ha. exact Ha. }
  assert (Hbelow : forall d1 q, tree d1 -> d1 p = None -> under p q -> d1 q = None).
  { intros d1 q Ht Hp [a Ha]. destruct a as [|x a]; [rewrite app_nil_r in Ha; subst; exact Hp|].
    destruct (d1 q) eqn:Eq; [|reflexivity]. exfalso. specialize (Ht p (x :: a)). rewrite <- Ha in Ht.
    rewrite Ht in Hp; congruence. }
  assert (Hmk : forall d1 d2 r1, mkdirs [] p d1 = (d2, r1) -> tree d1 \/ (forall q, under p q -> d1 q = None) ->
     (forall q, d2 q = d1 q \/ (d1 q = None /\ d2 q = Some Dir /\ under q p)) /\
     (r1 = Ok tt -> d2 p = Some Dir) /\ (r1 = Ok tt -> forall q, under p q -> d1 q = None) /\
     (r1 = Ok tt -> forall q, under p q -> q <> p -> d2 q = None) /\
     (forall ex, r1 = Err ex -> forall q, under p q -> d2 q = d1 q)).
  { intros d1 d2 r1 Em Ht. destruct (mkdirs_spec _ _ _ _ _ Em) as (H1 & H2 & H3 & H4). simpl in *.
    assert (Hun : r1 = Ok tt -> forall q, under p q -> d1 q = None).
    { intros Er q Hq. destruct Ht as [Ht|Ht]; [|auto]. destruct (H2 Er) as [H2'|H2']; [eauto|].
      subst r1. destruct p; [simpl in Em; discriminate|discriminate]. }
    split; [exact H1|]. split; [exact H3|]. split; [exact Hun|]. split.
    - intros Er q Hq Hn. destruct (H1 q) as [->|(_ & _ & Hu)]; [auto|]. exfalso. apply Hn. apply Hself; auto.
    - intros ex Er q Hq. destruct (H1 q) as [->|(_ & _ & Hu)]; [reflexivity|]. rewrite (Hself q Hq Hu). eapply H4; eauto. }
  assert (Hmk' : forall d1 d2 r1, mkdirs [] p d1 = (d2, r1) ->
     (forall q, d2 q = d1 q \/ (d1 q = None /\ d2 q = Some Dir /\ under q p)) /\
     (r1 = Ok tt -> d2 p = Some Dir) /\ (forall ex, r1 = Err ex -> forall q, under p q -> d2 q = d1 q)).
  { intros d1 d2 r1 Em. destruct (mkdirs_spec _ _ _ _ _ Em) as (H1 & H2 & H3 & H4). simpl in *. split; [exact H1|]. split; [exact H3|].
    intros ex Er q Hq. destruct (H1 q) as [->|(_ & _ & Hu)]; [reflexivity|]. rewrite (Hself q Hq Hu). eapply H4; eauto. }
  assert (Hplain : forall r1, mkdirs [] p d = (d', r1) -> r = (let! _ := r1 in Ok p) ->
     (forall q, ~ under p q -> d' q = d q \/ (d q = None /\ d' q = Some Dir /\ under q p)) /\
     (r = Ok p \/ exists ex, r = Err ex) /\ (r = Ok p -> d' p = Some Dir) /\
     (r = Ok p -> tree d -> forall q, under p q -> q <> p -> d' q = None) /\
     (od = None \/ ow = false -> forall q, d' q = d q \/ (d q = None /\ d' q = Some Dir /\ under q p)) /\
     (od = None \/ ow = false -> r = Ok p -> tree d -> forall q, under p q -> d q = None) /\
     (od = None \/ ow = false -> forall ex, r = Err ex -> forall q, under p q -> d' q = d q)).
  { intros r1 Em ->. destruct (Hmk' _ _ _ Em) as (H1 & H2 & H3).
    assert (Hok : (let! _ := r1 in Ok p) = Ok p -> r1 = Ok tt) by (destruct r1 as [[]|]; simpl; congruence).
    assert (Herr : forall ex, (let! _ := r1 in Ok p) = Err ex -> r1 = Err ex) by (intros ex; destruct r1 as [[]|]; simpl; congruence).
    split; [auto|]. split; [destruct r1; simpl; eauto|]. split; [auto|].
    split; [intros Er Ht; apply (Hmk _ _ _ Em (or_introl Ht)); auto|]. split; [auto|].
    split; [intros _ Er Ht; apply (Hmk _ _ _ Em (or_introl Ht)); auto|]. intros _ ex Er. eapply H3; eauto. }
  destruct od as [p0|].
  - subst p. cbv iota in *. unfold exists_ in E. destruct (d p0) as [x|] eqn:Ep.
    + destruct ow.
      * unfold rmtree in E. rewrite Ep in E. destruct x as [|c].
        -- destruct (mkdirs [] p0 (fun q => if prefix p0 q then None else d q)) as [d2 r2] eqn:Em. injection E as <- <-.
           assert (Hrm : forall q, under p0 q -> (if prefix p0 q then None else d q) = None).
           { intros q Hq. apply prefix_spec in Hq. rewrite Hq. reflexivity. }
           destruct (Hmk _ _ _ Em (or_intror Hrm)) as (H1 & H2 & _ & H4 & _). simpl in *.
           assert (Hok : (let! _ := r2 in Ok p0) = Ok p0 -> r2 = Ok tt) by (destruct r2 as [[]|]; simpl; congruence).
           split.
           { intros q Hq. specialize (H1 q). destruct (prefix p0 q) eqn:Epq; [exfalso; apply Hq; apply prefix_spec; exact Epq|]. exact H1. }
           split; [destruct r2; simpl; eauto|]. split; [auto|]. split; [auto|].
           split; [intros [Eo|Eo]; discriminate|]. split; intros [Eo|Eo]; discriminate.
        -- injection E as <- <-. split; [auto|]. split; [eauto|]. split; [discriminate|]. split; [discriminate|].
           split; [auto|]. split; [discriminate|auto].
      * injection E as <- <-. split; [auto|]. split; [eauto|]. split; [discriminate|]. split; [discriminate|].
        split; [auto|]. split; [discriminate|auto].
    + destruct (mkdirs [] p0 d) as [d2 r2] eqn:Em. injection E as <- <-. apply (Hplain r2); auto.
  - destruct (mkdirs [] new_dir d) as [d2 r2] eqn:Em. injection E as <- <-. apply (Hplain r2); auto.
Qed.

Lemma node_name_inj i j : node_name i = node_name j -> i = j.
Proof.
  unfold node_name. intros E. injection E as E. apply str_nat_inj.
  assert (Hsuf : forall a b : string, (a ++ ".html" = b ++ ".html")%string -> a = b).
  { intros a b Ea. apply (f_equal list_ascii_of_string) in Ea.
    assert (Hl : forall x y, list_ascii_of_string (x ++ y)%string = list_ascii_of_string x ++ list_ascii_of_string y).
    { induction x as [|c x IH]; intros y; simpl; [reflexivity|rewrite IH; reflexivity]. }
    rewrite !Hl in Ea. apply app_inv_tail in Ea. rewrite <- (string_of_list_ascii_of_string a), Ea. apply string_of_list_ascii_of_string. }
  apply Hsuf. exact E.
Qed.
Lemma node_not_index i : node_name i <> index_name.
Proof. unfold node_name, index_name. discriminate. Qed.

Section Files.
  Context {V K F : Type} `{EqD K}.
  Notation st := (st V F).
  Variable ext : externals V K F.
  Variable h : heap V K.
  Variable size : nat.
  Variable render : V -> res string.
  Variable simple_repr : oid -> res string.
  Variable extras : oid -> option F -> res string.
  Variable encodable : content -> bool.
  Notation pages := (pages ext h size render simple_repr extras encodable).
  Notation one_page := (one_page ext h size render simple_repr extras).

  Lemma cached_eval o mode e (s : st) v : results s o mode = Some v -> to_compute h e o -> mode <> "fit" -> 0 < size ->
    evaluate ext h size o mode e false s = (s, Ok (TheValue v)).
  Proof.
    intros Er Htc Hm Hs. destruct size as [|n]; [lia|]. unfold evaluate.
    assert (Em : eqb_of mode "fit" = false).
    { destruct (eqb_of mode "fit") eqn:Em; [|reflexivity]. apply (proj1 (eqb_of_true _ _)) in Em. contradiction. }
    rewrite Em. cbn [visit]. unfold eval_handler. unfold to_compute in Htc. destruct (h o) as [i name isX isY| | | | | | | |]; try contradiction.
    cbn [run_gen]. unfold fetch. rewrite fetch_env_provided, Htc, Er. reflexivity.
  Qed.

  (** What a page shows of a state. *)
  Definition shown_as (s : st) (mode : string) (o : oid) (out : outcome_shown) : Prop :=
    match out with
    | Output t => exists v, results s o mode = Some v /\ render v = Ok t
    | Failed ex => results s o mode = None /\ errors s o mode = Some ex
    | DidNotRun => results s o mode = None /\ errors s o mode = None
    end.
  Definition described (ns : dict nat oid) (l : list (nat * string)) : Prop :=
    forall n t, In (n, t) l -> exists o, dget n ns = Some o /\ simple_repr o = Ok t.
  Definition page_ok (g : sgraph) (st0 : list (nat * status)) (mode : string) (s : st) (i : nat) (o : oid) (p : page) : Prop :=
    shown_as s mode o (pg_outcome p) /\ simple_repr o = Ok (pg_title p) /\
    pg_previous p = (if i =? 0 then None else Some (i - 1)) /\
    pg_next p = (if i <? length (sg_nodes g) - 1 then Some (i + 1) else None) /\
    map fst (pg_used p) = numbers i (sg_parents g) /\ described (sg_nodes g) (pg_used p) /\
    map fst (pg_used_by p) = numbers i (sg_children g) /\ described (sg_nodes g) (pg_used_by p) /\
    pg_status p = st0.

  Lemma links_spec ns : forall l l', links simple_repr ns l = Ok l' -> map fst l' = l /\ described ns l'.
  Proof.
    induction l as [|n l IH]; intros l' E; unfold links in *; cbn [mapM] in E.
    - injection E as <-. split; [reflexivity|]. intros a t [].
    - destruct (dget n ns) as [o|] eqn:Ed; [|discriminate]. destruct (simple_repr o) as [t|] eqn:Et; [|discriminate].
      cbn [bind] in E. destruct (mapM _ l) as [l1|] eqn:El; [|discriminate]. cbn [bind] in E. injection E as <-.
      destruct (IH _ eq_refl) as [H1 H2]. split; [simpl; congruence|]. intros a u [Ea|Ha]; [|apply H2; exact Ha].
      injection Ea as <- <-. eauto.
  Qed.

  Lemma one_page_spec g st0 i o mode e s s' r :
    (results s o mode <> None -> to_compute h e o /\ mode <> "fit") -> 0 < size ->
    one_page g st0 i o mode e s = (s', r) -> s' = s /\ forall p, r = Ok p -> page_ok g st0 mode s i o p.
  Proof.
    intros Hc Hs E. unfold M_pages.one_page, outcome_of in E.
    assert (Ho : exists out, (match results s o mode with
       | Some _ => match node_report ext h size render o mode e s with (s', r) => (s', let! t := r in Ok (Output t)) end
       | None => (s, Ok (match errors s o mode with Some ex => Failed ex | None => DidNotRun end)) end) = (s, out) /\
       forall w, out = Ok w -> shown_as s mode o w).
    { destruct (results s o mode) as [v|] eqn:Er.
      - destruct (Hc ltac:(discriminate)) as [Htc Hm]. unfold node_report. rewrite (cached_eval o mode e s v Er Htc Hm Hs).
        eexists. split; [reflexivity|]. intros w Ew. destruct (render v) as [t|] eqn:Et; cbn in Ew; [|discriminate].
        injection Ew as <-. simpl. eauto.
      - eexists. split; [reflexivity|]. intros w Ew. injection Ew as <-. destruct (errors s o mode) eqn:Ee; simpl; auto. }
    destruct Ho as (out & Eo & Hout). rewrite Eo in E. destruct out as [out|ex].
    - injection E as <- <-. split; [reflexivity|]. intros p Ep.
      destruct (links simple_repr (sg_nodes g) (numbers i (sg_children g))) as [ch|] eqn:Ec; [|discriminate].
      destruct (links simple_repr (sg_nodes g) (numbers i (sg_parents g))) as [pa|] eqn:Ea; [|discriminate]. cbn [bind] in Ep.
      destruct (extras o (fitted_with (fitted s o))) as [x|]; [|discriminate]. cbn [bind] in Ep.
      destruct (simple_repr o) as [t|] eqn:Et; [|discriminate]. cbn [bind] in Ep. injection Ep as <-.
      destruct (links_spec _ _ _ Ec), (links_spec _ _ _ Ea). repeat split; cbn; auto. 
    - injection E as <- <-. split; [reflexivity|]. discriminate.
  Qed.

  Lemma write_spec p c d d' r : write encodable p c d = (d', r) ->
    (forall q, q <> p -> d' q = d q) /\ (r = Ok tt -> d' p = Some (File c)) /\ d' p <> None.
  Proof.
    unfold write. destruct (encodable c); intros E; injection E as <- <-.
    - split; [intros q Hq; apply fput_other; exact Hq|]. rewrite fput_same. split; [reflexivity|discriminate].
    - split; [intros q Hq; apply fput_other; exact Hq|]. rewrite fput_same. split; [discriminate|discriminate].
  Qed.

  Lemma pages_spec g st0 dir mode e : forall todo s d s' d' r,
    0 < size -> (forall i o, In (i, o) todo -> results s o mode <> None -> to_compute h e o /\ mode <> "fit") ->
    pages g st0 dir mode e todo s d = (s', d', r) ->
    s' = s /\
    (forall q, ~ (exists i, In i (map fst todo) /\ q = dir ++ [node_name i]) -> d' q = d q) /\
    (r = Ok tt -> NoDup (map fst todo) -> forall i o, In (i, o) todo ->
       exists p, d' (dir ++ [node_name i]) = Some (File (NodePage p)) /\ page_ok g st0 mode s i o p).
  Proof.
    induction todo as [|[i o] todo IH]; intros s d s' d' r Hs Hc E.
    - cbn [M_pages.pages] in E. injection E as <- <- <-. split; [reflexivity|]. split; [reflexivity|]. intros _ _ i o [].
    - cbn [M_pages.pages] in E. destruct (one_page g st0 i o mode e s) as [s1 r1] eqn:E1.
      destruct (one_page_spec _ _ _ _ _ _ _ _ _ (Hc i o (or_introl eq_refl)) Hs E1) as [-> Hp].
      destruct r1 as [p|ex].
      + destruct (write encodable (dir ++ [node_name i]) (NodePage p) d) as [d1 r2] eqn:Ew.
        destruct (write_spec _ _ _ _ _ Ew) as (Hw1 & Hw2 & _). destruct r2 as [[]|ex].
        * destruct (IH _ _ _ _ _ Hs (fun a b Hab => Hc a b (or_intror Hab)) E) as (-> & H1 & H2). split; [reflexivity|]. split.
          -- intros q Hq. rewrite H1, Hw1; [reflexivity| |].
             ++ intros ->. apply Hq. exists i. simpl. auto.
             ++ intros (j & Hj & ->). apply Hq. exists j. simpl. auto.
          -- intros Er Hnd. cbn [map fst] in Hnd. apply NoDup_cons_iff in Hnd. destruct Hnd as [Hni Hnd]. intros j x [Ej|Hj].
             ++ injection Ej as <- <-. exists p. split; [|apply Hp; reflexivity]. rewrite H1; [apply Hw2; reflexivity|].
                intros (j & Hj & Ej). apply app_inv_head in Ej. assert (En : node_name i = node_name j) by congruence. apply node_name_inj in En. subst j. contradiction.
             ++ apply (H2 Er Hnd j x Hj).
        * injection E as <- <- <-. split; [reflexivity|]. split; [|discriminate]. intros q Hq. apply Hw1. intros ->. apply Hq. exists i. simpl. auto.
      + injection E as <- <- <-. split; [reflexivity|]. split; [reflexivity|discriminate].
  Qed.
End Files.
