(** Single-column transformers: the note in the documentation. *)
From Coq Require Import Ascii.
From Verif Require Import Base M_singlecol.
Open Scope string_scope.
Open Scope list_scope.
Open Scope nat_scope.
Set Default Proof Using "Type".

(** A line with its newline. *)
Definition full (l : text) : Prop := exists u, l = u ++ [newline] /\ ~ In newline u.

Lemma lines_concat s : concat (lines s) = s.
Proof.
  induction s as [|c s IH]; [reflexivity|]. cbn [lines]. destruct (Ascii.eqb c newline); cbn [concat].
  - cbn. rewrite IH. reflexivity.
  - destruct (lines s) as [|l ls]; cbn in *; rewrite <- IH; reflexivity.
Qed.

Lemma lines_full l s : full l -> lines (l ++ s) = l :: lines s.
Proof.
  intros (u & -> & Hu). induction u as [|c u IH]; cbn [app lines].
  - rewrite Ascii.eqb_refl. reflexivity.
  - destruct (Ascii.eqb c newline) eqn:E.
    + apply Ascii.eqb_eq in E. subst. exfalso. apply Hu. left. reflexivity.
    + cbn [app] in IH. rewrite IH by (intros Hin; apply Hu; right; exact Hin). reflexivity.
Qed.
Lemma lines_fulls ls s : Forall full ls -> lines (concat ls ++ s) = ls ++ lines s.
Proof.
  induction 1 as [|l ls Hl _ IH]; [reflexivity|]. cbn [concat app]. rewrite <- app_assoc, lines_full by exact Hl. rewrite IH. reflexivity.
Qed.

Lemma lines_cons : forall s l ls, lines s = l :: ls -> exists s', s = l ++ s' /\ lines s' = ls /\ (ls <> [] -> full l) /\ (full l \/ ~ In newline l).
Proof.
  induction s as [|c s IH]; intros l ls E; [discriminate|]. cbn [lines] in E. destruct (Ascii.eqb c newline) eqn:Ec.
  - apply Ascii.eqb_eq in Ec. injection E as <- <-. exists s. split; [reflexivity|]. split; [reflexivity|].
    assert (Hf : full [c]) by (exists []; split; [rewrite Ec; reflexivity|intros []]). auto.
  - assert (Hc : c <> newline) by (intros ->; rewrite Ascii.eqb_refl in Ec; discriminate).
    destruct (lines s) as [|l0 ls0] eqn:El.
    + injection E as <- <-. exists []. split.
      * pose proof (lines_concat s) as Hs. rewrite El in Hs. cbn in Hs. rewrite <- Hs. reflexivity.
      * split; [reflexivity|]. split; [intros Hne; destruct (Hne eq_refl)|]. right. intros [Hin|[]]. exact (Hc Hin).
    + injection E as <- <-. destruct (IH l0 ls0 eq_refl) as (s' & -> & E' & Hf & Ho). exists s'. split; [reflexivity|]. split; [exact E'|].
      assert (G : full l0 -> full (c :: l0)).
      { intros (u & -> & Hu). exists (c :: u). split; [reflexivity|]. intros [Hin|Hin]; [congruence|exact (Hu Hin)]. }
      split; [intros Hne; apply G; apply Hf; exact Hne|]. destruct Ho as [Ho|Ho]; [left; apply G; exact Ho|right].
      intros [Hin|Hin]; [congruence|exact (Ho Hin)].
Qed.

Lemma lines_split : forall a s b, lines s = a ++ b -> s = concat a ++ concat b /\ lines (concat b) = b /\ (b <> [] -> Forall full a).
Proof.
  induction a as [|l a IH]; intros s b E; cbn [app] in E.
  - split; [cbn; rewrite <- E; symmetry; apply lines_concat|]. split; [rewrite <- E, lines_concat; reflexivity|constructor].
  - destruct (lines_cons s l (a ++ b) E) as (s' & -> & E' & Hf & _). destruct (IH s' b E') as (-> & Hb & Ha).
    split; [cbn; rewrite app_assoc; reflexivity|]. split; [exact Hb|]. intros Hne. constructor; [|exact (Ha Hne)].
    apply Hf. destruct a; [exact Hne|discriminate].
Qed.

Lemma to_text_split : forall ls a r, to_text ls = (a, r) -> ls = a ++ r.
Proof.
  induction ls as [|l ls IH]; intros a r E; cbn [to_text] in E; [injection E as <- <-; reflexivity|].
  destruct (blank l); [|injection E as <- <-; reflexivity]. destruct (to_text ls) as [a' r']. injection E as <- <-.
  cbn. rewrite <- (IH a' r' eq_refl). reflexivity.
Qed.
Lemma to_blank_split : forall ls a r e, to_blank ls = (a, r, e) -> ls = a ++ r /\ (e = true -> r = []).
Proof.
  induction ls as [|l ls IH]; intros a r e E; cbn [to_blank] in E; [injection E as <- <- <-; auto|].
  destruct (blank l); [injection E as <- <- <-; split; [reflexivity|discriminate]|]. destruct (to_blank ls) as [[a' r'] e'].
  injection E as <- <- <-. destruct (IH a' r' e' eq_refl) as [-> Hr]. auto.
Qed.

(** What is inserted. *)
Definition shifted (n : nat) (note : text) : text := concat (map (indented n) (lines note)).

(** The documentation is kept: something is inserted at one place. *)
Theorem doc_kept doc note : exists pre post,
  doc = pre ++ post /\
  (insert_note doc note = pre ++ shifted (indent_of (lines doc)) note ++ [newline] ++ post \/
   (post = [] /\ insert_note doc note = pre ++ [newline] ++ shifted (indent_of (lines doc)) note ++ [newline])).
Proof.
  unfold insert_note, shifted. destruct (to_text (lines doc)) as [a r] eqn:Ea. destruct (to_blank r) as [[b rest] missing] eqn:Eb.
  pose proof (to_text_split _ _ _ Ea) as Hl. destruct (to_blank_split _ _ _ _ Eb) as [Hr Hm].
  exists (concat (a ++ b)), (concat rest). split.
  - rewrite <- (lines_concat doc), Hl, Hr, <- concat_app, app_assoc. reflexivity.
  - destruct missing.
    + right. rewrite (Hm eq_refl). split; [reflexivity|]. rewrite !concat_app. cbn. rewrite ?app_nil_r, <- ?app_assoc. reflexivity.
    + left. rewrite !concat_app. cbn. rewrite <- ?app_assoc. reflexivity.
Qed.

Lemma to_text_blanks bs p r : Forall (fun l => blank l = true) bs -> blank p = false -> to_text (bs ++ p :: r) = (bs ++ [p], r).
Proof.
  intros Hb Hp. induction Hb as [|l bs Hl _ IH]; cbn [app to_text]; [rewrite Hp; reflexivity|]. rewrite Hl, IH. reflexivity.
Qed.
Lemma to_blank_par par bl r : Forall (fun l => blank l = false) par -> blank bl = true -> to_blank (par ++ bl :: r) = (par ++ [bl], r, false).
Proof.
  intros Hp Hb. induction Hp as [|l par Hl _ IH]; cbn [app to_blank]; [rewrite Hb; reflexivity|]. rewrite Hl, IH. reflexivity.
Qed.
Lemma indented_full n l : full l -> full (indented n l).
Proof.
  intros Hf. unfold indented. destruct (blank l); [exact Hf|]. destruct Hf as (u & -> & Hu). exists (repeat blank_char n ++ u).
  split; [rewrite app_assoc; reflexivity|]. intros Hin. apply in_app_or in Hin. destruct Hin as [Hin|Hin]; [|exact (Hu Hin)].
  apply repeat_spec in Hin. discriminate.
Qed.

(** The first paragraph and the blank line after it, the note, the rest: when that blank line is
    complete. *)
Theorem note_after_paragraph doc note bs p par bl rest :
  lines doc = bs ++ (p :: par) ++ bl :: rest ->
  Forall (fun l => blank l = true) bs -> Forall (fun l => blank l = false) (p :: par) -> blank bl = true ->
  In newline bl -> Forall full (lines note) ->
  lines (insert_note doc note) =
    bs ++ (p :: par) ++ bl :: map (indented (indent_of (lines doc))) (lines note) ++ [newline] :: rest.
Proof.
  intros E Hbs Hpar Hbl Hnl Hnote. inversion Hpar as [|? ? Hp Hpar']; subst.
  unfold insert_note. set (n := indent_of (lines doc)). rewrite E.
  rewrite <- app_comm_cons, (to_text_blanks bs p (par ++ bl :: rest) Hbs Hp), (to_blank_par par bl rest Hpar' Hbl).
  cbn [app].
  assert (E2 : lines doc = (bs ++ p :: par) ++ bl :: rest) by (rewrite E, <- app_assoc; reflexivity).
  destruct (lines_split _ _ _ E2) as (_ & Hl2 & Hf2). specialize (Hf2 ltac:(discriminate)).
  destruct (lines_cons _ _ _ Hl2) as (s' & Hs' & El' & _ & Hbf).
  assert (Hbl' : full bl) by (destruct Hbf as [Hbf|Hbf]; [exact Hbf|contradiction]).
  assert (E3 : lines doc = ((bs ++ p :: par) ++ [bl]) ++ rest) by (rewrite E2, <- !app_assoc; reflexivity).
  destruct (lines_split _ _ _ E3) as (_ & Hl3 & _).
  assert (Ef : Forall full (((bs ++ p :: par) ++ [bl]) ++ map (indented n) (lines note) ++ [[newline]])).
  { apply Forall_app. split; [apply Forall_app; split; [exact Hf2|constructor; [exact Hbl'|constructor]]|].
    apply Forall_app. split.
    - apply Forall_map. eapply Forall_impl; [|exact Hnote]. intros l. apply indented_full.
    - constructor; [|constructor]. exists []. split; [reflexivity|intros []]. }
  replace ((bs ++ [p]) ++ (par ++ [bl]) ++ map (indented n) (lines note) ++ [newline] :: rest)
    with ((((bs ++ p :: par) ++ [bl]) ++ map (indented n) (lines note) ++ [[newline]]) ++ rest)
    by (rewrite <- !app_assoc; reflexivity).
  rewrite concat_app, lines_fulls by exact Ef. rewrite Hl3, <- !app_assoc. reflexivity.
Qed.

(** Spaces in front of a line. *)
Lemma spaces_spec l n : spaces_before l = Some n <-> exists c r, l = repeat blank_char n ++ c :: r /\ white c = false.
Proof.
  revert n. induction l as [|c l IH]; intros n; cbn [spaces_before].
  - split; [discriminate|]. intros (c & r & E & _). destruct n; discriminate.
  - destruct (Ascii.eqb c blank_char) eqn:Ec.
    + apply Ascii.eqb_eq in Ec. subst c. destruct n as [|n].
      * split; [destruct (spaces_before l); discriminate|]. intros (c & r & E & Hw). cbn in E. injection E as <- <-. discriminate.
      * split.
        -- destruct (spaces_before l) as [k|] eqn:Ek; [|discriminate]. cbn. intros E. injection E as ->.
           destruct (proj1 (IH n) eq_refl) as (c & r & -> & Hw). exists c, r. split; [reflexivity|exact Hw].
        -- intros (c & r & E & Hw). cbn in E. injection E as ->. rewrite (proj2 (IH n)); [reflexivity|]. exists c, r. auto.
    + assert (Hc : c <> blank_char) by (intros ->; rewrite Ascii.eqb_refl in Ec; discriminate).
      destruct (white c) eqn:Ew.
      * split; [discriminate|]. intros (c' & r & E & Hw). destruct n; cbn in E; injection E as E1 E2; congruence.
      * split.
        -- intros E. injection E as <-. exists c, l. auto.
        -- intros (c' & r & E & Hw). destruct n; cbn in E; [reflexivity|]. injection E as E1 E2. congruence.
Qed.

Lemma fold_min_le ns : forall n, fold_left Nat.min ns n <= n /\ (forall k, In k ns -> fold_left Nat.min ns n <= k) /\
  (fold_left Nat.min ns n = n \/ In (fold_left Nat.min ns n) ns).
Proof.
  induction ns as [|m ns IH]; intros n; cbn [fold_left]; [split; [lia|split; [intros k []|left; reflexivity]]|].
  destruct (IH (Nat.min n m)) as (H1 & H2 & H3). split; [lia|]. split.
  - intros k [<-|Hk]; [lia|auto].
  - destruct H3 as [H3|H3]; [|right; right; exact H3]. destruct (Nat.min_spec n m) as [[_ E]|[_ E]]; [left|right; left]; congruence.
Qed.

(** The note is indented as the least indented line after the first. *)
Theorem indent_least doc : let n := indent_of (lines doc) in
  let after_first l := In l (tl (lines doc)) in
  (forall l k, after_first l -> spaces_before l = Some k -> n <= k) /\
  ((exists l, after_first l /\ spaces_before l = Some n) \/ (n = 0 /\ forall l, after_first l -> spaces_before l = None)).
Proof.
  cbn zeta. unfold indent_of. set (ls := tl (lines doc)). set (ns := flat_map _ ls).
  assert (Hin : forall k, In k ns <-> exists l, In l ls /\ spaces_before l = Some k).
  { intros k. unfold ns. rewrite in_flat_map. split; intros (l & Hl & Hk); exists l; (split; [exact Hl|]).
    - destruct (spaces_before l); [destruct Hk as [->|[]]; reflexivity|destruct Hk].
    - rewrite Hk. left. reflexivity. }
  destruct ns as [|n ns'].
  - split; [intros l k Hl Hk; exfalso; apply (Hin k); eauto|]. right. split; [reflexivity|]. intros l Hl.
    destruct (spaces_before l) as [k|] eqn:Ek; [|reflexivity]. exfalso. apply (Hin k). eauto.
  - destruct (fold_min_le ns' n) as (H1 & H2 & H3). split.
    + intros l k Hl Hk. assert (Hk' : In k (n :: ns')) by (apply Hin; eauto). destruct Hk' as [<-|Hk']; auto.
    + left. destruct (proj1 (Hin (fold_left Nat.min ns' n))) as (l & Hl & El); [|eauto]. destruct H3 as [->|H3]; [left; reflexivity|right; exact H3].
Qed.
