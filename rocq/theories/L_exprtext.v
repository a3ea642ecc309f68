(** What the text of expressions, the lists of steps and the labels of graphs are to be, and proofs about the model. *)
From Verif Require Import Base L_dict M_labels M_exprtext.
From Coq Require Import NArith Lia.
Open Scope string_scope.
Open Scope list_scope.
Open Scope nat_scope.
Set Default Proof Using "Type".

(** * Specification *)
(** the text of a named step: its name goes after the bracket *)
Definition NamedText (n body : text) : text := of_string "<" ++ n ++ of_string " | " ++ body.
(** names that have no meaning as a replacement: they do not start with a digit, and a backslash is not followed by a letter, a digit
    or a backslash (the name is followed by a space) *)
Definition Special (c : N) : Prop := (48 <= c <= 57 \/ 65 <= c <= 90 \/ 97 <= c <= 122 \/ c = 92)%N.
Definition StartsWithDigit (n : text) : Prop := exists c r, n = c :: r /\ (48 <= c <= 57)%N.
Definition Kept (n : text) : Prop := forall a d b, n = a ++ 92%N :: d :: b -> ~ Special d.
Definition Harmless (n : text) : Prop := ~ StartsWithDigit n /\ Kept n.
(** how a label of a box with a link is read: [<br />] is a line break, entities stand for characters; a lone [<] or [&] is an error *)
Definition entities : list (string * N) := [("&amp;", 38%N); ("&lt;", 60%N); ("&gt;", 62%N); ("&quot;", 34%N); ("&#x27;", 39%N)].
Inductive Reads : text -> text -> Prop :=
| R_nil : Reads [] []
| R_char : forall c l t, c <> 38%N -> c <> 60%N -> Reads l t -> Reads (c :: l) (c :: t)
| R_entity : forall s c l t, In (s, c) entities -> Reads l t -> Reads (of_string s ++ l) (c :: t)
| R_break : forall l t, Reads l t -> Reads (of_string "<br />" ++ l) (10%N :: t).

(** * Lemmas *)
Lemma text_ok_inj : forall a b : text, Ok a = Ok b -> a = b.
Proof. congruence. Qed.
Lemma digit_spec : forall c, is_digit c = true <-> (48 <= c <= 57)%N.
Proof. intros c. unfold is_digit. rewrite andb_true_iff, !N.leb_le. tauto. Qed.
Lemma octal_digit : forall c, is_octal c = true -> is_digit c = true.
Proof. intros c. unfold is_octal, is_digit. rewrite !andb_true_iff, !N.leb_le. lia. Qed.
Lemma letter_spec : forall c, is_letter c = true <-> (65 <= c <= 90 \/ 97 <= c <= 122)%N.
Proof. intros c. unfold is_letter. rewrite orb_true_iff, !andb_true_iff, !N.leb_le. tauto. Qed.
Lemma escape_spec : forall c x, escape_of c = Some x -> Special c.
Proof.
  intros c x. unfold escape_of, Special. cbn [dget].
  repeat (match goal with |- context [if eqd ?a ?b then _ else _] => destruct (eqd a b) as [->|] end; [lia|]). discriminate.
Qed.

Lemma kept_cons : forall c t, c <> 92%N -> Kept t -> Kept (c :: t).
Proof.
  intros c t D K a d b E. destruct a as [|x a]; cbn in E; injection E as -> E; [congruence|]. exact (K a d b E).
Qed.
Lemma kept_tail : forall c t, Kept (c :: t) -> Kept t.
Proof. intros c t K a d b E. apply (K (c :: a) d b). cbn. rewrite E. reflexivity. Qed.
Lemma kept_pair : forall d t, ~ Special d -> Kept t -> Kept (92%N :: d :: t).
Proof.
  intros d t S K a e b E. destruct a as [|x a]; cbn in E.
  - injection E as -> _. exact S.
  - injection E as <- E. refine (kept_cons d t _ K a e b E). intros ->. apply S. unfold Special. lia.
Qed.
Lemma kept_app_sep : forall n, Kept (n ++ separator) <-> Kept n.
Proof.
  intros n. split; intros K a d b E.
  - apply (K a d (b ++ separator)). rewrite E, <- app_assoc. reflexivity.
  - unfold separator in E. change (of_string " | ") with [32; 124; 32]%N in E.
    revert a E. induction n as [|c n IH]; intros a E.
    + exfalso. cbn in E. repeat (destruct a as [|? a]; cbn in E; [discriminate E|injection E as _ E]). destruct a; discriminate E.
    + destruct a as [|x a]; cbn in E.
      * injection E as -> E. destruct n as [|y n]; cbn in E.
        -- injection E as <- _. unfold Special. lia.
        -- injection E as -> E. apply (K [] d n). reflexivity.
      * injection E as -> E. refine (IH (kept_tail _ _ K) a E).
Qed.

Section Proofs.
  Variable identifier : text -> bool.
  Notation expand := (expand identifier).

  (** ** The replacement *)
  Lemma group_named_length : forall whole group n g, length whole <= 1 -> length group <= 1 ->
    group_named identifier whole group n = Ok g -> length g <= 1.
  Proof.
    intros whole group n g W G. unfold group_named. destruct (identifier n); [discriminate|].
    destruct (negb _ || negb _); [discriminate|]. destruct (number n =? 0)%N; [congruence|]. destruct (number n =? 1)%N; congruence.
  Qed.
  Ltac tail H r E := match type of H with
    | bind (M_exprtext.expand identifier ?w ?g None ?x) _ = Ok _ => destruct (M_exprtext.expand identifier w g None x) as [r|] eqn:E;
        [cbn [bind] in H; injection H as <-; cbn [length]; rewrite ?app_length; cbn [length]|discriminate H] end.
  Lemma expand_length : forall whole group, length whole <= 1 -> length group <= 1 -> forall k t, length t <= k ->
    (forall r, expand whole group None t = Ok r -> length r <= length t /\ (length r = length t -> Kept t)) /\
    (forall n r, expand whole group (Some n) t = Ok r -> length r <= length t).
  Proof.
    intros whole group W G. induction k as [|k IH]; intros t L.
    { destruct t; [|cbn in L; lia]. split; [|discriminate]. cbn. intros r E. injection E as <-. split; [lia|].
      intros _ a d b E. destruct a; discriminate E. }
    assert (IHN : forall t' r, length t' <= k -> expand whole group None t' = Ok r -> length r <= length t')
      by (intros t' r L' E; exact (proj1 (proj1 (IH t' L') r E))).
    split.
    - intros r. destruct t as [|c t]; [cbn; intros E; injection E as <-; split; [apply le_n|intros _ a d b E; destruct a; discriminate E]|].
      cbn [M_exprtext.expand]. cbn [length] in L. destruct (c =? backslash)%N eqn:Ec.
      + apply N.eqb_eq in Ec. subst c. destruct t as [|d t]; [discriminate|]. cbn [length] in L.
        destruct (d =? 103)%N; [destruct t as [|e t]; [discriminate|]; destruct (e =? 60)%N; [|discriminate]|].
        { intros E. cbn [length] in L. pose proof (proj2 (IH t ltac:(lia)) _ _ E). cbn [length]. split; [lia|intros; lia]. }
        destruct (d =? 48)%N.
        { destruct t as [|e t]; [intros E; injection E as <-; cbn [length]; split; [lia|intros; lia]|]. cbn [length] in L.
          destruct (is_octal e).
          - destruct t as [|f t]; [intros E; injection E as <-; cbn [length]; split; [lia|intros; lia]|]. cbn [length] in L.
            destruct (is_octal f); (intros E; tail E r' E'; apply IHN in E'; [cbn [length] in *; split; [lia|intros; lia]|cbn [length]; lia]).
          - (intros E; tail E r' E'; apply IHN in E'; [cbn [length] in *; split; [lia|intros; lia]|cbn [length]; lia]). }
        destruct (is_digit d) eqn:Ed.
        { destruct t as [|e t]; [destruct (digit d =? 1)%N; [|discriminate]; intros E; injection E as <-; cbn [length]; split; [lia|intros; lia]|].
          cbn [length] in L. destruct (is_digit e).
          - destruct t as [|f t]; [discriminate|]. cbn [length] in L. destruct (is_octal d && is_octal e && is_octal f); [|discriminate].
            cbv zeta. destruct (255 <? _)%N; [discriminate|].
            (intros E; tail E r' E'; apply IHN in E'; [cbn [length] in *; split; [lia|intros; lia]|cbn [length]; lia]).
          - destruct (digit d =? 1)%N; [|discriminate].
            (intros E; tail E r' E'; apply IHN in E'; [cbn [length] in *; split; [lia|intros; lia]|cbn [length]; lia]). }
        destruct (escape_of d) as [x|] eqn:Ee.
        { (intros E; tail E r' E'; apply IHN in E'; [cbn [length] in *; split; [lia|intros; lia]|cbn [length]; lia]). }
        destruct (is_letter d) eqn:El; [discriminate|].
        intros E; tail E r' E'. destruct (IH t ltac:(lia)) as [A _]. destruct (A _ E') as [A1 A2]. split; [lia|]. intros EL.
        apply kept_pair; [|apply A2; lia].
        unfold Special. intros S. destruct S as [S|[S|[S|S]]].
        * apply (proj2 (digit_spec d)) in S. congruence.
        * assert (is_letter d = true) by (apply letter_spec; lia). congruence.
        * assert (is_letter d = true) by (apply letter_spec; lia). congruence.
        * subst d. discriminate Ee.
      + intros E; tail E r' E'. destruct (IH t ltac:(lia)) as [A _]. destruct (A _ E') as [A1 A2]. split; [lia|]. intros EL.
        apply N.eqb_neq in Ec. apply kept_cons; [exact Ec|]. apply A2. lia.
    - intros n r. destruct t as [|c t]; [discriminate|]. cbn [M_exprtext.expand]. cbn [length] in L.
      destruct (c =? 62)%N.
      + destruct (group_named _ _ _ _) as [g|] eqn:Eg; [|discriminate]. cbn [bind].
        intros E. tail E r' E'. apply IHN in E'; [|lia]. apply (group_named_length _ _ _ _ W G) in Eg. lia.
      + intros E. apply (proj2 (IH t ltac:(lia))) in E. cbn. lia.
  Qed.

  Lemma expand_kept : forall whole group k t, length t <= k -> Kept t -> (forall a, t <> a ++ [92%N]) -> expand whole group None t = Ok t.
  Proof.
    intros whole group. induction k as [|k IH]; intros t L K E; [destruct t; [reflexivity|cbn in L; lia]|].
    destruct t as [|c t]; [reflexivity|]. cbn [length] in L. cbn [M_exprtext.expand].
    destruct (c =? backslash)%N eqn:Ec.
    - apply N.eqb_eq in Ec. subst c. destruct t as [|d t]; [destruct (E [] eq_refl)|].
      pose proof (K [] d t eq_refl) as S. unfold Special in S.
      rewrite (proj2 (N.eqb_neq d 103)) by lia. rewrite (proj2 (N.eqb_neq d 48)) by lia.
      destruct (is_digit d) eqn:Ed; [apply digit_spec in Ed; lia|].
      destruct (escape_of d) as [x|] eqn:Ee; [apply escape_spec in Ee; unfold Special in Ee; lia|].
      destruct (is_letter d) eqn:El; [apply letter_spec in El; lia|].
      cbn [length] in L. rewrite (IH t); [reflexivity|lia| |].
      + exact (kept_tail _ _ (kept_tail _ _ K)).
      + intros a Ea. apply (E (backslash :: d :: a)). rewrite Ea. reflexivity.
    - rewrite (IH t); [reflexivity|lia|exact (kept_tail _ _ K)|]. intros a Ea. apply (E (c :: a)). rewrite Ea. reflexivity.
  Qed.
  Lemma sep_end : forall n a, n ++ separator <> a ++ [92%N].
  Proof.
    intros n a E. apply (f_equal (@rev N)) in E. rewrite !rev_app_distr in E. change (rev separator) with [32; 124; 32]%N in E.
    cbn in E. discriminate E.
  Qed.

  Definition lt : text := [60%N].
  Lemma expand_one : forall whole group e t, is_digit e = false ->
    expand whole group None (backslash :: 49%N :: e :: t) = let! r := expand whole group None (e :: t) in Ok (group ++ r).
  Proof.
    intros whole group e t De. cbn [M_exprtext.expand].
    change (backslash =? backslash)%N with true. change (49 =? 103)%N with false. change (49 =? 48)%N with false.
    change (is_digit 49) with true. change (digit 49 =? 1)%N with true. cbv iota. rewrite De. reflexivity.
  Qed.
  (** the whole replacement, when the name does not start with a digit *)
  Lemma sub_start_nodigit : forall n body, ~ StartsWithDigit n ->
    sub_start identifier ([backslash; 49%N] ++ n ++ separator) (60%N :: body) =
    let! r := expand lt lt None (n ++ separator) in Ok (60%N :: r ++ body).
  Proof.
    intros n body D. unfold sub_start. change (60 =? 60)%N with true. cbv iota.
    assert (S : exists e t, n ++ separator = e :: t /\ is_digit e = false).
    { destruct n as [|c n]; [exists 32%N; eexists; split; reflexivity|].
      exists c. eexists. split; [reflexivity|]. destruct (is_digit c) eqn:E; [|reflexivity].
      destruct D. exists c, n. split; [reflexivity|]. apply digit_spec. exact E. }
    destruct S as (e & t & Et & De). rewrite Et. cbn [app]. rewrite (expand_one _ _ e t De). change [60%N] with lt.
    destruct (expand lt lt None (e :: t)) as [r|]; reflexivity.
  Qed.
  (** when it does *)
  Definition Octal (c : N) : Prop := (48 <= c <= 55)%N.
  Lemma octal_spec : forall c, is_octal c = true <-> Octal c.
  Proof. intros c. unfold is_octal, Octal. rewrite andb_true_iff, !N.leb_le. tauto. Qed.
  Lemma sub_start_octal : forall c d n body, Octal c -> Octal d ->
    sub_start identifier ([backslash; 49%N] ++ (c :: d :: n) ++ separator) (60%N :: body) =
    let! r := expand lt lt None (n ++ separator) in Ok ((64 + 8 * (c - 48) + (d - 48))%N :: r ++ body).
  Proof.
    intros c d n body Oc Od. unfold sub_start. change (60 =? 60)%N with true. cbv iota.
    pose proof (proj2 (octal_spec c) Oc) as Ec. pose proof (proj2 (octal_spec d) Od) as Ed.
    cbn [app M_exprtext.expand].
    change (backslash =? backslash)%N with true. change (49 =? 103)%N with false. change (49 =? 48)%N with false.
    change (is_digit 49) with true. cbv iota. rewrite (octal_digit c Ec), Ec, Ed.
    change (is_octal 49 && true && true) with true. cbv iota zeta. change (digit 49) with 1%N. unfold digit.
    unfold Octal in *. replace (255 <? 64 * 1 + 8 * (c - 48) + (d - 48))%N with false by (symmetry; apply N.ltb_ge; lia).
    change [60%N] with lt. destruct (expand lt lt None (n ++ separator)) as [r|]; [|reflexivity]. reflexivity.
  Qed.
  Lemma sub_start_group : forall c n body, (48 <= c <= 57)%N -> (forall d r, n = d :: r -> Octal c -> ~ Octal d) ->
    sub_start identifier ([backslash; 49%N] ++ (c :: n) ++ separator) (60%N :: body) = Err re_error.
  Proof.
    intros c n body Dc No. unfold sub_start. change (60 =? 60)%N with true. cbv iota.
    pose proof (proj2 (digit_spec c) Dc) as Ec.
    cbn [app M_exprtext.expand].
    change (backslash =? backslash)%N with true. change (49 =? 103)%N with false. change (49 =? 48)%N with false.
    change (is_digit 49) with true. cbv iota. rewrite Ec. change (is_octal 49) with true.
    assert (S : exists e t, n ++ separator = e :: t /\ is_octal c && is_octal e = false).
    { destruct n as [|d n]; [exists 32%N; eexists; split; [reflexivity|]; apply andb_false_iff; right; reflexivity|].
      exists d. eexists. split; [reflexivity|]. apply andb_false_iff.
      destruct (is_octal c) eqn:E1; [|left; reflexivity]. right. destruct (is_octal d) eqn:E2; [|reflexivity].
      destruct (No d n eq_refl); apply octal_spec; assumption. }
    destruct S as (e & t & Et & De). rewrite Et.
    replace (true && is_octal c && is_octal e) with false by (cbn [andb]; symmetry; exact De). reflexivity.
  Qed.

  Theorem named_iff : forall n body,
    sub_start identifier ([backslash; 49%N] ++ n ++ separator) (60%N :: body) = Ok (NamedText n body) <-> Harmless n.
  Proof.
    intros n body. unfold NamedText. change (of_string "<") with [60%N]. change (of_string " | ") with separator. split.
    - intros H.
      assert (D : ~ StartsWithDigit n).
      { intros (c & r & -> & Dc). destruct r as [|d r].
        - rewrite sub_start_group in H; [discriminate H|exact Dc|discriminate].
        - destruct (is_octal c && is_octal d) eqn:Eo.
          + apply andb_true_iff in Eo. destruct Eo as [E1 E2]. apply octal_spec in E1, E2.
            rewrite (sub_start_octal c d r body E1 E2) in H. destruct (expand _ _ _ _); [|discriminate H].
            cbn [bind] in H.
            assert (X : forall (a b : N) (l l' : text), Ok (a :: l) = Ok (b :: l') -> a = b) by congruence.
            cbn [app] in H. apply X in H. unfold Octal in *. lia.
          + rewrite sub_start_group in H; [discriminate H|exact Dc|]. intros d' r' E Oc Od. injection E as <- <-.
            apply octal_spec in Oc, Od. rewrite Oc, Od in Eo. discriminate Eo. }
      split; [exact D|]. rewrite (sub_start_nodigit n body D) in H.
      destruct (expand lt lt None (n ++ separator)) as [r|] eqn:E; [|discriminate H]. cbn [bind] in H.
      apply kept_app_sep. destruct (expand_length lt lt (le_n 1) (le_n 1) _ _ (le_n (length (n ++ separator)))) as [A _].
      apply (proj2 (A r E)). injection H as H. apply (f_equal (@length N)) in H. rewrite !app_length in H. rewrite app_length.
      clear - H. cbn [length] in *. change (length separator) with 3. lia.
    - intros [D K]. rewrite (sub_start_nodigit n body D).
      rewrite (expand_kept lt lt (length (n ++ separator))); [|apply le_n|apply kept_app_sep; exact K|apply sep_end].
      cbn [bind app]. rewrite <- app_assoc. reflexivity.
  Qed.
End Proofs.

Section Lines.
  Variable identifier : text -> bool.
  Variable upper : text -> text.
  Variable line_break : N -> bool.
  Notation repr := (repr identifier).
  Notation simple_repr := (simple_repr identifier upper line_break).
  Notation step_lines := (step_lines identifier upper line_break).

  (** ** Texts of expressions *)
  Definition WithPreview (p : option text) (t : text) : text :=
    match p with None => t | Some s => t ++ heading ++ s end.
  Definition Steps (n : option text) (v : bool) (nd : text) (p : option text) : expr :=
    {| node := nd; is_var := v; name := n; preview := match p with None => None | Some s => Some (Ok s) end |}.

  Theorem repr_named_iff : forall n body p,
    repr (Steps (Some n) false (60%N :: body) p) = Ok (WithPreview p (NamedText n body)) <-> Harmless n.
  Proof.
    intros n body p. rewrite <- (named_iff identifier n body). unfold repr, M_exprtext.repr, Steps. cbn [is_var name node preview].
    destruct (sub_start _ _ _) as [r|] eqn:E; [|split; [discriminate|]; intros H; destruct p; cbn in H; discriminate H].
    cbn [bind]. destruct p as [s|]; cbn [bind WithPreview]; split; intros H; apply text_ok_inj in H; f_equal.
    - apply app_inv_tail in H. exact H.
    - rewrite H. reflexivity.
    - exact H.
    - exact H.
  Qed.
  Theorem repr_unnamed : forall v n nd p, (v = true \/ n = None) -> repr (Steps n v nd p) = Ok (WithPreview p nd).
  Proof. intros v n nd p H. unfold M_exprtext.repr, Steps. cbn. destruct H as [-> | ->]; [|destruct v]; destruct p; reflexivity. Qed.

  Lemma bad_name_repr : forall c r body p, (48 <= c <= 57)%N -> (forall d r', r = d :: r' -> Octal c -> ~ Octal d) ->
    repr (Steps (Some (c :: r)) false (60%N :: body) p) = Err re_error.
  Proof. intros c r body p Dc No. unfold M_exprtext.repr, Steps. cbn [is_var name node]. rewrite (sub_start_group identifier c r body Dc No). reflexivity. Qed.

  (** ** Lists of steps *)
  Theorem steps_fail : forall visits seen i e x, In (i, e) visits -> simple_repr e = Err x -> exists y, step_lines seen visits = Err y.
  Proof.
    induction visits as [|[j e'] visits IH]; intros seen i e x I E; [destruct I|].
    cbn [M_exprtext.step_lines]. destruct I as [I|I].
    - injection I as -> ->. rewrite E. eexists. reflexivity.
    - destruct (simple_repr e') as [l|y]; [|eexists; reflexivity]. cbn [bind].
      destruct (IH (j :: seen) i e x I E) as (y & ->). eexists. reflexivity.
  Qed.
  Theorem steps_lines_spec : forall visits seen lines, step_lines seen visits = Ok lines ->
    length lines = length visits /\
    forall k i e, nth_error visits k = Some (i, e) -> exists l, simple_repr e = Ok l /\
      nth_error lines k = Some (if mem i (seen ++ map fst (firstn k visits)) then of_string "( " ++ l ++ of_string " )*" else l).
  Proof.
    induction visits as [|[j e'] visits IH]; intros seen lines E.
    - injection E as <-. split; [reflexivity|]. intros [|k]; discriminate.
    - cbn [M_exprtext.step_lines] in E. destruct (simple_repr e') as [l|] eqn:El; [|discriminate E]. cbn [bind] in E.
      destruct (step_lines (j :: seen) visits) as [ls|] eqn:Els; [|discriminate E]. cbn [bind] in E. injection E as <-.
      destruct (IH _ _ Els) as [IL IK]. split; [cbn; rewrite IL; reflexivity|].
      intros [|k] i e Hk.
      + injection Hk as -> ->. exists l. split; [exact El|]. cbn [firstn map nth_error]. rewrite app_nil_r. reflexivity.
      + destruct (IK k i e Hk) as (l' & E1 & E2). exists l'. split; [exact E1|]. cbn [nth_error firstn map fst]. rewrite E2.
        assert (M : mem i ((j :: seen) ++ map fst (firstn k visits)) = mem i (seen ++ j :: map fst (firstn k visits))).
        { apply Bool.eq_iff_eq_true. rewrite !mem_true. rewrite !in_app_iff. cbn. tauto. }
        rewrite M. reflexivity.
  Qed.

  (** ** Lines *)
  Hypothesis break_newline : line_break 10 = true.
  Hypothesis break_printable : forall c, (32 <= c <= 126)%N -> line_break c = false.
  Definition OneLine (t : text) : Prop := forall c, In c t -> line_break c = false.
  Definition NoSpace (t : text) : Prop := ~ In 32%N t.

  Lemma first_line_one : forall t r, OneLine t -> first_line line_break (t ++ 10%N :: r) = t.
  Proof using break_newline.
    induction t as [|c t IH]; intros r O; cbn.
    - rewrite break_newline. reflexivity.
    - rewrite (O c (or_introl eq_refl)). f_equal. apply IH. intros x I. apply O. right. exact I.
  Qed.
  Lemma first_line_all : forall t, OneLine t -> first_line line_break t = t.
  Proof.
    induction t as [|c t IH]; intros O; cbn; [reflexivity|]. rewrite (O c (or_introl eq_refl)). f_equal. apply IH. intros x I. apply O. right. exact I.
  Qed.
  Lemma first_word_nospace : forall w r, NoSpace w -> first_word (w ++ 32%N :: r) = (w, 32%N :: r).
  Proof.
    induction w as [|c w IH]; intros r H; cbn; [reflexivity|].
    destruct (c =? 32)%N eqn:E; [apply N.eqb_eq in E; destruct H; left; exact E|].
    rewrite IH; [reflexivity|]. intros I. apply H. right. exact I.
  Qed.
  Lemma removesuffix_last : forall t, removesuffix 62 (t ++ [62%N]) = t.
  Proof. intros t. unfold removesuffix. rewrite rev_app_distr. cbn. apply rev_involutive. Qed.

  Lemma simple_of : forall e p t w r, repr e = Ok (WithPreview p (60%N :: t ++ [62%N])) -> OneLine t -> NoSpace w -> t = w ++ 32%N :: r ->
    simple_repr e = Ok (upper w ++ 32%N :: r).
  Proof using break_newline break_printable.
    intros e p t w r E O W Et. unfold M_exprtext.simple_repr. rewrite E. cbn [bind].
    assert (O' : OneLine (60%N :: t ++ [62%N])).
    { intros c [<-|I]; [apply break_printable; lia|]. apply in_app_or in I. destruct I as [I|[<-|[]]]; [exact (O c I)|apply break_printable; lia]. }
    assert (F : first_line line_break (WithPreview p (60%N :: t ++ [62%N])) = 60%N :: t ++ [62%N]).
    { destruct p as [s|]; cbn [WithPreview]; [|apply first_line_all; exact O']. unfold heading. rewrite <- app_assoc. apply first_line_one. exact O'. }
    rewrite F. destruct (WithPreview p (60%N :: t ++ [62%N])) as [|x l] eqn:EW; [destruct p; discriminate EW|].
    cbn [removeprefix]. change (60 =? 60)%N with true. cbv iota. rewrite removesuffix_last, Et, (first_word_nospace w r W). reflexivity.
  Qed.
  (** the line of a named step: the first word is in capitals, and it is the first word of the name *)
  Theorem simple_named : forall n body p, Harmless n -> OneLine n -> OneLine body -> NoSpace n ->
    simple_repr (Steps (Some n) false (60%N :: body ++ [62%N]) p) = Ok (upper n ++ of_string " | " ++ body).
  Proof using break_newline break_printable.
    intros n body p H O1 O2 W. refine (simple_of _ p (n ++ of_string " | " ++ body) n _ _ _ W eq_refl).
    - rewrite (proj2 (repr_named_iff n (body ++ [62%N]) p) H). f_equal. f_equal. unfold NamedText. change (of_string "<") with [60%N]. cbn [app].
      f_equal. rewrite <- !app_assoc. reflexivity.
    - intros c I. apply in_app_or in I. destruct I as [I|I]; [exact (O1 c I)|]. change (of_string " | ") with [32;124;32]%N in I. apply in_app_or in I.
      destruct I as [I|I]; [|exact (O2 c I)]. apply break_printable. cbn in I. lia.
  Qed.
  Theorem simple_named_words : forall w r body p, Harmless (w ++ 32%N :: r) -> OneLine (w ++ 32%N :: r) -> OneLine body -> NoSpace w ->
    simple_repr (Steps (Some (w ++ 32%N :: r)) false (60%N :: body ++ [62%N]) p) = Ok (upper w ++ 32%N :: r ++ of_string " | " ++ body).
  Proof using break_newline break_printable.
    intros w r body p H O1 O2 W. refine (simple_of _ p ((w ++ 32%N :: r) ++ of_string " | " ++ body) w (r ++ of_string " | " ++ body) _ _ W _).
    - etransitivity; [exact (proj2 (repr_named_iff (w ++ 32%N :: r) (body ++ [62%N]) p) H)|]. f_equal. f_equal. unfold NamedText. change (of_string "<") with [60%N]. cbn [app].
      f_equal. rewrite <- !app_assoc. reflexivity.
    - intros c I. apply in_app_or in I. destruct I as [I|I]; [exact (O1 c I)|]. change (of_string " | ") with [32;124;32]%N in I. apply in_app_or in I.
      destruct I as [I|I]; [|exact (O2 c I)]. apply break_printable. cbn in I. lia.
    - rewrite <- app_assoc. reflexivity.
  Qed.
  (** the line of a step without a name and of a variable *)
  Theorem simple_unnamed : forall v n w r p, (v = true \/ n = None) -> OneLine (w ++ 32%N :: r) -> NoSpace w ->
    simple_repr (Steps n v (60%N :: (w ++ 32%N :: r) ++ [62%N]) p) = Ok (upper w ++ 32%N :: r).
  Proof using break_newline break_printable.
    intros v n w r p H O W. refine (simple_of _ p (w ++ 32%N :: r) w r _ O W eq_refl). apply repr_unnamed. exact H.
  Qed.

End Lines.

  (** ** Labels *)
  Lemma reads_char_inv : forall c l t, c <> 38%N -> c <> 60%N -> Reads (c :: l) t -> exists t', Reads l t' /\ t = c :: t'.
  Proof.
    intros c l t A B R. remember (c :: l) as x eqn:E1. destruct R as [|c' l' t' _ _ R'|s c' l' t' I R'|l' t' R']; [discriminate E1| | |].
    - injection E1 as -> ->. exists t'. split; [exact R'|reflexivity].
    - exfalso. cbn in I. repeat (destruct I as [I|I]; [injection I as <- <-; cbn in E1; injection E1 as E1 _; congruence|]). destruct I.
    - exfalso. cbn in E1. injection E1 as E1 _. congruence.
  Qed.
  Lemma reads_lt_inv : forall b t, Reads (60%N :: b) t -> exists b' t', b = of_string "br />" ++ b' /\ Reads b' t' /\ t = 10%N :: t'.
  Proof.
    intros b t R. remember (60%N :: b) as x eqn:E1. destruct R as [|c' l' t' _ N R'|s c' l' t' I R'|l' t' R']; [discriminate E1|congruence| |].
    - exfalso. cbn in I. repeat (destruct I as [I|I]; [injection I as <- <-; cbn in E1; discriminate E1|]). destruct I.
    - cbn in E1. injection E1 as <-. exists l', t'. split; [reflexivity|]. split; [exact R'|reflexivity].
  Qed.
  Lemma reads_entity_inv : forall s c l t, In (s, c) entities -> Reads (of_string s ++ l) t -> exists t', Reads l t' /\ t = c :: t'.
  Proof.
    intros s c l t I R.
    assert (H : exists r, of_string s = 38%N :: r) by (cbn in I; repeat (destruct I as [I|I]; [injection I as <- <-; eexists; reflexivity|]); destruct I).
    destruct H as (r & Er).
    remember (of_string s ++ l) as x eqn:E1. destruct R as [|c' l' t' N _ R'|s' c' l' t' I' R'|l' t' R'].
    - rewrite Er in E1. discriminate E1.
    - rewrite Er in E1. cbn in E1. injection E1 as E1 _. congruence.
    - cbn in I, I'.
      repeat (destruct I as [I|I]; [injection I as <- <-;
        repeat (destruct I' as [I'|I']; [injection I' as <- <-; cbn in E1; first [discriminate E1 | injection E1 as <-; eexists; split; [exact R'|reflexivity]]|]); destruct I'|]).
      destruct I.
    - rewrite Er in E1. cbn in E1. discriminate E1.
  Qed.
  Lemma reads_escaped : forall s l t, Reads l t -> ~ In 10%N s -> Reads (html_escape s ++ l) (s ++ t).
  Proof.
    induction s as [|c s IH]; intros l t R N; [exact R|]. unfold html_escape. cbn [flat_map]. rewrite <- app_assoc. fold (html_escape s). cbn [app].
    assert (R' : Reads (html_escape s ++ l) (s ++ t)) by (apply IH; [exact R|intros I; apply N; right; exact I]).
    unfold html_char.
    destruct (c =? 38)%N eqn:E1; [apply N.eqb_eq in E1; subst c; apply R_entity; [cbn; tauto|exact R']|].
    destruct (c =? 60)%N eqn:E2; [apply N.eqb_eq in E2; subst c; apply R_entity; [cbn; tauto|exact R']|].
    destruct (c =? 62)%N eqn:E3; [apply N.eqb_eq in E3; subst c; apply R_entity; [cbn; tauto|exact R']|].
    destruct (c =? 34)%N eqn:E4; [apply N.eqb_eq in E4; subst c; apply R_entity; [cbn; tauto|exact R']|].
    destruct (c =? 39)%N eqn:E5; [apply N.eqb_eq in E5; subst c; apply R_entity; [cbn; tauto|exact R']|].
    apply N.eqb_neq in E1, E2. cbn [app]. apply R_char; assumption.
  Qed.

  Definition Plain (t : text) : Prop := ~ In 38%N t /\ ~ In 60%N t.
  Lemma reads_plain : forall s l t, Plain s -> Reads l t -> Reads (s ++ l) (s ++ t).
  Proof.
    induction s as [|c s IH]; intros l t [A B] R; [exact R|]. cbn [app]. apply R_char.
    - intros ->. apply A. left. reflexivity.
    - intros ->. apply B. left. reflexivity.
    - apply IH; [|exact R]. split; intros I; [apply A|apply B]; right; exact I.
  Qed.
  Lemma reads_plain_inv : forall s l t, Plain s -> Reads (s ++ l) t -> exists t', Reads l t'.
  Proof.
    induction s as [|c s IH]; intros l t [A B] R; [exists t; exact R|]. cbn [app] in R. apply reads_char_inv in R.
    - destruct R as (t' & R & _). apply (IH l t'); [|exact R]. split; intros I; [apply A|apply B]; right; exact I.
    - intros ->. apply A. left. reflexivity.
    - intros ->. apply B. left. reflexivity.
  Qed.
  Lemma reads_escaped_inv : forall s l t, Reads (html_escape s ++ l) t -> exists t', Reads l t'.
  Proof.
    induction s as [|c s IH]; intros l t R; [exists t; exact R|].
    unfold html_escape in R. cbn [flat_map] in R. rewrite <- app_assoc in R. fold (html_escape s) in R. unfold html_char in R.
    assert (X : exists t', Reads (html_escape s ++ l) t').
    { destruct (c =? 38)%N eqn:E1; [destruct (reads_entity_inv "&amp;" 38%N _ _ ltac:(cbn; tauto) R) as (t' & R' & _); exists t'; exact R'|].
      destruct (c =? 60)%N eqn:E2; [destruct (reads_entity_inv "&lt;" 60%N _ _ ltac:(cbn; tauto) R) as (t' & R' & _); exists t'; exact R'|].
      destruct (c =? 62)%N; [destruct (reads_entity_inv "&gt;" 62%N _ _ ltac:(cbn; tauto) R) as (t' & R' & _); exists t'; exact R'|].
      destruct (c =? 34)%N; [destruct (reads_entity_inv "&quot;" 34%N _ _ ltac:(cbn; tauto) R) as (t' & R' & _); exists t'; exact R'|].
      destruct (c =? 39)%N; [destruct (reads_entity_inv "&#x27;" 39%N _ _ ltac:(cbn; tauto) R) as (t' & R' & _); exists t'; exact R'|].
      apply N.eqb_neq in E1, E2. cbn [app] in R. destruct (reads_char_inv _ _ _ E1 E2 R) as (t' & R' & _). exists t'. exact R'. }
    destruct X as (t' & R'). exact (IH l t' R').
  Qed.
  Lemma breaks_id : forall t, ~ In 10%N t -> breaks t = t.
  Proof.
    induction t as [|c t IH]; intros N; [reflexivity|]. unfold breaks. cbn [flat_map]. fold (breaks t).
    destruct (c =? 10)%N eqn:E; [apply N.eqb_eq in E; destruct N; left; exact E|]. cbn [app]. f_equal. apply IH. intros I. apply N. right. exact I.
  Qed.
  Lemma breaks_app : forall a b, breaks (a ++ b) = breaks a ++ breaks b.
  Proof. intros a b. unfold breaks. apply flat_map_app. Qed.
  Lemma html_no_newline : forall t, ~ In 10%N t -> ~ In 10%N (html_escape t).
  Proof.
    intros t N I. unfold html_escape in I. apply in_flat_map in I. destruct I as (c & Ic & I). unfold html_char in I.
    repeat match type of I with In _ (if ?b then _ else _) => destruct b end; cbn in I;
      repeat (destruct I as [I|I]; [try discriminate I|]); try contradiction.
    subst c. exact (N Ic).
  Qed.
  Lemma plain_breaks : forall t, Plain t -> forall l r, Reads l r -> Reads (breaks t ++ l) (t ++ r).
  Proof.
    induction t as [|c t IH]; intros [A B] l r R; [exact R|]. unfold breaks. cbn [flat_map]. fold (breaks t). rewrite <- app_assoc.
    assert (P : Plain t) by (split; intros I; [apply A|apply B]; right; exact I).
    destruct (c =? 10)%N eqn:E.
    - apply N.eqb_eq in E. subst c. exact (R_break _ _ (IH P l r R)).
    - cbn [app]. apply R_char; [intros ->; apply A; left; reflexivity|intros ->; apply B; left; reflexivity|exact (IH P l r R)].
  Qed.

  Lemma removeprefix_in : forall x t c, In c (removeprefix x t) -> In c t.
  Proof. intros x [|a t] c I; [exact I|]. cbn in I. destruct (a =? x)%N; [right|]; exact I. Qed.
  Lemma first_word_in : forall t c, In c (fst (first_word t)) \/ In c (snd (first_word t)) -> In c t.
  Proof.
    induction t as [|a t IH]; intros c; cbn; [tauto|]. destruct (a =? 32)%N; cbn; [tauto|].
    specialize (IH c). destruct (first_word t) as [u v]. cbn in *. tauto.
  Qed.

Section Labels.
  Variable identifier : text -> bool.
  Variable upper : text -> text.
  Variable line_break : N -> bool.
  Variable quoted : text -> text.
  Hypothesis break_newline : line_break 10 = true.
  Hypothesis upper_newline : forall t, ~ In 10%N t -> ~ In 10%N (upper t).
  Notation simple_repr := (simple_repr identifier upper line_break).
  Notation label := (label identifier upper line_break quoted).

  Lemma first_line_newline : forall t, ~ In 10%N (first_line line_break t).
  Proof using break_newline.
    induction t as [|c t IH]; cbn; [exact (fun x => x)|]. destruct (line_break c) eqn:E; [exact (fun x => x)|]. intros [->|I]; [congruence|exact (IH I)].
  Qed.
  Lemma simple_no_newline : forall e t, simple_repr e = Ok t -> ~ In 10%N t.
  Proof using break_newline upper_newline.
    intros e t. unfold M_exprtext.simple_repr. destruct (repr identifier e) as [[|x r]|]; [discriminate| |discriminate]. cbn [bind].
    pose proof (first_line_newline (x :: r)) as F. set (fl := first_line line_break (x :: r)) in *. clearbody fl.
    assert (F' : ~ In 10%N (removesuffix 62 (removeprefix 60 fl))).
    { unfold removesuffix. intros I. apply in_rev in I. apply removeprefix_in in I. apply in_rev in I. apply removeprefix_in in I. exact (F I). }
    set (u := removesuffix 62 (removeprefix 60 fl)) in *. clearbody u.
    pose proof (first_word_in u 10%N) as W. destruct (first_word u) as [a b]. cbn in W. intros E. injection E as <-. intros I.
    apply in_app_or in I. destruct I as [I|I]; [|exact (F' (W (or_intror I)))]. refine (upper_newline a _ I). intros J. exact (F' (W (or_introl J))).
  Qed.

  Theorem label_unnamed : forall mark e t, Plain mark -> (is_var e = true \/ name e = None) -> simple_repr e = Ok t ->
    exists l, label mark true e = Ok l /\ Reads l (mark ++ t).
  Proof using break_newline upper_newline.
    intros mark e t M U E. unfold M_exprtext.label. rewrite E. cbn [bind]. eexists. split; [reflexivity|].
    replace (if is_var e then None else name e) with (@None text) by (destruct U as [-> | ->]; [|destruct (is_var e)]; reflexivity).
    rewrite breaks_app. apply plain_breaks; [exact M|].
    pose proof (simple_no_newline e t E) as N. rewrite breaks_id by (apply html_no_newline; exact N).
    pose proof (reads_escaped t [] [] R_nil N) as R. rewrite !app_nil_r in R. exact R.
  Qed.
  Theorem label_named : forall mark e t n, Plain mark -> is_var e = false -> name e = Some n -> Plain (quoted n) -> simple_repr e = Ok t ->
    exists l, label mark true e = Ok l /\ Reads l (mark ++ t ++ 10%N :: quoted n).
  Proof using break_newline upper_newline.
    intros mark e t n M V En Q E. unfold M_exprtext.label. rewrite E, V, En. cbn [bind]. eexists. split; [reflexivity|].
    rewrite breaks_app. apply plain_breaks; [exact M|].
    pose proof (simple_no_newline e t E) as N. rewrite !breaks_app, breaks_id by (apply html_no_newline; exact N).
    apply reads_escaped; [|exact N]. change (breaks [10%N]) with (of_string "<br />" ++ []). rewrite app_nil_r. apply R_break.
    pose proof (plain_breaks (quoted n) Q [] [] R_nil) as R. rewrite !app_nil_r in R. exact R.
  Qed.
  Theorem label_bad : forall mark e n p r, Plain mark -> is_var e = false -> name e = Some n ->
    quoted n = p ++ 60%N :: r -> Plain p -> ~ In 10%N (p ++ 60%N :: r) -> (forall r', r <> of_string "br />" ++ r') ->
    forall l t, label mark true e = Ok l -> ~ Reads l t.
  Proof using break_newline upper_newline.
    intros mark e n p r M V En Q P N B l t E R. unfold M_exprtext.label in E. destruct (simple_repr e) as [s|] eqn:Es; [|discriminate E].
    rewrite V, En in E. cbn [bind] in E. apply text_ok_inj in E. subst l. rewrite Q in R.
    pose proof (simple_no_newline e s Es) as Ns. rewrite !breaks_app in R.
    rewrite (breaks_id (html_escape s)) in R by (apply html_no_newline; exact Ns).
    assert (R1 : exists t1, Reads (html_escape s ++ breaks [10%N] ++ breaks p ++ breaks (60%N :: r)) t1).
    { revert R. generalize (html_escape s ++ breaks [10%N] ++ breaks p ++ breaks (60%N :: r)). clear - M. revert t M.
      induction mark as [|c m IH]; intros t [A B] x R; [exists t; exact R|]. unfold breaks in R. cbn [flat_map] in R. fold (breaks m) in R. rewrite <- app_assoc in R.
      assert (P : Plain m) by (split; intros I; [apply A|apply B]; right; exact I).
      destruct (c =? 10)%N.
      - change (of_string "<br />" ++ breaks m ++ x) with (60%N :: of_string "br />" ++ breaks m ++ x) in R.
        apply reads_lt_inv in R. destruct R as (b' & t' & Eb & R & _). apply app_inv_head in Eb. subst b'. exact (IH t' P x R).
      - cbn [app] in R. destruct (reads_char_inv c (breaks m ++ x) t) as (t' & R' & _);
          [intros ->; apply A; left; reflexivity|intros ->; apply B; left; reflexivity|exact R|]. exact (IH t' P x R'). }
    destruct R1 as (t1 & R1). apply reads_escaped_inv in R1. destruct R1 as (t2 & R2).
    change (breaks [10%N]) with (60%N :: of_string "br />" ++ []) in R2. cbn [app] in R2. rewrite app_nil_r in R2.
    change ((60%N :: of_string "br />") ++ breaks p ++ breaks (60%N :: r)) with (60%N :: of_string "br />" ++ breaks p ++ breaks (60%N :: r)) in R2.
    apply reads_lt_inv in R2. destruct R2 as (b' & t3 & Eb & R3 & _). apply app_inv_head in Eb. subst b'.
    rewrite <- breaks_app, breaks_id in R3 by exact N.
    apply reads_plain_inv in R3; [|exact P]. destruct R3 as (t4 & R4). apply reads_lt_inv in R4. destruct R4 as (b' & _ & Eb & _). exact (B b' Eb).
  Qed.
End Labels.

(** ** Names *)
Lemma check_name_ok : forall t of_var, check_name (NStr t) of_var = Ok (Some t) <-> (forall r, t <> of_string "_skrub_" ++ r).
Proof.
  intros t v. unfold check_name. destruct (eqb_of (firstn 7 t) (of_string "_skrub_")) eqn:E.
  - pose proof (proj1 (eqb_of_true _ _) E) as E'. split; [discriminate|]. intros H. destruct (H (skipn 7 t)). rewrite <- E'. symmetry. apply firstn_skipn.
  - split; [|reflexivity]. intros _ r ->. rewrite (proj2 (eqb_of_true _ _)) in E; [discriminate E|reflexivity].
Qed.
Lemma harmless_ascii : forall t, match t with c :: _ => is_digit c | [] => false end = false -> existsb (N.eqb 92) t = false -> Harmless t.
Proof.
  intros t D B. split.
  - intros (c & r & -> & Dc). apply digit_spec in Dc. congruence.
  - intros a d b ->. exfalso. rewrite existsb_app in B. cbn in B. rewrite Bool.orb_true_r in B. discriminate B.
Qed.
Lemma steps_fail_digit : forall identifier upper line_break visits i c r body p, (48 <= c <= 57)%N ->
  (forall d r', r = d :: r' -> Octal c -> ~ Octal d) -> In (i, Steps (Some (c :: r)) false (60%N :: body) p) visits ->
  exists x, step_lines identifier upper line_break [] visits = Err x.
Proof.
  intros identifier upper line_break visits i c r body p Dc No I. apply (steps_fail identifier upper line_break visits [] i _ re_error I).
  unfold simple_repr. rewrite (bad_name_repr identifier c r body p Dc No). reflexivity.
Qed.
