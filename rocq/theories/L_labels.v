(** Lemmas about labels of plots and percentages. *)
From Coq Require Import QArith Qround Qabs Lqa.
From Verif Require Import Base M_labels.
From Coq Require Import NArith.
Open Scope string_scope.
Open Scope list_scope.
Open Scope nat_scope.
Set Default Proof Using "Type".

Section Ellide.
  Variable is_space : N -> bool.
  Variable bidi : N -> string.
  Notation normalize := (normalize is_space).
  Notation strip := (strip is_space).
  Notation lstrip := (lstrip is_space).
  Notation ellide := (ellide is_space bidi).

  Definition AllSpaces (t : text) : Prop := Forall (fun c => is_space c = true) t.
  Definition StartsBare (t : text) : Prop := match t with c :: _ => is_space c = false | [] => True end.
  (** [n] is [t] with each run of spaces replaced by one blank *)
  Inductive Norm : text -> text -> Prop :=
  | Norm_nil : Norm [] []
  | Norm_char c t n : is_space c = false -> Norm t n -> Norm (c :: t) (c :: n)
  | Norm_run ws t n : ws <> [] -> AllSpaces ws -> StartsBare t -> Norm t n -> Norm (ws ++ t) (32%N :: n).

  Lemma split_spaces : forall t, exists ws r, t = ws ++ r /\ AllSpaces ws /\ StartsBare r /\ normalize true t = normalize true r /\ length r <= length t.
  Proof.
    induction t as [|c t (ws & r & E & A & B & N & L)].
    - exists [], []. repeat split; constructor.
    - destruct (is_space c) eqn:S.
      + exists (c :: ws), r. cbn. rewrite S, E. repeat split; try assumption; [constructor; assumption|rewrite <- E; exact N|rewrite <- E; lia].
      + exists [], (c :: t). repeat split; [constructor|exact S|lia].
  Qed.
  Lemma normalize_bare : forall t, StartsBare t -> normalize true t = normalize false t.
  Proof. intros [|c t] B; [reflexivity|]. cbn in *. rewrite B. reflexivity. Qed.
  Lemma norm_ok : forall t, Norm t (normalize false t).
  Proof.
    intros t. remember (length t) as k eqn:K. assert (L : length t <= k) by lia. clear K. revert t L. induction k as [|k IH]; intros [|c t] L; try constructor; cbn in L; [lia|].
    cbn. destruct (is_space c) eqn:S.
    - destruct (split_spaces t) as (ws & r & E & A & B & N & Lr). rewrite N, (normalize_bare r B). rewrite E. change (c :: ws ++ r) with ((c :: ws) ++ r).
      apply Norm_run; [discriminate|constructor; assumption|exact B|]. apply IH. lia.
    - apply Norm_char; [exact S|]. apply IH. lia.
  Qed.
  Lemma lstrip_spec : forall t, exists a, t = a ++ lstrip t /\ AllSpaces a /\ StartsBare (lstrip t).
  Proof.
    induction t as [|c t (a & E & A & B)]; [exists []; repeat split; constructor|]. cbn. destruct (is_space c) eqn:S.
    - exists (c :: a). cbn. rewrite <- E. repeat split; [constructor; assumption|exact B].
    - exists []. repeat split; [constructor|exact S].
  Qed.
  Lemma strip_spec : forall t, exists a b, t = a ++ strip t ++ b /\ AllSpaces a /\ AllSpaces b /\ StartsBare (strip t) /\ StartsBare (rev (strip t)).
  Proof.
    intros t. unfold M_labels.strip. destruct (lstrip_spec t) as (a & E & A & B). destruct (lstrip_spec (rev (lstrip t))) as (b & E' & A' & B').
    set (u := lstrip t) in *. set (v := lstrip (rev u)) in *. exists a, (rev b). rewrite rev_involutive.
    assert (Eu : u = rev v ++ rev b) by (rewrite <- rev_app_distr, <- E', rev_involutive; reflexivity).
    split; [rewrite E at 1; rewrite Eu at 1; reflexivity|]. split; [exact A|]. split; [unfold AllSpaces in *; apply Forall_rev; exact A'|]. split; [|exact B'].
    rewrite Eu in B. destruct (rev v) as [|x l]; [exact I|exact B].
  Qed.

  (** writing direction of a character, if it has one *)
  Definition Direction (c : N) (d : string) : Prop :=
    In (bidi c) ["R"; "RLE"; "RLO"; "RLI"] /\ d = "R" \/ In (bidi c) ["AL"] /\ d = "AL" \/ In (bidi c) ["L"; "LRE"; "LRO"; "LRI"] /\ d = "L".
  Definition MarksOk : Prop := bidi 8207 = "R" /\ bidi 1564 = "AL" /\ bidi 8206 = "L".
  Lemma end_mark_spec : MarksOk -> forall shown, length (end_mark bidi shown) <= 1 /\
    (forall l c d, shown = l ++ [c] -> Direction c d -> exists m, end_mark bidi shown = [m] /\ Direction m d) /\
    (forall l c, shown = l ++ [c] -> (forall d, ~ Direction c d) -> end_mark bidi shown = []).
  Proof.
    intros (M1 & M2 & M3) shown. unfold end_mark. split.
    - destruct (rev shown) as [|c r]; [cbn; lia|]. destruct (mem _ _); [cbn; lia|]. destruct (mem _ _); [cbn; lia|]. destruct (mem _ _); cbn; lia.
    - split.
      + intros l c d -> D. rewrite rev_app_distr. cbn [rev app].
        destruct D as [[I ->]|[[I ->]|[I ->]]].
        * rewrite (proj2 (mem_true _ _) I). eexists. split; [reflexivity|]. left. rewrite M1. split; [left; reflexivity|reflexivity].
        * assert (N1 : mem (bidi c) ["R"; "RLE"; "RLO"; "RLI"] = false) by (destruct I as [<-|[]]; reflexivity). rewrite N1, (proj2 (mem_true _ _) I).
          eexists. split; [reflexivity|]. right; left. rewrite M2. split; [left; reflexivity|reflexivity].
        * assert (N1 : mem (bidi c) ["R"; "RLE"; "RLO"; "RLI"] = false /\ mem (bidi c) ["AL"] = false) by (destruct I as [<-|[<-|[<-|[<-|[]]]]]; split; reflexivity).
          destruct N1 as [N1 N2]. rewrite N1, N2, (proj2 (mem_true _ _) I). eexists. split; [reflexivity|]. right; right. rewrite M3. split; [left; reflexivity|reflexivity].
      + intros l c -> N. rewrite rev_app_distr. cbn [rev app].
        destruct (mem (bidi c) ["R"; "RLE"; "RLO"; "RLI"]) eqn:E1; [apply mem_true in E1; destruct (N "R"); left; auto|].
        destruct (mem (bidi c) ["AL"]) eqn:E2; [apply mem_true in E2; destruct (N "AL"); right; left; auto|].
        destruct (mem (bidi c) ["L"; "LRE"; "LRO"; "LRI"]) eqn:E3; [apply mem_true in E3; destruct (N "L"); right; right; auto|]. reflexivity.
  Qed.

  (** labels: the text with single blanks if it is short, otherwise its start, an ellipsis and at most a mark of the direction of the last character *)
  Theorem label_ok : MarksOk -> forall m t, exists n, Norm t n /\ length (ellide m t) <= m + 2 /\
    (length n <= m -> ellide m t = n) /\
    (m < length n -> exists a shown b mark, firstn m n = a ++ shown ++ b /\ AllSpaces a /\ AllSpaces b /\ StartsBare shown /\ StartsBare (rev shown) /\
       ellide m t = shown ++ [8230%N] ++ mark /\ length mark <= 1 /\
       (forall l c d, shown = l ++ [c] -> Direction c d -> exists k, mark = [k] /\ Direction k d)).
  Proof.
    intros Mk m t. exists (normalize false t). split; [apply norm_ok|]. unfold M_labels.ellide. cbv zeta. set (n := normalize false t).
    destruct (strip_spec (firstn m n)) as (a & b & E & A & B & C & D). destruct (end_mark_spec Mk (strip (firstn m n))) as (L1 & L2 & _).
    destruct (Nat.leb_spec (length n) m) as [L|L].
    - split; [lia|]. split; [reflexivity|]. intros X. lia.
    - split; [|split; [intros X; lia|]].
      + pose proof (f_equal (@length N) E) as X. rewrite !app_length in X. rewrite firstn_length in X. rewrite !app_length. cbn [length]. lia.
      + intros _. exists a, (strip (firstn m n)), b, (end_mark bidi (strip (firstn m n))). repeat split; try assumption.
  Qed.
End Ellide.

(** ** Texts in the figure *)
(** matches do not go beyond [c], and do not depend on what follows it *)
Definition Boundary (m : matcher) (c : N) : Prop := forall a b, ~ In c a -> m (a ++ c :: b) = m a.
Definition Bounded (m : matcher) : Prop := forall t k r, m t = Some (k, r) -> k <= length t.
Definition NoMatch (m : matcher) (t : text) : Prop := forall a s, t = a ++ s -> m s = None.

Lemma in_split_first : forall (c : N) t, In c t -> exists p q, t = p ++ c :: q /\ ~ In c p.
Proof.
  intros c t. induction t as [|x t IH]; [intros []|]. intros I. destruct (N.eq_dec x c) as [->|N].
  - exists [], t. split; [reflexivity|intros []].
  - destruct I as [->|I]; [contradiction|]. destruct (IH I) as (p & q & -> & Np). exists (x :: p), q. split; [reflexivity|]. intros [->|J]; [contradiction|contradiction].
Qed.
Lemma boundary_any : forall m c, Boundary m c -> forall a b, m (a ++ c :: b) = m a.
Proof.
  intros m c B a b. destruct (in_dec N.eq_dec c a) as [I|N]; [|apply B; exact N].
  destruct (in_split_first c a I) as (p & q & -> & Np). rewrite <- app_assoc. cbn [app]. rewrite (B p _ Np), (B p q Np). reflexivity.
Qed.
Lemma sub_split_n : forall m c, Boundary m c -> Bounded m -> forall a b k, k <= length a ->
  sub_n m k (a ++ c :: b) = let! x := sub_n m k a in let! y := sub_n m 0 b in Ok (x ++ c :: y).
Proof.
  intros m c B Bd. induction a as [|x a IH]; intros b k L; cbn [length] in L.
  - assert (k = 0) by lia. subst k. cbn [app sub_n]. pose proof (boundary_any m c B [] b) as E. cbn [app] in E. rewrite E.
    destruct (m []) as [[[|k] r]|] eqn:E0; [reflexivity| |reflexivity]. apply Bd in E0. cbn in E0. lia.
  - destruct k as [|k]; cbn [app sub_n]; [|apply IH; lia].
    pose proof (boundary_any m c B (x :: a) b) as E. cbn [app] in E. rewrite E.
    destruct (m (x :: a)) as [[[|k] r]|] eqn:E0.
    + rewrite (IH b 0) by lia. destruct (sub_n m 0 a) as [u|e]; [|reflexivity]. cbn [bind]. destruct (sub_n m 0 b); reflexivity.
    + apply Bd in E0. cbn in E0. destruct r as [r|e]; [|reflexivity]. cbn [bind]. rewrite (IH b k) by lia. destruct (sub_n m k a) as [u|e]; [|reflexivity]. cbn [bind].
      destruct (sub_n m 0 b) as [y|e]; [|reflexivity]. cbn [bind]. rewrite app_assoc. reflexivity.
    + rewrite (IH b 0) by lia. destruct (sub_n m 0 a) as [u|e]; [|reflexivity]. cbn [bind]. destruct (sub_n m 0 b); reflexivity.
Qed.
Lemma sub_split : forall m c, Boundary m c -> Bounded m -> forall a b, sub m (a ++ c :: b) = let! x := sub m a in let! y := sub m b in Ok (x ++ c :: y).
Proof. intros m c B Bd a b. apply sub_split_n; [exact B|exact Bd|lia]. Qed.
Lemma sub_none : forall m t, NoMatch m t -> sub m t = Ok t.
Proof.
  intros m t. unfold sub. induction t as [|c t IH]; intros N; [reflexivity|]. cbn [sub_n]. rewrite (N [] (c :: t) eq_refl).
  rewrite IH; [reflexivity|]. intros a s ->. apply (N (c :: a)). reflexivity.
Qed.
Lemma sub_block : forall m, Boundary m 62%N -> Boundary m 60%N -> Bounded m -> forall pre body post, NoMatch m body ->
  sub m (pre ++ [62%N] ++ body ++ [60%N] ++ post) = let! x := sub m pre in let! y := sub m post in Ok (x ++ [62%N] ++ body ++ [60%N] ++ y).
Proof.
  intros m B1 B2 Bd pre body post N. cbn [app]. rewrite (sub_split m _ B1 Bd), (sub_split m _ B2 Bd), (sub_none m body N).
  destruct (sub m pre) as [x|e]; [|reflexivity]. cbn [bind]. destruct (sub m post) as [y|e]; reflexivity.
Qed.

(** the three substitutions *)
Lemma after_prefix_app : forall p c, ~ In c p -> forall a b, after_prefix p (a ++ c :: b) = match after_prefix p a with Some r => Some (r ++ c :: b) | None => None end.
Proof.
  induction p as [|x p IH]; intros c N a b; [reflexivity|]. destruct a as [|y a]; cbn [app after_prefix].
  - destruct (N.eqb_spec x c) as [->|_]; [exfalso; apply N; left; reflexivity|reflexivity].
  - destruct (x =? y)%N; [|reflexivity]. apply IH. intros I. apply N. right. exact I.
Qed.
Lemma after_prefix_eq : forall p t r, after_prefix p t = Some r -> t = p ++ r.
Proof.
  induction p as [|x p IH]; intros t r E; cbn in E; [injection E as ->; reflexivity|]. destruct t as [|y t]; [discriminate|].
  destruct (N.eqb_spec x y) as [->|_]; [|discriminate]. cbn. f_equal. apply IH. exact E.
Qed.
Lemma literal_boundary : forall p r c, ~ In c p -> Boundary (literal p r) c.
Proof. intros p r c N a b _. unfold literal. rewrite (after_prefix_app p c N). destruct (after_prefix p a); reflexivity. Qed.
Lemma literal_bounded : forall p r, Bounded (literal p r).
Proof.
  intros p r t k x E. unfold literal in E. destruct (after_prefix p t) as [u|] eqn:Eu; [|discriminate]. injection E as <- _.
  apply after_prefix_eq in Eu. subst t. rewrite app_length. lia.
Qed.
Definition is_digit (c : N) : bool := ((48 <=? c) && (c <=? 57) || (c =? 46))%N.
Lemma digits_app : forall c, is_digit c = false -> forall a b, digits (a ++ c :: b) = digits a.
Proof.
  intros c D. induction a as [|x a IH]; intros b.
  - cbn [app digits]. unfold is_digit in D. rewrite D. reflexivity.
  - cbn [app digits]. destruct (_ || _)%bool; [|reflexivity]. rewrite IH. reflexivity.
Qed.
Lemma digits_length : forall t, length (digits t) <= length t.
Proof. induction t as [|c t IH]; [cbn; lia|]. cbn [digits]. destruct (_ || _)%bool; cbn [length]; lia. Qed.
Section Size.
  Variable em : text -> res text.
  Lemma size_of_boundary : forall attr c, ~ In c (of_string attr ++ [61; 34]%N) -> ~ In c [112; 116; 34]%N -> is_digit c = false ->
    forall a b, size_of em attr (a ++ c :: b) = size_of em attr a.
  Proof.
    intros attr c N1 N2 D a b. unfold size_of. rewrite (after_prefix_app _ c N1). destruct (after_prefix (of_string attr ++ [61; 34]%N) a) as [t1|]; [|reflexivity].
    cbv zeta. rewrite (digits_app c D). destruct (length (digits t1) =? 0); [reflexivity|]. pose proof (digits_length t1) as L.
    rewrite skipn_app. replace (length (digits t1) - length t1) with 0 by lia. cbn [skipn]. rewrite (after_prefix_app _ c N2).
    destruct (after_prefix _ (skipn (length (digits t1)) t1)); reflexivity.
  Qed.
  Lemma size_of_bounded : forall attr t k r, size_of em attr t = Some (k, r) -> k <= length t.
  Proof.
    intros attr t k r E. unfold size_of in E. destruct (after_prefix (of_string attr ++ [61; 34]%N) t) as [t1|] eqn:E1; [|discriminate]. cbv zeta in E.
    destruct (length (digits t1) =? 0); [discriminate|]. destruct (after_prefix _ (skipn (length (digits t1)) t1)) as [t2|] eqn:E2; [|discriminate]. injection E as <- _.
    apply after_prefix_eq in E1, E2. subst t. rewrite !app_length. cbn [length]. pose proof (f_equal (@length N) E2) as X. rewrite skipn_length, app_length in X. cbn [length] in X.
    pose proof (digits_length t1). lia.
  Qed.
  Lemma size_boundary : forall c, ~ In c (of_string "width" ++ [61; 34]%N) -> ~ In c (of_string "height" ++ [61; 34]%N) -> ~ In c [112; 116; 34]%N -> is_digit c = false -> Boundary (size_match em) c.
  Proof. intros c N1 N2 N3 D a b _. unfold size_match. rewrite (size_of_boundary "width" c N1 N3 D), (size_of_boundary "height" c N2 N3 D). reflexivity. Qed.
  Lemma size_bounded : Bounded (size_match em).
  Proof.
    intros t k r E. unfold size_match in E. destruct (size_of em "width" t) as [[k' r']|] eqn:E1; [injection E as <- <-; apply size_of_bounded in E1; exact E1|apply size_of_bounded in E; exact E].
  Qed.
End Size.

(** escaping *)
Record Ordinary (m : matcher) : Prop := {
  o_amp : Boundary m 38%N; o_semi : Boundary m 59%N; o_lt : Boundary m 60%N; o_gt : Boundary m 62%N; o_bounded : Bounded m;
  o_entities : forall s, In s (map of_string [""; "p"; "mp"; "amp"; "t"; "lt"; "gt"]) -> m s = None }.
Definition Special (c : N) : Prop := c = 38%N \/ c = 60%N \/ c = 62%N.
Lemma escape_char_cases : forall c, (Special c /\ exists e, In e ["amp"; "lt"; "gt"] /\ escape_char c = 38%N :: of_string e ++ [59%N]) \/ (~ Special c /\ escape_char c = [c]).
Proof.
  intros c. unfold Special, escape_char. destruct (N.eqb_spec c 38) as [->|N1]; [left; split; [auto|exists "amp"; split; [cbn; auto|reflexivity]]|].
  destruct (N.eqb_spec c 60) as [->|N2]; [left; split; [auto|exists "lt"; split; [cbn; auto|reflexivity]]|].
  destruct (N.eqb_spec c 62) as [->|N3]; [left; split; [auto|exists "gt"; split; [cbn; auto|reflexivity]]|]. right. split; [tauto|reflexivity].
Qed.
Lemma match_escape : forall m, Ordinary m -> forall t, m (escape t) = m t.
Proof.
  intros m O t. assert (X : (forall c, In c t -> ~ Special c) \/ exists a c b, t = a ++ c :: b /\ Special c /\ forall x, In x a -> ~ Special x).
  { induction t as [|c t [A|(a & x & b & -> & S & A)]]; [left; intros c []| |].
    - destruct (escape_char_cases c) as [[S _]|[S _]]; [right; exists [], c, t; repeat split; auto|left; intros x [<-|I]; [exact S|apply A; exact I]].
    - destruct (escape_char_cases c) as [[S' _]|[S' _]].
      + right. exists [], c, (a ++ x :: b). repeat split; auto.
      + right. exists (c :: a), x, b. repeat split; auto. intros y [<-|I]; [exact S'|apply A; exact I]. }
  assert (E : forall a, (forall c, In c a -> ~ Special c) -> escape a = a).
  { induction a as [|c a IH]; intros A; [reflexivity|]. cbn [escape flat_map]. destruct (escape_char_cases c) as [[S _]|[_ Ec]]; [destruct (A c (or_introl eq_refl) S)|].
    rewrite Ec. cbn [app]. f_equal. apply IH. intros x I. apply A. right. exact I. }
  destruct X as [A|(a & c & b & -> & S & A)]; [rewrite (E t A); reflexivity|].
  unfold escape. rewrite flat_map_app. cbn [flat_map]. fold (escape a) (escape b). rewrite (E a A).
  destruct (escape_char_cases c) as [[_ (e & _ & Ec)]|[N _]]; [|contradiction]. rewrite Ec. cbn [app]. rewrite (boundary_any m 38 (o_amp m O)).
  symmetry. apply boundary_any. destruct S as [->|[->| ->]]; [apply (o_amp m O)|apply (o_lt m O)|apply (o_gt m O)].
Qed.
Lemma nomatch_tail : forall m c t, NoMatch m (c :: t) -> NoMatch m t.
Proof. intros m c t N a s ->. apply (N (c :: a)). reflexivity. Qed.
Lemma suffix_app : forall (x y a s : text), x ++ y = a ++ s -> (exists b, y = b ++ s) \/ exists p, x = a ++ p /\ s = p ++ y.
Proof.
  intros x. induction x as [|c x IH]; intros y a s E; [left; exists a; exact E|]. destruct a as [|d a].
  - right. exists (c :: x). split; [reflexivity|]. cbn in E. symmetry. exact E.
  - cbn in E. injection E as <- E. destruct (IH y a s E) as [L|(p & -> & ->)]; [left; exact L|right; exists p; split; reflexivity].
Qed.
Definition entity_ends : list text := map of_string [""; "p"; "mp"; "amp"; "t"; "lt"; "gt"].
Lemma entity_suffix : forall e, In e ["amp"; "lt"; "gt"] -> forall a s, of_string e ++ [59%N] = a ++ s -> s = [] \/ exists q, s = q ++ [59%N] /\ In q entity_ends.
Proof.
  assert (X : forall (w : text) (P : text -> Prop), (forall a q, w = a ++ q -> P q) -> forall a s, w ++ [59%N] = a ++ s -> s = [] \/ exists q, s = q ++ [59%N] /\ P q).
  { intros w P H a s E. destruct (suffix_app _ _ _ _ E) as [(b & Eb)|(q & Ew & ->)]; [|right; exists q; split; [reflexivity|apply (H a); exact Ew]].
    destruct b as [|z b]; [right; exists []; split; [symmetry; exact Eb|apply (H w); rewrite app_nil_r; reflexivity]|].
    left. cbn in Eb. injection Eb as _ Eb. destruct b; [cbn in Eb; symmetry; exact Eb|discriminate]. }
  intros e I. apply (X (of_string e) (fun q => In q entity_ends)). intros a q E.
  destruct I as [<-|[<-|[<-|[]]]]; cbn in E; repeat (destruct a as [|? a]; [cbn in E; rewrite <- E; cbn; tauto|try discriminate; cbn in E; apply (f_equal (@tl N)) in E; cbn [tl] in E]).
Qed.
Lemma nomatch_escape : forall m, Ordinary m -> forall t, NoMatch m t -> NoMatch m (escape t).
Proof.
  intros m O. induction t as [|c t IH]; intros N a s E.
  - destruct a; [|discriminate]. cbn in E. subst s. apply (o_entities m O). left. reflexivity.
  - assert (Et : escape (c :: t) = escape_char c ++ escape t) by reflexivity. rewrite Et in E. apply suffix_app in E.
    destruct E as [(b & E)|(p & E & ->)]; [exact (IH (nomatch_tail m c t N) b s E)|].
    destruct p as [|x p]; [exact (IH (nomatch_tail m c t N) [] _ eq_refl)|].
    destruct (escape_char_cases c) as [[S (e & Ie & Ec)]|[S Ec]]; rewrite Ec in E.
    + destruct a as [|y a].
      * injection E as <- _. change ((38%N :: p) ++ escape t) with ([] ++ 38%N :: (p ++ escape t)). rewrite (boundary_any m 38 (o_amp m O)). apply (o_entities m O). left. reflexivity.
      * injection E as _ E. destruct (entity_suffix e Ie a _ E) as [Z|(q & Z & Iq)]; [discriminate|]. rewrite Z, <- app_assoc. cbn [app].
        rewrite (boundary_any m 59 (o_semi m O)). apply (o_entities m O). exact Iq.
    + destruct a as [|y a]; [|destruct a; discriminate]. injection E as <- <-.
      replace ([c] ++ escape t) with (escape (c :: t)) by (rewrite Et, Ec; reflexivity). rewrite (match_escape m O). apply (N []). reflexivity.
Qed.
Lemma unescape_escape : forall t, unescape (escape t) = t.
Proof.
  induction t as [|c t IH]; [reflexivity|]. assert (Et : escape (c :: t) = escape_char c ++ escape t) by reflexivity. rewrite Et. unfold escape_char.
  destruct (N.eqb_spec c 38) as [->|N1]; [|destruct (N.eqb_spec c 60) as [->|N2]; [|destruct (N.eqb_spec c 62) as [->|N3]]].
  - change (unescape _) with (38%N :: unescape (escape t)). f_equal. exact IH.
  - change (unescape _) with (60%N :: unescape (escape t)). f_equal. exact IH.
  - change (unescape _) with (62%N :: unescape (escape t)). f_equal. exact IH.
  - cbn [app]. cbn [unescape]. destruct (N.eqb_spec c 38) as [->|_]; [contradiction|]. f_equal. exact IH.
Qed.
Lemma undollar_id : forall t, count_escaped t = 0 -> undollar t = t.
Proof.
  assert (X : forall k t, length t <= k -> count_escaped t = 0 -> undollar t = t).
  { induction k as [|k IH]; intros [|a [|b t]] L E; try reflexivity; cbn [length] in L; [lia|].
    cbn [count_escaped undollar] in *. destruct ((a =? 92) && (b =? 36))%N; [discriminate|]. f_equal. apply (IH (b :: t)); [cbn [length]; lia|exact E]. }
  intros t. apply (X (length t)). lia.
Qed.

(** the patterns of the substitutions are ordinary *)
Ltac not_in := cbn; intros X; repeat (destruct X as [X|X]; [discriminate|]); exact X.
Lemma literal_ordinary : forall p r, (forall c, In c [38; 59; 60; 62]%N -> ~ In c p) -> (forall s, In s entity_ends -> after_prefix p s = None) -> Ordinary (literal p r).
Proof.
  intros p r N E. split; try (apply literal_boundary; apply N; cbn; tauto).
  - apply literal_bounded.
  - intros s I. unfold literal. rewrite (E s I). reflexivity.
Qed.
Lemma text_color_ordinary : Ordinary text_color.
Proof.
  apply literal_ordinary; [intros c I; destruct I as [<-|[<-|[<-|[<-|[]]]]]; not_in|].
  intros s I. repeat (destruct I as [<-|I]; [reflexivity|]). destruct I.
Qed.
Lemma background_color_ordinary : Ordinary background_color.
Proof.
  apply literal_ordinary; [intros c I; destruct I as [<-|[<-|[<-|[<-|[]]]]]; not_in|].
  intros s I. repeat (destruct I as [<-|I]; [reflexivity|]). destruct I.
Qed.
Lemma size_ordinary : forall em, Ordinary (size_match em).
Proof.
  intros em. split; try (apply size_boundary; [not_in|not_in|not_in|reflexivity]).
  - apply size_bounded.
  - intros s I. repeat (destruct I as [<-|I]; [reflexivity|]). destruct I.
Qed.
Lemma literal_ok : forall p r t, exists x, sub (literal p r) t = Ok x.
Proof.
  intros p r t. unfold sub. generalize 0 as k. induction t as [|c t IH]; intros k; [exists []; reflexivity|]. cbn [sub_n]. destruct k as [|k]; [|apply IH].
  unfold literal at 1. destruct (after_prefix p (c :: t)); [|destruct (IH 0) as [x ->]; eexists; reflexivity].
  destruct (length p) as [|k]; cbn [bind]; [destruct (IH 0) as [x ->]|destruct (IH k) as [x ->]]; eexists; reflexivity.
Qed.

(** independent of matchers: the strings that the figure must not contain *)
Definition Contains (p t : text) : Prop := exists a b, t = a ++ p ++ b.
Definition SizeText (t : text) : Prop := exists attr d, In attr ["width"; "height"] /\ d <> [] /\ Forall (fun c => is_digit c = true) d /\
  t = of_string attr ++ [61; 34]%N ++ d ++ [112; 116; 34]%N.
Lemma literal_nomatch : forall p r t, ~ Contains p t -> NoMatch (literal p r) t.
Proof.
  intros p r t N a s E. unfold literal. destruct (after_prefix p s) as [u|] eqn:Eu; [|reflexivity]. exfalso. apply N. apply after_prefix_eq in Eu. exists a, u. rewrite E, Eu. reflexivity.
Qed.
Lemma digits_split : forall t, t = digits t ++ skipn (length (digits t)) t /\ Forall (fun c => is_digit c = true) (digits t).
Proof.
  induction t as [|c t [E F]]; [split; [reflexivity|constructor]|]. cbn [digits]. destruct (((48 <=? c) && (c <=? 57) || (c =? 46))%N) eqn:D; [|split; [reflexivity|constructor]].
  cbn [length skipn app]. split; [f_equal; exact E|constructor; [exact D|exact F]].
Qed.
Lemma size_of_some : forall em attr t x, size_of em attr t = Some x -> exists d u, d <> [] /\ Forall (fun c => is_digit c = true) d /\ t = of_string attr ++ [61; 34]%N ++ d ++ [112; 116; 34]%N ++ u.
Proof.
  intros em attr t x E. unfold size_of in E. destruct (after_prefix (of_string attr ++ [61; 34]%N) t) as [t1|] eqn:E1; [|discriminate]. cbv zeta in E.
  destruct (Nat.eqb_spec (length (digits t1)) 0) as [|Z]; [discriminate|]. destruct (after_prefix [112; 116; 34]%N (skipn (length (digits t1)) t1)) as [t2|] eqn:E2; [|discriminate].
  apply after_prefix_eq in E1, E2. destruct (digits_split t1) as [D F]. exists (digits t1), t2. split; [intros X; rewrite X in Z; cbn in Z; lia|]. split; [exact F|].
  rewrite E1, <- app_assoc. f_equal. f_equal. rewrite D at 1. f_equal. exact E2.
Qed.
Lemma size_nomatch : forall em t, (forall p, SizeText p -> ~ Contains p t) -> NoMatch (size_match em) t.
Proof.
  intros em t N a s E. destruct (size_match em s) as [x|] eqn:Es; [|reflexivity]. exfalso.
  assert (X : exists attr, In attr ["width"; "height"] /\ size_of em attr s = Some x).
  { unfold size_match in Es. destruct (size_of em "width" s) as [y|] eqn:E1; [exists "width"; split; [cbn; auto|rewrite E1; exact Es]|exists "height"; split; [cbn; auto|exact Es]]. }
  destruct X as (attr & I & X). apply size_of_some in X. destruct X as (d & u & D & F & X).
  apply (N (of_string attr ++ [61; 34]%N ++ d ++ [112; 116; 34]%N)); [exists attr, d; auto|]. exists a, u. rewrite E, X, <- !app_assoc. reflexivity.
Qed.

Section Figures.
  Variable formula em : text -> res text.
  Definition PlainText (t : text) : Prop :=
    is_math t = false /\ count_escaped t = 0 /\ ~ Contains (of_string "#123456") t /\ ~ Contains (of_string "#654321") t /\ (forall p, SizeText p -> ~ Contains p t).
  (** plain texts are shown as they are, and do not change the rest of the figure *)
  Theorem figure_ok : forall pre t post, PlainText t ->
    figure formula em pre t post = let! x := serialize em pre in let! y := serialize em post in Ok (x ++ [62%N] ++ escape t ++ [60%N] ++ y).
  Proof.
    intros pre t post (M & D & N1 & N2 & N3). unfold figure, draw. rewrite M, (undollar_id t D). cbn [bind]. unfold serialize.
    pose proof (size_ordinary em) as Os. pose proof text_color_ordinary as Ot. pose proof background_color_ordinary as Ob.
    rewrite (sub_block _ (o_gt _ Os) (o_lt _ Os) (o_bounded _ Os)) by (apply (nomatch_escape _ Os); apply size_nomatch; exact N3).
    destruct (sub (size_match em) pre) as [x1|e]; [|reflexivity]. cbn [bind].
    destruct (literal_ok (of_string "#123456") (of_string "var(--color-text-primary)") x1) as [x2 X2]. fold text_color in X2.
    destruct (literal_ok (of_string "#654321") (of_string "var(--color-background-primary)") x2) as [x3 X3]. fold background_color in X3.
    destruct (sub (size_match em) post) as [y1|e]; [|cbn [bind]; rewrite X2; cbn [bind]; rewrite X3; reflexivity]. cbn [bind].
    rewrite (sub_block _ (o_gt _ Ot) (o_lt _ Ot) (o_bounded _ Ot)) by (apply (nomatch_escape _ Ot); apply literal_nomatch; exact N1).
    destruct (literal_ok (of_string "#123456") (of_string "var(--color-text-primary)") y1) as [y2 Y2]. fold text_color in Y2.
    rewrite X2, Y2. cbn [bind].
    rewrite (sub_block _ (o_gt _ Ob) (o_lt _ Ob) (o_bounded _ Ob)) by (apply (nomatch_escape _ Ob); apply literal_nomatch; exact N2).
    rewrite X3. cbn [bind]. destruct (sub background_color y2); reflexivity.
  Qed.
End Figures.

(** ** Percentages *)
Open Scope Q_scope.
Lemma round_error : forall q, - (1 # 2) <= q - inject_Z (round_half_even q) <= 1 # 2.
Proof.
  intros q. unfold round_half_even. cbv zeta. pose proof (Qfloor_le q) as L. pose proof (Qlt_floor q) as U. rewrite inject_Z_plus in U. change (inject_Z 1) with 1 in U.
  set (f := Qfloor q) in *. destruct (Qcompare_spec (q - inject_Z f) (1 # 2)) as [E|E|E].
  - destruct (Z.even f).
    + rewrite E. split; [discriminate|apply Qle_refl].
    + rewrite inject_Z_plus. change (inject_Z 1) with 1. split; lra.
  - split; lra.
  - rewrite inject_Z_plus. change (inject_Z 1) with 1. split; lra.
Qed.
Lemma round_mono : forall p q, p <= q -> (round_half_even p <= round_half_even q)%Z.
Proof.
  intros p q L. destruct (Z_le_gt_dec (round_half_even p) (round_half_even q)) as [H|H]; [exact H|exfalso].
  pose proof (round_error p) as P. pose proof (round_error q) as Q. assert (G : (round_half_even q + 1 <= round_half_even p)%Z) by lia.
  rewrite Zle_Qle, inject_Z_plus in G. change (inject_Z 1) with 1 in G.
  assert (E : p == q) by lra. assert (S : round_half_even p = round_half_even q); [|lia].
  unfold round_half_even. cbv zeta. rewrite (Qfloor_comp _ _ E). destruct (Qcompare_spec (p - inject_Z (Qfloor q)) (1 # 2)), (Qcompare_spec (q - inject_Z (Qfloor q)) (1 # 2)); try reflexivity; exfalso; lra.
Qed.
Lemma round_int : forall q z, q == inject_Z z -> round_half_even q = z.
Proof.
  intros q z E. pose proof (round_error q) as [A B].
  assert (X : inject_Z (round_half_even q) < inject_Z (z + 1)) by (rewrite inject_Z_plus; change (inject_Z 1) with 1; lra).
  assert (Y : inject_Z (z - 1) < inject_Z (round_half_even q)) by (replace (z - 1)%Z with (z + -(1))%Z by lia; rewrite inject_Z_plus; change (inject_Z (- (1))) with (- (1)); lra).
  rewrite <- Zlt_Qlt in X, Y. lia.
Qed.
Lemma less_than_iff : forall p, format_percent p = LessThan01 <-> 0 < p < 1 # 1000.
Proof.
  intros p. unfold format_percent. destruct (Qcompare_spec 0 p) as [E|E|E], (Qcompare_spec p (1 # 1000)) as [F|F|F]; cbn [andb]; split; intros H; try discriminate; try reflexivity; try lra; exfalso; lra.
Qed.
Lemma tenths_value : forall p z, format_percent p = Tenths z -> z = round_half_even (p * 1000).
Proof. intros p z E. unfold format_percent in E. destruct (_ && _)%bool; [discriminate|]. injection E as <-. reflexivity. Qed.
Lemma tenths_error : forall p z, format_percent p = Tenths z -> Qabs (p * 1000 - inject_Z z) <= 1 # 2.
Proof. intros p z E. apply tenths_value in E. subst z. apply Qabs_Qle_condition. apply round_error. Qed.
Lemma zero_iff : forall p, 0 <= p -> (format_percent p = Tenths 0 <-> p == 0).
Proof.
  intros p P. split.
  - intros E. destruct (Qlt_le_dec 0 p) as [L|L]; [exfalso|lra]. destruct (Qlt_le_dec p (1 # 1000)) as [M|M].
    + rewrite (proj2 (less_than_iff p) (conj L M)) in E. discriminate.
    + apply tenths_value in E. pose proof (round_error (p * 1000)) as [_ B]. rewrite <- E in B. change (inject_Z 0) with 0 in B. lra.
  - intros E. unfold format_percent. destruct (Qcompare_spec 0 p) as [F|F|F]; cbn [andb]; try (exfalso; lra); f_equal; apply round_int; change (inject_Z 0) with 0; lra.
Qed.
Lemma percent_mono : forall p q y z, p <= q -> format_percent p = Tenths y -> format_percent q = Tenths z -> (y <= z)%Z.
Proof. intros p q y z L E F. apply tenths_value in E, F. subst. apply round_mono. lra. Qed.
Lemma less_than_small : forall p q z, 0 <= q -> format_percent p = LessThan01 -> format_percent q = Tenths z -> (z = 0%Z /\ q == 0) \/ ((1 <= z)%Z /\ p < q).
Proof.
  intros p q z Q E F. apply less_than_iff in E. destruct (Z.eq_dec z 0) as [->|N]; [left; split; [reflexivity|apply zero_iff; assumption]|right].
  destruct (Qlt_le_dec q (1 # 1000)) as [L|L].
  - destruct (Qlt_le_dec 0 q) as [G|G]; [rewrite (proj2 (less_than_iff q) (conj G L)) in F; discriminate|]. exfalso. apply N.
    assert (q == 0) as Z by lra. apply zero_iff in Z; [|exact Q]. rewrite Z in F. injection F as <-. reflexivity.
  - split; [|lra]. apply tenths_value in F. subst z. change 1%Z with (round_half_even 1). apply round_mono. lra.
Qed.
Lemma whole_percent : forall z, format_percent (inject_Z z * (1 # 1000)) = Tenths z.
Proof.
  intros z. unfold format_percent.
  assert (R : round_half_even (inject_Z z * (1 # 1000) * 1000) = z) by (apply round_int; lra). rewrite R.
  destruct (Qcompare_spec 0 (inject_Z z * (1 # 1000))) as [F|F|F]; cbn [andb]; try reflexivity.
  destruct (Qcompare_spec (inject_Z z * (1 # 1000)) (1 # 1000)) as [G|G|G]; try reflexivity. exfalso.
  assert (A : inject_Z 0 < inject_Z z) by (change (inject_Z 0) with 0; lra). assert (B : inject_Z z < inject_Z 1) by (change (inject_Z 1) with 1; lra).
  rewrite <- Zlt_Qlt in A, B. lia.
Qed.
