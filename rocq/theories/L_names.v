(** Specification of name picking, and lemmas. *)
From Verif Require Import Base M_names.
Open Scope string_scope.
Open Scope list_scope.
Open Scope nat_scope.

(** ** Independent specification *)

Definition SubString (t s : string) : Prop := exists a b, s = (a ++ t ++ b)%string.
Fixpoint no_newline (s : string) : Prop :=
  match s with EmptyString => True | String c s' => c <> newline /\ no_newline s' end.

(** A skrub tag: [__skrub_], then text without newline in which no [__] starts, then [__]. *)
Definition IsTag (t : string) : Prop :=
  exists x, t = ("__skrub_" ++ x ++ "__")%string /\ no_newline x /\ ~ SubString "__" (x ++ "_").

(** [Untag s u ts]: removing the tags [ts] (leftmost first) of [s] leaves [u]. *)
Inductive Untag : string -> string -> list string -> Prop :=
| Untag_nil : Untag "" "" []
| Untag_tag : forall t s u ts, IsTag t -> Untag s u ts -> Untag (t ++ s) u (t :: ts)
| Untag_char : forall c s u ts,
    (forall t r, IsTag t -> String c s <> (t ++ r)%string) ->
    Untag s u ts -> Untag (String c s) (String c u) ts.

(** the name we would like to use: a single tag goes to the end, several are removed *)
Definition wanted (u : string) (ts : list string) : string :=
  match ts with [t] => (u ++ t)%string | _ => u end.

Fixpoint all_chars (P : ascii -> Prop) (s : string) : Prop :=
  match s with EmptyString => True | String c s' => P c /\ all_chars P s' end.
Definition is_hex (c : ascii) : Prop :=
  let n := nat_of_ascii c in (48 <= n /\ n <= 57) \/ (97 <= n /\ n <= 102).
(** what [random_string] can return *)
Definition hex8 (t : string) : Prop := String.length t = 8 /\ all_chars is_hex t.

(** The random draws are new: pairwise distinct, and found neither in a forbidden name nor
    in a suggested name (with or without its tags). *)
Definition Fresh (draw : nat -> string) (n : nat) (suggested forbidden : list string) : Prop :=
  (forall i, i < n -> hex8 (draw i)) /\
  (forall i j, i < j -> j < n -> draw i <> draw j) /\
  (forall i f, i < n -> In f forbidden -> ~ SubString (draw i) f) /\
  (forall i s u ts, i < n -> In s suggested -> Untag s u ts ->
     ~ SubString (draw i) s /\ ~ SubString (draw i) u).

(** ** The regular expression *)

Lemma strip_prefix_spec : forall p s r, strip_prefix p s = Some r <-> s = (p ++ r)%string.
Proof.
  induction p as [|c p IH]; intros s r; simpl.
  - split; congruence.
  - destruct s as [|d s]; [split; discriminate|].
    destruct (eqd c d) as [E|N].
    + subst. rewrite IH. split; congruence.
    + split; [discriminate|]. congruence.
Qed.

Lemma strip_prefix_none : forall p s, strip_prefix p s = None <-> forall r, s <> (p ++ r)%string.
Proof.
  intros p s. destruct (strip_prefix p s) as [r|] eqn:E.
  - split; [discriminate|]. intros N. apply strip_prefix_spec in E. destruct (N r E).
  - split; [|reflexivity]. intros _ r Er. apply strip_prefix_spec in Er. congruence.
Qed.

(** [x] followed by [__]: the first [__] of [x ++ "__" ++ r] is after [x] *)
Definition ends_lazy (x : string) : Prop := no_newline x /\ ~ SubString "__" (x ++ "_").

Lemma ends_lazy_nil : ends_lazy "".
Proof.
  split; [exact I|]. intros (a & b & E). simpl in E.
  apply (f_equal String.length) in E. rewrite !sapp_length in E. simpl in E. lia.
Qed.

Lemma ends_lazy_cons : forall c x r,
  ends_lazy (String c x) <->
  c <> newline /\ ends_lazy x /\ (forall q, String c (x ++ "__" ++ r)%string <> ("__" ++ q)%string).
Proof.
  intros c x r. unfold ends_lazy. simpl no_newline. split.
  - intros [[Hc Hx] Hs]. split; [exact Hc|]. split; [split; [exact Hx|]|].
    + intros (a & b & E). apply Hs. exists (String c a), b. simpl. rewrite E. reflexivity.
    + intros q E. apply Hs. destruct x as [|d x]; simpl in E.
      * injection E as -> E. exists "", "". reflexivity.
      * injection E as -> -> E. exists "", (x ++ "_")%string. reflexivity.
  - intros (Hc & [Hx Hs] & Hq). split; [split; assumption|].
    intros (a & b & E). destruct a as [|d a]; simpl in E.
    + injection E as -> E. destruct x as [|d x]; simpl in E.
      * apply (Hq ("_" ++ r)%string). reflexivity.
      * injection E as -> E. apply (Hq (x ++ "__" ++ r)%string). reflexivity.
    + injection E as -> E. apply Hs. exists a, b. exact E.
Qed.

Lemma lazy_close_spec : forall s n,
  lazy_close s = Some n <->
  exists x r, s = (x ++ "__" ++ r)%string /\ n = String.length x + 2 /\ ends_lazy x.
Proof.
  induction s as [|c s IH]; intros n.
  - simpl. split; [discriminate|]. intros (x & r & E & _).
    apply (f_equal String.length) in E. rewrite !sapp_length in E. simpl in E. lia.
  - cbn [lazy_close]. destruct (strip_prefix "__" (String c s)) as [q|] eqn:P.
    + apply strip_prefix_spec in P. split.
      * intros E. injection E as <-. exists "", q. split; [exact P|].
        split; [reflexivity|apply ends_lazy_nil].
      * intros (x & r & E & En & Hx). destruct x as [|d x]; [subst; reflexivity|].
        exfalso. apply (ends_lazy_cons d x r) in Hx. destruct Hx as (_ & _ & Hq).
        apply (Hq q). rewrite <- P, E. reflexivity.
    + pose proof (proj1 (strip_prefix_none _ _) P) as P'. clear P. rename P' into P.
      destruct (eqd c newline) as [Ec|Nc].
      * split; [discriminate|]. intros (x & r & E & En & Hx).
        destruct x as [|d x]; [destruct (P r E)|].
        simpl in E. injection E as -> E. apply (ends_lazy_cons d x r) in Hx. tauto.
      * destruct (lazy_close s) as [m|] eqn:L; simpl.
        -- destruct (proj1 (IH m) eq_refl) as (x & r & E & Em & Hx). split.
           ++ intros X. injection X as <-. exists (String c x), r. simpl. rewrite E at 1.
              split; [reflexivity|]. split; [lia|]. apply (ends_lazy_cons c x r).
              split; [exact Nc|]. split; [exact Hx|]. intros q Eq. apply (P q). rewrite E. exact Eq.
           ++ intros (x' & r' & E' & En & Hx'). destruct x' as [|d x']; [destruct (P r' E')|].
              simpl in E'. injection E' as <- E'. apply (ends_lazy_cons c x' r') in Hx'.
              f_equal. assert (Some m = Some (String.length x' + 2)) as X.
              { apply IH. exists x', r'. split; [exact E'|]. split; [reflexivity|tauto]. }
              simpl in En. injection X as X. lia.
        -- split; [discriminate|]. intros (x' & r' & E' & En & Hx').
           destruct x' as [|d x']; [destruct (P r' E')|].
           simpl in E'. injection E' as <- E'. apply (ends_lazy_cons c x' r') in Hx'.
           assert (None = Some (String.length x' + 2)) as X.
           { apply IH. exists x', r'. split; [exact E'|]. split; [reflexivity|tauto]. }
           discriminate.
Qed.

Lemma match_tag_spec : forall s n,
  match_tag s = Some n <-> exists t r, IsTag t /\ s = (t ++ r)%string /\ n = String.length t.
Proof.
  intros s n. unfold match_tag. destruct (strip_prefix "__skrub_" s) as [q|] eqn:P.
  - apply strip_prefix_spec in P. split.
    + destruct (lazy_close q) as [m|] eqn:L; simpl; [|discriminate].
      intros E. injection E as <-. apply lazy_close_spec in L.
      destruct L as (x & r & E & Em & Hx).
      exists ("__skrub_" ++ x ++ "__")%string, r. split; [exists x; split; [reflexivity|exact Hx]|].
      subst q s. rewrite !sapp_assoc. split; [reflexivity|].
      rewrite !sapp_length. simpl. lia.
    + intros (t & r & (x & Et & Hx) & E & En). subst t. rewrite P in E.
      rewrite !sapp_assoc in E. apply sapp_inj_l in E.
      assert (lazy_close q = Some (String.length x + 2)) as L.
      { apply lazy_close_spec. exists x, r. split; [exact E|]. split; [reflexivity|exact Hx]. }
      rewrite L. simpl option_map. f_equal. subst n. rewrite !sapp_length. simpl. lia.
  - pose proof (proj1 (strip_prefix_none _ _) P) as P'. split; [discriminate|].
    intros (t & r & (x & Et & _) & E & _). subst t. rewrite sapp_assoc in E.
    destruct (P' _ E).
Qed.

Fixpoint sdrop (n : nat) (s : string) : string :=
  match n, s with
  | S n', String _ s' => sdrop n' s'
  | _, _ => s
  end.

Lemma sdrop_app : forall a b, sdrop (String.length a) (a ++ b) = b.
Proof. induction a as [|c a IH]; intros b; simpl; [destruct b; reflexivity|apply IH]. Qed.

Lemma substring_app : forall a b, substring 0 (String.length a) (a ++ b) = a.
Proof.
  induction a as [|c a IH]; intros b; simpl.
  - destruct b; reflexivity.
  - rewrite IH. reflexivity.
Qed.

Lemma scan_skip : forall s k, scan_tags k s = scan_tags 0 (sdrop k s).
Proof.
  induction s as [|c s IH]; intros k; destruct k as [|k]; try reflexivity.
  simpl sdrop. rewrite <- IH. reflexivity.
Qed.

Lemma IsTag_nonempty : forall t, IsTag t -> exists c t', t = String c t'.
Proof. intros t (x & E & _). subst. simpl. eauto. Qed.

Lemma scan_Untag_n : forall n s, String.length s <= n ->
  Untag s (fst (scan_tags 0 s)) (snd (scan_tags 0 s)).
Proof.
  induction n as [|n IH]; intros s L.
  - destruct s; [|simpl in L; lia]. simpl. constructor.
  - destruct s as [|c s]; [simpl; constructor|]. cbn [scan_tags].
    destruct (match_tag (String c s)) as [m|] eqn:M.
    + apply match_tag_spec in M. destruct M as (t & r & Ht & E & Em).
      destruct (IsTag_nonempty t Ht) as (d & t' & Et).
      assert (scan_tags (m - 1) s = scan_tags 0 r) as Es.
      { rewrite scan_skip. f_equal. subst t m. simpl in E. injection E as -> E.
        simpl String.length. replace (S (String.length t') - 1) with (String.length t') by lia.
        subst s. apply sdrop_app. }
      rewrite Es.
      assert (Untag r (fst (scan_tags 0 r)) (snd (scan_tags 0 r))) as U.
      { apply IH. apply (f_equal String.length) in E. rewrite sapp_length in E. subst t.
        simpl in *. lia. }
      destruct (scan_tags 0 r) as [u ts]. cbn [fst snd] in *.
      rewrite E. subst m. rewrite substring_app. apply Untag_tag; assumption.
    + assert (Untag s (fst (scan_tags 0 s)) (snd (scan_tags 0 s))) as U.
      { apply IH. simpl in L. lia. }
      destruct (scan_tags 0 s) as [u ts]. cbn [fst snd] in *. apply Untag_char; [|exact U].
      intros t r Ht E. assert (match_tag (String c s) = Some (String.length t)) as X.
      { apply match_tag_spec. exists t, r. tauto. }
      congruence.
Qed.

Lemma scan_Untag : forall s, Untag s (fst (scan_tags 0 s)) (snd (scan_tags 0 s)).
Proof. intros s. apply (scan_Untag_n (String.length s)). lia. Qed.

(** two tags at the start of the same string are the same *)
Lemma IsTag_prefix_unique : forall t t' r r', IsTag t -> IsTag t' ->
  (t ++ r)%string = (t' ++ r')%string -> t = t' /\ r = r'.
Proof.
  intros t t' r r' Ht Ht' E.
  assert (match_tag (t ++ r) = Some (String.length t)) as M1.
  { apply match_tag_spec. exists t, r. tauto. }
  assert (match_tag (t ++ r) = Some (String.length t')) as M2.
  { apply match_tag_spec. exists t', r'. tauto. }
  apply sapp_inv_len; [congruence|exact E].
Qed.

Lemma Untag_det : forall s u ts, Untag s u ts -> forall u' ts', Untag s u' ts' -> u = u' /\ ts = ts'.
Proof.
  intros s u ts U. induction U as [|t s u ts Ht U IH|c s u ts N U IH]; intros u' ts' U'.
  - inversion U' as [|t s0 u0 ts0 Ht U0 E|]; subst; [tauto|].
    destruct (IsTag_nonempty t Ht) as (d & t' & Et). subst. discriminate.
  - inversion U' as [E|t0 s0 u0 ts0 Ht0 U0 E|c s0 u0 ts0 N U0 E]; subst.
    + destruct (IsTag_nonempty t Ht) as (d & t' & Et). subst. discriminate.
    + destruct (IsTag_prefix_unique _ _ _ _ Ht0 Ht E) as [-> ->].
      destruct (IH _ _ U0) as [-> ->]. tauto.
    + destruct (N t s Ht E).
  - inversion U' as [|t0 s0 u0 ts0 Ht0 U0 E|c0 s0 u0 ts0 N0 U0]; subst.
    + exfalso. exact (N t0 s0 Ht0 (eq_sym E)).
    + destruct (IH _ _ U0) as [-> ->]. tauto.
Qed.

Lemma Untag_scan : forall s u ts, Untag s u ts <-> scan_tags 0 s = (u, ts).
Proof.
  intros s u ts. pose proof (scan_Untag s) as U0. destruct (scan_tags 0 s) as [u0 ts0]. simpl in U0.
  split; intros X.
  - destruct (Untag_det _ _ _ U0 _ _ X) as [-> ->]. reflexivity.
  - congruence.
Qed.

Lemma Untag_tags : forall s u ts, Untag s u ts -> Forall (fun t => IsTag t /\ SubString t s) ts.
Proof.
  intros s u ts U. induction U as [|t s u ts Ht U IH|c s u ts N U IH].
  - constructor.
  - constructor.
    + split; [exact Ht|]. exists "", s. reflexivity.
    + eapply Forall_impl; [|exact IH]. intros t' [H1 (a & b & E)]. split; [exact H1|].
      exists (t ++ a)%string, b. rewrite E, !sapp_assoc. reflexivity.
  - eapply Forall_impl; [|exact IH]. intros t' [H1 (a & b & E)]. split; [exact H1|].
    exists (String c a), b. rewrite E. reflexivity.
Qed.

Lemma Untag_no_tag : forall s u, Untag s u [] -> u = s.
Proof.
  intros s u U. remember [] as ts. induction U; [reflexivity|discriminate|].
  f_equal. apply IHU. assumption.
Qed.

Lemma no_tag_Untag : forall s, ~ SubString "__skrub_" s -> Untag s s [].
Proof.
  induction s as [|c s IH]; intros N; [constructor|]. constructor.
  - intros t r (x & Et & _) E. apply N. exists "", (x ++ "__" ++ r)%string.
    rewrite E, Et, !sapp_assoc. reflexivity.
  - apply IH. intros (a & b & E). apply N. exists (String c a), b. rewrite E. reflexivity.
Qed.

(** ** [get_new_name] *)
Lemma get_new_name_spec : forall token s u ts forbidden, Untag s u ts ->
  get_new_name token s forbidden =
  if in_dec eqd (wanted u ts) forbidden then (u ++ "__skrub_" ++ token ++ "__")%string
  else wanted u ts.
Proof.
  intros token s u ts forbidden U. apply Untag_scan in U. unfold get_new_name. rewrite U.
  fold (wanted u ts). unfold mem. destruct (in_dec eqd (wanted u ts) forbidden); reflexivity.
Qed.

(** ** freshness *)
Definition ends_with_tag (t n : string) : Prop :=
  exists u, n = (u ++ "__skrub_" ++ t ++ "__")%string.

Lemma ends_with_tag_sub : forall t n, ends_with_tag t n -> SubString t n.
Proof.
  intros t n (u & E). exists (u ++ "__skrub_")%string, "__". rewrite E, !sapp_assoc. reflexivity.
Qed.

Lemma hex_no_underscore : forall t, all_chars is_hex t -> ~ SubString "_" t.
Proof.
  induction t as [|c t IH]; intros H (a & b & E).
  - destruct a; discriminate.
  - destruct H as [Hc Ht]. destruct a as [|d a]; simpl in E.
    + injection E as -> E. unfold is_hex in Hc. vm_compute in Hc. lia.
    + injection E as -> E. apply (IH Ht). exists a, b. exact E.
Qed.

(** A string has a suffix of every smaller length. *)
Lemma split_suffix : forall s n, n <= String.length s ->
  exists a b, s = (a ++ b)%string /\ String.length b = n.
Proof.
  induction s as [|c s IH]; intros n L; simpl in L.
  - exists "", "". split; [reflexivity|simpl; lia].
  - destruct (Nat.eq_dec n (S (String.length s))) as [E|N].
    + exists "", (String c s). split; [reflexivity|simpl; lia].
    + destruct (IH n) as (a & b & E & Lb); [lia|]. exists (String c a), b. subst s.
      split; [reflexivity|exact Lb].
Qed.

(** A hex token that ends a single-tagged name is a substring of the tag. *)
Lemma tag_suffix : forall token u t, hex8 token -> IsTag t ->
  ends_with_tag token (u ++ t) -> SubString token t.
Proof.
  intros token u t [Lt Hh] (x & Et & _) (v & E). subst t.
  assert (E' : ((v ++ "__skrub_" ++ token) ++ "__")%string = ((u ++ "__skrub_" ++ x) ++ "__")%string).
  { rewrite !sapp_assoc. rewrite ?sapp_assoc in E. symmetry. exact E. }
  apply sapp_inj_r in E'. clear E. rename E' into E.
  destruct (le_lt_dec 8 (String.length x)) as [Lx|Lx].
  - destruct (split_suffix x 8 Lx) as (a & b & Ex & Lb). subst x.
    rewrite <- !sapp_assoc in E. apply sapp_inv_len_r in E; [|congruence].
    destruct E as [_ E]. subst b. exists ("__skrub_" ++ a)%string, "__".
    rewrite !sapp_assoc. reflexivity.
  - exfalso.
    (* the token ends with "_" ++ x *)
    destruct (split_suffix token (S (String.length x))) as (a & b & Eb & Lb); [lia|].
    apply (hex_no_underscore token Hh).
    assert (E2 : ((v ++ "__skrub_" ++ a) ++ b)%string = ((u ++ "__skrub") ++ ("_" ++ x))%string).
    { rewrite !sapp_assoc. rewrite Eb in E. etransitivity; [|etransitivity; [exact E|]].
      - rewrite ?sapp_assoc. reflexivity.
      - rewrite ?sapp_assoc. reflexivity. }
    apply sapp_inv_len_r in E2; [|simpl; lia]. destruct E2 as [_ E2].
    exists a, x. rewrite Eb, E2. reflexivity.
Qed.

Lemma SubString_trans : forall a b c, SubString a b -> SubString b c -> SubString a c.
Proof.
  intros a b c (x & y & E) (x' & y' & E'). subst.
  exists (x' ++ x)%string, (y ++ y')%string. rewrite !sapp_assoc. reflexivity.
Qed.

Lemma fresh_wanted : forall token s u ts, hex8 token -> Untag s u ts ->
  ~ SubString token s -> ~ SubString token u -> ~ ends_with_tag token (wanted u ts).
Proof.
  intros token s u ts Hh U Ns Nu E. pose proof (Untag_tags _ _ _ U) as F.
  destruct ts as [|t [|t' ts]]; simpl in E.
  - apply Nu, ends_with_tag_sub, E.
  - inversion F as [|? ? [Ht St] _]; subst. apply tag_suffix in E; [|exact Hh|exact Ht].
    apply Ns. eapply SubString_trans; eassumption.
  - apply Nu, ends_with_tag_sub, E.
Qed.

Lemma ends_with_tag_inj : forall t t' n, String.length t = String.length t' ->
  ends_with_tag t n -> ends_with_tag t' n -> t = t'.
Proof.
  intros t t' n L (u & E) (u' & E'). subst n.
  rewrite <- !sapp_assoc in E'. apply sapp_inj_r in E'.
  apply sapp_inv_len_r in E'; [|exact L]. symmetry. symmetry. tauto.
Qed.

(** ** [pick_column_names] *)
Lemma pick_length : forall draw suggested i forbidden,
  length (pick_from draw i suggested forbidden) = length suggested.
Proof.
  intros draw. induction suggested as [|s l IH]; intros i forbidden; simpl; [reflexivity|].
  f_equal. apply IH.
Qed.

Lemma get_new_name_ext : forall token s f f', (forall x, In x f <-> In x f') ->
  get_new_name token s f = get_new_name token s f'.
Proof.
  intros token s f f' Hf. pose proof (scan_Untag s) as U.
  rewrite !(get_new_name_spec token s _ _ _ U).
  destruct (in_dec eqd _ f) as [I|N]; destruct (in_dec eqd _ f') as [I'|N']; try reflexivity.
  - apply Hf in I. contradiction.
  - apply Hf in I'. contradiction.
Qed.

Lemma pick_ext : forall draw l i f f', (forall x, In x f <-> In x f') ->
  pick_from draw i l f = pick_from draw i l f'.
Proof.
  intros draw. induction l as [|s l IH]; intros i f f' Hf; simpl; [reflexivity|].
  rewrite (get_new_name_ext (draw i) s f f' Hf). f_equal. apply IH.
  intros x. simpl. rewrite Hf. tauto.
Qed.

Lemma pick_app : forall draw l1 l2 i f,
  pick_from draw i (l1 ++ l2) f =
  pick_from draw i l1 f ++ pick_from draw (i + length l1) l2 (f ++ pick_from draw i l1 f).
Proof.
  intros draw. induction l1 as [|s l1 IH]; intros l2 i f; simpl.
  - rewrite Nat.add_0_r. apply pick_ext. intros x. rewrite app_nil_r. tauto.
  - f_equal. rewrite IH. f_equal. rewrite Nat.add_succ_r. apply pick_ext.
    intros x. simpl. rewrite !in_app_iff. simpl. tauto.
Qed.

(** The draws from [i] on are fresh for the current state of the loop. *)
Definition FreshAt (draw : nat -> string) (i n : nat) (suggested forbidden : list string) : Prop :=
  (forall j, i <= j -> j < n -> hex8 (draw j)) /\
  (forall j k, i <= j -> j < k -> k < n -> draw j <> draw k) /\
  (forall j f, i <= j -> j < n -> In f forbidden -> ~ ends_with_tag (draw j) f) /\
  (forall j s u ts, i <= j -> j < n -> In s suggested -> Untag s u ts ->
     ~ SubString (draw j) s /\ ~ SubString (draw j) u).

Lemma pick_fresh : forall draw n suggested i forbidden,
  i + length suggested = n -> FreshAt draw i n suggested forbidden ->
  NoDup (pick_from draw i suggested forbidden) /\
  (forall x, In x (pick_from draw i suggested forbidden) -> ~ In x forbidden).
Proof.
  intros draw n. induction suggested as [|s l IH]; intros i forbidden En F; simpl.
  - split; [constructor|tauto].
  - destruct F as (F1 & F2 & F3 & F4). simpl in En.
    pose proof (scan_Untag s) as U. set (u := fst (scan_tags 0 s)) in *.
    set (ts := snd (scan_tags 0 s)) in *.
    rewrite (get_new_name_spec (draw i) s u ts forbidden U).
    set (new := if in_dec eqd (wanted u ts) forbidden then _ else _).
    assert (Hnew : ~ In new forbidden).
    { unfold new. destruct (in_dec eqd (wanted u ts) forbidden) as [I|N]; [|exact N].
      intros I'. apply (F3 i _ (le_n _) ltac:(lia) I'). exists u. reflexivity. }
    assert (F' : FreshAt draw (S i) n l (new :: forbidden)).
    { split; [|split; [|split]].
      - intros j Lj. apply F1. lia.
      - intros j k Lj. apply F2. lia.
      - intros j f Lj Ln [E|I] T.
        + subst f. unfold new in T. destruct (in_dec eqd (wanted u ts) forbidden) as [I|N].
          * apply (F2 i j (le_n _) ltac:(lia) Ln).
            eapply ends_with_tag_inj; [|exists u; reflexivity|exact T].
            rewrite (proj1 (F1 i (le_n _) ltac:(lia))). symmetry. apply (F1 j); lia.
          * destruct (F4 j s u ts ltac:(lia) Ln (or_introl eq_refl) U) as [A B].
            revert T. apply (fresh_wanted _ s); [apply F1; lia|exact U|exact A|exact B].
        + revert T. apply F3; [lia|lia|exact I].
      - intros j s' u' ts' Lj Ln I. apply F4; [lia|lia|right; exact I]. }
    destruct (IH (S i) (new :: forbidden) ltac:(lia) F') as [ND DIS].
    split.
    + constructor; [|exact ND]. intros I. apply (DIS _ I). left. reflexivity.
    + intros x [E|I]; [subst x; exact Hnew|]. intros I'. apply (DIS _ I). right. exact I'.
Qed.

Lemma Fresh_FreshAt : forall draw n suggested forbidden,
  Fresh draw n suggested forbidden -> FreshAt draw 0 n suggested forbidden.
Proof.
  intros draw n suggested forbidden (F1 & F2 & F3 & F4). split; [|split; [|split]].
  - intros j _. apply F1.
  - intros j k _. apply F2.
  - intros j f _ Ln I T. apply (F3 j f Ln I). apply ends_with_tag_sub. exact T.
  - intros j s u ts _. apply F4.
Qed.

Lemma pick_distinct : forall draw suggested forbidden,
  Fresh draw (length suggested) suggested forbidden ->
  let names := pick_column_names draw suggested forbidden in
  length names = length suggested /\ NoDup names /\ (forall x, In x names -> ~ In x forbidden).
Proof.
  intros draw suggested forbidden F names. split; [apply pick_length|].
  apply (pick_fresh draw (length suggested)); [reflexivity|]. apply Fresh_FreshAt. exact F.
Qed.

Lemma pick_each : forall draw l1 s l2 forbidden u ts, Untag s u ts ->
  exists p1 p p2,
    pick_column_names draw (l1 ++ s :: l2) forbidden = p1 ++ p :: p2 /\
    length p1 = length l1 /\
    (~ In (wanted u ts) forbidden -> ~ In (wanted u ts) p1 -> p = wanted u ts) /\
    (In (wanted u ts) forbidden \/ In (wanted u ts) p1 ->
       p = (u ++ "__skrub_" ++ draw (length l1) ++ "__")%string).
Proof.
  intros draw l1 s l2 forbidden u ts U. unfold pick_column_names. rewrite pick_app. simpl.
  eexists _, _, _. split; [reflexivity|]. split; [apply pick_length|].
  rewrite (get_new_name_spec _ _ _ _ _ U).
  destruct (in_dec eqd (wanted u ts) _) as [I|N].
  - apply in_app_or in I. split; [tauto|reflexivity].
  - rewrite in_app_iff in N. split; [reflexivity|tauto].
Qed.

Lemma pick_each_untagged : forall draw l1 s l2 forbidden, ~ SubString "__skrub_" s ->
  exists p1 p p2,
    pick_column_names draw (l1 ++ s :: l2) forbidden = p1 ++ p :: p2 /\
    length p1 = length l1 /\
    (~ In s forbidden -> ~ In s p1 -> p = s) /\
    (In s forbidden \/ In s p1 -> p = (s ++ "__skrub_" ++ draw (length l1) ++ "__")%string).
Proof.
  intros draw l1 s l2 forbidden N. apply (pick_each draw l1 s l2 forbidden s []).
  apply no_tag_Untag. exact N.
Qed.

(** a list of distinct untagged, not forbidden names is unchanged *)
Lemma pick_identity : forall draw suggested i forbidden,
  (forall s, In s suggested -> ~ SubString "__skrub_" s /\ ~ In s forbidden) ->
  NoDup suggested ->
  pick_from draw i suggested forbidden = suggested.
Proof.
  intros draw. induction suggested as [|s l IH]; intros i forbidden Hs ND; simpl; [reflexivity|].
  destruct (Hs s (or_introl eq_refl)) as [H1 H2]. inversion ND as [|? ? N1 N2]; subst.
  rewrite (get_new_name_spec _ s s [] forbidden (no_tag_Untag s H1)). simpl wanted.
  destruct (in_dec eqd s forbidden) as [I|_]; [contradiction|]. f_equal.
  apply IH; [|exact N2]. intros s' I. destruct (Hs s' (or_intror I)) as [H3 H4]. split; [exact H3|].
  simpl. intros [E|I']; [subst; contradiction|contradiction].
Qed.

Lemma pick_collision :
  exists (draw : nat -> string) suggested,
    (forall i, hex8 (draw i)) /\ ~ NoDup (pick_column_names draw suggested []).
Proof.
  exists (fun _ => "00000000"), ["A"; "A__skrub_00000000__"; "A"]. split.
  - intros i. split; [reflexivity|]. cbn. unfold is_hex. vm_compute. lia.
  - intros N.
    assert (E : pick_column_names (fun _ => "00000000") ["A"; "A__skrub_00000000__"; "A"] []
                = ["A"; "A__skrub_00000000__"; "A__skrub_00000000__"]) by reflexivity.
    rewrite E in N. inversion N as [|? ? N1 N2]; subst. inversion N2 as [|? ? N3 N4]; subst.
    apply N3. left. reflexivity.
Qed.

(** ** concatenation *)
Section Concat.
  Context {C : Type}.

  Lemma set_names_names : forall (df : frame C) names, length names = length df ->
    column_names (set_column_names df names) = names.
  Proof.
    unfold column_names, set_column_names. intros df names. revert df.
    induction names as [|n names IH]; intros [|[a c] df] L; simpl in *; try discriminate; [reflexivity|].
    f_equal. apply IH. congruence.
  Qed.
  Lemma set_names_data : forall (df : frame C) names, length names = length df ->
    column_data (set_column_names df names) = column_data df.
  Proof.
    unfold column_data, set_column_names. intros df names. revert df.
    induction names as [|n names IH]; intros [|[a c] df] L; simpl in *; try discriminate; [reflexivity|].
    f_equal. apply IH. congruence.
  Qed.

  Lemma names_length : forall (df : frame C), length (column_names df) = length df.
  Proof. intros. apply map_length. Qed.

  Lemma make_unique_names : forall draw (dfs : list (frame C)) i used,
    column_names (concat (make_unique_from draw i used dfs)) =
    pick_from draw i (column_names (concat dfs)) used.
  Proof.
    intros draw. induction dfs as [|df dfs IH]; intros i used; simpl; [reflexivity|].
    unfold column_names in *. rewrite !map_app, pick_app. f_equal.
    - apply (set_names_names df). rewrite pick_length. apply map_length.
    - rewrite IH, map_length. reflexivity.
  Qed.

  Lemma make_unique_data : forall draw (dfs : list (frame C)) i used,
    column_data (concat (make_unique_from draw i used dfs)) = column_data (concat dfs).
  Proof.
    intros draw. induction dfs as [|df dfs IH]; intros i used; simpl; [reflexivity|].
    unfold column_data in *. rewrite !map_app. f_equal.
    - apply (set_names_data df). rewrite pick_length. apply map_length.
    - apply IH.
  Qed.

  Lemma concat_ok : forall draw (dfs : list (frame C)), dfs <> [] ->
    Fresh draw (length (column_names (concat dfs))) (column_names (concat dfs)) [] ->
    exists out, concat_horizontal draw dfs = Ok out /\
      column_data out = concat (map column_data dfs) /\ NoDup (column_names out).
  Proof.
    intros draw dfs Hd F. destruct dfs as [|df dfs]; [congruence|].
    eexists. split; [reflexivity|]. split.
    - unfold make_column_names_unique. rewrite make_unique_data. unfold column_data.
      rewrite concat_map. reflexivity.
    - unfold make_column_names_unique. rewrite make_unique_names. apply pick_distinct. exact F.
  Qed.

  (** A name without tag that no earlier column has asked for or got is unchanged; in
      particular the first dataframe is unchanged if its names are untagged and distinct *)
  Lemma concat_first : forall draw (df : frame C) dfs,
    NoDup (column_names df) -> (forall s, In s (column_names df) -> ~ SubString "__skrub_" s) ->
    exists rest, concat_horizontal draw (df :: dfs) = Ok (df ++ rest).
  Proof.
    intros draw df dfs ND Ht. eexists. unfold concat_horizontal, make_column_names_unique. simpl.
    rewrite pick_identity.
    - unfold set_column_names, column_names. 
      assert (E : combine (map fst df) (map snd df) = df).
      { clear. induction df as [|[a c] df IH]; simpl; congruence. }
      rewrite E. reflexivity.
    - intros s I. split; [apply Ht; exact I|]. intros [].
    - exact ND.
  Qed.

  Lemma concat_unchanged : forall draw (dfs : list (frame C)) out c1 name d c2,
    concat_horizontal draw dfs = Ok out ->
    concat dfs = c1 ++ (name, d) :: c2 -> ~ SubString "__skrub_" name ->
    exists o1 name' o2, out = o1 ++ (name', d) :: o2 /\ length o1 = length c1 /\
      (~ In name (column_names o1) -> name' = name) /\
      (In name (column_names o1) -> exists token, name' = (name ++ "__skrub_" ++ token ++ "__")%string).
  Proof.
    intros draw dfs out c1 name d c2 E Ec Nt. destruct dfs as [|df dfs]; [discriminate|].
    remember (df :: dfs) as dfs' eqn:Edfs.
    assert (E0 : concat (make_column_names_unique draw dfs') = out).
    { subst dfs'. unfold concat_horizontal in E. congruence. }
    clear E Edfs. rename E0 into E.
    pose proof (make_unique_names draw dfs' 0 []) as HN.
    pose proof (make_unique_data draw dfs' 0 []) as HD.
    unfold make_column_names_unique in E. rewrite E in HN, HD. rewrite Ec in HN, HD.
    unfold column_names in HN. rewrite map_app in HN. simpl in HN.
    destruct (pick_each_untagged draw (map fst c1) name (map fst c2) [] Nt)
      as (p1 & p & p2 & Ep & Lp & Hk & Ht). unfold pick_column_names in Ep. rewrite Ep in HN.
    unfold column_data in HD. rewrite map_app in HD. simpl in HD. rewrite map_length in Lp.
    assert (exists o1 o o2, out = o1 ++ o :: o2 /\ map fst o1 = p1 /\ fst o = p /\ map snd o1 = map snd c1
      /\ snd o = d) as (o1 & o & o2 & Eo & E1 & E2 & E3 & E4).
    { clear -HN HD Lp. revert p1 c1 HN HD Lp. induction out as [|o out IH]; intros p1 c1 HN HD Lp.
      - destruct p1; discriminate.
      - destruct p1 as [|q p1]; destruct c1 as [|c c1]; simpl in *; try discriminate.
        + exists [], o, out. injection HN as E1 _. injection HD as E2 _. subst. repeat split.
        + injection HN as E1 HN. injection HD as EE HD. injection Lp as Lp.
          destruct (IH p1 c1 HN HD Lp) as (o1 & o' & o2 & A & B & D & F & G).
          exists (o :: o1), o', o2. simpl. repeat split; congruence. }
    exists o1, p, o2. split; [|split; [|split]].
    - rewrite Eo. destruct o. simpl in *. subst. reflexivity.
    - rewrite <- (map_length snd o1), E3, map_length. reflexivity.
    - intros N. apply Hk; [tauto|]. rewrite <- E1. exact N.
    - intros I. exists (draw (length (map fst c1))). apply Ht. right. rewrite <- E1. exact I.
  Qed.
End Concat.

(** ** keys *)
Lemma check_key_spec : forall main aux key m a,
  check_key main aux key = Ok (m, a) <->
  (key <> KNone /\ main = KNone /\ aux = KNone /\
   m = atleast_1d_or_none key /\ a = atleast_1d_or_none key) \/
  (key = KNone /\ main <> KNone /\ aux <> KNone /\ length m = length a /\
   m = atleast_1d_or_none main /\ a = atleast_1d_or_none aux).
Proof.
  intros main aux key m a. unfold check_key.
  destruct key as [|k|k]; destruct main as [|km|km]; destruct aux as [|ka|ka]; cbn -[length];
    rewrite ?Nat.eqb_refl; cbn -[length];
    try (destruct (_ =? _) eqn:E; cbn -[length]; [apply Nat.eqb_eq in E|apply Nat.eqb_neq in E]);
    (split; [intros X; try discriminate; injection X as <- <-
            |intros [(A & B & D & F & G)|(A & B & D & L & F & G)]; try congruence]);
    try (left; repeat split; congruence); try (right; repeat split; congruence).
Qed.

Lemma check_missing_spec : forall cols key,
  (check_missing_columns cols key = Ok tt <-> forall k, In k key -> In k cols) /\
  (check_missing_columns cols key = Err ValueError <-> exists k, In k key /\ ~ In k cols).
Proof.
  intros cols key. unfold check_missing_columns.
  assert (HF : forall k, In k (filter (fun k => negb (mem k cols)) key) <-> In k key /\ ~ In k cols).
  { intros k. rewrite filter_In, negb_true_iff, mem_false. tauto. }
  destruct (filter _ key) as [|x l] eqn:E.
  - split; (split; [|intros]); try discriminate; try reflexivity.
    + intros _ k I. destruct (in_dec eqd k cols) as [Y|N]; [exact Y|].
      exfalso. apply (proj2 (HF k)). tauto.
    + destruct H as (k & Hk). apply HF in Hk. destruct Hk.
  - destruct (proj1 (HF x) (or_introl eq_refl)) as [I1 I2].
    split; (split; intros A); try discriminate; try reflexivity.
    + exfalso. apply I2, A, I1.
    + eauto.
Qed.

(** A simple sufficient condition for [Fresh], used in examples. *)
Lemma SubString_length : forall t s, SubString t s -> String.length t <= String.length s.
Proof. intros t s (a & b & E). subst. rewrite !sapp_length. lia. Qed.

Lemma Untag_length : forall s u ts, Untag s u ts -> String.length u <= String.length s.
Proof.
  intros s u ts U. induction U; simpl; [lia| |lia]. rewrite sapp_length. lia.
Qed.

Lemma Fresh_short : forall draw n suggested forbidden,
  (forall i, i < n -> hex8 (draw i)) ->
  (forall i j, i < j -> j < n -> draw i <> draw j) ->
  (forall s, In s (suggested ++ forbidden) -> String.length s < 8) ->
  Fresh draw n suggested forbidden.
Proof.
  intros draw n suggested forbidden H1 H2 H3. split; [exact H1|]. split; [exact H2|]. split.
  - intros i f L I S. apply SubString_length in S. rewrite (proj1 (H1 i L)) in S.
    specialize (H3 f (in_or_app _ _ _ (or_intror I))). lia.
  - intros i s u ts L I U. specialize (H3 s (in_or_app _ _ _ (or_introl I))).
    pose proof (Untag_length _ _ _ U) as LU.
    split; intros S; apply SubString_length in S; rewrite (proj1 (H1 i L)) in S; lia.
Qed.

(** draws used in examples: distinct for i < 10 *)
Definition example_draw (i : nat) : string :=
  ("0000000" ++ String (ascii_of_nat (48 + i)) "")%string.

Lemma example_draw_fresh : forall n suggested forbidden, n <= 10 ->
  (forall s, In s (suggested ++ forbidden) -> String.length s < 8) ->
  Fresh example_draw n suggested forbidden.
Proof.
  intros n suggested forbidden Ln H3. apply Fresh_short; [| |exact H3].
  - intros i L. split; [reflexivity|]. unfold example_draw. cbn [append all_chars].
    assert (Hi : is_hex (ascii_of_nat (48 + i))).
    { unfold is_hex. rewrite nat_ascii_embedding by lia. lia. }
    unfold is_hex at 1 2 3 4 5 6 7. vm_compute nat_of_ascii. repeat split; try lia. exact Hi.
  - intros i j L1 L2 E. unfold example_draw in E. apply sapp_inj_l in E.
    injection E as E. apply (f_equal nat_of_ascii) in E.
    rewrite !nat_ascii_embedding in E by lia. lia.
Qed.

(** A condition that can be checked by computation: no digit 0 in the names. *)
Fixpoint no_zero (s : string) : bool :=
  match s with EmptyString => true | String c s' => negb (eqb_of c "0"%char) && no_zero s' end.
Lemma no_zero_app : forall a b, no_zero (a ++ b) = no_zero a && no_zero b.
Proof. induction a as [|c a IH]; intros b; simpl; [reflexivity|]. rewrite IH, andb_assoc. reflexivity. Qed.
Lemma Untag_no_zero : forall s u ts, Untag s u ts -> no_zero s = true -> no_zero u = true.
Proof.
  intros s u ts U. induction U as [|t s u ts T U IH|c s u ts N U IH]; intros E; [reflexivity| |].
  - rewrite no_zero_app in E. apply andb_true_iff in E. tauto.
  - simpl in *. apply andb_true_iff in E. apply andb_true_iff. tauto.
Qed.
Lemma example_draw_ok : forall n suggested forbidden, n <= 10 ->
  forallb no_zero (suggested ++ forbidden) = true -> Fresh example_draw n suggested forbidden.
Proof.
  intros n suggested forbidden Ln H3. rewrite forallb_forall in H3.
  destruct (example_draw_fresh n [] [] Ln) as (F1 & F2 & _); [intros s []|].
  assert (D : forall i s, no_zero s = true -> ~ SubString (example_draw i) s).
  { intros i s E (a & b & ->). unfold example_draw in E. rewrite !no_zero_app in E.
    apply andb_true_iff in E. destruct E as [_ E]. discriminate E. }
  split; [exact F1|]. split; [exact F2|]. split.
  - intros i f _ I. apply D, H3, in_or_app. right. exact I.
  - intros i s u ts _ I U. assert (Z : no_zero s = true) by (apply H3, in_or_app; left; exact I).
    split; apply D; [exact Z|]. exact (Untag_no_zero _ _ _ U Z).
Qed.
