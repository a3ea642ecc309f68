(** Lemmas on GapEncoder: the names of the topics and the output of [transform]. *)
From Verif Require Import Base L_dict M_names M_str L_str M_lru L_minhash M_gap L_gap L_numnames L_dtencoder.
From Coq Require Import Permutation.
Open Scope string_scope.
Open Scope list_scope.
Open Scope nat_scope.

(** ** Labels *)
Definition ascii_list := list_ascii_of_string.
Lemma al_app : forall a b, ascii_list (a ++ b)%string = (ascii_list a ++ ascii_list b)%list.
Proof. induction a as [|c a IH]; intros b; simpl; [reflexivity|]. f_equal. apply IH. Qed.
Lemma al_inj : forall a b, ascii_list a = ascii_list b -> a = b.
Proof. induction a as [|c a IH]; destruct b as [|d b]; simpl; intros E; try discriminate; [reflexivity|]. injection E as -> E. f_equal. auto. Qed.
Lemma split_first {A} (x : A) : forall a b a' b', ~ In x a -> ~ In x a' -> a ++ x :: b = a' ++ x :: b' -> a = a'.
Proof.
  induction a as [|y a IH]; destruct a' as [|y' a']; simpl; intros b' N N' E.
  - reflexivity.
  - injection E as E1 E2. subst. tauto.
  - injection E as E1 E2. subst. tauto.
  - injection E as E1 E2. subst. f_equal. eapply IH; eauto.
Qed.
Lemma digits_paren : forall s, digits s -> ~ In "("%char (ascii_list s).
Proof.
  induction s as [|c s IH]; simpl; [tauto|]. intros [B D] [E|I]; [|exact (IH D I)]. subst c. cbn in B. lia.
Qed.
Definition suffix (i : nat) : string := (" (" ++ str_nat i ++ ")")%string.
Lemma suffix_inj : forall b b' i j, (b ++ suffix i = b' ++ suffix j)%string -> i = j.
Proof.
  intros b b' i j E. apply (f_equal ascii_list) in E. apply (f_equal (@rev ascii)) in E.
  unfold suffix in E. rewrite !al_app in E. rewrite !rev_app_distr in E. cbn in E. injection E as E.
  rewrite <- !app_assoc in E. cbn in E.
  apply split_first in E.
  - apply (f_equal (@rev ascii)) in E. rewrite !rev_involutive in E. apply al_inj in E. apply str_nat_inj. exact E.
  - rewrite <- in_rev. apply digits_paren. apply str_nat_digits.
  - rewrite <- in_rev. apply digits_paren. apply str_nat_digits.
Qed.
Lemma suffix_paren : forall i, In "("%char (ascii_list (suffix i)).
Proof. intros i. unfold suffix. simpl. tauto. Qed.

(** labels that no suffix turns into one another *)
Definition Apart (labels : list string) : Prop := forall b b' k, In b labels -> In b' labels -> b <> (b' ++ suffix k)%string.
Definition full (name : option string) (label : string) : string := match name with Some n => (n ++ ": " ++ label)%string | None => label end.
Lemma full_apart : forall name labels, Apart labels -> Apart (map (full name) labels).
Proof.
  intros name labels H b b' k I I' E. apply in_map_iff in I. destruct I as [x [<- I]]. apply in_map_iff in I'. destruct I' as [x' [<- I']].
  apply (H x x' k I I'). destruct name as [n|]; cbn [full] in E; [|exact E].
  rewrite !sapp_assoc in E. apply (f_equal ascii_list) in E. rewrite !(al_app n) in E. apply app_inv_head in E. apply al_inj in E. change (": " ++ x)%string with (String ":" (String " " x)) in E.
  change (": " ++ x' ++ suffix k)%string with (String ":" (String " " (x' ++ suffix k))) in E. congruence.
Qed.

Lemma label_loop_spec : forall name labels i seen all,
  Apart (map (full name) all) -> (forall l, In l labels -> In l all) ->
  NoDup seen -> (forall s, In s seen -> In s (map (full name) all) \/ exists b j, In b (map (full name) all) /\ j < i /\ s = (b ++ suffix j)%string) ->
  NoDup (label_loop name labels i seen) /\ length (label_loop name labels i seen) = length seen + length labels.
Proof.
  intros name. induction labels as [|l labels IH]; intros i seen all A Sub ND Form.
  - cbn. split; [exact ND|lia].
  - cbn [label_loop length]. fold (full name l).
    assert (Il : In (full name l) (map (full name) all)) by (apply in_map; apply Sub; left; reflexivity).
    set (new := if mem (full name l) seen then (full name l ++ " (" ++ str_nat i ++ ")")%string else full name l).
    assert (New : ~ In new seen).
    { unfold new. destruct (mem (full name l) seen) eqn:M; [|apply mem_false; exact M].
      change (" (" ++ str_nat i ++ ")")%string with (suffix i). intros I. destruct (Form _ I) as [B|(b & j & B & L & E)].
      - exact (A _ _ i B Il eq_refl).
      - apply suffix_inj in E. lia. }
    destruct (IH (S i) (seen ++ [new]) all A) as [ND' L'].
    + intros x I. apply Sub. right; exact I.
    + apply NoDup_app_intro; [exact ND|constructor; [intros []|constructor]|]. intros x I [->|[]]. exact (New I).
    + intros s I. apply in_app_iff in I. destruct I as [I|[<-|[]]].
      * destruct (Form _ I) as [B|(b & j & B & L & E)]; [left; exact B|right; exists b, j; split; [exact B|split; [lia|exact E]]].
      * unfold new. destruct (mem (full name l) seen); [|left; exact Il]. right. exists (full name l), i. split; [exact Il|]. split; [lia|reflexivity].
    + split; [exact ND'|]. rewrite L'. rewrite app_length. cbn [length]. lia.
Qed.

Lemma concat_paren : forall l, (forall w, In w l -> ~ In "("%char (ascii_list w)) -> ~ In "("%char (ascii_list (String.concat ", " l)).
Proof.
  induction l as [|w l IH]; intros H I; [exact I|].
  destruct l as [|w2 l].
  - cbn in I. exact (H w (or_introl eq_refl) I).
  - cbn [String.concat] in I. rewrite al_app in I. apply in_app_iff in I. destruct I as [I|I]; [exact (H w (or_introl eq_refl) I)|].
    rewrite al_app in I. apply in_app_iff in I. destruct I as [I|I].
    + cbn in I. destruct I as [E|[E|[]]]; discriminate.
    + apply IH in I; [exact I|]. intros x Ix. apply H. right; exact Ix.
Qed.
Lemma concat_length : forall l l', length l = length l' -> (forall w, In w l -> String.length w = 1) -> (forall w, In w l' -> String.length w = 1) ->
  String.length (String.concat ", " l) = String.length (String.concat ", " l').
Proof.
  induction l as [|w l IH]; destruct l' as [|w' l']; intros E H H'; try discriminate; [reflexivity|].
  injection E as E. destruct l as [|w2 l]; destruct l' as [|w2' l']; try discriminate.
  - cbn. rewrite (H w), (H' w'); simpl; auto.
  - cbn [String.concat]. rewrite !slength_app. rewrite (H w), (H' w') by (left; reflexivity). do 2 f_equal.
    apply (IH (w2' :: l')); [exact E|intros x Ix; apply H; right; exact Ix|intros x Ix; apply H'; right; exact Ix].
Qed.

Lemma fold_dset_fresh {A} : forall (names : list string) (cols : list A) d, NoDup names -> (forall n, In n names -> ~ In n (dkeys d)) ->
  length names = length cols ->
  fold_left (fun d kv => dset (fst kv) (snd kv) d) (combine names cols) d = d ++ combine names cols.
Proof.
  induction names as [|n names IH]; destruct cols as [|c cols]; intros d ND Dis L; try discriminate; [symmetry; apply app_nil_r|].
  cbn [combine fold_left fst snd]. inversion_clear ND as [|? ? N1 N2].
  assert (E : dset n c d = d ++ [(n, c)]).
  { clear - Dis. assert (Nn : ~ In n (dkeys d)) by (apply Dis; left; reflexivity). clear Dis. induction d as [|[k v] d IH]; [reflexivity|].
    cbn. destruct (eqd n k) as [->|]; [exfalso; apply Nn; left; reflexivity|]. f_equal. apply IH. intros I. apply Nn. right; exact I. }
  rewrite E, IH; [rewrite <- app_assoc; reflexivity|exact N2| |injection L as L; exact L].
  intros m I. unfold dkeys. rewrite map_app, in_app_iff. cbn. intros [I'|[->|[]]]; [|contradiction]. exact (Dis m (or_intror I) I').
Qed.

Section GapFrame.
  Variable N : arith.
  Notation F := (num N).
  Notation vec := (list F).
  Context {Z R : Type}.
  Variable vec_counts : Z -> string -> list (nat * F).
  Variable vec_width : Z -> nat.
  Variable divergence : list (list (nat * F)) -> list vec -> list vec -> F.
  Variable words_of : list string -> res (list string).
  Variable chars_of : list string -> res (list string).
  Variable argsort : vec -> list nat.
  Hypothesis Names : NamesOk words_of chars_of.
  Hypothesis Sorts : @SortOk N argsort.
  Notation counts := (counts N vec_counts vec_width).
  Notation transform_ := (transform_ N vec_counts vec_width).
  Notation transform := (transform N vec_counts vec_width words_of chars_of argsort).
  Notation score := (score N vec_counts vec_width divergence).
  Notation get_feature_names_out := (get_feature_names_out N vec_counts vec_width words_of chars_of argsort).
  Notation gstate := (@gstate N Z R).
  Notation gcfg := (@gcfg N R).

  Lemma transform__inv : forall c (st : gstate) X st' rows, 0 < batch_size N c -> transform_ c st X = (st', Ok rows) ->
    exists d, H_dict_ N st = Some d /\
      ((exists f, (forall x, counts c st x = Ok (f x)) /\ rows = map (fun v => encode N c (W_ N st) f d (text v)) X) \/ (X = [] /\ rows = [])).
  Proof.
    intros c st X st' rows B E. destruct (H_dict_ N st) as [d|] eqn:D; [|unfold M_gap.transform_ in E; rewrite D in E; discriminate].
    exists d. split; [reflexivity|].
    destruct (counts_total N vec_counts vec_width c st) as [[f C]|[e C]].
    - rewrite (transform__ok N vec_counts vec_width c st f d X B D C) in E. left. exists f. split; [exact C|]. congruence.
    - right. unfold M_gap.transform_ in E. rewrite D in E.
      pose proof (unique_mem X) as U. destruct (unique_strings X) as [u idx]. cbn [fst] in U. destruct u as [|x u]; [|cbn [mapM] in E; rewrite C in E; discriminate].
      destruct X as [|v X]; [|exfalso; exact (U v (or_introl eq_refl))]. split; [reflexivity|].
      cbn [mapM] in E. destruct (add_unseen N vec_counts vec_width c st d []) as [d'|]; [|discriminate].
      unfold get_H in E. cbn [mapM map] in E. destruct (update_batches N c 100 (W_ N st) [] []) as [u|]; [|discriminate]. congruence.
  Qed.

  Lemma names_spec : forall c (st : gstate) st' names, 0 < batch_size N c -> get_feature_names_out c st 3 = (st', Ok names) ->
    NoDup names /\ length names = n_components N c.
  Proof.
    intros c st st' names B E. unfold M_gap.get_feature_names_out in E. destruct (H_dict_ N st) as [d|]; [|discriminate].
    set (vocab := match words_of (dkeys d) with Err ValueError => chars_of (dkeys d) | r => r end) in E.
    assert (V : forall l, vocab = Ok l -> (forall w, In w l -> ~ In "("%char (ascii_list w)) \/ (forall w, In w l -> String.length w = 1)).
    { intros l. unfold vocab. destruct Names as [Wd Ch]. destruct (words_of (dkeys d)) as [l'|e] eqn:Ew.
      - intros El. injection El as <-. left. apply (Wd _ _ Ew).
      - destruct e; intros El; try discriminate. right. apply (Ch _ _ El). }
    destruct vocab as [l|e]; [|discriminate]. specialize (V l eq_refl).
    destruct (transform_ c st (map Some l)) as [st2 [enc|e]] eqn:T; [|discriminate].
    assert (Le : length enc = length l).
    { destruct (transform__inv _ _ _ _ _ B T) as (d' & _ & [(f & _ & ->)|[E0 ->]]); [rewrite !map_length; reflexivity|].
      destruct l; [reflexivity|discriminate]. }
    apply pair_equal_spec in E. destruct E as [_ E]. injection E as <-.
    match goal with |- NoDup (label_loop _ ?ls _ _) /\ _ => set (labels := ls) end.
    assert (In_vocab : forall x, length x = length l -> forall w, In w (map (fun i => nth i l EmptyString) (firstn 3 (argsort x))) -> In w l).
    { intros x Lx w I. apply in_map_iff in I. destruct I as [i [<- I]]. apply nth_In.
      assert (I' : In i (argsort x)) by (rewrite <- (firstn_skipn 3 (argsort x)); apply in_app_iff; left; exact I).
      apply (Permutation_in _ (Sorts x)) in I'. apply in_seq in I'. lia. }
    assert (Lx : forall i, length (map (fun r => at_ N r i) (map (fun r => map (fun x => div N x (sum N r)) r) (map (map (absn N)) enc))) = length l)
      by (intros i; rewrite !map_length; exact Le).
    assert (A : Apart labels).
    { intros b b' k I I' E. unfold labels in I, I'. apply in_map_iff in I. destruct I as [i [<- _]]. apply in_map_iff in I'. destruct I' as [i' [<- _]].
      destruct V as [V|V].
      - apply (f_equal ascii_list) in E. rewrite al_app in E.
        assert (P : In "("%char (ascii_list (label_of N argsort l (map (fun r => at_ N r i) (map (fun r => map (fun x => div N x (sum N r)) r) (map (map (absn N)) enc))) 3))).
        { rewrite E. apply in_app_iff. right. apply suffix_paren. }
        revert P. unfold label_of. apply concat_paren. intros w Iw. apply V. exact (In_vocab _ (Lx i) w Iw).
      - apply (f_equal String.length) in E. rewrite slength_app in E. unfold label_of in E.
        rewrite (concat_length (map (fun i => nth i l EmptyString) (firstn 3 (argsort (map (fun r => at_ N r i) (map (fun r => map (fun x => div N x (sum N r)) r) (map (map (absn N)) enc))))))
                               (map (fun i => nth i l EmptyString) (firstn 3 (argsort (map (fun r => at_ N r i') (map (fun r => map (fun x => div N x (sum N r)) r) (map (map (absn N)) enc))))))) in E.
        + unfold suffix in E. cbn [append String.length] in E. lia.
        + rewrite !map_length, !firstn_length. rewrite !(Permutation_length (Sorts _)), !seq_length, !Lx. reflexivity.
        + intros w Iw. apply V. exact (In_vocab _ (Lx i) w Iw).
        + intros w Iw. apply V. exact (In_vocab _ (Lx i') w Iw). }
    destruct (label_loop_spec (match input_name N st with Some n => n | None => None end) labels 0 [] labels) as [ND L].
    - apply full_apart. exact A.
    - auto.
    - constructor.
    - intros s [].
    - split; [exact ND|]. rewrite L. unfold labels. rewrite map_length, seq_length. reflexivity.
  Qed.

  (** the output *)
  Lemma transform_inv : forall c (st : gstate) X st' f, 0 < batch_size N c -> transform c st X = (st', Ok f) ->
    exists names rows, transform_ c st (values X) = (st, Ok rows) /\ get_feature_names_out c st 3 = (st, Ok names) /\
      NoDup names /\ length names = n_components N c /\
      f = combine names (map (fun i => map (fun r => at_ N r i) rows) (seq 0 (n_components N c))).
  Proof.
    intros c st X st' f B E. unfold M_gap.transform in E. destruct (H_dict_ N st) as [d|]; [|discriminate].
    destruct (textual X); [|discriminate]. cbn [negb] in E.
    pose proof (transform__err N vec_counts vec_width c st (values X) B) as T. destruct (transform_ c st (values X)) as [st2 [rows|e]]; [|discriminate].
    cbn [fst] in T. subst st2.
    pose proof (names_unchanged N vec_counts vec_width words_of chars_of argsort c st 3 B) as G.
    destruct (get_feature_names_out c st 3) as [st2 [names|e]] eqn:En; [|discriminate]. cbn [fst] in G. subst st2.
    destruct (names_spec c st st names B En) as [ND L].
    exists names, rows. repeat (split; [try reflexivity; try assumption|]).
    apply pair_equal_spec in E. destruct E as [_ E]. injection E as <-.
    rewrite fold_dset_fresh; [reflexivity|exact ND|intros n I []|]. rewrite map_length, seq_length. exact L.
  Qed.

  Lemma snd_combine {A B} : forall (a : list A) (b : list B), length a = length b -> map snd (combine a b) = b.
  Proof. induction a as [|x a IH]; destruct b as [|y b]; simpl; intros E; try discriminate; [reflexivity|]. f_equal. auto. Qed.
  Lemma fst_combine {A B} : forall (a : list A) (b : list B), length a = length b -> map fst (combine a b) = a.
  Proof. induction a as [|x a IH]; destruct b as [|y b]; simpl; intros E; try discriminate; [reflexivity|]. f_equal. auto. Qed.

  Lemma transform_shape : forall c (st : gstate) X st' f, 0 < batch_size N c -> transform c st X = (st', Ok f) ->
    NoDup (column_names f) /\ length f = n_components N c /\
    (forall col, In col (column_data f) -> length col = length (values X)) /\
    get_feature_names_out c st 3 = (st, Ok (column_names f)).
  Proof.
    intros c st X st' f B E. destruct (transform_inv c st X st' f B E) as (names & rows & T & G & ND & L & ->).
    assert (Lc : length names = length (map (fun i => map (fun r => at_ N r i) rows) (seq 0 (n_components N c)))) by (rewrite map_length, seq_length; exact L).
    unfold column_names, column_data. rewrite (snd_combine _ _ Lc), (fst_combine _ _ Lc).
    split; [exact ND|]. split; [rewrite combine_length, <- Lc; lia|]. split; [|exact G].
    intros col I. apply in_map_iff in I. destruct I as [i [<- _]]. rewrite map_length.
    destruct (transform__inv _ _ _ _ _ B T) as (d' & _ & [(g & _ & ->)|[-> ->]]); [rewrite map_length|]; reflexivity.
  Qed.

  Lemma counts_cong : forall (c : gcfg) b (st1 st2 : gstate) x, ngrams_count_ N st1 = ngrams_count_ N st2 -> word_count_ N st1 = word_count_ N st2 ->
    counts (with_batch b c) st2 x = counts c st1 x.
  Proof. intros c b st1 st2 x E1 E2. unfold M_gap.counts. rewrite E1, E2. reflexivity. Qed.

  Lemma update_h_row_batch : forall (c : gcfg) b m W v h, update_h_row N (with_batch b c) m W v h = update_h_row N c m W v h.
  Proof. reflexivity. Qed.
  Lemma transform_rowwise : forall (c : gcfg) b (st1 st2 : gstate) X1 X2 st1' st2' f1 f2 i j v1 v2,
    0 < batch_size N c -> 0 < b ->
    ngrams_count_ N st1 = ngrams_count_ N st2 -> word_count_ N st1 = word_count_ N st2 -> W_ N st1 = W_ N st2 ->
    transform c st1 X1 = (st1', Ok f1) -> transform (with_batch b c) st2 X2 = (st2', Ok f2) ->
    nth_error (values X1) i = Some v1 -> nth_error (values X2) j = Some v2 -> as_text v1 = as_text v2 ->
    remembered st1 (as_text v1) = remembered st2 (as_text v2) ->
    row_of f1 i = row_of f2 j.
  Proof.
    intros c b st1 st2 X1 X2 st1' st2' f1 f2 i j v1 v2 B1 B2 Ez Ez2 EW T1 T2 I1 I2 Ev Er.
    destruct (transform_inv _ _ _ _ _ B1 T1) as (names1 & rows1 & U1 & _ & _ & L1 & ->).
    assert (B2' : 0 < batch_size N (with_batch b c)) by exact B2.
    destruct (transform_inv _ _ _ _ _ B2' T2) as (names2 & rows2 & U2 & _ & _ & L2 & ->).
    unfold row_of, column_data. rewrite !snd_combine by (rewrite map_length, seq_length; assumption). rewrite !map_map.
    change (n_components N (with_batch b c)) with (n_components N c). apply map_ext. intros k. rewrite !nth_error_map.
    destruct (transform__inv _ _ _ _ _ B1 U1) as (d1 & D1 & [(g1 & C1 & ->)|[En _]]); [|rewrite En in I1; destruct i; discriminate].
    destruct (transform__inv _ _ _ _ _ B2' U2) as (d2 & D2 & [(g2 & C2 & ->)|[En _]]); [|rewrite En in I2; destruct j; discriminate].
    rewrite !nth_error_map, I1, I2. cbn [option_map].
    change (text v1) with (as_text v1). change (text v2) with (as_text v2). rewrite <- Ev.
    assert (G : g1 (as_text v1) = g2 (as_text v1)).
    { pose proof (counts_cong c b st1 st2 (as_text v1) Ez Ez2) as E. rewrite C1, C2 in E. congruence. }
    unfold remembered in Er. rewrite D1, D2, <- Ev in Er.
    assert (E : encode N (with_batch b c) (W_ N st2) g2 d2 (as_text v1) = encode N c (W_ N st1) g1 d1 (as_text v1)).
    { unfold encode, start. rewrite <- Er, <- G, EW, update_h_row_batch. reflexivity. }
    rewrite E. reflexivity.
  Qed.

  (** histories *)
  Definition call_state (c : gcfg) (st : gstate) (o : call) : gstate :=
    match o with Transform X => fst (transform c st X) | Score X => fst (score c st X) end.

  (** knowing more texts, but nothing else *)
  Definition Extends (c : gcfg) (st st' : gstate) : Prop :=
    ngrams_count_ N st = ngrams_count_ N st' /\ word_count_ N st = word_count_ N st' /\ W_ N st = W_ N st' /\ 
    forall X, snd (transform_ c st' X) = snd (transform_ c st X).
  Lemma score_extends : forall c (st : gstate) X, 0 < batch_size N c -> Extends c st (fst (score c st X)).
  Proof.
    intros c st X B. unfold M_gap.score. destruct (unique_strings (values X)) as [u idx].
    destruct (mapM (counts c st) u) as [V|e] eqn:EV; [|repeat split].
    destruct (H_dict_ N st) as [d|] eqn:D; [|repeat split].
    destruct (add_unseen N vec_counts vec_width c st d u) as [d'|e] eqn:A; [|repeat split]. cbn [fst].
    repeat (split; [reflexivity|]). intros Y.
    destruct (counts_total N vec_counts vec_width c st) as [[f C]|[e C]].
    - destruct (add_unseen_ok N vec_counts vec_width c st f d u C) as [d2 [E G]]. rewrite A in E. injection E as <-.
      rewrite (transform__ok N vec_counts vec_width c st f d Y B D C).
      rewrite (transform__ok N vec_counts vec_width c (set_H N d' st) f d' Y B eq_refl C). cbn [snd].
      assert (E : forall v, encode N c (W_ N (set_H N d' st)) f d' (text v) = encode N c (W_ N st) f d (text v)).
      { intros v. assert (E : start N c f d' (text v) = start N c f d (text v)).
        { unfold start at 1. rewrite G. destruct (mem (text v) u); reflexivity. }
        unfold encode. rewrite E. reflexivity. }
      rewrite (map_ext _ _ E). reflexivity.
    - destruct u as [|x u]; [|cbn [mapM] in EV; rewrite C in EV; discriminate].
      unfold add_unseen in A. cbn in A. injection A as <-. rewrite set_H_id by exact D. reflexivity.
  Qed.
  Lemma extends_refl : forall c (st : gstate), Extends c st st.
  Proof. intros. repeat split. Qed.
  Lemma extends_trans : forall c (a b d : gstate), Extends c a b -> Extends c b d -> Extends c a d.
  Proof.
    intros c a b d (A1 & A2 & A3 & A4) (B1 & B2 & B3 & B4). repeat (split; [congruence|]). intros X. rewrite B4. apply A4.
  Qed.
  Lemma calls_extend : forall c ops (st : gstate), 0 < batch_size N c -> Extends c st (fold_left (call_state c) ops st).
  Proof.
    intros c ops. induction ops as [|o ops IH]; intros st B; [apply extends_refl|]. cbn [fold_left].
    eapply extends_trans; [|apply IH; exact B]. destruct o as [X|X]; cbn [call_state].
    - rewrite (transform_unchanged N vec_counts vec_width words_of chars_of argsort c st X B). apply extends_refl.
    - apply score_extends. exact B.
  Qed.
  Lemma calls_rows : forall c ops (st : gstate) X st1 f1 st2 f2 i, 0 < batch_size N c ->
    transform c st X = (st1, Ok f1) -> transform c (fold_left (call_state c) ops st) X = (st2, Ok f2) -> row_of f1 i = row_of f2 i.
  Proof.
    intros c ops st X st1 f1 st2 f2 i B T1 T2. destruct (calls_extend c ops st B) as (_ & _ & _ & E).
    destruct (transform_inv _ _ _ _ _ B T1) as (names1 & rows1 & U1 & _ & _ & L1 & ->).
    destruct (transform_inv _ _ _ _ _ B T2) as (names2 & rows2 & U2 & _ & _ & L2 & ->).
    specialize (E (values X)). rewrite U1, U2 in E. cbn [snd] in E. injection E as <-.
    unfold row_of, column_data. rewrite !snd_combine by (rewrite map_length, seq_length; assumption). reflexivity.
  Qed.
  Lemma transforms_unchanged : forall c ops (st : gstate), 0 < batch_size N c -> (forall o, In o ops -> exists X, o = Transform X) ->
    fold_left (call_state c) ops st = st.
  Proof.
    intros c ops. induction ops as [|o ops IH]; intros st B H; [reflexivity|]. cbn [fold_left].
    destruct (H o (or_introl eq_refl)) as [X ->]. cbn [call_state].
    rewrite (transform_unchanged N vec_counts vec_width words_of chars_of argsort c st X B). apply IH; [exact B|].
    intros o I. apply H. right; exact I.
  Qed.
End GapFrame.
