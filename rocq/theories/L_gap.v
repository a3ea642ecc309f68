(** Lemmas on GapEncoder: transforming. *)
From Verif Require Import Base L_dict M_names M_str L_str M_lru L_minhash M_gap L_numnames L_dtencoder.
From Coq Require Import Permutation.
Open Scope string_scope.
Open Scope list_scope.
Open Scope nat_scope.

(** ** Specification *)

(** The same parameters with another batch size. *)
Definition with_batch {N : arith} {R} (b : nat) (c : @gcfg N R) : @gcfg N R :=
  {| n_components := n_components N c; batch_size := b; gamma_shape_prior := gamma_shape_prior N c; gamma_scale_prior := gamma_scale_prior N c;
     rho := rho N c; rescale_rho := rescale_rho N c; hashing := hashing N c; add_words := add_words N c; rescale_W := rescale_W N c;
     max_iter := max_iter N c; max_iter_e_step := max_iter_e_step N c; max_no_improvement := max_no_improvement N c; seed := seed N c |}.

(** A null reads as the empty text. *)
Definition as_text (v : option string) : string := match v with Some s => s | None => "" end.
(** What the encoder remembers of a text. *)
Definition remembered {N : arith} {Z R} (st : @gstate N Z R) (s : string) : option (list (num N)) :=
  match H_dict_ N st with Some d => dget s d | None => None end.
(** The [i]-th row of a dataframe. *)
Definition row_of {A} (f : frame (list A)) (i : nat) : list (option A) := map (fun col => nth_error col i) (column_data f).

(** What is assumed of [CountVectorizer] when naming the topics: words have no parenthesis, or features are single characters. *)
Definition NamesOk (words_of chars_of : list string -> res (list string)) : Prop :=
  (forall keys l, words_of keys = Ok l -> forall w, In w l -> ~ In "("%char (list_ascii_of_string w)) /\
  (forall keys l, chars_of keys = Ok l -> forall w, In w l -> String.length w = 1).
Definition SortOk {N : arith} (argsort : list (num N) -> list nat) : Prop := forall x, Permutation (argsort x) (seq 0 (length x)).

(** Calls of [transform] and [score] on a fitted encoder. *)
Inductive call := Transform (X : gcolumn) | Score (X : gcolumn).

(** ** Proofs *)
Lemma zip_with_length {A B C} (f : A -> B -> C) : forall a b, length (zip_with f a b) = Nat.min (length a) (length b).
Proof. induction a as [|x a IH]; destruct b as [|y b]; simpl; auto. Qed.
Lemma zip_with_app {A B C} (f : A -> B -> C) : forall a b a' b', length a = length b ->
  zip_with f (a ++ a') (b ++ b') = zip_with f a b ++ zip_with f a' b'.
Proof. induction a as [|x a IH]; destruct b as [|y b]; simpl; intros a' b' E; try discriminate; [reflexivity|]. rewrite IH by lia. reflexivity. Qed.
Lemma zip_with_map {A B C D E} (f : A -> B -> C) (g : D -> A) (h : E -> B) : forall (a : list D) (b : list E),
  zip_with f (map g a) (map h b) = zip_with (fun x y => f (g x) (h y)) a b.
Proof. induction a as [|x a IH]; destruct b as [|y b]; simpl; auto. f_equal. apply IH. Qed.
Lemma zip_with_same {A C} (f : A -> A -> C) : forall a, zip_with f a a = map (fun x => f x x) a.
Proof. induction a; simpl; congruence. Qed.

Lemma chunks_nil {A} : forall fuel b, @chunks A fuel b [] = [].
Proof. destruct fuel; reflexivity. Qed.
Lemma chunks_zip {A B C} (f : A -> B -> C) b : 0 < b -> forall fuel V H, length V = length H -> length H <= fuel ->
  concat (zip_with (zip_with f) (chunks fuel b V) (chunks fuel b H)) = zip_with f V H.
Proof.
  intros Hb. induction fuel as [|fuel IH]; intros V H E L.
  - destruct H; simpl in L; [|lia]. destruct V; [|discriminate]. reflexivity.
  - destruct V as [|v V]; destruct H as [|h H]; try discriminate; [reflexivity|].
    cbn [chunks zip_with concat].
    rewrite IH.
    + set (V' := v :: V) in *. set (H' := h :: H) in *.
      transitivity (zip_with f (firstn b V' ++ skipn b V') (firstn b H' ++ skipn b H')).
      * rewrite zip_with_app; [reflexivity|]. rewrite !firstn_length. congruence.
      * rewrite !firstn_skipn. reflexivity.
    + rewrite !skipn_length. lia.
    + rewrite skipn_length. cbn [length] in *. lia.
Qed.

Section GapLemmas.
  Variable N : arith.
  Notation F := (num N).
  Notation vec := (list F).
  Context {Z R : Type}.
  Variable vec_fit : bool -> bool -> list string -> res Z.
  Variable vec_counts : Z -> string -> list (nat * F).
  Variable vec_width : Z -> nat.
  Variable vec_names : Z -> list string.
  Variable divergence : list (list (nat * F)) -> list vec -> list vec -> F.
  Variable words_of : list string -> res (list string).
  Variable chars_of : list string -> res (list string).
  Variable argsort : vec -> list nat.
  Notation counts := (counts N vec_counts vec_width).
  Notation transform_ := (transform_ N vec_counts vec_width).
  Notation transform := (transform N vec_counts vec_width words_of chars_of argsort).
  Notation score := (score N vec_counts vec_width divergence).
  Notation get_feature_names_out := (get_feature_names_out N vec_counts vec_width words_of chars_of argsort).
  Notation gstate := (@gstate N Z R).
  Notation gcfg := (@gcfg N R).

  Lemma update_batches_ok : forall (c : gcfg) m W V H, 0 < batch_size N c -> length V = length H ->
    update_batches N c m W V H = Ok (update_h N c m W V H).
  Proof.
    intros c m W V H B E. unfold update_batches. destruct (batch_size N c) as [|b] eqn:Eb; [lia|].
    cbn [Nat.eqb]. f_equal. apply chunks_zip; lia.
  Qed.

  (** the counts of a text, when the vectorizers are there *)
  Lemma counts_total : forall c (st : gstate), (exists f, forall x, counts c st x = Ok (f x)) \/ (exists e, forall x, counts c st x = Err e).
  Proof.
    intros c st. unfold counts. destruct (ngrams_count_ N st) as [z|]; [|right; eexists; reflexivity].
    destruct (add_words N c); [|left; exists (vec_counts z); reflexivity].
    destruct (word_count_ N st) as [z2|]; [left|right; eexists; reflexivity].
    exists (fun x => hstack N (vec_width z) (vec_counts z x) (vec_counts z2 x)). reflexivity.
  Qed.
  Lemma mapM_const {A B} (g : A -> res B) f : (forall x, g x = Ok (f x)) -> forall l, mapM g l = Ok (map f l).
  Proof. intros E l. induction l as [|x l IH]; simpl; [reflexivity|]. rewrite E. cbn [bind]. rewrite IH. reflexivity. Qed.

  Lemma counts_set_H : forall c (st : gstate) d x, counts c (set_H N d st) x = counts c st x.
  Proof. reflexivity. Qed.
  Lemma set_H_id : forall (st : gstate) d, H_dict_ N st = Some d -> set_H N d st = st.
  Proof. intros [] d E. simpl in E. unfold set_H. simpl. rewrite <- E. reflexivity. Qed.
  Lemma set_H_twice : forall (st : gstate) d d', set_H N d (set_H N d' st) = set_H N d st.
  Proof. reflexivity. Qed.

  (** dictionaries *)
  Lemma update_dict_get : forall X f d x, 
    dget x (update_dict N d X (map f X)) = if mem x X then Some (f x) else dget x d.
  Proof.
    unfold update_dict. induction X as [|y X IH]; intros f d x; [reflexivity|].
    cbn [map combine fold_left fst snd]. rewrite IH.
    destruct (mem x X) eqn:M.
    - replace (mem x (y :: X)) with true; [reflexivity|]. symmetry. apply mem_true. right. apply mem_true. exact M.
    - rewrite dget_dset_if. destruct (eqd x y) as [->|Nq].
      + replace (mem y (y :: X)) with true; [reflexivity|]. symmetry. apply mem_true. left; reflexivity.
      + replace (mem x (y :: X)) with false; [reflexivity|]. symmetry. apply mem_false. apply mem_false in M. intros [E|I]; congruence.
  Qed.
  Lemma get_H_total : forall d X f, (forall x, In x X -> dget x d = Some (f x)) -> get_H N d X = Ok (map f X).
  Proof.
    intros d X f Hf. unfold get_H. induction X as [|x X IH]; [reflexivity|].
    cbn [mapM]. rewrite Hf by (left; reflexivity). cbn [bind]. rewrite IH; [reflexivity|]. intros y I. apply Hf. right; exact I.
  Qed.

  (** the activations a text starts from *)
  Definition start (c : gcfg) (f : string -> list (nat * F)) (d : dict string vec) (x : string) : vec :=
    match dget x d with Some h => h | None => rescale_h N (f x) (repeat (one N) (n_components N c)) end.
  Lemma add_unseen_ok : forall c (st : gstate) f d X, (forall x, counts c st x = Ok (f x)) ->
    exists d', add_unseen N vec_counts vec_width c st d X = Ok d' /\
      (forall x, dget x d' = if mem x X then Some (start c f d x) else dget x d).
  Proof.
    intros c st f d X C. unfold add_unseen. rewrite (mapM_const _ f C). cbn [bind]. eexists. split; [reflexivity|].
    intros x. rewrite map_map. rewrite (update_dict_get _ (fun x => rescale_h N (f x) (repeat (one N) (n_components N c)))).
    unfold unseen, start.
    destruct (mem x (filter (fun x0 => negb (mem x0 (dkeys d))) (np_unique X))) eqn:M.
    - apply mem_true in M. apply filter_In in M. destruct M as [I M].
      replace (mem x X) with true by (symmetry; apply mem_true; apply (proj1 (np_unique_In _ _)); exact I).
      apply Bool.negb_true_iff in M. apply mem_false in M. apply (proj2 (dget_None_keys _ _)) in M. rewrite M. reflexivity.
    - destruct (mem x X) eqn:MX; [|reflexivity]. apply mem_true in MX. apply mem_false in M.
      destruct (dget x d) eqn:D; [reflexivity|]. exfalso. apply M. apply filter_In. split; [apply np_unique_In; exact MX|].
      apply Bool.negb_true_iff. apply mem_false. apply dget_None_keys. exact D.
  Qed.

  Lemma unique_mem : forall X v, In v X -> In (text v) (fst (unique_strings X)).
  Proof.
    intros X v I. pose proof (unique_strings_inverse X) as E. destruct (unique_strings X) as [u idx]. cbn [fst].
    assert (I' : In (Some (null_as_empty v)) (map (fun i => nth_error u i) idx)) by (rewrite E; apply in_map_iff; eauto).
    apply in_map_iff in I'. destruct I' as [i [Ei _]]. apply nth_error_In in Ei. destruct v; exact Ei.
  Qed.

  Local Opaque update_h_row update_loop.
  (** the encoding of one text *)
  Definition encode (c : gcfg) (W : list vec) (f : string -> list (nat * F)) (d : dict string vec) (x : string) : vec :=
    update_h_row N c 100 W (f x) (start c f d x).
  Lemma transform__ok : forall c (st : gstate) f d X, 0 < batch_size N c -> H_dict_ N st = Some d -> (forall x, counts c st x = Ok (f x)) ->
    transform_ c st X = (st, Ok (map (fun v => encode c (W_ N st) f d (text v)) X)).
  Proof.
    intros c st f d X B D C. unfold M_gap.transform_. rewrite D.
    pose proof (unique_mem X) as U. destruct (unique_strings X) as [u idx]. cbn [fst] in U.
    rewrite (mapM_const _ f C). destruct (add_unseen_ok c st f d u C) as [d' [E G]]. rewrite E.
    rewrite (get_H_total d' u (start c f d)).
    2: { intros x I. rewrite G. apply mem_true in I. rewrite I. reflexivity. }
    rewrite update_batches_ok by (try rewrite !map_length; auto).
    unfold update_h. rewrite zip_with_map, zip_with_same.
    rewrite (get_H_total _ (map text X) (encode c (W_ N st) f d)).
    - rewrite map_map. rewrite set_H_id by exact D. reflexivity.
    - intros x I. apply in_map_iff in I. destruct I as [v [<- I]]. rewrite update_dict_get.
      apply U in I. apply mem_true in I. rewrite I. unfold encode. reflexivity.
  Qed.
  Lemma transform__err : forall c (st : gstate) X, 0 < batch_size N c -> fst (transform_ c st X) = st.
  Proof.
    intros c st X B. destruct (H_dict_ N st) as [d|] eqn:D; [|unfold M_gap.transform_; rewrite D; reflexivity].
    destruct (counts_total c st) as [[f C]|[e C]]; [rewrite (transform__ok c st f d X B D C); reflexivity|].
    unfold M_gap.transform_. rewrite D. destruct (unique_strings X) as [u idx]. destruct u as [|x u].
    - cbn [mapM]. unfold add_unseen, unseen. cbn [np_unique fold_right filter mapM bind map update_dict combine fold_left get_H].
      rewrite update_batches_ok by (try reflexivity; assumption).
      cbn [update_h zip_with update_dict combine fold_left].
      unfold update_dict, get_H. cbn [combine fold_left].
      destruct (mapM _ (map text X)); cbn [fst]; apply set_H_id; exact D.
    - cbn [mapM]. rewrite C. reflexivity.
  Qed.

  Lemma names_unchanged : forall c (st : gstate) n, 0 < batch_size N c -> fst (get_feature_names_out c st n) = st.
  Proof.
    intros c st n B. unfold M_gap.get_feature_names_out. destruct (H_dict_ N st); [|reflexivity].
    destruct (match words_of _ with Err ValueError => _ | r => r end) as [vocab|e]; [|reflexivity].
    pose proof (transform__err c st (map Some vocab) B) as E. destruct (transform_ c st (map Some vocab)) as [st' [enc|e]]; exact E.
  Qed.
  Lemma transform_unchanged : forall c (st : gstate) X, 0 < batch_size N c -> fst (transform c st X) = st.
  Proof.
    intros c st X B. unfold M_gap.transform. destruct (H_dict_ N st); [|reflexivity]. destruct (textual X); [|reflexivity]. cbn [negb].
    pose proof (transform__err c st (values X) B) as E. destruct (transform_ c st (values X)) as [st' [enc|e]]; cbn [fst] in *; [|exact E].
    subst st'. pose proof (names_unchanged c st 3 B) as E. destruct (get_feature_names_out c st 3) as [st' [names|e]]; exact E.
  Qed.
End GapLemmas.
