(** Deduplication: independent specification and lemmas. *)
From Verif Require Import Base M_dedup L_dict.
From Coq Require Import QArith Sorted Permutation.
Open Scope list_scope.
Open Scope nat_scope.

Section Spec.
  Context {W : Type} `{EqD W}.
  (** The distinct words of a list. *)
  Definition Distinct (unique : list W -> list W) : Prop := forall X, NoDup (unique X) /\ (forall w, In w (unique X) <-> In w X).
  (** Sorting by decreasing count, ties in any order. *)
  Definition Sorting (sort : list (W * nat) -> list (W * nat)) : Prop :=
    forall l, Permutation (sort l) l /\ StronglySorted (fun a b => snd b <= snd a) (sort l).
  (** A word is in a cluster, when the words and their labels are given side by side. *)
  Definition InCluster (words : list W) (labels : list nat) (w : W) (k : nat) : Prop :=
    exists i, nth_error words i = Some w /\ nth_error labels i = Some k.
  Definition SameCluster words labels w w' := exists k, InCluster words labels w k /\ InCluster words labels w' k.
  (** A translation to the most frequent word of the cluster. *)
  Record Translation (X words : list W) (labels : list nat) (f : W -> W) : Prop := {
    tr_in : forall x, In x X -> In (f x) X;
    tr_cluster : forall x, In x X -> SameCluster words labels x (f x);
    tr_freq : forall x w, In x X -> In w X -> SameCluster words labels x w -> count_occ eqd X w <= count_occ eqd X (f x);
    tr_same : forall x w, In x X -> In w X -> SameCluster words labels x w -> f w = f x;
    tr_idem : forall x, In x X -> f (f x) = f x }.
End Spec.

Section Lemmas.
  Context {W : Type} `{EqD W}.
  Context {Z : Type}.
  Variable linkage : list W -> res Z.
  Variable silhouette : Z -> nat -> res Q.
  Variable fcluster : Z -> nat -> list nat.
  Variable sort_values : list (W * nat) -> list (W * nat).
  Variable unique : list W -> list W.
  Hypothesis SO : Sorting sort_values.
  Hypothesis DI : Distinct unique.

  Lemma in_combine_nth : forall {A B} (a : list A) (b : list B) x y,
    In (x, y) (combine a b) <-> exists i, nth_error a i = Some x /\ nth_error b i = Some y.
  Proof.
    clear. intros A B a. induction a as [|x0 a IH]; intros [|y0 b] x y; simpl.
    - split; [intros []|intros ([|i] & E & _); discriminate].
    - split; [intros []|intros ([|i] & E & _); discriminate].
    - split; [intros []|intros ([|i] & _ & E); discriminate].
    - rewrite IH. split.
      + intros [E|(i & E1 & E2)]; [injection E as -> ->; exists 0; auto|exists (S i); auto].
      + intros ([|i] & E1 & E2); simpl in *; [injection E1 as ->; injection E2 as ->; auto|eauto].
  Qed.

  Lemma unique_fst : forall X, map fst (unique_counts unique X) = unique X.
  Proof. intros X. unfold unique_counts. rewrite map_map. apply map_id. Qed.

  Section Table.
    Variable X : list W.
    Variable labels : list nat.
    Let counts := unique_counts unique X.

    Lemma spellings_in : forall k w c, In (w, c) (sort_values (map fst (filter (fun wc => snd wc =? k) (combine counts labels)))) <->
      c = count_occ eqd X w /\ InCluster (unique X) labels w k.
    Proof.
      intros k w c. rewrite (Permutation_in' (eq_refl (w, c)) (proj1 (SO _))).
      rewrite in_map_iff. split.
      - intros (((w', c'), k') & E & I). simpl in E. injection E as -> ->.
        apply filter_In in I. destruct I as (I & K). simpl in K. apply Nat.eqb_eq in K. subst k'.
        apply in_combine_nth in I. destruct I as (i & E1 & E2). unfold counts, unique_counts in E1.
        rewrite nth_error_map in E1. destruct (nth_error (unique X) i) as [v|] eqn:V; [|discriminate]. simpl in E1. injection E1 as -> <-.
        split; [reflexivity|exists i; auto].
      - intros (-> & i & E1 & E2). exists ((w, count_occ eqd X w), k). split; [reflexivity|]. apply filter_In. simpl. rewrite Nat.eqb_refl. split; [|reflexivity].
        apply in_combine_nth. exists i. split; [|exact E2]. unfold counts, unique_counts. rewrite nth_error_map, E1. reflexivity.
    Qed.

    Lemma sorted_in : forall k w, In w (sorted_spellings sort_values counts labels k) <-> InCluster (unique X) labels w k.
    Proof.
      intros k w. unfold sorted_spellings. rewrite in_map_iff. split.
      - intros ((w', c) & <- & I). apply spellings_in in I. exact (proj2 I).
      - intros I. exists (w, count_occ eqd X w). split; [reflexivity|]. apply spellings_in. auto.
    Qed.

    Lemma sorted_best : forall k b l w, sorted_spellings sort_values counts labels k = b :: l ->
      InCluster (unique X) labels w k -> count_occ eqd X w <= count_occ eqd X b.
    Proof.
      intros k b l w E I. unfold sorted_spellings in E.
      pose proof (proj2 (spellings_in k w (count_occ eqd X w)) (conj eq_refl I)) as In1.
      pose proof (spellings_in k) as SI.
      set (m := map fst (filter (fun wc => snd wc =? k) (combine counts labels))) in *.
      pose proof (proj2 (SO m)) as SS. destruct (sort_values m) as [|(b', c) s]; [discriminate|].
      simpl in E. injection E as -> _.
      assert (C : c = count_occ eqd X b) by (apply (proj1 (SI b c)); left; reflexivity). subst c.
      inversion SS as [|? ? ? F]; subst. destruct In1 as [E1|In1]; [injection E1 as ->; lia|].
      apply (proj1 (Forall_forall _ _) F) in In1. exact In1.
    Qed.

    Lemma cluster_unique : forall w k k', InCluster (unique X) labels w k -> InCluster (unique X) labels w k' -> k = k'.
    Proof.
      intros w k k' (i & E1 & E2) (j & E3 & E4).
      assert (i = j).
      { apply (proj1 (NoDup_nth_error _) (proj1 (DI X))); [apply nth_error_Some; rewrite E1; discriminate|congruence]. }
      subst j. congruence.
    Qed.

    (** The best word of a cluster. *)
    Definition best_of (k : nat) (d : W) : W := hd d (sorted_spellings sort_values counts labels k).

    Lemma table_get : forall w k, InCluster (unique X) labels w k -> dget w (spelling_correction sort_values counts labels) = Some (best_of k w).
    Proof.
      intros w k I. unfold spelling_correction.
      assert (IK : In k (nodup Nat.eq_dec labels)) by (apply nodup_In; destruct I as (i & _ & E); eapply nth_error_In; exact E).
      induction (nodup Nat.eq_dec labels) as [|k0 ks IH]; [destruct IK|].
      simpl. destruct (Nat.eq_dec k0 k) as [->|D].
      - clear IH. assert (J := proj2 (sorted_in k w) I). unfold best_of.
        destruct (sorted_spellings sort_values counts labels k) as [|b l] eqn:S0; [destruct J|].
        simpl hd. clear S0. revert J. generalize (b :: l). intros m. induction m as [|x m IHm]; intros J; [destruct J|].
        simpl. destruct (eqd w x) as [->|D]; [reflexivity|]. apply IHm. destruct J; [congruence|assumption].
      - destruct IK as [->|IK]; [congruence|]. specialize (IH IK).
        assert (N : ~ In w (sorted_spellings sort_values counts labels k0)).
        { rewrite sorted_in. intros I0. apply D. exact (cluster_unique _ _ _ I0 I). }
        destruct (sorted_spellings sort_values counts labels k0) as [|b l]; [exact IH|].
        revert N. generalize (b :: l). intros m. induction m as [|x m IHm]; intros N; [exact IH|].
        simpl. destruct (eqd w x) as [->|D']; [exfalso; apply N; left; reflexivity|]. apply IHm. intros J. apply N. right. exact J.
    Qed.

    Lemma table_get_inv : forall w y, dget w (spelling_correction sort_values counts labels) = Some y -> exists k, InCluster (unique X) labels w k.
    Proof.
      intros w y G. apply dget_In_weak in G. unfold spelling_correction in G. apply in_flat_map in G. destruct G as (k & _ & G).
      exists k. apply sorted_in. destruct (sorted_spellings sort_values counts labels k) as [|b l]; [destruct G|].
      apply in_map_iff in G. destruct G as (w' & E & I). injection E as -> _. exact I.
    Qed.

    Lemma best_in : forall w k, InCluster (unique X) labels w k -> InCluster (unique X) labels (best_of k w) k.
    Proof.
      intros w k I. assert (J := proj2 (sorted_in k w) I). apply sorted_in. unfold best_of.
      destruct (sorted_spellings sort_values counts labels k); [destruct J|left; reflexivity].
    Qed.
    Lemma best_any : forall w w' k, InCluster (unique X) labels w k -> best_of k w' = best_of k w.
    Proof.
      intros w w' k I. assert (J := proj2 (sorted_in k w) I). unfold best_of.
      destruct (sorted_spellings sort_values counts labels k); [destruct J|reflexivity].
    Qed.
    Lemma cluster_word : forall w k, InCluster (unique X) labels w k -> In w X.
    Proof. intros w k (i & E & _). apply (proj2 (DI X)). eapply nth_error_In. exact E. Qed.

    Definition translate (w : W) : W := match dget w (spelling_correction sort_values counts labels) with Some y => y | None => w end.

    Lemma translation : (forall x, In x X -> exists k, InCluster (unique X) labels x k) -> Translation X (unique X) labels translate.
    Proof.
      intros T.
      assert (TE : forall w k, InCluster (unique X) labels w k -> translate w = best_of k w) by (intros w k I; unfold translate; rewrite (table_get w k I); reflexivity).
      constructor.
      - intros x I. destruct (T x I) as (k & K). rewrite (TE _ _ K). eapply cluster_word, best_in. exact K.
      - intros x I. destruct (T x I) as (k & K). rewrite (TE _ _ K). exists k. split; [exact K|apply best_in; exact K].
      - intros x w I _ (k & K & K'). rewrite (TE _ _ K). assert (J := proj2 (sorted_in k x) K). unfold best_of.
        destruct (sorted_spellings sort_values counts labels k) as [|b l] eqn:S0; [destruct J|]. simpl. eapply sorted_best; eassumption.
      - intros x w I _ (k & K & K'). rewrite (TE _ _ K), (TE _ _ K'). apply best_any. exact K.
      - intros x I. destruct (T x I) as (k & K). rewrite (TE _ _ K), (TE _ _ (best_in _ _ K)). apply best_any. exact K.
    Qed.
  End Table.

  Lemma bindD : forall {A B} (e : res A) (f : A -> res B) b, bind e f = Ok b -> exists a, e = Ok a /\ f a = Ok b.
  Proof. clear. intros A B [a|e] f b E; simpl in E; [eauto|discriminate]. Qed.

  Lemma dedup_translation : forall n_clusters X out, deduplicate linkage silhouette fcluster sort_values unique n_clusters X = Ok out ->
    exists z n f, linkage (unique X) = Ok z /\ (forall k, n_clusters = Some k -> n = k) /\
      out = map (fun x => (x, f x)) X /\ Translation X (unique X) (fcluster z n) f.
  Proof.
    intros nc X out E. unfold deduplicate in E. rewrite unique_fst in E.
    apply bindD in E. destruct E as (z & EZ & E). apply bindD in E. destruct E as (n & EN & E).
    exists z, n, (translate X (fcluster z n)). split; [exact EZ|]. split.
    { intros k ->. injection EN as ->. reflexivity. }
    clear EN EZ. apply mapM_Forall2 in E.
    assert (T : forall x, In x X -> exists y, dget x (spelling_correction sort_values (unique_counts unique X) (fcluster z n)) = Some y).
    { revert E. generalize (spelling_correction sort_values (unique_counts unique X) (fcluster z n)). intros t E. clear SO DI.
      induction E as [|x y X' out' E0 E IH]; [intros x []|]. intros w [->|I]; [|auto].
      destruct (dget w t) as [v|]; [eauto|discriminate]. }
    split.
    - unfold translate. revert E. generalize (spelling_correction sort_values (unique_counts unique X) (fcluster z n)). intros t E. clear -E.
      induction E as [|x y X' out' E0 E IH]; [reflexivity|]. simpl. rewrite <- IH. f_equal.
      destruct (dget x t); [injection E0 as <-; reflexivity|discriminate].
    - apply translation. intros x I. destruct (T x I) as (y & G). eapply table_get_inv. exact G.
  Qed.

  Lemma argmax_from_lt : forall l i best m, best < i -> argmax_from i best m l < i + length l.
  Proof.
    clear. induction l as [|x l IH]; intros i best m L; simpl; [lia|].
    destruct (Qle_bool x m); [specialize (IH (S i) best m)|specialize (IH (S i) i x)]; lia.
  Qed.

  (** The deduplication works when the number of clusters is given, or there are at least four words. *)
  Lemma dedup_works : forall n_clusters X z, linkage (unique X) = Ok z ->
    (forall k, length (fcluster z k) = length (unique X)) ->
    (n_clusters <> None \/ (4 <= length (unique X) /\ forall k, 2 <= k < length (unique X) - 1 -> exists q, silhouette z k = Ok q)) ->
    exists out, deduplicate linkage silhouette fcluster sort_values unique n_clusters X = Ok out.
  Proof.
    intros nc X z EZ LF C. unfold deduplicate. rewrite unique_fst, EZ. cbn [bind].
    assert (N : exists n, match nc with Some n => Ok n | None => guess_clusters silhouette (length (unique_counts unique X)) z end = Ok n).
    { destruct nc as [n|]; [eauto|]. destruct C as [C|(L4 & SC)]; [congruence|].
      unfold guess_clusters. unfold unique_counts. rewrite map_length. set (u := length (unique X)) in *.
      assert (SL : length (seq 2 (u - 1 - 2)) = u - 3) by (rewrite seq_length; lia).
      assert (M : exists scores, mapM (silhouette z) (seq 2 (u - 1 - 2)) = Ok scores /\ length scores = u - 3).
      { rewrite <- SL. assert (F : forall k, In k (seq 2 (u - 1 - 2)) -> exists q, silhouette z k = Ok q) by (intros k I; apply in_seq in I; apply SC; lia).
        revert F. generalize (seq 2 (u - 1 - 2)). clear. intros l F. induction l as [|a l IH]; [exists []; auto|].
        destruct (F a (or_introl eq_refl)) as (q & Q). destruct (IH (fun k I => F k (or_intror I))) as (qs & Qs & L).
        exists (q :: qs). simpl. rewrite Q, Qs. simpl. auto. }
      destruct M as (scores & -> & LS). cbn [bind].
      destruct scores as [|q qs]; [simpl in LS; lia|]. simpl argmax. cbn [bind].
      destruct (nth_error (seq 2 (u - 1 - 2)) (argmax_from 1 0 q qs)) eqn:NE; [eauto|].
      apply nth_error_None in NE. pose proof (argmax_from_lt qs 1 0 q ltac:(lia)). simpl in LS. lia. }
    destruct N as (n & ->). cbn [bind].
    eexists. apply mapM_total with (g := fun x => (x, translate X (fcluster z n) x)). intros x I.
    assert (K : exists k, InCluster (unique X) (fcluster z n) x k).
    { apply (proj2 (DI X)) in I. apply In_nth_error in I. destruct I as (i & E).
      destruct (nth_error (fcluster z n) i) as [k|] eqn:NE; [exists k, i; auto|].
      apply nth_error_None in NE. rewrite LF in NE. assert (i < length (unique X)) by (apply nth_error_Some; rewrite E; discriminate). lia. }
    destruct K as (k & K). unfold translate. rewrite (table_get _ _ _ _ K). reflexivity.
  Qed.

  (** Without a number of clusters, fewer than four distinct words are refused. *)
  Lemma dedup_few : forall X, length (unique X) < 4 -> exists e, deduplicate linkage silhouette fcluster sort_values unique None X = Err e.
  Proof.
    intros X L. unfold deduplicate. destruct (linkage _) as [z|e]; [|exists e; reflexivity]. cbn [bind].
    unfold guess_clusters. unfold unique_counts. rewrite map_length.
    replace (length (unique X) - 1 - 2) with 0 by lia. simpl. eauto.
  Qed.
End Lemmas.

(** Sorting by decreasing count, for the examples. *)
Section Insertion.
  Context {W : Type}.
  Fixpoint insert_count (x : W * nat) (l : list (W * nat)) : list (W * nat) :=
    match l with [] => [x] | y :: l' => if snd y <=? snd x then x :: l else y :: insert_count x l' end.
  Definition sort_counts (l : list (W * nat)) : list (W * nat) := fold_right insert_count [] l.
  Lemma insert_perm : forall x l, Permutation (insert_count x l) (x :: l).
  Proof.
    intros x l. induction l as [|y l IH]; simpl; [reflexivity|]. destruct (snd y <=? snd x); [reflexivity|].
    rewrite IH. apply perm_swap.
  Qed.
  Lemma insert_sorted : forall x l, StronglySorted (fun a b : W * nat => snd b <= snd a) l -> StronglySorted (fun a b => snd b <= snd a) (insert_count x l).
  Proof.
    intros x l. induction l as [|y l IH]; intros S0; simpl; [repeat constructor|]. inversion S0 as [|? ? S1 F]; subst.
    destruct (snd y <=? snd x) eqn:C.
    - apply Nat.leb_le in C. constructor; [exact S0|]. constructor; [exact C|]. eapply Forall_impl; [|exact F]. simpl. intros; lia.
    - apply Nat.leb_gt in C. constructor; [apply IH; exact S1|]. apply Forall_forall. intros z I.
      apply (Permutation_in _ (insert_perm x l)) in I. destruct I as [<-|I]; [lia|]. exact (proj1 (Forall_forall _ _) F z I).
  Qed.
  Lemma sort_counts_ok : Sorting sort_counts.
  Proof.
    intros l. induction l as [|x l (P & S0)]; simpl; [split; constructor|]. split.
    - rewrite insert_perm, P. reflexivity.
    - apply insert_sorted. exact S0.
  Qed.
  Lemma nodup_distinct : forall `{EqD W}, Distinct (nodup eqd).
  Proof. intros E X. split; [apply NoDup_nodup|]. intros w. apply nodup_In. Qed.
End Insertion.
