(** Deduplication, /repo/skrub/_deduplicate.py. *)
From Verif Require Import Base.
From Coq Require Import QArith.
Open Scope list_scope.
Open Scope nat_scope.

Section Dedup.
  Context {W : Type} `{EqD W}.
  (** [compute_ngram_distance] and [linkage], lines 14-46 and 227-231: they can fail; scipy fails on fewer than two words. *)
  Context {Z : Type}.
  Variable linkage : list W -> res Z.
  (** [_get_silhouette_avg], 49-52, and [fcluster]: a label for each word. *)
  Variable silhouette : Z -> nat -> res Q.
  Variable fcluster : Z -> nat -> list nat.
  (** [Series.sort_values(ascending=False)]: the order of equal counts is not specified. *)
  Variable sort_values : list (W * nat) -> list (W * nat).

  (** [np.unique(X, return_counts=True)], line 226; [unique] gives the distinct words in increasing order. *)
  Variable unique : list W -> list W.
  Definition unique_counts (X : list W) : list (W * nat) := map (fun w => (w, count_occ eqd X w)) (unique X).

  (** [np.argmax]: the position of the first maximum. *)
  Fixpoint argmax_from (i best : nat) (m : Q) (l : list Q) : nat :=
    match l with
    | [] => best
    | x :: l' => if Qle_bool x m then argmax_from (S i) best m l' else argmax_from (S i) i x l'
    end.
  Definition argmax (l : list Q) : res nat := match l with [] => Err ValueError | x :: l' => Ok (argmax_from 1 0 x l') end.
  (** [_guess_clusters], 55-83; [Z.shape[0]] is the number of words minus one. *)
  Definition guess_clusters (n_words : nat) (z : Z) : res nat :=
    let max_clusters := n_words - 1 in
    let n_clusters := seq 2 (max_clusters - 2) in
    let! scores := mapM (silhouette z) n_clusters in
    let! i := argmax scores in
    match nth_error n_clusters i with Some n => Ok n | None => Err IndexError end.

  (** [_create_spelling_correction], 86-126: the pairs of a word and its correction. *)
  Definition sorted_spellings (counts : list (W * nat)) (clusters : list nat) (cluster : nat) : list W :=
    map fst (sort_values (map fst (filter (fun wc => snd wc =? cluster) (combine counts clusters)))).
  Definition spelling_correction (counts : list (W * nat)) (clusters : list nat) : list (W * W) :=
    flat_map (fun cluster =>
                let spellings := sorted_spellings counts clusters cluster in
                match spellings with [] => [] | best :: _ => map (fun w => (w, best)) spellings end)
             (nodup Nat.eq_dec clusters).

  (** [deduplicate], 129-242: the result is indexed by the words of [X]. *)
  Definition deduplicate (n_clusters : option nat) (X : list W) : res (list (W * W)) :=
    let counts := unique_counts X in
    let! z := linkage (map fst counts) in
    let! n := match n_clusters with Some n => Ok n | None => guess_clusters (length counts) z end in
    let clusters := fcluster z n in
    let table := spelling_correction counts clusters in
    mapM (fun x => match dget x table with Some y => Ok (x, y) | None => Err KeyError end) X.
End Dedup.
