(** C49: deduplication. *)
From Verif Require Import Base M_dedup L_dedup.
From Coq Require Import QArith.
Open Scope string_scope.
Open Scope list_scope.
Open Scope nat_scope.

(** Whatever the clustering, the result pairs each of the given words, in order, with its translation to a most frequent
    word of its cluster; words of the same cluster have the same translation, and translating again changes nothing. *)
Theorem C49_translation : forall {W Z} `{EqD W} linkage silhouette fcluster sort_values unique, Sorting sort_values -> Distinct unique ->
  forall n_clusters X out, @deduplicate W _ Z linkage silhouette fcluster sort_values unique n_clusters X = Ok out ->
  exists z n f, linkage (unique X) = Ok z /\ (forall k, n_clusters = Some k -> n = k) /\
    out = map (fun x => (x, f x)) X /\ Translation X (unique X) (fcluster z n) f.
Proof. intros. apply dedup_translation with silhouette sort_values; assumption. Qed.
Print Assumptions C49_translation.

(** There is a result when the number of clusters is given, or there are at least four distinct words. *)
Theorem C49_total : forall {W Z} `{EqD W} linkage silhouette fcluster sort_values unique, Sorting sort_values -> Distinct unique ->
  forall n_clusters X z, linkage (unique X) = Ok z -> (forall k, length (fcluster z k) = length (unique X)) ->
  (n_clusters <> None \/ (4 <= length (unique X) /\ forall k, 2 <= k < length (unique X) - 1 -> exists q, silhouette z k = Ok q)) ->
  exists out, @deduplicate W _ Z linkage silhouette fcluster sort_values unique n_clusters X = Ok out.
Proof. intros. apply dedup_works with z; assumption. Qed.
Print Assumptions C49_total.

(** Without a number of clusters, lists with fewer than four distinct words are refused, whatever the clustering. *)
Theorem C49_few_words_refuted : forall {W Z} `{EqD W} linkage silhouette fcluster sort_values unique X, length (unique X) < 4 ->
  exists e, @deduplicate W _ Z linkage silhouette fcluster sort_values unique None X = Err e.
Proof. intros. apply dedup_few; assumption. Qed.
Print Assumptions C49_few_words_refuted.

(** Two spellings of black, with label 1, and two of white, with label 2. *)
Definition example_words : list string := ["blacs"; "black"; "black"; "white"; "uhibe"; "black"; "white"].
Definition example_linkage {A} (l : list A) : res unit := if length l <? 2 then Err ValueError else Ok tt.
Definition example_silhouette (_ : unit) (n : nat) : res Q := Ok 1%Q.
(** [nodup] keeps the last occurrences. *)
Example ex_unique : nodup eqd example_words = ["blacs"; "uhibe"; "black"; "white"].
Proof. reflexivity. Qed.
Definition example_fcluster (_ : unit) (n : nat) : list nat := [1; 2; 1; 2].
Example ex_dedup :
  deduplicate example_linkage example_silhouette example_fcluster sort_counts (nodup eqd) None example_words =
  Ok [("blacs", "black"); ("black", "black"); ("black", "black"); ("white", "white"); ("uhibe", "white"); ("black", "black"); ("white", "white")].
Proof. reflexivity. Qed.
Example ex_dedup_total : exists out,
  deduplicate example_linkage example_silhouette example_fcluster sort_counts (nodup eqd) None example_words = Ok out.
Proof.
  apply C49_total with tt; [apply sort_counts_ok|apply nodup_distinct|reflexivity|reflexivity|].
  right. split; [apply Nat.leb_le; reflexivity|]. intros. exists 1%Q. reflexivity.
Qed.
Example ex_dedup_few : deduplicate example_linkage example_silhouette (fun _ _ => [1; 1; 2]) sort_counts (nodup eqd) None
  ["black"; "blacs"; "black"; "white"] = Err ValueError.
Proof. reflexivity. Qed.
