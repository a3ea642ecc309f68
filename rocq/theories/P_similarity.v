(** C46, C47: string similarities and SimilarityEncoder. *)
From Verif Require Import Base M_similarity L_similarity.
From Coq Require Import QArith.
Open Scope list_scope.
Open Scope nat_scope.

(** The similarity, when there is one, is symmetric, between 0 and 1, and 1 for identical strings. *)
Theorem C46_score : forall (C : Type) (E : EqD C) (space : C) (is_space : C -> bool) (lower : list C -> list C) s1 s2 n b q,
  ngram_similarity space is_space lower s1 s2 n b = Ok q ->
  (0 <= q <= 1)%Q /\ (s1 = s2 -> (q == 1)%Q) /\
  exists q', ngram_similarity space is_space lower s2 s1 n b = Ok q' /\ (q' == q)%Q.
Proof. exact @similarity_score. Qed.
Print Assumptions C46_score.

(** There is one unless both strings are too short to have an n-gram; it is the size of the intersection of the multisets
    of n-grams over the size of their union. *)
Theorem C46_value : forall (C : Type) (E : EqD C) (space : C) (is_space : C -> bool) (lower : list C -> list C) s1 s2 n b ws1 ws2, 1 <= n ->
  Words is_space (lower (prep space is_space b s1)) ws1 -> Words is_space (lower (prep space is_space b s2)) ws2 ->
  if (length (spaced space ws1) <? n) && (length (spaced space ws2) <? n) then
    ngram_similarity space is_space lower s1 s2 n b = Err ZeroDivisionError
  else exists q, ngram_similarity space is_space lower s1 s2 n b = Ok q /\
    Jaccard (substrings n (spaced space ws1)) (substrings n (spaced space ws2)) q.
Proof. exact @similarity_spec. Qed.
Print Assumptions C46_value.

Notation sim s1 s2 n := (ngram_similarity " "%char ascii_is_space (map ascii_lower) (chars s1) (chars s2) n true).
Example C46_score_ex : exists q, sim "New  York" "york" 2 = Ok q /\ (q == 5 # 9)%Q.
Proof. eexists. split; [vm_compute; reflexivity|reflexivity]. Qed.
Example C46_value_ex :
  Words ascii_is_space (map ascii_lower (prep " "%char ascii_is_space true (chars "New  York"))) [chars "new"; chars "york"] /\
  spaced " "%char [chars "new"; chars "york"] = chars " new york " /\
  substrings 9 (chars " new york ") = [chars " new york"; chars "new york "] /\
  sim "a" "b" 4 = Err ZeroDivisionError /\ exists q, sim "a" "b" 3 = Ok q /\ (q == 0)%Q.
Proof.
  split.
  { change (map ascii_lower (prep " "%char ascii_is_space true (chars "New  York"))) with ([" "%char] ++ chars "new" ++ [" "%char] ++ chars "york" ++ [" "%char]).
    assert (A : all_space ascii_is_space [" "%char]) by (intros c [<-|[]]; reflexivity).
    apply words_more; [exact A|discriminate|intros c I; repeat (destruct I as [<-|I]; [reflexivity|]); destruct I|reflexivity|].
    apply words_more; [exact A|discriminate|intros c I; repeat (destruct I as [<-|I]; [reflexivity|]); destruct I|reflexivity|].
    constructor. exact A. }
  split; [reflexivity|]. split; [reflexivity|]. split; [vm_compute; reflexivity|]. eexists. split; [vm_compute; reflexivity|reflexivity].
Qed.

(** The values of the encoder are similarities: with the slow method always; with the fast one (the default) when the
    texts are not shorter than the n-grams minus one, and lower-casing acts on each character. *)
Theorem C47_similarities : forall (C : Type) (E : EqD C) (space : C) (is_space : C -> bool), is_space space = true ->
  forall lc : C -> C, lc space = space -> (forall c, is_space (lc c) = is_space c) ->
  forall min_n max_n cats f X unknown_error fast, fit space is_space (map lc) min_n max_n cats = Ok f ->
  (fast = true -> forall s t, In s (cats ++ X) -> TextOf space is_space lc s t -> max_n <= S (length t)) ->
  (unknown_error = true -> forall x, In x X -> In x cats) ->
  exists rows, transform space is_space (map lc) f min_n max_n unknown_error fast X = Ok rows /\
    Forall2 (fun x row => Forall2 (Similar space is_space lc min_n max_n x) cats row) X rows.
Proof. exact @encoder_spec. Qed.
Print Assumptions C47_similarities.

(** With [handle_unknown="error"], other values than the categories are refused. *)
Theorem C47_unknown : forall (C : Type) (E : EqD C) (space : C) (is_space : C -> bool) (lower : list C -> list C) min_n max_n cats f X fast x,
  fit space is_space lower min_n max_n cats = Ok f -> In x X -> ~ In x cats ->
  transform space is_space lower f min_n max_n true fast X = Err ValueError.
Proof. exact @unknown_refused. Qed.
Print Assumptions C47_unknown.

Definition C47_cats := [chars "Paris"; chars "new york"].
Definition C47_X := [chars "paris"; chars "New  York"; chars "paris"].
Example C47_unknown_ex : exists f, fit " "%char ascii_is_space (map ascii_lower) 2 4 C47_cats = Ok f /\
  In (chars "paris") C47_X /\ ~ In (chars "paris") C47_cats /\
  transform " "%char ascii_is_space (map ascii_lower) f 2 4 true true C47_X = Err ValueError.
Proof. eexists. split; [vm_compute; reflexivity|]. split; [left; reflexivity|]. split; [intros [I|[I|[]]]; discriminate|vm_compute; reflexivity]. Qed.
Lemma ascii_lower_space : forall c, ascii_is_space (ascii_lower c) = ascii_is_space c.
Proof. intros [[] [] [] [] [] [] [] []]; reflexivity. Qed.
Example C47_similarities_ex :
  (forall s t, In s (C47_cats ++ C47_X) -> TextOf " "%char ascii_is_space ascii_lower s t -> 4 <= S (length t)) /\
  exists f, fit " "%char ascii_is_space (map ascii_lower) 2 4 C47_cats = Ok f /\
    exists q1 q2 q3 q4 q5 q6, transform " "%char ascii_is_space (map ascii_lower) f 2 4 false true C47_X = Ok [[q1; q2]; [q3; q4]; [q5; q6]] /\
      (q1 == 1)%Q /\ (q2 == 0)%Q /\ (q3 == 0)%Q /\ (q4 == 1)%Q.
Proof.
  split.
  - intros s t I T. apply text_spec in T. subst t. simpl in I. repeat (destruct I as [<-|I]; [vm_compute; lia|]). destruct I.
  - eexists. split; [vm_compute; reflexivity|]. do 6 eexists. split; [vm_compute; reflexivity|]. repeat split; reflexivity.
Qed.

(** With n-grams of up to 5 characters, the similarity of "a" with itself is 3. *)
Theorem C47_refuted : exists f q,
  fit " "%char ascii_is_space (map ascii_lower) 2 5 [chars "a"] = Ok f /\
  transform " "%char ascii_is_space (map ascii_lower) f 2 5 true true [chars "a"] = Ok [[q]] /\ (1 < q)%Q.
Proof. exact encoder_refuted. Qed.
Print Assumptions C47_refuted.

(** With the default n-grams, when the lower case of a letter is longer than the letter, the similarity of a string with
    itself can be 0. *)
Theorem C47_lower_refuted : exists f q,
  fit " "%char ascii_is_space expanding_lower 2 4 [chars "^"] = Ok f /\
  transform " "%char ascii_is_space expanding_lower f 2 4 true true [chars "^"] = Ok [[q]] /\ (q == 0)%Q.
Proof. exact encoder_expanding. Qed.
Print Assumptions C47_lower_refuted.

(** The slow method gives 1 in both cases. *)
Example C47_refuted_ex :
  (exists q, transform_slow " "%char ascii_is_space (map ascii_lower) 2 5 [chars "a"] [chars "a"] = Ok [[q]] /\ (q == 1)%Q) /\
  (exists q, transform_slow " "%char ascii_is_space expanding_lower 2 4 [chars "^"] [chars "^"] = Ok [[q]] /\ (q == 1)%Q).
Proof. split; eexists; (split; [vm_compute; reflexivity|reflexivity]). Qed.
