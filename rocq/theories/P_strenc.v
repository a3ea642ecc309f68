(** C129: the code of a text depends only on its words, at the fit and later. *)
From Coq Require Import Permutation.
From Verif Require Import Base M_labels M_strenc L_strenc.
From Coq Require Import NArith.
Open Scope string_scope.
Open Scope list_scope.
Open Scope nat_scope.

(** texts of ASCII characters; numbers that are counts, an SVD that keeps the first coordinates, hashes in two buckets *)
Definition sp (c : N) : bool := (c =? 32)%N.
Definition low (t : text) : text := map (fun c => if ((65 <=? c) && (c <=? 90))%N then (c + 32)%N else c) t.
Definition wgh (M : list (list nat)) (r : list nat) : list nat := r.
Definition hsh (l : list text) : list nat := [length l; 0].
Definition dec (n : nat) (M : list (list nat)) (r : list nat) : list nat := firstn n (r ++ repeat 0 n).
Definition fitq a b := fit_transform nat (fun i => i) (fun x => x) (char_wb sp low a b) wgh 2 hsh dec.
Definition trq a b := transform nat (fun i => i) (fun x => x) (char_wb sp low a b) wgh hsh dec.
Definition tx (s : string) : entry := EText (of_string s).
Lemma ex_lib : SkLib nat wgh 2 hsh dec.
Proof.
  constructor; [reflexivity|reflexivity| |].
  - intros l l' P. unfold hsh. rewrite (Permutation_length P). reflexivity.
  - intros n M r. unfold dec. rewrite firstn_length, app_length, repeat_length. apply Nat.min_l. apply Nat.le_add_l.
Qed.

Theorem C129_words : forall K of_nat float32 reweigh hash_width hashed svd is_space lower a b, SkLib K reweigh hash_width hashed svd ->
  forall k n X f out i j x y t u ws us,
  fit_transform K of_nat float32 (char_wb is_space lower a b) reweigh hash_width hashed svd k n X = Ok (f, out) ->
  nth_error X i = Some x -> Stands x t -> Words is_space (lower t) ws ->
  forall Y out', transform K of_nat float32 (char_wb is_space lower a b) reweigh hashed svd f n Y = Ok out' ->
  nth_error Y j = Some y -> Stands y u -> Words is_space (lower u) us ->
  Permutation ws us ->
  exists row, nth_error out i = Some row /\ nth_error out' j = Some row.
Proof. exact words_ok. Qed.
Theorem C129_fit_is_transform : forall K of_nat float32 reweigh hash_width hashed svd analyze, SkLib K reweigh hash_width hashed svd ->
  forall k n X f out, fit_transform K of_nat float32 analyze reweigh hash_width hashed svd k n X = Ok (f, out) ->
  transform K of_nat float32 analyze reweigh hashed svd f n X = Ok out.
Proof. exact fit_is_transform. Qed.
Theorem C129_sizes : forall K of_nat float32 reweigh hash_width hashed svd analyze, SkLib K reweigh hash_width hashed svd ->
  forall k n X f out d, fit_transform K of_nat float32 analyze reweigh hash_width hashed svd k n X = Ok (f, out) -> Columns hash_width analyze k X d ->
  outputs f = Nat.min n d /\
  forall Y out', transform K of_nat float32 analyze reweigh hashed svd f n Y = Ok out' ->
    length out' = length Y /\ forall r, In r out' -> length r = outputs f.
Proof. exact outputs_ok. Qed.
Theorem C129_unknown : forall K of_nat float32 reweigh hash_width hashed svd analyze n X f out,
  fit_transform K of_nat float32 analyze reweigh hash_width hashed svd Tfidf n X = Ok (f, out) ->
  exists blank, forall Y out', transform K of_nat float32 analyze reweigh hashed svd f n Y = Ok out' ->
    Forall2 (fun y row => forall t, Stands y t ->
       (forall g x u, In g (analyze t) -> In x X -> Stands x u -> ~ In g (analyze u)) -> row = blank) Y out'.
Proof. exact unknown_ok. Qed.
Theorem C129_values : forall K of_nat float32 reweigh hash_width hashed svd analyze, SkLib K reweigh hash_width hashed svd ->
  forall n X f out l, fit_transform K of_nat float32 analyze reweigh hash_width hashed svd Tfidf n X = Ok (f, out) ->
  Distinct analyze X l -> length X <= n \/ length l <= n ->
  exists voc M, Increasing voc /\ Distinct analyze X voc /\ Forall2 (Counts K of_nat analyze voc) X M /\
    Forall2 (fun r o => o = firstn n (map float32 (reweigh M r))) M out.
Proof. exact values_ok. Qed.
Theorem C129_grams : forall is_space lower a b t ws g ks, a <= b -> Words is_space (lower t) ws -> Forall2 (Times a b g) ws ks ->
  length (filter (fun x => eqb_of x g) (char_wb is_space lower a b t)) = list_sum ks.
Proof. exact grams_ok. Qed.
(** which columns are accepted *)
Theorem C129_accepted : forall K of_nat float32 reweigh hash_width hashed svd is_space lower a b, a <= b -> lower [] = [] ->
  forall n X, 0 < n -> Textual X ->
  ((exists f out, fit_transform K of_nat float32 (char_wb is_space lower a b) reweigh hash_width hashed svd Tfidf n X = Ok (f, out)) <->
   exists t, In (EText t) X /\ HasWord is_space (lower t)).
Proof. exact blank_columns. Qed.
Theorem C129_accepted_hashing : forall K of_nat float32 reweigh hash_width hashed svd analyze n X, 0 < n -> Textual X ->
  ((exists f out, fit_transform K of_nat float32 analyze reweigh hash_width hashed svd Hashing n X = Ok (f, out)) <-> X <> []).
Proof. intros. exact (fit_defined K of_nat float32 reweigh hash_width hashed svd analyze Hashing n X ltac:(discriminate) H H0). Qed.
Theorem C129_errors : forall K of_nat float32 reweigh hash_width hashed svd analyze k n X,
  (k <> Unknown -> ~ Textual X -> fit_transform K of_nat float32 analyze reweigh hash_width hashed svd k n X = Err AttributeError) /\
  (forall e, Textual X -> fit_transform K of_nat float32 analyze reweigh hash_width hashed svd k n X = Err e -> e = ValueError).
Proof. intros. split; [exact (fit_not_text K of_nat float32 reweigh hash_width hashed svd analyze k n X)|exact (fit_error K of_nat float32 reweigh hash_width hashed svd analyze k n X)]. Qed.
Theorem C129_later_accepted : forall K of_nat float32 reweigh hashed svd analyze f n Y,
  (exists out, transform K of_nat float32 analyze reweigh hashed svd f n Y = Ok out) <-> (Textual Y /\ Y <> []).
Proof. exact transform_defined. Qed.
(** any column of texts can be encoded: false, for texts without a word *)
Theorem C129_any_column_refuted : exists X, X <> [] /\ Textual X /\
  forall K of_nat float32 reweigh hash_width hashed svd n,
  fit_transform K of_nat float32 (char_wb sp low 3 4) reweigh hash_width hashed svd Tfidf n X = Err ValueError.
Proof. exists [tx ""; ENull; tx "  "]. split; [discriminate|]. split; [intros [E|[E|[E|[]]]]; discriminate E|]. intros. reflexivity. Qed.
(** texts without a common n-gram are told apart: false, for columns with no more rows than components *)
Definition few : list entry := [tx "ab cd"; tx "x"; tx "y"].
Theorem C129_told_apart_refuted : exists X n x y t u i j, nth_error X i = Some x /\ nth_error X j = Some y /\ Stands x t /\ Stands y u /\
  (exists g, In g (char_wb sp low 3 4 t)) /\ (forall g, In g (char_wb sp low 3 4 t) -> ~ In g (char_wb sp low 3 4 u)) /\
  forall K of_nat float32 reweigh hash_width hashed svd,
  (forall M r i, nth_error r i = Some (of_nat 0) -> nth_error (reweigh M r) i = Some (of_nat 0)) ->
  exists f out row, fit_transform K of_nat float32 (char_wb sp low 3 4) reweigh hash_width hashed svd Tfidf n X = Ok (f, out) /\
    nth_error out i = Some row /\ nth_error out j = Some row.
Proof.
  exists few, 3, (tx "x"), (tx "y"), (of_string "x"), (of_string "y"), 1, 2. do 2 (split; [reflexivity|]). do 2 (split; [left; reflexivity|]).
  split; [eexists; left; reflexivity|]. split.
  - intros g I J. vm_compute in I, J. repeat (destruct I as [I|I]; [repeat (destruct J as [J|J]; [congruence|]); destruct J|]). destruct I.
  - intros K of_nat float32 reweigh hash_width hashed svd Z. eexists. eexists. exists (repeat (float32 (of_nat 0)) 3). split; [reflexivity|]. cbn [nth_error map].
    split; f_equal; apply (zeros_kept K of_nat float32 reweigh 3 _ _ Z); reflexivity.
Qed.

Print Assumptions C129_words.
Print Assumptions C129_fit_is_transform.
Print Assumptions C129_sizes.
Print Assumptions C129_unknown.
Print Assumptions C129_values.
Print Assumptions C129_grams.
Print Assumptions C129_accepted.
Print Assumptions C129_accepted_hashing.
Print Assumptions C129_errors.
Print Assumptions C129_later_accepted.
Print Assumptions C129_any_column_refuted.
Print Assumptions C129_told_apart_refuted.

(** two columns: the words of an entry in another order, case and spacing *)
Definition col : list entry := [tx "New York"; ENull; tx "york"].
Definition later : list entry := [tx "  york  NEW "; tx ""; tx "zzz"].
Example ex_C129_words : exists f out out', fitq 3 3 Tfidf 9 col = Ok (f, out) /\ trq 3 3 f 9 later = Ok out' /\
  nth_error out 0 = nth_error out' 0 /\ nth_error out 1 = nth_error out' 1 /\ nth_error out 0 <> nth_error out 2 /\ outputs f = 7 /\
  Words sp (low (of_string "New York")) [of_string "new"; of_string "york"] /\
  Words sp (low (of_string "  york  NEW ")) [of_string "york"; of_string "new"].
Proof.
  do 3 eexists. split; [vm_compute; reflexivity|]. split; [vm_compute; reflexivity|]. do 2 (split; [reflexivity|]). split; [discriminate|]. split; [reflexivity|].
  assert (W : forall s, s <> [] -> existsb sp s = false -> Word sp s).
  { intros s N E. split; [exact N|]. intros c I. destruct (sp c) eqn:Ec; [|reflexivity]. rewrite <- E. symmetry. apply existsb_exists. exists c. split; assumption. }
  split.
  - apply (W_cons sp [] (of_string "new") 32%N (of_string "york") [of_string "york"]); [intros c []|apply W; [discriminate|reflexivity]|reflexivity|].
    apply (W_last sp [] (of_string "york")); [intros c []|apply W; [discriminate|reflexivity]].
  - apply (W_cons sp (of_string "  ") (of_string "york") 32%N (of_string " new ") [of_string "new"]);
      [intros c [<-|[<-|[]]]; reflexivity|apply W; [discriminate|reflexivity]|reflexivity|].
    apply (W_cons sp (of_string " ") (of_string "new") 32%N [] []); [intros c [<-|[]]; reflexivity|apply W; [discriminate|reflexivity]|reflexivity|].
    apply W_none. intros c [].
Qed.
(** with a decomposition *)
Example ex_C129_fit_is_transform : exists f out, fitq 3 3 Tfidf 2 col = Ok (f, out) /\ trq 3 3 f 2 col = Ok out /\ outputs f = 2 /\ decomposed f <> None.
Proof. do 2 eexists. split; [vm_compute; reflexivity|]. split; [vm_compute; reflexivity|]. split; [reflexivity|discriminate]. Qed.
Example ex_C129_sizes : exists f out, fitq 3 3 Hashing 5 col = Ok (f, out) /\ outputs f = 2 /\ Columns 2 (char_wb sp low 3 3) Hashing col 2.
Proof. do 2 eexists. split; [vm_compute; reflexivity|]. split; reflexivity. Qed.
Example ex_C129_unknown : exists f out out' b, fitq 3 3 Tfidf 9 col = Ok (f, out) /\ trq 3 3 f 9 later = Ok out' /\
  nth_error out' 1 = Some b /\ nth_error out' 2 = Some b /\ nth_error out' 0 <> Some b.
Proof. do 4 eexists. split; [vm_compute; reflexivity|]. split; [vm_compute; reflexivity|]. do 2 (split; [reflexivity|]). discriminate. Qed.
Example ex_C129_values : exists f, fitq 3 3 Tfidf 3 [tx "abab"; tx "ba"] = Ok (f, [[1; 0; 1]; [0; 1; 0]]).
Proof. eexists. vm_compute. reflexivity. Qed.
Example ex_C129_grams : exists l, Places (of_string "aa") (of_string " aaa ") l /\ length l = 2 /\
  length (filter (fun x => eqb_of x (of_string "aa")) (char_wb sp low 2 3 (of_string "aaa"))) = 2.
Proof.
  destruct (pieces_places (of_string " aaa ") (of_string "aa")) as (l & P & E); [cbn; repeat constructor|]. exists l. split; [exact P|]. rewrite <- E. split; reflexivity.
Qed.
Example ex_C129_accepted : Textual col /\ (exists t, In (EText t) col /\ HasWord sp (low t)) /\ low [] = [].
Proof. split; [intros [E|[E|[E|[]]]]; discriminate E|]. split; [|reflexivity]. exists (of_string "york"). split; [right; right; left; reflexivity|]. exists 121%N. split; [left; reflexivity|reflexivity]. Qed.
Example ex_C129_accepted_hashing : exists r, fitq 3 4 Hashing 5 [ENull] = Ok r.
Proof. eexists. vm_compute. reflexivity. Qed.
Example ex_C129_errors : fitq 3 4 Tfidf 5 [tx "a"; EOther] = Err AttributeError /\ fitq 3 4 Tfidf 5 [ENull] = Err ValueError /\ fitq 3 4 Unknown 5 col = Err ValueError.
Proof. repeat split. Qed.
Example ex_C129_later_accepted : exists f out, fitq 3 4 Tfidf 5 col = Ok (f, out) /\ trq 3 4 f 5 [] = Err ValueError /\ trq 3 4 f 5 [EOther] = Err AttributeError.
Proof. do 2 eexists. split; [vm_compute; reflexivity|]. split; reflexivity. Qed.
