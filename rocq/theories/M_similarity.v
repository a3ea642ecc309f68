(** String similarities: /repo/skrub/_string_distances.py and /repo/skrub/_similarity_encoder.py. *)
From Verif Require Import Base M_sampletable.
From Coq Require Import QArith.
Open Scope list_scope.
Open Scope nat_scope.

Section Similarity.
  (** Characters; strings are lists of characters. *)
  Context {C : Type} `{EqD C}.
  Variable space : C.
  Variable is_space : C -> bool.
  (** [str.lower]. *)
  Variable lower : list C -> list C.

  (** ** [_string_distances.py] *)
  (** [re.sub] of two or more white spaces by one space; [run]: the white space just read. *)
  Definition flush (run : list C) : list C := match run with [] => [] | [c] => [c] | _ => [space] end.
  Fixpoint squeeze_run (run : list C) (s : list C) : list C :=
    match s with
    | [] => flush run
    | c :: s' => if is_space c then squeeze_run (run ++ [c]) s' else flush run ++ c :: squeeze_run [] s'
    end.
  Definition squeeze (s : list C) : list C := squeeze_run [] s.
  (** [preprocess], 33-56. *)
  Definition preprocess (x : list C) : list C := squeeze (space :: x ++ [space]).

  (** [s.split()], and [join] with a space. *)
  Fixpoint words_run (word : list C) (s : list C) : list (list C) :=
    match s with
    | [] => match word with [] => [] | _ => [word] end
    | c :: s' => if is_space c then match word with [] => words_run [] s' | _ => word :: words_run [] s' end
                 else words_run (word ++ [c]) s'
    end.
  Definition split (s : list C) : list (list C) := words_run [] s.
  Fixpoint join (ws : list (list C)) : list C :=
    match ws with [] => [] | [w] => w | w :: ws' => w ++ space :: join ws' end.

  (** [get_ngrams], 86-92: the tails of the string from the positions [0..n-1], zipped. *)
  Definition padded (string : list C) : list C := space :: join (split (lower string)) ++ [space].
  Definition get_ngrams (string : list C) (n : nat) : list (list C) :=
    zip_rows (map (fun i => skipn i (padded string)) (seq 0 n)).

  (** [Counter(l)], and the values of the intersection of two counters. *)
  Definition counter (l : list (list C)) : dict (list C) nat := map (fun g => (g, count_occ eqd l g)) (nodup eqd l).
  Definition counter_and (c1 c2 : dict (list C) nat) : list nat :=
    filter (fun k => 0 <? k) (map (fun gk => Nat.min (snd gk) (match dget (fst gk) c2 with Some k => k | None => 0 end)) c1).
  Definition sum (l : list nat) : nat := fold_right Nat.add 0 l.

  Definition div (a b : Z) : res Q := if (b =? 0)%Z then Err ZeroDivisionError else Ok (inject_Z a / inject_Z b)%Q.
  (** [ngram_similarity], 95-109. *)
  Definition ngram_similarity (string1 string2 : list C) (n : nat) (preprocess_strings : bool) : res Q :=
    let string1 := if preprocess_strings then preprocess string1 else string1 in
    let string2 := if preprocess_strings then preprocess string2 else string2 in
    let ngrams1 := get_ngrams string1 n in
    let ngrams2 := get_ngrams string2 n in
    let samegrams := sum (counter_and (counter ngrams1) (counter ngrams2)) in
    let allgrams := length ngrams1 + length ngrams2 in
    div (Z.of_nat samegrams) (Z.of_nat allgrams - Z.of_nat samegrams).

  (** [get_ngram_count], 11-30: it can be negative. *)
  Definition get_ngram_count (string : list C) (min_n max_n : nat) : Z :=
    fold_right Z.add 0%Z (map (fun i => Z.of_nat (length string) - Z.of_nat i + 1)%Z (seq min_n (S max_n - min_n))).

  (** ** [CountVectorizer(analyzer="char", ngram_range=...)] of scikit-learn *)
  Definition windows (n : nat) (s : list C) : list (list C) :=
    map (fun i => firstn n (skipn i s)) (seq 0 (S (length s) - n)).
  Definition analyze (min_n max_n : nat) (document : list C) : list (list C) :=
    let text := squeeze (lower document) in
    flat_map (fun n => windows n text) (seq min_n (Nat.min (S max_n) (S (length text)) - min_n)).
  Definition fit_vocabulary (min_n max_n : nat) (documents : list (list C)) : res (list (list C)) :=
    match nodup eqd (flat_map (analyze min_n max_n) documents) with
    | [] => Err ValueError     (* empty vocabulary *)
    | v => Ok v
    end.
  (** A row of the matrix of counts: one count for each n-gram of the vocabulary. *)
  Definition count_vector (min_n max_n : nat) (vocabulary : list (list C)) (document : list C) : list nat :=
    let gs := analyze min_n max_n document in map (count_occ eqd gs) vocabulary.
  (** [m[:, nonzero_idx].minimum(nonzero_vals).sum(axis=1)]: the row [v] of [m] at the columns where [x] is not null. *)
  Definition same_grams (x v : list nat) : nat :=
    sum (map (fun xv => Nat.min (snd xv) (fst xv)) (filter (fun xv => negb (fst xv =? 0)) (combine x v))).

  (** ** [SimilarityEncoder] on one column *)
  (** [fit], lines 374-408; the categories are given. *)
  Record fitted : Type := mk_fitted {
    categories : list (list C); vocabulary : list (list C); counts : list (list nat); ngram_counts : list Z }.
  Definition fit (min_n max_n : nat) (cats : list (list C)) : res fitted :=
    let! voc := fit_vocabulary min_n max_n (map preprocess cats) in
    Ok (mk_fitted cats voc (map (fun c => count_vector min_n max_n voc (preprocess c)) cats)
          (map (fun c => get_ngram_count (preprocess c) min_n max_n) cats)).
  (** [_ngram_similarity_one_sample_inplace], 24-71: where the denominator is null the similarity is 0. *)
  Definition divide0 (a b : Z) : Q := if (b =? 0)%Z then 0%Q else (inject_Z a / inject_Z b)%Q.
  Definition one_sample (f : fitted) (min_n max_n : nat) (str_x : list C) : list Q :=
    let x := count_vector min_n max_n (vocabulary f) str_x in
    map (fun vn => let same := Z.of_nat (same_grams x (fst vn)) in
                   divide0 same (get_ngram_count str_x min_n max_n + snd vn - same)%Z)
        (combine (counts f) (ngram_counts f)).
  (** [_ngram_similarity_fast], 492-552. *)
  Definition transform_fast (f : fitted) (min_n max_n : nat) (X : list (list C)) : res (list (list Q)) :=
    let unq_X := nodup eqd X in
    let se_dict := map (fun x => (x, one_sample f min_n max_n (preprocess x))) unq_X in
    mapM (fun x => match dget x se_dict with Some row => Ok row | None => Err KeyError end) X.

  (** [ngram_similarity_matrix] without hashing, 72-131; 0/0 is NaN, replaced by 0. *)
  Definition pad (x : list C) : list C := space :: x ++ [space].
  Definition transform_slow (min_n max_n : nat) (cats X : list (list C)) : res (list (list Q)) :=
    let unq_X := nodup eqd X in
    let! voc := fit_vocabulary min_n max_n (map pad cats ++ map pad unq_X) in
    let count_cats := map (fun c => count_vector min_n max_n voc (pad c)) cats in
    let sum_cats := map sum count_cats in
    let se_dict := map (fun x0 =>
                     let x := count_vector min_n max_n voc (pad x0) in
                     (x0, map (fun vn => let same := Z.of_nat (same_grams x (fst vn)) in
                                         divide0 same (Z.of_nat (sum x) + Z.of_nat (snd vn) - same)%Z)
                              (combine count_cats sum_cats))) unq_X in
    mapM (fun x => match dget x se_dict with Some row => Ok row | None => Err KeyError end) X.

  (** [SimilarityEncoder.transform], 452-490, on one column: unknown values, then the similarities. *)
  Definition transform (f : fitted) (min_n max_n : nat) (unknown_error fast : bool) (X : list (list C)) : res (list (list Q)) :=
    if unknown_error && negb (forallb (fun x => mem x (categories f)) X) then Err ValueError
    else if fast then transform_fast f min_n max_n X else transform_slow min_n max_n (categories f) X.
End Similarity.
Arguments fitted : clear implicits.
