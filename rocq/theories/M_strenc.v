(** The codes of StringEncoder: /repo/skrub/_string_encoder.py 97-202, for a new encoder (what refits do is in [M_refit]), with the n-grams of
    scikit-learn ([_VectorizerMixin._char_wb_ngrams]) and its vocabularies ([CountVectorizer]). *)
From Verif Require Import Base M_labels.
From Coq Require Import NArith.
Open Scope list_scope.
Open Scope nat_scope.

(** entries: a text, a null, something else *)
Inductive entry := EText (t : text) | ENull | EOther.

Section Grams.
  (** [str.isspace] and [str.lower] *)
  Variable is_space : N -> bool.
  Variable lower : text -> text.

  (** [str.split()]; [word]: the characters of the current word, last first *)
  Fixpoint split (word : text) (t : text) : list text :=
    match t with
    | [] => match word with [] => [] | _ => [rev word] end
    | c :: t' => if is_space c then match word with [] => split [] t' | _ => rev word :: split [] t' end else split (c :: word) t'
    end.
  (** the n-grams of a padded word, for one [n]: one at least, which is the word if it is short *)
  Definition pieces (n : nat) (w : text) : list text := map (fun i => firstn n (skipn i w)) (seq 0 (1 + (length w - n))).
  (** for all [n], in order; [if offset == 0: break] *)
  Fixpoint word_grams (ns : list nat) (w : text) : list text :=
    match ns with
    | [] => []
    | n :: ns' => pieces n w ++ (if length w <=? n then [] else word_grams ns' w)
    end.
  (** [analyzer="char_wb"]; texts are in lower case first *)
  Definition char_wb (min_n max_n : nat) (t : text) : list text :=
    flat_map (fun w => word_grams (seq min_n (S max_n - min_n)) (32%N :: w ++ [32%N])) (split [] (lower t)).
End Grams.

(** ** Vocabularies: the distinct tokens, sorted *)
Fixpoint lexle (a b : text) : bool :=
  match a, b with
  | [], _ => true
  | _ :: _, [] => false
  | x :: a', y :: b' => if (x =? y)%N then lexle a' b' else (x <? y)%N
  end.
Fixpoint insert (x : text) (l : list text) : list text :=
  match l with
  | [] => [x]
  | y :: l' => if eqb_of x y then l else if lexle x y then x :: l else y :: insert x l'
  end.
Definition vocabulary (tokens : list text) : list text := fold_right insert [] tokens.

Section Encoder.
  (** numbers *)
  Variable K : Type.
  Variable of_nat : nat -> K.
  Variable float32 : K -> K.
  Variable analyze : text -> list text.
  (** [TfidfTransformer] fitted on a matrix and applied to a row; [HashingVectorizer] on the tokens of an entry *)
  Variable reweigh : list (list K) -> list K -> list K.
  Variable hash_width : nat.
  Variable hashed : list text -> list K.
  (** [TruncatedSVD] fitted on a matrix and applied to a row *)
  Variable svd : nat -> list (list K) -> list K -> list K.

  Inductive vectorizer := Tfidf | Hashing | Unknown.
  Definition count (v : text) (tokens : list text) : nat := length (filter (fun t => eqb_of t v) tokens).
  (** a fitted encoder: the vocabulary, the matrix of counts, the matrix of the decomposition if there is one, the number of outputs *)
  Record fitted := { kind : vectorizer; vocab : list text; counted : list (list K); decomposed : option (list (list K)); outputs : nat }.

  (** [fill_nulls(X, "")]; entries that are not texts have no [lower] *)
  Definition filled (x : entry) : res text := match x with EText t => Ok t | ENull => Ok [] | EOther => Err AttributeError end.
  Definition base_row (k : vectorizer) (voc : list text) (t : text) : list K :=
    match k with
    | Hashing => hashed (analyze t)
    | _ => map (fun v => of_nat (count v (analyze t))) voc
    end.
  Definition width (k : vectorizer) (voc : list text) : nat := match k with Hashing => hash_width | _ => length voc end.
  Definition row_of (k : vectorizer) (voc : list text) (base : list (list K)) (t : text) : list K :=
    map float32 (reweigh base (base_row k voc t)).

  (** 97-169 *)
  Definition fit_transform (k : vectorizer) (n : nat) (X : list entry) : res (fitted * list (list K)) :=
    match k with
    | Unknown => Err ValueError
    | _ =>
        let! docs := mapM filled X in
        let voc := vocabulary (flat_map analyze docs) in
        (* an empty vocabulary, a matrix without rows *)
        if match k with Hashing => length docs =? 0 | _ => length voc =? 0 end then Err ValueError
        else
          let base := map (base_row k voc) docs in
          let X_out := map (row_of k voc base) docs in
          if n <? Nat.min (length docs) (width k voc) then
            if n =? 0 then Err ValueError
            else Ok ({| kind := k; vocab := voc; counted := base; decomposed := Some X_out; outputs := n |}, map (svd n X_out) X_out)
          else if width k voc =? n then
            Ok ({| kind := k; vocab := voc; counted := base; decomposed := None; outputs := width k voc |}, X_out)
          else
            Ok ({| kind := k; vocab := voc; counted := base; decomposed := None; outputs := Nat.min n (width k voc) |}, map (firstn n) X_out)
    end.
  (** 171-202; [n]: the parameter *)
  Definition transform (f : fitted) (n : nat) (X : list entry) : res (list (list K)) :=
    let! docs := mapM filled X in
    (* [TfidfTransformer.transform] refuses a matrix without rows *)
    if length docs =? 0 then Err ValueError else
    let X_out := map (row_of (kind f) (vocab f) (counted f)) docs in
    match decomposed f with
    | Some M => Ok (map (svd n M) X_out)
    | None => Ok (map (firstn n) X_out)
    end.
End Encoder.
Arguments kind {K}. Arguments vocab {K}. Arguments counted {K}. Arguments decomposed {K}. Arguments outputs {K}.
