(** Hashing of n-grams: /repo/skrub/_fast_hash.py, the hashes of /repo/skrub/_minhash_encoder.py:131-187 and
    [get_unique_ngrams] of /repo/skrub/_string_distances.py. *)
From Verif Require Import Base M_sampletable M_similarity.
From Coq Require Import ZArith.
Open Scope list_scope.
Open Scope nat_scope.

Section FastHash.
  (** The UTF-8 encoding of each character, as signed bytes ([dtype="int8"]). *)
  Variable utf8 : nat -> list Z.
  (** [gen_atom], _fast_hash.py:28-47: as many random integers as asked. *)
  Variable gen_atom : nat -> nat -> list Z.

  (** [np.frombuffer(string.encode(), dtype="int8", count=len(string))], line 81. *)
  Definition array (string : list nat) : list Z := firstn (length string) (flat_map utf8 string).

  (** int32 arithmetic. *)
  Definition MININT32 : Z := (- 2 ^ 31)%Z.
  Definition MAXINT32 : Z := (2 ^ 31 - 1)%Z.
  Definition wrap32 (z : Z) : Z := ((z + 2 ^ 31) mod 2 ^ 32 - 2 ^ 31)%Z.
  Fixpoint dot (a b : list Z) : Z :=
    match a, b with x :: a', y :: b' => (x * y + dot a' b')%Z | _, _ => 0%Z end.
  (** [np.correlate(a, v)]: when [v] is longer the arguments are exchanged and the result is reversed. *)
  Definition slide (a v : list Z) : list Z :=
    map (fun i => wrap32 (dot (firstn (length v) (skipn i a)) v)) (seq 0 (length a - length v + 1)).
  Definition correlate (a v : list Z) : res (list Z) :=
    match a, v with
    | [], _ | _, [] => Err ValueError
    | _, _ => Ok (if length v <=? length a then slide a v else rev (slide v a))
    end.
  Definition array_min (l : list Z) : res Z := match l with [] => Err ValueError | x :: l' => Ok (fold_left Z.min l' x) end.
  Definition array_max (l : list Z) : res Z := match l with [] => Err ValueError | x :: l' => Ok (fold_left Z.max l' x) end.

  (** [ngram_min_hash], 50-98: the smallest and the largest hash (the latter is returned with [return_minmax]). *)
  Fixpoint hash_loop (a : list Z) (seed : nat) (lens : list nat) (min_hash max_hash : Z) : res (Z * Z) :=
    match lens with
    | [] => Ok (min_hash, max_hash)
    | atom_len :: lens' =>
        let! hashes := correlate a (gen_atom atom_len seed) in
        let! lo := array_min hashes in
        let! hi := array_max hashes in
        hash_loop a seed lens' (Z.min min_hash lo) (Z.max max_hash hi)
    end.
  Definition ngram_min_hash (string : list nat) (min_n max_n seed : nat) : res (Z * Z) :=
    match string with
    | [] => Ok (0%Z, 0%Z)
    | _ => hash_loop (array string) seed (seq min_n (max_n - min_n)) MAXINT32 MININT32
    end.

  (** [_get_fast_hash], _minhash_encoder.py:159-187. *)
  Definition get_fast_hash (minmax_hash : bool) (n_components min_n max_n : nat) (string : list nat) : res (list Z) :=
    if minmax_hash then
      let! hs := mapM (fun seed => let! (lo, hi) := ngram_min_hash string min_n max_n seed in Ok [lo; hi]) (seq 0 (n_components / 2)) in
      Ok (concat hs)
    else mapM (fun seed => let! (lo, _) := ngram_min_hash string min_n max_n seed in Ok lo) (seq 0 n_components).
End FastHash.

Section Murmur.
  Context {C : Type} `{EqD C}.
  Variable space : C.
  Variable is_space : C -> bool.
  Variable lower : list C -> list C.
  (** [murmurhash3_32(gram, seed=d, positive=True)]. *)
  Variable murmurhash : list C -> nat -> Z.
  (** [get_unique_ngrams], _string_distances.py:59-83; the order of a set does not matter here. *)
  Definition get_unique_ngrams (string : list C) (min_n max_n : nat) : list (list C) :=
    nodup eqd (flat_map (fun n => get_ngrams space is_space lower string n) (seq min_n (S max_n - min_n))).
  (** [_get_murmur_hash], 131-157, before the division by 2^32 - 1. *)
  Definition get_murmur_hash (n_components min_n max_n : nat) (string : list C) : list Z :=
    match string, get_unique_ngrams string min_n max_n with
    | [], _ | _, [] => repeat 0%Z n_components
    | _, g :: grams => map (fun d => fold_left Z.min (map (fun g => murmurhash g d) grams) (murmurhash g d)) (seq 0 n_components)
    end.
End Murmur.
