(** C01, C02: the LRU cache and the MinHash encoder's cached, batched transform. *)
From Verif Require Import Base M_lru L_lru L_minhash.

(** C01. Every history of reads, writes and membership tests is answered as the abstract
    LRU map of [L_lru] answers it. *)
Theorem C01_lru_refines_spec :
  forall (K V : Type) (D : EqD K) (cap : nat) (ops : list (lru_op K V)),
    0 < cap ->
    snd (lru_run (lru_init cap) ops) = spec_answers cap [] ops.
Proof. exact @lru_refines. Qed.
Print Assumptions C01_lru_refines_spec.

Example C01_lru_refines_spec_ex :
  snd (lru_run (lru_init 2)
         [OSet 1 10; OSet 2 20; OGet 1; OSet 3 30; OIn 2; OGet 2; OGet 1; OSet 1 11; OGet 1; OGet 3])
  = [RUnit; RUnit; RVal (Some 10); RUnit; RBool false; RVal None; RVal (Some 10); RUnit;
     RVal (Some 11); RVal (Some 30)].
Proof. reflexivity. Qed.

(** C01. The cache never holds more than [cap] keys, nor a key twice. *)
Theorem C01_lru_bounded :
  forall (K V : Type) (D : EqD K) (cap : nat) (ops : list (lru_op K V)),
    0 < cap ->
    let s := fst (lru_run (lru_init cap) ops) in
    length (cache s) <= cap /\ NoDup (dkeys (cache s)).
Proof. exact @lru_size. Qed.
Print Assumptions C01_lru_bounded.

Example C01_lru_bounded_ex :
  cache (fst (lru_run (lru_init 2) [OSet 1 10; OSet 2 20; OSet 1 11; OSet 3 30]))
  = [(1, 11); (3, 30)].
Proof. reflexivity. Qed.

(** C01. The hypothesis [0 < cap] is needed: with capacity 0 the first write raises. *)
Theorem C01_lru_zero_capacity :
  forall (K V : Type) (D : EqD K) (k : K) (v : V),
    lru_run (lru_init 0) [OSet k v] = (lru_init 0, [RExn KeyError]).
Proof. exact @lru_zero_capacity. Qed.
Print Assumptions C01_lru_zero_capacity.

(** C02. After any history of transform calls, whatever the cache capacity and the number
    of jobs, transform maps each row to the hash of its string, nulls being hashed as the
    empty string. *)
Theorem C02_minhash_rowwise :
  forall (H : Type) (hash_func : string -> H) (cap n_jobs : nat)
         (calls : list (list (option string))) (X : list (option string)),
    0 < cap -> 0 < n_jobs -> X <> [] ->
    exists s',
      minhash_transform hash_func n_jobs
        (minhash_history hash_func n_jobs (minhash_fit cap) calls) X
      = Ok (s', map (fun v => Some (hash_func (null_as_empty v))) X).
Proof. exact @minhash_pure. Qed.
Print Assumptions C02_minhash_rowwise.

Open Scope string_scope.
Example C02_minhash_rowwise_ex :
  match minhash_transform String.length 3
     (minhash_history String.length 3 (minhash_fit 2)
        [[Some "abc"; None]; []; [Some "x"; Some "yy"; Some "zzz"]])
     [Some "paris"; None; Some ""; Some "x"; Some "paris"; Some "london"] with
  | Ok (_, r) => r = [Some 5; Some 0; Some 0; Some 1; Some 5; Some 6]
  | Err _ => False
  end.
Proof. reflexivity. Qed.

(** C02. [unique_strings] followed by re-indexing is the identity, up to nulls becoming
    empty strings. *)
Theorem C02_unique_strings_inverse :
  forall values,
    let '(unique, idx) := unique_strings values in
    map (fun i => nth_error unique i) idx = map (fun v => Some (null_as_empty v)) values.
Proof. exact unique_strings_inverse. Qed.
Print Assumptions C02_unique_strings_inverse.

Example C02_unique_strings_inverse_ex :
  unique_strings [Some "paris"; Some ""; Some "berlin"; None; Some "london"]
  = ([""; "berlin"; "london"; "paris"], [3; 0; 1; 0; 2]).
Proof. reflexivity. Qed.
