(** Model of [LRUDict] (skrub/_utils.py:17-44), [unique_strings]
    (skrub/_utils.py:47-75) and of the caching/batching part of
    [MinHashEncoder.transform] (skrub/_minhash_encoder.py:189-212, 252-294). *)
From Verif Require Import Base.

Section Lru.
  Context {K V : Type} `{EqD K}.

  (** skrub/_utils.py:23-25. [cache] is the OrderedDict, first inserted first. *)
  Record lru := { capacity : nat; cache : dict K V }.

  (** skrub/_utils.py:27-33 [__getitem__]. The sentinel [-1] returned on a miss is [None]. *)
  Definition lru_get (s : lru) (k : K) : lru * option V :=
    match dget k (cache s) with
    | Some v => ({| capacity := capacity s; cache := ddel k (cache s) ++ [(k, v)] |}, Some v)
    | None => (s, None)
    end.

  (** skrub/_utils.py:35-41 [__setitem__]. [popitem(last=False)] on an empty dict raises
      KeyError. *)
  Definition lru_set (s : lru) (k : K) (v : V) : res lru :=
    if dmem k (cache s)
    then Ok {| capacity := capacity s; cache := ddel k (cache s) ++ [(k, v)] |}
    else if capacity s <=? length (cache s)
         then match cache s with
              | [] => Err KeyError
              | _ :: c => Ok {| capacity := capacity s; cache := c ++ [(k, v)] |}
              end
         else Ok {| capacity := capacity s; cache := cache s ++ [(k, v)] |}.

  (** skrub/_utils.py:43-44 [__contains__] *)
  Definition lru_contains (s : lru) (k : K) : bool := dmem k (cache s).

  Definition lru_init (cap : nat) : lru := {| capacity := cap; cache := [] |}.

  (** Operations of client code, and the observable answer of each. *)
  Inductive lru_op := OGet (k : K) | OSet (k : K) (v : V) | OIn (k : K).
  Inductive lru_out := RVal (v : option V) | RUnit | RBool (b : bool) | RExn (e : exn).

  Definition lru_step (s : lru) (o : lru_op) : lru * lru_out :=
    match o with
    | OGet k => let '(s', v) := lru_get s k in (s', RVal v)
    | OSet k v => match lru_set s k v with
                  | Ok s' => (s', RUnit)
                  | Err e => (s, RExn e)
                  end
    | OIn k => (s, RBool (lru_contains s k))
    end.

  (** Run a history (oldest operation first), collecting all answers. *)
  Fixpoint lru_run (s : lru) (ops : list lru_op) : lru * list lru_out :=
    match ops with
    | [] => (s, [])
    | o :: ops' => let '(s1, r) := lru_step s o in
                   let '(s2, rs) := lru_run s1 ops' in (s2, r :: rs)
    end.
End Lru.
Arguments lru K V : clear implicits.
Arguments lru_op K V : clear implicits.
Arguments lru_out V : clear implicits.

(** ** unique_strings, skrub/_utils.py:47-75 *)

Fixpoint insert_unique (x : string) (l : list string) : list string :=
  match l with
  | [] => [x]
  | y :: l' => match String.compare x y with
               | Lt => x :: l
               | Eq => l
               | Gt => y :: insert_unique x l'
               end
  end.
(** [np.unique(values)]: sorted distinct values. *)
Definition np_unique (l : list string) : list string := fold_right insert_unique [] l.

Fixpoint index_of (x : string) (l : list string) : nat :=
  match l with
  | [] => 0
  | y :: l' => if eqd x y then 0 else S (index_of x l')
  end.
(** [np.unique(..., return_inverse=True)[1]] *)
Definition np_inverse (l : list string) : list nat :=
  map (fun x => index_of x (np_unique l)) l.

(** A null value is [None]; [values[~is_null]] *)
Fixpoint not_null_values (values : list (option string)) : list string :=
  match values with
  | [] => []
  | Some s :: r => s :: not_null_values r
  | None :: r => not_null_values r
  end.
Definition any_null (values : list (option string)) : bool :=
  existsb (fun v => match v with None => true | _ => false end) values.

(** skrub/_utils.py:72-74: [full_idx[is_null] = 0; full_idx[~is_null] = idx] *)
Fixpoint scatter_idx (values : list (option string)) (idx : list nat) : list nat :=
  match values with
  | [] => []
  | None :: r => 0 :: scatter_idx r idx
  | Some _ :: r => match idx with
                   | [] => []
                   | i :: idx' => i :: scatter_idx r idx'
                   end
  end.

Definition unique_strings (values : list (option string)) : list string * list nat :=
  let nn := not_null_values values in
  let unique := np_unique nn in
  let idx := np_inverse nn in
  if negb (any_null values) then (unique, idx)
  else
    let prepend := match unique with
                   | [] => true
                   | u :: _ => negb (eqb_of u EmptyString)
                   end in
    let unique' := if prepend then EmptyString :: unique else unique in
    let idx' := if prepend then map S idx else idx in
    (unique', scatter_idx values idx').

(** ** MinHashEncoder *)
Section MinHash.
  (** the vector of hashes of one string, skrub/_minhash_encoder.py:131-187 (abstract) *)
  Context {H : Type} (hash_func : string -> H).

  (** skrub/_minhash_encoder.py:207-212. A row that would be read as the sentinel -1 is
      [None]. *)
  Fixpoint compute_hash_batched (s : lru string H) (batch : list string)
    : res (lru string H * list (option H)) :=
    match batch with
    | [] => Ok (s, [])
    | x :: batch' =>
        let! s1 := (if lru_contains s x then Ok s else lru_set s x (hash_func x)) in
        let '(s2, row) := lru_get s1 x in
        let! (s3, rows) := compute_hash_batched s2 batch' in
        Ok (s3, row :: rows)
    end.

  (** sklearn.utils.gen_even_slices(n, n_packs): sizes of the consecutive slices. *)
  Definition even_slice_sizes (n n_packs : nat) : list nat :=
    filter (fun k => 0 <? k)
      (map (fun p => n / n_packs + (if p <? n mod n_packs then 1 else 0)) (seq 0 n_packs)).

  Fixpoint slices {A} (sizes : list nat) (l : list A) : list (list A) :=
    match sizes with
    | [] => []
    | k :: sizes' => firstn k l :: slices sizes' (skipn k l)
    end.

  (** joblib.Parallel: either the batches run one after the other on the same cache
      ([n_jobs=1]), or each runs in a worker process on a copy of the cache and the
      modifications of the copies are lost. *)
  Fixpoint run_sequential (s : lru string H) (batches : list (list string))
    : res (lru string H * list (list (option H))) :=
    match batches with
    | [] => Ok (s, [])
    | b :: bs => let! (s1, r) := compute_hash_batched s b in
                 let! (s2, rs) := run_sequential s1 bs in Ok (s2, r :: rs)
    end.
  Fixpoint run_copies (s : lru string H) (batches : list (list string))
    : res (lru string H * list (list (option H))) :=
    match batches with
    | [] => Ok (s, [])
    | b :: bs => let! (_, r) := compute_hash_batched s b in
                 let! (_, rs) := run_copies s bs in Ok (s, r :: rs)
    end.

  (** skrub/_minhash_encoder.py:278-290. [np.concatenate] of an empty list raises
      ValueError. Indexing out of range raises IndexError. *)
  Definition minhash_transform (n_jobs : nat) (s : lru string H) (X : list (option string))
    : res (lru string H * list (option H)) :=
    let '(unique_x, indices_x) := unique_strings X in
    let batches := slices (even_slice_sizes (length unique_x) n_jobs) unique_x in
    let! (s', parts) := (if n_jobs =? 1 then run_sequential s batches
                         else run_copies s batches) in
    match parts with
    | [] => Err ValueError
    | _ =>
        let table := concat parts in
        if forallb (fun i => i <? length table) indices_x
        then Ok (s', map (fun i => nth i table None) indices_x)
        else Err IndexError
    end.

  (** skrub/_minhash_encoder.py:248: the cache is created at fit. *)
  Definition minhash_fit (cap : nat) : lru string H := lru_init cap.

  (** A history of transform calls on one fitted encoder. A call that raises leaves some
      cache behind; as [minhash_transform] only fails on empty input before using the
      cache (see the theorem), the state is then unchanged. *)
  Fixpoint minhash_history (n_jobs : nat) (s : lru string H) (calls : list (list (option string)))
    : lru string H :=
    match calls with
    | [] => s
    | X :: calls' => match minhash_transform n_jobs s X with
                     | Ok (s', _) => minhash_history n_jobs s' calls'
                     | Err _ => minhash_history n_jobs s calls'
                     end
    end.
End MinHash.
