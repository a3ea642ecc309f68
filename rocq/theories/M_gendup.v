(** Generation of misspelled duplicates, /repo/skrub/datasets/_generating.py 15-63. *)
From Coq Require Import QArith.
From Verif Require Import Base.
Open Scope list_scope.
Open Scope nat_scope.

(** strings: lists of code points *)
Definition text := list nat.
(** [string.ascii_lowercase[i]] *)
Definition ascii_lowercase (i : nat) : res nat := if i <? 26 then Ok (97 + i) else Err IndexError.

(** [l[i] = f(l[i])] *)
Fixpoint upd {A} (l : list A) (i : nat) (f : A -> res A) : res (list A) :=
  match l, i with
  | [], _ => Err IndexError
  | a :: l', 0 => let! b := f a in Ok (b :: l')
  | a :: l', S i' => let! l'' := upd l' i' f in Ok (a :: l'')
  end.

Section Generate.
  (** the state of the random generator, [rng.random(n)] and [rng.choice(np.arange(26), n)] *)
  Context {R : Type}.
  Variable random : R -> nat -> list Q * R.
  Variable choice : R -> nat -> list nat * R.

  (** [np.where(draws < p)[0]] *)
  Definition where_lt (p : Q) (draws : list Q) : list nat :=
    filter (fun i => negb (Qle_bool p (nth i draws 0%Q))) (seq 0 (length draws)).

  (** [str_as_list[rows, cols] = replacements] on an array of two dimensions *)
  Definition assign (len_ex : nat) (arr : list text) (mis_idx : list nat) (replacements : list nat) : res (list text) :=
    fold_left (fun acc ix => let! a := acc in upd a (fst ix / len_ex) (fun row => upd row (fst ix mod len_ex) (fun _ => Ok (snd ix))))
      (combine mis_idx replacements) (Ok arr).

  (** the body of the loop, 43-62. An empty list of rows makes an array of one dimension, which cannot have two indices. *)
  Definition duplicate (p : Q) (rng : R) (example : text) (n_ex : nat) : res (list text * R) :=
    let len_ex := length example in
    let str_as_list := repeat example n_ex in
    let! example_0 := match example with [] => Err IndexError | c :: _ => Ok [c] end in
    let (draws, rng) := random rng (length example_0 * n_ex) in
    let mis_idx := where_lt p draws in
    let (picks, rng) := choice rng (length mis_idx) in
    let! replacements := mapM ascii_lowercase picks in
    let! str_as_list := if n_ex =? 0 then Err IndexError else assign len_ex str_as_list mis_idx replacements in
    Ok (str_as_list, rng).

  Fixpoint loop (p : Q) (rng : R) (pairs : list (text * nat)) : res (list (list text)) :=
    match pairs with
    | [] => Ok []
    | (example, n_ex) :: pairs' =>
        let! (rows, rng) := duplicate p rng example n_ex in
        let! data := loop p rng pairs' in
        Ok (rows :: data)
    end.

  (** [make_deduplication_data]; [np.concatenate] needs at least one array. *)
  Definition make_deduplication_data (p : Q) (rng : R) (examples : list text) (entries_per_example : list nat) : res (list text) :=
    let! data := loop p rng (combine examples entries_per_example) in
    match data with [] => Err ValueError | _ => Ok (concat data) end.
End Generate.
