(** Fuzzy matching: nearest neighbours and rescaled distances, /repo/skrub/_matching.py. *)
From Verif Require Import Base.
From Coq Require Import QArith Qround.
Open Scope list_scope.
Open Scope nat_scope.

(** Floats: finite ones are rational numbers (rounding is not modelled), and infinity. *)
Inductive ext : Type := Fin (q : Q) | Inf.
Definition ext_le (a b : ext) : bool :=
  match a, b with
  | _, Inf => true
  | Inf, Fin _ => false
  | Fin x, Fin y => Qle_bool x y
  end.

(** ** numpy: shapes, innermost dimension first *)
Fixpoint broadcast (a b : list nat) : option (list nat) :=
  match a, b with
  | [], _ => Some b
  | _, [] => Some a
  | x :: a', y :: b' =>
      match broadcast a' b' with
      | None => None
      | Some c => if x =? y then Some (x :: c) else if x =? 1 then Some (y :: c)
                  else if y =? 1 then Some (x :: c) else None
      end
  end.
(** whether a value of shape [a] can be assigned to a selection of shape [b] *)
Definition assignable (a b : list nat) : bool :=
  match broadcast a b with Some c => eqb_of c b | None => false end.
(** shape of [x[b]] for a boolean scalar [b]: a new outermost dimension of length 0 or 1 *)
Definition select_scalar (b : bool) (shape : list nat) : list nat := shape ++ [if b then 1 else 0].

(** Reference distances: one number, or one for each row. *)
Inductive reference : Type := Scalar (q : Q) | PerRow (l : list Q).

Definition is_zero (q : Q) : bool := Qeq_bool q 0.
(** the last two assignments of lines 51-52 *)
Definition fix_zeros (d : Q) (ref_is_zero : bool) (r : ext) : ext :=
  if is_zero d then Fin 0 else if ref_is_zero then Inf else r.

(** [_rescale_distances], lines 44-53. *)
Definition rescale_distances (distances : list Q) (ref : reference) : res (list ext) :=
  match ref with
  | PerRow refs =>
      if length refs =? length distances then
        Ok (map (fun dr => fix_zeros (fst dr) (is_zero (snd dr)) (Fin (fst dr / snd dr))) (combine distances refs))
      else Err IndexError
  | Scalar q =>
      let b := is_zero q in
      let n := length distances in
      match broadcast (select_scalar (negb b) [n]) (select_scalar (negb b) []) with
      | None => Err ValueError
      | Some shape =>
          if assignable shape (select_scalar (negb b) [n])
          then Ok (map (fun d => fix_zeros d b (Fin (d / q))) distances)
          else Err ValueError
      end
  end.

(** ** Samples of pairs, lines 56-66 *)
(** [draws]: the successive results of [random_state.randint(n_items, size=(n_pairs, 2))]. *)
Fixpoint sample_parts (draws : list (list (nat * nat))) (n_pairs n_found : nat) (parts : list (list (nat * nat)))
  : option (list (list (nat * nat))) :=
  if n_pairs <=? n_found then Some parts
  else match draws with
       | [] => None   (* more draws are needed *)
       | d :: draws' =>
           let new_part := filter (fun p => negb (fst p =? snd p)) d in
           sample_parts draws' n_pairs (n_found + length new_part) (parts ++ [new_part])
       end.
Definition sample_pairs (n_items : nat) (n_pairs : nat) (draws : list (list (nat * nat)))
  : res (option (list (nat * nat))) :=
  if negb (1 <? n_items) then Err AssertionError
  else if negb (0 <? n_pairs) then Err AssertionError
  else Ok (match sample_parts draws n_pairs 0 [] with
           | None => None
           | Some parts => Some (firstn n_pairs (concat parts))
           end).

(** ** [np.percentile], with linear interpolation *)
Fixpoint insert (x : Q) (l : list Q) : list Q :=
  match l with [] => [x] | y :: l' => if Qle_bool x y then x :: l else y :: insert x l' end.
Definition qsort (l : list Q) : list Q := fold_right insert [] l.
Definition percentile (l : list Q) (p : Q) : res Q :=
  match l with
  | [] => Err IndexError
  | _ =>
      if Qle_bool 0 p && Qle_bool p 100 then
        let s := qsort l in
        let v := (inject_Z (Z.of_nat (length l - 1)) * (p / 100))%Q in
        let lo := Z.to_nat (Qfloor v) in
        let frac := (v - inject_Z (Qfloor v))%Q in
        let a := nth lo s 0%Q in
        let b := nth (Nat.min (S lo) (length l - 1)) s 0%Q in
        Ok (a + frac * (b - a))%Q
      else Err ValueError
  end.

Section Matching.
  (** Rows (vectors), the distance between rows, and the order in which [kneighbors] returns the
      rows of the auxiliary table. *)
  Context {P : Type}.
  Variable dist : P -> P -> Q.
  Variable order : list P -> nat -> P -> list nat.

  Inductive strategy : Type :=
  | NoRescaling                                           (* Matching *)
  | RandomPairs (percent : Q) (n_sampled_pairs : nat)
  | SelfJoinNeighbor (reference_neighbor : nat)
  | OtherNeighbor (reference_neighbor : nat).

  (** [NearestNeighbors.kneighbors]: distances and indices of the [k] nearest rows. *)
  Definition kneighbors (aux : list P) (k : nat) (x : P) : res (list (Q * nat)) :=
    if length aux <? k then Err ValueError
    else Ok (flat_map (fun i => match nth_error aux i with Some a => [(dist x a, i)] | None => [] end)
               (firstn k (order aux k x))).

  Record matcher : Type := mk_matcher { m_aux : list P; m_strategy : strategy; m_ref : option Q }.

  (** [fit], lines 20-23 and 82-93. The result is [None] if [draws] is too short. *)
  Definition fit (s : strategy) (draws : list (list (nat * nat))) (aux : list P) : res (option matcher) :=
    match aux with
    | [] => Err ValueError
    | _ =>
      match s with
      | RandomPairs percent n =>
          if n =? 0 then Err ValueError
          else if length aux <=? 1 then Err ValueError
          else
            let! pairs := sample_pairs (length aux) n draws in
            match pairs with
            | None => Ok None
            | Some pairs =>
                let! ds := mapM (fun p => match nth_error aux (fst p), nth_error aux (snd p) with
                                          | Some a, Some b => Ok (dist a b)
                                          | _, _ => Err IndexError
                                          end) pairs in
                let! ref := percentile ds percent in
                Ok (Some (mk_matcher aux s (Some ref)))
            end
      | _ => Ok (Some (mk_matcher aux s None))
      end
    end.

  Definition last_distance (l : list (Q * nat)) : res Q :=
    match rev l with [] => Err IndexError | dn :: _ => Ok (fst dn) end.

  (** [_get_reference_distances], lines 37-42, 95-99, 127-138, 156-165. *)
  Definition get_reference_distances (m : matcher) (main : list P) (indices : list nat) : res reference :=
    match m_strategy m with
    | NoRescaling => Ok (Scalar 1)
    | RandomPairs _ _ => match m_ref m with Some q => Ok (Scalar q) | None => Err AttributeError end
    | SelfJoinNeighbor k =>
        let! l := mapM (fun i => match nth_error (m_aux m) i with
                                 | None => Err IndexError
                                 | Some a => let! ns := kneighbors (m_aux m) (k + 1) a in last_distance ns
                                 end) indices in
        Ok (PerRow l)
    | OtherNeighbor k =>
        let! l := mapM (fun x => let! ns := kneighbors (m_aux m) (k + 1) x in last_distance ns) main in
        Ok (PerRow l)
    end.

  Record match_row : Type := mk_match_row {
    r_index : nat; r_distance : Q; r_rescaled : ext; r_accepted : bool
  }.

  (** [match], lines 25-35. *)
  Definition match_ (m : matcher) (main : list P) (max_dist : ext) : res (list match_row) :=
    match main with
    | [] => Err ValueError
    | _ =>
      let! nearest := mapM (fun x => let! ns := kneighbors (m_aux m) 1 x in
                                     match ns with [dn] => Ok dn | _ => Err ValueError end) main in
      let! refs := get_reference_distances m main (map snd nearest) in
      let! rescaled := rescale_distances (map fst nearest) refs in
      Ok (map (fun nr => mk_match_row (snd (fst nr)) (fst (fst nr)) (snd nr) (ext_le (snd nr) max_dist))
            (combine nearest rescaled))
    end.
End Matching.
