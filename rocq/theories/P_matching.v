(** Properties of fuzzy matching (C21). *)
From Verif Require Import Base L_tablevec3 M_matching L_matching.
From Coq Require Import QArith Qabs Qround Permutation Sorted.
Open Scope list_scope.
Open Scope nat_scope.

(** The match of each row is a nearest row; its distance is compared to [max_dist] after a division
    by the reference distance of the strategy. *)
Theorem C21_match : forall {P : Type} (dist : P -> P -> Q) order, is_order dist order ->
  forall s draws aux m main max_dist,
  fit dist s draws aux = Ok (Some m) -> main <> [] ->
  match s with
  | NoRescaling => True
  | RandomPairs percent n => forall q, m_ref m = Some q -> ~ (q == 0)%Q
  | SelfJoinNeighbor k | OtherNeighbor k => k < length aux
  end ->
  exists rows, match_ dist order m main max_dist = Ok rows /\
    Forall2 (fun x r =>
      Nearest dist aux x (r_index r) (r_distance r) /\
      exists ref,
        match s with
        | NoRescaling => ref = 1%Q
        | RandomPairs percent n => exists ds, length ds = n /\ SampledDistances dist aux ds /\ percentile ds percent = Ok ref
        | SelfJoinNeighbor k => exists a, nth_error aux (r_index r) = Some a /\ KthDistance dist aux a k ref
        | OtherNeighbor k => KthDistance dist aux x k ref
        end /\
        RescaledTo (r_distance r) ref (r_rescaled r) /\
        (r_accepted r = true <-> Within (r_rescaled r) max_dist)) main rows.
Proof. intros. eapply fit_match; eassumption. Qed.
Print Assumptions C21_match.

(** Exact matches are accepted as soon as [max_dist] is not negative. *)
Theorem C21_exact_accepted : forall d ref r max_dist,
  (d == 0)%Q -> RescaledTo d ref r -> Within (Fin 0) max_dist -> Within r max_dist.
Proof. exact exact_accepted. Qed.
Print Assumptions C21_exact_accepted.

(** Every match is accepted for an infinite [max_dist]. *)
Theorem C21_inf_accepts_all : forall r, Within r Inf.
Proof. exact inf_accepts. Qed.
Print Assumptions C21_inf_accepts_all.

(** Increasing [max_dist] changes neither the matches nor the distances, and removes no match. *)
Theorem C21_monotone : forall {P : Type} (dist : P -> P -> Q) order m d1 d2 main rows1 rows2,
  match_ dist order m main d1 = Ok rows1 -> match_ dist order m main d2 = Ok rows2 ->
  Within d1 d2 ->
  Forall2 (fun r1 r2 => r_index r2 = r_index r1 /\ r_distance r2 = r_distance r1 /\ r_rescaled r2 = r_rescaled r1 /\
                        (r_accepted r1 = true -> r_accepted r2 = true)) rows1 rows2.
Proof. intros P dist order m d1 d2 main rows1 rows2. exact (RowMatched_mono dist order m d1 d2 main rows1 rows2). Qed.
Print Assumptions C21_monotone.

(** With random pairs, the reference lies between the two values of the sorted sample around its percentile. *)
Theorem C21_percentile : forall l p q, percentile l p = Ok q ->
  exists i, i < length l /\ StronglySorted Qle (qsort l) /\ Permutation (qsort l) l /\
    (nth i (qsort l) 0 <= q)%Q /\ (q <= nth (Nat.min (S i) (length l - 1)) (qsort l) 0)%Q /\
    (inject_Z (Z.of_nat i) <= inject_Z (Z.of_nat (length l - 1)) * (p / 100))%Q /\
    (inject_Z (Z.of_nat (length l - 1)) * (p / 100) < inject_Z (Z.of_nat (S i)))%Q.
Proof. exact percentile_spec. Qed.
Print Assumptions C21_percentile.

(** With random pairs (the default), a null reference makes the join fail, even for exact matches. *)
Theorem C21_null_reference_fails : forall {P : Type} (dist : P -> P -> Q) order, is_order dist order ->
  forall percent n draws aux m main max_dist,
  fit dist (RandomPairs percent n) draws aux = Ok (Some m) -> main <> [] ->
  (forall a b, In a aux -> In b aux -> (dist a b == 0)%Q) ->
  match_ dist order m main max_dist = Err ValueError.
Proof. intros. eapply zero_reference; eassumption. Qed.
Print Assumptions C21_null_reference_fails.

(** ** Examples *)
Definition ex_dist (a b : Q) : Q := Qabs (a - b).
Definition ex_order := by_distance ex_dist.
Definition ex_aux : list Q := [0; 10; 14]%Q.
Definition ex_main : list Q := [10; 2; 12]%Q.
Definition ex_show (r : res (list match_row)) : res (list (nat * bool)) :=
  let! l := r in Ok (map (fun x => (r_index x, r_accepted x)) l).
Definition ex_run (s : strategy) draws aux main max_dist :=
  let! om := fit ex_dist s draws aux in
  match om with None => Err RuntimeError | Some m => match_ ex_dist ex_order m main max_dist end.

Example ex_order_ok : is_order ex_dist ex_order.
Proof. apply by_distance_ok. Qed.
Example ex_random_pairs :
  ex_show (ex_run (RandomPairs 50 2) [[(0, 0); (0, 1)]; [(1, 2); (0, 2)]]%nat ex_aux ex_main (Fin (1 # 4))) =
  Ok [(1, true); (0, false); (1, false)]%nat
  /\ ex_show (ex_run (RandomPairs 50 2) [[(0, 0); (0, 1)]; [(1, 2); (0, 2)]]%nat ex_aux ex_main (Fin (1 # 2))) =
  Ok [(1, true); (0, true); (1, true)]%nat.
Proof. split; vm_compute; reflexivity. Qed.
Example ex_other_neighbor :
  ex_show (ex_run (OtherNeighbor 1) [] ex_aux ex_main (Fin (1 # 4))) = Ok [(1, true); (0, true); (1, false)]%nat.
Proof. vm_compute. reflexivity. Qed.
Example ex_self_join :
  ex_show (ex_run (SelfJoinNeighbor 1) [] ex_aux ex_main (Fin (1 # 4))) = Ok [(1, true); (0, true); (1, false)]%nat.
Proof. vm_compute. reflexivity. Qed.
(** a null reference for some rows *)
Example ex_self_join_zero :
  ex_show (ex_run (SelfJoinNeighbor 1) [] [5; 5; 9]%Q [5; 6; 9]%Q (Fin 100)) = Ok [(0, true); (0, false); (2, true)]%nat
  /\ ex_show (ex_run (SelfJoinNeighbor 1) [] [5; 5; 9]%Q [5; 6; 9]%Q Inf) = Ok [(0, true); (0, true); (2, true)]%nat.
Proof. split; vm_compute; reflexivity. Qed.

(** The acceptance rule fails for random pairs: two identical auxiliary rows and an exact match. *)
Theorem C21_exact_matches_refuted : exists draws aux m main,
  fit ex_dist (RandomPairs 25 2) draws aux = Ok (Some m) /\ length main = 2 /\
  (forall x, In x main -> exists a, In a aux /\ (ex_dist x a == 0)%Q) /\
  match_ ex_dist ex_order m main Inf = Err ValueError.
Proof.
  exists [[(0, 1); (1, 0)]]%nat, [5; 5]%Q. eexists. exists [5; 5]%Q.
  split; [vm_compute; reflexivity|]. split; [reflexivity|]. split.
  - intros x I. exists 5%Q. split; [left; reflexivity|]. destruct I as [<-|[<-|[]]]; reflexivity.
  - vm_compute. reflexivity.
Qed.
Print Assumptions C21_exact_matches_refuted.
