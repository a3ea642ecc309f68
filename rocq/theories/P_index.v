(** C132, C133: the rows of outputs are those of the input, in order. *)
From Verif Require Import Base L_dict M_index L_index.
From Coq Require Import Lia.
Open Scope list_scope.
Open Scope nat_scope.

(** Examples: labels and names are numbers, the union of indexes is the longest one. *)
Definition ex_union (l : list (list nat)) : list nat := fold_right (fun a b => if length b <=? length a then a else b) [] l.
Definition ex_x : frame nat nat nat := Frame [7; 7; 3] [(0, [Some 1; None; Some 2]); (1, [Some 4; Some 5; Some 6])].
Lemma ex_union_ranges : forall ns, ex_union (map (range (fun i => i)) ns) = range (fun i => i) (list_max ns).
Proof.
  induction ns as [|n ns IH]; [reflexivity|]. change (ex_union (map (range (fun i => i)) (n :: ns))) with (let b := ex_union (map (range (fun i => i)) ns) in
    if length b <=? length (range (fun i => i) n) then range (fun i => i) n else b).
  cbv zeta. rewrite IH, !range_length. change (list_max (n :: ns)) with (Nat.max n (list_max ns)).
  destruct (list_max ns <=? n) eqn:E; [apply Nat.leb_le in E|apply Nat.leb_gt in E]; f_equal; lia.
Qed.

Section Theorems.
  Context {L K V : Type} {EL : EqD L} {EK : EqD K} (pos : nat -> L) (union : list (list L) -> list L).

  (** Column by column: the values given by the transformers, in order, under the index of the input, whatever indexes the outputs have. *)
  Theorem C132_columns_keep_rows : (forall i j, pos i = pos j -> i = j) -> (forall ns, union (map (range pos) ns) = range pos (list_max ns)) ->
    forall keep outputs (x : frame L K V),
      let cols := flat_map (contributed keep outputs) (f_cols x) in
      NoDup (map fst cols) -> (forall q, In q cols -> length (snd q) = length (f_idx x)) ->
      on_each_column pos union keep outputs x = Ok (Frame (f_idx x) cols).
  Proof. exact (on_each_same pos union). Qed.
  (** A result has the index of the input and as many values as rows in each column, whatever the transformers give, through any number of steps. *)
  Theorem C132_steps_keep_index : forall steps (x f : frame L K V), rectangular x -> each_column_steps pos union steps x = Ok f ->
    f_idx f = f_idx x /\ rectangular f.
  Proof. exact (steps_result pos union). Qed.
  (** Too many values, or too few everywhere: refused. *)
  Theorem C132_other_lengths_refused : (forall i j, pos i = pos j -> i = j) -> (forall ns, union (map (range pos) ns) = range pos (list_max ns)) ->
    forall keep outputs (x : frame L K V),
      let cols := flat_map (contributed keep outputs) (f_cols x) in
      NoDup (map fst cols) -> cols <> [] ->
      ((exists q, In q cols /\ length (f_idx x) < length (snd q)) \/ (forall q, In q cols -> length (snd q) < length (f_idx x))) ->
      on_each_column pos union keep outputs x = Err ValueError.
  Proof. exact (on_each_refused pos union). Qed.
  (** Too few values beside a full column: nulls are added at the end. *)
  Theorem C132_short_outputs_padded : (forall i j, pos i = pos j -> i = j) -> (forall ns, union (map (range pos) ns) = range pos (list_max ns)) ->
    forall keep outputs (x : frame L K V) full,
      let cols := flat_map (contributed keep outputs) (f_cols x) in
      NoDup (map fst cols) -> In full cols -> length (snd full) = length (f_idx x) -> (forall q, In q cols -> length (snd q) <= length (f_idx x)) ->
      on_each_column pos union keep outputs x = Ok (Frame (f_idx x) (padded_cols (length (f_idx x)) cols)).
  Proof. exact (on_each_short pos union). Qed.
  (** Several columns at once: the columns that are not selected, then the output, by position. *)
  Theorem C132_subframe_keeps_rows : (forall i j, pos i = pos j -> i = j) -> (forall ns, union (map (range pos) ns) = range pos (list_max ns)) ->
    forall keep selected (out x : frame L K V), rectangular x -> rectangular out -> selected <> [] ->
      (length (f_idx out) = length (f_idx x) ->
       on_subframe pos union keep selected out x = Ok (Frame (f_idx x) (filter (fun q => keep || negb (mem (fst q) selected)) (f_cols x) ++ f_cols out)))
      /\ (length (f_idx x) < length (f_idx out) -> f_cols out <> [] -> on_subframe pos union keep selected out x = Err ValueError).
  Proof.
    intros PI UR keep selected out x R Ro N. split.
    - intros E. rewrite (on_subframe_lem pos union PI UR keep selected out x R Ro) by (try exact N; rewrite E; apply Nat.le_refl).
      rewrite padded_cols_full by (intros q I; rewrite <- E; exact (Ro q I)). reflexivity.
    - intros LT NC. exact (on_subframe_long pos union PI UR keep selected out x R Ro LT N NC).
  Qed.
  (** Encoders and predictions: the arrays under the index of the input, or an error when the number of rows is another. *)
  Theorem C132_arrays_keep_rows : forall x_idx (arrays : list (K * list (option V))), NoDup (map fst arrays) ->
    ((forall q, In q arrays -> length (snd q) = length x_idx) -> from_arrays pos union x_idx arrays = Ok (Frame x_idx arrays))
    /\ (forall q, In q arrays -> length (snd q) <> length x_idx -> from_arrays pos union x_idx arrays = Err ValueError).
  Proof.
    intros x_idx arrays ND. split; [exact (from_arrays_lem pos union x_idx arrays ND)|]. intros q. exact (from_arrays_bad pos union x_idx arrays q ND).
  Qed.
  (** Features of dates: null exactly where they are null or the date is, under the index of the column. *)
  Theorem C132_dates_keep_rows : (forall i j, pos i = pos j -> i = j) -> (forall ns, union (map (range pos) ns) = range pos (list_max ns)) ->
    forall D (column : series L D) (extracted : list (K * list (option V))) (periodic : list (frame L K V)),
      length (s_idx column) = length (s_vals column) -> NoDup (map fst extracted) ->
      (forall q, In q extracted -> length (snd q) = length (s_vals column)) ->
      (forall g, In g periodic -> rectangular g /\ length (f_idx g) = length (s_vals column)) ->
      datetime_encode pos union column extracted periodic
      = Ok (Frame (s_idx column) (map (fun q => (fst q, masked (s_vals column) (snd q))) (extracted ++ flat_map f_cols periodic))).
  Proof. exact (datetime_lem pos union). Qed.

  (** Joiner: the rows of the main table in order, each with the row it matches, under a new index. *)
  Theorem C133_joiner_keeps_rows : (forall i j, pos i = pos j -> i = j) -> (forall ns, union (map (range pos) ns) = range pos (list_max ns)) ->
    forall (x : frame L K V) key matching row aux info, rectangular x -> f_cols x <> [] ->
      length matching = length (f_idx x) -> (forall q, In q info -> length (snd q) = length (f_idx x)) ->
      NoDup (map fst (f_cols x ++ aux ++ info)) -> ~ In key (map fst (f_cols x ++ aux ++ info)) ->
      joiner pos union x key matching row aux info
      = Ok (Frame (map pos (seq 0 (length (f_idx x)))) (f_cols x ++ map (fun q => (fst q, fetched (length (f_idx x)) row (snd q))) aux ++ info)).
  Proof. exact (joiner_lem pos union). Qed.
  (** Interpolation joins: the rows of the main table in order, with the predictions by position, under its index. *)
  Theorem C133_interpolation_keeps_rows : (forall i j, pos i = pos j -> i = j) -> (forall ns, union (map (range pos) ns) = range pos (list_max ns)) ->
    forall (x : frame L K V) (predictions : list (list (K * list (option V)))), rectangular x ->
      (forall p, In p predictions -> p <> [] /\ NoDup (map fst p) /\ forall q, In q p -> length (snd q) = length (f_idx x)) ->
      interpolation_join pos union x predictions = Ok (Frame (f_idx x) (f_cols x ++ concat predictions)).
  Proof.
    intros PI UR x predictions R A. rewrite (interpolation_lem pos union PI UR x predictions R).
    - rewrite padded_cols_full; [reflexivity|]. intros q I. apply in_concat in I. destruct I as [p [Ip I]]. destruct (A p Ip) as [_ [_ H]]. exact (H q I).
    - intros p I. destruct (A p I) as [N [ND H]]. split; [exact N|]. split; [exact ND|]. exists (length (f_idx x)). split; [apply Nat.le_refl|exact H].
  Qed.
  (** The target goes with the keys of the main table by position, whatever the two indexes are; another number of rows is refused. *)
  Theorem C133_target_by_position : (forall i j, pos i = pos j -> i = j) -> (forall ns, union (map (range pos) ns) = range pos (list_max ns)) ->
    forall (y x : frame L K V) keys key_vals, rectangular y -> rectangular x -> f_cols y <> [] ->
      Forall2 (fun k q => fst q = k /\ dget k (f_cols x) = Some (snd q)) keys key_vals -> NoDup (map fst (f_cols y) ++ keys) ->
      target_with_keys pos union y x keys
      = if length (f_idx y) =? length (f_idx x) then Ok (Frame (map pos (seq 0 (length (f_idx x)))) (f_cols y ++ key_vals)) else Err ValueError.
  Proof.
    intros PI UR y x keys key_vals Ry R NE F ND. destruct (length (f_idx y) =? length (f_idx x)) eqn:E.
    - apply Nat.eqb_eq in E. exact (target_lem pos union PI UR y x keys key_vals Ry R NE E F ND).
    - unfold target_with_keys. rewrite E. reflexivity.
  Qed.
End Theorems.
Print Assumptions C132_columns_keep_rows.
Print Assumptions C132_steps_keep_index.
Print Assumptions C132_other_lengths_refused.
Print Assumptions C132_short_outputs_padded.
Print Assumptions C132_subframe_keeps_rows.
Print Assumptions C132_arrays_keep_rows.
Print Assumptions C132_dates_keep_rows.
Print Assumptions C133_joiner_keeps_rows.
Print Assumptions C133_interpolation_keeps_rows.
Print Assumptions C133_target_by_position.

(** duplicated labels in the input, other labels in the outputs, the original column kept *)
Definition ex_outputs (c : nat) : option (list (nat * series nat nat)) :=
  if c =? 0 then Some [(10, Series [9; 8; 9] [Some 11; Some 12; Some 13]); (11, Series [2; 1; 0] [None; Some 22; Some 23])] else None.
Example ex_columns : on_each_column (fun i => i) ex_union true ex_outputs ex_x
  = Ok (Frame [7; 7; 3] [(0, [Some 1; None; Some 2]); (10, [Some 11; Some 12; Some 13]); (11, [None; Some 22; Some 23]); (1, [Some 4; Some 5; Some 6])]).
Proof. reflexivity. Qed.
Example ex_columns_hyps : let cols := flat_map (contributed true ex_outputs) (f_cols ex_x) in
  NoDup (map fst cols) /\ (forall q, In q cols -> length (snd q) = length (f_idx ex_x)).
Proof.
  simpl. split.
  - repeat constructor; simpl; intuition discriminate.
  - intros q [<-|[<-|[<-|[<-|[]]]]]; reflexivity.
Qed.
Example ex_steps : each_column_steps (fun i => i) ex_union [(true, ex_outputs); (false, fun c => if c =? 10 then Some [(10, Series [] [])] else None)] ex_x
  = Ok (Frame [7; 7; 3] [(0, [Some 1; None; Some 2]); (10, [None; None; None]); (11, [None; Some 22; Some 23]); (1, [Some 4; Some 5; Some 6])]).
Proof. reflexivity. Qed.
Example ex_refused : on_each_column (fun i => i) ex_union false (fun c => if c =? 0 then Some [(10, Series [0; 1; 2; 3] [None; None; None; None])] else None) ex_x = Err ValueError
  /\ on_each_column (fun i => i) ex_union false (fun c => Some [(c, Series [7; 3] [None; Some 2])]) ex_x = Err ValueError.
Proof. split; reflexivity. Qed.
Example ex_subframe : on_subframe (fun i => i) ex_union false [1] (Frame [3; 2; 1] [(5, [Some 1; Some 2; Some 3])]) ex_x
  = Ok (Frame [7; 7; 3] [(0, [Some 1; None; Some 2]); (5, [Some 1; Some 2; Some 3])])
  /\ on_subframe (fun i => i) ex_union false [1] (Frame [3; 2; 1; 0] [(5, [Some 1; Some 2; Some 3; None])]) ex_x = Err ValueError.
Proof. split; reflexivity. Qed.
Example ex_arrays : from_arrays (fun i => i) ex_union [7; 7] [(0, [Some 1; Some 2]); (1, [None; Some 4])] = Ok (Frame [7; 7] [(0, [Some 1; Some 2]); (1, [None; Some 4])])
  /\ from_arrays (fun i => i) ex_union [7; 7] [(0, [Some 1]); (1, [None; Some 4])] = Err ValueError
  /\ from_arrays (fun i => i) ex_union [7; 7] [(0, [Some 1])] = Err ValueError.
Proof. repeat split; reflexivity. Qed.
Example ex_dates : datetime_encode (fun i => i) ex_union (Series [7; 7; 3] [Some true; None; Some false]) [(0, [Some 1; Some 2; Some 3])] [Frame [7; 7; 3] [(1, [Some 4; Some 5; Some 6])]]
  = Ok (Frame [7; 7; 3] [(0, [Some 1; None; Some 3]); (1, [Some 4; None; Some 6])]).
Proof. reflexivity. Qed.
Example ex_joiner : joiner (fun i => i) ex_union ex_x 99 [Some 1; None; Some 0] (fun i => nth i [Some 1; None; Some 0] None) [(5, [Some 50; Some 51])] [(6, [Some 60; Some 61; Some 62])]
  = Ok (Frame [0; 1; 2] [(0, [Some 1; None; Some 2]); (1, [Some 4; Some 5; Some 6]); (5, [Some 51; None; Some 50]); (6, [Some 60; Some 61; Some 62])]).
Proof. reflexivity. Qed.
Example ex_interpolation : interpolation_join (fun i => i) ex_union ex_x [[(5, [Some 1; Some 2; Some 3])]; [(6, [None; None; Some 3]); (7, [Some 0; Some 0; Some 0])]]
  = Ok (Frame [7; 7; 3] (f_cols ex_x ++ [(5, [Some 1; Some 2; Some 3]); (6, [None; None; Some 3]); (7, [Some 0; Some 0; Some 0])])).
Proof. reflexivity. Qed.
Example ex_target : target_with_keys (fun i => i) ex_union (Frame [3; 7; 7] [(9, [Some 90; Some 91; Some 92])]) ex_x [1]
  = Ok (Frame [0; 1; 2] [(9, [Some 90; Some 91; Some 92]); (1, [Some 4; Some 5; Some 6])]).
Proof. reflexivity. Qed.

(** A transformer that loses rows is not always noticed: nulls take their place, in the last rows whichever were lost. *)
Theorem C132_lost_rows_refused_refuted : exists keep outputs (x f : frame nat nat nat) lost,
  outputs 0 = Some [lost] /\ length (s_vals (snd lost)) < length (f_idx x) /\
  on_each_column (fun i => i) ex_union keep outputs x = Ok f /\
  (* the value of the row [3] ends up in the second row [7] *)
  s_idx (snd lost) = [7; 3] /\ s_vals (snd lost) = [Some 1; Some 2] /\ f = Frame [7; 8; 3] [(0, [Some 1; Some 2; None]); (1, [Some 4; Some 5; Some 6])].
Proof.
  exists false, (fun c => if c =? 0 then Some [(0, Series [7; 3] [Some 1; Some 2])] else None), (Frame [7; 8; 3] [(0, [Some 1; None; Some 2]); (1, [Some 4; Some 5; Some 6])]).
  eexists. exists (0, Series [7; 3] [Some 1; Some 2]). repeat split. simpl. lia.
Qed.
Print Assumptions C132_lost_rows_refused_refuted.
(** The same table of outputs is refused by the step that handles the columns together only when it has too many rows. *)
Theorem C132_lost_rows_subframe_refuted : exists selected (out x f : frame nat nat nat),
  length (f_idx out) < length (f_idx x) /\ on_subframe (fun i => i) ex_union false selected out x = Ok f /\
  f = Frame [7; 8] [(0, [Some 1; Some 2]); (5, [Some 9; None])] /\ out = Frame [8] [(5, [Some 9])].
Proof.
  exists [1], (Frame [8] [(5, [Some 9])]), (Frame [7; 8] [(0, [Some 1; Some 2]); (1, [Some 3; Some 4])]). eexists. repeat split. simpl. lia.
Qed.
Print Assumptions C132_lost_rows_subframe_refuted.
(** Joins by matching or by key do not keep the index of the main table. *)
Theorem C133_index_kept_refuted : exists (x f : frame nat nat nat) matching row aux,
  joiner (fun i => i) ex_union x 99 matching row aux [] = Ok f /\ f_idx f <> f_idx x /\ f_cols f = f_cols x ++ [(5, [Some 51; None; Some 50])]
  /\ f_idx (left_join (fun i => i) x row aux) <> f_idx x.
Proof.
  exists ex_x. eexists. exists [Some 1; None; Some 0], (fun i => nth i [Some 1; None; Some 0] None), [(5, [Some 50; Some 51])].
  split; [reflexivity|]. split; [discriminate|]. split; [reflexivity|discriminate].
Qed.
Print Assumptions C133_index_kept_refuted.
