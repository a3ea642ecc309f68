(** C130: the sample table of a report is a full grid in which every cell stands at its place. *)
From Verif Require Import Base M_sampletable L_sampletable M_tablegrid L_tablegrid.
From Coq Require Import ZArith Lia Sorted.
Open Scope list_scope.
Open Scope nat_scope.

Theorem C130_grid : forall (V D : Type) (eqv : V -> V -> bool),
  (forall a b, eqv a b = true -> eqv b a = true) -> (forall a b c, eqv a b = true -> eqv b c = true -> eqv a c = true) ->
  forall (f : @frame V D) top bottom, WF f -> col_items f <> [] ->
  let sh := Shown (length (data f)) top bottom in
  exists t, make_table eqv f (Z.of_nat top) (Z.of_nat bottom) = Ok t /\
    start_i t = (- Z.of_nat (col_levels f) - 1)%Z /\ stop_i t = Z.of_nat (length sh) /\ start_j t = (- Z.of_nat (idx_levels f))%Z /\ stop_j t = Z.of_nat (length (col_items f)) /\
    (forall k l, k < S (col_levels f) + length sh -> l < idx_levels f + length (col_items f) ->
       exists c, filter (covers (start_i t + Z.of_nat k) (start_j t + Z.of_nat l)) (cells t) = [c] /\ Right eqv f sh k l c) /\
    (forall i j, ~ (start_i t <= i < stop_i t /\ start_j t <= j < stop_j t)%Z -> filter (covers i j) (cells t) = []) /\
    length (trs t) = S (col_levels f) + length sh /\
    (forall k row, nth_error (trs t) k = Some row -> (forall c, In c row -> ci c = (start_i t + Z.of_nat k)%Z) /\ StronglySorted (fun a b => (cj a < cj b)%Z) row).
Proof. exact @grid_ok. Qed.
Theorem C130_polars : forall (V D : Type) (names : list V) (rows : list (list D)) top bottom, Forall (fun r => length r = length names) rows ->
  let sh := Shown (length rows) top bottom in
  let t := make_table_polars names rows (Z.of_nat top) (Z.of_nat bottom) in
  start_i t = (-1)%Z /\ stop_i t = Z.of_nat (length sh) /\ start_j t = 0%Z /\ stop_j t = Z.of_nat (length names) /\
  (forall k j, k < S (length sh) -> j < length names -> exists c, filter (covers (start_i t + Z.of_nat k) (Z.of_nat j)) (cells t) = [c] /\ RightPolars names rows sh k j c) /\
  (forall i j, ~ (start_i t <= i < stop_i t /\ start_j t <= j < stop_j t)%Z -> filter (covers i j) (cells t) = []) /\
  length (trs t) = S (length sh) /\
  (forall k row, nth_error (trs t) k = Some row -> (forall c, In c row -> ci c = (start_i t + Z.of_nat k)%Z) /\ StronglySorted (fun a b => (cj a < cj b)%Z) row).
Proof. exact @polars_ok. Qed.
Theorem C130_no_columns : forall (V D : Type) (eqv : V -> V -> bool),
  (forall a b, eqv a b = true -> eqv b a = true) -> (forall a b c, eqv a b = true -> eqv b c = true -> eqv a c = true) ->
  forall (f : @frame V D) top bottom, WF f -> col_items f = [] ->
  ((Named (col_names f) /\ Named (idx_names f)) -> make_table eqv f (Z.of_nat top) (Z.of_nat bottom) = Err IndexError) /\
  (~ (Named (col_names f) /\ Named (idx_names f)) -> exists t, make_table eqv f (Z.of_nat top) (Z.of_nat bottom) = Ok t).
Proof. exact @no_columns. Qed.

(** two levels of columns and of rows, all named; 9 stands for NaN *)
Definition nan_eq (a b : nat) : bool := (a =? b) && negb (a =? 9).
Definition framed (cn inn : list (option nat)) : @frame nat nat :=
  {| col_levels := 2; col_items := [[1; 5]; [1; 6]; [2; 5]]; col_names := cn;
     idx_levels := 2; idx_items := [[1; 1]; [1; 2]; [1; 3]; [9; 3]]; idx_names := inn;
     data := [[10; 11; 12]; [20; 21; 22]; [30; 31; 32]; [40; 41; 42]] |}.
Definition full : @frame nat nat := framed [Some 100; Some 101] [None; Some 103].
(** no columns left, but a name for their axis and for the index, as after a cross-tabulation *)
Definition emptied : @frame nat nat :=
  {| col_levels := 1; col_items := []; col_names := [Some 7]; idx_levels := 1; idx_items := [[1]; [2]]; idx_names := [Some 8]; data := [[]; []] |}.
(** any dataframe has a sample table: false *)
Theorem C130_any_frame_refuted : exists f : @frame nat nat, WF f /\ make_table Nat.eqb f 5 5 = Err IndexError.
Proof. exists emptied. split; [constructor; cbn; try lia; repeat constructor|reflexivity]. Qed.

Print Assumptions C130_grid.
Print Assumptions C130_polars.
Print Assumptions C130_no_columns.
Print Assumptions C130_any_frame_refuted.

Lemma framed_wf : forall cn inn, length cn = 2 -> length inn = 2 -> WF (framed cn inn).
Proof. intros cn inn A B. constructor; cbn; try lia; try assumption; repeat constructor. Qed.
Example ex_C130_grid : WF full /\ col_items full <> [] /\
  (forall a b, nan_eq a b = true -> nan_eq b a = true) /\ (forall a b c, nan_eq a b = true -> nan_eq b c = true -> nan_eq a c = true) /\
  Shown (length (data full)) 2 1 = [0; 1; 3] /\
  exists t, make_table nan_eq full 2 1 = Ok t /\ length (cells t) = 5 + 4 + 5 + 9 /\ map (@length _) (trs t) = [3; 4; 2; 5; 4; 5].
Proof.
  split; [apply framed_wf; reflexivity|]. split; [discriminate|]. unfold nan_eq. split; [|split].
  - intros a b E. apply andb_true_iff in E. destruct E as [E N]. apply Nat.eqb_eq in E. subst b. rewrite Nat.eqb_refl. exact N.
  - intros a b c E E'. apply andb_true_iff in E. destruct E as [E N]. apply Nat.eqb_eq in E. subst b. exact E'.
  - split; [reflexivity|]. eexists. split; [vm_compute; reflexivity|]. split; reflexivity.
Qed.
Example ex_C130_grid_unnamed : forall cn inn, (cn, inn) = ([None; None], [Some 8; None]) \/ (cn, inn) = ([None; Some 7], [None; None]) \/ (cn, inn) = ([None; None], [None; None]) ->
  WF (framed cn inn) /\ exists t, make_table nan_eq (framed cn inn) 5 5 = Ok t.
Proof.
  intros cn inn H. split; [apply framed_wf; destruct H as [H|[H|H]]; injection H as -> ->; reflexivity|].
  destruct H as [H|[H|H]]; injection H as -> ->; eexists; vm_compute; reflexivity.
Qed.
Example ex_C130_polars : Forall (fun r : list nat => length r = length [1; 2]) [[10; 11]; [20; 21]; [30; 31]] /\ Shown 3 1 1 = [0; 2] /\
  length (cells (make_table_polars [1; 2] [[10; 11]; [20; 21]; [30; 31]] 1 1)) = 6.
Proof. split; [repeat constructor|]. split; reflexivity. Qed.
Example ex_C130_no_columns : WF emptied /\ col_items emptied = [] /\ Named (col_names emptied) /\ Named (idx_names emptied).
Proof. split; [constructor; cbn; try lia; repeat constructor|]. split; [reflexivity|]. split; eexists; left; reflexivity. Qed.
