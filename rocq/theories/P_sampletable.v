(** C41, C42: the headers and the rows of the sample table of a report. *)
From Verif Require Import Base M_sampletable L_sampletable.
Open Scope list_scope.
Open Scope nat_scope.

(** At each level the headers tile the table, each of them spanning consecutive items equal to its value; the innermost
    level has one header per item; and two items are under the same header of another level exactly when all items from
    one to the other are equal at this level and at all those above. *)
Theorem C41_headers :
  forall (V : Type) (eqv : V -> V -> bool) n_levels, n_levels > 0 ->
  (forall a b, eqv a b = true -> eqv b a = true) -> (forall a b c, eqv a b = true -> eqv b c = true -> eqv a c = true) ->
  forall items, Forall (fun it => length it = n_levels) items ->
  exists rows, vertical_headers eqv n_levels items = Ok rows /\ length rows = length items /\ Forall (fun r => length r = n_levels) rows /\
    (forall l, l < n_levels -> Tiled eqv items rows l) /\ Innermost n_levels items rows /\
    forall l p q, l < n_levels -> p < q -> q < length items ->
      (SameHeader rows l p q <-> S l < n_levels /\ forall r, p < r <= q -> forall l', l' <= l -> EqAt eqv items p r l').
Proof. intros. apply vertical_spec; assumption. Qed.
Print Assumptions C41_headers.

(** 9 stands for NaN. *)
Definition C41_eq (a b : nat) : bool := (a =? b) && negb (a =? 9).
Definition C41_items : list (list nat) := [[1; 1; 1]; [1; 1; 1]; [1; 2; 5]; [2; 2; 5]; [2; 2; 6]; [9; 2; 6]; [9; 2; 6]].
Example C41_headers_ex :
  (forall a b, C41_eq a b = true -> C41_eq b a = true) /\ (forall a b c, C41_eq a b = true -> C41_eq b c = true -> C41_eq a c = true) /\
  Forall (fun it => length it = 3) C41_items /\
  vertical_headers C41_eq 3 C41_items =
    Ok [[Some (mk_th 1 3); Some (mk_th 1 2); Some (mk_th 1 1)];
        [None; None; Some (mk_th 1 1)];
        [None; Some (mk_th 2 1); Some (mk_th 5 1)];
        [Some (mk_th 2 2); Some (mk_th 2 2); Some (mk_th 5 1)];
        [None; None; Some (mk_th 6 1)];
        [Some (mk_th 9 1); Some (mk_th 2 1); Some (mk_th 6 1)];
        [Some (mk_th 9 1); Some (mk_th 2 1); Some (mk_th 6 1)]].
Proof.
  unfold C41_eq. split; [|split; [|split]].
  - intros a b E. apply andb_true_iff in E. destruct E as [E N]. apply Nat.eqb_eq in E. subst b. rewrite Nat.eqb_refl. exact N.
  - intros a b c E E'. apply andb_true_iff in E. destruct E as [E N]. apply Nat.eqb_eq in E. subst b. exact E'.
  - repeat constructor.
  - vm_compute. reflexivity.
Qed.

(** Hence the spans of a level sum to the number of items. *)
Theorem C41_spans : forall (V : Type) (eqv : V -> V -> bool) items rows l, Tiled eqv items rows l ->
  exists col, Column rows l col /\ list_sum (map span_of col) = length items.
Proof. exact @tiled_sum. Qed.
Print Assumptions C41_spans.
Example C41_spans_ex : list_sum (map span_of [Some (mk_th 1 3); None; None; Some (mk_th 2 2); None; Some (mk_th 9 1); Some (mk_th 9 1)]) = length C41_items.
Proof. reflexivity. Qed.

(** The horizontal headers are the same ones, transposed. *)
Theorem C41_horizontal :
  forall (V : Type) (eqv : V -> V -> bool) n_levels items rows, n_levels > 0 -> items <> [] -> Forall (fun it => length it = n_levels) items ->
  vertical_headers eqv n_levels items = Ok rows -> length rows = length items -> Forall (fun r => length r = n_levels) rows ->
  exists cols, horizontal_headers eqv n_levels items = Ok cols /\ length cols = n_levels /\ Forall (fun c => length c = length items) cols /\
    forall l p x, Entry cols l p x <-> Entry rows p l x.
Proof. exact @horizontal_spec. Qed.
Print Assumptions C41_horizontal.
Example C41_horizontal_ex :
  horizontal_headers C41_eq 2 [[1; 1]; [1; 2]; [2; 2]] =
    Ok [[Some (mk_th 1 2); None; Some (mk_th 2 1)]; [Some (mk_th 1 1); Some (mk_th 2 1); Some (mk_th 2 1)]].
Proof. vm_compute. reflexivity. Qed.

(** All rows are shown when they fit; otherwise the first ceil(n/2) and the last floor(n/2), with an ellipsis in
    place of the others, of which there is at least one. *)
Theorem C42_rows : forall (A : Type) (rows : list A) n_rows, let m := Z.to_nat (Z.max 1 n_rows) in
  if length rows <=? m
  then report_slices rows n_rows = [PRows rows 0%Z]
  else exists top hidden bottom, rows = top ++ hidden ++ bottom /\ hidden <> [] /\ length top = m - m / 2 /\ length bottom = m / 2 /\
         report_slices rows n_rows = PRows top 0%Z :: PEllipsis :: match bottom with [] => [] | _ => [PRows bottom (Z.of_nat (length top))] end.
Proof. exact @report_slices_spec. Qed.
Print Assumptions C42_rows.
Example C42_rows_ex :
  report_slices [1; 2; 3; 4; 5] 3%Z = [PRows [1; 2] 0%Z; PEllipsis; PRows [5] 2%Z] /\
  report_slices [1; 2; 3; 4; 5] 5%Z = [PRows [1; 2; 3; 4; 5] 0%Z] /\
  report_slices [1; 2; 3; 4; 5] (-4)%Z = [PRows [1] 0%Z; PEllipsis].
Proof. repeat split. Qed.
