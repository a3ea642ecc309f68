(** The sample table of a report, /repo/skrub/_reporting/_sample_table.py. *)
From Verif Require Import Base.
Open Scope list_scope.
Open Scope nat_scope.

Section Headers.
  Context {V : Type}.
  (** Python's [==] on index values (not reflexive for NaN). *)
  Variable eqv : V -> V -> bool.

  (** A table header (th): its value and its "span". *)
  Record th : Type := mk_th { th_value : V; th_span : nat }.

  (** [_LevelCounter], lines 194-234. The headers it has returned, the last one first (they are shared with the
      table, and modified); whether [current_th] is not None (it then is the last one). *)
  Record counter : Type := mk_counter { opened : list th; current : bool }.
  Definition new_counter : counter := mk_counter [] false.
  Definition start_new_th (c : counter) : counter := mk_counter (opened c) false.
  (** 222-234. A header is returned by its position among the headers of its level. *)
  Definition get_th (v : V) (c : counter) : counter * option nat :=
    let fresh := (mk_counter (mk_th v 1 :: opened c) true, Some (length (opened c))) in
    match opened c with
    | t :: rest =>
        if current c && eqv (th_value t) v
        then (mk_counter (mk_th (th_value t) (S (th_span t)) :: rest) true, None)
        else fresh
    | [] => fresh
    end.

  (** The inner loop, 276-286. *)
  Fixpoint get_ths (cs : list counter) (item : list V) : res (list counter * list (option nat)) :=
    match cs with
    | [] => Ok ([], [])
    | c :: cs' =>
        match item with
        | [] => Err IndexError
        | v :: item' =>
            let (c', cell) := get_th v c in
            let children := match cell with Some _ => map start_new_th cs' | None => cs' end in
            let! out := get_ths children item' in
            Ok (c' :: fst out, cell :: snd out)
        end
    end.
  (** [counters[-1].start_new_th()], 275. *)
  Fixpoint start_last (cs : list counter) : res (list counter) :=
    match cs with
    | [] => Err IndexError
    | [c] => Ok [start_new_th c]
    | c :: cs' => let! out := start_last cs' in Ok (c :: out)
    end.
  (** The outer loop, 269-286. *)
  Fixpoint header_rows (cs : list counter) (items : list (list V)) : res (list counter * list (list (option nat))) :=
    match items with
    | [] => Ok (cs, [])
    | item :: items' =>
        let! cs1 := start_last cs in
        let! out := get_ths cs1 item in
        let! rest := header_rows (fst out) items' in
        Ok (fst rest, snd out :: snd rest)
    end.
  (** The headers in the rows once all spans have been counted. *)
  Definition deref (c : counter) (cell : option nat) : option th :=
    match cell with None => None | Some k => nth_error (rev (opened c)) k end.
  Definition deref_row (cs : list counter) (row : list (option nat)) : list (option th) :=
    map (fun q => deref (fst q) (snd q)) (combine cs row).
  (** [_multi_index_table_headers], 246-294, with "vertical"; [n_levels = len(idx.levels)]. *)
  Definition vertical_headers (n_levels : nat) (items : list (list V)) : res (list (list (option th))) :=
    let! out := header_rows (repeat new_counter n_levels) items in
    Ok (map (deref_row (fst out)) (snd out)).
  (** [zip] of the rows, 288-289: with "horizontal". *)
  Fixpoint zip_rows {A} (rows : list (list A)) : list (list A) :=
    match rows with
    | [] => []
    | [r] => map (fun x => [x]) r
    | r :: rest => map (fun q => fst q :: snd q) (combine r (zip_rows rest))
    end.
  Definition horizontal_headers (n_levels : nat) (items : list (list V)) : res (list (list (option th))) :=
    let! rows := vertical_headers n_levels items in Ok (zip_rows rows).
End Headers.
Arguments th : clear implicits.
Arguments counter : clear implicits.

(** [TableReport.__init__], /repo/skrub/_reporting/_table_report.py:131-136: the sizes of the slices; Python's [//]
    rounds down. *)
Definition report_sizes (n_rows : Z) : Z * Z :=
  let n := Z.max 1 n_rows in (- (n / -2), n / 2)%Z.
(** [_pick_slice_sizes], _sample_table.py:105-117. *)
Definition pick_slice_sizes (n : nat) (top bottom : Z) : Z * Z * bool :=
  if (Z.of_nat n <=? top + bottom)%Z then (Z.of_nat n, 0%Z, false) else (top, bottom, true).

(** Python slices [l[:k]] and [l[k:]]. *)
Definition py_index (n : nat) (k : Z) : nat := Z.to_nat (if (k <? 0)%Z then Z.max 0 (Z.of_nat n + k) else Z.min (Z.of_nat n) k).
Definition slice_to {A} (l : list A) (k : Z) : list A := firstn (py_index (length l) k) l.
Definition slice_from {A} (l : list A) (k : Z) : list A := skipn (py_index (length l) k) l.

(** The parts of the body, [add_df_slices], 161-170 and 479-489: rows or an ellipsis. *)
Inductive part (A : Type) : Type := PRows (rows : list A) (start_i : Z) | PEllipsis.
Arguments PRows {A}.
Arguments PEllipsis {A}.
Definition df_slices {A} (rows : list A) (max_top max_bottom : Z) : list (part A) :=
  match pick_slice_sizes (length rows) max_top max_bottom with
  | (top, bottom, elided) =>
      [PRows (slice_to rows top) 0%Z] ++
      (if elided then [PEllipsis] else []) ++
      (if (bottom =? 0)%Z then [] else [PRows (slice_from rows (- bottom)) top])
  end.
Definition report_slices {A} (rows : list A) (n_rows : Z) : list (part A) :=
  df_slices rows (fst (report_sizes n_rows)) (snd (report_sizes n_rows)).
