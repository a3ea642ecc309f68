(** Rows and indexes of pandas dataframes: how skrub builds its outputs, /repo/skrub/_dataframe/_common.py and the transformers that use it.
    The names of the columns are those given: their choice is modelled in [M_names] and [M_columns]. *)
From Verif Require Import Base.
Open Scope list_scope.
Open Scope nat_scope.

(** values with the labels of their rows; [None]: null *)
Record series {L W : Type} := Series { s_idx : list L; s_vals : list (option W) }.
Arguments series : clear implicits.
Arguments Series {L W}.
(** what a dict given to [pd.DataFrame] holds: a series or an array *)
Inductive datum {L W : Type} := Ser (s : series L W) | Arr (v : list (option W)).
Arguments datum : clear implicits.
Arguments Ser {L W}.
Arguments Arr {L W}.
Record frame {L K W : Type} := Frame { f_idx : list L; f_cols : list (K * list (option W)) }.
Arguments frame : clear implicits.
Arguments Frame {L K W}.

Section Index.
  Context {L K V : Type} {EL : EqD L} {EK : EqD K}.
  Notation values := (list (option V)).
  (** the labels 0, 1, ... of a [RangeIndex] *)
  Variable pos : nat -> L.
  Definition range (n : nat) : list L := map pos (seq 0 n).
  (** pandas: the union of indexes that are not all the same *)
  Variable union : list (list L) -> list L.

  (** pandas: the index of a combination *)
  Definition joined (idxs : list (list L)) : list L :=
    match idxs with [] => [] | i :: rest => if forallb (fun j => eqb_of i j) rest then i else union idxs end.
  Fixpoint has_dup (l : list L) : bool := match l with [] => false | x :: l' => mem x l' || has_dup l' end.
  Fixpoint look {W : Type} (l : L) (idx : list L) (v : list (option W)) : option W :=
    match idx, v with i :: idx', x :: v' => if eqb_of l i then x else look l idx' v' | _, _ => None end.
  (** pandas: [reindex]; the values for labels that are missing are null; refused with duplicated labels unless the indexes are the same *)
  Definition reindex {W : Type} (index : list L) (s : series L W) : res (list (option W)) :=
    if eqb_of (s_idx s) index then Ok (s_vals s)
    else if has_dup (s_idx s) then Err ValueError
    else Ok (map (fun l => look l (s_idx s) (s_vals s)) index).

  (** pandas: the index of [pd.DataFrame(dict)]: that of the series, else one label per value of the arrays *)
  Definition dict_index (d : list (K * datum L V)) : list L :=
    match flat_map (fun q => match snd q with Ser s => [s_idx s] | Arr _ => [] end) d with
    | [] => match d with (_, Arr v) :: _ => range (length v) | _ => [] end
    | idxs => joined idxs
    end.
  (** pandas: [pd.DataFrame(dict)] *)
  Definition dataframe (d : list (K * datum L V)) : res (frame L K V) :=
    let index := dict_index d in
    let! cols := mapM (fun q => match snd q with
                                | Ser s => let! v := reindex index s in Ok (fst q, v)
                                | Arr w => if length w =? length index then Ok (fst q, w) else Err ValueError
                                end) d in
    Ok (Frame index cols).

  (** [_reset_index_pandas], _common.py 490-503: no effect on arrays *)
  Definition reset (x : datum L V) : datum L V := match x with Ser s => Ser (Series (range (length (s_vals s))) (s_vals s)) | Arr v => Arr v end.
  (** [_make_dataframe_like_pandas], 256-260: the dict of the columns; a name that comes again replaces the column *)
  Definition make_dataframe_like (d : list (K * datum L V)) : res (frame L K V) :=
    dataframe (fold_left (fun acc q => dset (fst q) (reset (snd q)) acc) d []).
  (** [_set_index_pandas], [copy_index], 506-526: pandas checks the length, except when there are no columns *)
  Definition set_index (f : frame L K V) (index : list L) : res (frame L K V) :=
    match f_cols f with
    | [] => Ok (Frame index [])
    | _ => if length index =? length (f_idx f) then Ok (Frame index (f_cols f)) else Err ValueError
    end.
  (** [_col_by_idx_pandas], 375-391 *)
  Definition columns (f : frame L K V) : list (K * series L V) := map (fun q => (fst q, Series (f_idx f) (snd q))) (f_cols f).
  (** [df.reset_index(drop=True)] *)
  Definition reset_frame (f : frame L K V) : frame L K V := Frame (range (length (f_idx f))) (f_cols f).
  (** [_concat_horizontal_pandas], 332-340 *)
  Definition concat_horizontal (f : frame L K V) (others : list (frame L K V)) : res (frame L K V) :=
    let fs := map reset_frame (f :: others) in
    let index := joined (map f_idx fs) in
    let! cols := mapM (fun q => let! v := reindex index (snd q) in Ok (fst q, v)) (flat_map columns fs) in
    set_index (Frame index cols) (f_idx f).
  (** [_where_row_pandas], 1207-1209: [Series.where] aligns the mask and the other values with each column; where there is no mask, the other value *)
  Definition where_row (f : frame L K V) (mask : series L bool) (other : series L V) : res (frame L K V) :=
    let! cols := mapM (fun q => let! m := reindex (f_idx f) mask in
                                let! o := reindex (f_idx f) other in
                                Ok (fst q, map (fun r => match snd (fst r) with Some true => fst (fst r) | _ => snd r end) (combine (combine (snd q) m) o)))
                      (f_cols f) in
    Ok (Frame (f_idx f) cols).

  (** * Transformers *)
  (** [OnEachColumn.fit_transform] and [transform], _on_each_column.py 445-517: [outputs]: what the transformer of a column gives, if there is one *)
  Definition on_each_column (keep_original : bool) (outputs : K -> option (list (K * series L V))) (x : frame L K V) : res (frame L K V) :=
    let cols := flat_map (fun c => match outputs (fst c) with
                                   | None => [c]
                                   | Some out => if keep_original then c :: out else out
                                   end) (columns x) in
    let! f := make_dataframe_like (map (fun c => (fst c, Ser (snd c))) cols) in
    set_index f (f_idx x).
  (** [OnSubFrame.fit_transform] and [transform], _on_subframe.py 144-204: [out]: what the transformer gives for the selected columns *)
  Definition on_subframe (keep_original : bool) (selected : list K) (out : frame L K V) (x : frame L K V) : res (frame L K V) :=
    let passthrough := if keep_original then x else Frame (f_idx x) (filter (fun q => negb (mem (fst q) selected)) (f_cols x)) in
    match selected with
    | [] => Ok passthrough
    | _ => let! f := concat_horizontal passthrough [out] in set_index f (f_idx x)
    end.
  (** outputs made of arrays, under the index of the input: encoders (e.g. _string_encoder.py, _gap_encoder.py, _minhash_encoder.py) and
      predictions (_expressions/_expressions.py 1015-1032) *)
  Definition from_arrays (x_idx : list L) (arrays : list (K * values)) : res (frame L K V) :=
    let! f := make_dataframe_like (map (fun q => (fst q, Arr (snd q))) arrays) in
    set_index f x_idx.
  (** [InterpolationJoiner.transform], [_predict], _interpolation_joiner.py 271-317, 438-462 *)
  Definition interpolation_join (x : frame L K V) (predictions : list (list (K * values))) : res (frame L K V) :=
    let! preds := mapM (fun p => make_dataframe_like (map (fun q => (fst q, Arr (snd q))) p)) predictions in
    concat_horizontal x preds.
  (** [DatetimeEncoder.transform], _datetime_encoder.py 400-442: [extracted]: the features, series like the column; [periodic]: what the periodic encoders give *)
  Definition datetime_encode {D : Type} (column : series L D) (extracted : list (K * values)) (periodic : list (frame L K V)) : res (frame L K V) :=
    let not_nulls := Series (s_idx column) (map (fun v => Some (match v with Some _ => true | None => false end)) (s_vals column)) in
    let null_mask := Series (s_idx column) (map (fun _ => None) (s_vals column)) in
    let! f := make_dataframe_like (map (fun q => (fst q, Ser (Series (s_idx column) (snd q)))) extracted) in
    let! f := set_index f (s_idx column) in
    let! f := concat_horizontal f periodic in
    where_row f not_nulls null_mask.

  (** a pipeline of [OnEachColumn] steps, as in [TableVectorizer], _table_vectorizer.py: each has its own transformers *)
  Fixpoint each_column_steps (steps : list (bool * (K -> option (list (K * series L V))))) (x : frame L K V) : res (frame L K V) :=
    match steps with
    | [] => Ok x
    | (keep, outputs) :: steps' => let! f := on_each_column keep outputs x in each_column_steps steps' f
    end.

  (** * Joins *)
  (** [with_columns], [_make_column_like_pandas], _common.py 1280-1283, 273-275: columns that exist are replaced; arrays become series *)
  Definition with_columns (f : frame L K V) (news : list (K * datum L V)) : res (frame L K V) :=
    make_dataframe_like (map (fun c => (fst c, Ser (snd c))) (columns f)
                         ++ map (fun q => (fst q, Ser (match snd q with Ser s => s | Arr v => Series (range (length v)) v end))) news).
  (** [_do_left_join_pandas], _join_utils.py 269-273, when the keys on the right are distinct: [row i] is the row of the right table that goes with
      row [i]. The index is a [RangeIndex] *)
  Definition left_join (left : frame L K V) (row : nat -> option nat) (right : list (K * values)) : frame L K V :=
    let n := length (f_idx left) in
    Frame (range n)
          (f_cols left ++ map (fun q => (fst q, map (fun i => match row i with Some j => nth j (snd q) None | None => None end) (seq 0 n))) right).
  (** [Joiner._transform], _joiner.py 362-392: the row of the match is added as a column, joined on and dropped; what is known of the matches are arrays *)
  Definition joiner (x : frame L K V) (key : K) (matching : values) (row : nat -> option nat) (aux : list (K * values)) (info : list (K * values)) : res (frame L K V) :=
    let! main := with_columns x [(key, Arr matching)] in
    let join := left_join main row aux in
    let join := Frame (f_idx join) (filter (fun q => negb (eqb_of (fst q) key)) (f_cols join)) in
    match info with
    | [] => Ok join
    | _ => with_columns join (map (fun q => (fst q, Arr (snd q))) info)
    end.
  (** [AggTarget.fit_transform], _agg_joiner.py 512-527: the target with the keys of the main table *)
  Definition target_with_keys (y : frame L K V) (x : frame L K V) (keys : list K) : res (frame L K V) :=
    if length (f_idx y) =? length (f_idx x) then
      let! ks := mapM (fun k => match dget k (columns x) with Some s => Ok (k, Ser s) | None => Err KeyError end) keys in
      with_columns y ks
    else Err ValueError.
End Index.
