(** Associations of the columns of a table, /repo/skrub/_column_associations.py. *)
From Coq Require Import QArith.
From Verif Require Import Base M_names.
Open Scope string_scope.
Open Scope list_scope.
Open Scope nat_scope.

(** ** Cramer's V of a contingency table *)

Definition count_true (l : list bool) : nat := length (filter (fun b => b) l).
(** one entry of [np.einsum("ack,bdk", encoded, encoded)], 228-243: the number of rows that are in both bins *)
Fixpoint both (a b : list bool) : list bool :=
  match a, b with
  | x :: a', y :: b' => (x && y)%bool :: both a' b'
  | _, _ => []
  end.
(** [_contingency_table], 228-243, for one pair of encoded columns: [n_bins] lists of [n_bins] numbers *)
Definition contingency (a b : list (list bool)) : list (list nat) :=
  map (fun ra => map (fun rb => count_true (both ra rb)) b) a.

Definition nsum (l : list nat) : nat := fold_right Nat.add 0 l.
Definition Qsum (l : list Q) : Q := fold_right Qplus 0%Q l.
Definition of_nat (n : nat) : Q := inject_Z (Z.of_nat n).
Definition count_pos (l : list nat) : nat := length (filter (fun n => 0 <? n) l).

Section Cramer.
  (** numbers of the output; [root]: [np.sqrt] (nonnegative floats; rounding is not modelled before the root) *)
  Context {num : Type} (zero nan : num) (root : Q -> num).

  (** [_compute_cramer], 245-269, for one pair of columns. [min_dim] may be -1 (no rows). *)
  Definition compute_cramer (n_bins n_samples : nat) (table : list (list nat)) : num :=
    let marginal_0 := map (fun j => nsum (map (fun row => nth j row 0) table)) (seq 0 n_bins) in
    let marginal_1 := map nsum table in
    let total := nsum marginal_0 in
    let min_dim := Z.min (Z.of_nat (count_pos marginal_0) - 1) (Z.of_nat (count_pos marginal_1) - 1) in
    if (min_dim =? 0)%Z then zero
    else if total =? 0 then nan   (* 0 / 0 *)
    else
      let term i j :=
        let expected := (of_nat (nth j marginal_0 0%nat) * of_nat (nth i marginal_1 0%nat) / of_nat total)%Q in
        let diff := (of_nat (nth j (nth i table []) 0%nat) - expected)%Q in
        (diff * diff / (if Qeq_bool expected 0 then 1 else expected))%Q in
      let chi_stat := Qsum (map (fun i => Qsum (map (term i) (seq 0 n_bins))) (seq 0 n_bins)) in
      root (chi_stat / (of_nat n_samples * inject_Z (Z.max min_dim 1)))%Q.
End Cramer.

(** ** One-hot encodings *)

Definition N_BINS : nat := 10.
Definition CATEGORICAL_THRESHOLD : nat := 30.

Section Encode.
  (** columns and the values of their numpy arrays; the functions of [_dataframe/_common.py] and of scikit-learn *)
  Context {C V : Type}.
  Variable is_duration is_numeric is_any_date : C -> bool.
  Variable total_seconds : C -> C.
  Variable to_float32 to_string : C -> res C.
  Variable n_unique : C -> nat.
  Variable to_numpy : C -> list V.
  Variable floating : C -> bool.          (* [np.issubdtype(values.dtype, np.floating)] *)
  Variable clip : V -> V.                 (* [np.clip(values, finfo.min, finfo.max)] *)
  Variable isfinite : V -> bool.
  Variable zero_value : V.
  (** [OneHotEncoder(max_categories)] and [KBinsDiscretizer(n_bins, "uniform")]: the number of columns and the rows *)
  Variable one_hot kbins : nat -> list V -> res (nat * list (list bool)).

  (** [output[:width] = encoded.T] on an array of [n_bins] zero rows *)
  Definition place (n_bins width : nat) (encoded : list (list bool)) : res (list (list bool)) :=
    if n_bins <? width then Err ValueError
    else Ok (map (fun b => map (fun row => nth b row false) encoded) (seq 0 n_bins)).

  (** [_onehot_encode_categories], 192-203. *)
  Definition onehot_encode_categories (col : C) (n_bins : nat) : res (list (list bool)) :=
    let values := if floating col then map clip (to_numpy col) else to_numpy col in
    let! (width, encoded) := one_hot n_bins values in
    place n_bins width encoded.

  (** [_onehot_encode_numbers], 206-225. *)
  Definition onehot_encode_numbers (values : list V) (n_bins : nat) : res (list (list bool)) :=
    let mask := map (fun v => negb (isfinite v)) values in
    let filled_na := map (fun v => if isfinite v then v else zero_value) values in
    let! (width, encoded) := kbins (n_bins - 1) filled_na in
    let encoded := map (fun mr : bool * list bool => if fst mr then map (fun _ => false) (snd mr) else snd mr) (combine mask encoded) in
    let! output := place n_bins width encoded in
    if n_bins <=? width then Err IndexError
    else Ok (firstn width output ++ mask :: skipn (S width) output).

  (** [_onehot_encode], 164-189, for one column. *)
  Definition onehot_encode (col : C) : res (list (list bool)) :=
    let col := if is_duration col then total_seconds col else col in
    if (is_numeric col || is_any_date col)%bool
    then let! col := to_float32 col in
         if CATEGORICAL_THRESHOLD <=? n_unique col
         then onehot_encode_numbers (to_numpy col) N_BINS
         else onehot_encode_categories col N_BINS
    else let! col := to_string col in onehot_encode_categories col N_BINS.
End Encode.

(** ** The table of associations *)

(** column names: pandas accepts others than strings *)
Inductive pyname : Type := PStr (s : string) | PInt (n : nat).
Definition is_int (n : pyname) : bool := match n with PInt _ => true | PStr _ => false end.
#[global] Instance EqD_pyname : EqD pyname.
Proof. intros a b. decide equality; [apply string_dec|apply Nat.eq_dec]. Defined.

Section Table.
  Context {num : Type} (zero nan : num) (root : Q -> num).
  Context {C : Type}.
  Variable encode : C -> res (list (list bool)).
  Variable str : pyname -> string.
  Variable argsort : list num -> list nat.             (* [np.argsort] *)
  (** [df.corr(method="pearson", numeric_only=True)]: the columns that it keeps, and its values *)
  Variable corr_numeric : C -> bool.
  Variable corr : C -> C -> num.
  Variable draw : nat -> string.

  (** cells *)
  Inductive acell : Type := AName (n : pyname) | AIdx (i : nat) | ANum (x : num) | ANull.

  (** [np.triu_indices_from(associations, 1)]: pairs [(i, j)] with [i < j], by rows *)
  Definition triu (n : nat) : list (nat * nat) :=
    concat (map (fun i => map (fun j => (i, j)) (seq (S i) (n - S i))) (seq 0 n)).

  Definition get {A} (l : list A) (i : nat) : res A := match nth_error l i with Some a => Ok a | None => Err IndexError end.

  (** [_cramer_v_matrix], 152-161, and [_stack_symmetric_associations], 118-149. [df]: names and columns, [n_rows] their length *)
  Definition cramer_v_matrix (n_rows : nat) (df : list (pyname * C)) : res (nat -> nat -> res num) :=
    let! encoded := mapM encode (map snd df) in
    Ok (fun i j => let! a := get encoded i in let! b := get encoded j in
                   Ok (compute_cramer zero nan root N_BINS n_rows (contingency a b))).
  Definition cramer_cols : list string :=
    ["left_column_name"; "left_column_idx"; "right_column_name"; "right_column_idx"; "cramer_v"].
  Definition stack_symmetric_associations (matrix : nat -> nat -> res num) (df : list (pyname * C)) : res (table acell) :=
    let indices := triu (length df) in
    let! associations := mapM (fun ij => matrix (fst ij) (snd ij)) indices in
    let order := rev (argsort associations) in
    let col_names := map (fun nc => PStr (str (fst nc))) df in
    let! rows := mapM (fun o => let! ij := get indices o in let! v := get associations o in
                                let! l := get col_names (fst ij) in let! r := get col_names (snd ij) in
                                Ok [AName l; AIdx (fst ij); AName r; AIdx (snd ij); ANum v]) order in
    Ok {| tcols := cramer_cols; trows := rows |}.

  (** [_compute_pearson], 272-294, with [_melt], 302-325: for each kept column, all kept columns. *)
  Definition pearson_cols : list string := ["left_column_name"; "right_column_name"; "pearson_corr"].
  Definition compute_pearson (df : list (pyname * C)) : table acell :=
    let kept := filter (fun nc => corr_numeric (snd nc)) df in
    {| tcols := pearson_cols;
       trows := concat (map (fun r => map (fun l => [AName (fst l); AName (fst r); ANum (corr (snd l) (snd r))]) kept) kept) |}.

  (** keys of the join: names that are equal *)
  Definition cell_eqb (a b : acell) : bool :=
    match a, b with AName x, AName y => eqb_of x y | _, _ => false end.
  Fixpoint keys_eqb (a b : list acell) : bool :=
    match a, b with
    | [], [] => true
    | x :: a', y :: b' => (cell_eqb x y && keys_eqb a' b')%bool
    | _, _ => false
    end.

  (** [column_associations], 16-115. [pandas.merge] refuses to join the texts of the first table with the numbers of the
      second one when all columns have integer names. *)
  Definition column_associations (n_rows : nat) (df : list (pyname * C)) : res (table acell) :=
    let! matrix := cramer_v_matrix n_rows df in
    let! cramer_v_table := stack_symmetric_associations matrix df in
    let pearson_c_table := compute_pearson df in
    if (negb (length (trows pearson_c_table) =? 0) && forallb (fun nc => is_int (fst nc)) df)%bool then Err ValueError
    else
      let on := ["left_column_name"; "right_column_name"] in
      left_join ANull keys_eqb draw cramer_v_table pearson_c_table on on (fun c => c).
End Table.
