(** Model of column-name picking and joins: skrub/_join_utils.py, and
    [concat_horizontal] of skrub/_dataframe/_common.py:327-346.

    Simplification: Python strings are sequences of code points, here they are sequences
    of 8-bit characters; the code only compares characters, so nothing depends on the
    alphabet. The random generator is the argument [draw]: [draw i] is the string that
    [random_string()] returns if it is called for the [i]-th name. *)
From Verif Require Import Base.
Open Scope string_scope.
Open Scope list_scope.
Open Scope nat_scope.

(** ** The regular expression [__skrub_.*?__] (skrub/_join_utils.py:160-162) *)

(** the suffix of [s] after the prefix [p] *)
Fixpoint strip_prefix (p s : string) : option string :=
  match p, s with
  | EmptyString, _ => Some s
  | String c p', String d s' => if eqd c d then strip_prefix p' s' else None
  | String _ _, EmptyString => None
  end.

Definition newline : ascii := Ascii.ascii_of_nat 10.

(** [.*?__] at the start of [s]: number of characters of the shortest match. The dot does
    not match a newline. *)
Fixpoint lazy_close (s : string) : option nat :=
  match strip_prefix "__" s with
  | Some _ => Some 2
  | None =>
      match s with
      | EmptyString => None
      | String c s' => if eqd c newline then None else option_map S (lazy_close s')
      end
  end.

(** number of characters of the match of the whole pattern at the start of [s] *)
Definition match_tag (s : string) : option nat :=
  match strip_prefix "__skrub_" s with
  | Some r => option_map (fun n => 8 + n) (lazy_close r)
  | None => None
  end.

(** One left-to-right scan computing both [re.sub(pattern, "", s)] and
    [re.findall(pattern, s)]; [skip] is the number of characters left in the current
    match. *)
Fixpoint scan_tags (skip : nat) (s : string) : string * list string :=
  match s with
  | EmptyString => (EmptyString, [])
  | String c s' =>
      match skip with
      | S k => scan_tags k s'
      | O => match match_tag s with
             | Some n => let '(u, ts) := scan_tags (n - 1) s' in (u, substring 0 n s :: ts)
             | None => let '(u, ts) := scan_tags 0 s' in (String c u, ts)
             end
      end
  end.

(** skrub/_join_utils.py:159-170 [_get_new_name]; [token] is what [random_string()]
    returns if called. *)
Definition get_new_name (token : string) (suggested : string) (forbidden : list string) : string :=
  let '(untagged, tags) := scan_tags 0 suggested in
  let suggested' := match tags with
                    | [t] => (untagged ++ t)%string
                    | _ => untagged
                    end in
  if negb (mem suggested' forbidden) then suggested'
  else (untagged ++ "__skrub_" ++ token ++ "__")%string.

(** skrub/_join_utils.py:101-156 [pick_column_names]. [i] counts the names so that
    successive draws are different elements of [draw]. *)
Fixpoint pick_from (draw : nat -> string) (i : nat) (suggested forbidden : list string)
  : list string :=
  match suggested with
  | [] => []
  | name :: rest =>
      let new_name := get_new_name (draw i) name forbidden in
      new_name :: pick_from draw (S i) rest (new_name :: forbidden)
  end.
Definition pick_column_names (draw : nat -> string) (suggested forbidden : list string) :=
  pick_from draw 0 suggested forbidden.

(** A dataframe is the list of its named columns; [C] is the type of column data. *)
Definition frame (C : Type) := list (string * C).
Definition column_names {C} (df : frame C) : list string := map fst df.
Definition column_data {C} (df : frame C) : list C := map snd df.
(** [sbd.set_column_names] (skrub/_dataframe/_common.py:475-487) *)
Definition set_column_names {C} (df : frame C) (names : list string) : frame C :=
  combine names (map snd df).

(** skrub/_join_utils.py:173-192 [make_column_names_unique] *)
Fixpoint make_unique_from {C} (draw : nat -> string) (i : nat) (used : list string)
  (dfs : list (frame C)) : list (frame C) :=
  match dfs with
  | [] => []
  | df :: dfs' =>
      let new_names := pick_from draw i (column_names df) used in
      set_column_names df new_names
        :: make_unique_from draw (i + length df) (used ++ new_names) dfs'
  end.
Definition make_column_names_unique {C} (draw : nat -> string) (dfs : list (frame C)) :=
  make_unique_from draw 0 [] dfs.

(** skrub/_dataframe/_common.py:332-346 [concat_horizontal]. Row indexes are not modelled:
    they are reset before and restored after. pandas: [dataframes[0]] on no dataframe is an
    IndexError (dispatch fails earlier with a TypeError; only the failure matters). *)
Definition concat_horizontal {C} (draw : nat -> string) (dfs : list (frame C)) : res (frame C) :=
  match dfs with
  | [] => Err TypeError
  | _ => Ok (concat (make_column_names_unique draw dfs))
  end.

(** ** Keys *)
(** a key argument: [None], a single string, or a list of strings *)
Inductive keyarg := KNone | KStr (s : string) | KList (l : list string).

(** skrub/_utils.py:136-140 *)
Definition atleast_1d_or_none (k : keyarg) : list string :=
  match k with KNone => [] | KStr s => [s] | KList l => l end.
Definition is_none (k : keyarg) : bool := match k with KNone => true | _ => false end.

(** skrub/_join_utils.py:12-75 [check_key] *)
Definition check_key (main_key aux_key key : keyarg) : res (list string * list string) :=
  let! (m, a) :=
    (if negb (is_none key)
     then if negb (is_none aux_key) || negb (is_none main_key) then Err ValueError
          else Ok (key, key)
     else if is_none aux_key || is_none main_key then Err ValueError
          else Ok (main_key, aux_key)) in
  let m' := atleast_1d_or_none m in
  let a' := atleast_1d_or_none a in
  if negb (length m' =? length a') then Err ValueError else Ok (m', a').

(** skrub/_join_utils.py:78-98 [check_missing_columns] *)
Definition check_missing_columns (cols key : list string) : res unit :=
  match filter (fun k => negb (mem k cols)) key with
  | [] => Ok tt
  | _ => Err ValueError
  end.

(** ** Left join *)
Section LeftJoin.
  (** cells; [null] fills unmatched rows; [keq] decides whether two keys match (pandas
      and polars differ on nulls) *)
  Context {V : Type} (null : V) (keq : list V -> list V -> bool).

  (** A table by rows: each row has one cell per column. *)
  Record table := { tcols : list string; trows : list (list V) }.

  (** cell of column [c] *)
  Fixpoint cell (cols : list string) (row : list V) (c : string) : option V :=
    match cols, row with
    | k :: cols', v :: row' => if eqd c k then Some v else cell cols' row' c
    | _, _ => None
    end.
  (** the key of a row; a missing column is a KeyError *)
  Fixpoint row_key (cols : list string) (on : list string) (row : list V) : res (list V) :=
    match on with
    | [] => Ok []
    | c :: on' => match cell cols row c with
                  | None => Err KeyError
                  | Some v => let! r := row_key cols on' row in Ok (v :: r)
                  end
    end.

  (** Left merge of [left] and [right] (skrub/_join_utils.py:264-284, pandas [merge] with
      [how="left"]): rows in the order of [left], then of [right]; all columns of both
      (the names do not overlap here). *)
  Definition do_left_join (left right : table) (left_on right_on : list string) : res table :=
    let! keyed_right :=
      mapM (fun r => let! k := row_key (tcols right) right_on r in Ok (k, r)) (trows right) in
    let! blocks :=
      mapM (fun l =>
              let! k := row_key (tcols left) left_on l in
              Ok (match filter (fun kr => keq k (fst kr)) keyed_right with
                  | [] => [l ++ map (fun _ => null) (tcols right)]
                  | ms => map (fun kr => l ++ snd kr) ms
                  end)) (trows left) in
    Ok {| tcols := tcols left ++ tcols right; trows := concat blocks |}.

  (** [s.select(joined, ~s.cols( *right_on))] *)
  Fixpoint drop_cells (cols dropped : list string) (row : list V) : list V :=
    match cols, row with
    | c :: cols', v :: row' =>
        if mem c dropped then drop_cells cols' dropped row' else v :: drop_cells cols' dropped row'
    | _, _ => []
    end.
  Definition drop_columns (t : table) (dropped : list string) : table :=
    {| tcols := filter (fun c => negb (mem c dropped)) (tcols t);
       trows := map (drop_cells (tcols t) dropped) (trows t) |}.

  (** [dict(zip(original, new))] *)
  Fixpoint zip_dict (ks vs : list string) (d : dict string string) : dict string string :=
    match ks, vs with
    | k :: ks', v :: vs' => zip_dict ks' vs' (dset k v d)
    | _, _ => d
    end.

  (** skrub/_join_utils.py:195-261 [left_join] on two dataframes of the same library (the
      TypeErrors of lines 233-245 are not modelled). [rename] is the renaming function. *)
  Definition left_join (draw : nat -> string) (left right : table)
    (left_on right_on : list string) (rename : string -> string) : res table :=
    let original_right_cols := tcols right in
    let right_cols :=
      pick_column_names draw (map rename original_right_cols) (tcols left) in
    let renaming := zip_dict original_right_cols right_cols [] in
    let right' := {| tcols := right_cols; trows := trows right |} in
    let! right_on' := mapM (fun c => match dget c renaming with
                                     | Some n => Ok n
                                     | None => Err KeyError
                                     end) right_on in
    let! joined := do_left_join left right' left_on right_on' in
    Ok (drop_columns joined right_on').
End LeftJoin.
Arguments table V : clear implicits.
