(** Fuzzy joins, /repo/skrub/_joiner.py and /repo/skrub/_fuzzy_join.py. *)
From Verif Require Import Base M_names M_oncols M_agg M_tablevec M_matching.
From Coq Require Import QArith.
Open Scope string_scope.
Open Scope list_scope.
Open Scope nat_scope.

(** ** Tables *)
Section Tables.
  Context {V : Type}.
  (** [sbd.with_columns], /repo/skrub/_dataframe/_common.py:1280-1283, for one column: it replaces
      the column of the same name, or is added at the end. *)
  Definition with_column (t : table V) (new : string * list V) : res (table V) :=
    if negb (length (snd new) =? length (trows t)) then Err ValueError
    else Ok {| tcols := if mem (fst new) (tcols t) then tcols t else tcols t ++ [fst new];
               trows := map (fun rv => snd (set_cell (tcols t) (fst rv) (fst new) (snd rv)))
                          (combine (trows t) (snd new)) |}.
  Definition with_columns (t : table V) (news : list (string * list V)) : res (table V) :=
    foldM with_column t news.
End Tables.

Section Joiner.
  (** Cells, and how numbers and Booleans are written in cells. *)
  Context {V : Type} `{EqD V}.
  Variable null : V.
  Variable isnull : V -> bool.
  Variable lib : library.
  Variable of_int : Z -> V.
  Variable of_dist : Q -> V.
  Variable of_ext : ext -> V.
  Variable of_bool : bool -> V.
  Variable is_true : V -> bool.       (* how [sbd.filter] reads a cell *)

  (** The vectorizer made by [_make_vectorizer] (lines 55-89): its state after fit, the vectors
      of the rows. *)
  Context {P VS : Type}.
  Variable vec_fit : bool -> list (list V) -> res (VS * list P).
  Variable vec_transform : VS -> list (list V) -> res (list P).
  Variable dist : P -> P -> Q.
  Variable order : list P -> nat -> P -> list nat.
  Variable draws : list (list (nat * nat)).   (* RandomPairs *)

  (** Lines 35-40 and the defaults of /repo/skrub/_matching.py. *)
  Definition matchers (ref_dist : string) : option strategy :=
    if eqd ref_dist "random_pairs" then Some (RandomPairs 25 500)
    else if eqd ref_dist "second_neighbor" then Some (OtherNeighbor 1)
    else if eqd ref_dist "self_join_neighbor" then Some (SelfJoinNeighbor 1)
    else if eqd ref_dist "no_rescaling" then Some NoRescaling
    else None.

  (** Lines 236-238 *)
  Definition match_info_columns : list string :=
    ["skrub_Joiner_distance"; "skrub_Joiner_rescaled_distance"; "skrub_Joiner_match_accepted"].

  Inductive max_arg : Type := MaxNone | MaxStr (s : string) | MaxNum (m : ext).
  Record joiner_params : Type := mk_joiner_params {
    j_aux_table : table V; j_key : keyarg; j_main_key : keyarg; j_aux_key : keyarg;
    j_suffix : string; j_max_dist : max_arg; j_ref_dist : string; j_add_match_info : bool
  }.

  (** [_check_max_dist], lines 267-275. Another string is only detected when it is compared to the
      distances; here this is an error at once. *)
  Definition check_max_dist (m : max_arg) : res ext :=
    match m with
    | MaxNone => Ok Inf
    | MaxStr s => if eqd s "inf" then Ok Inf else Err TypeError
    | MaxNum m => Ok m
    end.

  Record joiner_fitted : Type := mk_joiner_fitted {
    jf_features_in : list string;     (* self._main_check_input *)
    jf_aux : table V; jf_main_key : list string; jf_aux_key : list string;
    jf_suffix : string; jf_max_dist : ext; jf_add_match_info : bool;
    jf_vectorizer : VS; jf_matching : @matcher P;
    jf_outputs : list string          (* self.all_outputs_ *)
  }.

  (** The key columns of a table, by rows. *)
  Definition key_rows (t : table V) (key : list string) : res (list (list V)) :=
    mapM (row_key (tcols t) key) (trows t).

  (** [_transform], lines 362-389. [token]: the random string of the names of the temporary keys. *)
  Definition transform_ (token : string) (draw : nat -> string) (f : joiner_fitted) (X : table V) : res (table V) :=
    let! keys := key_rows X (jf_main_key f) in
    let! main := vec_transform (jf_vectorizer f) keys in
    let! ms := match_ dist order (jf_matching f) main (jf_max_dist f) in
    let matching_col := map (fun m => of_int (if r_accepted m then Z.of_nat (r_index m) else (-1)%Z)) ms in
    let left_key := ("skrub_left_key_" ++ token)%string in
    let right_key := ("skrub_right_key_" ++ token)%string in
    let! left_ := with_columns X [(left_key, matching_col)] in
    let! right_ := with_columns (jf_aux f)
                    [(right_key, map (fun i => of_int (Z.of_nat i)) (seq 0 (length (trows (jf_aux f)))))] in
    let! join := left_join null (keq isnull lib) draw left_ right_ [left_key] [right_key]
                   (fun c => (c ++ jf_suffix f)%string) in
    let join := drop_columns join [left_key] in
    if jf_add_match_info f then
      with_columns join [("skrub_Joiner_distance", map (fun m => of_dist (r_distance m)) ms);
                         ("skrub_Joiner_rescaled_distance", map (fun m => of_ext (r_rescaled m)) ms);
                         ("skrub_Joiner_match_accepted", map (fun m => of_bool (r_accepted m)) ms)]
    else Ok join.

  (** [fit_transform], lines 285-322. The tables are dataframes with distinct string names, which
      [CheckInputDataFrame] leaves unchanged. (If [draws] is too short, [fit] gives no result; this
      is written as an error.) *)
  Definition joiner_fit_transform (token : string) (draw : nat -> string) (p : joiner_params) (X : table V)
    : res (joiner_fitted * table V) :=
    let aux := j_aux_table p in
    let! strat := match matchers (j_ref_dist p) with Some s => Ok s | None => Err ValueError end in
    let! max_dist := check_max_dist (j_max_dist p) in
    let! (mk, ak) := check_key (j_main_key p) (j_aux_key p) (j_key p) in
    let! _ := check_missing_columns (tcols X) mk in
    let! _ := check_missing_columns (tcols aux) ak in
    let! keys := key_rows aux ak in
    let! (vs, aux_vectors) := vec_fit (negb (eqb_of (j_ref_dist p) "no_rescaling")) keys in
    let! om := fit dist strat draws aux_vectors in
    let! m := match om with Some m => Ok m | None => Err RuntimeError end in
    let f := mk_joiner_fitted (tcols X) aux mk ak (j_suffix p) max_dist (j_add_match_info p) vs m [] in
    let! result := transform_ token draw f X in
    Ok (mk_joiner_fitted (tcols X) aux mk ak (j_suffix p) max_dist (j_add_match_info p) vs m (tcols result),
        result).

  (** [transform], lines 342-360. *)
  Definition joiner_transform (token : string) (draw : nat -> string) (f : joiner_fitted) (X : table V) : res (table V) :=
    if negb (eqb_of (tcols X) (jf_features_in f)) then Err ValueError
    else
      let! result := transform_ token draw f X in
      rename_all result (jf_outputs f).

  (** [fuzzy_join], /repo/skrub/_fuzzy_join.py:187-215. *)
  Definition fuzzy_join (token : string) (draw : nat -> string) (left right : table V)
    (left_on right_on on : keyarg) (suffix : string) (max_dist : max_arg) (ref_dist : string)
    (add_match_info drop_unmatched : bool) : res (table V) :=
    let! (lk, rk) := check_key left_on right_on on in
    let! _ := check_missing_columns (tcols left) lk in
    let! _ := check_missing_columns (tcols right) rk in
    let! (_, join) := joiner_fit_transform token draw
                        (mk_joiner_params right on left_on right_on suffix max_dist ref_dist true) left in
    let! join :=
      if drop_unmatched then
        let! accepted := mapM (fun r => match cell (tcols join) r "skrub_Joiner_match_accepted" with
                                        | Some v => Ok (r, is_true v)
                                        | None => Err KeyError
                                        end) (trows join) in
        Ok {| tcols := tcols join; trows := map fst (filter snd accepted) |}
      else Ok join in
    if add_match_info then Ok join else Ok (drop_columns join match_info_columns).
End Joiner.
