(** Several aggregation joins, /repo/skrub/_multi_agg_joiner.py. *)
From Verif Require Import Base M_str M_names M_oncols M_agg.
Open Scope string_scope.
Open Scope list_scope.
Open Scope nat_scope.

Section Multi.
  Context {V : Type} `{EqD V}.
  Variable null : V.
  Variable isnull : V -> bool.
  Variable lib : library.                       (* of the main table *)
  Variable group_order : list (list V) -> list (list V).
  Variable aggf : string -> list V -> res V.
  Variable set_order : list string -> list string.
  Variable is_numeric : table V -> string -> bool.
  Variable draw : nat -> nat -> string.         (* for each join *)

  #[local] Instance EqD_library : EqD library.
  Proof. intros a b. decide equality. Defined.

  (** An element of [aux_tables]: the string "X", a dataframe, something else. *)
  Inductive entry : Type := EX | ETable (l : library) (t : table V) | EOther.

  (** The parameters, except [aux_tables], which [fit] modifies. [mp_tuple]: it is a tuple. *)
  Record multi_params : Type := mk_multi_params {
    mp_tuple : bool;
    mp_operations : list (list string);
    mp_keys : option (list (list string));
    mp_main_keys : option (list (list string));
    mp_aux_keys : option (list (list string));
    mp_cols : option (list (list string));
    mp_suffixes : option (list string)
  }.

  (** [_check_dataframes], lines 216-266, for [X] a dataframe and [aux_tables] a list or a tuple. The first component
      is [self.aux_tables] afterwards: it is modified by the assignment of line 246. *)
  Fixpoint replace_X (tuple : bool) (X : table V) (aux : list entry) : list entry * res (list (library * table V)) :=
    match aux with
    | [] => ([], Ok [])
    | e :: aux' =>
        match e with
        | EX => if tuple then (aux, Err TypeError)
                else let (st, r) := replace_X tuple X aux' in
                     (ETable lib X :: st, let! l := r in Ok ((lib, X) :: l))
        | ETable l t => let (st, r) := replace_X tuple X aux' in
                        (e :: st, let! ts := r in Ok ((l, t) :: ts))
        | EOther => (aux, Err ValueError)
        end
    end.
  Definition check_dataframes (tuple : bool) (X : table V) (aux : list entry) : list entry * res (list (table V)) :=
    let (st, r) := replace_X tuple X aux in
    (st, let! ts := r in
         if forallb (fun lt => eqb_of (fst lt) lib) ts then Ok (map snd ts) else Err TypeError).

  (** [_check_keys], lines 268-329. *)
  Definition check_keys (p : multi_params) (n : nat) : res (list (list string) * list (list string)) :=
    let! (mks, aks) :=
      match mp_keys p, mp_main_keys p, mp_aux_keys p with
      | Some ks, None, None => Ok (ks, ks)
      | Some _, _, _ => Err ValueError
      | None, Some m, Some a => Ok (m, a)
      | None, _, _ => Err ValueError
      end in
    if negb (n =? length mks) then Err ValueError
    else if negb (n =? length aks) then Err ValueError
    else if forallb (fun ma => length (fst ma) =? length (snd ma)) (combine mks aks) then Ok (mks, aks)
    else Err ValueError.

  (** [_check_cols], lines 331-367. *)
  Definition check_cols (p : multi_params) (aux : list (table V)) (aks : list (list string)) : res (list (list string)) :=
    match mp_cols p with
    | None => Ok (map (fun tk => set_order (filter (fun c => negb (mem c (snd tk))) (tcols (fst tk)))) (combine aux aks))
    | Some cols => if length cols =? length aux then Ok cols else Err ValueError
    end.

  (** [_check_operations], lines 369-396, and [_check_suffixes], lines 398-432. *)
  Definition check_ops (p : multi_params) (n : nat) : res (list (list string)) :=
    if length (mp_operations p) =? n then Ok (mp_operations p) else Err ValueError.
  Definition check_suffixes (p : multi_params) (n : nat) : res (list string) :=
    match mp_suffixes p with
    | None => Ok (map (fun i => ("_" ++ str_nat i)%string) (seq 0 n))
    | Some l => if length l =? n then Ok l else Err ValueError
    end.

  (** One join: auxiliary table, keys, columns, operations, suffix. *)
  Record step : Type := mk_step {
    s_aux : table V; s_mk : list string; s_ak : list string;
    s_cols : list string; s_ops : list string; s_suffix : string
  }.
  Definition step_params (s : step) : agg_params :=
    mk_agg_params (AuxTable (s_aux s)) (KList (s_ops s)) KNone (KList (s_mk s)) (KList (s_ak s)) (KList (s_cols s)) (s_suffix s).

  (** [zip] *)
  Fixpoint zip_steps (aux : list (table V)) (mks aks cols ops : list (list string)) (suffixes : list string) : list step :=
    match aux, mks, aks, cols, ops, suffixes with
    | t :: aux', m :: mks', a :: aks', c :: cols', o :: ops', s :: suffixes' =>
        mk_step t m a c o s :: zip_steps aux' mks' aks' cols' ops' suffixes'
    | _, _, _, _, _, _ => []
    end.

  (** The loop of lines 457-476. *)
  Fixpoint run_steps (i : nat) (steps : list step) (X : table V) : res (list (agg_fitted (V := V)) * table V) :=
    match steps with
    | [] => Ok ([], X)
    | s :: steps' =>
        let! (f, X1) := fit_transform null isnull lib group_order aggf set_order (draw i) (is_numeric (s_aux s)) (step_params s) X in
        let! (fs, out) := run_steps (S i) steps' X1 in
        Ok (f :: fs, out)
    end.

  (** [fit_transform], lines 434-478: [self.aux_tables] afterwards, and the result. *)
  Definition multi_fit_transform (p : multi_params) (aux_tables : list entry) (X : table V)
    : list entry * res (list (agg_fitted (V := V)) * table V) :=
    let (st, r) := check_dataframes (mp_tuple p) X aux_tables in
    (st, let! aux := r in
         let! (mks, aks) := check_keys p (length aux) in
         let! cols := check_cols p aux aks in
         let! ops := check_ops p (length aux) in
         let! suffixes := check_suffixes p (length aux) in
         run_steps 0 (zip_steps aux mks aks cols ops suffixes) X).

  (** [transform], lines 499-515. *)
  Fixpoint multi_transform (i : nat) (fs : list (agg_fitted (V := V))) (X : table V) : res (table V) :=
    match fs with
    | [] => Ok X
    | f :: fs' => let! X1 := transform null isnull lib (draw i) f X in multi_transform (S i) fs' X1
    end.
End Multi.
