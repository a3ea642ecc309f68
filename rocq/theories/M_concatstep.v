(** Concatenation as a step of a pipeline: [ConcatHorizontal.compute] (/repo/skrub/_expressions/_expressions.py 1399-1431), with
    [concat_horizontal] (/repo/skrub/_dataframe/_common.py 332-346) on tables with rows, for both libraries, and [set_column_names] (480-487).
    Names are picked as in [M_names]. *)
From Verif Require Import Base M_names.
Open Scope string_scope.
Open Scope list_scope.
Open Scope nat_scope.

Section Concat.
  Variable A : Type.

  Inductive lib := Pandas | Polars.
  Definition eqb_lib (a b : lib) : bool := match a, b with Pandas, Pandas | Polars, Polars => true | _, _ => false end.
  (** a table: its library, its number of rows, its named columns; [None] is a null *)
  Record table := { tlib : lib; nrows : nat; cols : frame (list (option A)) }.
  (** values of expressions: tables, [None], other objects *)
  Inductive value := VTable (t : table) | VNone | VOther.
  (** the argument [others]: a table, something to iterate over, something that cannot be iterated over *)
  Inductive others_arg := OTable (t : table) | OItems (l : list value) | OScalar.

  Definition is_table (v : value) : bool := match v with VTable _ => true | _ => false end.

  (** ** Tables side by side *)
  (** nulls after the last row *)
  Definition pad (m : nat) (c : list (option A)) : list (option A) := c ++ repeat None (m - length c).
  Definition side_by_side (draw : nat -> string) (m : nat) (ts : list table) : frame (list (option A)) :=
    map (fun '(n, c) => (n, pad m c)) (concat (make_column_names_unique draw (map cols ts))).
  (** the largest number of rows *)
  Definition most_rows (ts : list table) : nat := fold_right Nat.max 0 (map nrows ts).
  (** _common.py 332-346. pandas: [reset_index] is called on every item (340: the index of the first one is put back, which is an error if the
      result has another number of rows); polars: [pl.concat] takes only polars tables. [None]: an item that is not a table *)
  Definition concat_tables (draw : nat -> string) (first : table) (others : list (option table)) : res table :=
    match tlib first with
    | Pandas =>
        let! ts := mapM (fun o => match o with Some t => if eqb_lib (tlib t) Pandas then Ok t else Err AttributeError | None => Err AttributeError end) others in
        let m := most_rows (first :: ts) in
        if m =? nrows first then Ok {| tlib := Pandas; nrows := m; cols := side_by_side draw m (first :: ts) |} else Err ValueError
    | Polars =>
        let! ts := mapM (fun o => match o with Some t => if eqb_lib (tlib t) Polars then Ok t else Err TypeError | None => Err TypeError end) others in
        let m := most_rows (first :: ts) in
        Ok {| tlib := Polars; nrows := m; cols := side_by_side draw m (first :: ts) |}
    end.
  (** _common.py 480-487: [set_axis] checks the number of names, [rename] with [dict(zip(...))] does not but refuses duplicates *)
  Fixpoint rename_first (names : list string) (f : frame (list (option A))) : frame (list (option A)) :=
    match names, f with
    | n :: names', (_, c) :: f' => (n, c) :: rename_first names' f'
    | _, _ => f
    end.
  Fixpoint distinct (l : list string) : bool := match l with [] => true | x :: l' => negb (mem x l') && distinct l' end.
  Definition relabel (t : table) (names : list string) : res table :=
    match tlib t with
    | Pandas => if length names =? length (cols t) then Ok {| tlib := Pandas; nrows := nrows t; cols := set_column_names (cols t) names |} else Err ValueError
    | Polars => let f := rename_first names (cols t) in
                if distinct (column_names f) then Ok {| tlib := Polars; nrows := nrows t; cols := f |} else Err DuplicateError
    end.

  (** ** The step *)
  Fixpoint contains (p s : string) : bool :=
    match strip_prefix p s with
    | Some _ => true
    | None => match s with EmptyString => false | String _ s' => contains p s' end
    end.
  Definition stores (mode : string) : bool := eqb_of mode "preview" || contains "fit" mode.
  (** [state]: the attribute [all_outputs_], if there is one *)
  Definition state := option (list string).
  Definition to_option (v : value) : option table := match v with VTable t => Some t | _ => None end.
  (** 1403-1431; the result and the state after the call *)
  Definition concat_step (draw : nat -> string) (mode : string) (st : state) (first : value) (others : others_arg) : res table * state :=
    match first with
    | VTable t =>
        match others with
        | OTable _ => (Err TypeError, st)
        | OScalar => (Err TypeError, st)
        | OItems items =>
            (* [next(...)]: the first item that is not a table; an item [None] looks like no item *)
            match find (fun v => negb (is_table v)) items with
            | Some VOther => (Err TypeError, st)
            | _ =>
                match concat_tables draw t (map to_option items) with
                | Err e => (Err e, st)
                | Ok r => if stores mode then (Ok r, Some (column_names (cols r)))
                          else match st with
                               | None => (Err AttributeError, st)
                               | Some names => (relabel r names, st)
                               end
                end
            end
        end
    | _ => (Err TypeError, st)
    end.

  (** ** Several calls *)
  Record call := { c_draw : nat -> string; c_mode : string; c_first : value; c_others : others_arg }.
  Fixpoint calls (st : state) (l : list call) : list (res table) * state :=
    match l with
    | [] => ([], st)
    | c :: l' =>
        let '(r, st') := concat_step (c_draw c) (c_mode c) st (c_first c) (c_others c) in
        let '(rs, st'') := calls st' l' in
        (r :: rs, st'')
    end.
End Concat.
Arguments tlib {A}. Arguments nrows {A}. Arguments cols {A}.
Arguments VTable {A}. Arguments VNone {A}. Arguments VOther {A}.
Arguments OTable {A}. Arguments OItems {A}. Arguments OScalar {A}.
Arguments concat_step {A}. Arguments calls {A}.
Arguments c_draw {A}. Arguments c_mode {A}. Arguments c_first {A}. Arguments c_others {A}.
