(** Parameter grids and names of choices,
    /repo/skrub/_expressions/_evaluation.py lines 511-532, 630-706 and
    /repo/skrub/_expressions/_estimator.py lines 123-136. *)
From Verif Require Import Base M_str.
Open Scope string_scope.
Open Scope list_scope.
Open Scope nat_scope.

Section Grid.
  (** Values of numeric choices. *)
  Context {V : Type}.

  (** The parts of a choice that matter here: [Choice] with its number of outcomes and
      [chosen_outcome_idx], or a numeric choice with its default and [chosen_outcome]. *)
  Inductive choice : Type :=
  | Enum (n_outcomes : nat) (chosen_outcome_idx : option nat)
  | Numeric (default : V) (chosen_outcome : option V).

  (** Keys of [graph\["children"\]]: [None] or [(choice_id, outcome_idx)]. *)
  Definition okey := option (nat * nat).
  Definition childdict := dict okey (list nat).

  (** The result of [choice_graph], lines 590-618. *)
  Record cgraph : Type := mk_cgraph {
    cg_choices : dict nat choice;
    cg_children : childdict;
    cg_Xy : list nat
  }.

  (** What a grid holds for a choice: a list of outcome indices; a numeric choice (a
      distribution); the list of one number. *)
  Inductive range : Type :=
  | Indices (l : list nat)
  | Whole
  | Single (v : V).
  Definition grid := dict nat range.

  Variable G : cgraph.

  Definition find_choice (c : nat) : res choice :=
    match dget c (cg_choices G) with Some x => Ok x | None => Err KeyError end.

  (** [choice_range], lines 631-647 *)
  Definition choice_range (c : nat) : res range :=
    let! ch := find_choice c in
    if mem c (cg_Xy G) then
      Ok (match ch with
          | Enum _ chosen => Indices [match chosen with Some i => i | None => 0 end]
          | Numeric default chosen => Single (match chosen with Some v => v | None => default end)
          end)
    else
      Ok (match ch with
          | Enum n _ => Indices (seq 0 n)
          | Numeric _ _ => Whole
          end).

  Definition nonempty {A} (l : list A) : bool := match l with [] => false | _ => true end.
  Definition get_children (c i : nat) (ch : childdict) : list nat :=
    match dget (Some (c, i)) ch with Some l => l | None => [] end.

  (** [has_children], lines 649-658 *)
  Definition has_children (ch : childdict) (c : nat) : res bool :=
    let! x := find_choice c in
    match x with
    | Numeric _ _ => Ok false
    | Enum _ _ =>
        let! r := choice_range c in
        match r with
        | Indices l => Ok (existsb (fun i => nonempty (get_children c i ch)) l)
        | _ => Ok false
        end
    end.

  (** lines 663-665 *)
  Fixpoint extract (ch : childdict) (top : list nat) (g : grid) : res grid :=
    match top with
    | [] => Ok g
    | c :: top' =>
        let! b := has_children ch c in
        if b then extract ch top' g
        else let! r := choice_range c in extract ch top' (dset c r g)
    end.

  (** [_expand_grid], lines 660-680. [graph.copy()] is shallow, so the dict of children is
      shared by all the calls and it is part of the state. [fuel] bounds the depth of the
      recursion; [UserError 0] when it is exhausted is proved impossible. *)
  Fixpoint expand (fuel : nat) (ch : childdict) (g : grid) : childdict * res (list grid) :=
    match fuel with
    | 0 => (ch, Err (UserError 0))
    | S fuel' =>
      match dget None ch with
      | None => (ch, Ok [g])
      | Some top =>
        match extract ch top g with
        | Err e => (ch, Err e)
        | Ok g1 =>
          match filter (fun c => negb (mem c (dkeys g1))) top with
          | [] => (ch, Ok [g1])
          | c :: rest =>
            match choice_range c with
            | Err e => (ch, Err e)
            | Ok (Indices idxs) =>
                (fix split (idxs : list nat) (ch : childdict) : childdict * res (list grid) :=
                   match idxs with
                   | [] => (ch, Ok [])
                   | i :: idxs' =>
                       let (ch2, r) :=
                         expand fuel' (dset None (get_children c i ch ++ rest) ch)
                           (dset c (Indices [i]) g1) in
                       match r with
                       | Err e => (ch2, Err e)
                       | Ok gs =>
                           let (ch3, r') := split idxs' ch2 in
                           (ch3, let! gs' := r' in Ok (gs ++ gs'))
                       end
                   end) idxs ch
            | Ok _ => (ch, Err TypeError) (* a numeric choice is not iterable *)
            end
          end
        end
      end
    end.

  (** [param_grid], lines 683-685 *)
  Definition param_grid : res (list grid) :=
    snd (expand (S (length (cg_choices G))) (cg_children G) []).
End Grid.
Arguments choice V : clear implicits.
Arguments cgraph V : clear implicits.
Arguments range V : clear implicits.
Arguments grid V : clear implicits.
Arguments Indices {V} l.
Arguments Whole {V}.
Arguments Enum {V} n_outcomes chosen_outcome_idx.

(** [_choice_display_names], lines 511-532. Choices are given with their name and the
    string shown for those that have none ([short_repr]). *)
Section DisplayNames.
  Definition stem_of (c : option string * string) : string :=
    match fst c with Some n => n | None => snd c end.

  (** [while (numbered := f"{stem}_{i}") in used: i += 1]. [fuel] bounds the number of
      iterations; [None] when it is exhausted is proved impossible. *)
  Fixpoint numbered (fuel : nat) (used : list string) (stem : string) (i : nat) : option string :=
    let s := (stem ++ "_" ++ str_nat i)%string in
    if mem s used then
      match fuel with 0 => None | S f => numbered f used stem (S i) end
    else Some s.

  Fixpoint add_names (l : list (nat * (option string * string))) (used : list string)
    (names : dict nat string) : option (list string * dict nat string) :=
    match l with
    | [] => Some (used, names)
    | (c, x) :: l' =>
        let stem := stem_of x in
        if negb (mem stem used) then add_names l' (stem :: used) (dset c stem names)
        else match numbered (length used) used stem 1 with
             | None => None
             | Some s => add_names l' (s :: used) (dset c s names)
             end
    end.

  Definition is_named (x : nat * (option string * string)) : bool :=
    match fst (snd x) with Some _ => true | None => false end.

  Definition display_names (choices : dict nat (option string * string))
    : option (dict nat string) :=
    match add_names (filter is_named choices) [] [] with
    | None => None
    | Some (used, names) =>
        match add_names (filter (fun x => negb (is_named x)) choices) used names with
        | None => None
        | Some (_, names') =>
            (* {c_id: names[c_id] for c_id in choices.keys()} *)
            fold_right (fun c acc =>
              match dget c names', acc with
              | Some n, Some d => Some ((c, n) :: d)
              | _, _ => None
              end) (Some []) (dkeys choices)
        end
    end.
End DisplayNames.

(** Parameters of estimators, _evaluation.py lines 688-706 and _estimator.py lines 125-136. *)
Section Params.
  (** Values of parameters; the choices of the expression, by identifier, with the value of
      their [chosen_outcome_idx] or [chosen_outcome]. *)
  Context {P : Type}.
  Definition chosen := dict nat P.

  Definition param_name (k : nat) : string := ("expr__" ++ str_nat k)%string.

  (** [get_params(deep=True)] without the entry for [expr] itself: expressions have no
      [get_params], so scikit-learn adds nothing else. *)
  Definition get_params (d : chosen) : dict string P :=
    map (fun kv => (param_name (fst kv), snd kv)) d.

  (** [s.lstrip(chars)] *)
  Fixpoint lstrip (chars : list ascii) (s : string) : string :=
    match s with
    | EmptyString => EmptyString
    | String c s' => if mem c chars then lstrip chars s' else s
    end.

  (** [int(s)] for strings of decimal digits. Simplification: Python also accepts a sign,
      surrounding spaces and underscores between the digits. *)
  Definition int_of (s : string) : res nat :=
    match DecimalString.NilZero.uint_of_string s with
    | Some u => Ok (Nat.of_uint u)
    | None => Err ValueError
    end.

  Definition param_id (name : string) : res nat :=
    int_of (lstrip (list_ascii_of_string "expr__") name).

  (** [set_params(expr, params)], _evaluation.py lines 699-706. Choices set before a failure
      remain set. *)
  Fixpoint set_ids (params : list (nat * P)) (d : chosen) : chosen * res unit :=
    match params with
    | [] => (d, Ok tt)
    | (k, v) :: params' =>
        if mem k (dkeys d) then set_ids params' (dset k v d) else (d, Err KeyError)
    end.

  (** [ExprEstimator.set_params], _estimator.py lines 132-136. [new_expr]: the choices of
      the expression passed for the parameter [expr], if any; [params]: the others. The
      dict built from the other parameters is complete before anything is set. *)
  Definition set_params (new_expr : option chosen) (params : list (string * P)) (d : chosen)
    : chosen * res unit :=
    let d1 := match new_expr with Some d' => d' | None => d end in
    match mapM (fun p => let! k := param_id (fst p) in Ok (k, snd p)) params with
    | Err e => (d1, Err e)
    | Ok l => set_ids (fold_left (fun acc kv => dset (fst kv) (snd kv) acc) l []) d1
    end.
End Params.
