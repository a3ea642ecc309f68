(** [Choice.match] and [Match.match], /repo/skrub/_expressions/_choosing.py lines 73-91,
    142-143, 148-153, 158-236, 286-339, 372-405. *)
From Verif Require Import Base.
Open Scope list_scope.
Open Scope nat_scope.

Section Match.
  (** [key v]: what identifies [v] as the key of a dictionary or the member of a set; an
      error if it is not hashable. *)
  Context {V K : Type} `{EqD K}.
  Variable key : V -> res K.

  Record echoice : Type := mk_echoice { outcomes : list V; chosen_idx : option nat }.
  Record ematch : Type := mk_ematch { of_choice : echoice; mapping : dict K V }.

  (** [Choice.__post_init__], lines 118-119 *)
  Definition make_choice (outs : list V) : res echoice :=
    match outs with [] => Err ValueError | _ => Ok (mk_echoice outs None) end.

  (** [_check_match_keys], lines 73-91 *)
  Definition check_match_keys (outcome_values : list V) (mapping_keys : list K) (has_default : bool) : res unit :=
    let! outs := mapM key outcome_values in
    match filter (fun k => negb (mem k outs)) mapping_keys with
    | _ :: _ => Err ValueError
    | [] =>
        if has_default then Ok tt
        else match filter (fun k => negb (mem k mapping_keys)) outs with
             | _ :: _ => Err ValueError
             | [] => Ok tt
             end
    end.

  Definition is_given (default : option V) : bool := match default with Some _ => true | None => false end.

  (** [mapping.get(v, default)]. When there is no default the sentinel object [NULL] would be
      returned, which is an error here ([UserError 3]); it is proved impossible. *)
  Definition get_or (m : dict K V) (v : V) (default : option V) : res V :=
    let! k := key v in
    match dget k m, default with
    | Some x, _ => Ok x
    | None, Some d => Ok d
    | None, None => Err (UserError 3)
    end.

  (** [Choice.match], lines 228-236 *)
  Definition choice_match (c : echoice) (m : dict K V) (default : option V) : res ematch :=
    let! _ := check_match_keys (outcomes c) (dkeys m) (is_given default) in
    match default with
    | None => Ok (mk_ematch c m)
    | Some _ =>
        let! entries := mapM (fun o => let! k := key o in let! x := get_or m o default in Ok (k, x))
                          (outcomes c) in
        Ok (mk_ematch c (fold_left (fun d kx => dset (fst kx) (snd kx) d) entries []))
    end.

  (** [Match.match], lines 322-331 *)
  Definition match_match (mt : ematch) (m : dict K V) (default : option V) : res ematch :=
    let! _ := check_match_keys (map snd (mapping mt)) (dkeys m) (is_given default) in
    let! entries := mapM (fun kv => let! x := get_or m (snd kv) default in Ok (fst kv, x)) (mapping mt) in
    choice_match (of_choice mt) (fold_left (fun d kx => dset (fst kx) (snd kx) d) entries []) None.

  (** [Choice.chosen_outcome_or_default], lines 150-153 *)
  Definition chosen_outcome (c : echoice) : res V :=
    match nth_error (outcomes c) (match chosen_idx c with Some i => i | None => 0 end) with
    | Some v => Ok v
    | None => Err IndexError
    end.

  (** [get_chosen_or_default] of a [Match], lines 398-403 *)
  Definition match_value (mt : ematch) : res V :=
    let! o := chosen_outcome (of_choice mt) in
    let! k := key o in
    match dget k (mapping mt) with Some x => Ok x | None => Err KeyError end.
End Match.
