(** Traversals that look for choices, marked nodes and conflicts,
    /repo/skrub/_expressions/_evaluation.py lines 535-618, 708-851. *)
From Verif Require Import Base M_traverse M_expr M_grid.
Open Scope string_scope.
Open Scope list_scope.
Open Scope nat_scope.

Section ChoiceGraph.
  Context {V K : Type} `{EqD K}.

  (** Looking up [outcome_mapping\[outcome\]] (line 584): the hash and equality of an outcome,
      which is not evaluated. *)
  Variable hash_obj : oid -> res K.
  Variable h : heap V K.

  (** *** [_ChoiceGraph], lines 535-587 *)

  Definition ckey := option (oid * nat).
  Record cg_st : Type := mk_cg {
    cs_choices : list oid;                (* keys of self._choices *)
    cs_children : dict ckey (list oid);   (* self._children *)
    cs_current : list ckey                (* self._current_outcome, innermost first *)
  }.
  Definition cg_init : cg_st := mk_cg [] [] [None].

  (** [self._children\[self._current_outcome\[-1\]\].append(id(choice))], line 569 *)
  Definition note_child (c : oid) (s : cg_st) : cg_st :=
    match cs_current s with
    | [] => s   (* the stack is never empty *)
    | k :: _ =>
        mk_cg (cs_choices s)
          (dset k (match dget k (cs_children s) with Some l => l ++ [c] | None => [c] end)
             (cs_children s))
          (cs_current s)
    end.
  (** [self._choices\[id(choice)\] = choice], lines 571, 577 *)
  Definition register (c : oid) (s : cg_st) : cg_st :=
    mk_cg (if mem c (cs_choices s) then cs_choices s else cs_choices s ++ [c])
      (cs_children s) (cs_current s).
  Definition push (k : ckey) (s : cg_st) : cg_st :=
    mk_cg (cs_choices s) (cs_children s) (k :: cs_current s).
  Definition pop (s : cg_st) : cg_st :=
    mk_cg (cs_choices s) (cs_children s) (tl (cs_current s)).

  Notation g := (gen unit cg_st).
  Definition gmodify (f : cg_st -> cg_st) (k : g) : g := GGet (fun s => GPut (f s) k).

  (** The loops of lines 573-576 and 582-585. *)
  Fixpoint each_outcome (c : oid) (idx : nat) (items : list (res oid)) (k : g) : g :=
    match items with
    | [] => k
    | r :: items' =>
        gmodify (push (Some (c, idx)))
          match r with
          | Ok t => GYield t (fun _ => gmodify pop (each_outcome c (S idx) items' k))
          | Err e => GRaise e
          end
    end.

  Definition outcomes_of (c : oid) : res (list oid) :=
    match h c with
    | OChoice _ outs _ => match h outs with OSeq _ items => Ok items | _ => Err TypeError end
    | _ => Err AttributeError   (* numeric choices have no [outcomes] nor [match] *)
    end.

  Definition mapped (m : oid) (outcome : oid) : res oid :=
    let! key := hash_obj outcome in
    match h m with
    | OMap _ items => match dget key items with Some t => Ok t | None => Err KeyError end
    | _ => Err TypeError
    end.

  Definition cg_handler (o : oid) : g :=
    match h o with
    | OChoice _ _ _ =>
        gmodify (note_child o)
          match outcomes_of o with
          | Ok items => each_outcome o 0 (map Ok items) (gmodify (register o) (GRet tt))
          | Err e => GRaise e
          end
    | ONumChoice _ _ _ => gmodify (note_child o) (gmodify (register o) (GRet tt))
    | OChoiceMatch c m =>
        GYield c (fun _ =>
          match outcomes_of c with
          | Ok items => each_outcome c 0 (map (mapped m) items) (GRet tt)
          | Err e => GRaise e
          end)
    | _ => yield_all (children (h o)) (fun _ => GRet tt)
    end.

  (** [short\[choice_id\]], line 544 *)
  Fixpoint index_of (c : oid) (l : list oid) : res nat :=
    match l with
    | [] => Err KeyError
    | x :: l' => if eqd c x then Ok 0 else let! i := index_of c l' in Ok (S i)
    end.

  (** [_unique], lines 450-451 *)
  Fixpoint unique (l : list oid) : list oid :=
    match l with
    | [] => []
    | x :: l' => x :: filter (fun y => negb (eqb_of y x)) (unique l')
    end.

  Definition choice_kind (c : oid) : res (choice V) :=
    match h c with
    | OChoice _ _ chosen => let! items := outcomes_of c in Ok (Enum (length items) chosen)
    | ONumChoice _ default chosen => Ok (Numeric default chosen)
    | _ => Err TypeError
    end.

  Definition short_key (short : list oid) (k : ckey) : res okey :=
    match k with
    | None => Ok None
    | Some (c, i) => let! c' := index_of c short in Ok (Some (c', i))
    end.

  (** [_ChoiceGraph.run], lines 536-566, without the display names; the first component is
      [self._short_ids]. *)
  Definition run_choice_graph (size : nat) (root : oid)
    : res (list oid * (dict nat (choice V) * childdict)) :=
    let (s, r) := visit cg_handler size [] root cg_init in
    let! _ := to_res r in
    let short := cs_choices s in
    let! kinds := mapM choice_kind short in
    let! ch := mapM (fun kl =>
                 let! k := short_key short (fst kl) in
                 let! l := mapM (fun c => index_of c short) (unique (snd kl)) in
                 Ok (k, l)) (cs_children s) in
    Ok (short, (combine (seq 0 (length kinds)) kinds, ch)).

  (** *** [_FindNode], lines 708-734. The state is the node found, [UserError 1] stands for
      the exception [_Found]. *)
  Variable pred : obj V K -> bool.
  Definition find_handler (o : oid) : gen unit (option oid) :=
    match h o with
    | OExpr _ _ _ _ | OChoice _ _ _ | ONumChoice _ _ _ =>
        if pred (h o) then GPut (Some o) (GRaise (UserError 1))
        else yield_all (children (h o)) (fun _ => GRet tt)
    | _ => yield_all (children (h o)) (fun _ => GRet tt)
    end.
  Definition find_node (size : nat) (root : oid) : res (option oid) :=
    match visit find_handler size [] root None with
    | (Some o, TErr (UserError 1)) => Ok (Some o)
    | (_, r) => let! _ := to_res r in Ok None
    end.
End ChoiceGraph.

Section FindXy.
  Context {V K : Type} `{EqD K}.
  Variable hash_obj : oid -> res K.
  Variable h : heap V K.

  Definition marked_X (ob : obj V K) : bool :=
    match ob with OExpr _ _ is_X _ => is_X | _ => false end.
  Definition marked_y (ob : obj V K) : bool :=
    match ob with OExpr _ _ _ is_y => is_y | _ => false end.
  Definition find_X := find_node h marked_X.
  Definition find_y := find_node h marked_y.

  (** Choices used by [node], as short ids of the full graph: lines 601-610. *)
  Definition choices_of_node (size : nat) (short : list oid) (node : option oid) : res (list nat) :=
    match node with
    | None => Ok []
    | Some n =>
        let! (used, _) := run_choice_graph hash_obj h size n in
        mapM (fun c => index_of c short) used
    end.

  (** [choice_graph(expr)], lines 590-618. *)
  Definition choice_graph (size : nat) (root : oid) : res (list oid * cgraph V) :=
    let! (short, (kinds, ch)) := run_choice_graph hash_obj h size root in
    let! x := find_X size root in
    let! y := find_y size root in
    let! cx := choices_of_node size short x in
    let! cy := choices_of_node size short y in
    Ok (short, mk_cgraph kinds ch (cx ++ cy)).

  (** *** [_FindConflicts], lines 765-851. *)
  Inductive reason : Type := SameName (n : string) | BothX | BothY.
  Definition conflict : Type := reason * (oid * oid).
  Record fc_st : Type := mk_fc {
    fc_names : dict string oid;
    fc_x : option oid;
    fc_y : option oid;
    fc_found : option conflict     (* the value of [_Found] *)
  }.
  Definition fc_init : fc_st := mk_fc [] None None None.

  (** [_add_to_dict], lines 820-831: the new content, or the other object. *)
  Definition add_to (other : option oid) (o : oid) : option oid + oid :=
    match other with
    | None => inl (Some o)
    | Some o' => if eqd o' o then inl other else inr o'
    end.

  (** [_add], lines 833-838 *)
  Definition fc_add (o : oid) (name : option string) (is_X is_y : bool) (s : fc_st)
    (k : gen unit fc_st) : gen unit fc_st :=
    let found r other :=
      GPut (mk_fc (fc_names s) (fc_x s) (fc_y s) (Some (r, (other, o)))) (GRaise (UserError 1)) in
    match (if is_X then add_to (fc_x s) o else inl (fc_x s)) with
    | inr other => found BothX other
    | inl x =>
      match (if is_y then add_to (fc_y s) o else inl (fc_y s)) with
      | inr other => found BothY other
      | inl y =>
        match name with
        | None => GPut (mk_fc (fc_names s) x y (fc_found s)) k
        | Some n =>
          match add_to (dget n (fc_names s)) o with
          | inr other => found (SameName n) other
          | inl _ => GPut (mk_fc (dset n o (fc_names s)) x y (fc_found s)) k
          end
        end
      end
    end.

  Definition fc_handler (o : oid) : gen unit fc_st :=
    let rest := yield_all (children (h o)) (fun _ => GRet tt) in
    match h o with
    | OExpr _ name is_X is_y => GGet (fun s => fc_add o name is_X is_y s rest)
    | OChoice name _ _ | ONumChoice name _ _ => GGet (fun s => fc_add o name false false s rest)
    | _ => rest
    end.

  (** [find_conflicts], lines 841-851 *)
  Definition find_conflicts (size : nat) (root : oid) : res (option conflict) :=
    match visit fc_handler size [] root fc_init with
    | (s, TErr (UserError 1)) => Ok (fc_found s)
    | (_, r) => let! _ := to_res r in Ok None
    end.
End FindXy.
