(** How choices are built, given as keyword arguments with [**choice], indexed, and mapped:
    /repo/skrub/_expressions/_choosing.py lines 14-70, 94-98, 106-162, 351-369, 412-473,
    500-597. *)
From Coq Require Import List ZArith Bool NArith.
From Verif Require Import Base M_labels M_match.
Import ListNotations.
Open Scope list_scope.
Open Scope nat_scope.

(** An object given as a name: a [str], or something else. *)
Inductive pyname : Type := PStr (t : text) | POther.
#[global] Instance EqD_pyname : EqD pyname.
Proof. unfold EqD. repeat decide equality. Defined.

(** [Choice], [Optional] and [BoolChoice], lines 107, 412 and 441. *)
Inductive enum_class : Type := Plain | OptionalChoice | BoolChoice.

Section Choices.
  Context {V : Type}.

  (** An enumerated choice, lines 106-113 (the names of outcomes are given by the user: they
      may fail to be strings, which is what is checked); a numeric choice, lines 509-518, with
      what [default()] computes; a discretized one, lines 549-559, with its grid. The name is a
      string once [_check_name] has passed. *)
  Inductive choice : Type :=
  | Enum (cls : enum_class) (outcomes : list V) (outcome_names : option (list pyname)) (name : option text) (chosen_idx : option nat)
  | Range (midpoint : V) (name : option text) (chosen : option V)
  | Steps (grid : list V) (name : option text) (chosen : option V).

  Definition choice_name (c : choice) : option text :=
    match c with Enum _ _ _ n _ => n | Range _ n _ => n | Steps _ n _ => n end.

  (** [_check_name], lines 94-98 *)
  Definition check_name (name : option pyname) : res (option text) :=
    match name with
    | None => Ok None
    | Some (PStr t) => Ok (Some t)
    | Some POther => Err TypeError
    end.

  Definition is_str (n : pyname) : bool := match n with PStr _ => true | POther => false end.
  Fixpoint all_distinct (l : list pyname) : bool :=
    match l with [] => true | x :: l' => negb (mem x l') && all_distinct l' end.

  (** [Choice.__post_init__], lines 115-130; [name] has been checked by [check_name]. *)
  Definition post_init (cls : enum_class) (outs : list V) (names : option (list pyname)) (name : option text) (idx : option nat) : res choice :=
    match outs with
    | [] => Err ValueError
    | _ =>
        match names with
        | None => Ok (Enum cls outs names name idx)
        | Some ns =>
            if negb (length ns =? length outs) then Err ValueError
            else if negb (forallb is_str ns) then Err TypeError
            else if negb (all_distinct ns) then Err ValueError
            else Ok (Enum cls outs names name idx)
        end
    end.

  Definition construct (cls : enum_class) (outs : list V) (names : option (list pyname)) (name : option pyname) : res choice :=
    let! n := check_name name in post_init cls outs names n None.

  (** What [choose_from] is given: a mapping, or a list. *)
  Inductive given : Type := GMapping (m : list (pyname * V)) | GList (l : list V).

  (** [choose_from], lines 351-369 *)
  Definition choose_from (g : given) (name : option pyname) : res choice :=
    match g with
    | GMapping m => construct Plain (map snd m) (Some (map fst m)) name
    | GList l => construct Plain l None name
    end.

  (** [optional], lines 422-438; [none] is [None]. *)
  Definition optional (none v : V) (name : option pyname) : res choice :=
    construct OptionalChoice [v; none] (Some [PStr (of_string "true"); PStr (of_string "false")]) name.

  (** [choose_bool], lines 471-473 *)
  Definition choose_bool (vtrue vfalse : V) (name : option pyname) : res choice :=
    construct BoolChoice [vtrue; vfalse] None name.

  (** [Choice.map_values], lines 132-153, with [_with_fields], lines 14-20: the choice is built
      again, with the same class and other fields. Numeric choices have no such method. *)
  Definition map_values (func : V -> res V) (c : choice) : res choice :=
    match c with
    | Enum cls outs names name idx =>
        let! outs' := mapM func outs in
        post_init cls outs' names name idx
    | Range _ _ _ | Steps _ _ _ => Err AttributeError
    end.

  (** [default], lines 155-157, 534-544 and 580-581 *)
  Definition default (c : choice) : res V :=
    match c with
    | Enum _ outs _ _ _ => match nth_error outs 0 with Some v => Ok v | None => Err IndexError end
    | Range m _ _ => Ok m
    | Steps g _ _ => match nth_error g (Nat.div2 (length g - 1)) with Some v => Ok v | None => Err IndexError end
    end.

  (** [chosen_outcome_or_default], lines 159-162 and 503-506 *)
  Definition chosen_or_default (c : choice) : res V :=
    match c with
    | Enum _ outs _ _ (Some i) => match nth_error outs i with Some v => Ok v | None => Err IndexError end
    | Range _ _ (Some v) => Ok v
    | Steps _ _ (Some v) => Ok v
    | _ => default c
    end.

  Definition uscore : N := 95%N.

  (** What follows the rightmost ["__"], if there is one. *)
  Fixpoint after_last (t : text) : option text :=
    match t with
    | [] => None
    | c :: t' =>
        match after_last t' with
        | Some r => Some r
        | None =>
            match t' with
            | c' :: r => if (N.eqb c uscore && N.eqb c' uscore)%bool then Some r else None
            | [] => None
            end
        end
    end.

  (** [name.rsplit("__", maxsplit=1)[-1]], line 62 *)
  Definition last_part (t : text) : text := match after_last t with Some r => r | None => t end.

  (** [BaseChoice.keys], lines 61-62; [None] has no method [rsplit]. *)
  Definition keys (c : choice) : res (list text) :=
    match choice_name c with
    | None => Err AttributeError
    | Some t => Ok [last_part t]
    end.

  Inductive key : Type := KStr (t : text) | KInt (z : Z).
  (** What indexing gives: the choice itself, or a value of the grid. *)
  Inductive item : Type := Self (c : choice) | Value (v : V).

  (** [grid[z]] for a numpy array. *)
  Definition at_index (l : list V) (z : Z) : res V :=
    let i := if (z <? 0)%Z then (z + Z.of_nat (length l))%Z else z in
    if (i <? 0)%Z then Err IndexError
    else match nth_error l (Z.to_nat i) with Some v => Ok v | None => Err IndexError end.

  (** [__getitem__], lines 23-33 (the wrapper), 68-70 (other choices) and 589-590 (discretized
      choices). *)
  Definition getitem (c : choice) (k : key) : res item :=
    match k with
    | KStr s =>
        let! ks := keys c in
        match ks with
        | k0 :: _ => if eqb_of s k0 then Ok (Self c) else Err KeyError
        | [] => Err IndexError
        end
    | KInt z =>
        match c with
        | Steps g _ _ => let! v := at_index g z in Ok (Value v)
        | _ => let! _ := keys c in Err TypeError
        end
    end.

  (** Unpacking [**choice]: Python takes [keys()], then the item of each. *)
  Definition unpack (c : choice) : res (list (text * item)) :=
    let! ks := keys c in
    mapM (fun k => let! i := getitem c (KStr k) in Ok (k, i)) ks.

  (** The keyword arguments of a call [f( **c1, **c2, name=value)]: an argument given twice is an
      error. *)
  Inductive argument : Type := Unpacked (c : choice) | Named (t : text) (v : V).
  Definition pairs_of (a : argument) : res (list (text * item)) :=
    match a with Unpacked c => unpack c | Named t v => Ok [(t, Value v)] end.
  Fixpoint add_pairs (ps : list (text * item)) (d : dict text item) : res (dict text item) :=
    match ps with
    | [] => Ok d
    | (k, i) :: ps' => match dget k d with Some _ => Err TypeError | None => add_pairs ps' (dset k i d) end
    end.
  Fixpoint keyword_arguments (l : list argument) (d : dict text item) : res (dict text item) :=
    match l with
    | [] => Ok d
    | a :: l' => let! ps := pairs_of a in let! d' := add_pairs ps d in keyword_arguments l' d'
    end.

  (** The sequence interface of discretized choices, lines 586-596, and the methods inherited
      from [collections.abc.Sequence]: [index] tries the indices from 0 until there is no item;
      [reversed] takes the items from the last index. *)
  Definition seq_len (c : choice) : res nat :=
    match c with Steps g _ _ => Ok (length g) | _ => Err TypeError end.
  Definition seq_iter (c : choice) : res (list V) :=
    match c with Steps g _ _ => Ok g | _ => Err TypeError end.
  Definition item_at (c : choice) (i : nat) : res V :=
    let! x := getitem c (KInt (Z.of_nat i)) in
    match x with Value v => Ok v | Self _ => Err TypeError end.
  Definition seq_reversed (c : choice) : res (list V) :=
    let! n := seq_len c in mapM (item_at c) (rev (seq 0 n)).
  Fixpoint index_from (eqv : V -> V -> bool) (c : choice) (v : V) (fuel i : nat) : res nat :=
    match fuel with
    | 0 => Err ValueError
    | S fuel' =>
        match item_at c i with
        | Ok w => if eqv w v then Ok i else index_from eqv c v fuel' (S i)
        | Err IndexError => Err ValueError
        | Err e => Err e
        end
    end.
  Definition seq_index (eqv : V -> V -> bool) (c : choice) (v : V) : res nat :=
    let! n := seq_len c in index_from eqv c v (S n) 0.
  Definition seq_contains (eqv : V -> V -> bool) (c : choice) (v : V) : res bool :=
    let! l := seq_iter c in Ok (existsb (fun w => eqv w v) l).

  (** [BoolChoice.if_else], lines 446-468; [kt] and [kf] are [True] and [False] as keys of a
      dictionary, and [hash_key] what identifies a value as a key. *)
  Definition if_else {K : Type} `{EqD K} (hash_key : V -> res K) (kt kf : K) (c : choice) (if_true if_false : V) : res (@ematch V K) :=
    match c with
    | Enum BoolChoice outs _ _ idx => choice_match hash_key (mk_echoice outs idx) [(kt, if_true); (kf, if_false)] None
    | _ => Err AttributeError
    end.
End Choices.
Arguments choice : clear implicits.
Arguments item : clear implicits.
Arguments argument : clear implicits.
Arguments given : clear implicits.
