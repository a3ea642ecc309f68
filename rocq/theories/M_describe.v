(** Descriptions of parameter grids: [describe_param_grid] (/repo/skrub/_expressions/_inspection.py 343-369), with the
    representations it uses: [Repr], [_ShortRepr], [short_repr], [repr_args] (/repo/skrub/_utils.py 181-239),
    [Choice.__repr__], [Choice.__skrub_short_repr__], [Optional.__repr__], [BoolChoice.__repr__], [_repr_numeric_choice]
    (/repo/skrub/_expressions/_choosing.py 266-282, 412-419, 441-444, 485-497), [reprlib.Repr] and [repr] of strings. *)
From Verif Require Import Base M_labels M_grid.
From Coq Require Import NArith List.
Import ListNotations.
Open Scope string_scope.
Open Scope list_scope.
Open Scope nat_scope.

Definition newline : N := 10%N.
Definition dots : text := of_string "...".

Section Describe.
  (** [str.isprintable] of characters that are not ASCII *)
  Variable printable : N -> bool.

  (** ** [repr] of a string (CPython, [unicode_repr]) *)
  Definition hex_digit (d : N) : N := (if d <? 10 then 48 + d else 87 + d)%N.
  Fixpoint hex (k : nat) (n : N) : text :=
    match k with 0 => [] | S k' => hex k' (n / 16)%N ++ [hex_digit (n mod 16)%N] end.
  Definition escape_char (q c : N) : text :=
    (if (c =? q) || (c =? 92) then [92; c]
     else if c =? 9 then [92; 116]
     else if c =? 10 then [92; 110]
     else if c =? 13 then [92; 114]
     else if (c <? 32) || (c =? 127) then 92 :: 120 :: hex 2 c
     else if c <? 127 then [c]
     else if printable c then [c]
     else if c <? 256 then 92 :: 120 :: hex 2 c
     else if c <? 65536 then 92 :: 117 :: hex 4 c
     else 92 :: 85 :: hex 8 c)%N.
  Definition quote_of (s : text) : N := if mem 39%N s && negb (mem 34%N s) then 34%N else 39%N.
  Definition repr_str (s : text) : text := let q := quote_of s in q :: flat_map (escape_char q) s ++ [q].

  (** ** Objects. Those other than strings, integers, lists, tuples, dictionaries and choices among outcomes (also numeric
      choices) are known by the name of their class and their [repr]. Simplification: no sets and arrays of the standard
      library, no objects other than choices that define [__skrub_short_repr__]. *)
  Inductive choice_class : Type := Plain | Opt | Boolean.
  Inductive obj : Type :=
  | OStr (s : text)
  | OInt (digits : text)
  | OInst (class_name repr : text)
  | OList (l : list obj)
  | OTuple (l : list obj)
  | ODict (l : list (obj * obj))
  | OChoice (cls : choice_class) (names : option (list text)) (outcomes : list obj) (name : option text).

  (** [x[k:]] for [k = len(x) - j], which can be negative *)
  Definition tail_slice {A} (x : list A) (j : nat) : list A :=
    skipn (if j <=? length x then length x - j else length x - (j - length x)) x.
  (** [reprlib.Repr]: [s[:i] + fillvalue + s[len(s)-j:]] with [i = max(0, (max-3)//2)] and [j = max(0, max-3-i)] *)
  Definition cut_ends (max : nat) (s : text) : text :=
    let i := (max - 3) / 2 in let j := max - 3 - i in firstn i s ++ dots ++ tail_slice s j.
  Definition cut (max : nat) (s : text) : text := if max <? length s then cut_ends max s else s.
  (** [reprlib.Repr.repr_str], [maxstring] *)
  Definition short_str (max : nat) (x : text) : text :=
    let s := repr_str (firstn max x) in
    if max <? length s then
      let i := (max - 3) / 2 in let j := max - 3 - i in cut_ends max (repr_str (firstn i x ++ tail_slice x j))
    else s.
  (** [_ShortRepr.repr_instance], _utils.py 215-222, with [maxother = 50] *)
  Definition short_instance (class_name r : text) : text :=
    if mem newline r || (50 <? length r) then class_name ++ of_string "(...)" else cut 50 r.

  Fixpoint join (sep : text) (l : list text) : text :=
    match l with [] => [] | [x] => x | x :: l' => x ++ sep ++ join sep l' end.
  Definition comma : text := of_string ", ".

  (** [reprlib.Repr._repr_iterable], for the pieces shown *)
  Definition iterable (level n max : nat) (pieces : list text) (opening closing trail : text) : text :=
    if (level =? 0) && negb (n =? 0) then opening ++ dots ++ closing
    else opening ++ join comma (pieces ++ (if max <? n then [dots] else [])) ++
         (if n =? 1 then trail else []) ++ closing.
  (** [Repr.repr_dict], _utils.py 184-211 *)
  Definition repr_dict (level n max : nat) (pieces : list text) : text :=
    if n =? 0 then of_string "{}"
    else if level =? 0 then of_string "{" ++ dots ++ of_string "}"
    else of_string "{" ++ join comma (pieces ++ (if max <? n then [dots] else [])) ++ of_string "}".
  (** [repr_args] with the arguments shown and the optional name, _utils.py 231-239 *)
  Definition with_name (args : list text) (name : option text) : text :=
    join comma (args ++ match name with None => [] | Some n => [of_string "name=" ++ short_str 30 n] end).

  (** [Repr.repr1], level by level; [repr_args] starts again at [maxlevel = 6]. An [Optional] with no value for its first
      outcome cannot be built. *)
  Fixpoint repr1 (level : nat) (o : obj) : text :=
    match o with
    | OStr s => short_str 30 s
    | OInt d => cut 40 d
    | OInst c r => short_instance c r
    | OList l =>
        iterable level (length l) 6
          ((fix go k (l : list obj) := match k, l with S k', x :: l' => repr1 (level - 1) x :: go k' l' | _, _ => [] end) 6 l)
          (of_string "[") (of_string "]") []
    | OTuple l =>
        iterable level (length l) 6
          ((fix go k (l : list obj) := match k, l with S k', x :: l' => repr1 (level - 1) x :: go k' l' | _, _ => [] end) 6 l)
          (of_string "(") (of_string ")") (of_string ",")
    | ODict l =>
        repr_dict level (length l) 4
          ((fix go k (l : list (obj * obj)) :=
              match k, l with
              | S k', (x, v) :: l' => (repr1 (level - 1) x ++ of_string ": " ++ repr1 (level - 1) v) :: go k' l'
              | _, _ => []
              end) 4 l)
    | OChoice _ (Some names) _ name =>
        (* [__skrub_short_repr__], _choosing.py 275-282: the dictionary of the names and of ellipses *)
        of_string "choose_from(" ++
        with_name [repr_dict 6 (length names) 4 (map (fun n => short_str 30 n ++ of_string ": " ++ [8230%N]) (firstn 4 names))] name ++
        of_string ")"
    | OChoice Boolean None _ name => of_string "choose_bool(" ++ with_name [] name ++ of_string ")"
    | OChoice Opt None outcomes name =>
        of_string "optional(" ++ with_name (match outcomes with [] => [] | x :: _ => [repr1 6 x] end) name ++ of_string ")"
    | OChoice Plain None outcomes name =>
        of_string "choose_from(" ++
        with_name [iterable 6 (length outcomes) 6
          ((fix go k (l : list obj) := match k, l with S k', x :: l' => repr1 5 x :: go k' l' | _, _ => [] end) 6 outcomes)
          (of_string "[") (of_string "]") []] name ++ of_string ")"
    end.
  (** [short_repr], _utils.py 225-228 *)
  Definition short_repr (o : obj) : text := repr1 6 o.

  (** [_repr_numeric_choice], _choosing.py 485-497 *)
  Definition repr_numeric (to_int : bool) (low high : obj) (log : bool) (n_steps : option obj) (name : option text) : text :=
    of_string (if to_int then "choose_int(" else "choose_float(") ++
    with_name ([short_repr low; short_repr high] ++ (if log then [of_string "log=True"] else []) ++
               match n_steps with None => [] | Some k => [of_string "n_steps=" ++ short_repr k] end) name ++
    of_string ")".

  (** ** Descriptions *)
  (** what is known of a choice: the names of its outcomes, if any, and their values; the parameters of a numeric choice *)
  Inductive info : Type :=
  | Listed (names : option (list text)) (outcomes : list obj)
  | Range (to_int : bool) (low high : obj) (log : bool) (n_steps : option obj) (name : option text).

  Context {V : Type}.
  (** [repr] of the value of a numeric choice *)
  Variable show_value : V -> text.

  Definition get {A} (l : list A) (i : nat) : res A := match nth_error l i with Some x => Ok x | None => Err IndexError end.
  (** [repr] of a list of strings: no limits *)
  Definition repr_strs (l : list text) : text := of_string "[" ++ join comma (map repr_str l) ++ of_string "]".

  (** lines 355-367 *)
  Definition describe_range (c : info) (v : range V) : res text :=
    match c, v with
    | Range to_int low high log n_steps name, Whole => Ok (repr_numeric to_int low high log n_steps name)
    | Range _ _ _ _ _ _, Single x => Ok (of_string "[" ++ show_value x ++ of_string "]")
    | Range _ _ _ _ _ _, Indices _ => Err TypeError (* not built by [param_grid] *)
    | Listed (Some names) _, Indices [i] => let! n := get names i in Ok (repr_str n)
    | Listed None outcomes, Indices [i] => let! o := get outcomes i in Ok (short_repr o)
    | Listed _ _, Indices [] => Err AssertionError
    | Listed (Some names) _, Indices l => let! ns := mapM (get names) l in Ok (repr_strs ns)
    | Listed None outcomes, Indices l => let! os := mapM (get outcomes) l in Ok (short_repr (OList os))
    | Listed _ _, _ => Err TypeError (* not built by [param_grid] *)
    end.

  Variable choices : dict nat info.
  Variable display_names : dict nat text.

  (** lines 351-368; [prefix]: of the next line *)
  Fixpoint describe_subgrid (prefix : text) (g : grid V) : res text :=
    match g with
    | [] => Ok []
    | (k, v) :: g' =>
        match dget k choices, dget k display_names with
        | Some c, Some name =>
            let! d := describe_range c v in
            let! rest := describe_subgrid (of_string "  ") g' in
            Ok (prefix ++ name ++ of_string ": " ++ d ++ [newline] ++ rest)
        | _, _ => Err KeyError
        end
    end.
  (** lines 347-369 *)
  Definition describe_grid (gs : list (grid V)) : res text :=
    let! ts := mapM (describe_subgrid (of_string "- ")) gs in
    Ok (match concat ts with [] => of_string "<empty parameter grid>" ++ [newline] | t => t end).
  (** [describe_param_grid] *)
  Definition describe_param_grid (G : cgraph V) : res text := let! gs := param_grid G in describe_grid gs.
End Describe.
