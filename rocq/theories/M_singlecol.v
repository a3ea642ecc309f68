(** [SingleColumnTransformer], _on_each_column.py lines 50-194: the methods that classes derived
    from it get, and the note added to their documentation. *)
From Coq Require Import Ascii.
From Verif Require Import Base.
Open Scope string_scope.
Open Scope list_scope.
Open Scope nat_scope.

(** ** Methods *)
Section Classes.
  (** First arguments of methods, targets, results. *)
  Variables X Y V : Type.
  Variable is_dataframe : X -> bool.    (* sbd.is_dataframe: False for all other types *)
  Variable is_column : X -> bool.
  Variable none : Y.                    (* None given as y *)
  Variable self_value : V.              (* the transformer itself *)

  (** What a method does: observable effects, calls of methods of [self] and of [super()], whose
      exceptions it may catch. [y]: None when not given. *)
  Inductive prog : Type :=
  | Return (r : res V)
  | Effect (n : nat) (k : prog)
  | CallSelf (m : string) (x : X) (y : option Y) (k : res V -> prog)
  | CallSuper (m : string) (x : X) (y : option Y) (k : res V -> prog).
  (** A function of a class body; [f_name]: its [__name__] if it has one. *)
  Record func := mk_func { f_name : option string; f_body : X -> option Y -> prog }.

  (** An attribute of a class once the class has been made. [Checked b a]: a wrapper around [a], which
      takes y if [b], lines 133-165. *)
  Inductive attr := Plain (f : func) | Checked (with_y : bool) (a : attr).
  (** [functools.wraps] copies the name. *)
  Fixpoint a_name (a : attr) : option string :=
    match a with Plain f => f_name f | Checked _ a' => a_name a' end.

  (** [_wrap_add_check_single_column], lines 127-165. *)
  Definition wrap (a : attr) : res attr :=
    match a_name a with
    | None => Err AttributeError
    | Some n => if eqb_of n "fit" then Ok (Checked true a)
                else if eqb_of n "partial_fit" then Ok (Checked true a)
                else if eqb_of n "fit_transform" then Ok (Checked true a)
                else if eqb_of n "transform" then Ok (Checked false a)
                else Err AssertionError
    end.

  (** [__init_subclass__], lines 121-124: the functions of the body of the class under the four names
      are replaced. (Classes made with [staticmethod] and the like are not considered.) *)
  Definition wrapped_names : list string := ["fit"; "fit_transform"; "transform"; "partial_fit"].
  Definition init_subclass (own : list (string * attr)) : res (list (string * attr)) :=
    mapM (fun na => if mem (fst na) wrapped_names then let! a := wrap (snd na) in Ok (fst na, a) else Ok na) own.

  (** [SingleColumnTransformer.fit], lines 76-96. *)
  Definition base_fit : func :=
    mk_func (Some "fit")
      (fun x y => CallSelf "fit_transform" x (Some (match y with Some y' => y' | None => none end))
         (fun r => match r with Ok _ => Return (Ok self_value) | Err e => Return (Err e) end)).

  (** The classes of the method resolution order of a class: those derived from
      [SingleColumnTransformer], itself, and others. *)
  Inductive entry := Derived (own : list (string * func)) | TheBase | Foreign (own : list (string * func)).
  Definition plain (own : list (string * func)) : list (string * attr) := map (fun nf => (fst nf, Plain (snd nf))) own.
  Definition make_entry (e : entry) : res (list (string * attr)) :=
    match e with
    | Derived own => init_subclass (plain own)
    | TheBase => Ok [("fit", Plain base_fit)]
    | Foreign own => Ok (plain own)
    end.
  Definition make (mro : list entry) : res (list (list (string * attr))) := mapM make_entry mro.

  (** Attribute lookup, from the class number [i] on. *)
  Fixpoint lookup_from (i : nat) (mro : list (list (string * attr))) (m : string) : option (nat * attr) :=
    match mro with
    | [] => None
    | d :: mro' => match dget m d with Some a => Some (i, a) | None => lookup_from (S i) mro' m end
    end.
  Definition lookup (start : nat) (mro : list (list (string * attr))) (m : string) : option (nat * attr) :=
    lookup_from start (skipn start mro) m.

  (** [_check_single_column], lines 98-112. *)
  Definition check (x : X) : res unit :=
    if is_dataframe x then Err ValueError
    else if is_column x then Ok tt else Err ValueError.

  (** Calling an attribute found in class [i]: the program that runs, or an exception. *)
  Fixpoint enter (a : attr) (x : X) (y : option Y) : res prog :=
    match a with
    | Plain f => Ok (f_body f x y)
    | Checked true a' => let! _ := check x in enter a' x (Some (match y with Some y' => y' | None => none end))
    | Checked false a' => match y with
                          | Some _ => Err TypeError
                          | None => let! _ := check x in enter a' x None
                          end
    end.

  Definition outcome : Type := option (list nat * res V).
  Definition after (t : list nat) (o : outcome) : outcome :=
    match o with Some (t', r) => Some (t ++ t', r) | None => None end.

  Section Run.
    Variable mro : list (list (string * attr)).
    Definition invoke (ex : nat -> prog -> outcome) (start : nat) (m : string) (x : X) (y : option Y) : outcome :=
      match lookup start mro m with
      | None => Some ([], Err AttributeError)
      | Some (i, a) => match enter a x y with
                       | Err e => Some ([], Err e)
                       | Ok p => ex i p
                       end
      end.
    (** [calls]: how deep calls may be nested (None beyond). [i]: the class whose method runs. *)
    Fixpoint exec (calls : nat) (i : nat) (p : prog) : outcome :=
      match calls with
      | 0 => None
      | S d =>
        (fix go (p : prog) : outcome :=
           match p with
           | Return r => Some ([], r)
           | Effect n k => after [n] (go k)
           | CallSelf m x y k => match invoke (exec d) 0 m x y with
                                 | Some (t, r) => after t (go (k r))
                                 | None => None
                                 end
           | CallSuper m x y k => match invoke (exec d) (S i) m x y with
                                  | Some (t, r) => after t (go (k r))
                                  | None => None
                                  end
           end) p
      end.
    (** [transformer.m(x)] or [transformer.m(x, y)]. *)
    Definition call (calls : nat) (m : string) (x : X) (y : option Y) : outcome := invoke (exec calls) 0 m x y.
  End Run.
End Classes.

(** ** Documentation *)
Definition text : Type := list ascii.
Definition newline : ascii := "010"%char.
Definition blank_char : ascii := " "%char.
(** [str.isspace] for ASCII. *)
Definition white (c : ascii) : bool :=
  let n := nat_of_ascii c in ((9 <=? n) && (n <=? 13)) || ((28 <=? n) && (n <=? 32)).
(** [not line.strip()] *)
Definition blank (l : text) : bool := forallb white l.
(** [splitlines(True)], for texts without other line boundaries than the newline. *)
Fixpoint lines (s : text) : list text :=
  match s with
  | [] => []
  | c :: r => if Ascii.eqb c newline then [c] :: lines r
              else match lines r with [] => [[c]] | l :: ls => (c :: l) :: ls end
  end.

(** [re.match(r"^( )*\S", line)], lines 170-177: number of spaces in front. *)
Fixpoint spaces_before (l : text) : option nat :=
  match l with
  | [] => None
  | c :: r => if Ascii.eqb c blank_char then option_map S (spaces_before r)
              else if white c then None else Some 0
  end.
Definition indent_of (ls : list text) : nat :=
  let ns := flat_map (fun l => match spaces_before l with Some n => [n] | None => [] end) (tl ls) in
  match ns with [] => 0 | n :: ns' => fold_left Nat.min ns' n end.

(** The two loops, lines 180-188: lines up to the first that is not blank; then up to a blank one
    (true: there was none). *)
Fixpoint to_text (ls : list text) : list text * list text :=
  match ls with
  | [] => ([], [])
  | l :: r => if blank l then let (a, b) := to_text r in (l :: a, b) else ([l], r)
  end.
Fixpoint to_blank (ls : list text) : list text * list text * bool :=
  match ls with
  | [] => ([], [], true)
  | l :: r => if blank l then ([l], r, false)
              else match to_blank r with (a, b, e) => (l :: a, b, e) end
  end.
Definition indented (n : nat) (l : text) : text := if blank l then l else repeat blank_char n ++ l.
(** [_insert_after_first_paragraph], lines 168-194. *)
Definition insert_note (doc note : text) : text :=
  let ls := lines doc in
  let n := indent_of ls in
  let (a, r) := to_text ls in
  match to_blank r with
  | (b, rest, missing) =>
      concat (a ++ b ++ (if missing then [[newline]] else []) ++ map (indented n) (lines note) ++ [[newline]] ++ rest)
  end.
