(** The text of expressions: [Expr.__repr__] (/repo/skrub/_expressions/_expressions.py 525-535), [simple_repr]
    (/repo/skrub/_expressions/_utils.py 25-28), the labels of graphs (/repo/skrub/_expressions/_inspection.py 262-298) and the lines of
    [describe_steps] (/repo/skrub/_expressions/_evaluation.py 382-406), with what [re.sub] does with its replacement
    ([parse_template] of the standard library). *)
From Verif Require Import Base M_labels.
From Coq Require Import NArith.
Open Scope string_scope.
Open Scope list_scope.
Open Scope nat_scope.

(** [re.error], which is not one of the exceptions of [Base] *)
Definition re_error : exn := UserError 0.

(** ** Characters *)
Definition backslash : N := 92%N.
Definition is_digit (c : N) : bool := ((48 <=? c) && (c <=? 57))%N.
Definition is_octal (c : N) : bool := ((48 <=? c) && (c <=? 55))%N.
Definition is_letter (c : N) : bool := (((65 <=? c) && (c <=? 90)) || ((97 <=? c) && (c <=? 122)))%N.
Definition digit (c : N) : N := (c - 48)%N.
(** the escapes that stand for a character: [\a \b \f \n \r \t \v \\] *)
Definition escape_of (c : N) : option N :=
  dget c [(97, 7); (98, 8); (102, 12); (110, 10); (114, 13); (116, 9); (118, 11); (92, 92)]%N.

Section Text.
  (** [str.isidentifier]; [str.upper]; the line breaks of [str.splitlines]; [repr] of a string *)
  Variable identifier : text -> bool.
  Variable upper : text -> text.
  Variable line_break : N -> bool.
  Variable quoted : text -> text.

  (** ** [check_name], _expressions.py 654-669; a name that is not a string and not [None]: [NOther] *)
  Inductive namearg := NNone | NStr (t : text) | NOther.
  Definition check_name (n : namearg) (of_var : bool) : res (option text) :=
    match n with
    | NNone => if of_var then Err TypeError else Ok None
    | NOther => Err TypeError
    | NStr t => if eqb_of (firstn 7 t) (of_string "_skrub_") then Err ValueError else Ok (Some t)
    end.

  (** ** [re.sub] *)
  (** what [\g<name>] inserts: the pattern has a single group, without a name *)
  Definition number (t : text) : N := fold_left (fun n c => 10 * n + digit c)%N t 0%N.
  Definition group_named (whole group name : text) : res text :=
    if identifier name then Err IndexError
    else if negb (0 <? length name) || negb (forallb is_digit name) then Err re_error
    else if (number name =? 0)%N then Ok whole
    else if (number name =? 1)%N then Ok group
    else Err re_error.
  (** [parse_template] and the expansion of its result; [inside]: the characters of a group name that were read, last first *)
  Fixpoint expand (whole group : text) (inside : option text) (t : text) {struct t} : res text :=
    match inside with
    | Some name =>
        match t with
        | [] => Err re_error
        | c :: t' =>
            if (c =? 62)%N
            then let! g := group_named whole group (rev name) in let! r := expand whole group None t' in Ok (g ++ r)
            else expand whole group (Some (c :: name)) t'
        end
    | None =>
        match t with
        | [] => Ok []
        | c :: t' =>
            if (c =? backslash)%N then
              match t' with
              | [] => Err re_error
              | d :: t2 =>
                  if (d =? 103)%N then
                    match t2 with
                    | e :: t3 => if (e =? 60)%N then expand whole group (Some []) t3 else Err re_error
                    | [] => Err re_error
                    end
                  else if (d =? 48)%N then
                    match t2 with
                    | e :: t3 =>
                        if is_octal e then
                          match t3 with
                          | f :: t4 =>
                              if is_octal f then let! r := expand whole group None t4 in Ok ((8 * digit e + digit f)%N :: r)
                              else let! r := expand whole group None t3 in Ok (digit e :: r)
                          | [] => Ok [digit e]
                          end
                        else let! r := expand whole group None t2 in Ok (0%N :: r)
                    | [] => Ok [0%N]
                    end
                  else if is_digit d then
                    match t2 with
                    | e :: t3 =>
                        if is_digit e then
                          match t3 with
                          | f :: t4 =>
                              if is_octal d && is_octal e && is_octal f
                              then let n := (64 * digit d + 8 * digit e + digit f)%N in
                                   if (255 <? n)%N then Err re_error else let! r := expand whole group None t4 in Ok (n :: r)
                              else Err re_error (* the group of two digits *)
                          | [] => Err re_error
                          end
                        else if (digit d =? 1)%N then let! r := expand whole group None t2 in Ok (group ++ r)
                        else Err re_error
                    | [] => if (digit d =? 1)%N then Ok group else Err re_error
                    end
                  else
                    match escape_of d with
                    | Some x => let! r := expand whole group None t2 in Ok (x :: r)
                    | None => if is_letter d then Err re_error
                              else let! r := expand whole group None t2 in Ok (c :: d :: r)
                    end
              end
            else let! r := expand whole group None t' in Ok (c :: r)
        end
    end.
  (** [re.sub("^(<|)", replacement, s)]: one match, at the start *)
  Definition sub_start (replacement s : text) : res text :=
    let '(found, rest) := match s with c :: s' => if (c =? 60)%N then ([c], s') else ([], s) | [] => ([], []) end in
    let! r := expand found found None replacement in
    Ok (r ++ rest).

  (** ** [Expr.__repr__] *)
  (** an expression: the text of its implementation, whether it is a variable, its name and the text of its preview *)
  Record expr := { node : text; is_var : bool; name : option text; preview : option (res text) }.
  Definition separator : text := of_string " | ".
  Definition heading : text := [10%N] ++ of_string "Result:" ++ [10; 8213; 8213; 8213; 8213; 8213; 8213; 8213; 10]%N.
  Definition repr (e : expr) : res text :=
    let! result :=
      match (if is_var e then None else name e) with
      | Some n => sub_start ([backslash; 49%N] ++ n ++ separator) (node e)
      | None => Ok (node e)
      end in
    match preview e with
    | None => Ok result
    | Some p => let! shown := p in Ok (result ++ heading ++ shown)
    end.

  (** ** [simple_repr] *)
  Fixpoint first_line (t : text) : text := match t with c :: t' => if line_break c then [] else c :: first_line t' | [] => [] end.
  Definition removeprefix (x : N) (t : text) : text := match t with c :: t' => if (c =? x)%N then t' else t | [] => [] end.
  Definition removesuffix (x : N) (t : text) : text := rev (removeprefix x (rev t)).
  (** [t.partition(" ")]: what is before the first space, and the rest with the space *)
  Fixpoint first_word (t : text) : text * text :=
    match t with
    | [] => ([], [])
    | c :: t' => if (c =? 32)%N then ([], t) else let '(a, b) := first_word t' in (c :: a, b)
    end.
  Definition simple_repr (e : expr) : res text :=
    let! t := repr e in
    match t with
    | [] => Err IndexError
    | _ => let '(start, rest) := first_word (removesuffix 62 (removeprefix 60 (first_line t))) in Ok (upper start ++ rest)
    end.

  (** ** [describe_steps]: a line for each visit of a node; [nat]: its [id] *)
  Fixpoint step_lines (seen : list nat) (visits : list (nat * expr)) : res (list text) :=
    match visits with
    | [] => Ok []
    | (i, e) :: rest =>
        let! line := simple_repr e in
        let! lines := step_lines (i :: seen) rest in
        Ok ((if mem i seen then of_string "( " ++ line ++ of_string " )*" else line) :: lines)
    end.

  (** ** Labels of graphs *)
  (** [html.escape] *)
  Definition html_char (c : N) : text :=
    if (c =? 38)%N then of_string "&amp;" else if (c =? 60)%N then of_string "&lt;" else if (c =? 62)%N then of_string "&gt;"
    else if (c =? 34)%N then of_string "&quot;" else if (c =? 39)%N then of_string "&#x27;" else [c].
  Definition html_escape (t : text) : text := flat_map html_char t.
  (** [label.replace("\n", "<br />")] *)
  Definition breaks (t : text) : text := flat_map (fun c => if (c =? 10)%N then of_string "<br />" else [c]) t.
  (** what is between the tags of [_node_kwargs], 263-288; [mark]: [X:], [y:] or nothing; [link]: whether the node has a page *)
  Definition label (mark : text) (link : bool) (e : expr) : res text :=
    let! t := simple_repr e in
    let l := html_escape t in
    let l := match (if is_var e then None else name e) with Some n => l ++ [10%N] ++ quoted n | None => l end in
    let l := mark ++ l in
    Ok (if link then breaks l else l).
End Text.
