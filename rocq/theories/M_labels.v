(** Labels of the plots of reports: [ellide_string], [format_percent] (/repo/skrub/_reporting/_utils.py 44-97) and [_serialize]
    (/repo/skrub/_reporting/_plotting.py 126-143), with what matplotlib does with a text ([svg.fonttype] "none"). *)
From Coq Require Import QArith Qround.
From Verif Require Import Base.
From Coq Require Import NArith.
Open Scope string_scope.
Open Scope list_scope.
Open Scope nat_scope.

(** texts are lists of code points *)
Definition text : Type := list N.
Definition of_string (s : string) : text := map N_of_ascii (list_ascii_of_string s).
#[global] Instance EqD_N : EqD N := N.eq_dec.

Section Labels.
  (** [str.isspace], which is also what [\s] matches; [unicodedata.bidirectional] *)
  Variable is_space : N -> bool.
  Variable bidi : N -> string.

  (** [re.sub(r"\s+", " ", s)]; [after]: the previous character is a space *)
  Fixpoint normalize (after : bool) (t : text) : text :=
    match t with
    | [] => []
    | c :: t' => if is_space c then (if after then normalize true t' else 32%N :: normalize true t') else c :: normalize false t'
    end.
  Fixpoint lstrip (t : text) : text := match t with c :: t' => if is_space c then lstrip t' else t | [] => [] end.
  Definition strip (t : text) : text := rev (lstrip (rev (lstrip t))).
  (** _utils.py 67-83 *)
  Definition end_mark (shown : text) : text :=
    match rev shown with
    | [] => []
    | c :: _ =>
        if mem (bidi c) ["R"; "RLE"; "RLO"; "RLI"] then [8207%N]
        else if mem (bidi c) ["AL"] then [1564%N]
        else if mem (bidi c) ["L"; "LRE"; "LRO"; "LRI"] then [8206%N]
        else []
    end.
  (** [ellide_string], 44-83, of [str(s)] *)
  Definition ellide (max_len : nat) (t : text) : text :=
    let s := normalize false t in
    if length s <=? max_len then s
    else let shown := strip (firstn max_len s) in shown ++ [8230%N] ++ end_mark shown.

  (** ** Texts in the figure *)
  Fixpoint count (c : N) (t : text) : nat := match t with [] => 0 | a :: t' => (if (a =? c)%N then 1 else 0) + count c t' end.
  Fixpoint count_escaped (t : text) : nat :=
    match t with a :: ((b :: _) as t') => (if ((a =? 92) && (b =? 36))%N then 1 else 0) + count_escaped t' | _ => 0 end.
  (** [matplotlib.cbook.is_math_text]: some dollars, in even number, not counting those after a backslash *)
  Definition is_math (t : text) : bool := let n := count 36 t - count_escaped t in (0 <? n) && Nat.even n.
  (** the drawing of formulas; an error for texts that are not formulas *)
  Variable formula : text -> res text.
  (** [_escape_cdata] *)
  Definition escape_char (c : N) : text :=
    if (c =? 38)%N then of_string "&amp;" else if (c =? 60)%N then of_string "&lt;" else if (c =? 62)%N then of_string "&gt;" else [c].
  Definition escape (t : text) : text := flat_map escape_char t.
  (** [s.replace(r"\$", "$")] *)
  Fixpoint undollar (t : text) : text :=
    match t with
    | a :: ((b :: t'') as t') => if ((a =? 92) && (b =? 36))%N then 36%N :: undollar t'' else a :: undollar t'
    | _ => t
    end.
  (** [Text._preprocess_math] and [RendererSVG.draw_text] of matplotlib, for labels given to [set_xlabel], [set_yticklabels] *)
  Definition draw (label : text) : res text := if is_math label then formula label else Ok (escape (undollar label)).

  (** [re.sub]: leftmost matches that do not overlap. A matcher gives the length of the match at the start of a text, and the replacement *)
  Definition matcher : Type := text -> option (nat * res text).
  Fixpoint sub_n (m : matcher) (skip : nat) (t : text) : res text :=
    match t with
    | [] => Ok []
    | c :: t' =>
        match skip with
        | S k => sub_n m k t'
        | O =>
            match m t with
            | Some (S k, r) => let! r := r in let! rest := sub_n m k t' in Ok (r ++ rest)
            | _ => let! rest := sub_n m 0 t' in Ok (c :: rest)
            end
        end
    end.
  Definition sub (m : matcher) (t : text) : res text := sub_n m 0 t.
  Fixpoint after_prefix (p t : text) : option text :=
    match p, t with
    | [], _ => Some t
    | a :: p', b :: t' => if (a =? b)%N then after_prefix p' t' else None
    | _, [] => None
    end.
  Definition literal (p : text) (r : text) : matcher := fun t => match after_prefix p t with Some _ => Some (length p, Ok r) | None => None end.
  Fixpoint digits (t : text) : text := match t with c :: t' => if ((48 <=? c) && (c <=? 57) || (c =? 46))%N then c :: digits t' else [] | [] => [] end.
  (** [float] of digits and points, converted and printed: an error for 1.2.3 *)
  Variable em : text -> res text.
  (** [(width|height)="([0-9.]+)pt"] and [_to_em], _plotting.py 126-131 *)
  Definition size_of (attr : string) (t : text) : option (nat * res text) :=
    match after_prefix (of_string attr ++ [61; 34]%N) t with
    | None => None
    | Some t1 =>
        let d := digits t1 in
        if (length d =? 0) then None
        else match after_prefix [112; 116; 34]%N (skipn (length d) t1) with
             | None => None
             | Some _ => Some (length (of_string attr) + 2 + length d + 3, let! e := em d in Ok (of_string attr ++ [61; 34]%N ++ e ++ of_string "em" ++ [34]%N))
             end
    end.
  Definition size_match : matcher := fun t => match size_of "width" t with Some r => Some r | None => size_of "height" t end.
  Definition text_color : matcher := literal (of_string "#123456") (of_string "var(--color-text-primary)").
  Definition background_color : matcher := literal (of_string "#654321") (of_string "var(--color-background-primary)").
  (** [_serialize], 134-143 *)
  Definition serialize (svg : text) : res text :=
    let! svg := sub size_match svg in let! svg := sub text_color svg in sub background_color svg.
  (** a label in a figure: [pre] and [post] are the rest of the file; the text is the contents of an element *)
  Definition figure (pre label post : text) : res text :=
    let! body := draw label in serialize (pre ++ [62%N] ++ body ++ [60%N] ++ post).
End Labels.

(** what a browser shows for the contents of an element *)
Fixpoint unescape (t : text) : text :=
  match t with
  | [] => []
  | c :: t' =>
      if (c =? 38)%N then
        match t' with
        | 97 :: 109 :: 112 :: 59 :: r => 38 :: unescape r
        | 108 :: 116 :: 59 :: r => 60 :: unescape r
        | 103 :: 116 :: 59 :: r => 62 :: unescape r
        | _ => c :: unescape t'
        end
      else c :: unescape t'
  end%N.

(** ** Percentages *)
(** [f"{x:0.1%}"]: tenths of percents, rounded to the nearest, to the even one for ties. The product by 100 is taken to be exact. *)
Definition round_half_even (q : Q) : Z :=
  let f := Qfloor q in
  match Qcompare (q - inject_Z f) (1 # 2) with
  | Lt => f
  | Gt => f + 1
  | Eq => if Z.even f then f else f + 1
  end%Z.
Inductive percent : Type := LessThan01 | Tenths (z : Z).
(** [format_percent], _utils.py 94-97 *)
Definition format_percent (p : Q) : percent :=
  if (match Qcompare 0 p with Lt => true | _ => false end) && (match Qcompare p (1 # 1000) with Lt => true | _ => false end)
  then LessThan01 else Tenths (round_half_even (p * 1000)).
