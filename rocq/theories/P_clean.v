(** Theorems about cleaning tables (C93-C99). *)
From Coq Require Import QArith Permutation.
From Verif Require Import Base M_nullstr M_dropnulls M_todt L_nullstr L_todt M_clean L_clean1 L_clean2 L_clean3 L_clean4 L_clean5 L_clean6 L_clean7.
Open Scope string_scope.
Open Scope list_scope.
Open Scope nat_scope.
Set Default Proof Using "Type".

Section Theorems.
  Context {N TZ Name F O K : Type} `{EqD N} `{EqD F} `{EqD O}.
  Notation cell := (cell N O).
  Notation dtype := (dtype N TZ O K).
  Notation column := (column N TZ O K).
  Notation dcell := (@M_todt.cell text cell).
  Variable is_space : nat -> bool.
  Variable fl : Q -> Q.
  Variable UTC : TZ.
  Variable tz_name : TZ -> option Name.
  Variable zone_of : Name -> option TZ.
  Variable parse : lib -> F -> dcell -> option Z.
  Variable infer : list dcell -> dcell -> option Z.
  Variable has_offset : F -> bool.
  Variable default_resolution : lib -> Z.
  Variable guess : bool -> text -> option F.
  Variable pick : nat -> nat -> list nat.
  Variable round : N -> N.
  Variable of_bool : bool -> N.
  Variable num : lib -> dtype -> cell -> option (option N).
  Variable ticks : dtype -> Z -> N.
  Variable NaT_value : N.
  Variable castable castable_str nested : dtype -> bool.
  Variable str : lib -> dtype -> cell -> text.
  Variable empty_is_string : bool.
  Variable hashable : cell -> bool.
  Variable sort_cats : list cell -> list cell.

  Notation fit_step := (fit_step is_space fl UTC parse infer has_offset default_resolution guess pick round of_bool num ticks NaT_value castable castable_str nested str empty_is_string sort_cats).
  Notation transform_step := (transform_step is_space UTC tz_name zone_of parse infer has_offset default_resolution round of_bool num ticks NaT_value castable castable_str nested str empty_is_string hashable sort_cats).
  Notation to_string := (to_string castable_str nested str empty_is_string).
  Notation to_float32 := (to_float32 round of_bool num ticks NaT_value castable).
  Notation with_string_categories := (with_string_categories str empty_is_string sort_cats).
  Notation to_categorical := (to_categorical castable_str nested str empty_is_string hashable sort_cats).
  Notation cat_str := (@cat_str N TZ O K str).
  Notation fitted := (fitted TZ F).
  Notation table := (table N TZ O K).
  Notation fit_columns := (fit_columns is_space fl UTC parse infer has_offset default_resolution guess pick round of_bool num ticks NaT_value castable castable_str nested str empty_is_string sort_cats).
  Notation fit_steps := (fit_steps is_space fl UTC parse infer has_offset default_resolution guess pick round of_bool num ticks NaT_value castable castable_str nested str empty_is_string sort_cats).
  Notation transform_columns := (transform_columns is_space UTC tz_name zone_of parse infer has_offset default_resolution round of_bool num ticks NaT_value castable castable_str nested str empty_is_string hashable sort_cats).
  Notation transform_steps := (transform_steps is_space UTC tz_name zone_of parse infer has_offset default_resolution round of_bool num ticks NaT_value castable castable_str nested str empty_is_string hashable sort_cats).

  Notation names := (map fst).
  Notation date_fit := (date_fit UTC parse infer has_offset default_resolution guess pick).
  Notation date_transform := (date_transform UTC tz_name zone_of parse infer has_offset default_resolution).
  Notation float_fit := (float_fit round of_bool num ticks NaT_value castable).
  Notation FChain := (FChain is_space fl UTC parse infer has_offset default_resolution guess pick round of_bool num ticks NaT_value castable castable_str nested str empty_is_string sort_cats).
  Notation TChain := (TChain is_space UTC tz_name zone_of parse infer has_offset default_resolution round of_bool num ticks NaT_value castable castable_str nested str empty_is_string hashable sort_cats).
  Notation run := (run is_space UTC tz_name zone_of parse infer has_offset default_resolution round of_bool num ticks NaT_value castable castable_str nested str empty_is_string hashable sort_cats).
  Hypothesis newline_space : is_space newline = true.
  Hypothesis sort_perm : forall l, Permutation (sort_cats l) l.
  Hypothesis default_pos : forall l, (0 < default_resolution l)%Z.
  Notation Fate := (Fate UTC parse infer has_offset default_resolution guess pick round of_bool num ticks NaT_value castable castable_str nested str empty_is_string sort_cats).
  Notation AfterNulls := (AfterNulls is_space).


  Hypothesis str_text : forall l t s, str l t (CStr s) = s.
  Hypothesis utc_named : exists n z, tz_name UTC = Some n /\ zone_of n = Some z.
  Notation chain_fate := (chain_fate is_space fl UTC parse infer has_offset default_resolution guess pick round of_bool num ticks NaT_value castable castable_str nested str empty_is_string sort_cats newline_space default_pos).
  Notation fit_steps_out := (fit_steps_out is_space fl UTC parse infer has_offset default_resolution guess pick round of_bool num ticks NaT_value castable castable_str nested str empty_is_string sort_cats).
  Notation clean_fit := (clean_fit is_space fl UTC parse infer has_offset default_resolution guess pick round of_bool num ticks NaT_value castable castable_str nested str empty_is_string sort_cats).
  Notation clean_transform := (clean_transform is_space UTC tz_name zone_of parse infer has_offset default_resolution round of_bool num ticks NaT_value castable castable_str nested str empty_is_string hashable sort_cats).


  Notation Lost := (Lost is_space).
  Notation cats_fit := (cats_fit str empty_is_string sort_cats).
  Notation cats_transform := (cats_transform castable_str nested str empty_is_string hashable sort_cats).
  Notation Texts := (Texts str).
  Notation Cleanable := (Cleanable castable_str nested).
  Hypothesis pick_ok : PickOk pick.

  (** C93: after the first steps of the TableVectorizer ([f = true]) and in the output of the Cleaner ([f = false]), every column contains strings or nulls, has distinct strings as
      categories, contains datetimes, or numbers -- 32-bit floats with the TableVectorizer. *)
  Theorem C93_types : forall t f X cl Y, clean_fit t f X = Ok (cl, Y) -> NoDup (names X) -> (forall n c, In (n, c) X -> WF c) ->
    forall n c', In (n, c') Y -> exists c, In (n, c) X /\ clib c' = clib c /\
      (CleanStr c' \/ CleanCat c' \/ CleanTime c' \/ exists b, cdtype c' = TNum b /\ (f = true -> b = true)).
  Proof using newline_space sort_perm default_pos. intros t f X cl Y E ND W. apply clean_fit_ok in E. destruct E as [E _]. exact (fit_clean is_space fl UTC parse infer has_offset default_resolution guess pick round of_bool num ticks NaT_value castable castable_str nested str empty_is_string sort_cats newline_space sort_perm default_pos t f X (pipeline cl) Y E ND W). Qed.
  (** C93: no table is refused, as long as its types can be converted to strings, which holds for pandas; *)
  Theorem C93_total : forall t f X, valid t = true -> NoDup (names X) -> (forall n c, In (n, c) X -> Cleanable c) -> exists cl Y, clean_fit t f X = Ok (cl, Y).
  Proof using newline_space sort_perm default_pos. exact (clean_total is_space fl UTC parse infer has_offset default_resolution guess pick round of_bool num ticks NaT_value castable castable_str nested str empty_is_string sort_cats newline_space sort_perm default_pos). Qed.
  (** C93: the fraction of nulls must be one, and the only exceptions are ValueErrors. *)
  Theorem C93_invalid : forall t f X, valid t = false -> X <> [] -> NoDup (names X) -> clean_fit t f X = Err ValueError.
  Proof using newline_space. exact (clean_invalid is_space fl UTC parse infer has_offset default_resolution guess pick round of_bool num ticks NaT_value castable castable_str nested str empty_is_string sort_cats newline_space). Qed.
  Theorem C93_errors : forall t f X e, NoDup (names X) -> clean_fit t f X = Err e -> e = ValueError.
  Proof using. exact (clean_err is_space fl UTC parse infer has_offset default_resolution guess pick round of_bool num ticks NaT_value castable castable_str nested str empty_is_string sort_cats). Qed.

  (** C94: with the TableVectorizer, [transform] gives the same columns as the fit, with the same kinds. *)
  Theorem C94_same_names : forall t f X cl Y X' Y', clean_fit t f X = Ok (cl, Y) -> NoDup (names X) -> clean_transform cl X' = Ok Y' -> names X' = names X -> names Y' = names Y.
  Proof using. intros t f X cl Y X' Y' E. apply clean_fit_ok in E. destruct E as [E _]. intros ND E'. exact (transform_names is_space fl UTC tz_name zone_of parse infer has_offset default_resolution guess pick round of_bool num ticks NaT_value castable castable_str nested str empty_is_string hashable sort_cats t f X (pipeline cl) Y X' Y' E ND E'). Qed.
  Theorem C94_same_kinds : forall t X cl Y X' Y', clean_fit t true X = Ok (cl, Y) -> NoDup (names X) -> (forall n c, In (n, c) X -> WF c) ->
    clean_transform cl X' = Ok Y' -> NoDup (names X') -> (forall n d, In (n, d) X' -> WF d) ->
    forall n c' d', In (n, c') Y -> In (n, d') Y' -> SameKind c' d'.
  Proof using newline_space sort_perm default_pos.
    intros t X cl Y X' Y' E ND W E' ND' W' n c' d' I I'. apply clean_fit_ok in E. destruct E as [E _].
    destruct (transform_kind is_space fl UTC tz_name zone_of parse infer has_offset default_resolution guess pick round of_bool num ticks NaT_value castable castable_str nested str empty_is_string hashable sort_cats newline_space sort_perm default_pos t true X (pipeline cl) Y X' Y' E ND W E' ND' W' n c' d' I I') as [(X0 & _)|S]; [discriminate|exact S].
  Qed.
  (** C94: later tables with the same names are accepted, if the types are those of the fit, whatever the entries; with pandas, whatever the types, if entries of categorical columns can be hashed. *)
  Theorem C94_accepts : forall t f X cl Y X', clean_fit t f X = Ok (cl, Y) -> NoDup (names X) ->
    Forall2 (fun p q => fst p = fst q /\ Good tz_name zone_of (snd p) /\ Good tz_name zone_of (snd q) /\ Like hashable (snd p) (snd q)) X X' -> exists Y', clean_transform cl X' = Ok Y'.
  Proof using newline_space sort_perm default_pos utc_named. exact (later_total is_space fl UTC tz_name zone_of parse infer has_offset default_resolution guess pick round of_bool num ticks NaT_value castable castable_str nested str empty_is_string hashable sort_cats newline_space sort_perm default_pos utc_named). Qed.
  (** C94: so does the Cleaner for columns that are not of numbers; *)
  Theorem C94_cleaner_partial : forall t X cl Y X' Y', clean_fit t false X = Ok (cl, Y) -> NoDup (names X) -> (forall n c, In (n, c) X -> WF c) ->
    clean_transform cl X' = Ok Y' -> NoDup (names X') -> (forall n d, In (n, d) X' -> WF d) ->
    forall n c' d', In (n, c') Y -> In (n, d') Y' -> is_numeric c' = false -> SameKind c' d'.
  Proof using newline_space sort_perm default_pos.
    intros t X cl Y X' Y' E ND W E' ND' W' n c' d' I I' Nn. apply clean_fit_ok in E. destruct E as [E _].
    destruct (transform_kind is_space fl UTC tz_name zone_of parse infer has_offset default_resolution guess pick round of_bool num ticks NaT_value castable castable_str nested str empty_is_string hashable sort_cats newline_space sort_perm default_pos t false X (pipeline cl) Y X' Y' E ND W E' ND' W' n c' d' I I') as [(_ & _ & Nm & _)|S]; [congruence|exact S].
  Qed.
  (** C94: but it returns whatever it is given for those. *)
  Theorem C94_cleaner_refuted : forall t n (c d : column), valid t = true -> WF c -> is_numeric c = true -> decide is_null fl t (cells c) = false ->
    exists cl, clean_fit t false [(n, c)] = Ok (cl, [(n, c)]) /\ clean_transform cl [(n, d)] = Ok [(n, d)].
  Proof using. exact (numbers_through is_space fl UTC tz_name zone_of parse infer has_offset default_resolution guess pick round of_bool num ticks NaT_value castable castable_str nested str empty_is_string hashable sort_cats). Qed.

  (** C95: in the output of the Cleaner, the nulls are the nulls of the input and the texts that stand for one; *)
  Theorem C95_cleaner : forall t X cl Y, clean_fit t false X = Ok (cl, Y) -> NoDup (names X) -> (forall n c, In (n, c) X -> WF c) ->
    forall n c', In (n, c') Y -> exists c, In (n, c) X /\ Forall2 (fun x y => is_null y = true <-> Lost c x) (cells c) (cells c').
  Proof using newline_space default_pos. intros t X cl Y E. apply clean_fit_ok in E. destruct E as [E _]. exact (fit_nulls is_space fl UTC parse infer has_offset default_resolution guess pick round of_bool num ticks NaT_value castable castable_str nested str empty_is_string sort_cats newline_space default_pos t X (pipeline cl) Y E). Qed.
  (** C95: other texts are kept if the column stays one of strings. *)
  Theorem C95_texts : forall t f X cl Y, clean_fit t f X = Ok (cl, Y) -> NoDup (names X) -> (forall n c, In (n, c) X -> WF c) ->
    forall n c c', In (n, c) X -> In (n, c') Y -> Textual c -> CleanStr c' ->
      Forall2 (fun x y => forall s, x = CStr s -> ~ NullString is_space s -> y = CStr s) (cells c) (cells c').
  Proof using newline_space default_pos str_text. intros t f X cl Y E. apply clean_fit_ok in E. destruct E as [E _]. exact (fit_texts is_space fl UTC parse infer has_offset default_resolution guess pick round of_bool num ticks NaT_value castable castable_str nested str empty_is_string sort_cats newline_space default_pos str_text t f X (pipeline cl) Y E). Qed.
  (** C95: for the TableVectorizer, also what is read as NaN becomes null, and nulls stay so unless they are durations of pandas; *)
  Theorem C95_table_vectorizer_partial : forall t X cl Y, clean_fit t true X = Ok (cl, Y) -> NoDup (names X) -> (forall n c, In (n, c) X -> WF c) ->
    forall n c', In (n, c') Y -> exists c, In (n, c) X /\
      Forall2 (fun x y => (~ (clib c = Pandas /\ cdtype c = TDur) -> Lost c x -> is_null y = true) /\ (is_null y = true -> Lost c x \/ num (clib c) (cdtype c) x = Some None)) (cells c) (cells c').
  Proof using newline_space default_pos. intros t X cl Y E. apply clean_fit_ok in E. destruct E as [E _]. exact (fit_nulls_float is_space fl UTC parse infer has_offset default_resolution guess pick round of_bool num ticks NaT_value castable castable_str nested str empty_is_string sort_cats newline_space default_pos t X (pipeline cl) Y E). Qed.
  (** C95: missing durations become the number that represents them. *)
  Theorem C95_durations_refuted : forall n z, exists cl,
    clean_fit TNone true [(n, {| clib := Pandas; cdtype := TDur; cells := [CDur z; CNull NaN] |})] = Ok (cl, [(n, {| clib := Pandas; cdtype := TNum true; cells := [CNum (ticks TDur z); CNum NaT_value] |})]).
  Proof using. exact (durations is_space fl UTC parse infer has_offset default_resolution guess pick round of_bool num ticks NaT_value castable castable_str nested str empty_is_string sort_cats). Qed.

  (** C96: a categorical column is accepted; its output has distinct strings as categories; each entry is the text of that of the input; *)
  Theorem C96_fit : forall c, WF c -> is_categorical c = true -> exists c', cats_fit c = Ok c' /\ CleanCat c' /\ clib c' = clib c /\ Forall2 (Texts (clib c)) (cells c) (cells c').
  Proof using sort_perm str_text.
    intros c W C. unfold M_clean.cats_fit. rewrite C. cbn [negb]. destruct (cats_total str empty_is_string sort_cats c C) as (c' & E). exists c'. split; [exact E|].
    destruct (cats_clean str empty_is_string sort_cats sort_perm c c' W C E) as [Cc L]. split; [exact Cc|]. split; [exact L|]. exact (cats_texts str empty_is_string sort_cats str_text c c' W C E).
  Qed.
  (** C96: if the texts of the categories differ, these are kept in their order, ordered or not as before; *)
  Theorem C96_order : forall c c' k, WF c -> cdtype c = TCat k -> cats_fit c = Ok c' -> NoDup (map (fun x => str Pandas TObj x) (cats k)) ->
    exists k', cdtype c' = TCat k' /\ cats k' = map (fun x => CStr (str Pandas TObj x)) (cats k) /\ ordered k' = ordered k.
  Proof using str_text.
    intros c c' k W C E ND. unfold M_clean.cats_fit in E. assert (C' : is_categorical c = true) by (unfold is_categorical; rewrite C; reflexivity). rewrite C' in E. cbn [negb] in E.
    assert (M : map cat_str (cats k) = map (fun x => CStr (str Pandas TObj x)) (cats k)). { apply map_ext_in. intros x I. destruct W as [W _]. rewrite C in W. destruct W as (_ & NN & _). specialize (NN x I). destruct x; try discriminate; reflexivity. }
    destruct (cats_order str empty_is_string sort_cats str_text c c' k W C E) as (k' & E1 & E2 & E3).
    - rewrite M, <- (map_map (fun x => str Pandas TObj x) (fun s => CStr s)). apply FinFun.Injective_map_NoDup; [intros a b X; injection X as ->; reflexivity|exact ND].
    - exists k'. rewrite M in E2. split; [exact E1|]. split; [exact E2|exact E3].
  Qed.
  (** C96: other columns are rejected; *)
  Theorem C96_rejects : forall c, is_categorical c = false -> cats_fit c = Err RejectColumn.
  Proof using. intros c C. unfold M_clean.cats_fit. rewrite C. reflexivity. Qed.
  (** C96: but [transform] gives such categories for any column of hashable entries. *)
  Theorem C96_transform : forall c : column, WF c -> (forall x, In x (cells c) -> hashable x = true) -> (clib c = Pandas \/ cdtype c = TStr \/ is_categorical c = true \/ nested (cdtype c) = true \/ castable_str (cdtype c) = true) ->
    exists c', cats_transform c = Ok c' /\ CleanCat c' /\ clib c' = clib c.
  Proof using sort_perm. clear - sort_perm.
    intros c W Hs A. destruct (cats_transform_total castable_str nested str empty_is_string hashable sort_cats c Hs) as (c' & E); [tauto|]. exists c'. split; [exact E|]. exact (cats_transform_clean castable_str nested str empty_is_string hashable sort_cats sort_perm c c' W E).
  Qed.

  (** C97: [transform] of the data that was used for the fit gives the result of [fit_transform]. *)
  Theorem C97_same_output : forall t f X cl Y, clean_fit t f X = Ok (cl, Y) -> NoDup (names X) -> (forall n c, In (n, c) X -> WF c /\ NamedZone tz_name zone_of c) -> clean_transform cl X = Ok Y.
  Proof using newline_space sort_perm default_pos utc_named. exact (same_output is_space fl UTC tz_name zone_of parse infer has_offset default_resolution guess pick round of_bool num ticks NaT_value castable castable_str nested str empty_is_string hashable sort_cats newline_space sort_perm default_pos utc_named). Qed.

  (** C98: there is a list of steps for each column of the input, and no other; *)
  Theorem C98_names : forall t f X cl Y, clean_fit t f X = Ok (cl, Y) -> NoDup (names X) ->
    (forall n, In n (names X) -> exists l, dget n (steps_of cl) = Some l) /\ (forall n, ~ In n (names X) -> dget n (steps_of cl) = None).
  Proof using. exact (steps_listed is_space fl UTC parse infer has_offset default_resolution guess pick round of_bool num ticks NaT_value castable castable_str nested str empty_is_string sort_cats). Qed.
  (** C98: [transform] applies exactly these steps, in that order; *)
  Theorem C98_steps : forall t f X cl Y, clean_fit t f X = Ok (cl, Y) -> NoDup (names X) -> forall X' Y', clean_transform cl X' = Ok Y' -> NoDup (names X') -> (forall n, In n (names X') -> In n (names X)) ->
    (forall n, In n (names Y') -> In n (names X')) /\
    forall n d, In (n, d) X' -> exists l, dget n (steps_of cl) = Some l /\ ((run l d = Ok None /\ ~ In n (names Y')) \/ exists d', run l d = Ok (Some d') /\ In (n, d') Y').
  Proof using. exact (steps_applied is_space fl UTC tz_name zone_of parse infer has_offset default_resolution guess pick round of_bool num ticks NaT_value castable castable_str nested str empty_is_string hashable sort_cats). Qed.
  (** C98: and succeeds if they do. *)
  Theorem C98_total : forall t f X cl Y, clean_fit t f X = Ok (cl, Y) -> NoDup (names X) -> forall X', NoDup (names X') -> (forall n, In n (names X') -> In n (names X)) ->
    (forall n d l, In (n, d) X' -> dget n (steps_of cl) = Some l -> exists o, run l d = Ok o) -> exists Y', clean_transform cl X' = Ok Y'.
  Proof using. exact (steps_total is_space fl UTC tz_name zone_of parse infer has_offset default_resolution guess pick round of_bool num ticks NaT_value castable castable_str nested str empty_is_string hashable sort_cats). Qed.

  (** C99: columns of numbers, datetimes, categories or texts that were cleaned are left as they are by another Cleaner; *)
  Theorem C99_partial : forall t X cl Y, clean_fit t false X = Ok (cl, Y) -> NoDup (names X) -> (forall n c, In (n, c) X -> WF c /\ Plain c) -> exists cl', clean_fit t false Y = Ok (cl', Y).
  Proof using newline_space sort_perm default_pos str_text. exact (clean_again is_space fl UTC parse infer has_offset default_resolution guess pick round of_bool num ticks NaT_value castable castable_str nested str empty_is_string sort_cats newline_space sort_perm default_pos str_text). Qed.
  (** C99: but objects whose text is that of a date become texts, then datetimes. *)
  Theorem C99_refuted : forall n o s f z, str Pandas TObj (COther o) = s -> ~ NullString is_space s -> guess false s = Some f -> parse Pandas f (M_todt.CStr s) = Some z ->
    exists cl cl2 c2, clean_fit TNone false [(n, {| clib := Pandas; cdtype := TObj; cells := [COther o] |})] = Ok (cl, [(n, {| clib := Pandas; cdtype := TObj; cells := [CStr s] |})]) /\
      clean_fit TNone false [(n, {| clib := Pandas; cdtype := TObj; cells := [CStr s] |})] = Ok (cl2, [(n, c2)]) /\ exists d, cdtype c2 = TTime d.
  Proof using newline_space default_pos pick_ok. exact (objects_again is_space fl UTC parse infer has_offset default_resolution guess pick round of_bool num ticks NaT_value castable castable_str nested str empty_is_string sort_cats newline_space default_pos pick_ok). Qed.
End Theorems.
Print Assumptions C93_types.
Print Assumptions C93_total.
Print Assumptions C93_invalid.
Print Assumptions C93_errors.
Print Assumptions C94_same_names.
Print Assumptions C94_same_kinds.
Print Assumptions C94_accepts.
Print Assumptions C94_cleaner_partial.
Print Assumptions C94_cleaner_refuted.
Print Assumptions C95_cleaner.
Print Assumptions C95_texts.
Print Assumptions C95_table_vectorizer_partial.
Print Assumptions C95_durations_refuted.
Print Assumptions C96_fit.
Print Assumptions C96_order.
Print Assumptions C96_rejects.
Print Assumptions C96_transform.
Print Assumptions C97_same_output.
Print Assumptions C98_names.
Print Assumptions C98_steps.
Print Assumptions C98_total.
Print Assumptions C99_partial.
Print Assumptions C99_refuted.

(** ** Examples *)
(** numbers are [nat]; the text d is that of a date, 7 that of a number; the object 0 is a date *)
#[local] Instance EqD_unit : EqD unit. Proof. intros [] []. left. reflexivity. Defined.
Definition ex_is (s : text) (k : string) : bool := if list_eq_dec Nat.eq_dec s (text_of k) then true else false.
Definition ex_space (c : nat) : bool := (c =? 32) || (c =? 10).
Notation ex_cell := (cell nat nat).
Notation ex_dtype := (dtype nat unit nat unit).
Notation ex_column := (column nat unit nat unit).
Definition ex_parse (l : lib) (f : unit) (c : @M_todt.cell text ex_cell) : option Z := match c with M_todt.CStr s => if ex_is s "d" then Some 5%Z else None | _ => None end.
Definition ex_infer (l : list (@M_todt.cell text ex_cell)) (c : @M_todt.cell text ex_cell) : option Z := ex_parse Pandas tt c.
Definition ex_guess (b : bool) (s : text) : option unit := if ex_is s "d" then Some tt else None.
Definition ex_pick (len n : nat) : list nat := seq 0 n.
Definition ex_num (l : lib) (t : ex_dtype) (c : ex_cell) : option (option nat) :=
  match c with CNum x => Some (Some x) | CBool b => Some (Some (if b then 1 else 0)) | CStr s => if ex_is s "7" then Some (Some 7) else if ex_is s "inf-inf" then Some None else None | _ => None end.
Definition ex_str (l : lib) (t : ex_dtype) (c : ex_cell) : text := match c with CStr s => s | COther 0 => text_of "d" | CNum 3 => text_of "3" | _ => text_of "x" end.
Definition ex_yes (t : ex_dtype) : bool := true.
Definition ex_fit := clean_fit ex_space (fun q => q) tt ex_parse ex_infer (fun _ => false) (fun _ => 1%Z) ex_guess ex_pick (fun x : nat => x) (fun b : bool => if b then 1 else 0) ex_num (fun _ z => Z.to_nat z) 99 ex_yes ex_yes ex_yes ex_str true (fun l => l).
Definition ex_transform := clean_transform ex_space tt (fun _ => Some tt) (fun _ : unit => Some tt) ex_parse ex_infer (fun _ => false) (fun _ => 1%Z) (fun x : nat => x) (fun b : bool => if b then 1 else 0) ex_num (fun _ z => Z.to_nat z) 99 ex_yes ex_yes ex_yes ex_str true (fun _ => true) (fun l => l).
Definition ex_a : ex_column := {| clib := Pandas; cdtype := TObj; cells := [CStr (text_of "u"); CStr (text_of "N/A"); CStr (text_of "v")] |}.
Definition ex_d : ex_column := {| clib := Pandas; cdtype := TObj; cells := [CStr (text_of "d"); CNull NaN; CStr (text_of "d")] |}.
Definition ex_n : ex_column := {| clib := Pandas; cdtype := TNum false; cells := [CNum 1; CNum 2; CNull NaN] |}.
Definition ex_k : ex_column := {| clib := Pandas; cdtype := TCat {| cats := [CStr (text_of "w"); CNum 3]; cats_ext := false; ordered := true |}; cells := [CNum 3; CNull NaN; CStr (text_of "w")] |}.
Definition ex_s : ex_column := {| clib := Pandas; cdtype := TObj; cells := [CStr (text_of "7"); CStr (text_of "?"); CStr (text_of "7")] |}.
Definition ex_e : ex_column := {| clib := Pandas; cdtype := TObj; cells := [CStr (text_of "N/A"); CNull NaN; CNull PyNone] |}.
Definition ex_X : table nat unit nat unit := [("a", ex_a); ("d", ex_d); ("n", ex_n); ("k", ex_k); ("s", ex_s); ("e", ex_e)].
Definition ex_out (f : bool) : table nat unit nat unit :=
  [("a", {| clib := Pandas; cdtype := TObj; cells := [CStr (text_of "u"); CNull NaN; CStr (text_of "v")] |});
   ("d", {| clib := Pandas; cdtype := TTime {| resolution := 1; zone := None |}; cells := [CTime 5; CNull NaN; CTime 5] |});
   ("n", if f then {| clib := Pandas; cdtype := TNum true; cells := [CNum 1; CNum 2; CNull NaN] |} else ex_n);
   ("k", {| clib := Pandas; cdtype := TCat {| cats := [CStr (text_of "w"); CStr (text_of "3")]; cats_ext := false; ordered := true |}; cells := [CStr (text_of "3"); CNull NaN; CStr (text_of "w")] |});
   ("s", if f then {| clib := Pandas; cdtype := TNum true; cells := [CNum 7; CNull NaN; CNum 7] |} else {| clib := Pandas; cdtype := TObj; cells := [CStr (text_of "7"); CNull NaN; CStr (text_of "7")] |})].
Definition ex_cl (f : bool) : cleaner unit unit := match ex_fit (M_dropnulls.TNum 1) f ex_X with Ok (cl, _) => cl | Err _ => {| pipeline := []; steps_of := [] |} end.

(** the hypotheses on what is not modelled *)
Example ex_newline : ex_space newline = true. Proof. reflexivity. Qed.
Example ex_str_text : forall l t s, ex_str l t (CStr s) = s. Proof. reflexivity. Qed.
Example ex_utc_named : exists n z : unit, Some tt = Some n /\ Some tt = Some z. Proof. exists tt, tt. split; reflexivity. Qed.
Lemma ex_pick_ok : PickOk ex_pick.
Proof. intros len n L. unfold ex_pick. split; [apply seq_length|]. split; [apply seq_NoDup|]. apply Forall_forall. intros i I. apply in_seq in I. lia. Qed.
Example ex_sort_perm : forall l : list ex_cell, Permutation l l. Proof. intros l. apply Permutation_refl. Qed.
(** and on the table *)
Example ex_names : NoDup (map fst ex_X). Proof. repeat constructor; cbn; intuition discriminate. Qed.
Example ex_wf : forall n c, In (n, c) ex_X -> Cleanable ex_yes ex_yes c /\ NamedZone (fun _ : unit => Some tt) (fun _ : unit => Some tt) c.
Proof.
  assert (W : forall c, In c [ex_a; ex_d; ex_n; ex_k; ex_s; ex_e] -> WF c /\ clib c = Pandas /\ is_any_date c = false).
  { intros c I. cbn in I. destruct I as [<-|[<-|[<-|[<-|[<-|[<-|[]]]]]]]; (split; [|split; reflexivity]); unfold WF, TypeOk, CellOk, NullOk; cbn; try (split; [exact Logic.I|repeat constructor; eexists; reflexivity]).
    split; [|repeat constructor; cbn; tauto]. split; [repeat constructor; cbn; intuition discriminate|]. split; [|discriminate]. intros x [<-|[<-|[]]]; reflexivity. }
  intros n c I. destruct (W c) as (Wc & L & D).
  { apply (in_map snd) in I. exact I. }
  split; [split; [exact Wc|left; exact L]|]. intros d Ed. unfold is_any_date in D. rewrite Ed in D. discriminate.
Qed.

Example C93_example : ex_fit (M_dropnulls.TNum 1) false ex_X = Ok (ex_cl false, ex_out false) /\ ex_fit (M_dropnulls.TNum 1) true ex_X = Ok (ex_cl true, ex_out true).
Proof. split; vm_compute; reflexivity. Qed.
Example C93_invalid_example : ex_fit (M_dropnulls.TNum 2) true ex_X = Err ValueError. Proof. vm_compute. reflexivity. Qed.
(** a polars type that cannot be converted to strings *)
Example C93_errors_example : clean_fit ex_space (fun q => q) tt ex_parse ex_infer (fun _ => false) (fun _ => 1%Z) ex_guess ex_pick (fun x : nat => x) (fun b : bool => if b then 1 else 0) ex_num (fun _ z => Z.to_nat z) 99 (fun _ => false) (fun _ => false) (fun _ => false) ex_str true (fun l => l)
  TNone false [("x", {| clib := Polars; cdtype := TOther tt; cells := [COther 4] |})] = Err ValueError.
Proof. vm_compute. reflexivity. Qed.
(** the kinds are those of the fit for other data *)
Definition ex_X' : table nat unit nat unit :=
  [("a", ex_n); ("d", ex_a); ("n", ex_a); ("k", ex_a); ("s", ex_s); ("e", ex_a)].
Example C94_example : exists Y', ex_transform (ex_cl true) ex_X' = Ok Y' /\ map fst Y' = ["a"; "d"; "n"; "k"; "s"] /\ map (fun p => cdtype (snd p)) Y' =
  [TObj; TTime {| resolution := 1; zone := None |}; TNum true; TCat {| cats := [CStr (text_of "u"); CStr (text_of "N/A"); CStr (text_of "v")]; cats_ext := false; ordered := false |}; TNum true].
Proof. eexists. split; [vm_compute; reflexivity|]. split; vm_compute; reflexivity. Qed.
(** numbers at the fit of the Cleaner, then texts *)
Definition ex_p (x : string) : ex_column := {| clib := Polars; cdtype := TStr; cells := [CStr (text_of x)] |}.
Example C94_accepts_example : Like (fun _ => true) (ex_p "7") (ex_p "u") /\ Like (fun _ => true) ex_n ex_a /\
  exists cl, ex_fit TNone true [("s", ex_p "7")] = Ok (cl, [("s", {| clib := Polars; cdtype := TNum true; cells := [CNum 7] |})]) /\
    ex_transform cl [("s", ex_p "u")] = Ok [("s", {| clib := Polars; cdtype := TNum true; cells := [CNull PyNone] |})].
Proof. split; [split; [reflexivity|left; reflexivity]|]. split; [split; [reflexivity|right; split; [reflexivity|discriminate]]|]. eexists. split; vm_compute; reflexivity. Qed.
Example C94_refuted_example : exists Y', ex_transform (ex_cl false) ex_X' = Ok Y' /\ dget "n" Y' = Some ex_a.
Proof. eexists. split; vm_compute; reflexivity. Qed.
Lemma ex_letter : forall c, ex_space c = false -> c <> 63 -> ~ NullString ex_space [c].
Proof.
  intros c E Q [B|M]; [inversion B; congruence|]. unfold Marker in M.
  destruct M as [(m & I & X)|[(m & I & X)|[(m & I & X)|[X|[X|X]]]]]; try (cbn in I; repeat (destruct I as [<-|I]; [discriminate|]); destruct I); try discriminate. injection X as X. exact (Q X).
Qed.
Example C95_example : Textual ex_a /\ NullString ex_space (text_of "N/A") /\ ~ NullString ex_space (text_of "u") /\ CleanStr (snd (nth 0 (ex_out false) ("", ex_n))).
Proof.
  split; [right; split; reflexivity|]. split; [right; left; exists "N/A"; split; [cbn; tauto|reflexivity]|]. split.
  - apply ex_letter; [reflexivity|cbn; lia].
  - split; [reflexivity|]. constructor; [left; eexists; reflexivity|]. constructor; [right; reflexivity|]. constructor; [left; eexists; reflexivity|constructor].
Qed.
(** a text read as NaN *)
Example C95_nan_example : exists cl, ex_fit TNone true [("q", {| clib := Pandas; cdtype := TObj; cells := [CStr (text_of "7"); CStr (text_of "inf-inf")] |})] = Ok (cl, [("q", {| clib := Pandas; cdtype := TNum true; cells := [CNum 7; CNull NaN] |})]).
Proof. eexists. vm_compute. reflexivity. Qed.
Example C96_example : exists c', cats_fit ex_str true (fun l => l) ex_k = Ok c' /\ cells c' = [CStr (text_of "3"); CNull NaN; CStr (text_of "w")] /\ cdtype c' = TCat {| cats := [CStr (text_of "w"); CStr (text_of "3")]; cats_ext := false; ordered := true |}.
Proof. eexists. split; [vm_compute; reflexivity|]. split; vm_compute; reflexivity. Qed.
(** two categories with one text are merged, and the order is lost *)
Example C96_merged_example : exists c', cats_fit ex_str true (fun l => l) {| clib := Pandas; cdtype := TCat {| cats := [CNum 3; CStr (text_of "3")]; cats_ext := false; ordered := true |}; cells := [CNum 3; CStr (text_of "3")] |} = Ok c' /\
  cdtype c' = TCat {| cats := [CStr (text_of "3")]; cats_ext := false; ordered := false |}.
Proof. eexists. split; vm_compute; reflexivity. Qed.
Example C96_transform_example : exists c', cats_transform ex_yes ex_yes ex_str true (fun _ => true) (fun l => l) ex_d = Ok c' /\ cells c' = [CStr (text_of "d"); CNull NaN; CStr (text_of "d")].
Proof. eexists. split; vm_compute; reflexivity. Qed.
Example C97_example : ex_transform (ex_cl true) ex_X = Ok (ex_out true). Proof. vm_compute. reflexivity. Qed.
Example C98_example : dget "a" (steps_of (ex_cl true)) = Some [FNulls; FDrop false; FStr] /\ dget "n" (steps_of (ex_cl true)) = Some [FDrop false; FFloat] /\ dget "n" (steps_of (ex_cl false)) = Some [FDrop false] /\
  dget "e" (steps_of (ex_cl true)) = Some [FNulls; FDrop true] /\ dget "k" (steps_of (ex_cl true)) = Some [FDrop false; FCats].
Proof. repeat split; vm_compute; reflexivity. Qed.
Example C99_example : (exists cl, ex_fit (M_dropnulls.TNum 1) false (ex_out false) = Ok (cl, ex_out false)) /\ forall n c, In (n, c) ex_X -> Plain c.
Proof.
  split; [eexists; vm_compute; reflexivity|]. intros n c I. apply (in_map snd) in I. cbn [snd] in I. cbn in I. destruct I as [<-|[<-|[<-|[<-|[<-|[<-|[]]]]]]]; unfold Plain; cbn; try exact Logic.I; (split; [reflexivity|]); intros x J; cbn in J; intuition (subst; cbn; eauto).
Qed.
Example C99_refuted_example : ex_str Pandas TObj (COther 0) = text_of "d" /\ ~ NullString ex_space (text_of "d") /\ ex_guess false (text_of "d") = Some tt /\ ex_parse Pandas tt (M_todt.CStr (text_of "d")) = Some 5%Z.
Proof. repeat split. apply ex_letter; [reflexivity|cbn; lia]. Qed.
