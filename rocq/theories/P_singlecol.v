(** Single-column transformers: C150, C151. *)
From Coq Require Import Ascii.
From Verif Require Import Base M_singlecol L_singlecol L_singlecol2.
Open Scope string_scope.
Open Scope list_scope.
Open Scope nat_scope.

(** C150. The method is defined by a class derived from [SingleColumnTransformer] (before any other
    class of the method resolution order). *)
Theorem C150_refuses_partial {X Y V : Type} (is_dataframe is_column : X -> bool) (none : Y) (self_value : V)
  mro cs m own calls x y :
  make X Y V none self_value mro = Ok cs -> checked_method m -> Owner mro m (Derived _ _ _ own) ->
  ~ column is_dataframe is_column x -> (forall f, In (m, f) own -> f_name _ _ _ f = Some "transform" -> y = None) ->
  call X Y V is_dataframe is_column none cs calls m x y = Some ([], Err ValueError).
Proof. exact (refuses is_dataframe is_column none self_value mro cs m own calls x y). Qed.
Print Assumptions C150_refuses_partial.

(** The [fit] that [SingleColumnTransformer] gives. *)
Theorem C150_fit_refuses_partial {X Y V : Type} (is_dataframe is_column : X -> bool) (none : Y) (self_value : V)
  mro cs own calls x y :
  make X Y V none self_value mro = Ok cs ->
  Owner mro "fit" (TheBase _ _ _) -> Owner mro "fit_transform" (Derived _ _ _ own) ->
  (forall f, In ("fit_transform", f) own -> f_name _ _ _ f <> Some "transform") ->
  ~ column is_dataframe is_column x ->
  call X Y V is_dataframe is_column none cs (S calls) "fit" x y = Some ([], Err ValueError).
Proof. exact (base_fit_refuses is_dataframe is_column none self_value mro cs own calls x y). Qed.
Print Assumptions C150_fit_refuses_partial.

(** A method of another class that first calls such a method and does not catch its exceptions, as
    [TransformerMixin.fit_transform] does with [fit] (that of [GapEncoder] is that one). *)
Theorem C150_delegated_partial {X Y V : Type} (is_dataframe is_column : X -> bool) (none : Y) (self_value : V)
  mro cs m m2 other own calls x y :
  make X Y V none self_value mro = Ok cs ->
  Owner mro m (Foreign _ _ _ other) ->
  (forall f, In (m, f) other -> exists y2 k, f_body _ _ _ f x y = CallSelf _ _ _ m2 x y2 k /\ forall e, k (Err e) = Return _ _ _ (Err e)) ->
  checked_method m2 -> m2 <> "transform" -> Owner mro m2 (Derived _ _ _ own) -> Named mro ->
  ~ column is_dataframe is_column x ->
  call X Y V is_dataframe is_column none cs (S calls) m x y = Some ([], Err ValueError).
Proof. exact (delegated_refuses is_dataframe is_column none self_value mro cs m m2 other own calls x y). Qed.
Print Assumptions C150_delegated_partial.

(** For columns the checks change nothing. *)
Theorem C150_columns {X Y V : Type} (is_dataframe is_column : X -> bool) (none : Y) (self_value : V) mro cs :
  make X Y V none self_value mro = Ok cs -> Named mro ->
  (forall own m f x, In (Derived _ _ _ own) mro -> In (m, f) own -> checked_method m -> m <> "transform" ->
     f_body _ _ _ f x None = f_body _ _ _ f x (Some none)) ->
  (forall e m f x y, In e mro -> In (m, f) (functions none self_value e) -> good (column is_dataframe is_column) m x y ->
     Tame (column is_dataframe is_column) (f_body _ _ _ f x y)) ->
  forall calls m x y, good (column is_dataframe is_column) m x y ->
    call X Y V is_dataframe is_column none cs calls m x y
    = call X Y V is_dataframe is_column none (unchecked none self_value mro) calls m x y.
Proof. exact (same_for_columns is_dataframe is_column none self_value mro cs). Qed.
Print Assumptions C150_columns.

(** Which classes can be made. *)
Theorem C150_made {X Y V : Type} (none : Y) (self_value : V) (mro : list (entry X Y V)) :
  (exists cs, make X Y V none self_value mro = Ok cs) <->
  forall own m f, In (Derived _ _ _ own) mro -> In (m, f) own -> checked_method m ->
    exists n, f_name _ _ _ f = Some n /\ checked_method n.
Proof. exact (made_iff none self_value mro). Qed.
Print Assumptions C150_made.

(** Examples: 0 is a dataframe, 1 a column, anything else is neither. *)
Definition ex150_df (x : nat) : bool := x =? 0.
Definition ex150_col (x : nat) : bool := x =? 1.
Definition ex150_f (name : string) (n : nat) : func nat nat nat :=
  mk_func _ _ _ (Some name) (fun _ _ => Effect _ _ _ n (Return _ _ _ (Ok n))).
(** Calls the method of the same name of the next class. *)
Definition ex150_super (name : string) (n : nat) : func nat nat nat :=
  mk_func _ _ _ (Some name) (fun x y => Effect _ _ _ n (CallSuper _ _ _ name x (match y with Some y' => Some y' | None => if eqb_of name "transform" then None else Some 0 end) (Return _ _ _))).
Definition ex150_mro : list (entry nat nat nat) :=
  [Derived _ _ _ [("transform", ex150_super "transform" 5)];
   Derived _ _ _ [("fit_transform", ex150_f "fit_transform" 6); ("transform", ex150_f "transform" 7)];
   TheBase _ _ _; Foreign _ _ _ [("score", ex150_f "score" 8)]].
(** [fit(X).transform(X)] *)
Definition ex150_mixin : list (entry nat nat nat) :=
  [Derived _ _ _ [("fit", ex150_f "fit" 5); ("transform", ex150_f "transform" 7)];
   Foreign _ _ _ [("fit_transform", mk_func _ _ _ (Some "fit_transform") (fun x y =>
     CallSelf _ _ _ "fit" x y (fun r => match r with Ok _ => CallSelf _ _ _ "transform" x None (Return _ _ _) | Err e => Return _ _ _ (Err e) end)))];
   TheBase _ _ _].
Definition ex150_call (mro : list (entry nat nat nat)) m x y :=
  match make nat nat nat 0 99 mro with
  | Ok cs => Ok (call nat nat nat ex150_df ex150_col 0 cs 5 m x y)
  | Err e => Err e
  end.
Example C150_example :
  Owner ex150_mro "transform" (Derived _ _ _ [("transform", ex150_super "transform" 5)]) /\
  Owner ex150_mro "fit" (TheBase _ _ _) /\
  map (fun x => ex150_call ex150_mro "transform" x None) [0; 1; 2]
    = [Ok (Some ([], Err ValueError)); Ok (Some ([5; 7], Ok 7)); Ok (Some ([], Err ValueError))] /\
  map (fun x => ex150_call ex150_mro "fit" x None) [0; 1; 2]
    = [Ok (Some ([], Err ValueError)); Ok (Some ([6], Ok 99)); Ok (Some ([], Err ValueError))] /\
  ex150_call ex150_mro "transform" 0 (Some 3) = Ok (Some ([], Err TypeError)) /\
  map (fun x => ex150_call ex150_mixin "fit_transform" x None) [0; 1] = [Ok (Some ([], Err ValueError)); Ok (Some ([5; 7], Ok 7))] /\
  ex150_call ex150_mro "partial_fit" 0 None = Ok (Some ([], Err AttributeError)) /\
  ex150_call [Derived _ _ _ [("transform", ex150_f "<lambda>" 1)]; TheBase _ _ _] "transform" 1 None = Err AssertionError.
Proof.
  split; [|split]; [exists [], (tl ex150_mro)|exists (firstn 2 ex150_mro), (skipn 3 ex150_mro)|vm_compute; repeat split].
  - split; [reflexivity|]. split; [left; reflexivity|intros e' []].
  - split; [reflexivity|]. split; [reflexivity|]. cbn. intros e' [<-|[<-|[]]]; cbn; intuition discriminate.
Qed.

(** C150 is false for methods inherited from another superclass: they are not wrapped. *)
Theorem C150_inherited_refuted :
  exists (mro : list (entry nat nat nat)) cs own,
    mro = [Derived _ _ _ []; TheBase _ _ _; Foreign _ _ _ own] /\
    make nat nat nat 0 99 mro = Ok cs /\
    (forall m, In m ["fit_transform"; "transform"] -> exists f, In (m, f) own) /\
    call nat nat nat ex150_df ex150_col 0 cs 5 "transform" 0 None = Some ([7], Ok 7) /\
    call nat nat nat ex150_df ex150_col 0 cs 5 "fit" 0 None = Some ([6], Ok 99).
Proof.
  exists [Derived _ _ _ []; TheBase _ _ _; Foreign _ _ _ [("fit_transform", ex150_f "fit_transform" 6); ("transform", ex150_f "transform" 7)]].
  eexists. eexists. split; [reflexivity|]. split; [reflexivity|]. split.
  - intros m [<-|[<-|[]]]; eexists; [left; reflexivity|right; left; reflexivity].
  - vm_compute. split; reflexivity.
Qed.
Print Assumptions C150_inherited_refuted.

(** C151. *)
Theorem C151_kept doc note : exists pre post,
  doc = pre ++ post /\
  (insert_note doc note = pre ++ shifted (indent_of (lines doc)) note ++ [newline] ++ post \/
   (post = [] /\ insert_note doc note = pre ++ [newline] ++ shifted (indent_of (lines doc)) note ++ [newline])).
Proof. exact (doc_kept doc note). Qed.
Print Assumptions C151_kept.

Theorem C151_paragraph_partial doc note bs p par bl rest :
  lines doc = bs ++ (p :: par) ++ bl :: rest ->
  Forall (fun l => blank l = true) bs -> Forall (fun l => blank l = false) (p :: par) -> blank bl = true ->
  In newline bl -> Forall full (lines note) ->
  lines (insert_note doc note) =
    bs ++ (p :: par) ++ bl :: map (indented (indent_of (lines doc))) (lines note) ++ [newline] :: rest.
Proof. exact (note_after_paragraph doc note bs p par bl rest). Qed.
Print Assumptions C151_paragraph_partial.

Theorem C151_indent doc : let n := indent_of (lines doc) in
  let after_first l := In l (tl (lines doc)) in
  (forall l k, after_first l -> spaces_before l = Some k -> n <= k) /\
  ((exists l, after_first l /\ spaces_before l = Some n) \/ (n = 0 /\ forall l, after_first l -> spaces_before l = None)).
Proof. exact (indent_least doc). Qed.
Print Assumptions C151_indent.
Theorem C151_spaces l n : spaces_before l = Some n <-> exists c r, l = repeat blank_char n ++ c :: r /\ white c = false.
Proof. exact (spaces_spec l n). Qed.
Print Assumptions C151_spaces.
Theorem C151_lines s : concat (lines s) = s /\ forall l ls, lines s = l :: ls -> (ls <> [] -> full l) /\ (full l \/ ~ In newline l).
Proof.
  split; [exact (lines_concat s)|]. intros l ls E. destruct (lines_cons s l ls E) as (s' & _ & _ & H1 & H2). split; assumption.
Qed.
Print Assumptions C151_lines.

Definition ex151 (s : list string) : text := concat (map (fun l => (list_ascii_of_string l ++ [newline])%list) s).
Definition ex151_note : text := ex151 [".. note::"; ""; "    One column."].
Example C151_example :
  insert_note (ex151 ["Encode."; ""; "    More about it."; "    "]) ex151_note
  = ex151 ["Encode."; ""; "    .. note::"; ""; "        One column."; ""; "    More about it."; "    "] /\
  Forall full (lines ex151_note).
Proof.
  split; [vm_compute; reflexivity|].
  assert (G : forall l, forallb (fun l => Ascii.eqb (last l blank_char) newline && negb (existsb (Ascii.eqb newline) (removelast l))) l = true -> Forall full l).
  { intros l E. apply Forall_forall. intros x Hx. pose proof (proj1 (forallb_forall _ _) E x Hx) as Ex. apply andb_true_iff in Ex. destruct Ex as [E1 E2].
    apply Ascii.eqb_eq in E1. exists (removelast x). split.
    - rewrite <- E1. apply app_removelast_last. intros ->. discriminate.
    - intros Hin. apply negb_true_iff in E2. assert (E3 : existsb (Ascii.eqb newline) (removelast x) = true) by (apply existsb_exists; exists newline; split; [exact Hin|apply Ascii.eqb_refl]). congruence. }
  apply G. vm_compute. reflexivity.
Qed.

(** Without a complete blank line after the first paragraph, the note does not become a paragraph of its
    own: the documentation is one line, or one line and the spaces before the closing quotes. *)
Theorem C151_one_line_refuted :
  exists doc doc',
    doc = list_ascii_of_string "Encode." /\ doc' = ex151 ["Encode."] ++ list_ascii_of_string "    " /\
    lines (insert_note doc ex151_note) = lines (ex151 ["Encode."; ".. note::"; ""; "    One column."; ""]) /\
    lines (insert_note doc' ex151_note) = lines (ex151 ["Encode."; "    .. note::"; ""; "    One column."; ""]).
Proof. do 2 eexists. split; [reflexivity|]. split; [reflexivity|]. split; vm_compute; reflexivity. Qed.
Print Assumptions C151_one_line_refuted.
