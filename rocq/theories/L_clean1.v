(** Specification and lemmas for C93-C99: single steps. *)
From Coq Require Import QArith Permutation.
From Verif Require Import Base M_nullstr M_dropnulls M_todt L_nullstr L_todt M_clean.
Open Scope string_scope.
Open Scope list_scope.
Open Scope nat_scope.
Set Default Proof Using "Type".

Section Steps.
  Context {N TZ Name F O K : Type} `{EqD N} `{EqD F} `{EqD O}.
  Notation cell := (cell N O).
  Notation dtype := (dtype N TZ O K).
  Notation column := (column N TZ O K).
  Notation dcell := (@M_todt.cell text cell).
  Variable is_space : nat -> bool.
  Variable fl : Q -> Q.
  Variable UTC : TZ.
  Variable tz_name : TZ -> option Name.
  Variable zone_of : Name -> option TZ.
  Variable parse : lib -> F -> dcell -> option Z.
  Variable infer : list dcell -> dcell -> option Z.
  Variable has_offset : F -> bool.
  Variable default_resolution : lib -> Z.
  Variable guess : bool -> text -> option F.
  Variable pick : nat -> nat -> list nat.
  Variable round : N -> N.
  Variable of_bool : bool -> N.
  Variable num : lib -> dtype -> cell -> option (option N).
  Variable ticks : dtype -> Z -> N.
  Variable NaT_value : N.
  Variable castable castable_str nested : dtype -> bool.
  Variable str : lib -> dtype -> cell -> text.
  Variable empty_is_string : bool.
  Variable hashable : cell -> bool.
  Variable sort_cats : list cell -> list cell.

  Notation fit_step := (fit_step is_space fl UTC parse infer has_offset default_resolution guess pick round of_bool num ticks NaT_value castable castable_str nested str empty_is_string sort_cats).
  Notation transform_step := (transform_step is_space UTC tz_name zone_of parse infer has_offset default_resolution round of_bool num ticks NaT_value castable castable_str nested str empty_is_string hashable sort_cats).
  Notation to_string := (to_string castable_str nested str empty_is_string).
  Notation to_float32 := (to_float32 round of_bool num ticks NaT_value castable).
  Notation with_string_categories := (with_string_categories str empty_is_string sort_cats).
  Notation to_categorical := (to_categorical castable_str nested str empty_is_string hashable sort_cats).
  Notation cat_str := (@cat_str N TZ O K str).

  (** ** Columns that exist *)
  (** how a column can represent its nulls: NaN is a null for pandas, and for polars among numbers *)
  Definition NullOk (l : lib) (t : dtype) (n : null) : Prop :=
    match l with
    | Polars => n = PyNone \/ (n = NaN /\ exists b, t = TNum b)
    | Pandas => match t with TTime _ | TDur | TNum true => n = NaN | TCat k => cats_ext k = false -> n = NaN | _ => True end
    end.
  Definition CellOk (l : lib) (t : dtype) (x : cell) : Prop :=
    match x with
    | CNull n => NullOk l t n
    | _ =>
        match t with
        | TStr => exists s, x = CStr s
        | TObj => True
        | TBool => exists b, x = CBool b
        | TNum _ => exists q, x = CNum q
        | TTime d => exists k, x = CTime (resolution d * k)%Z
        | TDur => exists z, x = CDur z
        | TCat k => In x (cats k)
        | TOther _ => exists o, x = COther o
        end
    end.
  Definition TypeOk (l : lib) (t : dtype) : Prop :=
    match t with
    | TTime d => (0 < resolution d)%Z
    | TCat k => NoDup (cats k) /\ (forall x, In x (cats k) -> is_null x = false) /\ (l = Polars -> forall x, In x (cats k) -> exists s, x = CStr s)
    | _ => True
    end.
  Definition WF (c : column) : Prop := TypeOk (clib c) (cdtype c) /\ Forall (CellOk (clib c) (cdtype c)) (cells c).

  (** ** Kinds of clean columns *)
  Definition StrOrNull (l : lib) (x : cell) : Prop := (exists s, x = CStr s) \/ x = CNull (no_time l).
  (** strings: objects for pandas *)
  Definition CleanStr (c : column) : Prop := cdtype c = (match clib c with Pandas => TObj | Polars => TStr end) /\ Forall (StrOrNull (clib c)) (cells c).
  (** categories: distinct strings, for pandas stored as objects *)
  Definition CleanCat (c : column) : Prop :=
    exists k, cdtype c = TCat k /\ NoDup (cats k) /\ (forall x, In x (cats k) -> exists s, x = CStr s) /\ (clib c = Pandas -> cats_ext k = false) /\
      Forall (fun x => x = CNull (no_time (clib c)) \/ In x (cats k)) (cells c).
  Definition CleanTime (c : column) : Prop := exists d, cdtype c = TTime d.
  Definition CleanNum (c : column) : Prop := exists b, cdtype c = TNum b.

  (** columns of texts, whose null strings are replaced *)
  Definition Textual (c : column) : Prop := cdtype c = TStr \/ (clib c = Pandas /\ cdtype c = TObj).
  Inductive Emptied (n : null) : cell -> cell -> Prop :=
  | Emptied_null : forall s, NullString is_space s -> Emptied n (CStr s) (CNull n)
  | Emptied_same : forall x, (forall s, x = CStr s -> ~ NullString is_space s) -> Emptied n x x.

  Lemma column_eta : forall c : column, set_cells c (cdtype c) (cells c) = c.
  Proof. intros []. reflexivity. Qed.
  Lemma forall2_refl : forall A (R : A -> A -> Prop) l, (forall x, In x l -> R x x) -> Forall2 R l l.
  Proof. induction l as [|x l IH]; intros X; constructor; [apply X; left; reflexivity|apply IH; intros; apply X; right; assumption]. Qed.
  Lemma forall2_mapr : forall A B (R : A -> B -> Prop) (f : A -> B) l, (forall x, In x l -> R x (f x)) -> Forall2 R l (map f l).
  Proof. induction l as [|x l IH]; intros X; constructor; [apply X; left; reflexivity|apply IH; intros; apply X; right; assumption]. Qed.
  Lemma textual_dec : forall c : column, {Textual c} + {~ Textual c}.
  Proof using Type. clear. intros [[] [] cs]; unfold Textual; cbn; try (left; tauto); right; intros [E|[E1 E2]]; discriminate. Qed.

  (** ** CleanNullStrings *)
  Hypothesis newline_space : is_space newline = true.
  Definition new_null (c : column) : null := match clib c, cdtype c with Pandas, TStr => PdNA | _, _ => PyNone end.
  Lemma handled_textual : forall c : column, Textual c -> Handled (col_lib (ns_col c)) (col_kind (ns_col c)) (new_null c).
  Proof. intros [[] t cs] [E|[E1 E2]]; cbn in *; try discriminate; subst; constructor. Qed.
  Lemma handled_other : forall c : column, ~ Textual c -> forall n, ~ Handled (col_lib (ns_col c)) (col_kind (ns_col c)) n.
  Proof using Type. clear. intros [[] [] cs] NT n Hd; inversion Hd; apply NT; unfold Textual; cbn; tauto. Qed.
  Lemma of_ns_cell : forall x : cell, of_ns (ns_cell x) = x.
  Proof. intros []; reflexivity. Qed.
  Lemma cleaned_emptied : forall n (x : cell) v, Cleaned is_space n (ns_cell x) v -> Emptied n x (of_ns v).
  Proof.
    intros n x v C. destruct x; cbn in C; inversion C; subst; cbn; try (apply Emptied_same; intros s' E; try discriminate; injection E as <-; assumption).
    apply Emptied_null. assumption.
  Qed.
  Lemma nulls_transform_textual : forall c, Textual c -> exists l, nulls_transform is_space c = Ok (set_cells c (cdtype c) l) /\ Forall2 (Emptied (new_null c)) (cells c) l.
  Proof using newline_space. clear - newline_space.
    intros c T. unfold nulls_transform, from_ns. eexists. split; [reflexivity|].
    destruct (L_nullstr.transform_ok is_space newline_space (ns_col c) (new_null c) (handled_textual c T)) as (_ & _ & F2). cbn zeta in F2. change (col_values (ns_col c)) with (map (@ns_cell N O) (cells c)) in F2.
    remember (col_values (M_nullstr.transform is_space (ns_col c))) as vs eqn:Ev. clear Ev. revert vs F2.
    induction (cells c) as [|x l IH]; intros vs F2; inversion F2; subst; cbn; constructor; [apply cleaned_emptied; assumption|apply IH; assumption].
  Qed.
  Lemma nulls_fit_textual : forall c, Textual c -> nulls_fit is_space c = nulls_transform is_space c.
  Proof. intros c T. unfold nulls_fit, nulls_transform. rewrite (L_nullstr.fit_transform_ok is_space (ns_col c) (new_null c) (handled_textual c T)). reflexivity. Qed.
  Lemma nulls_fit_other : forall c, ~ Textual c -> nulls_fit is_space c = Err RejectColumn.
  Proof using Type. clear. intros c T. unfold nulls_fit. destruct (L_nullstr.transform_other is_space (ns_col c) (handled_other c T)) as [_ E]. rewrite E. reflexivity. Qed.
  Lemma nulls_transform_other : forall c, ~ Textual c -> nulls_transform is_space c = Ok c.
  Proof using Type. clear.
    intros c T. unfold nulls_transform. destruct (L_nullstr.transform_other is_space (ns_col c) (handled_other c T)) as [E _]. rewrite E. unfold from_ns. cbn [ns_col col_values].
    rewrite map_map. rewrite (map_ext _ (fun x => x)) by apply of_ns_cell. rewrite map_id. rewrite column_eta. reflexivity.
  Qed.
  Lemma emptied_ok : forall c x y, Textual c -> Emptied (new_null c) x y -> CellOk (clib c) (cdtype c) x -> CellOk (clib c) (cdtype c) y.
  Proof.
    intros [l t cs] x y T E X. inversion E; subst; [|assumption]. unfold Textual in T. cbn in *. unfold NullOk, new_null. cbn. destruct l; [|left; destruct t; reflexivity].
    destruct t; try exact Logic.I; destruct T as [T|[_ T]]; discriminate.
  Qed.
  Lemma emptied_wf : forall c l, Textual c -> WF c -> Forall2 (Emptied (new_null c)) (cells c) l -> WF (set_cells c (cdtype c) l).
  Proof.
    intros c l T [W1 W2] F2. split; [exact W1|]. cbn. revert W2. assert (X : forall x y, Emptied (new_null c) x y -> CellOk (clib c) (cdtype c) x -> CellOk (clib c) (cdtype c) y) by (intros; eapply emptied_ok; eassumption).
    induction F2; intros W2; constructor; inversion W2; subst; [eapply X; eassumption|auto].
  Qed.
  Lemma nulls_transform_wf : forall c c', WF c -> nulls_transform is_space c = Ok c' -> WF c' /\ clib c' = clib c /\ cdtype c' = cdtype c.
  Proof using newline_space. clear - newline_space.
    intros c c' W E. destruct (textual_dec c) as [T|T].
    - destruct (nulls_transform_textual c T) as (l & E' & F2). rewrite E in E'. injection E' as ->. split; [|split; reflexivity]. apply emptied_wf; assumption.
    - rewrite (nulls_transform_other c T) in E. injection E as <-. repeat split; apply W.
  Qed.

  (** ** DropIfTooManyNulls *)
  Lemma drop_fit : forall t c o st, fit_step (DropIfTooManyNulls t) c = Ok (o, st) -> (o = None /\ st = FDrop true) \/ (o = Some c /\ st = FDrop false).
  Proof using Type. clear.
    intros t c o st E. cbn in E. unfold M_dropnulls.fit_transform in E. destruct (valid t); [|discriminate]. destruct (decide is_null fl t (cells c)); cbn in E; injection E as <- <-; [left; tauto|right].
    rewrite column_eta. tauto.
  Qed.
  Lemma drop_fit_eq : forall t c, valid t = true -> fit_step (DropIfTooManyNulls t) c = Ok (if decide is_null fl t (cells c) then (None, FDrop true) else (Some c, FDrop false)).
  Proof. intros t c V. cbn. unfold M_dropnulls.fit_transform. rewrite V. destruct (decide is_null fl t (cells c)); cbn; [reflexivity|]. rewrite column_eta. reflexivity. Qed.
  Lemma drop_fit_err : forall t c e, fit_step (DropIfTooManyNulls t) c = Err e -> e = ValueError.
  Proof. intros t c e E. cbn in E. unfold M_dropnulls.fit_transform in E. destruct (valid t); [|congruence]. destruct (decide is_null fl t (cells c)); discriminate. Qed.

  (** ** ToFloat32 *)
  Lemma float32_type : forall c strict out, to_float32 c strict = Ok out -> cdtype out = TNum true /\ clib out = clib c.
  Proof.
    intros [l t cs] strict out E. unfold M_clean.to_float32 in E. cbn in E. destruct t as [| | |[]| | | |], l; cbn in E;
      repeat match type of E with (if ?b then _ else _) = _ => destruct b; [discriminate|] end; injection E as <-; split; reflexivity.
  Qed.
  Lemma float32_number : forall c b strict, cdtype c = TNum b -> exists out, to_float32 c strict = Ok out.
  Proof. intros [l t cs] b strict E. cbn in E. subst t. destruct b; eexists; reflexivity. Qed.
  (** if no entry is unreadable, [strict] does not matter *)
  Lemma float32_strict : forall c out, to_float32 c true = Ok out -> to_float32 c false = Ok out.
  Proof.
    intros [l t cs] out E. unfold M_clean.to_float32 in *. cbn in *. destruct t as [| | |[]| | | |], l; cbn in *;
      repeat match type of E with (if negb (castable _) then _ else _) = _ => destruct (negb (castable _)); [discriminate|] | (if existsb ?a ?b then _ else _) = _ => destruct (existsb a b); [discriminate|] end; exact E.
  Qed.

  (** ** ToStr *)
  Lemma string_clean : forall c out, WF c -> to_string c = Ok out -> CleanStr out /\ clib out = clib c.
  Proof using Type. clear.
    intros [l t cs] out W E. unfold M_clean.to_string in E. cbn [clib cdtype cells] in E. destruct l.
    - destruct (negb (is_pandas_object _ && is_string _ _)) eqn:Ep.
      + injection E as <-. split; [|reflexivity]. split; [reflexivity|]. cbn. apply Forall_map, Forall_forall. intros x _. destruct x; cbn; [right; reflexivity|left; eexists; reflexivity..].
      + apply negb_false_iff, andb_true_iff in Ep. destruct Ep as [E1 E2]. unfold is_pandas_object in E1. cbn in E1. destruct t; try discriminate. unfold is_string in E2. cbn in E2.
        assert (A : forall x, In x cs -> is_null x = true \/ exists s, x = CStr s).
        { intros x I. destruct (is_null x) eqn:En; [left; reflexivity|right]. unfold all_strings in E2.
          assert (If : In x (filter (fun x => negb (is_null x)) cs)) by (apply filter_In; rewrite En; tauto). destruct (filter _ cs) as [|y ys] eqn:Ef; [destruct If|].
          rewrite forallb_forall in E2. apply E2 in If. destruct x; try discriminate. eexists; reflexivity. }
        destruct (negb (existsb is_null cs)) eqn:En; injection E as <-; split; try reflexivity; split; try reflexivity; cbn.
        * apply Forall_forall. intros x I. destruct (A x I) as [X|X]; [|left; exact X]. apply negb_true_iff in En. assert (existsb is_null cs = true); [|congruence]. apply existsb_exists. exists x. tauto.
        * apply Forall_map, Forall_forall. intros x I. destruct (A x I) as [X|(s & ->)]; [destruct x; try discriminate; right; reflexivity|left; eexists; reflexivity].
    - destruct W as [_ W]. cbn in W.
      assert (G : (if (nested t || castable_str t)%bool then Ok (set_cells {| clib := Polars; cdtype := t; cells := cs |} TStr (map (as_str str Polars t) cs)) else Err (UserError 0)) = Ok out -> CleanStr out /\ clib out = Polars).
      { intros E'. destruct (nested t || castable_str t)%bool; [|discriminate]. injection E' as <-. split; [|reflexivity]. split; [reflexivity|]. cbn. apply Forall_map. rewrite Forall_forall in *. intros x I. specialize (W x I).
        destruct x as [n| | | | | |]; cbn in *; try (left; eexists; reflexivity). destruct n; [right; reflexivity| |left; eexists; reflexivity]. exfalso. destruct W as [X|[X _]]; discriminate. }
      destruct t; try (exact (G E)). injection E as <-. split; [|reflexivity]. split; [reflexivity|]. cbn. rewrite Forall_forall in *. intros x I. specialize (W x I). destruct x as [n| | | | | |]; cbn in W; try (destruct W as (s & W); discriminate).
      + destruct W as [->|[_ (b & X)]]; [right; reflexivity|discriminate].
      + left; eexists; reflexivity.
  Qed.

  (** ** CleanCategories *)
  Hypothesis sort_perm : forall l, Permutation (sort_cats l) l.
  Lemma cat_str_shape : forall x : cell, is_null x = false -> exists s, cat_str x = CStr s.
  Proof. intros []; cbn; try discriminate; intros _; eexists; reflexivity. Qed.
  Lemma find_cats_in : forall (l : list cell) x, In x (find_cats l) <-> In x l /\ is_null x = false.
  Proof using Type. clear. intros l x. unfold find_cats. rewrite nodup_In, filter_In, negb_true_iff. tauto. Qed.
  Lemma sort_in : forall (l : list cell) x, In x (sort_cats l) <-> In x l.
  Proof using sort_perm. clear - sort_perm. intros l x. split; intros I; [apply (Permutation_in x (sort_perm l)); exact I|apply (Permutation_in x (Permutation_sym (sort_perm l))); exact I]. Qed.
  Lemma sort_nodup : forall l : list cell, NoDup l -> NoDup (sort_cats l).
  Proof using sort_perm. clear - sort_perm. intros l ND. apply (Permutation_NoDup (Permutation_sym (sort_perm l))). exact ND. Qed.
  Lemma nodup_length : forall l : list cell, length (nodup eqd l) = length l -> NoDup l.
  Proof.
    induction l as [|x l IH]; [constructor|]. cbn. destruct (in_dec eqd x l) as [I|I]; intros E.
    - exfalso. assert (L : length (nodup eqd l) <= length l); [|lia]. apply NoDup_incl_length; [apply NoDup_nodup|]. intros y Iy. apply nodup_In in Iy. exact Iy.
    - constructor; [exact I|]. apply IH. cbn in E. lia.
  Qed.
  Lemma nodup_fixed : forall l : list cell, NoDup l -> nodup eqd l = l.
  Proof. intros l ND. apply nodup_fixed_point. exact ND. Qed.
  Lemma strings_shape : forall l : list cell, all_strings empty_is_string l = true -> forall x, In x l -> exists s, x = CStr s.
  Proof. intros l A x I. unfold all_strings in A. destruct l as [|y l]; [destruct I|]. rewrite forallb_forall in A. apply A in I. destruct x; try discriminate. eexists; reflexivity. Qed.

  Lemma cats_clean : forall c out, WF c -> is_categorical c = true -> with_string_categories c = Ok out -> CleanCat out /\ clib out = clib c.
  Proof using sort_perm. clear - sort_perm.
    intros [l t cs] out [W1 W2] C E. unfold is_categorical in C. cbn in *. destruct t as [| | | | | |k|]; try discriminate. destruct W1 as (ND & NN & PS).
    unfold M_clean.with_string_categories in E. cbn [clib cdtype cells] in E. destruct l.
    - destruct (all_strings empty_is_string (cats k) && negb (cats_ext k))%bool eqn:Es.
      + injection E as <-. split; [|reflexivity]. apply andb_true_iff in Es. destruct Es as [E1 E2]. apply negb_true_iff in E2. exists k. cbn. repeat split; [exact ND|apply strings_shape; exact E1|intros _; exact E2|].
        rewrite Forall_forall in *. intros x I. specialize (W2 x I). destruct x; cbn in W2; try (right; exact W2). left. rewrite (W2 E2). reflexivity.
      + destruct (length (nodup eqd (map cat_str (cats k))) =? length (map cat_str (cats k))) eqn:El; injection E as <-; (split; [|reflexivity]).
        * apply Nat.eqb_eq, nodup_length in El. eexists. cbn. split; [reflexivity|]. cbn. split; [exact El|]. split; [intros x I; apply in_map_iff in I; destruct I as (y & <- & I); apply cat_str_shape, NN; exact I|].
          split; [reflexivity|]. apply Forall_map. rewrite Forall_forall in *. intros x I. specialize (W2 x I). destruct x; cbn in W2; try (right; apply in_map; exact W2). left. reflexivity.
        * eexists. cbn. split; [reflexivity|]. cbn. split; [apply sort_nodup; apply NoDup_nodup|]. split.
          -- intros x I. apply sort_in, find_cats_in in I. destruct I as [I N1]. apply in_map_iff in I. destruct I as (y & <- & I). apply cat_str_shape. destruct y; try reflexivity. discriminate N1.
          -- split; [reflexivity|]. apply Forall_forall. intros x I. destruct (is_null x) eqn:En.
             ++ left. apply in_map_iff in I. destruct I as (y & <- & I). destruct y; try discriminate. reflexivity.
             ++ right. apply sort_in, find_cats_in. tauto.
    - injection E as <-. split; [|reflexivity]. exists k. cbn. repeat split; [exact ND|apply PS; reflexivity|discriminate|]. rewrite Forall_forall in *. intros x I. specialize (W2 x I). destruct x; cbn in W2; try (right; exact W2).
      left. destruct W2 as [->|[_ (b & X)]]; [reflexivity|discriminate].
  Qed.
  Lemma to_categorical_wf : forall c out, WF c -> to_categorical c = Ok out -> WF out /\ is_categorical out = true /\ clib out = clib c.
  Proof using sort_perm. clear - sort_perm.
    intros c out W E. unfold M_clean.to_categorical in E.
    assert (P : (if forallb hashable (cells c) then Ok (set_cells c (TCat {| cats := sort_cats (find_cats (cells c)); cats_ext := match cdtype c with TStr => true | _ => false end; ordered := false |}) (map nan_nulls (cells c))) else Err TypeError) = Ok out ->
      clib c = Pandas -> WF out /\ is_categorical out = true /\ clib out = clib c).
    { clear E. intros E L. destruct (forallb hashable (cells c)); [|discriminate]. injection E as <-. split; [|split; reflexivity]. destruct c as [l t cs]. cbn in L. subst l. split; cbn.
      - split; [apply sort_nodup; apply NoDup_nodup|]. split; [|discriminate]. intros x I. apply sort_in, find_cats_in in I. tauto.
      - apply Forall_map, Forall_forall. intros x I. destruct x; cbn; try (apply sort_in, find_cats_in; tauto). intros _. reflexivity. }
    assert (Q : (let! c := to_string c in Ok (set_cells c (TCat {| cats := find_cats (cells c); cats_ext := false; ordered := false |}) (cells c))) = Ok out ->
      clib c = Polars -> WF out /\ is_categorical out = true /\ clib out = clib c).
    { clear E P. intros E L. destruct (to_string c) as [c1|] eqn:E1; [|discriminate]. cbn in E. injection E as <-. destruct (string_clean c c1 W E1) as [[S1 S2] S3]. split; [|split; [reflexivity|exact S3]].
      rewrite L in S3. rewrite S3 in S2. split; cbn.
      - split; [apply NoDup_nodup|]. split; [intros x I; apply find_cats_in in I; tauto|]. intros _ x I. apply find_cats_in in I. destruct I as [I Nx]. rewrite Forall_forall in S2. destruct (S2 x I) as [X| ->]; [exact X|discriminate].
      - rewrite S3. rewrite Forall_forall in *. intros x I. destruct (S2 x I) as [(s & ->)| ->]; cbn; [apply find_cats_in; tauto|left; reflexivity]. }
    destruct c as [l t cs]. cbn [cdtype clib cells] in *. destruct t as [| | | | | |k|], l; try (exact (P E eq_refl)); try (exact (Q E eq_refl)); injection E as <-; repeat split; apply W.
  Qed.

  (** ** ToDatetime *)
  Hypothesis default_pos : forall l, (0 < default_resolution l)%Z.
  Notation mfit := (M_todt.fit_transform UTC parse infer has_offset default_resolution guess pick).
  Lemma dt_wf : forall c, WF c -> L_todt.WF (dt_col c).
  Proof.
    intros [l t cs] [W1 W2]. unfold L_todt.WF. cbn in *. destruct t; try exact Logic.I. split; [exact W1|]. apply Forall_map. rewrite Forall_forall in *. intros x I. specialize (W2 x I).
    destruct x; cbn in *; try (destruct W2 as (k & E); discriminate); [left; reflexivity|]. destruct W2 as (k & E). right. exists k. congruence.
  Qed.
  Lemma strings_textual : forall c : column, Strings (dt_col c) <-> Textual c.
  Proof using Type. clear. intros [l t cs]. unfold Strings, Textual. cbn. destruct t; split; intros [E|[E1 E2]]; try discriminate; tauto. Qed.
  Lemma dates_iff : forall c : column, Dates (dt_col c) <-> is_any_date c = true.
  Proof. intros [l t cs]. unfold Dates, is_any_date. cbn. destruct t; split; try discriminate; try (intros (d & E); discriminate); [reflexivity|eexists; reflexivity]. Qed.
  Lemma dt_null : forall x : cell, dt_cell x = M_todt.CNull <-> is_null x = true.
  Proof. intros []; cbn; split; congruence. Qed.
  Lemma time_roundtrip : forall c d, WF c -> cdtype c = TTime d -> map (of_dt (clib c)) (map dt_cell (cells c)) = cells c.
  Proof.
    intros [l t cs] d [_ W] E. cbn in *. subst t. rewrite map_map. rewrite <- (map_id cs) at 2. apply map_ext_in. intros x I. rewrite Forall_forall in W. specialize (W x I).
    destruct x; cbn in *; try reflexivity. f_equal. unfold NullOk in W. destruct l; cbn; [congruence|]. destruct W as [->|[_ (b & X)]]; [reflexivity|discriminate].
  Qed.

  Notation date_fit := (date_fit UTC parse infer has_offset default_resolution guess pick).
  Notation date_transform := (date_transform UTC tz_name zone_of parse infer has_offset default_resolution).
  Lemma date_fit_date : forall c d, WF c -> cdtype c = TTime d -> exists st, date_fit c = Ok (c, st) /\ output_ st = Some d /\ mfit None unfitted (dt_col c) = (st, Ok (dt_col c)).
  Proof.
    intros c d W E. unfold M_clean.date_fit. rewrite (fit_dates UTC parse infer has_offset default_resolution guess pick None unfitted (dt_col c) d) by (unfold dt_col; rewrite E; reflexivity).
    unfold from_dt. replace (M_todt.cdtype (dt_col c)) with (@DTime TZ d) by (unfold dt_col; rewrite E; reflexivity). cbn [M_todt.cells dt_col]. rewrite (time_roundtrip c d W E).
    exists {| format_ := Some None; output_ := Some d |}. cbn [bind]. split; [|split; reflexivity]. rewrite <- E, column_eta. reflexivity.
  Qed.
  (** an accepted column of texts: the same nulls *)
  Lemma date_fit_text : forall c c' st, Textual c -> date_fit c = Ok (c', st) ->
    exists d, cdtype c' = TTime d /\ clib c' = clib c /\ (0 < resolution d)%Z /\ output_ st = Some d /\
      Forall2 (fun x y => if is_null x then y = CNull (no_time (clib c)) else exists k, y = CTime (resolution d * k)%Z) (cells c) (cells c') /\
      exists out, mfit None unfitted (dt_col c) = (st, Ok out) /\ from_dt c out = Ok c'.
  Proof using default_pos. clear - default_pos.
    intros c c' st T E. unfold M_clean.date_fit in E. destruct (mfit None unfitted (dt_col c)) as [st1 [out|e]] eqn:Ef; [|discriminate].
    destruct (from_dt c out) as [c1|] eqn:Ec; [|discriminate]. cbn in E. injection E as <- <-.
    destruct (fit_ok UTC parse infer has_offset default_resolution guess pick default_pos None unfitted st1 (dt_col c) out (proj2 (strings_textual c) T) Ef) as (f & _ & _ & E1 & E2 & E3 & E4 & _). cbn zeta in *.
    pose proof Ec as Ec'. unfold from_dt in Ec. rewrite E3 in Ec. injection Ec as <-. eexists. cbn [cdtype clib cells set_cells]. split; [reflexivity|]. split; [reflexivity|]. split; [apply default_pos|]. split; [exact E1|].
    split; [|exists out; split; [reflexivity|exact Ec']]. cbn [M_todt.cells dt_col M_todt.clib] in E4. revert E4. generalize (M_todt.cells out). induction (cells c) as [|x l IH]; intros ys F2; inversion F2; subst; cbn; constructor; [|apply IH; assumption].
    match goal with A : AllParsed _ _ _ _ |- _ => rename A into HA end. destruct (is_null x) eqn:En.
    - apply dt_null in En. inversion HA; subst; [reflexivity|congruence].
    - inversion HA as [E0|c0 t t' N0 P0 Fl0]; subst; [symmetry in E0; apply dt_null in E0; congruence|]. cbn. inversion Fl0; subst. eexists; reflexivity.
  Qed.
  Lemma date_fit_err : forall c e, WF c -> date_fit c = Err e -> e = RejectColumn /\ is_any_date c = false.
  Proof using default_pos. clear - default_pos.
    intros c e W E. destruct (is_any_date c) eqn:D.
    - exfalso. unfold is_any_date in D. destruct (cdtype c) eqn:Et; try discriminate. destruct (date_fit_date c d W Et) as (st & E' & _). congruence.
    - split; [|reflexivity]. unfold M_clean.date_fit in E. destruct (mfit None unfitted (dt_col c)) as [st1 [out|e1]] eqn:Ef.
      + destruct (textual_dec c) as [T|T].
        * destruct (fit_ok UTC parse infer has_offset default_resolution guess pick default_pos None unfitted st1 (dt_col c) out (proj2 (strings_textual c) T) Ef) as (f & _ & _ & E1 & E2 & E3 & E4 & _). unfold from_dt in E. rewrite E3 in E. discriminate.
        * rewrite (fit_other UTC parse infer has_offset default_resolution guess pick) in Ef; [discriminate|rewrite dates_iff; congruence|rewrite strings_textual; exact T].
      + injection E as <-. apply (fit_rejected UTC parse infer has_offset default_resolution guess pick default_pos None unfitted (dt_col c) st1 e1 Ef).
  Qed.
  Lemma date_fit_other : forall c, is_any_date c = false -> ~ Textual c -> date_fit c = Err RejectColumn.
  Proof using Type. clear.
    intros c D T. unfold M_clean.date_fit. rewrite (fit_other UTC parse infer has_offset default_resolution guess pick); [reflexivity|rewrite dates_iff; congruence|rewrite strings_textual; exact T].
  Qed.
  (** an accepted column: datetimes of the type that is stored *)
  Lemma date_fit_ok : forall c c' st, WF c -> date_fit c = Ok (c', st) -> exists d, cdtype c' = TTime d /\ clib c' = clib c /\ output_ st = Some d /\ WF c'.
  Proof using default_pos. clear - default_pos.
    intros c c' st W E. destruct (is_any_date c) eqn:D.
    - unfold is_any_date in D. destruct (cdtype c) eqn:Et; try discriminate. destruct (date_fit_date c d W Et) as (st' & E' & Eo & _). rewrite E in E'. injection E' as -> ->. exists d. repeat split; try assumption; apply W.
    - destruct (textual_dec c) as [T|T]; [|rewrite (date_fit_other c D T) in E; discriminate].
      destruct (date_fit_text c c' st T E) as (d & E1 & E2 & P & E3 & E4 & _). exists d. repeat split; try assumption; rewrite E1, E2; cbn; [exact P|].
      clear - E4. induction E4 as [|x y l l' X F2 IH]; constructor; [|exact IH]. destruct (is_null x); [subst y; cbn; destruct (clib c); [reflexivity|left; reflexivity]|]. destruct X as (k & ->). cbn. eexists; reflexivity.
  Qed.
  Lemma date_transform_type : forall st (c c' : column) d, output_ st = Some d -> date_transform st c = Ok c' -> cdtype c' = TTime d /\ clib c' = clib c.
  Proof.
    intros st c c' d Eo E. unfold M_clean.date_transform, M_todt.transform in E. destruct (format_ st) as [f|]; [|discriminate].
    destruct (M_todt.to_datetime _ _ _ _ _ _ _ _) as [c1|]; [|discriminate]. cbn [bind] in E. rewrite Eo in E. destruct (convert_time_zone _ _ _ _) as [c2|]; [|discriminate]. cbn [bind] in E.
    destruct (cast c2 d) as [c3|] eqn:Ec; [|discriminate]. cbn [bind] in E. unfold cast in Ec. destruct (M_todt.cdtype c2) as [d2| | |]; try discriminate.
    destruct (zone d2), (zone d); try discriminate; injection Ec as <-; unfold from_dt in E; cbn in E; injection E as <-; split; reflexivity.
  Qed.
  Hypothesis utc_named : exists n z, tz_name UTC = Some n /\ zone_of n = Some z.
  Definition NamedZone (c : column) : Prop := forall d, cdtype c = TTime d -> Named tz_name zone_of d.
  Lemma date_same : forall c c' st, WF c -> NamedZone c -> date_fit c = Ok (c', st) -> date_transform st c = Ok c'.
  Proof using utc_named default_pos. clear - utc_named default_pos.
    intros c c' st W Nz E. unfold M_clean.date_fit in E. destruct (mfit None unfitted (dt_col c)) as [st1 [out|e]] eqn:Ef; [|discriminate].
    destruct (from_dt c out) as [c1|] eqn:Ec; [|discriminate]. cbn in E. injection E as <- <-. unfold M_clean.date_transform.
    rewrite (transform_fit UTC tz_name zone_of parse infer has_offset default_resolution guess pick default_pos utc_named None unfitted st1 (dt_col c) out (dt_wf c W)); [exact Ec| |exact Ef].
    intros d E. apply Nz. cbn in E. destruct (cdtype c); try discriminate. congruence.
  Qed.
End Steps.
