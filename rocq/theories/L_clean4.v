(** Specification and lemmas for C93-C99: entries. *)
From Coq Require Import QArith Permutation.
From Verif Require Import Base M_nullstr M_dropnulls M_todt L_nullstr L_todt M_clean L_clean1 L_clean2 L_clean3.
Open Scope string_scope.
Open Scope list_scope.
Open Scope nat_scope.
Set Default Proof Using "Type".

Section Values.
  Context {N TZ Name F O K : Type} `{EqD N} `{EqD F} `{EqD O}.
  Notation cell := (cell N O).
  Notation dtype := (dtype N TZ O K).
  Notation column := (column N TZ O K).
  Notation dcell := (@M_todt.cell text cell).
  Variable is_space : nat -> bool.
  Variable fl : Q -> Q.
  Variable UTC : TZ.
  Variable tz_name : TZ -> option Name.
  Variable zone_of : Name -> option TZ.
  Variable parse : lib -> F -> dcell -> option Z.
  Variable infer : list dcell -> dcell -> option Z.
  Variable has_offset : F -> bool.
  Variable default_resolution : lib -> Z.
  Variable guess : bool -> text -> option F.
  Variable pick : nat -> nat -> list nat.
  Variable round : N -> N.
  Variable of_bool : bool -> N.
  Variable num : lib -> dtype -> cell -> option (option N).
  Variable ticks : dtype -> Z -> N.
  Variable NaT_value : N.
  Variable castable castable_str nested : dtype -> bool.
  Variable str : lib -> dtype -> cell -> text.
  Variable empty_is_string : bool.
  Variable hashable : cell -> bool.
  Variable sort_cats : list cell -> list cell.

  Notation fit_step := (fit_step is_space fl UTC parse infer has_offset default_resolution guess pick round of_bool num ticks NaT_value castable castable_str nested str empty_is_string sort_cats).
  Notation transform_step := (transform_step is_space UTC tz_name zone_of parse infer has_offset default_resolution round of_bool num ticks NaT_value castable castable_str nested str empty_is_string hashable sort_cats).
  Notation to_string := (to_string castable_str nested str empty_is_string).
  Notation to_float32 := (to_float32 round of_bool num ticks NaT_value castable).
  Notation with_string_categories := (with_string_categories str empty_is_string sort_cats).
  Notation to_categorical := (to_categorical castable_str nested str empty_is_string hashable sort_cats).
  Notation cat_str := (@cat_str N TZ O K str).
  Notation fitted := (fitted TZ F).
  Notation table := (table N TZ O K).
  Notation fit_columns := (fit_columns is_space fl UTC parse infer has_offset default_resolution guess pick round of_bool num ticks NaT_value castable castable_str nested str empty_is_string sort_cats).
  Notation fit_steps := (fit_steps is_space fl UTC parse infer has_offset default_resolution guess pick round of_bool num ticks NaT_value castable castable_str nested str empty_is_string sort_cats).
  Notation transform_columns := (transform_columns is_space UTC tz_name zone_of parse infer has_offset default_resolution round of_bool num ticks NaT_value castable castable_str nested str empty_is_string hashable sort_cats).
  Notation transform_steps := (transform_steps is_space UTC tz_name zone_of parse infer has_offset default_resolution round of_bool num ticks NaT_value castable castable_str nested str empty_is_string hashable sort_cats).

  Notation names := (map fst).
  Notation date_fit := (date_fit UTC parse infer has_offset default_resolution guess pick).
  Notation date_transform := (date_transform UTC tz_name zone_of parse infer has_offset default_resolution).
  Notation float_fit := (float_fit round of_bool num ticks NaT_value castable).
  Notation FChain := (FChain is_space fl UTC parse infer has_offset default_resolution guess pick round of_bool num ticks NaT_value castable castable_str nested str empty_is_string sort_cats).
  Notation TChain := (TChain is_space UTC tz_name zone_of parse infer has_offset default_resolution round of_bool num ticks NaT_value castable castable_str nested str empty_is_string hashable sort_cats).
  Notation run := (run is_space UTC tz_name zone_of parse infer has_offset default_resolution round of_bool num ticks NaT_value castable castable_str nested str empty_is_string hashable sort_cats).
  Hypothesis newline_space : is_space newline = true.
  Hypothesis sort_perm : forall l, Permutation (sort_cats l) l.
  Hypothesis default_pos : forall l, (0 < default_resolution l)%Z.
  Notation Fate := (Fate UTC parse infer has_offset default_resolution guess pick round of_bool num ticks NaT_value castable castable_str nested str empty_is_string sort_cats).
  Notation AfterNulls := (AfterNulls is_space).

  (** ** C95: nulls *)
  (** entries that are or become null *)
  Definition Lost (c : column) (x : cell) : Prop := is_null x = true \/ (Textual c /\ exists s, x = CStr s /\ NullString is_space s).
  Definition same_null (x y : cell) : Prop := is_null x = is_null y.
  Lemma forall2_comp : forall A B C (P : A -> B -> Prop) (Q : B -> C -> Prop) (R : A -> C -> Prop) l1 l2 l3, (forall a b c, In a l1 -> P a b -> Q b c -> R a c) -> Forall2 P l1 l2 -> Forall2 Q l2 l3 -> Forall2 R l1 l3.
  Proof using Type. clear. intros A B C P Q R l1. induction l1 as [|a l1 IH]; intros l2 l3 X F1 F2; inversion F1; subst; inversion F2; subst; constructor; [eapply X; [left; reflexivity|eassumption..]|eapply IH; [|eassumption..]; intros; eapply X; [right; eassumption|eassumption..]]. Qed.
  Lemma after_lost : forall (c : column) (a : option fitted) c1, AfterNulls c a c1 -> Forall2 (fun x y => (is_null y = true <-> Lost c x) /\ (~ Lost c x -> y = x)) (cells c) (cells c1).
  Proof using newline_space. clear - newline_space.
    intros c a c1 [(T & _ & E)|(T & _ & ->)].
    - destruct (nulls_transform_textual is_space newline_space c T) as (l & E' & F2). rewrite E in E'. injection E' as ->. cbn [cells set_cells]. clear E. induction F2 as [|x y l0 l X F2 IH]; constructor; [|exact IH]. destruct X as [s Ns|x Ns].
      + split; [cbn; split; [intros _; right; split; [exact T|eexists; split; [reflexivity|assumption]]|reflexivity]|]. intros NL. exfalso. apply NL. right. split; [exact T|eexists; split; [reflexivity|assumption]].
      + split; [|reflexivity]. unfold Lost. split; [tauto|]. intros [E|[_ (s & -> & Ns')]]; [exact E|]. exfalso. eapply Ns; [reflexivity|eassumption].
    - apply forall2_refl. intros x _. split; [|reflexivity]. unfold Lost. tauto.
  Qed.
  Lemma string_nulls : forall (c out : column), WF c -> is_numeric c = false -> to_string c = Ok out -> Forall2 same_null (cells c) (cells out).
  Proof using Type. clear.
    intros [l t cs] out [_ W] Nm E. unfold M_clean.to_string in E. cbn [clib cdtype cells] in *. destruct l.
    - destruct (negb (is_pandas_object _ && is_string _ _)); [|destruct (negb (existsb is_null cs))]; injection E as <-; cbn [cells set_cells].
      + apply forall2_mapr. intros x _. destruct x; reflexivity.
      + apply forall2_refl. reflexivity.
      + apply forall2_mapr. intros x _. destruct x; reflexivity.
    - assert (G : Forall2 same_null cs (map (as_str str Polars t) cs)).
      { apply forall2_mapr. intros x I. rewrite Forall_forall in W. specialize (W x I). destruct x as [n| | | | | |]; try reflexivity. cbn in W. destruct W as [->|[-> (b & ->)]]; [reflexivity|discriminate Nm]. }
      destruct t; try (destruct (_ || _)%bool; [|discriminate]); injection E as <-; try exact G. apply forall2_refl. reflexivity.
  Qed.
  Lemma cats_nulls : forall (c c' : column), with_string_categories c = Ok c' -> Forall2 same_null (cells c) (cells c').
  Proof using Type. clear.
    intros [l t cs] c' E. unfold M_clean.with_string_categories in E. cbn [clib cdtype cells] in E.
    assert (G : Forall2 same_null cs (map cat_str cs)) by (apply forall2_mapr; intros x _; destruct x; reflexivity).
    destruct l; [|injection E as <-; apply forall2_refl; reflexivity]. destruct t; try discriminate. destruct (_ && _)%bool; [injection E as <-; apply forall2_refl; reflexivity|]. destruct (_ =? _); injection E as <-; exact G.
  Qed.
  Lemma date_nulls : forall (c c' : column) st, WF c -> date_fit c = Ok (c', st) -> Forall2 same_null (cells c) (cells c').
  Proof using default_pos. clear - default_pos.
    intros c c' st W E. destruct (is_any_date c) eqn:D.
    - unfold is_any_date in D. destruct (cdtype c) eqn:Et; try discriminate. destruct (date_fit_date UTC parse infer has_offset default_resolution guess pick c d W Et) as (st' & E' & _). rewrite E in E'. injection E' as -> ->. apply forall2_refl. reflexivity.
    - destruct (textual_dec c) as [T|T]; [|rewrite (date_fit_other UTC parse infer has_offset default_resolution guess pick c D T) in E; discriminate].
      destruct (date_fit_text UTC parse infer has_offset default_resolution guess pick default_pos c c' st T E) as (d & _ & _ & _ & _ & F2 & _). clear - F2. induction F2 as [|x y l l' X F2 IH]; constructor; [|exact IH]. unfold same_null. destruct (is_null x); [subst y; reflexivity|]. destruct X as (k & ->). reflexivity.
  Qed.
  Lemma fate_nulls : forall (c : column) l c', WF c -> Fate false c l c' -> Forall2 same_null (cells c) (cells c').
  Proof using default_pos. clear - default_pos.
    intros c l c' W Fa. remember false as f eqn:Ef0. destruct Fa as [st c' Ed|c' -> Er D C Ef| -> Nm|c' C Ew|c' Er Nm D C Ef Es].
    - eapply date_nulls; eassumption.
    - discriminate.
    - apply forall2_refl. reflexivity.
    - eapply cats_nulls; eassumption.
    - eapply string_nulls; eassumption.
  Qed.
  Lemma float_nulls : forall (c c' : column), WF c -> is_any_date c = false -> is_categorical c = false -> to_float32 c true = Ok c' ->
    Forall2 (fun x y => (~ (clib c = Pandas /\ cdtype c = TDur) -> is_null x = true -> is_null y = true) /\ (is_null y = true -> is_null x = true \/ num (clib c) (cdtype c) x = Some None)) (cells c) (cells c').
  Proof using Type. clear.
    intros [l t cs] c' [_ W] D C E. unfold M_clean.to_float32 in E. cbn [clib cdtype cells] in *.
    assert (G1 : forall l, Forall2 (fun x y => (is_null x = true -> is_null y = true) /\ (is_null y = true -> is_null x = true \/ num l t x = Some None)) cs (map (as_float32 round of_bool l) cs)).
    { intros l0. apply forall2_mapr. intros x _. destruct x; cbn; split; tauto || discriminate. }
    assert (G2 : forall l, existsb (unreadable num l t) cs = false -> Forall2 (fun x y => (is_null x = true -> is_null y = true) /\ (is_null y = true -> is_null x = true \/ num l t x = Some None)) cs (map (M_clean.read num l t) cs)).
    { intros l0 Ex. apply forall2_mapr. intros x I. assert (U : unreadable num l0 t x = false). { destruct (unreadable num l0 t x) eqn:U; [|reflexivity]. assert (existsb (unreadable num l0 t) cs = true); [|congruence]. apply existsb_exists. exists x. tauto. }
      unfold unreadable in U. destruct (is_null x) eqn:Nx; [destruct x; try discriminate; cbn; tauto|]. cbn in U. split; [discriminate|]. intros Ny. right. destruct (num l0 t x) as [[q|]|] eqn:En; [|reflexivity|discriminate]. exfalso. destruct x; try discriminate; cbn in Ny; rewrite En in Ny; discriminate. }
    assert (I1 : forall (R : cell -> cell -> Prop) l', (forall x y, R x y -> (is_null x = true -> is_null y = true) /\ (is_null y = true -> is_null x = true \/ num l t x = Some None)) -> Forall2 R cs l' ->
      Forall2 (fun x y => (~ (l = Pandas /\ t = TDur) -> is_null x = true -> is_null y = true) /\ (is_null y = true -> is_null x = true \/ num l t x = Some None)) cs l').
    { intros R l' X F2. clear - X F2. induction F2; constructor; [|assumption]. apply X in H. tauto. }
    assert (G3 : forall t', Forall2 (fun x y => (~ (Pandas = Pandas /\ TDur = @TDur N TZ O K) -> is_null x = true -> is_null y = true) /\ (is_null y = true -> is_null x = true \/ num Pandas TDur x = Some None)) cs (map (as_ticks ticks NaT_value t') cs)).
    { intros t'. apply forall2_mapr. intros x _. split; [tauto|]. destruct x; cbn; discriminate || tauto. }
    destruct t as [| | |[]| | | |], l; try discriminate; cbn [andb negb] in E;
      repeat match type of E with
      | (if negb (castable _) then _ else _) = _ => destruct (negb (castable _)); [discriminate|]
      | (if existsb ?a ?b then _ else _) = _ => destruct (existsb a b) eqn:Ex; [discriminate|]
      end; injection E as <-; cbn [cells set_cells];
      try (eapply I1; [|apply G1]; cbn; intros x y X; exact X); try (eapply I1; [|apply G2; exact Ex]; cbn; intros x y X; exact X); try apply G3;
      (eapply I1; [|apply forall2_refl with (R := eq); reflexivity]; intros x y ->; tauto).
  Qed.
  (** texts *)
  Hypothesis str_text : forall l t s, str l t (CStr s) = s.
  Lemma string_texts : forall (c out : column), to_string c = Ok out -> Forall2 (fun x y => forall s, x = CStr s -> y = CStr s) (cells c) (cells out).
  Proof using str_text. clear - str_text.
    intros [l t cs] out E. unfold M_clean.to_string in E. cbn [clib cdtype cells] in *. destruct l.
    - destruct (negb (is_pandas_object _ && is_string _ _)); [|destruct (negb (existsb is_null cs))]; injection E as <-; cbn [cells set_cells].
      + apply forall2_mapr. intros x _ s ->. cbn. rewrite str_text. reflexivity.
      + apply forall2_refl. intros; assumption.
      + apply forall2_mapr. intros x _ s ->. reflexivity.
    - assert (G : Forall2 (fun x y => forall s, x = CStr s -> y = CStr s) cs (map (as_str str Polars t) cs)).
      { apply forall2_mapr. intros x _ s ->. cbn. rewrite str_text. reflexivity. }
      destruct t; try (destruct (_ || _)%bool; [|discriminate]); injection E as <-; try exact G. apply forall2_refl. intros; assumption.
  Qed.

  (** ** C97: the data of the fit *)
  Lemma clean_str_wf : forall c : column, CleanStr c -> WF c.
  Proof using Type. clear.
    intros [l t cs] [E Fa]. cbn in *. subst t. split; [destruct l; exact Logic.I|]. cbn. eapply Forall_impl; [|exact Fa]. intros x [(s & ->)| ->]; destruct l; cbn; try exact Logic.I; [eexists; reflexivity|left; reflexivity].
  Qed.
  Lemma clean_cat_wf : forall c : column, CleanCat c -> WF c.
  Proof using Type. clear.
    intros [l t cs] (k & E & ND & Sx & Ex & Fa). cbn in *. subst t. split; cbn.
    - split; [exact ND|]. split; [intros x I; destruct (Sx x I) as (s & ->); reflexivity|intros _; exact Sx].
    - eapply Forall_impl; [|exact Fa]. intros x [->|I]; [destruct l; cbn; [intros; reflexivity|left; reflexivity]|]. destruct (Sx x I) as (s & ->). exact I.
  Qed.
  Lemma float_wf : forall (c c' : column), WF c -> is_any_date c = false -> is_categorical c = false -> to_float32 c true = Ok c' -> WF c'.
  Proof using Type. clear.
    intros [l t cs] c' [W1 W] D C E. unfold M_clean.to_float32 in E. cbn [clib cdtype cells] in *. 
    assert (G : forall l0 f, (forall x, In x cs -> exists y, f x = y /\ CellOk l0 (TNum true : dtype) y) -> WF (set_cells {| clib := l0; cdtype := t; cells := cs |} (TNum true) (map f cs))).
    { intros l0 f A. split; [exact Logic.I|]. cbn. apply Forall_map, Forall_forall. intros x I. destruct (A x I) as (y & -> & X). exact X. }
    assert (Nn : forall x n, In x cs -> x = CNull n -> NullOk l t n). { intros x n I ->. rewrite Forall_forall in W. exact (W _ I). }
    assert (R : forall x, In x cs -> exists y, M_clean.read num l t x = y /\ CellOk l (TNum true : dtype) y).
    { intros x I. eexists. split; [reflexivity|]. destruct x as [n| | | | | |]; cbn [M_clean.read].
      - cbn. pose proof (Nn _ n I eq_refl) as X. destruct l; cbn in *; [reflexivity|]. destruct X as [X|[X _]]; [left; exact X|right; split; [exact X|exists true; reflexivity]].
      - destruct (num l t (CNum x)) as [[q|]|]; cbn; [eexists; reflexivity|destruct l; cbn; [reflexivity|right; split; [reflexivity|eexists; reflexivity]]|destruct l; cbn; [reflexivity|left; reflexivity]].
      - destruct (num l t (CBool b)) as [[q|]|]; cbn; [eexists; reflexivity|destruct l; cbn; [reflexivity|right; split; [reflexivity|eexists; reflexivity]]|destruct l; cbn; [reflexivity|left; reflexivity]].
      - destruct (num l t (CStr s)) as [[q|]|]; cbn; [eexists; reflexivity|destruct l; cbn; [reflexivity|right; split; [reflexivity|eexists; reflexivity]]|destruct l; cbn; [reflexivity|left; reflexivity]].
      - destruct (num l t (CTime t0)) as [[q|]|]; cbn; [eexists; reflexivity|destruct l; cbn; [reflexivity|right; split; [reflexivity|eexists; reflexivity]]|destruct l; cbn; [reflexivity|left; reflexivity]].
      - destruct (num l t (CDur t0)) as [[q|]|]; cbn; [eexists; reflexivity|destruct l; cbn; [reflexivity|right; split; [reflexivity|eexists; reflexivity]]|destruct l; cbn; [reflexivity|left; reflexivity]].
      - destruct (num l t (COther o)) as [[q|]|]; cbn; [eexists; reflexivity|destruct l; cbn; [reflexivity|right; split; [reflexivity|eexists; reflexivity]]|destruct l; cbn; [reflexivity|left; reflexivity]]. }
    assert (Q : is_numeric_dtype t = true -> forall x, In x cs -> exists y, as_float32 round of_bool l x = y /\ CellOk l (TNum true : dtype) y).
    { intros Nt x I. eexists. split; [reflexivity|]. destruct x as [n|q|b|s|z|z|o]; cbn.
      - pose proof (Nn _ n I eq_refl) as X. destruct l; cbn in *; [reflexivity|]. destruct X as [X|[X _]]; [left; exact X|right; split; [exact X|exists true; reflexivity]].
      - eexists; reflexivity.
      - eexists; reflexivity.
      - exfalso. rewrite Forall_forall in W. specialize (W _ I). destruct t; try discriminate; cbn in W; destruct W as (y & W); discriminate.
      - exfalso. rewrite Forall_forall in W. specialize (W _ I). destruct t; try discriminate; cbn in W; destruct W as (y & W); discriminate.
      - exfalso. rewrite Forall_forall in W. specialize (W _ I). destruct t; try discriminate; cbn in W; destruct W as (y & W); discriminate.
      - exfalso. rewrite Forall_forall in W. specialize (W _ I). destruct t; try discriminate; cbn in W; destruct W as (y & W); discriminate. }
    assert (T : t = TDur -> forall x, In x cs -> exists y, as_ticks ticks NaT_value t x = y /\ CellOk l (TNum true : dtype) y).
    { intros -> x I. eexists. split; [reflexivity|]. rewrite Forall_forall in W. specialize (W _ I). destruct x; cbn in *; try (eexists; reflexivity); destruct W as (y & W); discriminate. }
    destruct t as [| | |[]| | | |], l; try discriminate; cbn [andb negb] in E;
      repeat match type of E with
      | (if negb (castable _) then _ else _) = _ => destruct (negb (castable _)); [discriminate|]
      | (if existsb ?a ?b then _ else _) = _ => destruct (existsb a b) eqn:Ex; [discriminate|]
      end; injection E as <-; try (apply G; first [exact R | exact (Q eq_refl) | exact (T eq_refl)]); split; assumption.
  Qed.
  Hypothesis utc_named : exists n z, tz_name UTC = Some n /\ zone_of n = Some z.
  Definition Good (c : column) : Prop := WF c /\ NamedZone tz_name zone_of c.
  Lemma not_time_named : forall c : column, is_any_date c = false -> NamedZone tz_name zone_of c.
  Proof using Type. clear. intros c D d E. unfold is_any_date in D. rewrite E in D. discriminate. Qed.
  Lemma good_step : forall s c o st, Good c -> fit_step s c = Ok (o, st) -> transform_step st c = Ok o /\ forall c', o = Some c' -> Good c'.
  Proof using newline_space sort_perm default_pos utc_named. clear - newline_space sort_perm default_pos utc_named.
    intros s c o st [W Nz] E. destruct s; cbn [M_clean.fit_step] in E.
    - apply keep_ok in E. destruct E as (c1 & E & -> & ->). destruct (textual_dec c) as [T|T]; [|rewrite (nulls_fit_other is_space c T) in E; discriminate]. rewrite (nulls_fit_textual is_space c T) in E. cbn [M_clean.transform_step]. rewrite E. split; [reflexivity|].
      intros c' Ec. injection Ec as <-. destruct (nulls_transform_wf is_space newline_space c c1 W E) as (W1 & _ & T1). split; [exact W1|]. intros d Ed. apply Nz. congruence.
    - apply (drop_fit is_space fl UTC parse infer has_offset default_resolution guess pick round of_bool num ticks NaT_value castable castable_str nested str empty_is_string sort_cats) in E. destruct E as [[-> ->]|[-> ->]]; cbn [M_clean.transform_step]; [split; [reflexivity|discriminate]|].
      cbn [M_dropnulls.transform bind]. rewrite column_eta. split; [reflexivity|]. intros c' Ec. injection Ec as <-. split; assumption.
    - destruct (date_fit c) as [[c1 st1]|] eqn:Ed; [|discriminate]. cbn in E. injection E as <- <-. cbn [M_clean.transform_step].
      rewrite (date_same UTC tz_name zone_of parse infer has_offset default_resolution guess pick default_pos utc_named c c1 st1 W Nz Ed). split; [reflexivity|]. intros c' Ec. injection Ec as <-.
      destruct (date_fit_ok UTC parse infer has_offset default_resolution guess pick default_pos c c1 st1 W Ed) as (d & Et & _ & Eo & W1). split; [exact W1|].
      intros d' Ed'. assert (d' = d) by congruence. subst d'. unfold M_clean.date_fit in Ed. destruct (M_todt.fit_transform _ _ _ _ _ _ _ _ _ (dt_col c)) as [st2 [out|e]] eqn:Ef; [|discriminate].
      destruct (fit_named UTC tz_name zone_of parse infer has_offset default_resolution guess pick default_pos utc_named None unfitted st2 (dt_col c) out (dt_wf c W)) as (f & d0 & _ & Eo2 & _ & Nd & Ec); [|exact Ef|].
      + intros d1 Ed1. apply Nz. cbn in Ed1. destruct (cdtype c); try discriminate. congruence.
      + unfold from_dt in Ed. rewrite Ec in Ed. cbn in Ed. injection Ed as <- <-. congruence.
    - apply keep_ok in E. destruct E as (c1 & E & -> & ->). unfold M_clean.float_fit in E. destruct (is_any_date c) eqn:D; [discriminate|]. destruct (is_categorical c) eqn:C; [discriminate|]. cbn in E.
      destruct (to_float32 c true) as [c2|] eqn:Ef; [|discriminate]. injection E as ->. cbn [M_clean.transform_step]. unfold float_transform. rewrite (float32_strict round of_bool num ticks NaT_value castable c c1 Ef). split; [reflexivity|].
      intros c' Ec. injection Ec as <-. split; [eapply float_wf; eassumption|]. apply not_time_named. destruct (float32_type round of_bool num ticks NaT_value castable c true c1 Ef) as [Et _]. unfold is_any_date. rewrite Et. reflexivity.
    - apply keep_ok in E. destruct E as (c1 & E & -> & ->). unfold cats_fit in E. destruct (is_categorical c) eqn:C; [|discriminate]. cbn [negb] in E. cbn [M_clean.transform_step]. unfold cats_transform.
      assert (Ec : to_categorical c = Ok c). { unfold M_clean.to_categorical. unfold is_categorical in C. destruct (cdtype c); try discriminate. reflexivity. }
      rewrite Ec. cbn. rewrite E. split; [reflexivity|]. intros c' Ec'. injection Ec' as <-. destruct (cats_clean str empty_is_string sort_cats sort_perm c c1 W C E) as [Cc _]. split; [apply clean_cat_wf; exact Cc|].
      apply not_time_named. destruct Cc as (k & Et & _). unfold is_any_date. rewrite Et. reflexivity.
    - apply keep_ok in E. destruct E as (c1 & E & -> & ->). unfold str_fit in E. destruct (_ || _)%bool; [discriminate|]. cbn [M_clean.transform_step]. unfold str_transform. rewrite E. split; [reflexivity|]. intros c' Ec. injection Ec as <-.
      destruct (string_clean castable_str nested str empty_is_string c c1 W E) as [Cc _]. split; [apply clean_str_wf; exact Cc|]. apply not_time_named. destruct Cc as [Et _]. unfold is_any_date. rewrite Et. destruct (clib c1); reflexivity.
  Qed.
End Values.
