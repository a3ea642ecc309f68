(** Specification and lemmas for C93-C99: what happens to a column. *)
From Coq Require Import QArith Permutation.
From Verif Require Import Base M_nullstr M_dropnulls M_todt L_nullstr L_todt M_clean L_clean1 L_clean2.
Open Scope string_scope.
Open Scope list_scope.
Open Scope nat_scope.
Set Default Proof Using "Type".

Section Chains.
  Context {N TZ Name F O K : Type} `{EqD N} `{EqD F} `{EqD O}.
  Notation cell := (cell N O).
  Notation dtype := (dtype N TZ O K).
  Notation column := (column N TZ O K).
  Notation dcell := (@M_todt.cell text cell).
  Variable is_space : nat -> bool.
  Variable fl : Q -> Q.
  Variable UTC : TZ.
  Variable tz_name : TZ -> option Name.
  Variable zone_of : Name -> option TZ.
  Variable parse : lib -> F -> dcell -> option Z.
  Variable infer : list dcell -> dcell -> option Z.
  Variable has_offset : F -> bool.
  Variable default_resolution : lib -> Z.
  Variable guess : bool -> text -> option F.
  Variable pick : nat -> nat -> list nat.
  Variable round : N -> N.
  Variable of_bool : bool -> N.
  Variable num : lib -> dtype -> cell -> option (option N).
  Variable ticks : dtype -> Z -> N.
  Variable NaT_value : N.
  Variable castable castable_str nested : dtype -> bool.
  Variable str : lib -> dtype -> cell -> text.
  Variable empty_is_string : bool.
  Variable hashable : cell -> bool.
  Variable sort_cats : list cell -> list cell.

  Notation fit_step := (fit_step is_space fl UTC parse infer has_offset default_resolution guess pick round of_bool num ticks NaT_value castable castable_str nested str empty_is_string sort_cats).
  Notation transform_step := (transform_step is_space UTC tz_name zone_of parse infer has_offset default_resolution round of_bool num ticks NaT_value castable castable_str nested str empty_is_string hashable sort_cats).
  Notation to_string := (to_string castable_str nested str empty_is_string).
  Notation to_float32 := (to_float32 round of_bool num ticks NaT_value castable).
  Notation with_string_categories := (with_string_categories str empty_is_string sort_cats).
  Notation to_categorical := (to_categorical castable_str nested str empty_is_string hashable sort_cats).
  Notation cat_str := (@cat_str N TZ O K str).
  Notation fitted := (fitted TZ F).
  Notation table := (table N TZ O K).
  Notation fit_columns := (fit_columns is_space fl UTC parse infer has_offset default_resolution guess pick round of_bool num ticks NaT_value castable castable_str nested str empty_is_string sort_cats).
  Notation fit_steps := (fit_steps is_space fl UTC parse infer has_offset default_resolution guess pick round of_bool num ticks NaT_value castable castable_str nested str empty_is_string sort_cats).
  Notation transform_columns := (transform_columns is_space UTC tz_name zone_of parse infer has_offset default_resolution round of_bool num ticks NaT_value castable castable_str nested str empty_is_string hashable sort_cats).
  Notation transform_steps := (transform_steps is_space UTC tz_name zone_of parse infer has_offset default_resolution round of_bool num ticks NaT_value castable castable_str nested str empty_is_string hashable sort_cats).

  Notation names := (map fst).
  Notation date_fit := (date_fit UTC parse infer has_offset default_resolution guess pick).
  Notation date_transform := (date_transform UTC tz_name zone_of parse infer has_offset default_resolution).
  Notation float_fit := (float_fit round of_bool num ticks NaT_value castable).
  Notation FChain := (FChain is_space fl UTC parse infer has_offset default_resolution guess pick round of_bool num ticks NaT_value castable castable_str nested str empty_is_string sort_cats).
  Notation TChain := (TChain is_space UTC tz_name zone_of parse infer has_offset default_resolution round of_bool num ticks NaT_value castable castable_str nested str empty_is_string hashable sort_cats).
  Notation run := (run is_space UTC tz_name zone_of parse infer has_offset default_resolution round of_bool num ticks NaT_value castable castable_str nested str empty_is_string hashable sort_cats).
  Hypothesis newline_space : is_space newline = true.
  Hypothesis sort_perm : forall l, Permutation (sort_cats l) l.
  Hypothesis default_pos : forall l, (0 < default_resolution l)%Z.

  (** ** What happens to one column *)
  Lemma keep_ok : forall (st : fitted) (r : res column) o st', keep st r = Ok (o, st') -> exists c', r = Ok c' /\ o = Some c' /\ st' = st.
  Proof using Type. clear. intros st [c|e] o st' E; cbn in E; [|discriminate]. injection E as <- <-. exists c. tauto. Qed.
  Lemma keep_err : forall (st : fitted) (r : res column) e, keep st r = Err e -> r = Err e.
  Proof using Type. clear. intros st [c|e'] e E; cbn in E; [discriminate|]. congruence. Qed.

  Definition AfterNulls (c : column) (a : option fitted) (c1 : column) : Prop :=
    (Textual c /\ a = Some FNulls /\ nulls_transform is_space c = Ok c1) \/ (~ Textual c /\ a = None /\ c1 = c).
  Definition ff (f : bool) : list (option fitted) := if f then [None] else [].
  Inductive Fate (f : bool) (c1 : column) : list (option fitted) -> column -> Prop :=
  | Fate_date : forall st c', date_fit c1 = Ok (c', st) -> Fate f c1 (Some (FDate st) :: ff f ++ [None; None]) c'
  | Fate_float : forall c', f = true -> date_fit c1 = Err RejectColumn -> is_any_date c1 = false -> is_categorical c1 = false -> to_float32 c1 true = Ok c' -> Fate f c1 [None; Some FFloat; None; None] c'
  | Fate_number : f = false -> is_numeric c1 = true -> Fate f c1 [None; None; None] c1
  | Fate_cat : forall c', is_categorical c1 = true -> with_string_categories c1 = Ok c' -> Fate f c1 (None :: ff f ++ [Some FCats; None]) c'
  | Fate_str : forall c', date_fit c1 = Err RejectColumn -> is_numeric c1 = false -> is_any_date c1 = false -> is_categorical c1 = false -> (f = true -> float_fit c1 = Err RejectColumn) ->
      to_string c1 = Ok c' -> Fate f c1 (None :: ff f ++ [None; Some FStr]) c'.

  Lemma cats_type : forall (c c' : column), is_categorical c = true -> with_string_categories c = Ok c' -> is_categorical c' = true.
  Proof using Type. clear.
    intros [l t cs] c' C E. unfold is_categorical in C. cbn in C. destruct t as [| | | | | |k|]; try discriminate. unfold M_clean.with_string_categories in E. cbn [clib cdtype] in E.
    destruct l; [|injection E as <-; reflexivity]. destruct (_ && _)%bool; [injection E as <-; reflexivity|]. destruct (_ =? _); injection E as <-; reflexivity.
  Qed.
  (** the last steps on a column that they leave alone *)
  Lemma tail_str : forall c l c', is_numeric c = true \/ is_any_date c = true \/ is_categorical c = true -> FChain [ToStr] c l c' -> l = [None] /\ c' = c.
  Proof using Type. clear.
    intros c l c' X Ch. inversion Ch as [|s ss c0 l0 c0' Es Ch1|s ss c0 st c1 l0 c0' Es Ch1]; subst.
    - inversion Ch1; subst. tauto.
    - exfalso. cbn in Es. apply keep_ok in Es. destruct Es as (c2 & Es & _). unfold str_fit in Es. destruct X as [X|[X|X]]; rewrite X in Es; rewrite ?orb_true_r in Es; discriminate.
  Qed.
  Lemma tail_cats : forall c l c', is_categorical c = false -> is_numeric c = true \/ is_any_date c = true -> FChain [CleanCategories; ToStr] c l c' -> l = [None; None] /\ c' = c.
  Proof using Type. clear.
    intros c l c' C X Ch. inversion Ch as [|s ss c0 l0 c0' Es Ch1|s ss c0 st c1 l0 c0' Es Ch1]; subst.
    - apply tail_str in Ch1; [|tauto]. destruct Ch1 as [-> ->]. tauto.
    - exfalso. cbn in Es. apply keep_ok in Es. destruct Es as (c2 & Es & _). unfold cats_fit in Es. rewrite C in Es. discriminate.
  Qed.
  Lemma tail_any : forall f c l c', (f = true -> is_numeric c = false) -> is_any_date c = false -> date_fit c = Err RejectColumn -> (f = true -> float_fit c = Err RejectColumn) ->
    FChain [CleanCategories; ToStr] c l c' -> Fate f c (None :: ff f ++ l) c'.
  Proof using Type. clear.
    intros f c l c' Nf D Ed Ef Ch. inversion Ch as [|s ss c0 l0 c0' Es Ch1|s ss c0 st c1 l0 c0' Es Ch1]; subst.
    - assert (C : is_categorical c = false). { cbn in Es. apply keep_err in Es. unfold cats_fit in Es. destruct (is_categorical c) eqn:C; [|reflexivity]. exfalso. cbn in Es.
        unfold is_categorical in C. destruct c as [l t cs]. cbn in C. destruct t as [| | | | | |k|]; try discriminate. unfold M_clean.with_string_categories in Es. cbn [clib cdtype] in Es. destruct l; [|discriminate]. destruct (_ && _)%bool; [discriminate|]. destruct (_ =? _); discriminate. }
      destruct (is_numeric c) eqn:Nm.
      + destruct f; [discriminate (Nf eq_refl)|]. apply tail_str in Ch1; [|tauto]. destruct Ch1 as [-> ->]. apply Fate_number; [reflexivity|exact Nm].
      + inversion Ch1 as [|s ss c0 l1 c0' Es1 Ch2|s ss c0 st c1 l1 c0' Es1 Ch2]; subst.
        * exfalso. cbn in Es1. apply keep_err in Es1. unfold str_fit in Es1. rewrite Nm, D, C in Es1. cbn in Es1. unfold M_clean.to_string in Es1. destruct (clib c).
          -- destruct (negb _); [discriminate|]. destruct (negb _); discriminate.
          -- destruct (cdtype c); try discriminate; destruct (_ || _)%bool; discriminate.
        * cbn in Es1. apply keep_ok in Es1. destruct Es1 as (c2 & Es1 & E2 & ->). injection E2 as <-. inversion Ch2; subst. unfold str_fit in Es1. rewrite Nm, D, C in Es1. cbn in Es1.
          apply Fate_str; assumption.
    - cbn in Es. apply keep_ok in Es. destruct Es as (c2 & Es & E2 & ->). injection E2 as <-. unfold cats_fit in Es. destruct (is_categorical c) eqn:C; [|discriminate]. cbn in Es.
      apply tail_str in Ch1; [|right; right; eapply cats_type; eassumption]. destruct Ch1 as [-> ->]. apply Fate_cat; assumption.
  Qed.
  Lemma chain_fate : forall t f c l c', WF c -> FChain (preprocessors t f) c l c' ->
    exists a c1 l', l = a :: Some (FDrop false) :: l' /\ AfterNulls c a c1 /\ (valid t = true /\ decide is_null fl t (cells c1) = false) /\ WF c1 /\ clib c1 = clib c /\ cdtype c1 = cdtype c /\ Fate f c1 l' c'.
  Proof using newline_space default_pos. clear - newline_space default_pos.
    intros t f c l c' W Ch. unfold preprocessors in Ch. cbn [app] in Ch.
    assert (S1 : exists a c1 l1, l = a :: l1 /\ AfterNulls c a c1 /\ WF c1 /\ clib c1 = clib c /\ cdtype c1 = cdtype c /\ FChain (DropIfTooManyNulls t :: ToDatetime :: (if f then [ToFloat32] else []) ++ [CleanCategories; ToStr]) c1 l1 c').
    { inversion Ch as [|s ss c0 l0 c0' Es Ch1|s ss c0 st c1 l0 c0' Es Ch1]; subst.
      - exists None, c, l0. split; [reflexivity|]. split; [|repeat split; try assumption; apply W]. right. repeat split. intros T. cbn in Es. apply keep_err in Es. rewrite (nulls_fit_textual is_space c T) in Es. discriminate.
      - cbn in Es. apply keep_ok in Es. destruct Es as (c2 & Es & E2 & ->). injection E2 as <-. destruct (textual_dec c) as [T|T]; [|rewrite (nulls_fit_other is_space c T) in Es; discriminate].
        rewrite (nulls_fit_textual is_space c T) in Es. exists (Some FNulls), c1, l0. destruct (nulls_transform_wf is_space newline_space c c1 W Es) as (W1 & L1 & T1). repeat split; try assumption; try (apply W1). left. tauto. }
    clear Ch. destruct S1 as (a & c1 & l1 & -> & AN & W1 & L1 & T1 & Ch).
    assert (S2 : exists l2, l1 = Some (FDrop false) :: l2 /\ (valid t = true /\ decide is_null fl t (cells c1) = false) /\ FChain (ToDatetime :: (if f then [ToFloat32] else []) ++ [CleanCategories; ToStr]) c1 l2 c').
    { inversion Ch as [|s ss c0 l0 c0' Es Ch1|s ss c0 st c2 l0 c0' Es Ch1]; subst.
      - apply drop_fit_err in Es. discriminate.
      - assert (V : valid t = true). { cbn in Es. unfold M_dropnulls.fit_transform in Es. destruct (valid t); [reflexivity|discriminate]. }
        rewrite drop_fit_eq in Es by exact V. destruct (decide is_null fl t (cells c1)); [discriminate|]. injection Es as <- <-. exists l0. tauto. }
    clear Ch. destruct S2 as (l2 & -> & V & Ch). exists a, c1, l2. repeat (split; [assumption || reflexivity|]). clear AN V L1 T1 W c.
    inversion Ch as [|s ss c0 l0 c0' Es Ch1|s ss c0 st c2 l0 c0' Es Ch1]; subst; clear Ch.
    - cbn in Es. destruct (date_fit c1) as [[c3 st3]|e] eqn:Ed; [discriminate|]. cbn in Es. injection Es as ->. destruct (date_fit_err UTC parse infer has_offset default_resolution guess pick default_pos c1 RejectColumn W1 Ed) as [_ D].
      destruct f; cbn [app] in Ch1.
      + inversion Ch1 as [|s ss c0 l1 c0' Es Ch2|s ss c0 st c2 l1 c0' Es Ch2]; subst; clear Ch1.
        * cbn in Es. apply keep_err in Es. change (None :: l1) with (ff true ++ l1). apply tail_any; try assumption; [|intros _; exact Es]. intros _. destruct (is_numeric c1) eqn:Nm; [|reflexivity]. exfalso.
          unfold M_clean.float_fit in Es. rewrite D in Es. unfold is_numeric in Nm. destruct (cdtype c1) eqn:Et; try discriminate. replace (is_categorical c1) with false in Es by (unfold is_categorical; rewrite Et; reflexivity). cbn in Es.
          destruct (float32_number round of_bool num ticks NaT_value castable c1 f32 true Et) as (o & Eo). rewrite Eo in Es. discriminate.
        * cbn in Es. apply keep_ok in Es. destruct Es as (c3 & Es & E2 & ->). injection E2 as <-. unfold M_clean.float_fit in Es. rewrite D in Es. destruct (is_categorical c1) eqn:C; [discriminate|]. cbn in Es.
          destruct (to_float32 c1 true) as [o|] eqn:Ef; [|discriminate]. injection Es as <-. destruct (float32_type round of_bool num ticks NaT_value castable c1 true o Ef) as [Et _].
          apply tail_cats in Ch2; [|unfold is_categorical; rewrite Et; reflexivity|left; unfold is_numeric; rewrite Et; reflexivity]. destruct Ch2 as [-> ->]. apply Fate_float; trivial.
      + change l0 with (ff false ++ l0). apply tail_any; try assumption; discriminate.
    - cbn in Es. destruct (date_fit c1) as [[c3 st3]|e] eqn:Ed; [|discriminate]. cbn in Es. injection Es as <- <-. destruct (date_fit_ok UTC parse infer has_offset default_resolution guess pick default_pos c1 c3 st3 W1 Ed) as (d & Et & _).
      assert (D : is_any_date c3 = true) by (unfold is_any_date; rewrite Et; reflexivity). assert (C : is_categorical c3 = false) by (unfold is_categorical; rewrite Et; reflexivity).
      destruct f; cbn [app] in Ch1.
      + inversion Ch1 as [|s ss c0 l1 c0' Es Ch2|s ss c0 st c2 l1 c0' Es Ch2]; subst; clear Ch1.
        * apply tail_cats in Ch2; [|exact C|tauto]. destruct Ch2 as [-> ->]. apply (Fate_date true). exact Ed.
        * exfalso. cbn in Es. apply keep_ok in Es. destruct Es as (c4 & Es & _). unfold M_clean.float_fit in Es. rewrite D in Es. discriminate.
      + apply tail_cats in Ch1; [|exact C|tauto]. destruct Ch1 as [-> ->]. apply (Fate_date false). exact Ed.
  Qed.

  (** ** C93 *)
  Definition Clean (f : bool) (c : column) : Prop := CleanStr c \/ CleanCat c \/ CleanTime c \/ exists b, cdtype c = TNum b /\ (f = true -> b = true).
  Lemma fate_clean : forall f c l c', WF c -> Fate f c l c' -> Clean f c' /\ clib c' = clib c.
  Proof using sort_perm default_pos. clear - sort_perm default_pos.
    intros f c l c' W Fa. destruct Fa as [st c' Ed|c' -> Er D C Ef| -> Nm|c' C Ew|c' Er Nm D C Ef Es].
    - destruct (date_fit_ok UTC parse infer has_offset default_resolution guess pick default_pos c c' st W Ed) as (d & Et & El & _). split; [|exact El]. right. right. left. exists d. exact Et.
    - destruct (float32_type round of_bool num ticks NaT_value castable c true c' Ef) as [Et El]. split; [|exact El]. right. right. right. exists true. tauto.
    - split; [|reflexivity]. right. right. right. unfold is_numeric in Nm. destruct (cdtype c) eqn:Et; try discriminate. exists f32. split; [reflexivity|discriminate].
    - destruct (cats_clean str empty_is_string sort_cats sort_perm c c' W C Ew) as [Cc El]. split; [|exact El]. right. left. exact Cc.
    - destruct (string_clean castable_str nested str empty_is_string c c' W Es) as [Cc El]. split; [|exact El]. left. exact Cc.
  Qed.
  Lemma fit_clean : forall t f X tss Y, fit_steps (preprocessors t f) X = Ok (tss, Y) -> NoDup (names X) -> (forall n c, In (n, c) X -> WF c) ->
    forall n c', In (n, c') Y -> exists c, In (n, c) X /\ clib c' = clib c /\ Clean f c'.
  Proof using newline_space sort_perm default_pos. clear - newline_space sort_perm default_pos.
    intros t f X tss Y E ND W n c' I. destruct (fit_steps_out is_space fl UTC parse infer has_offset default_resolution guess pick round of_bool num ticks NaT_value castable castable_str nested str empty_is_string sort_cats _ _ _ _ _ _ E ND I) as (c & Ic & Ch).
    exists c. split; [exact Ic|]. destruct (chain_fate t f c _ c' (W n c Ic) Ch) as (a & c1 & l' & _ & _ & _ & W1 & L1 & _ & Fa). destruct (fate_clean f c1 l' c' W1 Fa) as [C L2]. split; [congruence|exact C].
  Qed.

  (** ** C94 *)
  Inductive SameKind : column -> column -> Prop :=
  | SameKind_num : forall c d, cdtype c = TNum true -> cdtype d = TNum true -> SameKind c d
  | SameKind_time : forall c d k, cdtype c = TTime k -> cdtype d = TTime k -> SameKind c d
  | SameKind_cat : forall c d, CleanCat c -> CleanCat d -> SameKind c d
  | SameKind_str : forall c d, CleanStr c -> CleanStr d -> SameKind c d.
  Lemma nones : forall l d d', Forall (fun x => x = None) l -> TChain l d d' -> d' = d.
  Proof using Type. clear. induction l as [|x l IH]; intros d d' Fa Ch; inversion Ch; subst; [reflexivity| |]; inversion Fa; subst; [apply (IH d d'); assumption|discriminate]. Qed.
  Lemma ff_nones : forall f, Forall (fun x => x = None) (ff f).
  Proof using Type. clear. intros []; repeat constructor. Qed.
  Lemma skip_nones : forall l0 l d d', Forall (fun x => x = None) l0 -> TChain (l0 ++ l) d d' -> TChain l d d'.
  Proof using Type. clear. induction l0 as [|x l0 IH]; intros l d d' Fa Ch; [exact Ch|]. inversion Fa; subst. inversion Ch; subst. eapply IH; eassumption. Qed.
  Lemma tchain_yes : forall st l d d', TChain (Some st :: l) d d' -> exists d1, transform_step st d = Ok (Some d1) /\ TChain l d1 d'.
  Proof using Type. clear. intros st l d d' Ch. inversion Ch; subst. eexists. split; eassumption. Qed.
  Lemma fate_transform : forall f c l c' d d', WF c -> Fate f c l c' -> WF d -> TChain l d d' -> (f = false /\ is_numeric c = true /\ c' = c /\ d' = d) \/ SameKind c' d'.
  Proof using sort_perm default_pos. clear - sort_perm default_pos.
    intros f c l c' d d' W Fa Wd Ch. destruct Fa as [st c' Ed|c' -> Er D C Ef| -> Nm|c' C Ew|c' Er Nm D C Ef Es].
    - right. destruct (date_fit_ok UTC parse infer has_offset default_resolution guess pick default_pos c c' st W Ed) as (k & Et & El & Eo & _).
      apply tchain_yes in Ch. destruct Ch as (d1 & Es & Ch). apply nones in Ch; [|apply Forall_app; split; [apply ff_nones|repeat constructor]]. subst d1. cbn in Es. destruct (date_transform st d) as [d2|] eqn:Ed2; [|discriminate]. cbn in Es. injection Es as ->.
      destruct (date_transform_type UTC tz_name zone_of parse infer has_offset default_resolution st d d' k Eo Ed2) as [Et' _]. eapply SameKind_time; eassumption.
    - right. destruct (float32_type round of_bool num ticks NaT_value castable c true c' Ef) as [Et El]. apply (skip_nones [None] [Some FFloat; None; None]) in Ch; [|repeat constructor]. apply tchain_yes in Ch. destruct Ch as (d1 & Es & Ch). apply nones in Ch; [|repeat constructor]. subst d1.
      cbn in Es. unfold float_transform in Es. destruct (to_float32 d false) as [d2|] eqn:Ed; [|discriminate]. cbn in Es. injection Es as ->. destruct (float32_type round of_bool num ticks NaT_value castable d false d' Ed) as [Et' _]. apply SameKind_num; assumption.
    - left. apply nones in Ch; [|repeat constructor]. tauto.
    - right. destruct (cats_clean str empty_is_string sort_cats sort_perm c c' W C Ew) as [Cc El]. change (None :: ff f ++ [Some FCats; None]) with ((None :: ff f) ++ [Some FCats; None]) in Ch. apply skip_nones in Ch; [|constructor; [reflexivity|apply ff_nones]].
      apply tchain_yes in Ch. destruct Ch as (d1 & Es & Ch). apply nones in Ch; [|repeat constructor]. subst d1. cbn in Es. unfold cats_transform in Es. destruct (to_categorical d) as [d2|] eqn:Ed; [|discriminate]. cbn in Es.
      destruct (with_string_categories d2) as [d3|] eqn:Ew2; [|discriminate]. cbn in Es. injection Es as ->.
      destruct (to_categorical_wf castable_str nested str empty_is_string hashable sort_cats sort_perm d d2 Wd Ed) as (W2 & C2 & _). destruct (cats_clean str empty_is_string sort_cats sort_perm d2 d' W2 C2 Ew2) as [C3 _]. apply SameKind_cat; assumption.
    - right. destruct (string_clean castable_str nested str empty_is_string c c' W Es) as [Cc El]. change (None :: ff f ++ [None; Some FStr]) with ((None :: ff f) ++ [None; Some FStr]) in Ch. apply skip_nones in Ch; [|constructor; [reflexivity|apply ff_nones]].
      apply (skip_nones [None] [Some FStr]) in Ch; [|repeat constructor]. apply tchain_yes in Ch. destruct Ch as (d1 & Es1 & Ch). apply nones in Ch; [|constructor]. subst d1. cbn in Es1. unfold str_transform in Es1. destruct (to_string d) as [d3|] eqn:Ed; [|discriminate]. cbn in Es1. injection Es1 as ->.
      destruct (string_clean castable_str nested str empty_is_string d d' Wd Ed) as [C3 _]. apply SameKind_str; assumption.
  Qed.
  Lemma transform_kind : forall t f X tss Y X' Y', fit_steps (preprocessors t f) X = Ok (tss, Y) -> NoDup (names X) -> (forall n c, In (n, c) X -> WF c) ->
    transform_steps tss X' = Ok Y' -> NoDup (names X') -> (forall n d, In (n, d) X' -> WF d) ->
    forall n c' d', In (n, c') Y -> In (n, d') Y' -> (f = false /\ In (n, c') X /\ is_numeric c' = true /\ In (n, d') X') \/ SameKind c' d'.
  Proof using newline_space sort_perm default_pos. clear - newline_space sort_perm default_pos.
    intros t f X tss Y X' Y' E ND W E' ND' W' n c' d' I I'.
    destruct (fit_steps_out is_space fl UTC parse infer has_offset default_resolution guess pick round of_bool num ticks NaT_value castable castable_str nested str empty_is_string sort_cats _ _ _ _ _ _ E ND I) as (c & Ic & Ch).
    destruct (transform_steps_out is_space UTC tz_name zone_of parse infer has_offset default_resolution round of_bool num ticks NaT_value castable castable_str nested str empty_is_string hashable sort_cats _ _ _ _ _ E' ND' I') as (d & Id & Ch').
    destruct (chain_fate t f c _ c' (W n c Ic) Ch) as (a & c1 & l' & El & AN & _ & W1 & L1 & T1 & Fa). rewrite El in Ch'.
    assert (S1 : exists d1, WF d1 /\ (a = None -> d1 = d) /\ TChain l' d1 d').
    { assert (S0 : exists d1, WF d1 /\ (a = None -> d1 = d) /\ TChain (Some (FDrop false) :: l') d1 d').
      { destruct AN as [(_ & -> & _)|(_ & -> & _)].
        - apply tchain_yes in Ch'. destruct Ch' as (d1 & Es & Ch'). exists d1. cbn in Es. injection Es as Es. split; [|split; [discriminate|exact Ch']]. apply (nulls_transform_wf is_space newline_space d d1 (W' n d Id)). unfold nulls_transform. rewrite Es. reflexivity.
        - exists d. split; [apply (W' n d Id)|]. split; [reflexivity|]. apply (skip_nones [None]) in Ch'; [exact Ch'|repeat constructor]. }
      destruct S0 as (d1 & Wd & Ea & Ch1). exists d1. split; [exact Wd|]. split; [exact Ea|]. apply tchain_yes in Ch1. destruct Ch1 as (d2 & Es & Ch1). cbn in Es. rewrite column_eta in Es. injection Es as <-. exact Ch1. }
    destruct S1 as (d1 & Wd & Ea & Ch1). destruct (fate_transform f c1 l' c' d1 d' W1 Fa Wd Ch1) as [(-> & Nm & -> & ->)|Sk]; [left|right; exact Sk].
    assert (NT : ~ Textual c). { intros T. unfold is_numeric in Nm. rewrite T1 in Nm. destruct T as [T|[_ T]]; rewrite T in Nm; discriminate. }
    destruct AN as [(T & _)|(_ & En & ->)]; [contradiction|]. rewrite (Ea En). tauto.
  Qed.

  (** the same columns are dropped at each transform *)
  Lemma transform_names : forall t f X tss Y X' Y', fit_steps (preprocessors t f) X = Ok (tss, Y) -> NoDup (names X) ->
    transform_steps tss X' = Ok Y' -> names X' = names X -> names Y' = names Y.
  Proof using Type. clear.
    assert (G : forall ss, (forall s, In s ss -> forall c o st, fit_step s c = Ok (o, st) -> forall d o', transform_step st d = Ok o' -> (o' = None <-> o = None)) ->
      forall X tss Y X' Y', fit_steps ss X = Ok (tss, Y) -> NoDup (names X) -> transform_steps tss X' = Ok Y' -> names X' = names X -> names Y' = names Y).
    { induction ss as [|s ss IH]; intros A X tss Y X' Y' E ND E' En.
      - cbn in E. injection E as <- <-. cbn in E'. injection E' as <-. exact En.
      - cbn [M_clean.fit_steps] in E. destruct (fit_columns s X) as [[ts X1]|] eqn:E1; [|discriminate]. cbn [bind fst snd] in E. destruct (fit_steps ss X1) as [[tss1 Y1]|] eqn:E2; [|discriminate]. cbn [bind fst snd] in E. injection E as <- <-.
        cbn [M_clean.transform_steps] in E'. destruct (transform_columns ts X') as [X1'|] eqn:E1'; [|discriminate]. cbn [bind] in E'.
        destruct (fit_cols_spec is_space fl UTC parse infer has_offset default_resolution guess pick round of_bool num ticks NaT_value castable castable_str nested str empty_is_string sort_cats s X ts X1 E1 ND) as (I0 & I1 & N1 & N0 & A1).
        apply (IH (fun s' Is => A s' (or_intror Is)) X1 tss1 Y1 X1' Y' E2 N1 E'). clear IH E2 E' tss1 Y1 Y' I0 I1 N1 N0 A1.
        specialize (A s (or_introl eq_refl)). revert ts X1 E1 X' X1' E1' En. induction X as [|[n c] X IH]; intros ts X1 E1 X' X1' E1' En.
        + destruct X'; [|discriminate]. cbn in E1, E1'. injection E1 as <- <-. injection E1' as <-. reflexivity.
        + destruct X' as [|[n' d] X']; [discriminate|]. cbn [map fst] in En. injection En as -> En. cbn [M_clean.fit_columns] in E1. cbn in ND. inversion ND as [|? ? NI ND']; subst. destruct (attempt (fit_step s c)) as [o|] eqn:Ea; [|discriminate]. cbn [bind] in E1.
          destruct (fit_columns s X) as [[ts1 Y1]|] eqn:Ef; [|discriminate]. cbn [bind fst snd] in E1.
          destruct (fit_cols_spec is_space fl UTC parse infer has_offset default_resolution guess pick round of_bool num ticks NaT_value castable castable_str nested str empty_is_string sort_cats s X ts1 Y1 Ef ND') as (I1 & _).
          assert (Ex : forall st, transform_columns ((n, st) :: ts1) X' = transform_columns ts1 X').
          { intros st. apply transform_cols_ext. intros m Im. rewrite En in Im. cbn. destruct (eqd m n) as [->|]; [contradiction|reflexivity]. }
          cbn [M_clean.transform_columns] in E1'. destruct o as [[[c1|] st]|]; injection E1 as <- <-.
          * assert (Es : fit_step s c = Ok (Some c1, st)). { unfold attempt in Ea. destruct (fit_step s c) as [[o st']|[]]; try discriminate. congruence. }
            cbn [dget] in E1'. destruct (eqd n n); [|congruence]. destruct (transform_step st d) as [o'|] eqn:Et; [|discriminate]. rewrite Ex in E1'. destruct (transform_columns ts1 X') as [Z1|] eqn:Ez; [|discriminate]. cbn [bind] in E1'. injection E1' as <-.
            pose proof (A c _ st Es d o' Et) as B. destruct o' as [d1|]; [|destruct B as [B _]; discriminate (B eq_refl)]. cbn. f_equal. eapply IH; try eassumption. reflexivity.
          * assert (Es : fit_step s c = Ok (None, st)). { unfold attempt in Ea. destruct (fit_step s c) as [[o st']|[]]; try discriminate. congruence. }
            cbn [dget] in E1'. destruct (eqd n n); [|congruence]. destruct (transform_step st d) as [o'|] eqn:Et; [|discriminate]. rewrite Ex in E1'. destruct (transform_columns ts1 X') as [Z1|] eqn:Ez; [|discriminate]. cbn [bind] in E1'. injection E1' as <-.
            pose proof (A c _ st Es d o' Et) as B. destruct o' as [d1|]; [destruct B as [_ B]; discriminate (B eq_refl)|]. eapply IH; try eassumption. reflexivity.
          * rewrite (dget_none ts1 n) in E1' by (intros I; apply NI, I1; exact I). destruct (transform_columns ts1 X') as [Z1|] eqn:Ez; [|discriminate]. cbn [bind] in E1'. injection E1' as <-. cbn. f_equal. eapply IH; try eassumption. reflexivity. }
    intros t f. apply G. intros s Is c o st Es d o' Et.
    assert (K1 : forall (r : res column) st0, keep st0 r = Ok (o, st) -> o <> None /\ st = st0). { intros r st0 E. apply keep_ok in E. destruct E as (c' & _ & -> & ->). split; [discriminate|reflexivity]. }
    assert (K2 : forall r : res column, (let! c := r in Ok (Some c)) = Ok o' -> o' <> None). { intros [x|] E; cbn in E; [|discriminate]. injection E as <-. discriminate. }
    destruct s; cbn [M_clean.fit_step] in Es.
    - apply K1 in Es. destruct Es as [No ->]. cbn in Et. injection Et as <-. split; [discriminate|contradiction].
    - apply (drop_fit is_space fl UTC parse infer has_offset default_resolution guess pick round of_bool num ticks NaT_value castable castable_str nested str empty_is_string sort_cats) in Es. destruct Es as [[-> ->]|[-> ->]]; cbn in Et; injection Et as <-; split; congruence.
    - destruct (date_fit c) as [[c1 st1]|]; [|discriminate]. cbn in Es. injection Es as <- <-. cbn in Et. apply K2 in Et. split; [contradiction|discriminate].
    - apply K1 in Es. destruct Es as [No ->]. cbn in Et. apply K2 in Et. split; contradiction.
    - apply K1 in Es. destruct Es as [No ->]. cbn in Et. apply K2 in Et. split; contradiction.
    - apply K1 in Es. destruct Es as [No ->]. cbn in Et. apply K2 in Et. split; contradiction.
  Qed.
End Chains.
