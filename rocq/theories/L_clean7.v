(** Specification and lemmas for C94: later tables are accepted. *)
From Coq Require Import QArith Permutation.
From Verif Require Import Base M_nullstr M_dropnulls M_todt L_nullstr L_todt M_clean L_clean1 L_clean2 L_clean3 L_clean4 L_clean5 L_clean6.
Open Scope string_scope.
Open Scope list_scope.
Open Scope nat_scope.
Set Default Proof Using "Type".

Section Later.
  Context {N TZ Name F O K : Type} `{EqD N} `{EqD F} `{EqD O}.
  Notation cell := (cell N O).
  Notation dtype := (dtype N TZ O K).
  Notation column := (column N TZ O K).
  Notation dcell := (@M_todt.cell text cell).
  Variable is_space : nat -> bool.
  Variable fl : Q -> Q.
  Variable UTC : TZ.
  Variable tz_name : TZ -> option Name.
  Variable zone_of : Name -> option TZ.
  Variable parse : lib -> F -> dcell -> option Z.
  Variable infer : list dcell -> dcell -> option Z.
  Variable has_offset : F -> bool.
  Variable default_resolution : lib -> Z.
  Variable guess : bool -> text -> option F.
  Variable pick : nat -> nat -> list nat.
  Variable round : N -> N.
  Variable of_bool : bool -> N.
  Variable num : lib -> dtype -> cell -> option (option N).
  Variable ticks : dtype -> Z -> N.
  Variable NaT_value : N.
  Variable castable castable_str nested : dtype -> bool.
  Variable str : lib -> dtype -> cell -> text.
  Variable empty_is_string : bool.
  Variable hashable : cell -> bool.
  Variable sort_cats : list cell -> list cell.

  Notation fit_step := (fit_step is_space fl UTC parse infer has_offset default_resolution guess pick round of_bool num ticks NaT_value castable castable_str nested str empty_is_string sort_cats).
  Notation transform_step := (transform_step is_space UTC tz_name zone_of parse infer has_offset default_resolution round of_bool num ticks NaT_value castable castable_str nested str empty_is_string hashable sort_cats).
  Notation to_string := (to_string castable_str nested str empty_is_string).
  Notation to_float32 := (to_float32 round of_bool num ticks NaT_value castable).
  Notation with_string_categories := (with_string_categories str empty_is_string sort_cats).
  Notation to_categorical := (to_categorical castable_str nested str empty_is_string hashable sort_cats).
  Notation cat_str := (@cat_str N TZ O K str).
  Notation fitted := (fitted TZ F).
  Notation table := (table N TZ O K).
  Notation fit_columns := (fit_columns is_space fl UTC parse infer has_offset default_resolution guess pick round of_bool num ticks NaT_value castable castable_str nested str empty_is_string sort_cats).
  Notation fit_steps := (fit_steps is_space fl UTC parse infer has_offset default_resolution guess pick round of_bool num ticks NaT_value castable castable_str nested str empty_is_string sort_cats).
  Notation transform_columns := (transform_columns is_space UTC tz_name zone_of parse infer has_offset default_resolution round of_bool num ticks NaT_value castable castable_str nested str empty_is_string hashable sort_cats).
  Notation transform_steps := (transform_steps is_space UTC tz_name zone_of parse infer has_offset default_resolution round of_bool num ticks NaT_value castable castable_str nested str empty_is_string hashable sort_cats).

  Notation names := (map fst).
  Notation date_fit := (date_fit UTC parse infer has_offset default_resolution guess pick).
  Notation date_transform := (date_transform UTC tz_name zone_of parse infer has_offset default_resolution).
  Notation float_fit := (float_fit round of_bool num ticks NaT_value castable).
  Notation FChain := (FChain is_space fl UTC parse infer has_offset default_resolution guess pick round of_bool num ticks NaT_value castable castable_str nested str empty_is_string sort_cats).
  Notation TChain := (TChain is_space UTC tz_name zone_of parse infer has_offset default_resolution round of_bool num ticks NaT_value castable castable_str nested str empty_is_string hashable sort_cats).
  Notation run := (run is_space UTC tz_name zone_of parse infer has_offset default_resolution round of_bool num ticks NaT_value castable castable_str nested str empty_is_string hashable sort_cats).
  Hypothesis newline_space : is_space newline = true.
  Hypothesis sort_perm : forall l, Permutation (sort_cats l) l.
  Hypothesis default_pos : forall l, (0 < default_resolution l)%Z.
  Notation Fate := (Fate UTC parse infer has_offset default_resolution guess pick round of_bool num ticks NaT_value castable castable_str nested str empty_is_string sort_cats).
  Notation AfterNulls := (AfterNulls is_space).


  Hypothesis str_text : forall l t s, str l t (CStr s) = s.
  Hypothesis utc_named : exists n z, tz_name UTC = Some n /\ zone_of n = Some z.
  Notation chain_fate := (chain_fate is_space fl UTC parse infer has_offset default_resolution guess pick round of_bool num ticks NaT_value castable castable_str nested str empty_is_string sort_cats newline_space default_pos).
  Notation fit_steps_out := (fit_steps_out is_space fl UTC parse infer has_offset default_resolution guess pick round of_bool num ticks NaT_value castable castable_str nested str empty_is_string sort_cats).
  Notation clean_fit := (clean_fit is_space fl UTC parse infer has_offset default_resolution guess pick round of_bool num ticks NaT_value castable castable_str nested str empty_is_string sort_cats).
  Notation clean_transform := (clean_transform is_space UTC tz_name zone_of parse infer has_offset default_resolution round of_bool num ticks NaT_value castable castable_str nested str empty_is_string hashable sort_cats).



  (** ** C94: later tables are accepted *)
  (** what a later column must be like: same type; for pandas any, but the entries of categories are hashed *)
  Definition Like (c d : column) : Prop := clib d = clib c /\ (cdtype d = cdtype c \/ (clib c = Pandas /\ (is_categorical c = true -> forall x, In x (cells d) -> hashable x = true))).
  Definition Settled (ss : list step) (c : column) : Prop := forall s, In s ss -> fit_step s c = Err RejectColumn.
  Notation Good := (Good tz_name zone_of).
  Definition Ready (ss : list step) (c d : column) : Prop := Good c /\ ((Good d /\ Like c d) \/ Settled ss c).

  Lemma suffix : forall t f pre s ss, preprocessors t f = pre ++ s :: ss ->
    match s with
    | ToDatetime => forall x, In x ss -> x = ToFloat32 \/ x = CleanCategories \/ x = ToStr
    | ToFloat32 => ss = [CleanCategories; ToStr]
    | CleanCategories => ss = [ToStr]
    | ToStr => ss = []
    | _ => True
    end.
  Proof using Type. clear.
    intros t f pre s ss E. unfold preprocessors in E. destruct f; cbn [app] in E;
      repeat (destruct pre as [|? pre]; cbn [app] in E; [injection E as <- <-; try exact Logic.I; try reflexivity; cbn; intros x I; intuition congruence|injection E as <- E]); destruct pre; discriminate.
  Qed.
  Lemma date_settled : forall ss (c : column), is_any_date c = true -> (forall x, In x ss -> x = ToFloat32 \/ x = CleanCategories \/ x = ToStr) -> Settled ss c.
  Proof using Type. clear.
    intros ss c D A s I. unfold is_any_date in D. destruct (cdtype c) eqn:Et; try discriminate. destruct (A s I) as [->|[->| ->]]; cbn [M_clean.fit_step]; unfold M_clean.float_fit, cats_fit, str_fit, is_any_date, is_categorical, is_numeric; rewrite Et; reflexivity.
  Qed.
  Lemma like_string : forall c d c' : column, Like c d -> is_any_date c = false -> is_categorical c = false -> to_string c = Ok c' -> exists d', to_string d = Ok d'.
  Proof using Type. clear.
    intros [l t cs] [l' t' cs'] c' [L A] _ _ E. cbn in L. subst l'. cbn in A. unfold M_clean.to_string in *. cbn [clib cdtype cells] in *. destruct l.
    - clear E. destruct (negb (_ && _)%bool); [eexists; reflexivity|]. destruct (negb _); eexists; reflexivity.
    - destruct A as [->|[A _]]; [|discriminate]. destruct t; try (eexists; reflexivity); destruct (_ || _)%bool; try discriminate; eexists; reflexivity.
  Qed.
  Lemma like_float : forall c d c' : column, Like c d -> to_float32 c true = Ok c' -> exists d', to_float32 d false = Ok d'.
  Proof using Type. clear.
    intros [l t cs] [l' t' cs'] c' [L A] E. cbn in L. subst l'. cbn in A. unfold M_clean.to_float32 in *. cbn [clib cdtype cells andb] in *. destruct l.
    - destruct t' as [| | |[]| | | |]; eexists; reflexivity.
    - destruct A as [->|[A _]]; [|discriminate]. destruct t as [| | |[]| | | |]; try (eexists; reflexivity); destruct (negb (castable _)); try discriminate; eexists; reflexivity.
  Qed.
  Notation dfit := (M_todt.fit_transform UTC parse infer has_offset default_resolution guess pick).
  Lemma like_date : forall (c d c' : column) st, Good c -> Good d -> Like c d -> date_fit c = Ok (c', st) -> exists d', date_transform st d = Ok d'.
  Proof using default_pos utc_named. clear - default_pos utc_named.
    intros c d c' st [Wc Nc] [Wd Nd] [L A] E. unfold M_clean.date_fit in E. destruct (dfit None unfitted (dt_col c)) as [st2 [out|e]] eqn:Ef; [|discriminate]. assert (st2 = st). { destruct (from_dt c out); [|discriminate]. cbn in E. injection E as _ <-. reflexivity. } subst st2. clear E.
    destruct (fit_named UTC tz_name zone_of parse infer has_offset default_resolution guess pick default_pos utc_named None unfitted st (dt_col c) out (dt_wf c Wc)) as (f & d0 & Ef0 & Eo & Pd & Nd0 & _); [|exact Ef|].
    { intros d1 Ed1. apply Nc. cbn in Ed1. destruct (cdtype c); try discriminate. congruence. }
    assert (Ac : Accepted tz_name zone_of f (dt_col d)).
    { unfold Accepted, dt_col. cbn [M_todt.cdtype M_todt.clib]. rewrite L. destruct (clib c) eqn:El.
      - destruct (cdtype d) eqn:Et; try reflexivity; [left; reflexivity|]. apply Nd. exact Et.
      - destruct A as [A|[A _]]; [|discriminate]. rewrite A. destruct (cdtype c) eqn:Et.
        + right. destruct (fit_ok UTC parse infer has_offset default_resolution guess pick default_pos None unfitted st (dt_col c) out) as (f' & _ & Ef' & _); [unfold Strings, dt_col; cbn; rewrite Et; try tauto; left; reflexivity|exact Ef|]. rewrite Ef' in Ef0. injection Ef0 as <-. discriminate.
        + exfalso. rewrite (fit_other UTC parse infer has_offset default_resolution guess pick None unfitted (dt_col c)) in Ef; [discriminate| |]; [rewrite dates_iff; unfold is_any_date; rewrite Et; discriminate|rewrite strings_textual; unfold Textual; rewrite Et, El; intros [X|[X _]]; discriminate].
        + exfalso. rewrite (fit_other UTC parse infer has_offset default_resolution guess pick None unfitted (dt_col c)) in Ef; [discriminate| |]; [rewrite dates_iff; unfold is_any_date; rewrite Et; discriminate|rewrite strings_textual; unfold Textual; rewrite Et, El; intros [X|[X _]]; discriminate].
        + exfalso. rewrite (fit_other UTC parse infer has_offset default_resolution guess pick None unfitted (dt_col c)) in Ef; [discriminate| |]; [rewrite dates_iff; unfold is_any_date; rewrite Et; discriminate|rewrite strings_textual; unfold Textual; rewrite Et, El; intros [X|[X _]]; discriminate].
        + apply Nd. congruence.
        + exfalso. rewrite (fit_other UTC parse infer has_offset default_resolution guess pick None unfitted (dt_col c)) in Ef; [discriminate| |]; [rewrite dates_iff; unfold is_any_date; rewrite Et; discriminate|rewrite strings_textual; unfold Textual; rewrite Et, El; intros [X|[X _]]; discriminate].
        + exfalso. rewrite (fit_other UTC parse infer has_offset default_resolution guess pick None unfitted (dt_col c)) in Ef; [discriminate| |]; [rewrite dates_iff; unfold is_any_date; rewrite Et; discriminate|rewrite strings_textual; unfold Textual; rewrite Et, El; intros [X|[X _]]; discriminate].
        + exfalso. rewrite (fit_other UTC parse infer has_offset default_resolution guess pick None unfitted (dt_col c)) in Ef; [discriminate| |]; [rewrite dates_iff; unfold is_any_date; rewrite Et; discriminate|rewrite strings_textual; unfold Textual; rewrite Et, El; intros [X|[X _]]; discriminate]. }
    destruct (L_todt.transform_ok UTC tz_name zone_of parse infer has_offset default_resolution default_pos utc_named st f d0 (dt_col d) Ef0 Eo Pd Nd0 (dt_wf d Wd) Ac) as (o2 & E2 & T2).
    unfold M_clean.date_transform. rewrite E2. cbn [bind]. unfold from_dt. destruct T2 as (_ & Et & _). rewrite Et. eexists. reflexivity.
  Qed.
  Lemma ready_step : forall t f pre s ss c d o st, preprocessors t f = pre ++ s :: ss -> Ready (s :: ss) c d -> fit_step s c = Ok (o, st) ->
    exists o', transform_step st d = Ok o' /\ (o = None -> o' = None) /\ forall c', o = Some c' -> exists d', o' = Some d' /\ Ready ss c' d'.
  Proof using newline_space sort_perm default_pos utc_named. clear - newline_space sort_perm default_pos utc_named.
    intros t f pre s ss c d o st Es [Gc R] E. pose proof (suffix t f pre s ss Es) as Sf. destruct R as [[Gd Lk]|St]; [|rewrite (St s (or_introl eq_refl)) in E; discriminate].
    destruct (good_step is_space fl UTC tz_name zone_of parse infer has_offset default_resolution guess pick round of_bool num ticks NaT_value castable castable_str nested str empty_is_string hashable sort_cats newline_space sort_perm default_pos utc_named s c o st Gc E) as [_ G].
    destruct s; cbn [M_clean.fit_step] in E.
    - apply keep_ok in E. destruct E as (c1 & E & -> & ->). destruct (textual_dec c) as [T|T]; [|rewrite (nulls_fit_other is_space c T) in E; discriminate]. rewrite (nulls_fit_textual is_space c T) in E.
      assert (Ed : exists d1, nulls_transform is_space d = Ok d1) by (unfold nulls_transform; eexists; reflexivity). destruct Ed as (d1 & Ed). exists (Some d1). cbn [M_clean.transform_step]. rewrite Ed. split; [reflexivity|]. split; [discriminate|]. intros c' Ec. injection Ec as <-. exists d1. split; [reflexivity|]. split; [apply G; reflexivity|]. left.
      destruct Gd as [Wd Nd]. destruct Gc as [Wc _]. destruct (nulls_transform_wf is_space newline_space d d1 Wd Ed) as (W1 & L1 & T1). destruct (nulls_transform_wf is_space newline_space c c1 Wc E) as (_ & L2 & T2). destruct Lk as [L A].
      split; [split; [exact W1|intros k Ek; apply Nd; congruence]|]. split; [congruence|]. destruct A as [A|[A _]]; [left; congruence|right]. split; [congruence|]. unfold is_categorical. rewrite T2. intros C. destruct T as [T|[_ T]]; rewrite T in C; discriminate.
    - apply (drop_fit is_space fl UTC parse infer has_offset default_resolution guess pick round of_bool num ticks NaT_value castable castable_str nested str empty_is_string sort_cats) in E. destruct E as [[-> ->]|[-> ->]]; cbn [M_clean.transform_step M_dropnulls.transform bind].
      + eexists. split; [reflexivity|]. split; [reflexivity|discriminate].
      + rewrite column_eta. eexists. split; [reflexivity|]. split; [discriminate|]. intros c' Ec. injection Ec as <-. exists d. split; [reflexivity|]. split; [exact Gc|]. left. split; assumption.
    - destruct (date_fit c) as [[c1 st1]|] eqn:Ed; [|discriminate]. cbn [bind fst snd] in E. injection E as <- <-. destruct (like_date c d c1 st1 Gc Gd Lk Ed) as (d1 & E1). cbn [M_clean.transform_step]. rewrite E1. eexists. split; [reflexivity|]. split; [discriminate|]. intros c' Ec. injection Ec as <-. exists d1. split; [reflexivity|]. split; [apply G; reflexivity|]. right.
      apply date_settled; [|exact Sf]. destruct (date_fit_ok UTC parse infer has_offset default_resolution guess pick default_pos c c1 st1 (proj1 Gc) Ed) as (k & Et & _). unfold is_any_date. rewrite Et. reflexivity.
    - apply keep_ok in E. destruct E as (c1 & E & -> & ->). unfold M_clean.float_fit in E. destruct (_ || _)%bool; [discriminate|]. destruct (to_float32 c true) as [c2|] eqn:Ef; [|discriminate]. injection E as ->. destruct (like_float c d c1 Lk Ef) as (d1 & E1). cbn [M_clean.transform_step]. unfold float_transform. rewrite E1. eexists. split; [reflexivity|]. split; [discriminate|]. intros c' Ec. injection Ec as <-. exists d1. split; [reflexivity|]. split; [apply G; reflexivity|]. right.
      destruct (float32_type round of_bool num ticks NaT_value castable c true c1 Ef) as [Et _]. subst ss. intros s [<-|[<-|[]]]; cbn [M_clean.fit_step]; unfold cats_fit, str_fit, is_categorical, is_numeric; rewrite Et; reflexivity.
    - apply keep_ok in E. destruct E as (c1 & E & -> & ->). unfold cats_fit in E. destruct (is_categorical c) eqn:C; [|discriminate]. cbn [negb] in E.
      assert (Ed : exists d1, cats_transform castable_str nested str empty_is_string hashable sort_cats d = Ok d1).
      { destruct Lk as [L [A|[Lp A]]].
        - unfold cats_transform, M_clean.to_categorical. unfold is_categorical in C. rewrite A. destruct (cdtype c) eqn:Et; try discriminate. cbn [bind]. apply cats_total. unfold is_categorical. rewrite A. reflexivity.
        - apply cats_transform_total; [exact (A C)|]. right. right. right. right. congruence. }
      destruct Ed as (d1 & E1). cbn [M_clean.transform_step]. rewrite E1. eexists. split; [reflexivity|]. split; [discriminate|]. intros c' Ec. injection Ec as <-. exists d1. split; [reflexivity|]. split; [apply G; reflexivity|]. right. subst ss.
      pose proof (cats_type str empty_is_string sort_cats c c1 C E) as C1. intros s [<-|[]]. cbn [M_clean.fit_step]. unfold str_fit. rewrite C1, orb_true_r. reflexivity.
    - apply keep_ok in E. destruct E as (c1 & E & -> & ->). unfold str_fit in E. destruct (is_numeric c); [discriminate|]. destruct (is_any_date c) eqn:D; [discriminate|]. destruct (is_categorical c) eqn:C; [discriminate|]. cbn [orb] in E. destruct (like_string c d c1 Lk D C E) as (d1 & E1). cbn [M_clean.transform_step]. unfold str_transform. rewrite E1. eexists. split; [reflexivity|]. split; [discriminate|]. intros c' Ec. injection Ec as <-. exists d1. split; [reflexivity|]. split; [apply G; reflexivity|]. right.
      subst ss. intros s [].
  Qed.
  Lemma later_steps : forall t f ss pre X tss Y X', preprocessors t f = pre ++ ss -> fit_steps ss X = Ok (tss, Y) -> NoDup (names X) ->
    Forall2 (fun p q => fst p = fst q /\ Ready ss (snd p) (snd q)) X X' -> exists Y', transform_steps tss X' = Ok Y'.
  Proof using newline_space sort_perm default_pos utc_named. clear - newline_space sort_perm default_pos utc_named.
    intros t f. induction ss as [|s ss IH]; intros pre X tss Y X' Es E ND F2.
    - cbn in E. injection E as <- <-. eexists. reflexivity.
    - cbn [M_clean.fit_steps] in E. destruct (fit_columns s X) as [[ts X1]|] eqn:E1; [|discriminate]. cbn [bind fst snd] in E. destruct (fit_steps ss X1) as [[tss1 Y1]|] eqn:E2; [|discriminate]. cbn [bind fst snd] in E. injection E as <- <-.
      assert (S : exists X1', transform_columns ts X' = Ok X1' /\ Forall2 (fun p q => fst p = fst q /\ Ready ss (snd p) (snd q)) X1 X1').
      { clear IH E2. revert ts X1 E1 ND. induction F2 as [|[n c] [m d] X X' [En R] F2 IH]; intros ts X1 E1 ND; [cbn in E1; injection E1 as <- <-; exists []; split; [reflexivity|constructor]|]. cbn [fst snd] in *. subst m.
        cbn [M_clean.fit_columns] in E1. cbn in ND. inversion ND as [|? ? NI ND']; subst. destruct (attempt (fit_step s c)) as [o|] eqn:Ea; [|discriminate]. cbn [bind] in E1. destruct (fit_columns s X) as [[ts1 Z1]|] eqn:Ef; [|discriminate]. cbn [bind fst snd] in E1.
        destruct (IH ts1 Z1 eq_refl ND') as (X1' & Et & F1).
        destruct (fit_cols_spec is_space fl UTC parse infer has_offset default_resolution guess pick round of_bool num ticks NaT_value castable castable_str nested str empty_is_string sort_cats s X ts1 Z1 Ef ND') as (I1 & _).
        assert (NX' : ~ In n (names X')). { replace (names X') with (names X); [exact NI|]. clear - F2. induction F2 as [|p q l l' [A _] F2 IH]; [reflexivity|]. cbn. f_equal; assumption. }
        assert (Ex : forall st, transform_columns ((n, st) :: ts1) X' = transform_columns ts1 X').
        { intros st. apply transform_cols_ext. intros m I. cbn [dget]. destruct (eqd m n) as [->|_]; [contradiction|reflexivity]. }
        assert (Gn : dget n ts1 = None). { apply dget_none. intros I. apply NI. apply I1. exact I. }
        destruct (fit_step s c) as [[o1 st]|e] eqn:Ey.
        - cbn in Ea. injection Ea as <-. destruct (ready_step t f pre s ss c d o1 st Es R Ey) as (o' & Eo & Nn & Sm). destruct o1 as [c'|]; injection E1 as <- <-; cbn [M_clean.transform_columns dget]; (destruct (eqd n n) as [_|X0]; [|congruence]); rewrite Eo, Ex, Et; cbn [bind].
          + destruct (Sm c' eq_refl) as (d' & -> & R'). eexists. split; [reflexivity|]. constructor; [|exact F1]. split; [reflexivity|exact R'].
          + rewrite (Nn eq_refl). eexists. split; [reflexivity|]. exact F1.
        - assert (e = RejectColumn) by (destruct e; cbn in Ea; try discriminate; reflexivity). subst e. cbn in Ea. injection Ea as <-. injection E1 as <- <-. cbn [M_clean.transform_columns]. rewrite Gn, Et. cbn [bind]. eexists. split; [reflexivity|]. constructor; [|exact F1]. split; [reflexivity|].
          destruct R as [Gc [A|St]]; split; [exact Gc|left; exact A|exact Gc|right]. intros s' I. apply St. right. exact I. }
      destruct S as (X1' & Et & F1). cbn [M_clean.transform_steps]. rewrite Et. cbn [bind]. destruct (fit_cols_spec is_space fl UTC parse infer has_offset default_resolution guess pick round of_bool num ticks NaT_value castable castable_str nested str empty_is_string sort_cats s X ts X1 E1 ND) as (_ & _ & N1 & _).
      apply (IH (pre ++ [s]) X1 tss1 Y1 X1'); [rewrite <- app_assoc; exact Es|exact E2|exact N1|exact F1].
  Qed.
  Lemma later_total : forall t f X cl Y X', clean_fit t f X = Ok (cl, Y) -> NoDup (names X) ->
    Forall2 (fun p q => fst p = fst q /\ Good (snd p) /\ Good (snd q) /\ Like (snd p) (snd q)) X X' -> exists Y', clean_transform cl X' = Ok Y'.
  Proof using newline_space sort_perm default_pos utc_named. clear - newline_space sort_perm default_pos utc_named.
    intros t f X cl Y X' E ND F2. apply clean_fit_ok in E. destruct E as [E _]. apply (later_steps t f (preprocessors t f) [] X (pipeline cl) Y X' eq_refl E ND).
    clear - F2. induction F2 as [|[n c] [m d] l l' (A & B & C & D) F2 IH]; constructor; [|exact IH]. split; [exact A|]. split; [exact B|]. left. split; assumption.
  Qed.
End Later.
