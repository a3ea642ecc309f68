(** Specification and lemmas for C93-C99: totality and counterexamples. *)
From Coq Require Import QArith Permutation.
From Verif Require Import Base M_nullstr M_dropnulls M_todt L_nullstr L_todt M_clean L_clean1 L_clean2 L_clean3 L_clean4 L_clean5.
Open Scope string_scope.
Open Scope list_scope.
Open Scope nat_scope.
Set Default Proof Using "Type".

Section Cases.
  Context {N TZ Name F O K : Type} `{EqD N} `{EqD F} `{EqD O}.
  Notation cell := (cell N O).
  Notation dtype := (dtype N TZ O K).
  Notation column := (column N TZ O K).
  Notation dcell := (@M_todt.cell text cell).
  Variable is_space : nat -> bool.
  Variable fl : Q -> Q.
  Variable UTC : TZ.
  Variable tz_name : TZ -> option Name.
  Variable zone_of : Name -> option TZ.
  Variable parse : lib -> F -> dcell -> option Z.
  Variable infer : list dcell -> dcell -> option Z.
  Variable has_offset : F -> bool.
  Variable default_resolution : lib -> Z.
  Variable guess : bool -> text -> option F.
  Variable pick : nat -> nat -> list nat.
  Variable round : N -> N.
  Variable of_bool : bool -> N.
  Variable num : lib -> dtype -> cell -> option (option N).
  Variable ticks : dtype -> Z -> N.
  Variable NaT_value : N.
  Variable castable castable_str nested : dtype -> bool.
  Variable str : lib -> dtype -> cell -> text.
  Variable empty_is_string : bool.
  Variable hashable : cell -> bool.
  Variable sort_cats : list cell -> list cell.

  Notation fit_step := (fit_step is_space fl UTC parse infer has_offset default_resolution guess pick round of_bool num ticks NaT_value castable castable_str nested str empty_is_string sort_cats).
  Notation transform_step := (transform_step is_space UTC tz_name zone_of parse infer has_offset default_resolution round of_bool num ticks NaT_value castable castable_str nested str empty_is_string hashable sort_cats).
  Notation to_string := (to_string castable_str nested str empty_is_string).
  Notation to_float32 := (to_float32 round of_bool num ticks NaT_value castable).
  Notation with_string_categories := (with_string_categories str empty_is_string sort_cats).
  Notation to_categorical := (to_categorical castable_str nested str empty_is_string hashable sort_cats).
  Notation cat_str := (@cat_str N TZ O K str).
  Notation fitted := (fitted TZ F).
  Notation table := (table N TZ O K).
  Notation fit_columns := (fit_columns is_space fl UTC parse infer has_offset default_resolution guess pick round of_bool num ticks NaT_value castable castable_str nested str empty_is_string sort_cats).
  Notation fit_steps := (fit_steps is_space fl UTC parse infer has_offset default_resolution guess pick round of_bool num ticks NaT_value castable castable_str nested str empty_is_string sort_cats).
  Notation transform_columns := (transform_columns is_space UTC tz_name zone_of parse infer has_offset default_resolution round of_bool num ticks NaT_value castable castable_str nested str empty_is_string hashable sort_cats).
  Notation transform_steps := (transform_steps is_space UTC tz_name zone_of parse infer has_offset default_resolution round of_bool num ticks NaT_value castable castable_str nested str empty_is_string hashable sort_cats).

  Notation names := (map fst).
  Notation date_fit := (date_fit UTC parse infer has_offset default_resolution guess pick).
  Notation date_transform := (date_transform UTC tz_name zone_of parse infer has_offset default_resolution).
  Notation float_fit := (float_fit round of_bool num ticks NaT_value castable).
  Notation FChain := (FChain is_space fl UTC parse infer has_offset default_resolution guess pick round of_bool num ticks NaT_value castable castable_str nested str empty_is_string sort_cats).
  Notation TChain := (TChain is_space UTC tz_name zone_of parse infer has_offset default_resolution round of_bool num ticks NaT_value castable castable_str nested str empty_is_string hashable sort_cats).
  Notation run := (run is_space UTC tz_name zone_of parse infer has_offset default_resolution round of_bool num ticks NaT_value castable castable_str nested str empty_is_string hashable sort_cats).
  Hypothesis newline_space : is_space newline = true.
  Hypothesis sort_perm : forall l, Permutation (sort_cats l) l.
  Hypothesis default_pos : forall l, (0 < default_resolution l)%Z.
  Notation Fate := (Fate UTC parse infer has_offset default_resolution guess pick round of_bool num ticks NaT_value castable castable_str nested str empty_is_string sort_cats).
  Notation AfterNulls := (AfterNulls is_space).


  Hypothesis str_text : forall l t s, str l t (CStr s) = s.
  Hypothesis utc_named : exists n z, tz_name UTC = Some n /\ zone_of n = Some z.
  Notation chain_fate := (chain_fate is_space fl UTC parse infer has_offset default_resolution guess pick round of_bool num ticks NaT_value castable castable_str nested str empty_is_string sort_cats newline_space default_pos).
  Notation fit_steps_out := (fit_steps_out is_space fl UTC parse infer has_offset default_resolution guess pick round of_bool num ticks NaT_value castable castable_str nested str empty_is_string sort_cats).
  Notation clean_fit := (clean_fit is_space fl UTC parse infer has_offset default_resolution guess pick round of_bool num ticks NaT_value castable castable_str nested str empty_is_string sort_cats).
  Notation clean_transform := (clean_transform is_space UTC tz_name zone_of parse infer has_offset default_resolution round of_bool num ticks NaT_value castable castable_str nested str empty_is_string hashable sort_cats).


  (** ** C93: every table can be cleaned *)
  (** types that can be converted to strings, when they have to *)
  Definition Conv (c : column) : Prop :=
    clib c = Pandas \/ cdtype c = TStr \/ (is_numeric c || is_any_date c || is_categorical c)%bool = true \/ (nested (cdtype c) || castable_str (cdtype c))%bool = true.
  Lemma string_total : forall c : column, Conv c -> is_numeric c = false -> is_any_date c = false -> is_categorical c = false -> exists c', to_string c = Ok c'.
  Proof using Type. clear.
    intros [l t cs] Cv A B C. unfold Conv in Cv. rewrite A, B, C in Cv. cbn [clib cdtype orb] in Cv. unfold M_clean.to_string. cbn [clib cdtype cells]. destruct l.
    - destruct (negb _); [eexists; reflexivity|]. destruct (negb _); eexists; reflexivity.
    - destruct Cv as [Cv|[->|[Cv|Cv]]]; try discriminate; [eexists; reflexivity|]. destruct t; try discriminate; rewrite ?Cv; eexists; reflexivity.
  Qed.
  Definition Cleanable (c : column) : Prop := WF c /\ Conv c.
  Lemma step_total : forall t s c, valid t = true -> In s (preprocessors t true) -> Cleanable c -> fit_step s c = Err RejectColumn \/ exists o st, fit_step s c = Ok (o, st) /\ forall c', o = Some c' -> Cleanable c'.
  Proof using newline_space sort_perm default_pos. clear - newline_space sort_perm default_pos.
    intros t s c V I [W Cv]. unfold preprocessors in I. cbn [app In] in I. destruct I as [<-|[<-|[<-|[<-|[<-|[<-|[]]]]]]]; cbn [M_clean.fit_step].
    - destruct (textual_dec c) as [T|T]; [|left; rewrite (nulls_fit_other is_space c T); reflexivity]. right. rewrite (nulls_fit_textual is_space c T). destruct (nulls_transform_textual is_space newline_space c T) as (l & E & _). rewrite E. eexists _, _. split; [reflexivity|]. intros c' Ec. injection Ec as <-. split; [eapply nulls_transform_wf; eassumption|]. exact Cv.
    - right. pose proof (drop_fit_eq is_space fl UTC parse infer has_offset default_resolution guess pick round of_bool num ticks NaT_value castable castable_str nested str empty_is_string sort_cats t c V) as Ed. cbn [M_clean.fit_step] in Ed. rewrite Ed. destruct (decide _ _ _ _); eexists _, _; (split; [reflexivity|]); intros c' Ec; [discriminate|injection Ec as <-; split; assumption].
    - destruct (date_fit c) as [[c1 st1]|e] eqn:Ed; [right|left; destruct (date_fit_err UTC parse infer has_offset default_resolution guess pick default_pos c e W Ed) as [-> _]; reflexivity].
      cbn [bind fst snd]. eexists _, _. split; [reflexivity|]. intros c' Ec. injection Ec as <-. destruct (date_fit_ok UTC parse infer has_offset default_resolution guess pick default_pos c c1 st1 W Ed) as (d & Et & _ & _ & W1). split; [exact W1|]. right. right. left. unfold is_numeric, is_any_date. rewrite Et. reflexivity.
    - unfold M_clean.float_fit. destruct (is_any_date c) eqn:D; [left; reflexivity|]. destruct (is_categorical c) eqn:C; [left; reflexivity|]. cbn [orb]. destruct (to_float32 c true) as [c1|] eqn:Ef; [right|left; reflexivity].
      eexists _, _. split; [reflexivity|]. intros c' Ec. injection Ec as <-. split; [exact (float_wf round of_bool num ticks NaT_value castable c c1 W D C Ef)|]. destruct (float32_type round of_bool num ticks NaT_value castable c true c1 Ef) as [Et _]. right. right. left. unfold is_numeric. rewrite Et. reflexivity.
    - unfold cats_fit. destruct (is_categorical c) eqn:C; [right|left; reflexivity]. cbn [negb]. destruct (cats_total str empty_is_string sort_cats c C) as (c1 & E). rewrite E. eexists _, _. split; [reflexivity|]. intros c' Ec. injection Ec as <-. destruct (cats_clean str empty_is_string sort_cats sort_perm c c1 W C E) as [Cc _]. split; [apply clean_cat_wf; exact Cc|].
      destruct Cc as (k & Et & _). right. right. left. unfold is_numeric, is_any_date, is_categorical. rewrite Et. reflexivity.
    - unfold str_fit. destruct (is_numeric c) eqn:A; [left; reflexivity|]. destruct (is_any_date c) eqn:B; [left; reflexivity|]. destruct (is_categorical c) eqn:C; [left; reflexivity|]. cbn [orb]. right. destruct (string_total c Cv A B C) as (c1 & E). rewrite E. eexists _, _. split; [reflexivity|]. intros c' Ec. injection Ec as <-.
      destruct (string_clean castable_str nested str empty_is_string c c1 W E) as [Cs L1]. split; [apply clean_str_wf; exact Cs|]. destruct Cs as [Et _]. unfold Conv. rewrite Et. destruct (clib c1); tauto.
  Qed.
  Lemma steps_total_fit : forall (Q : column -> Prop) ss, (forall s c, In s ss -> Q c -> fit_step s c = Err RejectColumn \/ exists o st, fit_step s c = Ok (o, st) /\ forall c', o = Some c' -> Q c') ->
    forall X, (forall n c, In (n, c) X -> Q c) -> exists tss Y, fit_steps ss X = Ok (tss, Y).
  Proof using Type. clear.
    intros Q. induction ss as [|s ss IH]; intros A X G; [eexists _, _; reflexivity|].
    assert (S : exists ts X1, fit_columns s X = Ok (ts, X1) /\ forall n c, In (n, c) X1 -> Q c).
    { clear IH. induction X as [|[n c] X IH]; [eexists _, _; split; [reflexivity|intros ? ? []]|]. destruct IH as (ts & X1 & E1 & G1); [intros; eapply G; right; eassumption|]. cbn [M_clean.fit_columns]. rewrite E1. pose proof (G n c (or_introl eq_refl)) as Qc.
      destruct (A s c (or_introl eq_refl) Qc) as [Er|(o & st & Eo & Go)].
      - rewrite Er. eexists _, _. split; [reflexivity|]. intros m d [Em|I]; [injection Em as <- <-; exact Qc|exact (G1 m d I)].
      - rewrite Eo. destruct o as [c'|]; eexists _, _; (split; [reflexivity|]); [|exact G1]. intros m d [Em|I]; [injection Em as <- <-; apply Go; reflexivity|exact (G1 m d I)]. }
    destruct S as (ts & X1 & E1 & G1). destruct (IH (fun s' c Is => A s' c (or_intror Is)) X1 G1) as (tss & Y & E2). cbn [M_clean.fit_steps]. rewrite E1. cbn [bind fst snd]. rewrite E2. eexists _, _. reflexivity.
  Qed.
  Lemma preprocessors_in : forall t f s, In s (preprocessors t f) -> In s (preprocessors t true).
  Proof using Type. clear. intros t [] s I; [exact I|]. unfold preprocessors in *. cbn [app In] in *. tauto. Qed.
  Lemma clean_total : forall t f X, valid t = true -> NoDup (names X) -> (forall n c, In (n, c) X -> Cleanable c) -> exists cl Y, clean_fit t f X = Ok (cl, Y).
  Proof using newline_space sort_perm default_pos. clear - newline_space sort_perm default_pos.
    intros t f X V ND G. destruct (steps_total_fit Cleanable (preprocessors t f)) with (X := X) as (tss & Y & E); [|exact G|].
    - intros s c I. apply (step_total t); [exact V|exact (preprocessors_in t f s I)].
    - destruct (clean_fit_total is_space fl UTC parse infer has_offset default_resolution guess pick round of_bool num ticks NaT_value castable castable_str nested str empty_is_string sort_cats t f X tss Y ND E) as (cl & E' & _). exists cl, Y. exact E'.
  Qed.
  Lemma attempt_err : forall A (r : res A) e, attempt r = Err e -> e = ValueError.
  Proof using Type. clear. intros A [a|[]] e E; cbn in E; congruence. Qed.
  Lemma fit_cols_err : forall s X e, fit_columns s X = Err e -> e = ValueError.
  Proof using Type. clear.
    intros s. induction X as [|[n c] X IH]; intros e E; [discriminate|]. cbn [M_clean.fit_columns] in E. destruct (attempt (fit_step s c)) as [o|e'] eqn:Ea; cbn [bind] in E; [|injection E as <-; eapply attempt_err; exact Ea].
    destruct (fit_columns s X) as [r|e'] eqn:Ef; cbn [bind] in E; [|injection E as <-; apply IH; reflexivity]. destruct o as [[[c'|] st]|]; discriminate.
  Qed.
  Lemma clean_err : forall t f X e, NoDup (names X) -> clean_fit t f X = Err e -> e = ValueError.
  Proof using Type. clear.
    intros t f X e ND E. destruct (fit_steps (preprocessors t f) X) as [[tss Y]|e'] eqn:Ef.
    - destruct (clean_fit_total is_space fl UTC parse infer has_offset default_resolution guess pick round of_bool num ticks NaT_value castable castable_str nested str empty_is_string sort_cats t f X tss Y ND Ef) as (cl & E' & _). congruence.
    - unfold M_clean.clean_fit in E. rewrite Ef in E. cbn in E. injection E as <-. revert X ND Ef. generalize (preprocessors t f). induction l as [|s ss IH]; intros X ND Ef; [discriminate|]. cbn [M_clean.fit_steps] in Ef. destruct (fit_columns s X) as [[ts X1]|] eqn:E1; cbn [bind fst snd] in Ef; [|injection Ef as <-; eapply fit_cols_err; exact E1].
      destruct (fit_steps ss X1) as [r|] eqn:E2; cbn [bind] in Ef; [discriminate|]. injection Ef as <-. destruct (fit_cols_spec is_space fl UTC parse infer has_offset default_resolution guess pick round of_bool num ticks NaT_value castable castable_str nested str empty_is_string sort_cats s X ts X1 E1 ND) as (_ & _ & N1 & _). exact (IH X1 N1 E2).
  Qed.
  Lemma clean_invalid : forall t f X, valid t = false -> X <> [] -> NoDup (names X) -> clean_fit t f X = Err ValueError.
  Proof using newline_space. clear - newline_space.
    intros t f X V NX ND. destruct (clean_fit t f X) as [[cl Y]|e] eqn:E; [exfalso|f_equal; eapply clean_err; eassumption]. apply clean_fit_ok in E. destruct E as [E _]. unfold preprocessors in E. cbn [app M_clean.fit_steps] in E.
    destruct (fit_columns CleanNullStrings X) as [[ts X1]|] eqn:E1; [|discriminate]. cbn [bind fst snd] in E.
    assert (NX1 : X1 <> []).
    { destruct X as [|[n c] X]; [congruence|]. clear - E1 newline_space. cbn [M_clean.fit_columns] in E1. destruct (textual_dec c) as [T|T].
      - cbn [M_clean.fit_step] in E1. rewrite (nulls_fit_textual is_space c T) in E1. destruct (nulls_transform_textual is_space newline_space c T) as (l & El & _). rewrite El in E1. cbn [keep bind attempt] in E1. destruct (fit_columns CleanNullStrings X) as [r|]; cbn in E1; [|discriminate]. injection E1 as <- <-. discriminate.
      - cbn [M_clean.fit_step] in E1. rewrite (nulls_fit_other is_space c T) in E1. cbn [keep bind attempt] in E1. destruct (fit_columns CleanNullStrings X) as [r|]; cbn in E1; [|discriminate]. injection E1 as <- <-. discriminate. }
    destruct X1 as [|[n c] X1]; [congruence|]. cbn [M_clean.fit_columns M_clean.fit_step] in E. unfold M_dropnulls.fit_transform in E. rewrite V in E. discriminate.
  Qed.

  (** ** What is false *)
  (** C94: the Cleaner lets numbers through, then anything *)
  Lemma numbers_through : forall t n (c d : column), valid t = true -> WF c -> is_numeric c = true -> decide is_null fl t (cells c) = false ->
    exists cl, clean_fit t false [(n, c)] = Ok (cl, [(n, c)]) /\ clean_transform cl [(n, d)] = Ok [(n, d)].
  Proof using Type. clear.
    intros t n c d V W Nm De. assert (ND1 : NoDup (names [(n, c)])) by (repeat constructor; intros []).
    assert (NT : ~ Textual c). { intros T. unfold is_numeric in Nm. destruct T as [T|[_ T]]; rewrite T in Nm; discriminate. }
    assert (D : is_any_date c = false) by (unfold is_numeric in Nm; unfold is_any_date; destruct (cdtype c); try discriminate; reflexivity).
    assert (C : is_categorical c = false) by (unfold is_numeric in Nm; unfold is_categorical; destruct (cdtype c); try discriminate; reflexivity).
    pose proof (drop_fit_eq is_space fl UTC parse infer has_offset default_resolution guess pick round of_bool num ticks NaT_value castable castable_str nested str empty_is_string sort_cats t c V) as Ed. rewrite De in Ed.
    assert (E : fit_steps (preprocessors t false) [(n, c)] = Ok ([[]; [(n, FDrop false)]; []; []; []], [(n, c)])).
    { unfold preprocessors. cbn [app M_clean.fit_steps M_clean.fit_columns]. replace (fit_step CleanNullStrings c) with (@Err (option column * fitted) RejectColumn) by (cbn [M_clean.fit_step]; rewrite (nulls_fit_other is_space c NT); reflexivity). cbn [attempt bind fst snd M_clean.fit_columns M_clean.fit_steps].
      rewrite Ed. cbn [attempt bind fst snd M_clean.fit_columns M_clean.fit_steps]. replace (fit_step ToDatetime c) with (@Err (option column * fitted) RejectColumn) by (cbn [M_clean.fit_step]; rewrite (date_fit_other UTC parse infer has_offset default_resolution guess pick c D NT); reflexivity). cbn [attempt bind fst snd M_clean.fit_columns M_clean.fit_steps].
      replace (fit_step CleanCategories c) with (@Err (option column * fitted) RejectColumn) by (cbn [M_clean.fit_step]; unfold cats_fit; rewrite C; reflexivity). cbn [attempt bind fst snd M_clean.fit_columns M_clean.fit_steps].
      replace (fit_step ToStr c) with (@Err (option column * fitted) RejectColumn) by (cbn [M_clean.fit_step]; unfold str_fit; rewrite Nm; reflexivity). cbn [attempt bind fst snd M_clean.fit_columns M_clean.fit_steps]. reflexivity. }
    destruct (clean_fit_total is_space fl UTC parse infer has_offset default_resolution guess pick round of_bool num ticks NaT_value castable castable_str nested str empty_is_string sort_cats t false [(n, c)] _ _ ND1 E) as (cl & E' & Ep).
    exists cl. split; [exact E'|]. unfold M_clean.clean_transform. rewrite Ep. cbn [M_clean.transform_steps M_clean.transform_columns dget bind]. destruct (eqd n n) as [_|X]; [|congruence]. cbn [M_clean.transform_step M_dropnulls.transform bind M_clean.transform_columns]. rewrite column_eta. reflexivity.
  Qed.
  (** C95: missing durations become numbers *)
  Lemma durations : forall n z, exists cl, clean_fit TNone true [(n, {| clib := Pandas; cdtype := TDur; cells := [CDur z; CNull NaN] |})] = Ok (cl, [(n, {| clib := Pandas; cdtype := TNum true; cells := [CNum (ticks TDur z); CNum NaT_value] |})]).
  Proof using Type. clear.
    intros n z. set (X := [(n, {| clib := Pandas; cdtype := TDur; cells := [CDur z; CNull NaN] |} : column)]). set (Y := [(n, {| clib := Pandas; cdtype := TNum true; cells := [CNum (ticks TDur z); CNum NaT_value] |} : column)]).
    assert (ND1 : NoDup (names X)) by (repeat constructor; intros []).
    assert (E : exists tss, fit_steps (preprocessors TNone true) X = Ok (tss, Y)) by (eexists; reflexivity). destruct E as (tss & E).
    destruct (clean_fit_total is_space fl UTC parse infer has_offset default_resolution guess pick round of_bool num ticks NaT_value castable castable_str nested str empty_is_string sort_cats TNone true X tss Y ND1 E) as (cl & E' & _).
    exists cl. exact E'.
  Qed.
  (** C99: objects whose text is that of a date *)
  Hypothesis pick_ok : PickOk pick.
  Lemma pick_one : pick 1 1 = [0].
  Proof using pick_ok. clear - pick_ok. destruct (pick_ok 1 1 (le_n 1)) as (L & _ & B). destruct (pick 1 1) as [|i [|j l]]; try discriminate. inversion B; subst. f_equal. lia. Qed.
  Lemma objects_again : forall n o s f z, str Pandas TObj (COther o) = s -> ~ NullString is_space s -> guess false s = Some f -> parse Pandas f (M_todt.CStr s) = Some z ->
    exists cl cl2 c2, clean_fit TNone false [(n, {| clib := Pandas; cdtype := TObj; cells := [COther o] |})] = Ok (cl, [(n, {| clib := Pandas; cdtype := TObj; cells := [CStr s] |})]) /\
      clean_fit TNone false [(n, {| clib := Pandas; cdtype := TObj; cells := [CStr s] |})] = Ok (cl2, [(n, c2)]) /\ exists d, cdtype c2 = TTime d.
  Proof using newline_space default_pos pick_ok. clear - newline_space default_pos pick_ok.
    intros n o s f z Es Ns Eg Ep. set (c0 := {| clib := Pandas; cdtype := TObj; cells := [COther o] |} : column). set (c1 := {| clib := Pandas; cdtype := TObj; cells := [CStr s] |} : column).
    assert (T0 : Textual c0) by (right; split; reflexivity). assert (T1 : Textual c1) by (right; split; reflexivity).
    assert (N0 : nulls_fit is_space c0 = Ok c0) by (apply nulls_again; [exact newline_space|exact T0|cbn; intros s' [X|[]]; discriminate]).
    assert (N1 : nulls_fit is_space c1 = Ok c1) by (apply nulls_again; [exact newline_space|exact T1|cbn; intros s' [X|[]]; injection X as <-; exact Ns]).
    pose proof (drop_fit_eq is_space fl UTC parse infer has_offset default_resolution guess pick round of_bool num ticks NaT_value castable castable_str nested str empty_is_string sort_cats TNone) as Ed.
    assert (D0 : date_fit c0 = Err RejectColumn).
    { unfold M_clean.date_fit. rewrite (fit_strings UTC parse infer has_offset default_resolution guess pick default_pos None unfitted (dt_col c0)) by (apply strings_textual; exact T0). cbn [dt_col M_todt.cells c0 cells map dt_cell]. unfold get_datetime_format, sampled. cbn [filter M_todt.is_null negb length]. change (Nat.min M_todt.SAMPLE_SIZE 1) with 1. rewrite pick_one. reflexivity. }
    assert (D1 : exists c2 st d, date_fit c1 = Ok (c2, st) /\ cdtype c2 = TTime d /\ clib c2 = Pandas).
    { destruct (fit_total UTC parse infer has_offset default_resolution guess pick default_pos None unfitted (dt_col c1) f) as (st & out & Ef & _).
      - apply strings_textual. exact T1.
      - apply format_iff. unfold get_datetime_format, sampled. cbn [dt_col M_todt.cells c1 cells map dt_cell filter M_todt.is_null negb length]. change (Nat.min M_todt.SAMPLE_SIZE 1) with 1. rewrite pick_one. cbn. unfold guess_datetime_format. cbn. rewrite Eg. reflexivity.
      - cbn. intros c [<-|[]] _. exists z. exact Ep.
      - destruct (fit_ok UTC parse infer has_offset default_resolution guess pick default_pos None unfitted st (dt_col c1) out) as (f' & _ & _ & _ & _ & Et & _); [apply strings_textual; exact T1|exact Ef|].
        unfold M_clean.date_fit. rewrite Ef. unfold from_dt. rewrite Et. cbn [bind]. eexists _, _, _. split; [reflexivity|]. split; reflexivity. }
    destruct D1 as (c2 & st & d & D1 & Et & _).
    assert (F0 : exists l, FChain (preprocessors TNone false) c0 l c1).
    { eexists. unfold preprocessors. cbn [app]. eapply FChain_yes; [cbn [M_clean.fit_step]; rewrite N0; reflexivity|]. eapply FChain_yes; [apply (Ed c0 eq_refl)|]. eapply FChain_no; [cbn [M_clean.fit_step]; rewrite D0; reflexivity|]. eapply FChain_no; [reflexivity|]. eapply FChain_yes; [|apply FChain_nil].
      cbn [M_clean.fit_step]. unfold c1. rewrite <- Es. reflexivity. }
    assert (F1 : exists l, FChain (preprocessors TNone false) c1 l c2).
    { eexists. unfold preprocessors. cbn [app]. eapply FChain_yes; [cbn [M_clean.fit_step]; rewrite N1; reflexivity|]. eapply FChain_yes; [apply (Ed c1 eq_refl)|]. apply FChain_yes with (c1 := c2) (st := FDate st); [cbn [M_clean.fit_step]; rewrite D1; reflexivity|].
      eapply FChain_no; [cbn [M_clean.fit_step]; unfold cats_fit, is_categorical; rewrite Et; reflexivity|]. eapply FChain_no; [cbn [M_clean.fit_step]; unfold str_fit, is_numeric, is_any_date; rewrite Et; reflexivity|]. apply FChain_nil. }
    assert (A : forall c c' : column, (exists l, FChain (preprocessors TNone false) c l c') -> exists cl, clean_fit TNone false [(n, c)] = Ok (cl, [(n, c')])).
    { intros c c' X. destruct (chains_fit is_space fl UTC parse infer has_offset default_resolution guess pick round of_bool num ticks NaT_value castable castable_str nested str empty_is_string sort_cats (preprocessors TNone false) [(n, c)] [(n, c')]) as (tss & E); [repeat constructor; exact X|].
      destruct (clean_fit_total is_space fl UTC parse infer has_offset default_resolution guess pick round of_bool num ticks NaT_value castable castable_str nested str empty_is_string sort_cats TNone false [(n, c)] tss [(n, c')]) as (cl & E' & _); [repeat constructor; intros []|exact E|]. exists cl. exact E'. }
    destruct (A c0 c1 F0) as (cl & E0). destruct (A c1 c2 F1) as (cl2 & E1). exists cl, cl2, c2. split; [exact E0|]. split; [exact E1|]. exists d. exact Et.
  Qed.
End Cases.
