(** Specification and lemmas for C95-C99: tables. *)
From Coq Require Import QArith Permutation.
From Verif Require Import Base M_nullstr M_dropnulls M_todt L_nullstr L_todt M_clean L_clean1 L_clean2 L_clean3 L_clean4.
Open Scope string_scope.
Open Scope list_scope.
Open Scope nat_scope.
Set Default Proof Using "Type".

Section Tables.
  Context {N TZ Name F O K : Type} `{EqD N} `{EqD F} `{EqD O}.
  Notation cell := (cell N O).
  Notation dtype := (dtype N TZ O K).
  Notation column := (column N TZ O K).
  Notation dcell := (@M_todt.cell text cell).
  Variable is_space : nat -> bool.
  Variable fl : Q -> Q.
  Variable UTC : TZ.
  Variable tz_name : TZ -> option Name.
  Variable zone_of : Name -> option TZ.
  Variable parse : lib -> F -> dcell -> option Z.
  Variable infer : list dcell -> dcell -> option Z.
  Variable has_offset : F -> bool.
  Variable default_resolution : lib -> Z.
  Variable guess : bool -> text -> option F.
  Variable pick : nat -> nat -> list nat.
  Variable round : N -> N.
  Variable of_bool : bool -> N.
  Variable num : lib -> dtype -> cell -> option (option N).
  Variable ticks : dtype -> Z -> N.
  Variable NaT_value : N.
  Variable castable castable_str nested : dtype -> bool.
  Variable str : lib -> dtype -> cell -> text.
  Variable empty_is_string : bool.
  Variable hashable : cell -> bool.
  Variable sort_cats : list cell -> list cell.

  Notation fit_step := (fit_step is_space fl UTC parse infer has_offset default_resolution guess pick round of_bool num ticks NaT_value castable castable_str nested str empty_is_string sort_cats).
  Notation transform_step := (transform_step is_space UTC tz_name zone_of parse infer has_offset default_resolution round of_bool num ticks NaT_value castable castable_str nested str empty_is_string hashable sort_cats).
  Notation to_string := (to_string castable_str nested str empty_is_string).
  Notation to_float32 := (to_float32 round of_bool num ticks NaT_value castable).
  Notation with_string_categories := (with_string_categories str empty_is_string sort_cats).
  Notation to_categorical := (to_categorical castable_str nested str empty_is_string hashable sort_cats).
  Notation cat_str := (@cat_str N TZ O K str).
  Notation fitted := (fitted TZ F).
  Notation table := (table N TZ O K).
  Notation fit_columns := (fit_columns is_space fl UTC parse infer has_offset default_resolution guess pick round of_bool num ticks NaT_value castable castable_str nested str empty_is_string sort_cats).
  Notation fit_steps := (fit_steps is_space fl UTC parse infer has_offset default_resolution guess pick round of_bool num ticks NaT_value castable castable_str nested str empty_is_string sort_cats).
  Notation transform_columns := (transform_columns is_space UTC tz_name zone_of parse infer has_offset default_resolution round of_bool num ticks NaT_value castable castable_str nested str empty_is_string hashable sort_cats).
  Notation transform_steps := (transform_steps is_space UTC tz_name zone_of parse infer has_offset default_resolution round of_bool num ticks NaT_value castable castable_str nested str empty_is_string hashable sort_cats).

  Notation names := (map fst).
  Notation date_fit := (date_fit UTC parse infer has_offset default_resolution guess pick).
  Notation date_transform := (date_transform UTC tz_name zone_of parse infer has_offset default_resolution).
  Notation float_fit := (float_fit round of_bool num ticks NaT_value castable).
  Notation FChain := (FChain is_space fl UTC parse infer has_offset default_resolution guess pick round of_bool num ticks NaT_value castable castable_str nested str empty_is_string sort_cats).
  Notation TChain := (TChain is_space UTC tz_name zone_of parse infer has_offset default_resolution round of_bool num ticks NaT_value castable castable_str nested str empty_is_string hashable sort_cats).
  Notation run := (run is_space UTC tz_name zone_of parse infer has_offset default_resolution round of_bool num ticks NaT_value castable castable_str nested str empty_is_string hashable sort_cats).
  Hypothesis newline_space : is_space newline = true.
  Hypothesis sort_perm : forall l, Permutation (sort_cats l) l.
  Hypothesis default_pos : forall l, (0 < default_resolution l)%Z.
  Notation Fate := (Fate UTC parse infer has_offset default_resolution guess pick round of_bool num ticks NaT_value castable castable_str nested str empty_is_string sort_cats).
  Notation AfterNulls := (AfterNulls is_space).


  Hypothesis str_text : forall l t s, str l t (CStr s) = s.
  Hypothesis utc_named : exists n z, tz_name UTC = Some n /\ zone_of n = Some z.
  Notation chain_fate := (chain_fate is_space fl UTC parse infer has_offset default_resolution guess pick round of_bool num ticks NaT_value castable castable_str nested str empty_is_string sort_cats newline_space default_pos).
  Notation fit_steps_out := (fit_steps_out is_space fl UTC parse infer has_offset default_resolution guess pick round of_bool num ticks NaT_value castable castable_str nested str empty_is_string sort_cats).
  Notation clean_fit := (clean_fit is_space fl UTC parse infer has_offset default_resolution guess pick round of_bool num ticks NaT_value castable castable_str nested str empty_is_string sort_cats).
  Notation clean_transform := (clean_transform is_space UTC tz_name zone_of parse infer has_offset default_resolution round of_bool num ticks NaT_value castable castable_str nested str empty_is_string hashable sort_cats).

  Lemma clean_fit_ok : forall t f X cl Y, clean_fit t f X = Ok (cl, Y) <-> fit_steps (preprocessors t f) X = Ok (pipeline cl, Y) /\ all_processing_steps (names X) (pipeline cl) = Ok (steps_of cl).
  Proof using Type. clear.
    intros t f X [p d] Y. unfold M_clean.clean_fit. cbn [pipeline steps_of]. destruct (fit_steps (preprocessors t f) X) as [[tss Y1]|]; cbn [bind fst snd].
    - destruct (all_processing_steps (names X) tss) as [d1|] eqn:Ed; cbn [bind].
      + split; [intros E; injection E as -> -> ->; split; [reflexivity|exact Ed]|]. intros [E1 E2]. injection E1 as -> ->. rewrite Ed in E2. injection E2 as ->. reflexivity.
      + split; [discriminate|]. intros [E1 E2]. injection E1 as -> ->. congruence.
    - split; [discriminate|]. intros [E _]. discriminate.
  Qed.
  Lemma clean_fit_total : forall t f X tss Y, NoDup (names X) -> fit_steps (preprocessors t f) X = Ok (tss, Y) -> exists cl, clean_fit t f X = Ok (cl, Y) /\ pipeline cl = tss.
  Proof using Type. clear.
    intros t f X tss Y ND E. destruct (described is_space fl UTC parse infer has_offset default_resolution guess pick round of_bool num ticks NaT_value castable castable_str nested str empty_is_string sort_cats _ _ _ _ E ND) as (d & Ed & _).
    exists {| pipeline := tss; steps_of := d |}. split; [|reflexivity]. apply clean_fit_ok. split; [exact E|exact Ed].
  Qed.

  (** ** C95 *)
  Notation Lost := (Lost is_space).
  Lemma fit_nulls : forall t X tss Y, fit_steps (preprocessors t false) X = Ok (tss, Y) -> NoDup (names X) -> (forall n c, In (n, c) X -> WF c) ->
    forall n c', In (n, c') Y -> exists c, In (n, c) X /\ Forall2 (fun x y => is_null y = true <-> Lost c x) (cells c) (cells c').
  Proof using newline_space default_pos. clear - newline_space default_pos.
    intros t X tss Y E ND W n c' I. destruct (fit_steps_out _ _ _ _ _ _ E ND I) as (c & Ic & Ch). exists c. split; [exact Ic|].
    destruct (chain_fate t false c _ c' (W n c Ic) Ch) as (a & c1 & l' & _ & AN & _ & W1 & _ & _ & Fa).
    eapply forall2_comp; [|exact (after_lost is_space newline_space c a c1 AN)|exact (fate_nulls UTC parse infer has_offset default_resolution guess pick round of_bool num ticks NaT_value castable castable_str nested str empty_is_string sort_cats default_pos c1 l' c' W1 Fa)].
    cbn. unfold same_null. intros x y z _ [L _] En. rewrite <- En. exact L.
  Qed.
  Lemma fate_nulls_float : forall (c : column) l c', WF c -> Fate true c l c' ->
    Forall2 (fun x y => (~ (clib c = Pandas /\ cdtype c = TDur) -> is_null x = true -> is_null y = true) /\ (is_null y = true -> is_null x = true \/ num (clib c) (cdtype c) x = Some None)) (cells c) (cells c').
  Proof using default_pos. clear - default_pos.
    intros c l c' W Fa. 
    assert (G : forall l2, Forall2 (@same_null N O) (cells c) l2 -> Forall2 (fun x y => (~ (clib c = Pandas /\ cdtype c = TDur) -> is_null x = true -> is_null y = true) /\ (is_null y = true -> is_null x = true \/ num (clib c) (cdtype c) x = Some None)) (cells c) l2).
    { intros l2 F2. clear - F2. induction F2 as [|x y l0 l1 E F2 IH]; constructor; [|exact IH]. unfold same_null in E. rewrite E. tauto. }
    destruct Fa as [st c' Ed|c' _ Er D C Ef|Ef Nm|c' C Ew|c' Er Nm D C Ef Es].
    - apply G. exact (date_nulls UTC parse infer has_offset default_resolution guess pick default_pos c c' st W Ed).
    - exact (float_nulls round of_bool num ticks NaT_value castable c c' W D C Ef).
    - discriminate.
    - apply G. exact (cats_nulls str empty_is_string sort_cats c c' Ew).
    - apply G. exact (string_nulls castable_str nested str empty_is_string c c' W Nm Es).
  Qed.
  Lemma fit_nulls_float : forall t X tss Y, fit_steps (preprocessors t true) X = Ok (tss, Y) -> NoDup (names X) -> (forall n c, In (n, c) X -> WF c) ->
    forall n c', In (n, c') Y -> exists c, In (n, c) X /\
      Forall2 (fun x y => (~ (clib c = Pandas /\ cdtype c = TDur) -> Lost c x -> is_null y = true) /\ (is_null y = true -> Lost c x \/ num (clib c) (cdtype c) x = Some None)) (cells c) (cells c').
  Proof using newline_space default_pos. clear - newline_space default_pos.
    intros t X tss Y E ND W n c' I. destruct (fit_steps_out _ _ _ _ _ _ E ND I) as (c & Ic & Ch). exists c. split; [exact Ic|].
    destruct (chain_fate t true c _ c' (W n c Ic) Ch) as (a & c1 & l' & _ & AN & _ & W1 & L1 & T1 & Fa).
    eapply forall2_comp; [|exact (after_lost is_space newline_space c a c1 AN)|exact (fate_nulls_float c1 l' c' W1 Fa)].
    cbn. rewrite L1, T1. intros x y z _ [L S] [F1 F2]. split; [intros ND' Lx; apply F1; [exact ND'|apply L; exact Lx]|]. intros Nz. destruct (F2 Nz) as [Ny|En]; [left; apply L; exact Ny|].
    assert (Dx : {Lost c x} + {~ Lost c x}). { destruct (is_null y) eqn:Ny; [left; apply L; reflexivity|right; intros Lx; apply L in Lx; discriminate]. }
    destruct Dx as [Lx|Lx]; [left; exact Lx|right]. rewrite (S Lx) in En. exact En.
  Qed.
  Lemma fit_texts : forall t f X tss Y, fit_steps (preprocessors t f) X = Ok (tss, Y) -> NoDup (names X) -> (forall n c, In (n, c) X -> WF c) ->
    forall n c c', In (n, c) X -> In (n, c') Y -> Textual c -> CleanStr c' ->
      Forall2 (fun x y => forall s, x = CStr s -> ~ NullString is_space s -> y = CStr s) (cells c) (cells c').
  Proof using newline_space default_pos str_text. clear - newline_space default_pos str_text.
    intros t f X tss Y E ND W n c c' Ic I T Cs. destruct (fit_steps_out _ _ _ _ _ _ E ND I) as (c0 & Ic0 & Ch). assert (c0 = c) by (eapply in_unique; eassumption). subst c0.
    destruct (chain_fate t f c _ c' (W n c Ic) Ch) as (a & c1 & l' & _ & AN & _ & W1 & L1 & T1 & Fa).
    assert (G : Forall2 (fun x y => forall s, x = CStr s -> y = CStr s) (cells c1) (cells c')).
    { assert (NT : forall t', cdtype c' = t' -> t' = TObj \/ t' = TStr). { intros t' <-. destruct Cs as [Et _]. rewrite Et. destruct (clib c'); tauto. }
      assert (TT : forall t', cdtype c1 = t' -> t' = TStr \/ t' = TObj). { intros t' <-. rewrite T1. unfold Textual in T. tauto. }
      destruct Fa as [st c' Ed|c' _ Er D C Ef|Ef Nm|c' C Ew|c' Er Nm D C Ef Es].
      - exfalso. destruct (date_fit_ok UTC parse infer has_offset default_resolution guess pick default_pos c1 c' st W1 Ed) as (d & Et & _). destruct (NT _ Et); discriminate.
      - exfalso. destruct (float32_type round of_bool num ticks NaT_value castable c1 true c' Ef) as [Et _]. destruct (NT _ Et); discriminate.
      - exfalso. unfold is_numeric in Nm. destruct (TT _ eq_refl) as [Et|Et]; rewrite Et in Nm; discriminate.
      - exfalso. unfold is_categorical in C. destruct (TT _ eq_refl) as [Et|Et]; rewrite Et in C; discriminate.
      - exact (string_texts castable_str nested str empty_is_string str_text c1 c' Es). }
    eapply forall2_comp; [|exact (after_lost is_space newline_space c a c1 AN)|exact G].
    cbn. intros x y z _ [_ S] Z s -> Ns. apply Z. apply S. unfold L_clean4.Lost. intros [L|(_ & s' & E' & Ns')]; [discriminate|]. injection E' as <-. exact (Ns Ns').
  Qed.

  (** ** C96 *)
  (** the entries of the output are the texts of those of the input *)
  Definition Texts (l : lib) (x y : cell) : Prop := if is_null x then y = CNull (no_time l) else y = CStr (str Pandas TObj x).
  Lemma cats_texts : forall c c' : column, WF c -> is_categorical c = true -> with_string_categories c = Ok c' -> Forall2 (Texts (clib c)) (cells c) (cells c').
  Proof using str_text. clear - str_text.
    intros [l t cs] c' [W1 W2] C E. unfold is_categorical in C. cbn [cdtype] in C. destruct t as [| | | | | |k|]; try discriminate. cbn [clib cdtype cells] in *. destruct W1 as (ND & NN & PS).
    unfold M_clean.with_string_categories in E. cbn [clib cdtype cells] in E. rewrite Forall_forall in W2.
    assert (G : Forall2 (Texts Pandas) cs (map cat_str cs)). { apply forall2_mapr. intros x _. unfold Texts. destruct x; reflexivity. }
    assert (S : (forall x, In x (cats k) -> exists s, x = CStr s) -> (forall n, In (CNull n) cs -> n = no_time l) -> Forall2 (Texts l) cs cs).
    { intros A B. apply forall2_refl. intros x I. unfold Texts. destruct (is_null x) eqn:Nx; [destruct x; try discriminate; rewrite (B _ I); reflexivity|]. specialize (W2 x I). unfold CellOk in W2. destruct x; try discriminate; destruct (A _ W2) as (s' & Es); try discriminate. rewrite str_text. reflexivity. }
    destruct l.
    - destruct (all_strings empty_is_string (cats k) && negb (cats_ext k))%bool eqn:A.
      + injection E as <-. cbn [cells]. apply andb_true_iff in A. destruct A as [A B]. apply S; [exact (strings_shape empty_is_string (cats k) A)|]. intros n I. specialize (W2 _ I). cbn in W2. apply W2. destruct (cats_ext k); [discriminate|reflexivity].
      + destruct (_ =? _); injection E as <-; exact G.
    - injection E as <-. apply S; [exact (PS eq_refl)|]. intros n I. specialize (W2 _ I). cbn in W2. destruct W2 as [->|[_ (b & W2)]]; [reflexivity|discriminate].
  Qed.
  (** distinct texts: same categories, in the same order *)
  Lemma cats_order : forall (c c' : column) k, WF c -> cdtype c = TCat k -> with_string_categories c = Ok c' -> NoDup (map cat_str (cats k)) ->
    exists k', cdtype c' = TCat k' /\ cats k' = map cat_str (cats k) /\ ordered k' = ordered k.
  Proof using str_text. clear - str_text.
    intros [l t cs] c' k [W1 _] C E ND. cbn [cdtype clib] in *. subst t. destruct W1 as (_ & _ & PS). unfold M_clean.with_string_categories in E. cbn [clib cdtype cells] in E.
    assert (S : (forall x, In x (cats k) -> exists s, x = CStr s) -> cats k = map cat_str (cats k)).
    { intros A. rewrite <- (map_id (cats k)) at 1. apply map_ext_in. intros x I. destruct (A x I) as (s & ->). unfold M_clean.cat_str, as_str. rewrite str_text. reflexivity. }
    destruct l.
    - destruct (all_strings empty_is_string (cats k) && negb (cats_ext k))%bool eqn:A.
      + injection E as <-. exists k. split; [reflexivity|]. split; [|reflexivity]. apply S. apply andb_true_iff in A. exact (strings_shape empty_is_string (cats k) (proj1 A)).
      + rewrite (nodup_fixed _ ND) in E. rewrite Nat.eqb_refl in E. injection E as <-. eexists. split; [reflexivity|]. split; reflexivity.
    - injection E as <-. exists k. split; [reflexivity|]. split; [|reflexivity]. exact (S (PS eq_refl)).
  Qed.
  Lemma cats_total : forall c : column, is_categorical c = true -> exists c', with_string_categories c = Ok c'.
  Proof using Type. clear.
    intros [l t cs] C. unfold is_categorical in C. cbn [cdtype] in C. unfold M_clean.with_string_categories. cbn [clib cdtype]. destruct l; [|eexists; reflexivity]. destruct t; try discriminate. destruct (_ && _)%bool; [eexists; reflexivity|]. destruct (_ =? _); eexists; reflexivity.
  Qed.
  Notation cats_transform := (cats_transform castable_str nested str empty_is_string hashable sort_cats).
  Lemma cats_transform_clean : forall c c' : column, WF c -> cats_transform c = Ok c' -> CleanCat c' /\ clib c' = clib c.
  Proof using sort_perm. clear - sort_perm.
    intros c c' W E. unfold M_clean.cats_transform in E. destruct (to_categorical c) as [c1|] eqn:E1; [|discriminate]. cbn [bind] in E. destruct (to_categorical_wf castable_str nested str empty_is_string hashable sort_cats sort_perm c c1 W E1) as (W1 & C1 & L1).
    destruct (cats_clean str empty_is_string sort_cats sort_perm c1 c' W1 C1 E) as [Cc L2]. split; [exact Cc|congruence].
  Qed.
  Lemma cats_transform_total : forall c : column, (forall x, In x (cells c) -> hashable x = true) -> (cdtype c = TStr \/ nested (cdtype c) = true \/ castable_str (cdtype c) = true \/ is_categorical c = true \/ clib c = Pandas) -> exists c', cats_transform c = Ok c'.
  Proof using Type. clear.
    intros [l t cs] Hs A. unfold M_clean.cats_transform. cbn [cells cdtype clib] in *.
    assert (T : exists c1, to_categorical {| clib := l; cdtype := t; cells := cs |} = Ok c1 /\ is_categorical c1 = true).
    { unfold M_clean.to_categorical. cbn [cells cdtype clib]. rewrite (proj2 (forallb_forall hashable cs) Hs).
      destruct l; [destruct t; eexists; split; reflexivity|]. unfold M_clean.to_string, is_categorical in *. cbn [cells cdtype clib] in *.
      assert (B : t = TStr \/ (exists k, t = TCat k) \/ (nested t || castable_str t)%bool = true).
      { destruct A as [A|[A|[A|[A|A]]]]; [tauto|rewrite A; tauto|rewrite A, orb_true_r; tauto| |discriminate]. destruct t; try discriminate. right. left. eexists. reflexivity. }
      destruct B as [->|[(k & ->)|B]]; [eexists; split; reflexivity|eexists; split; reflexivity|]. destruct t; try rewrite B; cbn [bind]; eexists; split; reflexivity. }
    destruct T as (c1 & E1 & C1). rewrite E1. cbn [bind]. apply cats_total. exact C1.
  Qed.

  (** ** C97 *)
  Lemma same_output : forall t f X cl Y, clean_fit t f X = Ok (cl, Y) -> NoDup (names X) -> (forall n c, In (n, c) X -> WF c /\ NamedZone tz_name zone_of c) -> clean_transform cl X = Ok Y.
  Proof using newline_space sort_perm default_pos utc_named. clear - newline_space sort_perm default_pos utc_named.
    intros t f X cl Y E ND G. apply clean_fit_ok in E. destruct E as [E _]. unfold M_clean.clean_transform.
    eapply (same_steps is_space fl UTC tz_name zone_of parse infer has_offset default_resolution guess pick round of_bool num ticks NaT_value castable castable_str nested str empty_is_string hashable sort_cats (Good tz_name zone_of)); [|exact E|exact ND|exact G].
    intros s c o st _ Gc Es. eapply good_step; eassumption.
  Qed.

  (** ** C98 *)
  Lemma steps_listed : forall t f X cl Y, clean_fit t f X = Ok (cl, Y) -> NoDup (names X) ->
    (forall n, In n (names X) -> exists l, dget n (steps_of cl) = Some l) /\ (forall n, ~ In n (names X) -> dget n (steps_of cl) = None).
  Proof using Type. clear.
    intros t f X cl Y E ND. apply clean_fit_ok in E. destruct E as [E Ed]. destruct (described is_space fl UTC parse infer has_offset default_resolution guess pick round of_bool num ticks NaT_value castable castable_str nested str empty_is_string sort_cats _ _ _ _ E ND) as (d & Ed' & A & B). rewrite Ed in Ed'. injection Ed' as <-.
    split; [intros n I; rewrite (A n I); eexists; reflexivity|exact B].
  Qed.
  Lemma steps_applied : forall t f X cl Y, clean_fit t f X = Ok (cl, Y) -> NoDup (names X) -> forall X' Y', clean_transform cl X' = Ok Y' -> NoDup (names X') -> (forall n, In n (names X') -> In n (names X)) ->
    (forall n, In n (names Y') -> In n (names X')) /\
    forall n d, In (n, d) X' -> exists l, dget n (steps_of cl) = Some l /\ ((run l d = Ok None /\ ~ In n (names Y')) \/ exists d', run l d = Ok (Some d') /\ In (n, d') Y').
  Proof using Type. clear.
    intros t f X cl Y E ND X' Y' E' ND' Sub. apply clean_fit_ok in E. destruct E as [E Ed]. destruct (described is_space fl UTC parse infer has_offset default_resolution guess pick round of_bool num ticks NaT_value castable castable_str nested str empty_is_string sort_cats _ _ _ _ E ND) as (d & Ed' & A & B). rewrite Ed in Ed'. injection Ed' as <-.
    destruct (transform_steps_spec is_space UTC tz_name zone_of parse infer has_offset default_resolution round of_bool num ticks NaT_value castable castable_str nested str empty_is_string hashable sort_cats _ _ _ E' ND') as (I1 & _ & R). split; [exact I1|]. intros n d I. exists (steps_for n (pipeline cl)). split; [apply A; apply Sub; apply (in_map fst) in I; exact I|]. apply R. exact I.
  Qed.
  Lemma steps_total : forall t f X cl Y, clean_fit t f X = Ok (cl, Y) -> NoDup (names X) -> forall X', NoDup (names X') -> (forall n, In n (names X') -> In n (names X)) ->
    (forall n d l, In (n, d) X' -> dget n (steps_of cl) = Some l -> exists o, run l d = Ok o) -> exists Y', clean_transform cl X' = Ok Y'.
  Proof using Type. clear.
    intros t f X cl Y E ND X' ND' Sub R. apply clean_fit_ok in E. destruct E as [E Ed]. destruct (described is_space fl UTC parse infer has_offset default_resolution guess pick round of_bool num ticks NaT_value castable castable_str nested str empty_is_string sort_cats _ _ _ _ E ND) as (d & Ed' & A & B). rewrite Ed in Ed'. injection Ed' as <-.
    apply transform_steps_total; [exact ND'|]. intros n d I. apply (R n d _ I). apply A. apply Sub. apply (in_map fst) in I. exact I.
  Qed.

  (** ** C99 *)
  Lemma null_count_ext : forall l l' : list cell, Forall2 (@same_null N O) l l' -> null_count is_null l = null_count is_null l' /\ is_all_null is_null l = is_all_null is_null l' /\ length l = length l'.
  Proof using Type. clear.
    intros l l' F2. unfold null_count, is_all_null. induction F2 as [|x y l l' E F2 IH]; [tauto|]. unfold same_null in E. destruct IH as (A & B & C). cbn. rewrite E, B, C. destruct (is_null y); cbn; rewrite ?A; tauto.
  Qed.
  Lemma decide_ext : forall t (l l' : list cell), Forall2 (@same_null N O) l l' -> decide is_null fl t l = decide is_null fl t l'.
  Proof using Type. clear. intros t l l' F2. destruct (null_count_ext l l' F2) as (A & B & C). unfold decide. rewrite A, B, C. reflexivity. Qed.
  (** columns of numbers, datetimes, categories, or texts *)
  Definition Plain (c : column) : Prop :=
    match cdtype c with
    | TNum _ | TTime _ | TCat _ | TStr => True
    | TObj => clib c = Pandas /\ forall x, In x (cells c) -> is_null x = true \/ exists s, x = CStr s
    | _ => False
    end.
  Lemma cats_again : forall c : column, CleanCat c -> with_string_categories c = Ok c.
  Proof using Type. clear.
    intros [l t cs] (k & Et & ND & Sx & Ex & Fa). cbn [cdtype clib cells] in *. subst t. unfold M_clean.with_string_categories. cbn [clib cdtype cells]. destruct l; [|reflexivity]. rewrite (Ex eq_refl). cbn [negb]. rewrite andb_true_r.
    destruct (all_strings empty_is_string (cats k)) eqn:A; [reflexivity|]. destruct k as [cs0 e o]. cbn [cats cats_ext ordered] in *. destruct cs0 as [|x cs0].
    - cbn. rewrite (Ex eq_refl). f_equal. unfold set_cells. cbn. f_equal. rewrite <- (map_id cs) at 2. apply map_ext_in. intros x I. rewrite Forall_forall in Fa. destruct (Fa x I) as [->|[]]. reflexivity.
    - exfalso. assert (T : all_strings empty_is_string (x :: cs0) = true); [|congruence]. unfold all_strings. apply forallb_forall. intros y I. destruct (Sx y I) as (s & ->). reflexivity.
  Qed.
  Lemma string_again : forall c : column, CleanStr c -> to_string c = Ok c.
  Proof using str_text. clear - str_text.
    intros [l t cs] [Et Fa]. cbn [cdtype clib cells] in *. subst t. unfold M_clean.to_string. cbn [clib cdtype cells]. rewrite Forall_forall in Fa. destruct l; [|reflexivity].
    assert (G : forall f, (forall x, In x cs -> f x = x) -> set_cells ({| clib := Pandas; cdtype := TObj; cells := cs |} : column) TObj (map f cs) = {| clib := Pandas; cdtype := TObj; cells := cs |}).
    { intros f A. unfold set_cells. cbn. f_equal. rewrite <- (map_id cs) at 2. apply map_ext_in. exact A. }
    destruct (negb (is_pandas_object _ && is_string _ _)); [|destruct (negb (existsb is_null cs)); [reflexivity|]]; rewrite G; try reflexivity; intros x I; destruct (Fa x I) as [(s & ->)| ->]; cbn; rewrite ?str_text; reflexivity.
  Qed.
  Lemma nulls_again : forall c : column, Textual c -> (forall s, In (CStr s) (cells c) -> ~ NullString is_space s) -> nulls_fit is_space c = Ok c.
  Proof using newline_space. clear - newline_space.
    intros c T A. rewrite (nulls_fit_textual is_space c T). destruct (nulls_transform_textual is_space newline_space c T) as (l & E & F2). rewrite E. f_equal. replace l with (cells c); [apply column_eta|].
    clear E T. revert A. induction F2 as [|x y l0 l1 X F2 IH]; intros A; [reflexivity|]. f_equal; [|apply IH; intros s I; apply A; right; exact I]. destruct X as [s Ns|x Ns]; [|reflexivity]. exfalso. exact (A s (or_introl eq_refl) Ns).
  Qed.
  Lemma date_again : forall c c' : column, Textual c -> Textual c' -> clib c' = clib c -> map dt_cell (cells c') = map dt_cell (cells c) -> date_fit c = Err RejectColumn -> date_fit c' = Err RejectColumn.
  Proof using default_pos. clear - default_pos.
    intros c c' T T' L M E. apply strings_textual in T, T'. unfold M_clean.date_fit in *. rewrite (fit_strings UTC parse infer has_offset default_resolution guess pick default_pos None unfitted (dt_col c) T) in E.
    rewrite (fit_strings UTC parse infer has_offset default_resolution guess pick default_pos None unfitted (dt_col c') T'). unfold dt_col in *. cbn [M_todt.cells M_todt.clib] in *. rewrite L, M.
    destruct (get_datetime_format guess pick None (map dt_cell (cells c))) as [fm|]; [|exact E]. destruct (parse_all _ _ _ _ _ _ _) as [out|]; [|exact E].
    unfold from_dt in *. destruct (M_todt.cdtype out); cbn in *; discriminate.
  Qed.
  Lemma string_dates : forall c c' : column, (forall x, In x (cells c) -> is_null x = true \/ exists s, x = CStr s) -> is_numeric c = false -> WF c -> to_string c = Ok c' -> map dt_cell (cells c') = map dt_cell (cells c).
  Proof using str_text. clear - str_text.
    intros c c' A Nm W E. pose proof (string_nulls castable_str nested str empty_is_string c c' W Nm E) as F1. pose proof (string_texts castable_str nested str empty_is_string str_text c c' E) as F2. revert A F2. clear - F1. induction F1 as [|x y l l' X F1 IH]; intros A F2; [reflexivity|]. inversion F2 as [|? ? ? ? X2 F2']; subst.
    cbn [map]. f_equal; [|apply IH; [intros; apply A; right; assumption|exact F2']]. destruct (A x (or_introl eq_refl)) as [Nx|(s & ->)]; [|rewrite (X2 s eq_refl); reflexivity]. unfold same_null in X. rewrite Nx in X. destruct x, y; try discriminate. reflexivity.
  Qed.
  Lemma chain_again : forall t (c : column) l c', WF c -> Plain c -> FChain (preprocessors t false) c l c' -> exists l', FChain (preprocessors t false) c' l' c'.
  Proof using newline_space sort_perm default_pos str_text. clear - newline_space sort_perm default_pos str_text.
    intros t c l c' W Pc Ch. destruct (chain_fate t false c l c' W Ch) as (a & c1 & l' & El & AN & [V De] & W1 & L1 & T1 & Fa).
    pose proof (fate_nulls UTC parse infer has_offset default_resolution guess pick round of_bool num ticks NaT_value castable castable_str nested str empty_is_string sort_cats default_pos c1 l' c' W1 Fa) as Fn. rewrite (decide_ext t _ _ Fn) in De. clear Fn.
    pose proof (drop_fit_eq is_space fl UTC parse infer has_offset default_resolution guess pick round of_bool num ticks NaT_value castable castable_str nested str empty_is_string sort_cats t c' V) as Ed. rewrite De in Ed.
    remember false as f eqn:Ef0. 
    destruct Fa as [st c' Edt|c' X Er D C Ef|_ Nm|c' C Ew|c' Er Nm D C _ Es]; subst f.
    - destruct (date_fit_ok UTC parse infer has_offset default_resolution guess pick default_pos c1 c' st W1 Edt) as (d & Et & _ & _ & W').
      destruct (date_fit_date UTC parse infer has_offset default_resolution guess pick c' d W' Et) as (st' & E' & _).
      assert (NT : ~ Textual c') by (unfold Textual; rewrite Et; intros [X|[_ X]]; discriminate).
      eexists. unfold preprocessors. cbn [app]. eapply FChain_no; [cbn [M_clean.fit_step]; rewrite (nulls_fit_other is_space c' NT); reflexivity|]. eapply FChain_yes; [exact Ed|]. apply FChain_yes with (c1 := c') (st := FDate st'); [cbn [M_clean.fit_step]; rewrite E'; reflexivity|].
      eapply FChain_no; [cbn [M_clean.fit_step]; unfold cats_fit, is_categorical; rewrite Et; reflexivity|]. eapply FChain_no; [cbn [M_clean.fit_step]; unfold str_fit, is_numeric, is_any_date; rewrite Et; reflexivity|]. apply FChain_nil.
    - discriminate.
    - assert (NT : ~ Textual c). { intros T. unfold is_numeric in Nm. rewrite T1 in Nm. destruct T as [T|[_ T]]; rewrite T in Nm; discriminate. }
      destruct AN as [(T & _)|(_ & _ & ->)]; [contradiction|]. exists l. exact Ch.
    - destruct (cats_clean str empty_is_string sort_cats sort_perm c1 c' W1 C Ew) as [Cc _]. pose proof (cats_again c' Cc) as Ea. destruct Cc as (k & Et & _).
      assert (NT : ~ Textual c') by (unfold Textual; rewrite Et; intros [X|[_ X]]; discriminate).
      assert (ND : is_any_date c' = false) by (unfold is_any_date; rewrite Et; reflexivity).
      eexists. unfold preprocessors. cbn [app]. eapply FChain_no; [cbn [M_clean.fit_step]; rewrite (nulls_fit_other is_space c' NT); reflexivity|]. eapply FChain_yes; [exact Ed|]. eapply FChain_no; [cbn [M_clean.fit_step]; rewrite (date_fit_other UTC parse infer has_offset default_resolution guess pick c' ND NT); reflexivity|].
      eapply FChain_yes; [cbn [M_clean.fit_step]; unfold cats_fit, is_categorical; rewrite Et; cbn [negb]; rewrite Ea; reflexivity|]. eapply FChain_no; [cbn [M_clean.fit_step]; unfold str_fit, is_numeric, is_any_date, is_categorical; rewrite Et; reflexivity|]. apply FChain_nil.
    - destruct (string_clean castable_str nested str empty_is_string c1 c' W1 Es) as [Cs L2].
      assert (T : Textual c). { unfold Plain in Pc. unfold is_numeric in Nm. unfold is_any_date in D. unfold is_categorical in C. rewrite T1 in *. unfold Textual. destruct (cdtype c); try discriminate; try contradiction; tauto. }
      assert (Tc1 : Textual c1) by (unfold Textual in *; rewrite L1, T1; exact T).
      assert (Tc' : Textual c'). { destruct Cs as [Et _]. unfold Textual. rewrite Et. destruct (clib c'); tauto. }
      destruct AN as [(_ & _ & An)|(NT & _)]; [|contradiction]. destruct (nulls_transform_textual is_space newline_space c T) as (cs1 & An' & F2). rewrite An in An'. injection An' as ->. cbn [clib cdtype cells set_cells] in *.
      assert (S1 : forall x, In x cs1 -> is_null x = true \/ exists s, x = CStr s /\ ~ NullString is_space s).
      { assert (S0 : forall x, In x (cells c) -> is_null x = true \/ exists s, x = CStr s).
        { intros x I. destruct T as [T|[Tl T]]; unfold Plain in Pc; rewrite T in Pc; [|exact (proj2 Pc x I)]. destruct W as [_ W]. rewrite Forall_forall in W. specialize (W x I). rewrite T in W. destruct x; cbn in W; [left; reflexivity|..]; right; exact W. }
        clear - S0 F2. induction F2 as [|x y l0 l1 X F2 IH]; [intros z []|]. intros z [<-|I].
        - destruct X as [s Ns|x Ns]; [left; reflexivity|]. destruct (S0 x (or_introl eq_refl)) as [Nx|(s & ->)]; [left; exact Nx|right; exists s; split; [reflexivity|apply Ns; reflexivity]].
        - apply IH; [intros w J; apply S0; right; exact J|exact I]. }
      set (c1 := set_cells c (cdtype c) cs1) in *.
      assert (S2 : forall x, In x (cells c1) -> is_null x = true \/ exists s, x = CStr s). { intros x I. destruct (S1 x I) as [A|(s & A & _)]; [left; exact A|right; exists s; exact A]. }
      pose proof (string_dates c1 c' S2 Nm W1 Es) as Md.
      assert (Na : nulls_fit is_space c' = Ok c').
      { apply nulls_again; [exact Tc'|]. intros s I. apply (in_map dt_cell) in I. rewrite Md in I. apply in_map_iff in I. destruct I as (x & Ex & I). destruct (S1 x I) as [Nx|(s' & -> & Ns)]; [destruct x; discriminate|]. cbn in Ex. injection Ex as <-. exact Ns. }
      assert (Dn : is_numeric c' = false /\ is_any_date c' = false /\ is_categorical c' = false). { destruct Cs as [Et _]. unfold is_numeric, is_any_date, is_categorical. rewrite Et. destruct (clib c'); tauto. }
      destruct Dn as (D1 & D2 & D3).
      eexists. unfold preprocessors. cbn [app]. eapply FChain_yes; [cbn [M_clean.fit_step]; rewrite Na; reflexivity|]. eapply FChain_yes; [exact Ed|]. eapply FChain_no; [cbn [M_clean.fit_step]; rewrite (date_again c1 c' Tc1 Tc' L2 Md Er); reflexivity|].
      eapply FChain_no; [cbn [M_clean.fit_step]; unfold cats_fit; rewrite D3; reflexivity|]. eapply FChain_yes; [cbn [M_clean.fit_step]; unfold str_fit; rewrite D1, D2, D3; cbn [orb]; rewrite (string_again c' Cs); reflexivity|]. apply FChain_nil.
  Qed.
  (** a table whose columns go through all steps *)
  Lemma chains_fit : forall ss X Y, Forall2 (fun p q => fst p = fst q /\ exists l, FChain ss (snd p) l (snd q)) X Y -> exists tss, fit_steps ss X = Ok (tss, Y).
  Proof using Type. clear.
    induction ss as [|s ss IH]; intros X Y F2.
    - exists []. cbn. f_equal. f_equal. induction F2 as [|[n c] [m c'] X Y [E (l & Ch)] F2 IH]; [reflexivity|]. cbn in E, Ch. inversion Ch; subst. congruence.
    - assert (S : exists ts X1, fit_columns s X = Ok (ts, X1) /\ Forall2 (fun p q => fst p = fst q /\ exists l, FChain ss (snd p) l (snd q)) X1 Y).
      { clear IH. induction F2 as [|[n c] [m c'] X Y [E (l & Ch)] F2 IH]; [exists [], []; split; [reflexivity|constructor]|]. cbn [fst snd] in *. subst m. destruct IH as (ts & X1 & E1 & F1). cbn [M_clean.fit_columns]. rewrite E1.
        inversion Ch as [|? ? ? l0 ? Er Ch0|? ? ? st c1 l0 ? Ey Ch0]; subst.
        - rewrite Er. cbn. exists ts, ((n, c) :: X1). split; [reflexivity|]. constructor; [|exact F1]. split; [reflexivity|exists l0; exact Ch0].
        - rewrite Ey. cbn. eexists _, ((n, c1) :: X1). split; [reflexivity|]. constructor; [|exact F1]. split; [reflexivity|exists l0; exact Ch0]. }
      destruct S as (ts & X1 & E1 & F1). destruct (IH X1 Y F1) as (tss & E2). exists (ts :: tss). cbn [M_clean.fit_steps]. rewrite E1. cbn [bind fst snd]. rewrite E2. reflexivity.
  Qed.
  Lemma clean_again : forall t X cl Y, clean_fit t false X = Ok (cl, Y) -> NoDup (names X) -> (forall n c, In (n, c) X -> WF c /\ Plain c) -> exists cl', clean_fit t false Y = Ok (cl', Y).
  Proof using newline_space sort_perm default_pos str_text. clear - newline_space sort_perm default_pos str_text.
    intros t X cl Y E ND G. apply clean_fit_ok in E. destruct E as [E _]. 
    destruct (fit_steps_spec is_space fl UTC parse infer has_offset default_resolution guess pick round of_bool num ticks NaT_value castable castable_str nested str empty_is_string sort_cats _ _ _ _ E ND) as (_ & NY & _).
    destruct (chains_fit (preprocessors t false) Y Y) as (tss & E').
    { apply forall2_refl. intros [n c'] I. split; [reflexivity|]. cbn [snd]. destruct (fit_steps_out _ _ _ _ _ _ E ND I) as (c & Ic & Ch). destruct (G n c Ic) as [W P]. eapply chain_again; eassumption. }
    destruct (clean_fit_total t false Y tss Y NY E') as (cl' & E'' & _). exists cl'. exact E''.
  Qed.
End Tables.
