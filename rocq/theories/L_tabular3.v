(** Lemmas for C117: the encoders and the last step of a TableVectorizer, and the whole. *)
From Coq Require Import QArith Permutation.
From Verif Require Import Base M_str M_names L_names M_select L_select M_oncols L_oncols M_checkinput L_checkinput M_tablevec L_tablevec L_dict L_tablevec2 L_tablevec3 L_tablevec4 L_tabular1.
From Verif Require Import M_nullstr M_dropnulls M_todt L_nullstr L_todt M_clean L_clean1 L_clean2 L_clean3 M_tabular L_tabular2.
Open Scope string_scope.
Open Scope list_scope.
Open Scope nat_scope.
Set Default Proof Using "Type".

Section Whole.
  Context {N TZ Name F O K : Type} `{EqD N} `{EqD F} `{EqD O}.
  Context {L E : Type} `{EqD L}.
  Notation cell := (M_clean.cell N O).
  Notation dtype := (M_clean.dtype N TZ O K).
  Notation column := (M_clean.column N TZ O K).
  Notation dcell := (@M_todt.cell text cell).
  Variable is_space : nat -> bool.
  Variable fl : Q -> Q.
  Variable UTC : TZ.
  Variable tz_name : TZ -> option Name.
  Variable zone_of : Name -> option TZ.
  Variable parse : lib -> F -> dcell -> option Z.
  Variable infer : list dcell -> dcell -> option Z.
  Variable has_offset : F -> bool.
  Variable default_resolution : lib -> Z.
  Variable guess : bool -> text -> option F.
  Variable pick : nat -> nat -> list nat.
  Variable round : N -> N.
  Variable of_bool : bool -> N.
  Variable num : lib -> dtype -> cell -> option (option N).
  Variable ticks : dtype -> Z -> N.
  Variable NaT_value : N.
  Variable castable castable_str nested : dtype -> bool.
  Variable str : lib -> dtype -> cell -> text.
  Variable empty_is_string : bool.
  Variable hashable : cell -> bool.
  Variable sort_cats : list cell -> list cell.

  Notation fit_step := (M_clean.fit_step is_space fl UTC parse infer has_offset default_resolution guess pick round of_bool num ticks NaT_value castable castable_str nested str empty_is_string sort_cats).
  Notation transform_step := (M_clean.transform_step is_space UTC tz_name zone_of parse infer has_offset default_resolution round of_bool num ticks NaT_value castable castable_str nested str empty_is_string hashable sort_cats).
  Notation to_string := (M_clean.to_string castable_str nested str empty_is_string).
  Notation to_float32 := (M_clean.to_float32 round of_bool num ticks NaT_value castable).
  Notation with_string_categories := (M_clean.with_string_categories str empty_is_string sort_cats).
  Notation to_categorical := (M_clean.to_categorical castable_str nested str empty_is_string hashable sort_cats).
  Notation cfitted := (M_clean.fitted TZ F).

  Notation date_fit := (M_clean.date_fit UTC parse infer has_offset default_resolution guess pick).
  Notation date_transform := (M_clean.date_transform UTC tz_name zone_of parse infer has_offset default_resolution).
  Notation float_fit := (M_clean.float_fit round of_bool num ticks NaT_value castable).
  Notation FChain := (L_clean2.FChain is_space fl UTC parse infer has_offset default_resolution guess pick round of_bool num ticks NaT_value castable castable_str nested str empty_is_string sort_cats).
  Notation TChain := (L_clean2.TChain is_space UTC tz_name zone_of parse infer has_offset default_resolution round of_bool num ticks NaT_value castable castable_str nested str empty_is_string hashable sort_cats).
  Variable enc_fit : encoder -> string -> column -> outcome column E.
  Variable enc_transform : E -> string -> column -> res (list (string * column)).
  Variable low_card : column -> bool.
  Notation state := (state TZ F E).
  Notation pre := (@M_tabular.pre N TZ F O K _ _ _ E is_space fl UTC parse infer has_offset default_resolution guess pick round of_bool num ticks NaT_value castable castable_str nested str empty_is_string sort_cats).
  Notation encode := (encode castable_str nested str empty_is_string hashable sort_cats enc_fit).
  Notation apply_st := (M_tabular.apply is_space UTC tz_name zone_of parse infer has_offset default_resolution round of_bool num ticks NaT_value castable castable_str nested str empty_is_string hashable sort_cats enc_transform).
  Hypothesis newline_space : is_space newline = true.
  Hypothesis sort_perm : forall l, Permutation (sort_cats l) l.
  Hypothesis default_pos : forall l, (0 < default_resolution l)%Z.

  Notation Gives := (Gives enc_fit enc_transform).
  Notation SetUp := (SetUp enc_fit enc_transform).
  Notation Encoded1 v c := (Numeric c \/ (UsesCategories v /\ CleanCat c)).

  (** ** ToCategorical *)
  Lemma str_not : forall c : column, CleanStr c -> is_categorical c = false /\ is_numeric c = false /\ is_any_date c = false.
  Proof using Type. clear. intros c [T _]. unfold is_categorical, is_numeric, is_any_date. rewrite T. destruct (clib c); repeat split. Qed.
  Lemma cat_is : forall c : column, CleanCat c -> is_categorical c = true /\ is_numeric c = false /\ is_any_date c = false.
  Proof using Type. clear. intros c (k & T & _). unfold is_categorical, is_numeric, is_any_date. rewrite T. repeat split. Qed.
  Lemma categorical_clean : forall c c' : column, CleanStr c -> to_categorical c = Ok c' -> CleanCat c'.
  Proof using sort_perm. clear - sort_perm.
    intros c c' Cs Ec. pose proof Cs as [T Fa]. unfold M_clean.to_categorical in Ec. rewrite T in Ec. destruct (clib c) eqn:Lc.
    - destruct (forallb hashable (cells c)); [|discriminate]. injection Ec as <-. eexists. split; [reflexivity|]. cbn [cats cats_ext clib set_cells]. split; [|split; [|split]].
      + eapply Permutation_NoDup; [apply Permutation_sym; apply sort_perm|]. apply NoDup_nodup.
      + intros x I. apply (Permutation_in _ (sort_perm _)) in I. unfold find_cats in I. apply nodup_In in I. apply filter_In in I. destruct I as [I Nn]. rewrite Forall_forall in Fa. destruct (Fa x I) as [(s & ->)| ->]; [eexists; reflexivity|discriminate].
      + reflexivity.
      + cbn [cells]. apply Forall_map. apply Forall_forall. intros x I. rewrite Forall_forall in Fa. destruct (Fa x I) as [(s & ->)| ->]; [right|left; cbn [clib]; rewrite Lc; reflexivity].
        cbn [nan_nulls]. apply (Permutation_in _ (Permutation_sym (sort_perm _))). unfold find_cats. apply nodup_In. apply filter_In. split; [exact I|reflexivity].
    - cbn [bind] in Ec. unfold M_clean.to_string in Ec. rewrite Lc, T in Ec. cbn [bind] in Ec. injection Ec as <-. eexists. split; [reflexivity|]. cbn [cats cats_ext clib set_cells cells]. split; [|split; [|split]].
      + apply NoDup_nodup.
      + intros x I. unfold find_cats in I. apply nodup_In in I. apply filter_In in I. destruct I as [I Nn]. rewrite Forall_forall in Fa. destruct (Fa x I) as [(s & ->)| ->]; [eexists; reflexivity|discriminate].
      + rewrite Lc. discriminate.
      + apply Forall_forall. intros x I. rewrite Forall_forall in Fa. destruct (Fa x I) as [(s & ->)| ->]; [right|left; cbn [clib]; rewrite Lc; reflexivity]. unfold find_cats. apply nodup_In. apply filter_In. split; [exact I|reflexivity].
  Qed.
  Lemma text_kind : forall c d : column, Text c -> SameKind c d -> (CleanStr c /\ CleanStr d) \/ (CleanCat c /\ CleanCat d).
  Proof using Type. clear.
    intros c d Tx Sk. assert (Nm : is_numeric c = false /\ is_any_date c = false). { destruct Tx as [Cs|Cc]; [apply str_not in Cs|apply cat_is in Cc]; tauto. }
    destruct Nm as [Nm Nd]. destruct Sk as [c d Ec _|c d k Ec _|c d Cc Cd|c d Cc Cd]; [|unfold is_any_date in Nd; rewrite Ec in Nd; discriminate|right; auto|left; auto].
    unfold is_numeric in Nm. rewrite Ec in Nm. discriminate.
  Qed.
  Lemma encode_other : forall e n c, e <> ToCategorical -> forall outs (st : state), encode e n c = Fitted outs st -> exists st', enc_fit e n c = Fitted outs st' /\ st = SEnc st'.
  Proof using Type. clear. intros e n c Ne outs st En. destruct e; try congruence; cbn [M_tabular.encode] in En; match type of En with match ?z with _ => _ end = _ => destruct z as [|x| |o s] eqn:Ef end; try discriminate; injection En as <- <-; exists s; split; reflexivity. Qed.
  Lemma encode_text : forall v e n c outs st, (e = ToCategorical -> UsesCategories v) -> e = ToCategorical \/ Gives e Text -> Text c -> encode e n c = Fitted outs st ->
    Forall (fun c' => Encoded1 v c') (map snd outs) /\ forall d outs', SameKind c d -> apply_st st n d = Ok outs' -> Forall2 (Encoded v) (map snd outs) (map snd outs').
  Proof using sort_perm. clear - sort_perm.
    intros v e n c outs st He Hg Tx En. destruct (match e with ToCategorical => true | _ => false end) eqn:Ec.
    - assert (e = ToCategorical) as -> by (destruct e; try discriminate; reflexivity).
      assert (Us : UsesCategories v) by (apply He; reflexivity).
        cbn [M_tabular.encode] in En. destruct (M_tabular.to_cat_fit castable_str nested str empty_is_string hashable sort_cats c) as [c'|x] eqn:Ef; [|destruct x; discriminate]. injection En as <- <-.
        assert (C' : CleanCat c'). { unfold to_cat_fit in Ef. destruct Tx as [Cs|Cc]; [|destruct (cat_is c Cc) as [Ci _]; rewrite Ci in Ef; injection Ef as <-; exact Cc].
          destruct (str_not c Cs) as [Ci _]. rewrite Ci in Ef. destruct (negb (is_string empty_is_string c)); [discriminate|]. exact (categorical_clean c c' Cs Ef). }
        split; [constructor; [right; auto|constructor]|]. intros d outs' Sk Ea. cbn [M_tabular.apply] in Ea. destruct (to_cat_transform castable_str nested str empty_is_string hashable sort_cats d) as [d'|] eqn:Et; [|discriminate]. cbn [bind] in Ea. injection Ea as <-.
        constructor; [|constructor]. right. split; [exact Us|]. split; [exact C'|]. unfold to_cat_transform in Et. destruct (text_kind c d Tx Sk) as [[_ Cd]|[_ Cd]].
        * destruct (str_not d Cd) as [Ci _]. rewrite Ci in Et. exact (categorical_clean d d' Cd Et).
        * destruct (cat_is d Cd) as [Ci _]. rewrite Ci in Et. injection Et as <-. exact Cd.
    - assert (Ne : e <> ToCategorical) by (intros ->; discriminate). destruct Hg as [X|G]; [congruence|]. destruct (encode_other e n c Ne outs st En) as (st' & Ef & ->). destruct (G n c outs st' Tx Ef) as [Fo Ft]. split.
      + revert Fo. apply Forall_impl. intros c' Nc. left. exact Nc.
      + intros d outs' Sk Ea. cbn [M_tabular.apply] in Ea. destruct (Ft d outs' Sk Ea) as [Lo Fo']. assert (Lo' : length (map snd outs') = length (map snd outs)) by (rewrite !map_length; exact Lo). clear - Fo Fo' Lo'. revert Fo Fo' Lo'. generalize (map snd outs) as l, (map snd outs') as l'. intros l l' Fo. revert l'.
        induction Fo as [|x l Hx Fo IH]; intros [|y l'] Fo' L'; cbn in L'; try discriminate; constructor; inversion Fo'; subst; [left; auto|]. apply IH; [assumption|congruence].
  Qed.

  (** ** The four encoders *)
  Notation encoders v := [(M_clean.is_numeric, pass_through); (M_clean.is_any_date, encode (v_date v)); (low_card, encode (v_low v)); ((fun _ => true), encode (v_high v))].
  Notation enc_steps l := (map (fun e : (column -> bool) * transformer column state => encoder_step [] (fst e) (snd e)) l).
  Definition Raw0 (c d : column) : Prop := Clean true c /\ SameKind c d.
  Definition Raw1 (c d : column) : Prop := Raw0 c d /\ is_numeric c = false.
  Definition Raw2 (c d : column) : Prop := Text c /\ SameKind c d.
  Lemma clean_rest : forall c : column, Clean true c -> is_numeric c = false -> is_any_date c = false -> Text c.
  Proof using Type. clear. intros c [Cs|[Cc|[(k & Ct)|(b & Cn & _)]]] Nn Nd; [left; exact Cs|right; exact Cc|unfold is_any_date in Nd; rewrite Ct in Nd; discriminate|unfold is_numeric in Nn; rewrite Cn in Nn; discriminate]. Qed.
  Lemma clean_date : forall c : column, is_any_date c = true -> CleanTime c.
  Proof using Type. clear. intros c D. unfold is_any_date in D. destruct (cdtype c) eqn:T; try discriminate. eexists. exact T. Qed.
  Lemma clean_numeric : forall c : column, is_numeric c = true -> Numeric c.
  Proof using Type. clear. intros c D. unfold is_numeric in D. destruct (cdtype c) eqn:T; try discriminate. eexists. exact T. Qed.
  Lemma numeric_pair : forall v (c d : column), is_numeric c = true -> SameKind c d -> Encoded v c d.
  Proof using Type. clear.
    intros v c d Nc Sk. left. destruct Sk as [c d Ec Ed|c d k Ec Ed|c d (k & Ec & _) Cd|c d [Ec _] Cd]; [split; eexists; eassumption| | |]; unfold is_numeric in Nc; rewrite Ec in Nc; try discriminate. destruct (clib c); discriminate.
  Qed.
  Lemma encode_date : forall v e n c outs (st : state), e <> ToCategorical -> Gives e CleanTime -> CleanTime c -> encode e n c = Fitted outs st ->
    Forall (fun c' => Encoded1 v c') (map snd outs) /\ forall d outs', SameKind c d -> apply_st st n d = Ok outs' -> Forall2 (Encoded v) (map snd outs) (map snd outs').
  Proof using Type. clear.
    intros v e n c outs st Ne G Tx En. destruct (encode_other e n c Ne outs st En) as (st' & Ef & ->). destruct (G n c outs st' Tx Ef) as [Fo Ft]. split.
    - revert Fo. apply Forall_impl. intros c' Nc. left. exact Nc.
    - intros d outs' Sk Ea. cbn [M_tabular.apply] in Ea. destruct (Ft d outs' Sk Ea) as [Lo Fo']. assert (Lo' : length (map snd outs') = length (map snd outs)) by (rewrite !map_length; exact Lo). clear - Fo Fo' Lo'. revert Fo Fo' Lo'. generalize (map snd outs) as l, (map snd outs') as l'. intros l l' Fo. revert l'.
      induction Fo as [|x l Hx Fo IH]; intros [|y l'] Fo' L'; cbn in L'; try discriminate; constructor; inversion Fo'; subst; [left; auto|]. apply IH; [assumption|congruence].
  Qed.

  Lemma enc_run : forall lib draws v k X fs X2, SetUp v -> M_tablevec.run_steps lib draws k (enc_steps (encoders v)) [] X = Ok (fs, X2) -> NoDup (column_names X) ->
    FreshRun lib draws k (enc_steps (encoders v)) [] X -> Forall (fun p => Clean true (snd p)) X ->
    NoDup (column_names X2) /\ Forall (fun p => Encoded1 v (snd p)) X2 /\
    forall Y Y2, Paired (fun _ => Raw0) X Y -> M_tablevec.transform_steps lib apply_st fs Y = Ok Y2 -> Paired (fun _ => Encoded v) X2 Y2.
  Proof using sort_perm. clear - sort_perm.
    intros lib draws v k X fs X2 ((Hd & Gd) & Hl & Hh) Er ND FR HX. cbn [map fst snd] in Er, FR.
    cbn [M_tablevec.run_steps] in Er.
    destruct FR as [F1 FR]. destruct (oec_fit_transform _ _ _ _ _ _ _ X) as [[f1 Xa]|] eqn:E1 in Er; [|discriminate]. cbn [bind] in Er. specialize (FR f1 Xa E1).
    destruct FR as [F2 FR]. destruct (oec_fit_transform _ _ _ _ _ _ _ Xa) as [[f2 Xb]|] eqn:E2 in Er; [|discriminate]. cbn [bind] in Er. specialize (FR f2 Xb E2).
    destruct FR as [F3 FR]. destruct (oec_fit_transform _ _ _ _ _ _ _ Xb) as [[f3 Xc]|] eqn:E3 in Er; [|discriminate]. cbn [bind] in Er. specialize (FR f3 Xc E3).
    destruct FR as [F4 _]. destruct (oec_fit_transform _ _ _ _ _ _ _ Xc) as [[f4 Xd]|] eqn:E4 in Er; [|discriminate]. cbn [bind] in Er. injection Er as <- <-.
    cbn [s_ft s_reject encoder_step] in E1, E2, E3, E4, F1, F2, F3, F4.
    assert (HX0 : Forall (fun p => Stage1 ([] : list (M_oncols.fitted state)) (fun c => Encoded1 v c) (fun c => Clean true c) (fst p) (snd p)) X).
    { revert HX. apply Forall_impl. intros p Cp. split; [discriminate|intros _; exact Cp]. }
    destruct (encoder_step_ok lib _ _ _ [] X f1 Xa _ _ (fun c => Clean true c /\ is_numeric c = false) ND F1 E1 HX0) as [ND1 HX1].
    { intros n c outs st Cc Nc Et. unfold pass_through in Et. injection Et as <- <-. constructor; [left; exact (clean_numeric c Nc)|constructor]. }
    { auto. }
    destruct (encoder_step_ok lib _ _ _ _ Xa f2 Xb _ _ (fun c => Text c) ND1 F2 E2 HX1) as [ND2 HX2].
    { intros n c outs st [Cc Nc] Dc Et. exact (proj1 (encode_date v (v_date v) n c outs st Hd Gd (clean_date c Dc) Et)). }
    { intros c [Cc Nc] Dc. exact (clean_rest c Cc Nc Dc). }
    destruct (encoder_step_ok lib _ _ _ _ Xb f3 Xc _ _ (fun c => Text c) ND2 F3 E3 HX2) as [ND3 HX3].
    { intros n c outs st Tc _ Et. refine (proj1 (encode_text v (v_low v) n c outs st _ Hl Tc Et)). intros Ev. left. exact Ev. }
    { auto. }
    destruct (encoder_step_ok lib _ _ _ _ Xc f4 Xd _ _ (fun c => False) ND3 F4 E4 HX3) as [ND4 HX4].
    { intros n c outs st Tc _ Et. refine (proj1 (encode_text v (v_high v) n c outs st _ Hh Tc Et)). intros Ev. right. exact Ev. }
    { intros c _ X0. discriminate. }
    split; [exact ND4|]. split.
    { revert HX4. apply Forall_impl. intros p [A1 A2]. match type of A1 with ?b = true -> _ => destruct b end; [apply A1; reflexivity|destruct (A2 eq_refl)]. }
    intros Y Y2 HP ET. unfold M_tablevec.transform_steps in ET. cbn [foldM app] in ET.
    destruct (oec_transform lib apply_st false f1 Y) as [Ya|] eqn:T1; [|discriminate]. cbn [bind] in ET.
    destruct (oec_transform lib apply_st false f2 Ya) as [Yb|] eqn:T2; [|discriminate]. cbn [bind] in ET.
    destruct (oec_transform lib apply_st false f3 Yb) as [Yc|] eqn:T3; [|discriminate]. cbn [bind] in ET.
    destruct (oec_transform lib apply_st false f4 Yc) as [Yd|] eqn:T4; [|discriminate]. cbn [bind] in ET. injection ET as <-.
    assert (HP0 : Paired (Stage ([] : list (M_oncols.fitted state)) (Encoded v) Raw0) X Y). { revert HP. apply Forall2_impl_in. intros p q _ _ [En R]. split; [exact En|]. split; [discriminate|intros _; exact R]. }
    pose proof (encoder_step_pair is_space UTC tz_name zone_of parse infer has_offset default_resolution round of_bool num ticks NaT_value castable castable_str nested str empty_is_string hashable sort_cats enc_transform
      lib _ _ _ [] X f1 Xa (Encoded v) Raw0 Raw1 Y Ya ND F1 E1 HP0 T1) as HP1.
    assert (HP1' : Paired (Stage ([] ++ [f1]) (Encoded v) Raw1) Xa Ya).
    { apply HP1; [|intros c d R Nc; split; assumption]. intros n c d outs st outs' [Cc Sk] Nc Et Ea. unfold pass_through in Et. injection Et as <- <-. cbn in Ea. injection Ea as <-. constructor; [exact (numeric_pair v c d Nc Sk)|constructor]. }
    pose proof (encoder_step_pair is_space UTC tz_name zone_of parse infer has_offset default_resolution round of_bool num ticks NaT_value castable castable_str nested str empty_is_string hashable sort_cats enc_transform
      lib _ _ _ _ Xa f2 Xb (Encoded v) Raw1 Raw2 Ya Yb ND1 F2 E2 HP1' T2) as HP2.
    assert (HP2' : Paired (Stage (([] ++ [f1]) ++ [f2]) (Encoded v) Raw2) Xb Yb).
    { apply HP2; [|intros c d [[Cc Sk] Nc] Dc; split; [exact (clean_rest c Cc Nc Dc)|exact Sk]]. intros n c d outs st outs' [[Cc Sk] Nc] Dc Et Ea. exact (proj2 (encode_date v (v_date v) n c outs st Hd Gd (clean_date c Dc) Et) d outs' Sk Ea). }
    pose proof (encoder_step_pair is_space UTC tz_name zone_of parse infer has_offset default_resolution round of_bool num ticks NaT_value castable castable_str nested str empty_is_string hashable sort_cats enc_transform
      lib _ _ _ _ Xb f3 Xc (Encoded v) Raw2 Raw2 Yb Yc ND2 F3 E3 HP2' T3) as HP3.
    assert (HP3' : Paired (Stage ((([] ++ [f1]) ++ [f2]) ++ [f3]) (Encoded v) Raw2) Xc Yc).
    { apply HP3; [|auto]. intros n c d outs st outs' [Tc Sk] _ Et Ea. refine (proj2 (encode_text v (v_low v) n c outs st _ Hl Tc Et) d outs' Sk Ea). intros Ev. left. exact Ev. }
    pose proof (encoder_step_pair is_space UTC tz_name zone_of parse infer has_offset default_resolution round of_bool num ticks NaT_value castable castable_str nested str empty_is_string hashable sort_cats enc_transform
      lib _ _ _ _ Xc f4 Xd (Encoded v) Raw2 (fun _ _ => False) Yc Yd ND3 F4 E4 HP3' T4) as HP4.
    assert (HP4' : Paired (Stage (((([] ++ [f1]) ++ [f2]) ++ [f3]) ++ [f4]) (Encoded v) (fun _ _ => False)) Xd Yd).
    { apply HP4; [|intros c d _ X0; discriminate]. intros n c d outs st outs' [Tc Sk] _ Et Ea. refine (proj2 (encode_text v (v_high v) n c outs st _ Hh Tc Et) d outs' Sk Ea). intros Ev. right. exact Ev. }
    revert HP4'. apply Forall2_impl_in. intros p q _ _ [En [A1 A2]]. split; [exact En|]. match type of A1 with ?b = true -> _ => destruct b end; [apply A1; reflexivity|destruct (A2 eq_refl)].
  Qed.

  (** ** 32-bit numbers *)
  Definition Final1 (v : vectorizer) (c : column) : Prop := cdtype c = TNum true \/ (UsesCategories v /\ CleanCat c).
  Lemma float_numeric : forall (c : column) n, Numeric c -> exists c', pre ToFloat32 n c = Fitted [(n, c')] (SPre FFloat) /\ cdtype c' = TNum true.
  Proof using Type. clear.
    intros c n (b & Tc). destruct (float32_number round of_bool num ticks NaT_value castable c b true Tc) as [c' Ec]. exists c'. split; [|exact (proj1 (float32_type round of_bool num ticks NaT_value castable c true c' Ec))].
    unfold M_tabular.pre. cbn [M_clean.fit_step]. unfold M_clean.float_fit, is_any_date, is_categorical. rewrite Tc. cbn [orb]. rewrite Ec. reflexivity.
  Qed.
  Lemma post_columns : forall v (X : frame column), NoDup (column_names X) ->
    exists columns, expand (s_cols (post_step (tv_params is_space fl UTC parse infer has_offset default_resolution guess pick round of_bool num ticks NaT_value castable castable_str nested str empty_is_string hashable sort_cats enc_fit low_card v) []) []) X = Ok columns /\
      forall n c, In (n, c) X -> (In n columns <-> is_categorical c = false).
  Proof using Type. clear.
    intros v X ND. match goal with |- exists columns, expand ?s X = _ /\ _ => destruct (expand_spec s X) as (sl & Ex & Fi) end.
    - intros [l X0]. discriminate.
    - intros n c _. cbn. eauto 10.
    - exists (column_names sl). split; [exact Ex|]. intros n c I. split.
      + intros J. apply in_map_iff in J. destruct J as ([n' c'] & Eq & J). cbn in Eq. subst n'. apply (FilterOf_incl _ _ _ Fi) in J. destruct J as [Jf J].
        assert (c' = c). { apply (proj2 (dget_some_iff X n c' ND)) in Jf. apply (proj2 (dget_some_iff X n c ND)) in I. congruence. } subst c'.
        cbn in J. destruct (is_categorical c); [|reflexivity]. exfalso. tauto.
      + intros J1. apply in_map_iff. exists (n, c). split; [reflexivity|]. apply (FilterOf_incl _ _ _ Fi). split; [exact I|]. cbn. rewrite J1. repeat split; discriminate.
  Qed.
  Notation params_of := (tv_params is_space fl UTC parse infer has_offset default_resolution guess pick round of_bool num ticks NaT_value castable castable_str nested str empty_is_string hashable sort_cats enc_fit low_card).
  Lemma post_run : forall lib draws v k X f X2, M_tablevec.run_steps lib draws k [post_step (params_of v) []] [] X = Ok ([f], X2) -> NoDup (column_names X) ->
    FreshRun lib draws k [post_step (params_of v) []] [] X -> Forall (fun p => Encoded1 v (snd p)) X ->
    NoDup (column_names X2) /\ Forall (fun p => Final1 v (snd p)) X2 /\
    forall Y Y2, Paired (fun _ => Encoded v) X Y -> M_tablevec.transform_steps lib apply_st [f] Y = Ok Y2 -> Paired (fun _ => Final32 v) X2 Y2.
  Proof using Type. clear.
    intros lib draws v k X f X2 Er ND FR HX. cbn [M_tablevec.run_steps] in Er. destruct FR as [F1 _].
    destruct (oec_fit_transform _ _ _ _ _ _ _ X) as [[f1 Xa]|] eqn:E1 in Er; [|discriminate]. cbn [bind] in Er. injection Er as -> ->.
    destruct (oec_fit_step lib _ _ _ _ X f X2 ND F1 E1) as (columns & Ex & ND1 & HS). destruct (post_columns v X ND) as (columns' & Ex' & Hc). rewrite Ex' in Ex. injection Ex as ->.
    assert (Num : forall c : column, Numeric c -> is_categorical c = false). { intros c (b & T). unfold is_categorical. rewrite T. reflexivity. }
    split; [exact ND1|]. rewrite Forall_forall in HX. split.
    - apply Forall_forall. intros [m c'] I. unfold Final1. cbn [snd]. destruct (HS m c' I) as [(_ & IX & U)|(_ & n & c & outs & st & IX & In' & Et & Io)].
      + specialize (HX _ IX). cbn [snd] in HX. destruct HX as [Nc|[Us Cc]]; [|right; auto]. exfalso. destruct U as [U|[_ U]]; [apply U; apply (Hc m c' IX); apply Num; exact Nc|].
        cbn [s_ft post_step params_of M_tablevec.to_float32 tv_params] in U. destruct (float_numeric c' m Nc) as (x & Ef & _). rewrite Ef in U. discriminate.
      + specialize (HX _ IX). cbn [snd] in HX. apply (Hc n c IX) in In'. destruct HX as [Nc|[_ Cc]]; [|apply cat_is in Cc; destruct Cc; congruence].
        cbn [s_ft post_step params_of M_tablevec.to_float32 tv_params] in Et. destruct (float_numeric c n Nc) as (x & Ef & Tx). rewrite Ef in Et. injection Et as <- _. destruct Io as [<-|[]]. left. exact Tx.
    - intros Y Y2 HP ET. unfold M_tablevec.transform_steps in ET. cbn [foldM] in ET. destruct (oec_transform lib apply_st false f Y) as [Y1|] eqn:EY; [|discriminate]. cbn [bind] in ET. injection ET as <-.
      pose proof (oec_pair_step apply_st lib _ _ _ _ X f X2 columns (fun _ => Encoded v) Y Y1 ND F1 E1 Ex' HP EY) as HP1.
      assert (HF : forall n c d outs st outs', In n columns -> In (n, c) X -> Encoded v c d -> pre ToFloat32 n c = Fitted outs st -> apply_st st n d = Ok outs' ->
        exists c' d', outs = [(n, c')] /\ outs' = [(n, d')] /\ cdtype c' = TNum true /\ cdtype d' = TNum true).
      { intros n c d outs st outs' In' IX En Et Ea. apply (Hc n c IX) in In'. destruct En as [[Nc Nd]|(_ & Cc & _)]; [|apply cat_is in Cc; destruct Cc; congruence].
        destruct (float_numeric c n Nc) as (x & Ef & Tx). rewrite Ef in Et. injection Et as <- <-. cbn [M_tabular.apply M_clean.transform_step] in Ea. unfold M_clean.float_transform in Ea.
        destruct (to_float32 d false) as [d'|] eqn:Ed; [|discriminate]. cbn [bind] in Ea. injection Ea as <-. exists x, d'. repeat (split; [reflexivity|]). split; [exact Tx|]. exact (proj1 (float32_type round of_bool num ticks NaT_value castable d false d' Ed)). }
      assert (HL : forall n c d outs st outs', In (n, c) X -> Encoded v c d -> In n columns -> pre ToFloat32 n c = Fitted outs st -> apply_st st n d = Ok outs' -> length outs' = length outs).
      { intros n c d outs st outs' IX En In' Et Ea. destruct (HF n c d outs st outs' In' IX En Et Ea) as (? & ? & -> & -> & _). reflexivity. }
      specialize (HP1 HL). revert HP1. apply Forall2_impl_in. intros [m c'] [m' d'] _ _ [Em HR]. split; [exact Em|]. cbn [fst snd] in *.
      destruct HR as [(_ & IX & U & En)|(_ & n & c & d & outs & st & outs' & IX & In' & En & Et & Ea & Io)].
      + destruct En as [[Nc Nd]|(Us & Cc & Cd)]; [|right; auto]. exfalso. destruct U as [U|[_ U]]; [apply U; apply (Hc m c' IX); apply Num; exact Nc|].
        cbn [s_ft post_step M_tablevec.to_float32 tv_params] in U. destruct (float_numeric c' m Nc) as (x & Ef & _). rewrite Ef in U. discriminate.
      + destruct (HF n c d outs st outs' In' IX En Et Ea) as (a & b & -> & -> & Ta & Tb). destruct Io as [Io|[]]. injection Io as <- <-. left. auto.
  Qed.

  (** ** The whole *)
  Variable name_str : L -> string.
  Variable sparse : column -> bool.
  Variable draw0 : nat -> string.
  Variable draws : nat -> nat -> string.
  Notation vec_fit := (vec_fit is_space fl UTC parse infer has_offset default_resolution guess pick round of_bool num ticks NaT_value castable castable_str nested str empty_is_string hashable sort_cats enc_fit low_card name_str sparse draw0 draws).
  Notation vec_transform := (vec_transform is_space UTC tz_name zone_of parse infer has_offset default_resolution round of_bool num ticks NaT_value castable castable_str nested str empty_is_string hashable sort_cats enc_transform sparse).
  (** the random strings do not collide *)
  Definition NoCollision (v : vectorizer) (X : input column L) : Prop :=
    forall ci X1, ci_fit_transform name_str sparse draw0 X = Ok (ci, X1) ->
      NoDup (column_names X1) /\
      FreshTV (module_name_ ci) draws (params_of v) pass_through (encode (v_date v)) (encode (v_low v)) (encode (v_high v)) [] X1.
  (** a table of possible columns *)
  Definition Possible (X : input column L) : Prop := forall l cs, as_dataframe X = Ok (l, cs) -> Forall (fun p => WF (snd p)) cs.

  Lemma possible_columns : forall (X : input column L) ci X1, Possible X -> ci_fit_transform name_str sparse draw0 X = Ok (ci, X1) -> Forall (fun p => WF (snd p)) X1.
  Proof using Type. clear.
    intros X ci X1 P E. unfold ci_fit_transform in E. destruct (as_dataframe X) as [[l cs]|] eqn:Ea; [|discriminate]. cbn [bind] in E. destruct (check_not_sparse sparse l (map snd cs)); [|discriminate]. cbn [bind] in E. injection E as _ <-.
    specialize (P l cs Ea). apply Forall_forall. intros [n c] I. apply in_combine_r in I. apply in_map_iff in I. destruct I as (q & <- & I). rewrite Forall_forall in P. exact (P q I).
  Qed.
  Lemma possible_columns_again : forall (X : input column L) ci X1, Possible X -> ci_transform sparse ci X = Ok X1 -> Forall (fun p => WF (snd p)) X1.
  Proof using Type. clear.
    intros X ci X1 P E. unfold ci_transform in E. destruct (as_dataframe X) as [[l cs]|] eqn:Ea; [|discriminate]. cbn [bind] in E.
    destruct (negb _); [discriminate|]. destruct (negb _); [discriminate|]. destruct (check_not_sparse sparse l (map snd cs)); [|discriminate]. cbn [bind] in E. injection E as <-.
    specialize (P l cs Ea). apply Forall_forall. intros [n c] I. apply in_combine_r in I. apply in_map_iff in I. destruct I as (q & <- & I). rewrite Forall_forall in P. exact (P q I).
  Qed.
  Lemma same_names : forall (X : input column L) ci X1 X' X1', ci_fit_transform name_str sparse draw0 X = Ok (ci, X1) -> ci_transform sparse ci X' = Ok X1' -> column_names X1' = column_names X1.
  Proof using Type. clear.
    intros X ci X1 X' X1' E E'. apply (ci_transform_iff _ _ _ _ _ _ E) in E'. destruct E' as (cs & _ & _ & _ & En & _). exact En.
  Qed.
  Lemma paired_start : forall all (X Y : frame column), column_names Y = column_names X -> Forall (fun p => WF (snd p)) X -> Forall (fun p => WF (snd p)) Y -> Paired (OnWay is_space fl UTC tz_name zone_of parse infer has_offset default_resolution guess pick round of_bool num ticks NaT_value castable castable_str nested str empty_is_string hashable sort_cats all all) X Y.
  Proof using Type. clear.
    intros all. induction X as [|p X IH]; intros [|q Y] En W W'; cbn in En; try discriminate; [constructor|]. injection En as E1 E2. inversion W; inversion W'; subst. constructor; [|apply IH; assumption].
    split; [congruence|]. exists (snd p), (snd q), [], []. split; [assumption|]. split; [assumption|]. split; [reflexivity|]. split; constructor.
  Qed.

  Lemma vec_kinds : forall v X tv out, SetUp v -> Possible X -> NoCollision v X -> vec_fit v X = Ok (tv, out) ->
    NoDup (column_names out) /\ Forall (fun p => Final1 v (snd p)) out /\
    forall X' out', Possible X' -> vec_transform tv X' = Ok out' -> Paired (fun _ => Final32 v) out out'.
  Proof using newline_space sort_perm default_pos. clear - newline_space sort_perm default_pos.
    intros v X tv out Su P Nc Ev. unfold M_tabular.vec_fit in Ev.
    destruct (ci_fit_transform name_str sparse draw0 X) as [[ci X1]|] eqn:Eci.
    2:{ exfalso. clear - Ev Eci. unfold tv_fit_transform in Ev. destruct (check_specific_columns _ _) as [[sp configs]|]; [|discriminate]. cbn [bind] in Ev. destruct (mapM _ _) as [l|] in Ev; [|discriminate]. cbn [bind] in Ev.
        repeat match type of Ev with match ?l with _ => _ end = _ => destruct l; try discriminate end.
        all: destruct (mapM _ _) as [l'|] in Ev; [|discriminate]; cbn [bind] in Ev; rewrite Eci in Ev; discriminate. }
    destruct (Nc ci X1 Eci) as [ND1 (_ & FRp & FR)].
    destruct (tv_inv SPass SDrop name_str sparse draw0 draws (params_of v) X ci X1 pass_through (encode (v_date v)) (encode (v_low v)) (encode (v_high v)) [] tv out) as (X2 & X3 & X4 & _ & _ & _ & _ & Ec & E2 & E3 & E4 & E5 & _); try assumption; try (constructor; fail).
    cbn zeta in *. change (specific_names []) with (@nil string) in *. cbn [M_tablevec.preprocessors tv_params] in E2, FRp. rewrite map_map in E2, FRp.
    pose proof (possible_columns X ci X1 P Eci) as W1.
    set (all := M_clean.preprocessors (v_nulls v) true) in *.
    destruct (pre_run is_space fl UTC tz_name zone_of parse infer has_offset default_resolution guess pick round of_bool num ticks NaT_value castable castable_str nested str empty_is_string hashable sort_cats enc_transform
      (module_name_ ci) draws all all 0 [] X1 (tv_pre tv) X2 E2 ND1 FRp) as (g1 & G1 & ND2 & HX2 & T2).
    { revert W1. apply Forall_impl. intros p W. exists (snd p), [], []. split; [exact W|]. split; [reflexivity|constructor]. }
    cbn [app] in G1. subst g1.
    assert (HX2' : Forall (fun p => Clean true (snd p)) X2).
    { revert HX2. apply Forall_impl. intros p (c0 & q & l & W & Eq & Ch). rewrite app_nil_r in Eq. subst q. unfold all in Ch. exact (chain_clean is_space fl UTC parse infer has_offset default_resolution guess pick round of_bool num ticks NaT_value castable castable_str nested str empty_is_string sort_cats newline_space sort_perm default_pos _ c0 l (snd p) W Ch). }
    cbn [M_tablevec.preprocessors tv_params] in FR. rewrite map_map in FR. destruct (FR _ _ E2) as [FRe FR2].
    destruct (enc_run (module_name_ ci) draws v _ X2 (tv_enc tv) X3 Su E3 ND2 FRe HX2') as (ND3 & HX3 & T3).
    destruct (FR2 _ _ E3) as [_ FR3]. cbn [M_tablevec.run_steps map] in E4. injection E4 as E4s <-. rewrite <- E4s in E5.
    assert (FR4 := FR3 [] X3 eq_refl).
    destruct (post_run (module_name_ ci) draws v _ X3 (tv_post tv) out E5 ND3 FR4 HX3) as (ND4 & HX4 & T4).
    split; [exact ND4|]. split; [exact HX4|]. intros X' out' P' ET. unfold M_tabular.vec_transform, tv_transform in ET. rewrite Ec in ET.
    apply bind_inv in ET. destruct ET as (Y1 & EY & ET). rewrite <- E4s in ET. unfold M_tablevec.transform_steps in *. rewrite foldM_app in ET.
    apply bind_inv in ET. destruct ET as (Y2 & EY2 & ET). rewrite foldM_app in ET. apply bind_inv in ET. destruct ET as (Y3 & EY3 & ET). cbn [app] in ET.
    pose proof (possible_columns_again X' ci Y1 P' EY) as W1'. pose proof (same_names X ci X1 X' Y1 Eci EY) as En.
    pose proof (T2 Y1 Y2 (paired_start all X1 Y1 En W1 W1') EY2) as HP2.
    assert (HP2' : Paired (fun _ => Raw0) X2 Y2).
    { revert HP2. apply Forall2_impl_in. intros p q _ _ [Ep (c0 & d0 & pp & l & W & Wd & Eq & Ch & Ch')]. split; [exact Ep|]. rewrite app_nil_r in Eq. subst pp. unfold all in Ch. split; [exact (chain_clean is_space fl UTC parse infer has_offset default_resolution guess pick round of_bool num ticks NaT_value castable castable_str nested str empty_is_string sort_cats newline_space sort_perm default_pos _ c0 l (snd p) W Ch)|exact (chains_kind is_space fl UTC tz_name zone_of parse infer has_offset default_resolution guess pick round of_bool num ticks NaT_value castable castable_str nested str empty_is_string hashable sort_cats newline_space sort_perm default_pos _ c0 l (snd p) d0 (snd q) W Wd Ch Ch')]. }
    exact (T4 Y3 out' (T3 Y2 Y3 HP2' EY3) ET).
  Qed.
End Whole.
