(** Specification and lemmas for C117: the kinds of the columns that a TableVectorizer gives. *)
From Coq Require Import QArith Permutation.
From Verif Require Import Base M_str M_names L_names M_select L_select M_oncols L_oncols M_checkinput L_checkinput M_tablevec L_tablevec L_dict L_tablevec2 L_tablevec3 L_tablevec4 L_tabular1.
From Verif Require Import M_nullstr M_dropnulls M_todt L_nullstr L_todt M_clean L_clean1 L_clean2 L_clean3 M_tabular.
Open Scope string_scope.
Open Scope list_scope.
Open Scope nat_scope.
Set Default Proof Using "Type".

Section Kinds.
  Context {N TZ Name F O K : Type} `{EqD N} `{EqD F} `{EqD O}.
  Context {L E : Type} `{EqD L}.
  Notation cell := (M_clean.cell N O).
  Notation dtype := (M_clean.dtype N TZ O K).
  Notation column := (M_clean.column N TZ O K).
  Notation dcell := (@M_todt.cell text cell).
  Variable is_space : nat -> bool.
  Variable fl : Q -> Q.
  Variable UTC : TZ.
  Variable tz_name : TZ -> option Name.
  Variable zone_of : Name -> option TZ.
  Variable parse : lib -> F -> dcell -> option Z.
  Variable infer : list dcell -> dcell -> option Z.
  Variable has_offset : F -> bool.
  Variable default_resolution : lib -> Z.
  Variable guess : bool -> text -> option F.
  Variable pick : nat -> nat -> list nat.
  Variable round : N -> N.
  Variable of_bool : bool -> N.
  Variable num : lib -> dtype -> cell -> option (option N).
  Variable ticks : dtype -> Z -> N.
  Variable NaT_value : N.
  Variable castable castable_str nested : dtype -> bool.
  Variable str : lib -> dtype -> cell -> text.
  Variable empty_is_string : bool.
  Variable hashable : cell -> bool.
  Variable sort_cats : list cell -> list cell.

  Notation fit_step := (M_clean.fit_step is_space fl UTC parse infer has_offset default_resolution guess pick round of_bool num ticks NaT_value castable castable_str nested str empty_is_string sort_cats).
  Notation transform_step := (M_clean.transform_step is_space UTC tz_name zone_of parse infer has_offset default_resolution round of_bool num ticks NaT_value castable castable_str nested str empty_is_string hashable sort_cats).
  Notation to_string := (M_clean.to_string castable_str nested str empty_is_string).
  Notation to_float32 := (M_clean.to_float32 round of_bool num ticks NaT_value castable).
  Notation with_string_categories := (M_clean.with_string_categories str empty_is_string sort_cats).
  Notation to_categorical := (M_clean.to_categorical castable_str nested str empty_is_string hashable sort_cats).
  Notation cfitted := (M_clean.fitted TZ F).

  Notation date_fit := (M_clean.date_fit UTC parse infer has_offset default_resolution guess pick).
  Notation date_transform := (M_clean.date_transform UTC tz_name zone_of parse infer has_offset default_resolution).
  Notation float_fit := (M_clean.float_fit round of_bool num ticks NaT_value castable).
  Notation FChain := (L_clean2.FChain is_space fl UTC parse infer has_offset default_resolution guess pick round of_bool num ticks NaT_value castable castable_str nested str empty_is_string sort_cats).
  Notation TChain := (L_clean2.TChain is_space UTC tz_name zone_of parse infer has_offset default_resolution round of_bool num ticks NaT_value castable castable_str nested str empty_is_string hashable sort_cats).
  Variable enc_fit : encoder -> string -> column -> outcome column E.
  Variable enc_transform : E -> string -> column -> res (list (string * column)).
  Variable low_card : column -> bool.
  Notation state := (state TZ F E).
  Notation pre := (@M_tabular.pre N TZ F O K _ _ _ E is_space fl UTC parse infer has_offset default_resolution guess pick round of_bool num ticks NaT_value castable castable_str nested str empty_is_string sort_cats).
  Notation encode := (encode castable_str nested str empty_is_string hashable sort_cats enc_fit).
  Notation apply_st := (M_tabular.apply is_space UTC tz_name zone_of parse infer has_offset default_resolution round of_bool num ticks NaT_value castable castable_str nested str empty_is_string hashable sort_cats enc_transform).
  Hypothesis newline_space : is_space newline = true.
  Hypothesis sort_perm : forall l, Permutation (sort_cats l) l.
  Hypothesis default_pos : forall l, (0 < default_resolution l)%Z.

  (** ** Specification *)
  Definition Numeric (c : column) : Prop := exists b, cdtype c = TNum b.
  Definition Text (c : column) : Prop := CleanStr c \/ CleanCat c.
  (** an encoder that turns the columns with [P] into columns of numbers, as many at each time *)
  Definition Gives (e : encoder) (P : column -> Prop) : Prop :=
    forall n c outs st, P c -> enc_fit e n c = Fitted outs st ->
      Forall Numeric (map snd outs) /\
      forall d outs', SameKind c d -> enc_transform st n d = Ok outs' -> length outs' = length outs /\ Forall Numeric (map snd outs').
  Definition SetUp (v : vectorizer) : Prop :=
    (v_date v <> ToCategorical /\ Gives (v_date v) CleanTime) /\ (v_low v = ToCategorical \/ Gives (v_low v) Text) /\ (v_high v = ToCategorical \/ Gives (v_high v) Text).
  Definition UsesCategories (v : vectorizer) : Prop := v_low v = ToCategorical \/ v_high v = ToCategorical.
  (** what comes out *)
  Definition Final32 (v : vectorizer) (c d : column) : Prop :=
    (cdtype c = TNum true /\ cdtype d = TNum true) \/ (UsesCategories v /\ CleanCat c /\ CleanCat d).
  Definition Encoded (v : vectorizer) (c d : column) : Prop := (Numeric c /\ Numeric d) \/ (UsesCategories v /\ CleanCat c /\ CleanCat d).

  (** ** Preprocessing *)
  Lemma chains_kind : forall t c l c' d d', WF c -> WF d -> FChain (M_clean.preprocessors t true) c l c' -> TChain l d d' -> SameKind c' d'.
  Proof using newline_space sort_perm default_pos. clear - newline_space sort_perm default_pos.
    intros t c l c' d d' W Wd Ch Ch'.
    destruct (chain_fate is_space fl UTC parse infer has_offset default_resolution guess pick round of_bool num ticks NaT_value castable castable_str nested str empty_is_string sort_cats newline_space default_pos t true c l c' W Ch) as (a & c1 & l' & -> & AN & _ & W1 & L1 & T1 & Fa).
    assert (S1 : exists d1, WF d1 /\ TChain l' d1 d').
    { assert (S0 : exists d1, WF d1 /\ TChain (Some (FDrop false) :: l') d1 d').
      { destruct AN as [(_ & -> & _)|(_ & -> & _)].
        - apply tchain_yes in Ch'. destruct Ch' as (d1 & Es & Ch'). exists d1. cbn in Es. injection Es as Es. split; [|exact Ch']. apply (nulls_transform_wf is_space newline_space d d1 Wd). unfold nulls_transform. rewrite Es. reflexivity.
        - exists d. split; [exact Wd|]. eapply (skip_nones) with (l0 := [None]); [repeat constructor|exact Ch']. }
      destruct S0 as (d1 & Wd1 & Ch1). exists d1. split; [exact Wd1|]. apply tchain_yes in Ch1. destruct Ch1 as (d2 & Es & Ch1). cbn in Es. rewrite column_eta in Es. injection Es as <-. exact Ch1. }
    destruct S1 as (d1 & Wd1 & Ch1).
    destruct (fate_transform is_space UTC tz_name zone_of parse infer has_offset default_resolution guess pick round of_bool num ticks NaT_value castable castable_str nested str empty_is_string hashable sort_cats sort_perm default_pos true c1 l' c' d1 d' W1 Fa Wd1 Ch1) as [(X0 & _)|Sk]; [discriminate|exact Sk].
  Qed.
  Lemma chain_clean : forall t c l c', WF c -> FChain (M_clean.preprocessors t true) c l c' -> Clean true c'.
  Proof using newline_space sort_perm default_pos. clear - newline_space sort_perm default_pos.
    intros t c l c' W Ch.
    destruct (chain_fate is_space fl UTC parse infer has_offset default_resolution guess pick round of_bool num ticks NaT_value castable castable_str nested str empty_is_string sort_cats newline_space default_pos t true c l c' W Ch) as (a & c1 & l' & -> & AN & _ & W1 & L1 & T1 & Fa).
    destruct (fate_clean UTC parse infer has_offset default_resolution guess pick round of_bool num ticks NaT_value castable castable_str nested str empty_is_string sort_cats sort_perm default_pos true c1 l' c' W1 Fa) as [C _]. exact C.
  Qed.
  Lemma fchain_snoc : forall p c l c' s o c'', FChain p c l c' ->
    (o = None /\ fit_step s c' = Err RejectColumn /\ c'' = c') \/ (exists st, o = Some st /\ fit_step s c' = Ok (Some c'', st)) -> FChain (p ++ [s]) c (l ++ [o]) c''.
  Proof using Type. clear.
    intros p c l c' s o c'' Ch St. induction Ch as [c|s0 ss c l c' Es Ch IH|s0 ss c st0 c1 l c' Es Ch IH]; cbn.
    - destruct St as [(-> & Er & ->)|(st & -> & Es)]; [eapply L_clean2.FChain_no; [exact Er|constructor]|eapply L_clean2.FChain_yes; [exact Es|constructor]].
    - eapply L_clean2.FChain_no; [exact Es|]. apply IH. exact St.
    - eapply L_clean2.FChain_yes; [exact Es|]. apply IH. exact St.
  Qed.
  Lemma tchain_snoc : forall l d d' o d'', TChain l d d' ->
    (o = None /\ d'' = d') \/ (exists st, o = Some st /\ transform_step st d' = Ok (Some d'')) -> TChain (l ++ [o]) d d''.
  Proof using Type. clear.
    intros l d d' o d'' Ch St. induction Ch as [d|l d d' Ch IH|l st0 d d1 d' Es Ch IH]; cbn.
    - destruct St as [(-> & ->)|(st & -> & Es)]; [apply L_clean2.TChain_no; constructor|eapply L_clean2.TChain_yes; [exact Es|constructor]].
    - apply L_clean2.TChain_no. apply IH. exact St.
    - eapply L_clean2.TChain_yes; [exact Es|]. apply IH. exact St.
  Qed.

  (** part of the way *)
  Definition OnWay (all rest : list M_clean.step) (n : string) (c d : column) : Prop :=
    exists c0 d0 p l, WF c0 /\ WF d0 /\ p ++ rest = all /\ FChain p c0 l c /\ TChain l d0 d.
  Definition OnWay1 (all rest : list M_clean.step) (c : column) : Prop :=
    exists c0 p l, WF c0 /\ p ++ rest = all /\ FChain p c0 l c.
  Lemma pre_rejected : forall s n c, pre s n c = Rejected -> fit_step s c = Err RejectColumn.
  Proof using Type. clear. intros s n c P. unfold M_tabular.pre in P. destruct (fit_step s c) as [[[c'|] st]|[]]; try discriminate; reflexivity. Qed.
  Lemma pre_fitted : forall s n c outs st, pre s n c = Fitted outs st -> (exists c' st', outs = [(n, c')] /\ st = SPre st' /\ fit_step s c = Ok (Some c', st')) \/ (exists st', outs = [] /\ st = SPre st' /\ fit_step s c = Ok (None, st')).
  Proof using Type. clear. intros s n c outs st P. unfold M_tabular.pre in P. destruct (fit_step s c) as [[[c'|] st']|[]] eqn:Es; try discriminate; injection P as <- <-; [left; exists c', st'|right; exists st']; auto. Qed.

  Lemma drop_step : forall s c st, fit_step s c = Ok (None, st) -> st = FDrop true.
  Proof using Type. clear.
    intros s c st Es. destruct s as [|t| | | |]; cbn [M_clean.fit_step] in Es.
    - apply keep_ok in Es. destruct Es as (c' & _ & X & _). discriminate.
    - unfold M_dropnulls.fit_transform, M_dropnulls.transform in Es. destruct (valid t); [|discriminate]. destruct (decide is_null fl t (cells c)); cbn in Es; [injection Es as <-; reflexivity|discriminate].
    - destruct (date_fit c) as [[c' st']|]; cbn in Es; discriminate.
    - apply keep_ok in Es. destruct Es as (c' & _ & X & _). discriminate.
    - apply keep_ok in Es. destruct Es as (c' & _ & X & _). discriminate.
    - apply keep_ok in Es. destruct Es as (c' & _ & X & _). discriminate.
  Qed.
  Lemma keep_step : forall s c c' st d d', fit_step s c = Ok (Some c', st) -> transform_step st d = Ok d' -> d' <> None.
  Proof using Type. clear.
    intros s c c' st d d' Es Et. destruct s as [|t| | | |]; cbn [M_clean.fit_step] in Es.
    2:{ unfold M_dropnulls.fit_transform, M_dropnulls.transform in Es. destruct (valid t); [|discriminate]. destruct (decide is_null fl t (cells c)); cbn in Es; [discriminate|]. injection Es as _ <-. cbn in Et. injection Et as <-. discriminate. }
    2:{ destruct (date_fit c) as [[c1 st1]|]; cbn in Es; [|discriminate]. injection Es as _ <-. cbn in Et. destruct (date_transform st1 d); cbn in Et; [injection Et as <-|]; discriminate. }
    all: apply keep_ok in Es; destruct Es as (c1 & _ & _ & ->); cbn [M_clean.transform_step] in Et; destruct (_ : res column) in Et; cbn in Et; [injection Et as <-|]; discriminate.
  Qed.

  Lemma pre_step_pair : forall all s rest n c d outs st outs', OnWay all (s :: rest) n c d -> pre s n c = Fitted outs st -> apply_st st n d = Ok outs' ->
    length outs' = length outs /\ forall c' d', In (c', d') (combine (map snd outs) (map snd outs')) -> OnWay all rest n c' d'.
  Proof using Type. clear.
    intros all s rest n c d outs st outs' (c0 & d0 & p & l & W & Wd & Ep & Ch & Ch') P A. apply pre_fitted in P. destruct P as [(c1 & st' & -> & -> & Es)|(st' & -> & -> & Es)].
    - cbn [M_tabular.apply] in A. destruct (transform_step st' d) as [o|] eqn:Et; [|discriminate]. cbn [bind] in A. pose proof (keep_step s c c1 st' d o Es Et) as Ne. destruct o as [d1|]; [|congruence]. injection A as <-. split; [reflexivity|].
      intros c' d' [I|[]]. injection I as <- <-. exists c0, d0, (p ++ [s]), (l ++ [Some st']). split; [exact W|]. split; [exact Wd|]. split; [rewrite <- app_assoc; exact Ep|]. split.
      + eapply fchain_snoc; [exact Ch|]. right. exists st'. split; [reflexivity|exact Es].
      + eapply tchain_snoc; [exact Ch'|]. right. exists st'. split; [reflexivity|exact Et].
    - apply drop_step in Es. subst st'. cbn in A. injection A as <-. split; [reflexivity|]. intros c' d' [].
  Qed.
  Lemma onway_skip : forall all s rest n m c d, OnWay all (s :: rest) n c d -> pre s n c = Rejected -> OnWay all rest m c d.
  Proof using Type. clear.
    intros all s rest n m c d (c0 & d0 & p & l & W & Wd & Ep & Ch & Ch') P. apply pre_rejected in P. exists c0, d0, (p ++ [s]), (l ++ [None]). split; [exact W|]. split; [exact Wd|]. split; [rewrite <- app_assoc; exact Ep|]. split.
    - eapply fchain_snoc; [exact Ch|]. left. split; [reflexivity|]. split; [exact P|reflexivity].
    - eapply tchain_snoc; [exact Ch'|]. left. split; reflexivity.
  Qed.

  Notation run_steps := (@M_tablevec.run_steps column state).
  Notation pre_steps := (map (fun s => @pre_step column state [] (pre s))).
  Lemma all_columns : forall (X : frame column), exists columns, expand (all_but []) X = Ok columns /\ forall n c, In (n, c) X -> In n columns.
  Proof using Type. clear. intros X. destruct (expand_all_but (C := column) [] X) as (columns & Ex & Hc). exists columns. split; [exact Ex|]. intros n c I. apply (proj2 (Hc _ I)). intros []. Qed.

  Lemma pre_run : forall lib draws all ss k done X fs X2, run_steps lib draws k (pre_steps ss) done X = Ok (fs, X2) -> NoDup (column_names X) ->
    FreshRun lib draws k (pre_steps ss) done X -> Forall (fun p => OnWay1 all ss (snd p)) X ->
    exists gs, fs = done ++ gs /\ NoDup (column_names X2) /\ Forall (fun p => OnWay1 all [] (snd p)) X2 /\
    forall Y Y2, Paired (OnWay all ss) X Y -> M_tablevec.transform_steps lib apply_st gs Y = Ok Y2 -> Paired (OnWay all []) X2 Y2.
  Proof using Type.
    intros lib draws all. induction ss as [|s ss IH]; intros k done X fs X2 Er ND FR HX; cbn [map M_tablevec.run_steps] in Er.
    - injection Er as <- <-. exists []. rewrite app_nil_r. split; [reflexivity|]. split; [exact ND|]. split; [exact HX|]. intros Y Y2 HP ET. injection ET as <-. exact HP.
    - destruct (oec_fit_transform _ _ _ _ _ _ _ X) as [[f X1]|] eqn:E1; [|discriminate]. cbn [bind] in Er. destruct FR as [F1 F2]. specialize (F2 f X1 E1).
      destruct (oec_fit_step lib _ _ _ _ X f X1 ND F1 E1) as (columns & Ex & ND1 & HS).
      destruct (all_columns X) as (columns' & Ex' & Hall). cbn [s_cols pre_step] in Ex. rewrite Ex' in Ex. injection Ex as <-.
      assert (HX1 : Forall (fun p => OnWay1 all ss (snd p)) X1).
      { apply Forall_forall. intros [m c'] I. cbn [snd]. rewrite Forall_forall in HX. destruct (HS m c' I) as [(_ & IX & U)|(_ & n & c & outs & st & IX & _ & Et & Io)].
        - destruct U as [U|[_ U]]; [exfalso; apply U; exact (Hall _ _ IX)|]. cbn [s_ft pre_step] in U. apply pre_rejected in U. destruct (HX _ IX) as (c0 & p & l & W & Ep & Ch).
          exists c0, (p ++ [s]), (l ++ [None]). split; [exact W|]. split; [rewrite <- app_assoc; exact Ep|]. eapply fchain_snoc; [exact Ch|]. left. auto.
        - cbn [s_ft pre_step] in Et. apply pre_fitted in Et. destruct (HX _ IX) as (c0 & p & l & W & Ep & Ch). destruct Et as [(c1 & st' & -> & -> & Es)|(st' & -> & _)]; [|destruct Io]. destruct Io as [<-|[]].
          exists c0, (p ++ [s]), (l ++ [Some st']). split; [exact W|]. split; [rewrite <- app_assoc; exact Ep|]. eapply fchain_snoc; [exact Ch|]. right. exists st'. auto. }
      destruct (IH (S k) (done ++ [f]) X1 fs X2 Er ND1 F2 HX1) as (gs & -> & ND2 & HX2 & HT). exists (f :: gs). rewrite <- app_assoc. split; [reflexivity|]. split; [exact ND2|]. split; [exact HX2|].
      intros Y Y2 HP ET. unfold M_tablevec.transform_steps in ET. cbn [foldM] in ET. destruct (oec_transform lib apply_st false f Y) as [Y1|] eqn:EY; [|discriminate]. cbn [bind] in ET. apply (HT Y1 Y2); [|exact ET].
      pose proof (oec_pair_step apply_st lib _ _ _ _ X f X1 columns' (OnWay all (s :: ss)) Y Y1 ND F1 E1 Ex' HP EY) as HP1.
      assert (HL : forall n c d outs st outs', In (n, c) X -> OnWay all (s :: ss) n c d -> In n columns' -> pre s n c = Fitted outs st -> apply_st st n d = Ok outs' -> length outs' = length outs).
      { intros n c d outs st outs' _ Ow _ Ep Ea. exact (proj1 (pre_step_pair all s ss n c d outs st outs' Ow Ep Ea)). }
      specialize (HP1 HL). revert HP1. apply Forall2_impl_in. intros [m c'] [m' d'] _ _ [Em HR]. split; [exact Em|]. cbn [fst snd] in *. destruct HR as [(_ & IX & U & Ow)|(_ & n & c & d & outs & st & outs' & IX & _ & Ow & Ep & Ea & Io)].
      + destruct U as [U|[_ U]]; [exfalso; apply U; exact (Hall _ _ IX)|]. exact (onway_skip all s ss m m c' d' Ow U).
      + exact (proj2 (pre_step_pair all s ss n c d outs st outs' Ow Ep Ea) c' d' Io).
  Qed.

  (** ** Encoders *)
  (** the outputs of the steps so far, and the other columns *)
  Definition Stage (done : list (M_oncols.fitted state)) (Out Raw : column -> column -> Prop) (n : string) (c d : column) : Prop :=
    (created_in done n = true -> Out c d) /\ (created_in done n = false -> Raw c d).
  Definition Stage1 (done : list (M_oncols.fitted state)) (Out Raw : column -> Prop) (n : string) (c : column) : Prop :=
    (created_in done n = true -> Out c) /\ (created_in done n = false -> Raw c).
  Lemma encoder_columns : forall (sel : column -> bool) (t : transformer column state) done (X : frame column), NoDup (column_names X) ->
    exists columns, expand (s_cols (encoder_step [] sel t) done) X = Ok columns /\ forall n c, In (n, c) X -> (In n columns <-> sel c = true /\ created_in done n = false).
  Proof using Type. clear.
    intros sel t done X ND. destruct (expand_spec (s_cols (encoder_step [] sel t) done) X) as (sl & Ex & Fi).
    - intros [l X0]. discriminate.
    - intros n c _. cbn. eauto 10.
    - exists (column_names sl). split; [exact Ex|]. intros n c I. split.
      + intros J. apply in_map_iff in J. destruct J as ([n' c'] & Eq & J). cbn in Eq. subst n'. apply (FilterOf_incl _ _ _ Fi) in J. destruct J as [Jf J].
        assert (c' = c). { apply (proj2 (dget_some_iff X n c' ND)) in Jf. apply (proj2 (dget_some_iff X n c ND)) in I. congruence. } subst c'.
        cbn in J. destruct J as (_ & J2 & J3). split; [congruence|]. unfold created_in. destruct (existsb _ done); [congruence|reflexivity].
      + intros [J1 J2]. apply in_map_iff. exists (n, c). split; [reflexivity|]. apply (FilterOf_incl _ _ _ Fi). split; [exact I|]. cbn. split; [tauto|]. split; [congruence|]. unfold created_in in J2. rewrite J2. discriminate.
  Qed.
  Lemma created_snoc : forall done (f : M_oncols.fitted state) n, created_in (done ++ [f]) n = created_in done n || mem n (created_outputs_ f).
  Proof using Type. clear. intros done f n. unfold created_in. rewrite existsb_app. cbn. rewrite orb_false_r. reflexivity. Qed.

  Lemma encoder_step_ok : forall lib draw (sel : column -> bool) (t : transformer column state) done (X : frame column) f X1 (Out Raw Raw' : column -> Prop),
    NoDup (column_names X) -> Fresh1 draw t (s_cols (encoder_step [] sel t) done) X ->
    oec_fit_transform lib draw t (s_cols (encoder_step [] sel t) done) false false (fun n => n) X = Ok (f, X1) ->
    Forall (fun p => Stage1 done Out Raw (fst p) (snd p)) X ->
    (forall n c outs st, Raw c -> sel c = true -> t n c = Fitted outs st -> Forall Out (map snd outs)) -> (forall c, Raw c -> sel c = false -> Raw' c) ->
    NoDup (column_names X1) /\ Forall (fun p => Stage1 (done ++ [f]) Out Raw' (fst p) (snd p)) X1.
  Proof using Type. clear.
    intros lib draw sel t done X f X1 Out Raw Raw' ND Fr E1 HX HO HR.
    destruct (oec_fit_step lib draw t _ _ X f X1 ND Fr E1) as (columns & Ex & ND1 & HS). destruct (encoder_columns sel t done X ND) as (columns' & Ex' & Hc). rewrite Ex' in Ex. injection Ex as ->.
    split; [exact ND1|]. apply Forall_forall. intros [m c'] I. rewrite Forall_forall in HX. unfold Stage1. cbn [fst snd]. rewrite created_snoc.
    destruct (HS m c' I) as [(Nc & IX & U)|(Ic & n & c & outs & st & IX & In' & Et & Io)].
    - destruct (HX _ IX) as [A1 A2]. cbn in A1, A2. destruct U as [U|[U _]]; [|discriminate]. apply mem_false in Nc. rewrite Nc, orb_false_r. split; [exact A1|]. intros Cr. apply HR; [exact (A2 Cr)|].
      destruct (sel c') eqn:Es; [|reflexivity]. exfalso. apply U. apply (Hc m c' IX). auto.
    - apply mem_true in Ic. rewrite Ic, orb_true_r. split; [|discriminate]. intros _. apply (Hc n c IX) in In'. destruct In' as [Es Cr]. destruct (HX _ IX) as [_ A2]. cbn in A2.
      pose proof (HO n c outs st (A2 Cr) Es Et) as Fo. rewrite Forall_forall in Fo. exact (Fo c' Io).
  Qed.
  Lemma encoder_step_pair : forall lib draw (sel : column -> bool) (t : transformer column state) done (X : frame column) f X1 (Out Raw Raw' : column -> column -> Prop) Y Y1,
    NoDup (column_names X) -> Fresh1 draw t (s_cols (encoder_step [] sel t) done) X ->
    oec_fit_transform lib draw t (s_cols (encoder_step [] sel t) done) false false (fun n => n) X = Ok (f, X1) ->
    Paired (Stage done Out Raw) X Y -> oec_transform lib apply_st false f Y = Ok Y1 ->
    (forall n c d outs st outs', Raw c d -> sel c = true -> t n c = Fitted outs st -> apply_st st n d = Ok outs' -> Forall2 Out (map snd outs) (map snd outs')) -> (forall c d, Raw c d -> sel c = false -> Raw' c d) ->
    Paired (Stage (done ++ [f]) Out Raw') X1 Y1.
  Proof using Type. clear.
    intros lib draw sel t done X f X1 Out Raw Raw' Y Y1 ND Fr E1 HP EY HO HR.
    destruct (encoder_columns sel t done X ND) as (columns & Ex & Hc).
    pose proof (oec_pair_step apply_st lib draw t _ _ X f X1 columns (Stage done Out Raw) Y Y1 ND Fr E1 Ex HP EY) as HP1.
    assert (HF : forall n c d outs st outs', In (n, c) X -> Stage done Out Raw n c d -> In n columns -> t n c = Fitted outs st -> apply_st st n d = Ok outs' -> Forall2 Out (map snd outs) (map snd outs')).
    { intros n c d outs st outs' IX [_ A2] In' Et Ea. apply (Hc n c IX) in In'. destruct In' as [Es Cr]. exact (HO n c d outs st outs' (A2 Cr) Es Et Ea). }
    assert (HL : forall n c d outs st outs', In (n, c) X -> Stage done Out Raw n c d -> In n columns -> t n c = Fitted outs st -> apply_st st n d = Ok outs' -> length outs' = length outs).
    { intros n c d outs st outs' IX St In' Et Ea. pose proof (Forall2_len _ _ _ (HF n c d outs st outs' IX St In' Et Ea)) as Lf. rewrite !map_length in Lf. symmetry. exact Lf. }
    specialize (HP1 HL). revert HP1. apply Forall2_impl_in. intros [m c'] [m' d'] _ _ [Em H0']. split; [exact Em|]. cbn [fst snd] in *. unfold Stage. rewrite created_snoc.
    destruct H0' as [(Nc & IX & U & [A1 A2])|(Ic & n & c & d & outs & st & outs' & IX & In' & St & Et & Ea & Io)].
    - destruct U as [U|[U _]]; [|discriminate]. apply mem_false in Nc. rewrite Nc, orb_false_r. split; [exact A1|]. intros Cr. apply HR; [exact (A2 Cr)|].
      destruct (sel c') eqn:Es; [|reflexivity]. exfalso. apply U. apply (Hc m c' IX). auto.
    - apply mem_true in Ic. rewrite Ic, orb_true_r. split; [|discriminate]. intros _. pose proof (HF n c d outs st outs' IX St In' Et Ea) as Fo. clear - Fo Io.
      induction Fo as [|x y l l' Ho Fo IH]; [destruct Io|]. destruct Io as [Io|Io]; [injection Io as -> ->; exact Ho|exact (IH Io)].
  Qed.
End Kinds.
