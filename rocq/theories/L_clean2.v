(** Specification and lemmas for C93-C99: tables. *)
From Coq Require Import QArith Permutation.
From Verif Require Import Base M_nullstr M_dropnulls M_todt L_nullstr L_todt M_clean L_clean1.
Open Scope string_scope.
Open Scope list_scope.
Open Scope nat_scope.
Set Default Proof Using "Type".

Section Tables.
  Context {N TZ Name F O K : Type} `{EqD N} `{EqD F} `{EqD O}.
  Notation cell := (cell N O).
  Notation dtype := (dtype N TZ O K).
  Notation column := (column N TZ O K).
  Notation dcell := (@M_todt.cell text cell).
  Variable is_space : nat -> bool.
  Variable fl : Q -> Q.
  Variable UTC : TZ.
  Variable tz_name : TZ -> option Name.
  Variable zone_of : Name -> option TZ.
  Variable parse : lib -> F -> dcell -> option Z.
  Variable infer : list dcell -> dcell -> option Z.
  Variable has_offset : F -> bool.
  Variable default_resolution : lib -> Z.
  Variable guess : bool -> text -> option F.
  Variable pick : nat -> nat -> list nat.
  Variable round : N -> N.
  Variable of_bool : bool -> N.
  Variable num : lib -> dtype -> cell -> option (option N).
  Variable ticks : dtype -> Z -> N.
  Variable NaT_value : N.
  Variable castable castable_str nested : dtype -> bool.
  Variable str : lib -> dtype -> cell -> text.
  Variable empty_is_string : bool.
  Variable hashable : cell -> bool.
  Variable sort_cats : list cell -> list cell.

  Notation fit_step := (fit_step is_space fl UTC parse infer has_offset default_resolution guess pick round of_bool num ticks NaT_value castable castable_str nested str empty_is_string sort_cats).
  Notation transform_step := (transform_step is_space UTC tz_name zone_of parse infer has_offset default_resolution round of_bool num ticks NaT_value castable castable_str nested str empty_is_string hashable sort_cats).
  Notation to_string := (to_string castable_str nested str empty_is_string).
  Notation to_float32 := (to_float32 round of_bool num ticks NaT_value castable).
  Notation with_string_categories := (with_string_categories str empty_is_string sort_cats).
  Notation to_categorical := (to_categorical castable_str nested str empty_is_string hashable sort_cats).
  Notation cat_str := (@cat_str N TZ O K str).
  Notation fitted := (fitted TZ F).
  Notation table := (table N TZ O K).
  Notation fit_columns := (fit_columns is_space fl UTC parse infer has_offset default_resolution guess pick round of_bool num ticks NaT_value castable castable_str nested str empty_is_string sort_cats).
  Notation fit_steps := (fit_steps is_space fl UTC parse infer has_offset default_resolution guess pick round of_bool num ticks NaT_value castable castable_str nested str empty_is_string sort_cats).
  Notation transform_columns := (transform_columns is_space UTC tz_name zone_of parse infer has_offset default_resolution round of_bool num ticks NaT_value castable castable_str nested str empty_is_string hashable sort_cats).
  Notation transform_steps := (transform_steps is_space UTC tz_name zone_of parse infer has_offset default_resolution round of_bool num ticks NaT_value castable castable_str nested str empty_is_string hashable sort_cats).

  Notation names := (map fst).

  (** one column through the steps of a fit: the steps that accept it, and the result *)
  Inductive FChain : list step -> column -> list (option fitted) -> column -> Prop :=
  | FChain_nil : forall c, FChain [] c [] c
  | FChain_no : forall s ss c l c', fit_step s c = Err RejectColumn -> FChain ss c l c' -> FChain (s :: ss) c (None :: l) c'
  | FChain_yes : forall s ss c st c1 l c', fit_step s c = Ok (Some c1, st) -> FChain ss c1 l c' -> FChain (s :: ss) c (Some st :: l) c'.
  (** one column through fitted steps *)
  Inductive TChain : list (option fitted) -> column -> column -> Prop :=
  | TChain_nil : forall d, TChain [] d d
  | TChain_no : forall l d d', TChain l d d' -> TChain (None :: l) d d'
  | TChain_yes : forall l st d d1 d', transform_step st d = Ok (Some d1) -> TChain l d1 d' -> TChain (Some st :: l) d d'.
  (** applying a list of fitted steps, until the column is dropped *)
  Fixpoint run (l : list fitted) (d : column) : res (option column) :=
    match l with
    | [] => Ok (Some d)
    | st :: l => match transform_step st d with Ok (Some d') => run l d' | Ok None => Ok None | Err e => Err e end
    end.
  Definition steps_for (n : string) (tss : list (dict string fitted)) : list fitted :=
    flat_map (fun ts => match dget n ts with Some st => [st] | None => [] end) tss.

  Lemma dget_none : forall (ts : dict string fitted) n, ~ In n (names ts) -> dget n ts = None.
  Proof using Type. clear.
    induction ts as [|[m st] ts IH]; intros n I; [reflexivity|]. cbn in *. destruct (eqd n m) as [->|_]; [exfalso; apply I; left; reflexivity|]. apply IH. tauto.
  Qed.

  Lemma fit_cols_spec : forall s X ts Y, fit_columns s X = Ok (ts, Y) -> NoDup (names X) ->
    (forall n, In n (names ts) -> In n (names X)) /\ (forall n, In n (names Y) -> In n (names X)) /\ NoDup (names Y) /\ NoDup (names ts) /\
    forall n c, In (n, c) X ->
      (fit_step s c = Err RejectColumn /\ dget n ts = None /\ In (n, c) Y) \/
      (exists st, fit_step s c = Ok (None, st) /\ dget n ts = Some st /\ ~ In n (names Y)) \/
      (exists st c', fit_step s c = Ok (Some c', st) /\ dget n ts = Some st /\ In (n, c') Y).
  Proof using Type. clear.
    intros s. induction X as [|[n c] X IH]; intros ts Y E ND.
    - cbn in E. injection E as <- <-. split; [intros ? []|]. split; [intros ? []|]. split; [constructor|]. split; [constructor|]. intros ? ? [].
    - cbn [M_clean.fit_columns] in E. cbn in ND. inversion ND as [|? ? NI ND']; subst. destruct (attempt (fit_step s c)) as [o|] eqn:Ea; [|discriminate]. cbn [bind] in E.
      destruct (fit_columns s X) as [[ts1 Y1]|] eqn:Ef; [|discriminate]. cbn [bind fst snd] in E. destruct (IH ts1 Y1 eq_refl ND') as (I1 & I2 & N1 & N2 & A).
      assert (G1 : ~ In n (names ts1)) by (intros I; apply NI; apply I1; exact I). assert (G2 : ~ In n (names Y1)) by (intros I; apply NI; apply I2; exact I).
      destruct o as [[[c1|] st]|]; injection E as <- <-.
      + assert (Es : fit_step s c = Ok (Some c1, st)). { unfold attempt in Ea. destruct (fit_step s c) as [[o st']|[]]; try discriminate. congruence. }
        split; [cbn; intros m [<-|I]; [left; reflexivity|right; apply I1; exact I]|]. split; [cbn; intros m [<-|I]; [left; reflexivity|right; apply I2; exact I]|].
        split; [cbn; constructor; assumption|]. split; [cbn; constructor; assumption|]. intros m d [E|I].
        * injection E as <- <-. right. right. exists st, c1. split; [exact Es|]. cbn. destruct (eqd n n); [|congruence]. split; [reflexivity|]. left. reflexivity.
        * assert (m <> n) by (intros ->; apply NI; apply (in_map fst) in I; exact I). cbn [dget]. destruct (eqd m n); [congruence|].
          destruct (A m d I) as [(A1 & A2 & A3)|[(st' & A1 & A2 & A3)|(st' & c' & A1 & A2 & A3)]]; [left|right; left|right; right]; [repeat split; try assumption; right; assumption| |].
          -- exists st'. repeat split; try assumption. intros [Em|Im]; [cbn in Em; congruence|exact (A3 Im)].
          -- exists st', c'. repeat split; try assumption. right; assumption.
      + assert (Es : fit_step s c = Ok (None, st)). { unfold attempt in Ea. destruct (fit_step s c) as [[o st']|[]]; try discriminate. congruence. }
        split; [cbn; intros m [<-|I]; [left; reflexivity|right; apply I1; exact I]|]. split; [cbn; intros m I; right; apply I2; exact I|].
        split; [assumption|]. split; [cbn; constructor; assumption|]. intros m d [E|I].
        * injection E as <- <-. right. left. exists st. split; [exact Es|]. cbn. destruct (eqd n n); [|congruence]. split; [reflexivity|exact G2].
        * assert (m <> n) by (intros ->; apply NI; apply (in_map fst) in I; exact I). cbn [dget]. destruct (eqd m n); [congruence|]. exact (A m d I).
      + assert (Es : fit_step s c = Err RejectColumn). { unfold attempt in Ea. destruct (fit_step s c) as [[o st']|[]]; try discriminate. reflexivity. }
        split; [cbn; intros m I; right; apply I1; exact I|]. split; [cbn; intros m [<-|I]; [left; reflexivity|right; apply I2; exact I]|].
        split; [cbn; constructor; assumption|]. split; [assumption|]. intros m d [E|I].
        * injection E as <- <-. left. split; [exact Es|]. split; [apply dget_none; exact G1|]. left. reflexivity.
        * assert (m <> n) by (intros ->; apply NI; apply (in_map fst) in I; exact I).
          destruct (A m d I) as [(A1 & A2 & A3)|[(st' & A1 & A2 & A3)|(st' & c' & A1 & A2 & A3)]]; [left|right; left|right; right]; [repeat split; try assumption; right; assumption| |].
          -- exists st'. repeat split; try assumption. intros [Em|Im]; [cbn in Em; congruence|exact (A3 Im)].
          -- exists st', c'. repeat split; try assumption. right; assumption.
  Qed.

  Lemma transform_cols_spec : forall ts X Y, transform_columns ts X = Ok Y -> NoDup (names X) ->
    (forall n, In n (names Y) -> In n (names X)) /\ NoDup (names Y) /\
    forall n d, In (n, d) X ->
      (dget n ts = None /\ In (n, d) Y) \/
      (exists st, dget n ts = Some st /\ ((transform_step st d = Ok None /\ ~ In n (names Y)) \/ exists d', transform_step st d = Ok (Some d') /\ In (n, d') Y)).
  Proof.
    intros ts. induction X as [|[n c] X IH]; intros Y E ND.
    - cbn in E. injection E as <-. split; [intros ? []|]. split; [constructor|]. intros ? ? [].
    - cbn [M_clean.transform_columns] in E. cbn in ND. inversion ND as [|? ? NI ND']; subst.
      assert (G : forall Y1 : table, (forall n, In n (names Y1) -> In n (names X)) -> ~ In n (names Y1)) by (intros Y1 I I'; apply NI; apply I; exact I').
      destruct (dget n ts) as [st|] eqn:Eg.
      + destruct (transform_step st c) as [o|] eqn:Et; [|discriminate]. destruct (transform_columns ts X) as [Y1|] eqn:Ef; [|discriminate]. cbn [bind] in E. destruct (IH Y1 eq_refl ND') as (I2 & N1 & A). specialize (G Y1 I2).
        injection E as <-. destruct o as [c1|].
        * split; [cbn; intros m [<-|I]; [left; reflexivity|right; apply I2; exact I]|]. split; [cbn; constructor; assumption|]. intros m d [E|I].
          -- injection E as <- <-. right. exists st. split; [exact Eg|]. right. exists c1. split; [exact Et|left; reflexivity].
          -- assert (m <> n) by (intros ->; apply NI; apply (in_map fst) in I; exact I). destruct (A m d I) as [(A1 & A2)|(st' & A1 & [(A2 & A3)|(d' & A2 & A3)])]; [left; split; [assumption|right; assumption]| |]; right; exists st'; (split; [assumption|]).
             ++ left. split; [assumption|]. intros [Em|Im]; [cbn in Em; congruence|exact (A3 Im)].
             ++ right. exists d'. split; [assumption|right; assumption].
        * split; [cbn; intros m I; right; apply I2; exact I|]. split; [assumption|]. intros m d [E|I].
          -- injection E as <- <-. right. exists st. split; [exact Eg|]. left. split; [exact Et|exact G].
          -- exact (A m d I).
      + destruct (transform_columns ts X) as [Y1|] eqn:Ef; [|discriminate]. cbn [bind] in E. destruct (IH Y1 eq_refl ND') as (I2 & N1 & A). specialize (G Y1 I2). injection E as <-.
        split; [cbn; intros m [<-|I]; [left; reflexivity|right; apply I2; exact I]|]. split; [cbn; constructor; assumption|]. intros m d [E|I].
        * injection E as <- <-. left. split; [exact Eg|left; reflexivity].
        * assert (m <> n) by (intros ->; apply NI; apply (in_map fst) in I; exact I). destruct (A m d I) as [(A1 & A2)|(st' & A1 & [(A2 & A3)|(d' & A2 & A3)])]; [left; split; [assumption|right; assumption]| |]; right; exists st'; (split; [assumption|]).
          -- left. split; [assumption|]. intros [Em|Im]; [cbn in Em; congruence|exact (A3 Im)].
          -- right. exists d'. split; [assumption|right; assumption].
  Qed.
  Lemma transform_cols_total : forall ts X, (forall n d st, In (n, d) X -> dget n ts = Some st -> exists o, transform_step st d = Ok o) -> exists Y, transform_columns ts X = Ok Y.
  Proof.
    intros ts. induction X as [|[n c] X IH]; intros A; [eexists; reflexivity|]. destruct IH as (Y & E); [intros; eapply A; [right; eassumption|assumption]|]. cbn [M_clean.transform_columns].
    destruct (dget n ts) as [st|] eqn:Eg; [|rewrite E; eexists; reflexivity]. destruct (A n c st (or_introl eq_refl) Eg) as (o & Eo). rewrite Eo, E. eexists; reflexivity.
  Qed.

  (** a table through all steps *)
  Lemma steps_for_cons : forall n ts tss, steps_for n (ts :: tss) = match dget n ts with Some st => st :: steps_for n tss | None => steps_for n tss end.
  Proof. intros. unfold steps_for. cbn. destruct (dget n ts); reflexivity. Qed.
  Lemma transform_steps_spec : forall tss X Y, transform_steps tss X = Ok Y -> NoDup (names X) ->
    (forall n, In n (names Y) -> In n (names X)) /\ NoDup (names Y) /\
    forall n d, In (n, d) X -> (run (steps_for n tss) d = Ok None /\ ~ In n (names Y)) \/ exists d', run (steps_for n tss) d = Ok (Some d') /\ In (n, d') Y.
  Proof.
    induction tss as [|ts tss IH]; intros X Y E ND.
    - cbn in E. injection E as <-. repeat split; [intros; assumption|exact ND|]. intros n d I. right. exists d. split; [reflexivity|exact I].
    - cbn [M_clean.transform_steps] in E. destruct (transform_columns ts X) as [X1|] eqn:E1; [|discriminate]. cbn [bind] in E.
      destruct (transform_cols_spec ts X X1 E1 ND) as (I1 & N1 & A1). destruct (IH X1 Y E N1) as (I2 & N2 & A2).
      split; [intros n I; apply I1, I2; exact I|]. split; [exact N2|]. intros n d I. rewrite steps_for_cons. destruct (A1 n d I) as [(G & I')|(st & G & [(Et & NI)|(d1 & Et & I')])]; rewrite G.
      + exact (A2 n d I').
      + left. cbn. rewrite Et. split; [reflexivity|]. intros I'. apply NI, I2. exact I'.
      + cbn. rewrite Et. exact (A2 n d1 I').
  Qed.
  Lemma transform_steps_total : forall tss X, NoDup (names X) -> (forall n d, In (n, d) X -> exists o, run (steps_for n tss) d = Ok o) -> exists Y, transform_steps tss X = Ok Y.
  Proof.
    induction tss as [|ts tss IH]; intros X ND A; [eexists; reflexivity|]. cbn [M_clean.transform_steps].
    destruct (transform_cols_total ts X) as (X1 & E1).
    { intros n d st I G. destruct (A n d I) as (o & Eo). rewrite steps_for_cons, G in Eo. cbn in Eo. destruct (transform_step st d) as [o'|]; [eexists; reflexivity|discriminate]. }
    rewrite E1. cbn [bind]. destruct (transform_cols_spec ts X X1 E1 ND) as (I1 & N1 & A1). apply IH; [exact N1|]. intros n d1 I.
    assert (J : In n (names X)) by (apply I1; apply (in_map fst) in I; exact I). apply in_map_iff in J. destruct J as ([n0 d] & E0 & J). cbn in E0. subst n0.
    assert (U : forall a, In (n, a) X1 -> a = d1). { intros a Ia. clear - N1 I Ia. induction X1 as [|[m x] X1 IH]; [destruct I|]. cbn in N1. inversion N1 as [|? ? NI N1']; subst.
      destruct I as [E|I], Ia as [Ea|Ia]; [congruence| | |exact (IH N1' I Ia)].
      - injection E as -> ->. exfalso. apply NI. apply (in_map fst) in Ia. exact Ia.
      - injection Ea as -> ->. exfalso. apply NI. apply (in_map fst) in I. exact I. }
    destruct (A n d J) as (o & Eo). rewrite steps_for_cons in Eo. destruct (A1 n d J) as [(G & I')|(st & G & [(Et & NI)|(d' & Et & I')])]; rewrite G in Eo.
    - rewrite <- (U d I'). exists o. exact Eo.
    - exfalso. apply NI. apply (in_map fst) in I. exact I.
    - cbn in Eo. rewrite Et in Eo. rewrite <- (U d' I'). exists o. exact Eo.
  Qed.
  Lemma fit_steps_spec : forall ss X tss Y, fit_steps ss X = Ok (tss, Y) -> NoDup (names X) ->
    (forall n, In n (names Y) -> In n (names X)) /\ NoDup (names Y) /\ Forall (fun ts => NoDup (names ts) /\ forall n, In n (names ts) -> In n (names X)) tss /\
    forall n c, In (n, c) X -> ~ In n (names Y) \/ exists c', In (n, c') Y /\ FChain ss c (map (dget n) tss) c'.
  Proof using Type. clear.
    induction ss as [|s ss IH]; intros X tss Y E ND.
    - cbn in E. injection E as <- <-. repeat split; [intros; assumption|exact ND|constructor|]. intros n c I. right. exists c. split; [exact I|constructor].
    - cbn [M_clean.fit_steps] in E. destruct (fit_columns s X) as [[ts X1]|] eqn:E1; [|discriminate]. cbn [bind fst snd] in E. destruct (fit_steps ss X1) as [[tss1 Y1]|] eqn:E2; [|discriminate]. cbn [bind fst snd] in E. injection E as <- <-.
      destruct (fit_cols_spec s X ts X1 E1 ND) as (I0 & I1 & N1 & N0 & A1). destruct (IH X1 tss1 Y1 E2 N1) as (I2 & N2 & Fs & A2).
      split; [intros n I; apply I1, I2; exact I|]. split; [exact N2|]. split.
      { constructor; [split; [exact N0|exact I0]|]. eapply Forall_impl; [|exact Fs]. cbn. intros ts' [G1 G2]. split; [exact G1|]. intros n I. apply I1, G2. exact I. }
      intros n c I. destruct (A1 n c I) as [(Es & G & I')|[(st & Es & G & NI)|(st & c1 & Es & G & I')]].
      + destruct (A2 n c I') as [NI|(c' & J & Ch)]; [left; exact NI|]. right. exists c'. split; [exact J|]. cbn [map]. rewrite G. apply FChain_no; assumption.
      + left. intros J. apply NI, I2. exact J.
      + destruct (A2 n c1 I') as [NI|(c' & J & Ch)]; [left; exact NI|]. right. exists c'. split; [exact J|]. cbn [map]. rewrite G. eapply FChain_yes; eassumption.
  Qed.
  Lemma in_unique : forall A (X : list (string * A)) n a b, NoDup (names X) -> In (n, a) X -> In (n, b) X -> a = b.
  Proof.
    intros A. induction X as [|[m x] X IH]; intros n a b N1 I Ia; [destruct I|]. cbn in N1. inversion N1 as [|? ? NI N1']; subst.
    destruct I as [E|I], Ia as [Ea|Ia]; [congruence| | |exact (IH n a b N1' I Ia)].
    - injection E as -> ->. exfalso. apply NI. apply (in_map fst) in Ia. exact Ia.
    - injection Ea as -> ->. exfalso. apply NI. apply (in_map fst) in I. exact I.
  Qed.
  Lemma fit_steps_out : forall ss X tss Y n c', fit_steps ss X = Ok (tss, Y) -> NoDup (names X) -> In (n, c') Y -> exists c, In (n, c) X /\ FChain ss c (map (dget n) tss) c'.
  Proof using Type. clear.
    intros ss X tss Y n c' E ND I. destruct (fit_steps_spec ss X tss Y E ND) as (I1 & N1 & _ & A). pose proof (in_map fst _ _ I) as J. apply I1 in J. cbn in J. apply in_map_iff in J. destruct J as ([n0 c] & E0 & J). cbn in E0. subst n0.
    exists c. split; [exact J|]. destruct (A n c J) as [NI|(c1 & I' & Ch)]; [exfalso; apply NI; apply (in_map fst) in I; exact I|]. rewrite (in_unique _ Y n c' c1 N1 I I'). exact Ch.
  Qed.
  Lemma run_chain : forall n tss d d', run (steps_for n tss) d = Ok (Some d') -> TChain (map (dget n) tss) d d'.
  Proof.
    induction tss as [|ts tss IH]; intros d d' E; [cbn in E; injection E as <-; constructor|]. rewrite steps_for_cons in E. cbn [map]. destruct (dget n ts) as [st|]; [|constructor; apply IH; exact E].
    cbn in E. destruct (transform_step st d) as [[d1|]|] eqn:Et; try discriminate. econstructor; [exact Et|]. apply IH. exact E.
  Qed.
  Lemma transform_steps_out : forall tss X Y n d', transform_steps tss X = Ok Y -> NoDup (names X) -> In (n, d') Y -> exists d, In (n, d) X /\ TChain (map (dget n) tss) d d'.
  Proof.
    intros tss X Y n d' E ND I. destruct (transform_steps_spec tss X Y E ND) as (I1 & N1 & A). pose proof (in_map fst _ _ I) as J. apply I1 in J. cbn in J. apply in_map_iff in J. destruct J as ([n0 d] & E0 & J). cbn in E0. subst n0.
    exists d. split; [exact J|]. destruct (A n d J) as [(_ & NI)|(d1 & Er & I')]; [exfalso; apply NI; apply (in_map fst) in I; exact I|]. rewrite (in_unique _ Y n d' d1 N1 I I'). apply run_chain. exact Er.
  Qed.

  (** ** The description of the steps *)
  Lemma dget_dset : forall A (d : dict string A) n m v, dget m (dset n v d) = if eqd m n then Some v else dget m d.
  Proof.
    intros A. induction d as [|[k w] d IH]; intros n m v; cbn; [reflexivity|]. destruct (eqd n k) as [->|Nk]; cbn.
    - destruct (eqd m k); reflexivity.
    - rewrite IH. destruct (eqd m k) as [->|]; [|reflexivity]. destruct (eqd k n); [congruence|reflexivity].
  Qed.
  Lemma append_steps_ok : forall (ps : list (string * fitted)) d, NoDup (names ps) -> (forall n, In n (names ps) -> exists l, dget n d = Some l) ->
    exists d', append_steps ps d = Ok d' /\ forall n, dget n d' = match dget n ps with Some st => match dget n d with Some l => Some (l ++ [st]) | None => None end | None => dget n d end.
  Proof using Type. clear.
    induction ps as [|[m st] ps IH]; intros d ND A; [exists d; split; [reflexivity|]; reflexivity|]. cbn in ND. inversion ND as [|? ? NI ND']; subst.
    destruct (A m (or_introl eq_refl)) as (l & El). cbn [append_steps]. unfold append_step. cbn [fst snd]. rewrite El. cbn [bind].
    destruct (IH (dset m (l ++ [st]) d) ND') as (d' & E' & G).
    { intros n I. rewrite dget_dset. destruct (eqd n m); [eexists; reflexivity|]. apply A. right. exact I. }
    exists d'. split; [exact E'|]. intros n. rewrite G. cbn [dget]. rewrite dget_dset. destruct (eqd n m) as [->|].
    - rewrite (dget_none ps m NI). rewrite El. reflexivity.
    - destruct (dget n ps); reflexivity.
  Qed.
  Lemma store_steps_ok : forall tss d, Forall (fun ts => NoDup (names ts) /\ forall n, In n (names ts) -> exists l, dget n d = Some l) tss ->
    exists d', store_steps tss d = Ok d' /\ forall n, dget n d' = match dget n d with Some l => Some (l ++ steps_for n tss) | None => None end.
  Proof using Type. clear.
    induction tss as [|ts tss IH]; intros d Fs.
    - exists d. split; [reflexivity|]. intros n. cbn. destruct (dget n d); [rewrite app_nil_r|]; reflexivity.
    - inversion Fs as [|? ? [N1 A1] Fs']; subst. cbn [store_steps]. destruct (append_steps_ok ts d N1 A1) as (d1 & E1 & G1). rewrite E1. cbn [bind].
      destruct (IH d1) as (d2 & E2 & G2).
      { eapply Forall_impl; [|exact Fs']. cbn. intros ts' [N2 A2]. split; [exact N2|]. intros n I. rewrite G1. destruct (A2 n I) as (l & El). rewrite El. destruct (dget n ts); eexists; reflexivity. }
      exists d2. split; [exact E2|]. intros n. rewrite G2, G1, steps_for_cons. destruct (dget n ts) as [st|]; destruct (dget n d) as [l|]; try reflexivity. rewrite <- app_assoc. reflexivity.
  Qed.
  Lemma dget_empty : forall (ns : list string) n, dget n (map (fun n => (n, @nil fitted)) ns) = if in_dec eqd n ns then Some [] else None.
  Proof.
    induction ns as [|m ns IH]; intros n; [reflexivity|]. cbn [map dget in_dec]. destruct (eqd n m) as [->|Nm].
    - destruct (in_dec eqd m (m :: ns)) as [|X]; [reflexivity|]. exfalso. apply X. left. reflexivity.
    - rewrite IH. destruct (in_dec eqd n ns) as [I|I], (in_dec eqd n (m :: ns)) as [J|J]; try reflexivity; exfalso; [apply J; right; exact I|]. destruct J as [J|J]; [congruence|exact (I J)].
  Qed.
  Lemma described : forall ss X tss Y, fit_steps ss X = Ok (tss, Y) -> NoDup (names X) ->
    exists d, all_processing_steps (names X) tss = Ok d /\ (forall n, In n (names X) -> dget n d = Some (steps_for n tss)) /\ forall n, ~ In n (names X) -> dget n d = None.
  Proof using Type. clear.
    intros ss X tss Y E ND. destruct (fit_steps_spec ss X tss Y E ND) as (_ & _ & Fs & _). unfold all_processing_steps.
    destruct (store_steps_ok tss (map (fun n => (n, [])) (names X))) as (d & Ed & G).
    { eapply Forall_impl; [|exact Fs]. cbn. intros ts [N1 A1]. split; [exact N1|]. intros n I. rewrite dget_empty. apply A1 in I. destruct (in_dec eqd n (names X)); [eexists; reflexivity|contradiction]. }
    exists d. split; [exact Ed|]. split; intros n I; rewrite G, dget_empty; destruct (in_dec eqd n (names X)); try contradiction; reflexivity.
  Qed.

  (** ** The same data *)
  Lemma transform_cols_ext : forall ts ts' X, (forall n, In n (names X) -> dget n ts = dget n ts') -> transform_columns ts X = transform_columns ts' X.
  Proof.
    intros ts ts'. induction X as [|[n c] X IH]; intros A; [reflexivity|]. cbn [M_clean.transform_columns]. rewrite (A n (or_introl eq_refl)). rewrite IH by (intros m I; apply A; right; exact I). reflexivity.
  Qed.
  Lemma same_columns : forall s X ts Y, fit_columns s X = Ok (ts, Y) -> NoDup (names X) ->
    (forall n c o st, In (n, c) X -> fit_step s c = Ok (o, st) -> transform_step st c = Ok o) -> transform_columns ts X = Ok Y.
  Proof.
    intros s. induction X as [|[n c] X IH]; intros ts Y E ND A.
    - cbn in E. injection E as <- <-. reflexivity.
    - cbn [M_clean.fit_columns] in E. pose proof ND as ND0. cbn in ND. inversion ND as [|? ? NI ND']; subst. destruct (attempt (fit_step s c)) as [o|] eqn:Ea; [|discriminate]. cbn [bind] in E.
      destruct (fit_columns s X) as [[ts1 Y1]|] eqn:Ef; [|discriminate]. cbn [bind fst snd] in E.
      assert (R : transform_columns ts1 X = Ok Y1) by (apply (IH ts1 Y1 eq_refl ND'); intros; eapply A; [right; eassumption|assumption]).
      destruct (fit_cols_spec s X ts1 Y1 Ef ND') as (I1 & _).
      assert (G : forall st, transform_columns ((n, st) :: ts1) X = Ok Y1).
      { intros st. rewrite <- R. apply transform_cols_ext. intros m I. cbn. destruct (eqd m n) as [->|]; [contradiction|reflexivity]. }
      destruct o as [[[c1|] st]|]; injection E as <- <-; cbn [M_clean.transform_columns dget]; try (destruct (eqd n n); [|congruence]).
      + assert (Es : fit_step s c = Ok (Some c1, st)). { unfold attempt in Ea. destruct (fit_step s c) as [[o st']|[]]; try discriminate. congruence. }
        rewrite (A n c _ _ (or_introl eq_refl) Es). rewrite (G st). reflexivity.
      + assert (Es : fit_step s c = Ok (None, st)). { unfold attempt in Ea. destruct (fit_step s c) as [[o st']|[]]; try discriminate. congruence. }
        rewrite (A n c _ _ (or_introl eq_refl) Es). rewrite (G st). reflexivity.
      + rewrite (dget_none ts1 n) by (intros I; apply NI, I1; exact I). rewrite R. reflexivity.
  Qed.
  Lemma same_steps : forall (Good : column -> Prop) ss, (forall s c o st, In s ss -> Good c -> fit_step s c = Ok (o, st) -> transform_step st c = Ok o /\ forall c', o = Some c' -> Good c') ->
    forall X tss Y, fit_steps ss X = Ok (tss, Y) -> NoDup (names X) -> (forall n c, In (n, c) X -> Good c) -> transform_steps tss X = Ok Y.
  Proof.
    intros Good. induction ss as [|s ss IH]; intros A X tss Y E ND G.
    - cbn in E. injection E as <- <-. reflexivity.
    - cbn [M_clean.fit_steps] in E. destruct (fit_columns s X) as [[ts X1]|] eqn:E1; [|discriminate]. cbn [bind fst snd] in E. destruct (fit_steps ss X1) as [[tss1 Y1]|] eqn:E2; [|discriminate]. cbn [bind fst snd] in E. injection E as <- <-.
      cbn [M_clean.transform_steps]. rewrite (same_columns s X ts X1 E1 ND); [|intros n c o st I Es; apply (A s c o st (or_introl eq_refl) (G n c I) Es)]. cbn [bind].
      destruct (fit_cols_spec s X ts X1 E1 ND) as (I0 & I1 & N1 & N0 & A1). apply (IH (fun s' c o st Is => A s' c o st (or_intror Is)) X1 tss1 Y1 E2 N1).
      intros n c I. pose proof (in_map fst _ _ I) as J. apply I1 in J. cbn in J. apply in_map_iff in J. destruct J as ([n0 c0] & E0 & J). cbn in E0. subst n0.
      destruct (A1 n c0 J) as [(Es & G1 & I')|[(st & Es & G1 & NI)|(st & c1 & Es & G1 & I')]].
      + rewrite (in_unique _ X1 n c c0 N1 I I'). exact (G n c0 J).
      + exfalso. apply NI. apply (in_map fst) in I. exact I.
      + rewrite (in_unique _ X1 n c c1 N1 I I'). apply (A s c0 (Some c1) st (or_introl eq_refl) (G n c0 J) Es). reflexivity.
  Qed.
End Tables.
