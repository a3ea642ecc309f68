(** Lemmas for C118: what the last estimator of [tabular_learner] gets. *)
From Coq Require Import QArith Permutation.
From Verif Require Import Base M_str M_names L_names M_select L_select M_oncols L_oncols M_checkinput L_checkinput M_tablevec L_tablevec L_dict L_tablevec2 L_tablevec3 L_tablevec4 L_tabular1.
From Verif Require Import M_nullstr M_dropnulls M_todt L_nullstr L_todt M_clean L_clean1 L_clean2 L_clean3 M_tabular L_tabular2 L_tabular3.
Open Scope string_scope.
Open Scope list_scope.
Open Scope nat_scope.
Set Default Proof Using "Type".

Section Learner.
  Context {N TZ Name F O K : Type} `{EqD N} `{EqD F} `{EqD O}.
  Context {L E S : Type} `{EqD L}.
  Notation cell := (M_clean.cell N O).
  Notation dtype := (M_clean.dtype N TZ O K).
  Notation column := (M_clean.column N TZ O K).
  Notation dcell := (@M_todt.cell text cell).
  Variable is_space : nat -> bool.
  Variable fl : Q -> Q.
  Variable UTC : TZ.
  Variable tz_name : TZ -> option Name.
  Variable zone_of : Name -> option TZ.
  Variable parse : lib -> F -> dcell -> option Z.
  Variable infer : list dcell -> dcell -> option Z.
  Variable has_offset : F -> bool.
  Variable default_resolution : lib -> Z.
  Variable guess : bool -> text -> option F.
  Variable pick : nat -> nat -> list nat.
  Variable round : N -> N.
  Variable of_bool : bool -> N.
  Variable num : lib -> dtype -> cell -> option (option N).
  Variable ticks : dtype -> Z -> N.
  Variable NaT_value : N.
  Variable castable castable_str nested : dtype -> bool.
  Variable str : lib -> dtype -> cell -> text.
  Variable empty_is_string : bool.
  Variable hashable : cell -> bool.
  Variable sort_cats : list cell -> list cell.

  Notation fit_step := (M_clean.fit_step is_space fl UTC parse infer has_offset default_resolution guess pick round of_bool num ticks NaT_value castable castable_str nested str empty_is_string sort_cats).
  Notation transform_step := (M_clean.transform_step is_space UTC tz_name zone_of parse infer has_offset default_resolution round of_bool num ticks NaT_value castable castable_str nested str empty_is_string hashable sort_cats).
  Notation to_string := (M_clean.to_string castable_str nested str empty_is_string).
  Notation to_float32 := (M_clean.to_float32 round of_bool num ticks NaT_value castable).
  Notation with_string_categories := (M_clean.with_string_categories str empty_is_string sort_cats).
  Notation to_categorical := (M_clean.to_categorical castable_str nested str empty_is_string hashable sort_cats).
  Notation cfitted := (M_clean.fitted TZ F).

  Notation date_fit := (M_clean.date_fit UTC parse infer has_offset default_resolution guess pick).
  Notation date_transform := (M_clean.date_transform UTC tz_name zone_of parse infer has_offset default_resolution).
  Notation float_fit := (M_clean.float_fit round of_bool num ticks NaT_value castable).
  Notation FChain := (L_clean2.FChain is_space fl UTC parse infer has_offset default_resolution guess pick round of_bool num ticks NaT_value castable castable_str nested str empty_is_string sort_cats).
  Notation TChain := (L_clean2.TChain is_space UTC tz_name zone_of parse infer has_offset default_resolution round of_bool num ticks NaT_value castable castable_str nested str empty_is_string hashable sort_cats).
  Variable enc_fit : encoder -> string -> column -> outcome column E.
  Variable enc_transform : E -> string -> column -> res (list (string * column)).
  Variable low_card : column -> bool.
  Notation state := (state TZ F E).
  Notation pre := (@M_tabular.pre N TZ F O K _ _ _ E is_space fl UTC parse infer has_offset default_resolution guess pick round of_bool num ticks NaT_value castable castable_str nested str empty_is_string sort_cats).
  Notation encode := (encode castable_str nested str empty_is_string hashable sort_cats enc_fit).
  Notation apply_st := (M_tabular.apply is_space UTC tz_name zone_of parse infer has_offset default_resolution round of_bool num ticks NaT_value castable castable_str nested str empty_is_string hashable sort_cats enc_transform).
  Hypothesis newline_space : is_space newline = true.
  Hypothesis sort_perm : forall l, Permutation (sort_cats l) l.
  Hypothesis default_pos : forall l, (0 < default_resolution l)%Z.

  Notation Gives := (Gives enc_fit enc_transform).
  Notation SetUp := (SetUp enc_fit enc_transform).
  Notation Encoded1 v c := (Numeric c \/ (UsesCategories v /\ CleanCat c)).


  Variable name_str : L -> string.
  Variable sparse : column -> bool.
  Variable draw0 : nat -> string.
  Variable draws : nat -> nat -> string.
  Variable finite : N -> bool.
  Variable mean : list N -> N.
  Variables zero one : N.
  Variable scale_fit : list (option N) -> S.
  Variable scale : S -> N -> N.
  Notation NoCollision := (NoCollision is_space fl UTC parse infer has_offset default_resolution guess pick round of_bool num ticks NaT_value castable castable_str nested str empty_is_string hashable sort_cats enc_fit low_card name_str sparse draw0 draws).
  Notation vec_kinds := (vec_kinds is_space fl UTC tz_name zone_of parse infer has_offset default_resolution guess pick round of_bool num ticks NaT_value castable castable_str nested str empty_is_string hashable sort_cats enc_fit enc_transform low_card newline_space sort_perm default_pos name_str sparse draw0 draws).
  Notation fit_pipeline := (fit_pipeline is_space fl UTC parse infer has_offset default_resolution guess pick round of_bool num ticks NaT_value castable castable_str nested str empty_is_string hashable sort_cats enc_fit low_card name_str sparse draw0 draws finite mean zero one scale_fit scale).
  Notation run_pipeline := (run_pipeline is_space UTC tz_name zone_of parse infer has_offset default_resolution round of_bool num ticks NaT_value castable castable_str nested str empty_is_string hashable sort_cats enc_transform sparse finite zero one scale).
  Notation learner_fit := (learner_fit is_space fl UTC parse infer has_offset default_resolution guess pick round of_bool num ticks NaT_value castable castable_str nested str empty_is_string hashable sort_cats enc_fit low_card name_str sparse draw0 draws finite mean zero one scale_fit scale).
  Notation data := (data N TZ O K).

  (** ** Specification *)
  (** the estimator that is asked for *)
  Definition Asked (new : bool) (a : argument) (e : estimator) : Prop :=
    match a with
    | AString s => In s ["classifier"; "classification"; "regressor"; "regression"] /\ e = hgbt new
    | AEstimator e' => e = e'
    | _ => False
    end.
  (** a column that an estimator can be given: 32-bit numbers, or categories for a HistGradientBoosting that takes them from the types *)
  Definition Fine (e : estimator) (c : column) : Prop :=
    cdtype c = TNum true \/ (is_hgbt e = true /\ from_dtype e = true /\ CleanCat c).
  Definition NoNull (d : data) : Prop :=
    match d with
    | Frame X => Forall (fun p => Forall (fun x => is_null x = false) (cells (snd p))) X
    | Array X => Forall (Forall (fun x => x <> None)) X
    end.
  Definition Accepts (e : estimator) (d : data) : Prop :=
    match d with Frame X => Forall (fun p => Fine e (snd p)) X | Array _ => True end /\ (allow_nan e = false -> NoNull d).
  (** columns of the same kind at the same places *)
  Definition SameColumns (d d' : data) : Prop :=
    match d, d' with
    | Frame X, Frame Y => Paired (fun _ c c' => (cdtype c = TNum true /\ cdtype c' = TNum true) \/ (CleanCat c /\ CleanCat c')) X Y
    | Array X, Array Y => length X = length Y
    | _, _ => False
    end.
  (** what the encoders of columns give *)
  Definition EncodersOk : Prop :=
    (forall b, Gives (Datetime b) CleanTime) /\ Gives OneHot Text /\ Gives Ordinal Text /\ Gives Gap Text /\ Gives MinHash Text.

  (** ** Lemmas *)
  Lemma asked_ok : forall new a ps, tabular_learner new a = Ok ps -> exists e, Asked new a e /\ ps = pipeline_of e.
  Proof using Type. clear.
    intros new a ps Ea. destruct a as [s| |e|]; cbn in Ea; try discriminate.
    - destruct (mem s ["classifier"; "classification"]) eqn:M1.
      { exists (hgbt new). injection Ea as <-. split; [|reflexivity]. apply mem_true in M1. split; [|reflexivity]. cbn in *. tauto. }
      destruct (mem s ["regressor"; "regression"]) eqn:M2; [|discriminate].
      exists (hgbt new). injection Ea as <-. split; [|reflexivity]. apply mem_true in M2. split; [|reflexivity]. cbn in *. tauto.
    - injection Ea as <-. exists e. split; reflexivity.
  Qed.
  Lemma learner_errors : forall new a, (forall e, ~ Asked new a e) -> tabular_learner new a = Err (match a with AString _ => ValueError | _ => TypeError end).
  Proof using Type. clear.
    intros new a Na. destruct a as [s| |e|]; try reflexivity; [|exfalso; exact (Na e eq_refl)]. cbn. 
    assert (Ns : ~ In s ["classifier"; "classification"; "regressor"; "regression"]) by (intros I; apply (Na (hgbt new)); split; [exact I|reflexivity]).
    assert (mem s ["classifier"; "classification"] = false) as -> by (apply mem_false; intros I; apply Ns; cbn in *; tauto).
    assert (mem s ["regressor"; "regression"] = false) as -> by (apply mem_false; intros I; apply Ns; cbn in *; tauto). reflexivity.
  Qed.
  Definition vec_of (e : estimator) : vectorizer := match pipeline_of e with Vectorizer v :: _ => v | _ => {| v_low := OneHot; v_high := Gap; v_date := Datetime false; v_nulls := TNone |} end.
  Definition tail_of (e : estimator) : list pstep := (if negb (allow_nan e) then [Imputer] else []) ++ (if negb (is_tree_ensemble e) then [Scaler] else []) ++ [Final e].
  Lemma pipeline_eq : forall e, pipeline_of e = Vectorizer (vec_of e) :: tail_of e.
  Proof using Type. clear. intros e. unfold vec_of, pipeline_of, tail_of. reflexivity. Qed.
  Lemma vec_categories : forall e, UsesCategories (vec_of e) -> is_hgbt e = true /\ from_dtype e = true.
  Proof using Type. clear. intros [[] [] [] ? ?] [U|U]; cbn in U; try discriminate; split; reflexivity. Qed.
  Lemma vec_setup : forall e, EncodersOk -> SetUp (vec_of e).
  Proof using Type. clear. intros [[] [] [] ? ?] (Gd & G1 & G2 & G3 & G4); (split; [split; [discriminate|apply Gd]|]); split; cbn; (left; reflexivity) || (right; assumption). Qed.

  Notation check_array := (check_array finite).
  Notation imp_transform := (imp_transform finite zero one).
  Notation scaler_transform := (scaler_transform finite scale).
  Lemma imp_shape : forall im (d : data) Y, imp_transform im d = Ok Y ->
    length Y = length (filter (fun s => match fst s with None => false | Some _ => true end) im) + length (filter snd im) /\ Forall (Forall (fun x => x <> None)) Y.
  Proof using Type. clear.
    intros im d Y Ei. unfold M_tabular.imp_transform in Ei. destruct (check_array d) as [X|]; [|discriminate]. cbn [bind] in Ei. destruct (length X =? length im) eqn:Lx; [|discriminate]. cbn in Ei. injection Ei as <-. apply Nat.eqb_eq in Lx.
    split.
    - rewrite app_length. f_equal; revert X Lx; induction im as [|s im IH]; intros [|l X] Lx; cbn in Lx; try discriminate; try reflexivity; cbn [combine map concat filter]; rewrite app_length, IH by congruence.
      + unfold fill. cbn [fst snd]. destruct (fst s); reflexivity.
      + unfold indicator. cbn [fst snd]. destruct (snd s); reflexivity.
    - apply Forall_app. split; apply Forall_concat; apply Forall_map; apply Forall_forall; intros [s l] _; cbn [fst snd].
      + unfold fill. destruct (fst s); [|constructor]. constructor; [|constructor]. apply Forall_map. apply Forall_forall. intros x _. discriminate.
      + unfold indicator. destruct (snd s); [|constructor]. constructor; [|constructor]. apply Forall_map. apply Forall_forall. intros x _. discriminate.
  Qed.
  Lemma scaler_shape : forall ss (d : data) Y, scaler_transform ss d = Ok Y ->
    length Y = length ss /\ (forall X, d = Array X -> Forall (Forall (fun x => x <> None)) X -> Forall (Forall (fun x => x <> None)) Y).
  Proof using Type. clear.
    intros ss d Y Es. unfold M_tabular.scaler_transform in Es. destruct (check_array d) as [X|] eqn:Ec; [|discriminate]. cbn [bind] in Es. destruct (length X =? length ss) eqn:Lx; [|discriminate]. cbn in Es. injection Es as <-. apply Nat.eqb_eq in Lx. split.
    - rewrite map_length, combine_length. rewrite Lx. apply Nat.min_id.
    - intros X0 -> Fa. assert (X = X0) as ->. { unfold M_tabular.check_array in Ec. cbn in Ec. destruct (existsb _ X0); [discriminate|]. destruct X0 as [|[|]]; try discriminate; injection Ec as <-; reflexivity. }
      apply Forall_map. apply Forall_forall. intros [s l] I. apply in_combine_r in I. rewrite Forall_forall in Fa. specialize (Fa l I). cbn [fst snd]. apply Forall_map. revert Fa. apply Forall_impl. intros [x|] Nx; [discriminate|congruence].
  Qed.

  Lemma learner_gets : forall new a X fs e d, EncodersOk -> Possible X -> (forall ps v, tabular_learner new a = Ok ps -> In (Vectorizer v) ps -> NoCollision v X) -> learner_fit new a X = Ok (fs, (e, d)) ->
    Asked new a e /\ Accepts e d /\
    forall X' d', Possible X' -> run_pipeline fs (Input X') = Ok d' -> Accepts e d' /\ SameColumns d d'.
  Proof using newline_space sort_perm default_pos. clear - newline_space sort_perm default_pos.
    intros new a X fs e d Ok0 P Nc El. unfold M_tabular.learner_fit in El. destruct (tabular_learner new a) as [ps|] eqn:Et; [|discriminate]. cbn [bind] in El.
    destruct (asked_ok new a ps Et) as (e0 & As & ->). assert (Iv : In (Vectorizer (vec_of e0)) (pipeline_of e0)) by (rewrite pipeline_eq; left; reflexivity). rewrite pipeline_eq in El. cbn [M_tabular.fit_pipeline as_input bind] in El.
    match type of El with bind ?r _ = _ => destruct r as [[tv Z]|] eqn:Ev; [|discriminate] end. cbn [bind fst snd] in El.
    destruct (vec_kinds (vec_of e0) X tv Z (vec_setup e0 Ok0) P (Nc _ _ eq_refl Iv) Ev) as (_ & Fz & Tz).
    match type of El with bind ?r _ = _ => destruct r as [[gs [e1 d1]]|] eqn:Eq; [|discriminate] end. cbn [bind fst snd] in El. injection El as <- <- <-.
    assert (Ff : forall Z' : frame column, Forall (fun p => Final1 (vec_of e0) (snd p)) Z' -> Forall (fun p => Fine e0 (snd p)) Z').
    { intros Z'. apply Forall_impl. intros p [Hp|[U Hp]]; [left; exact Hp|]. right. destruct (vec_categories e0 U). auto. }
    assert (Fp : forall Z', Paired (fun _ => Final32 (vec_of e0)) Z Z' -> Forall (fun p => Fine e0 (snd p)) Z' /\ SameColumns (Frame Z) (Frame Z')).
    { intros Z' HP. split.
      - apply Ff. clear - HP. induction HP as [|p q Z Z' [_ R] HP IH]; constructor; [|exact IH]. destruct R as [[_ R]|(U & _ & R)]; [left|right]; auto.
      - revert HP. apply Forall2_impl_in. intros p q _ _ [En R]. split; [exact En|]. destruct R as [R|(_ & R)]; [left|right]; exact R. }
    unfold tail_of in Eq. destruct (allow_nan e0) eqn:An, (is_tree_ensemble e0) eqn:Tr; cbn [negb app M_tabular.fit_pipeline as_data bind] in Eq.
    - injection Eq as <- <- <-. split; [exact As|]. split; [split; [exact (Ff Z Fz)|congruence]|]. intros X' d' P' Er. cbn [M_tabular.run_pipeline as_input as_data bind] in Er.
      match type of Er with bind ?r _ = _ => destruct r as [Z'|] eqn:Ev'; [|discriminate] end. cbn [bind] in Er. injection Er as <-. destruct (Fp Z' (Tz X' Z' P' Ev')) as [A B]. split; [split; [exact A|congruence]|exact B].
    - match type of Eq with bind ?r _ = _ => destruct r as [W|] eqn:Ew; [|discriminate] end. cbn [bind] in Eq.
      match type of Eq with bind ?r _ = _ => destruct r as [Y|] eqn:Ey; [|discriminate] end. cbn [bind fst snd] in Eq. injection Eq as <- <- <-.
      split; [exact As|]. split; [split; [exact Logic.I|congruence]|]. intros X' d' P' Er. cbn [M_tabular.run_pipeline as_input as_data bind] in Er.
      match type of Er with bind ?r _ = _ => destruct r as [Z'|] eqn:Ev'; [|discriminate] end. cbn [bind] in Er.
      match type of Er with bind ?r _ = _ => destruct r as [Y'|] eqn:Ey'; [|discriminate] end. cbn [bind] in Er. injection Er as <-.
      split; [split; [exact Logic.I|congruence]|]. cbn. apply scaler_shape in Ey, Ey'. destruct Ey as [-> _], Ey' as [-> _]. reflexivity.
    - match type of Eq with bind ?r _ = _ => destruct r as [W|] eqn:Ew; [|discriminate] end. cbn [bind] in Eq.
      match type of Eq with bind ?r _ = _ => destruct r as [Y|] eqn:Ey; [|discriminate] end. cbn [bind fst snd] in Eq. injection Eq as <- <- <-. apply imp_shape in Ey.
      split; [exact As|]. split; [split; [exact Logic.I|intros _; exact (proj2 Ey)]|]. intros X' d' P' Er. cbn [M_tabular.run_pipeline as_input as_data bind] in Er.
      match type of Er with bind ?r _ = _ => destruct r as [Z'|] eqn:Ev'; [|discriminate] end. cbn [bind] in Er.
      match type of Er with bind ?r _ = _ => destruct r as [Y'|] eqn:Ey'; [|discriminate] end. cbn [bind] in Er. injection Er as <-. apply imp_shape in Ey'.
      split; [split; [exact Logic.I|intros _; exact (proj2 Ey')]|]. cbn. destruct Ey as [-> _], Ey' as [-> _]. reflexivity.
    - match type of Eq with bind ?r _ = _ => destruct r as [W|] eqn:Ew; [|discriminate] end. cbn [bind] in Eq.
      match type of Eq with bind ?r _ = _ => destruct r as [Y|] eqn:Ey; [|discriminate] end. cbn [bind fst snd] in Eq. apply imp_shape in Ey.
      match type of Eq with bind ?r _ = _ => destruct r as [[gs2 [e2 d2]]|] eqn:Eq2; [|discriminate] end. cbn [bind fst snd] in Eq. injection Eq as <- <- <-.
      match type of Eq2 with bind ?r _ = _ => destruct r as [W2|] eqn:Ew2; [|discriminate] end. cbn [bind] in Eq2.
      match type of Eq2 with bind ?r _ = _ => destruct r as [Y2|] eqn:Ey2; [|discriminate] end. cbn [bind fst snd] in Eq2. injection Eq2 as <- <- <-. apply scaler_shape in Ey2.
      split; [exact As|]. split; [split; [exact Logic.I|intros _; exact (proj2 Ey2 Y eq_refl (proj2 Ey))]|]. intros X' d' P' Er. cbn [M_tabular.run_pipeline as_input as_data bind] in Er.
      match type of Er with bind ?r _ = _ => destruct r as [Z'|] eqn:Ev'; [|discriminate] end. cbn [bind] in Er.
      match type of Er with bind ?r _ = _ => destruct r as [Y'|] eqn:Ey'; [|discriminate] end. cbn [bind] in Er. apply imp_shape in Ey'.
      match type of Er with bind ?r _ = _ => destruct r as [Y2'|] eqn:Ey2'; [|discriminate] end. cbn [bind] in Er. injection Er as <-. apply scaler_shape in Ey2'.
      split; [split; [exact Logic.I|intros _; exact (proj2 Ey2' Y' eq_refl (proj2 Ey'))]|]. cbn. destruct Ey2 as [-> _], Ey2' as [-> _]. reflexivity.
  Qed.

  (** ** Statistics are those of the table used to fit *)
  Notation centred W V := (map (fun p => map (option_map (scale (scale_fit (fst p)))) (snd p)) (combine W V)).
  (** a column of numbers without missing entries: its own numbers, and the mean of the column used to fit *)
  Definition Filled (w l l' : list (option N)) : Prop :=
    present w <> [] /\ Forall2 (fun x y => y = Some (match x with Some v => v | None => mean (present w) end)) l l'.
  (** whether entries are missing *)
  Definition Indicates (w l l' : list (option N)) : Prop :=
    In None w /\ Forall2 (fun x y => (x = None -> y = Some one) /\ (x <> None -> y = Some zero)) l l'.
  Definition Imputed (W V Y : numbers N) : Prop :=
    exists Y1 Y2, Y = Y1 ++ Y2 /\
      Forall (fun l' => exists w l, In (w, l) (combine W V) /\ Filled w l l') Y1 /\ Forall (fun l' => exists w l, In (w, l) (combine W V) /\ Indicates w l l') Y2 /\
      (forall w l, In (w, l) (combine W V) -> present w <> [] -> exists l', In l' Y1 /\ Filled w l l') /\
      (forall w l, In (w, l) (combine W V) -> In None w -> exists l', In l' Y2 /\ Indicates w l l').
  Lemma imputed_ok : forall W (d : data) V Y, as_array d = Ok V -> imp_transform (imp_fit mean W) d = Ok Y -> Imputed W V Y.
  Proof using Type. clear.
    intros W d V Y Ev Ei. unfold M_tabular.imp_transform, M_tabular.check_array in Ei. rewrite Ev in Ei. cbn [bind] in Ei. destruct (existsb _ V); [discriminate|].
    assert (Ei' : (if negb (length V =? length (imp_fit mean W)) then Err ValueError
      else Ok (concat (map (fun p => fill (fst p) (snd p)) (combine (imp_fit mean W) V)) ++ concat (map (fun p => indicator zero one (fst p) (snd p)) (combine (imp_fit mean W) V)))) = Ok Y).
    { destruct V as [|[|x l] V]; try discriminate; exact Ei. }
    clear Ei. destruct (length V =? length (imp_fit mean W)) eqn:Lv; [|discriminate]. cbn in Ei'. injection Ei' as <-.
    assert (Em : combine (imp_fit mean W) V = map (fun p => ((match present (fst p) with [] => None | v => Some (mean v) end, existsb missing (fst p)), snd p)) (combine W V)).
    { clear. unfold imp_fit. revert V. induction W as [|w W IH]; intros [|l V]; cbn; try reflexivity. f_equal. apply IH. }
    rewrite Em, !map_map. cbn [fst snd].
    assert (Mi : forall w : list (option N), existsb missing w = true <-> In None w).
    { clear. intros w. rewrite existsb_exists. split; [intros ([x|] & I & M); [discriminate|exact I]|intros I; exists None; split; [exact I|reflexivity]]. }
    assert (Fi : forall w l, present w <> [] -> fill (match present w with [] => None | v => Some (mean v) end, existsb missing w) l = [map (fun x => Some (match x with Some v => v | None => mean (present w) end)) l]).
    { clear. intros w l Np. unfold fill. cbn [fst]. destruct (present w) eqn:Ep; [congruence|]. reflexivity. }
    assert (Fx : forall w l, present w <> [] -> Filled w l (map (fun x => Some (match x with Some v => v | None => mean (present w) end)) l)).
    { clear. intros w l Np. split; [exact Np|]. induction l; cbn; constructor; [reflexivity|assumption]. }
    assert (Ix : forall w l, In None w -> Indicates w l (map (fun x => Some (if missing x then one else zero)) l)).
    { clear. intros w l Np. split; [exact Np|]. induction l as [|[x|] l IH]; cbn; constructor; try assumption; split; congruence. }
    eexists _, _. split; [reflexivity|]. split; [|split; [|split]].
    - apply Forall_concat. apply Forall_map. apply Forall_forall. intros [w l] I. cbn [fst snd]. assert (Dp : present w = [] \/ present w <> []) by (destruct (present w); [left; reflexivity|right; discriminate]). destruct Dp as [Ep|Ep]; [rewrite Ep; constructor|]. rewrite Fi by exact Ep. constructor; [|constructor]. exists w, l. split; [exact I|apply Fx; exact Ep].
    - apply Forall_concat. apply Forall_map. apply Forall_forall. intros [w l] I. cbn [fst snd]. unfold indicator. cbn [snd]. destruct (existsb missing w) eqn:Ew; [|constructor]. constructor; [|constructor]. exists w, l. split; [exact I|apply Ix, Mi, Ew].
    - intros w l I Np. eexists. split; [|apply Fx; exact Np]. apply in_concat. eexists. split; [apply in_map; exact I|]. cbn [fst snd]. rewrite Fi by exact Np. left. reflexivity.
    - intros w l I Np. eexists. split; [|apply Ix; exact Np]. apply in_concat. eexists. split; [apply in_map; exact I|]. cbn [fst snd]. unfold indicator. cbn [snd]. rewrite (proj2 (Mi w) Np). left. reflexivity.
  Qed.
  Lemma check_as : forall (d : data) W, check_array d = Ok W -> as_array d = Ok W.
  Proof using Type. clear. intros d W Ec. unfold M_tabular.check_array in Ec. destruct (as_array d) as [X|]; [|discriminate]. cbn [bind] in Ec. destruct (existsb _ X); [discriminate|]. destruct X as [|[|]]; try discriminate; exact Ec. Qed.
  Lemma scaled_ok : forall W (d : data) Y, scaler_transform (map scale_fit W) d = Ok Y -> exists V, as_array d = Ok V /\ length V = length W /\ Y = centred W V.
  Proof using Type. clear.
    intros W d Y Es. unfold M_tabular.scaler_transform in Es. destruct (check_array d) as [V|] eqn:Ec; [|discriminate]. cbn [bind] in Es. rewrite map_length in Es. destruct (length V =? length W) eqn:Lv; [|discriminate]. cbn in Es. injection Es as <-.
    exists V. split; [apply check_as; exact Ec|]. apply Nat.eqb_eq in Lv. split; [exact Lv|]. clear. revert V. induction W as [|w W IH]; intros [|l V]; cbn; try reflexivity. f_equal. apply IH.
  Qed.

  Notation vec_fit := (M_tabular.vec_fit is_space fl UTC parse infer has_offset default_resolution guess pick round of_bool num ticks NaT_value castable castable_str nested str empty_is_string hashable sort_cats enc_fit low_card name_str sparse draw0 draws).
  Notation vec_transform := (M_tabular.vec_transform is_space UTC tz_name zone_of parse infer has_offset default_resolution round of_bool num ticks NaT_value castable castable_str nested str empty_is_string hashable sort_cats enc_transform sparse).
  (** what is given to the estimator for a table whose vectorized numbers are [V], when those of the table used to fit are [W] *)
  Definition Given (e : estimator) (W V Y : numbers N) : Prop :=
    exists IW IV, (if allow_nan e then IW = W /\ IV = V else Imputed W W IW /\ Imputed W V IV) /\ (if is_tree_ensemble e then Y = IV else length IV = length IW /\ Y = centred IW IV).
  Lemma learner_statistics : forall new a X fs e d, learner_fit new a X = Ok (fs, (e, d)) -> allow_nan e = false \/ is_tree_ensemble e = false ->
    exists v ps tv Z W Y, tabular_learner new a = Ok (Vectorizer v :: ps) /\ vec_fit v X = Ok (tv, Z) /\ as_array (Frame Z) = Ok W /\ d = Array Y /\ Given e W W Y /\
    forall X' d', run_pipeline fs (Input X') = Ok d' -> exists Z' V Y', vec_transform tv X' = Ok Z' /\ as_array (Frame Z') = Ok V /\ d' = Array Y' /\ Given e W V Y'.
  Proof using Type. clear.
    intros new a X fs e d El Ne. unfold M_tabular.learner_fit in El. destruct (tabular_learner new a) as [ps|] eqn:Et; [|discriminate]. cbn [bind] in El.
    destruct (asked_ok new a ps Et) as (e0 & As & ->). rewrite pipeline_eq in *. cbn [M_tabular.fit_pipeline as_input bind] in El.
    match type of El with bind ?r _ = _ => destruct r as [[tv Z]|] eqn:Ev; [|discriminate] end. cbn [bind fst snd] in El.
    match type of El with bind ?r _ = _ => destruct r as [[gs [e1 d1]]|] eqn:Eq; [|discriminate] end. cbn [bind fst snd] in El. injection El as <- <- <-.
    exists (vec_of e0), (tail_of e0), tv, Z. unfold tail_of in Eq. unfold Given. destruct (allow_nan e0) eqn:An, (is_tree_ensemble e0) eqn:Tr; cbn [negb app M_tabular.fit_pipeline as_data bind] in Eq.
    - injection Eq as _ <- _. destruct Ne; congruence.
    - match type of Eq with bind ?r _ = _ => destruct r as [W|] eqn:Ew; [|discriminate] end. cbn [bind] in Eq. apply check_as in Ew.
      match type of Eq with bind ?r _ = _ => destruct r as [Y|] eqn:Ey; [|discriminate] end. cbn [bind fst snd] in Eq. injection Eq as <- <- <-. exists W, Y.
      apply scaled_ok in Ey. destruct Ey as (V & EV & Lv & EY). rewrite Ew in EV. injection EV as <-.
      split; [reflexivity|]. split; [exact Ev|]. split; [exact Ew|]. split; [reflexivity|]. try rewrite An, Tr. split; [exists W, W; auto|].
      intros X' d' Er. cbn [M_tabular.run_pipeline as_input as_data bind] in Er.
      match type of Er with bind ?r _ = _ => destruct r as [Z'|] eqn:Ev'; [|discriminate] end. cbn [bind] in Er.
      match type of Er with bind ?r _ = _ => destruct r as [Y'|] eqn:Ey'; [|discriminate] end. cbn [bind] in Er. injection Er as <-. apply scaled_ok in Ey'. destruct Ey' as (V' & EV' & Lv' & EY').
      exists Z', V', Y'. split; [first [exact Ev'|reflexivity]|]. split; [exact EV'|]. split; [reflexivity|]. exists W, V'. auto.
    - match type of Eq with bind ?r _ = _ => destruct r as [W|] eqn:Ew; [|discriminate] end. cbn [bind] in Eq. apply check_as in Ew.
      match type of Eq with bind ?r _ = _ => destruct r as [Y|] eqn:Ey; [|discriminate] end. cbn [bind fst snd] in Eq. injection Eq as <- <- <-. exists W, Y.
      pose proof (imputed_ok W _ W Y Ew Ey) as Im.
      split; [reflexivity|]. split; [exact Ev|]. split; [exact Ew|]. split; [reflexivity|]. try rewrite An, Tr. split; [exists Y, Y; auto|].
      intros X' d' Er. cbn [M_tabular.run_pipeline as_input as_data bind] in Er.
      match type of Er with bind ?r _ = _ => destruct r as [Z'|] eqn:Ev'; [|discriminate] end. cbn [bind] in Er.
      match type of Er with bind ?r _ = _ => destruct r as [Y'|] eqn:Ey'; [|discriminate] end. cbn [bind] in Er. injection Er as <-.
      destruct (as_array (Frame Z')) as [V|] eqn:EV; [|unfold M_tabular.imp_transform, M_tabular.check_array in Ey'; rewrite EV in Ey'; discriminate].
      exists Z', V, Y'. split; [first [exact Ev'|reflexivity]|]. split; [exact EV|]. split; [reflexivity|]. exists Y, Y'. split; [|reflexivity]. split; [exact Im|]. exact (imputed_ok W _ V Y' EV Ey').
    - match type of Eq with bind ?r _ = _ => destruct r as [W|] eqn:Ew; [|discriminate] end. cbn [bind] in Eq. apply check_as in Ew.
      match type of Eq with bind ?r _ = _ => destruct r as [Y|] eqn:Ey; [|discriminate] end. cbn [bind fst snd] in Eq. pose proof (imputed_ok W _ W Y Ew Ey) as Im.
      match type of Eq with bind ?r _ = _ => destruct r as [[gs2 [e2 d2]]|] eqn:Eq2; [|discriminate] end. cbn [bind fst snd] in Eq. injection Eq as <- <- <-.
      match type of Eq2 with bind ?r _ = _ => destruct r as [W2|] eqn:Ew2; [|discriminate] end. cbn [bind] in Eq2. apply check_as in Ew2. cbn in Ew2. injection Ew2 as <-.
      match type of Eq2 with bind ?r _ = _ => destruct r as [Y2|] eqn:Ey2; [|discriminate] end. cbn [bind fst snd] in Eq2. injection Eq2 as <- <- <-. exists W, Y2.
      apply scaled_ok in Ey2. destruct Ey2 as (V & EV & Lv & EY). cbn in EV. injection EV as <-.
      split; [reflexivity|]. split; [exact Ev|]. split; [exact Ew|]. split; [reflexivity|]. try rewrite An, Tr. split; [exists Y, Y; auto|].
      intros X' d' Er. cbn [M_tabular.run_pipeline as_input as_data bind] in Er.
      match type of Er with bind ?r _ = _ => destruct r as [Z'|] eqn:Ev'; [|discriminate] end. cbn [bind] in Er.
      match type of Er with bind ?r _ = _ => destruct r as [Y'|] eqn:Ey'; [|discriminate] end. cbn [bind] in Er.
      match type of Er with bind ?r _ = _ => destruct r as [Y2'|] eqn:Ey2'; [|discriminate] end. cbn [bind] in Er. injection Er as <-.
      destruct (as_array (Frame Z')) as [V|] eqn:EV; [|unfold M_tabular.imp_transform, M_tabular.check_array in Ey'; rewrite EV in Ey'; discriminate].
      apply scaled_ok in Ey2'. destruct Ey2' as (V' & EV' & Lv' & EY'). cbn in EV'. injection EV' as <-.
      exists Z', V, Y2'. split; [first [exact Ev'|reflexivity]|]. split; [exact EV|]. split; [reflexivity|]. exists Y, Y'. split; [|auto]. split; [exact Im|]. exact (imputed_ok W _ V Y' EV Ey').
  Qed.
End Learner.
