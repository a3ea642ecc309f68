(** Theorems about the TableVectorizer with its default preprocessing and [tabular_learner] (C117, C118). *)
From Coq Require Import QArith Permutation Lia.
From Verif Require Import Base M_str M_names L_names M_select L_select M_oncols L_oncols M_checkinput L_checkinput M_tablevec L_tablevec L_dict L_tablevec2 L_tablevec3 L_tablevec4 L_tabular1.
From Verif Require Import M_nullstr M_dropnulls M_todt L_nullstr L_todt M_clean L_clean1 L_clean2 L_clean3 M_tabular L_tabular2 L_tabular3 L_tabular4 L_tablevec5 P_clean.
Open Scope string_scope.
Open Scope list_scope.
Open Scope nat_scope.
Set Default Proof Using "Type".

Section Theorems.
  Context {N TZ Name F O K : Type} `{EqD N} `{EqD F} `{EqD O}.
  Context {L E S : Type} `{EqD L}.
  Notation cell := (M_clean.cell N O).
  Notation dtype := (M_clean.dtype N TZ O K).
  Notation column := (M_clean.column N TZ O K).
  Notation dcell := (@M_todt.cell text cell).
  Variable is_space : nat -> bool.
  Variable fl : Q -> Q.
  Variable UTC : TZ.
  Variable tz_name : TZ -> option Name.
  Variable zone_of : Name -> option TZ.
  Variable parse : lib -> F -> dcell -> option Z.
  Variable infer : list dcell -> dcell -> option Z.
  Variable has_offset : F -> bool.
  Variable default_resolution : lib -> Z.
  Variable guess : bool -> text -> option F.
  Variable pick : nat -> nat -> list nat.
  Variable round : N -> N.
  Variable of_bool : bool -> N.
  Variable num : lib -> dtype -> cell -> option (option N).
  Variable ticks : dtype -> Z -> N.
  Variable NaT_value : N.
  Variable castable castable_str nested : dtype -> bool.
  Variable str : lib -> dtype -> cell -> text.
  Variable empty_is_string : bool.
  Variable hashable : cell -> bool.
  Variable sort_cats : list cell -> list cell.

  Notation fit_step := (M_clean.fit_step is_space fl UTC parse infer has_offset default_resolution guess pick round of_bool num ticks NaT_value castable castable_str nested str empty_is_string sort_cats).
  Notation transform_step := (M_clean.transform_step is_space UTC tz_name zone_of parse infer has_offset default_resolution round of_bool num ticks NaT_value castable castable_str nested str empty_is_string hashable sort_cats).
  Notation to_string := (M_clean.to_string castable_str nested str empty_is_string).
  Notation to_float32 := (M_clean.to_float32 round of_bool num ticks NaT_value castable).
  Notation with_string_categories := (M_clean.with_string_categories str empty_is_string sort_cats).
  Notation to_categorical := (M_clean.to_categorical castable_str nested str empty_is_string hashable sort_cats).
  Notation cfitted := (M_clean.fitted TZ F).

  Notation date_fit := (M_clean.date_fit UTC parse infer has_offset default_resolution guess pick).
  Notation date_transform := (M_clean.date_transform UTC tz_name zone_of parse infer has_offset default_resolution).
  Notation float_fit := (M_clean.float_fit round of_bool num ticks NaT_value castable).
  Notation FChain := (L_clean2.FChain is_space fl UTC parse infer has_offset default_resolution guess pick round of_bool num ticks NaT_value castable castable_str nested str empty_is_string sort_cats).
  Notation TChain := (L_clean2.TChain is_space UTC tz_name zone_of parse infer has_offset default_resolution round of_bool num ticks NaT_value castable castable_str nested str empty_is_string hashable sort_cats).
  Variable enc_fit : encoder -> string -> column -> outcome column E.
  Variable enc_transform : E -> string -> column -> res (list (string * column)).
  Variable low_card : column -> bool.
  Notation state := (state TZ F E).
  Notation pre := (@M_tabular.pre N TZ F O K _ _ _ E is_space fl UTC parse infer has_offset default_resolution guess pick round of_bool num ticks NaT_value castable castable_str nested str empty_is_string sort_cats).
  Notation encode := (encode castable_str nested str empty_is_string hashable sort_cats enc_fit).
  Notation apply_st := (M_tabular.apply is_space UTC tz_name zone_of parse infer has_offset default_resolution round of_bool num ticks NaT_value castable castable_str nested str empty_is_string hashable sort_cats enc_transform).
  Hypothesis newline_space : is_space newline = true.
  Hypothesis sort_perm : forall l, Permutation (sort_cats l) l.
  Hypothesis default_pos : forall l, (0 < default_resolution l)%Z.

  Notation Gives := (Gives enc_fit enc_transform).
  Notation SetUp := (SetUp enc_fit enc_transform).
  Notation Encoded1 v c := (Numeric c \/ (UsesCategories v /\ CleanCat c)).


  Variable name_str : L -> string.
  Variable sparse : column -> bool.
  Variable draw0 : nat -> string.
  Variable draws : nat -> nat -> string.
  Variable finite : N -> bool.
  Variable mean : list N -> N.
  Variables zero one : N.
  Variable scale_fit : list (option N) -> S.
  Variable scale : S -> N -> N.
  Notation NoCollision := (NoCollision is_space fl UTC parse infer has_offset default_resolution guess pick round of_bool num ticks NaT_value castable castable_str nested str empty_is_string hashable sort_cats enc_fit low_card name_str sparse draw0 draws).
  Notation vec_kinds := (vec_kinds is_space fl UTC tz_name zone_of parse infer has_offset default_resolution guess pick round of_bool num ticks NaT_value castable castable_str nested str empty_is_string hashable sort_cats enc_fit enc_transform low_card newline_space sort_perm default_pos name_str sparse draw0 draws).
  Notation fit_pipeline := (fit_pipeline is_space fl UTC parse infer has_offset default_resolution guess pick round of_bool num ticks NaT_value castable castable_str nested str empty_is_string hashable sort_cats enc_fit low_card name_str sparse draw0 draws finite mean zero one scale_fit scale).
  Notation run_pipeline := (run_pipeline is_space UTC tz_name zone_of parse infer has_offset default_resolution round of_bool num ticks NaT_value castable castable_str nested str empty_is_string hashable sort_cats enc_transform sparse finite zero one scale).
  Notation learner_fit := (learner_fit is_space fl UTC parse infer has_offset default_resolution guess pick round of_bool num ticks NaT_value castable castable_str nested str empty_is_string hashable sort_cats enc_fit low_card name_str sparse draw0 draws finite mean zero one scale_fit scale).
  Notation data := (data N TZ O K).

  Notation vec_fit := (vec_fit is_space fl UTC parse infer has_offset default_resolution guess pick round of_bool num ticks NaT_value castable castable_str nested str empty_is_string hashable sort_cats enc_fit low_card name_str sparse draw0 draws).
  Notation vec_transform := (vec_transform is_space UTC tz_name zone_of parse infer has_offset default_resolution round of_bool num ticks NaT_value castable castable_str nested str empty_is_string hashable sort_cats enc_transform sparse).
  Notation EncodersOk := (EncodersOk enc_fit enc_transform).

  (** C117: if the encoders give numbers, all the outputs of a TableVectorizer are columns of 32-bit floats, or of categories if ToCategorical is used; *)
  Theorem C117_fit : forall v X tv out, SetUp v -> Possible X -> NoCollision v X -> vec_fit v X = Ok (tv, out) ->
    NoDup (column_names out) /\
    forall n c, In (n, c) out -> cdtype c = TNum true \/ ((v_low v = ToCategorical \/ v_high v = ToCategorical) /\ CleanCat c).
  Proof using newline_space sort_perm default_pos tz_name zone_of H2.
    intros v X tv out Su P Nc Ev. destruct (vec_kinds v X tv out Su P Nc Ev) as (ND & Fa & _). split; [exact ND|]. intros n c I. rewrite Forall_forall in Fa. exact (Fa (n, c) I).
  Qed.
  (** C117: for each later table that is accepted, whatever its types, they are columns with the same names, in the same order, and of the same kind. *)
  Theorem C117_transform : forall v X tv out X' out', SetUp v -> Possible X -> NoCollision v X -> vec_fit v X = Ok (tv, out) -> Possible X' -> vec_transform tv X' = Ok out' ->
    Forall2 (fun p q => fst p = fst q /\
      ((cdtype (snd p) = TNum true /\ cdtype (snd q) = TNum true) \/ ((v_low v = ToCategorical \/ v_high v = ToCategorical) /\ CleanCat (snd p) /\ CleanCat (snd q)))) out out'.
  Proof using newline_space sort_perm default_pos tz_name zone_of H2.
    intros v X tv out X' out' Su P Nc Ev P' Et. destruct (vec_kinds v X tv out Su P Nc Ev) as (_ & _ & Tr). exact (Tr X' out' P' Et).
  Qed.
  (** C118: the last step of the result of [tabular_learner] is the estimator asked for; *)
  Theorem C118_pipeline : forall new a X fs e d, EncodersOk -> Possible X -> (forall ps v, tabular_learner new a = Ok ps -> In (Vectorizer v) ps -> NoCollision v X) ->
    learner_fit new a X = Ok (fs, (e, d)) -> Asked new a e /\ Accepts e d.
  Proof using newline_space sort_perm default_pos tz_name zone_of H2.
    intros new a X fs e d Eo P Nc El. destruct (learner_gets is_space fl UTC tz_name zone_of parse infer has_offset default_resolution guess pick round of_bool num ticks NaT_value castable castable_str nested str empty_is_string hashable sort_cats enc_fit enc_transform low_card newline_space sort_perm default_pos name_str sparse draw0 draws finite mean zero one scale_fit scale new a X fs e d Eo P Nc El) as (As & Ac & _). exact (conj As Ac).
  Qed.
  (** C118: it gets columns of the same kinds when it predicts. *)
  Theorem C118_predict : forall new a X fs e d X' d', EncodersOk -> Possible X -> (forall ps v, tabular_learner new a = Ok ps -> In (Vectorizer v) ps -> NoCollision v X) ->
    learner_fit new a X = Ok (fs, (e, d)) -> Possible X' -> run_pipeline fs (Input X') = Ok d' -> Accepts e d' /\ SameColumns d d'.
  Proof using newline_space sort_perm default_pos tz_name zone_of H2.
    intros new a X fs e d X' d' Eo P Nc El P' Er. destruct (learner_gets is_space fl UTC tz_name zone_of parse infer has_offset default_resolution guess pick round of_bool num ticks NaT_value castable castable_str nested str empty_is_string hashable sort_cats enc_fit enc_transform low_card newline_space sort_perm default_pos name_str sparse draw0 draws finite mean zero one scale_fit scale new a X fs e d Eo P Nc El) as (_ & _ & Tr). exact (Tr X' d' P' Er).
  Qed.
  (** C118: unless it is an ensemble of trees that takes NaN, it gets numbers: for each table, those of the vectorizer, with missing entries replaced by means and with
      indicators if it does not take NaN, and centred and scaled if it is not an ensemble of trees; the means, the columns of indicators and the scales are always those of
      the table used to fit. *)
  Theorem C118_statistics : forall new a X fs e d, learner_fit new a X = Ok (fs, (e, d)) -> allow_nan e = false \/ is_tree_ensemble e = false ->
    exists v ps tv Z W Y, tabular_learner new a = Ok (Vectorizer v :: ps) /\ vec_fit v X = Ok (tv, Z) /\ as_array (Frame Z) = Ok W /\ d = Array Y /\ Given mean zero one scale_fit scale e W W Y /\
    forall X' d', run_pipeline fs (Input X') = Ok d' ->
      exists Z' V Y', vec_transform tv X' = Ok Z' /\ as_array (Frame Z') = Ok V /\ d' = Array Y' /\ Given mean zero one scale_fit scale e W V Y'.
  Proof using. exact (learner_statistics is_space fl UTC tz_name zone_of parse infer has_offset default_resolution guess pick round of_bool num ticks NaT_value castable castable_str nested str empty_is_string hashable sort_cats enc_fit enc_transform low_card name_str sparse draw0 draws finite mean zero one scale_fit scale). Qed.
  (** C118: other strings, classes and other objects are refused. *)
  Theorem C118_refused : forall new a, (forall e, ~ Asked new a e) -> tabular_learner new a = Err (match a with AString _ => ValueError | _ => TypeError end).
  Proof using. exact learner_errors. Qed.
End Theorems.
Print Assumptions C117_fit.
Print Assumptions C117_transform.
Print Assumptions C118_pipeline.
Print Assumptions C118_predict.
Print Assumptions C118_refused.
Print Assumptions C118_statistics.

(** ** Examples *)
#[local] Instance EqD_unit : EqD unit. Proof. intros [] []. left. reflexivity. Defined.
(** encoders that give one column for datetimes and two for texts *)
Definition te_numbers (c : ex_column) : ex_column := {| clib := clib c; cdtype := TNum false; cells := map (fun x => if is_null x then CNull NaN else CNum 1) (cells c) |}.
Definition te_outs (e : encoder) (n : string) (c : ex_column) : list (string * ex_column) :=
  match e with Datetime _ => [(n ++ "_t", te_numbers c)%string] | _ => [(n ++ "_0", te_numbers c); (n ++ "_1", te_numbers c)]%string end.
Definition te_fit (e : encoder) (n : string) (c : ex_column) : outcome ex_column encoder := Fitted (te_outs e n c) e.
Definition te_transform (e : encoder) (n : string) (c : ex_column) : res (list (string * ex_column)) := Ok (te_outs e n c).
Definition te_low (c : ex_column) : bool := match cells c with [] => false | x :: _ => match x with CStr s => ex_is s "u" | _ => false end end.
Definition te_X : input ex_column nat := DataFrame M_oncols.Pandas (map (fun p => (inl (fst p), snd p)) ex_X).
Definition te_X' : input ex_column nat := DataFrame M_oncols.Pandas (map (fun p => (inl (fst p), snd p)) ex_X').
Definition te_linear : estimator := {| is_hgbt := false; is_forest := false; from_dtype := false; allow_nan := false; positive_only := false |}.
Notation te_nocollision := (NoCollision ex_space (fun q => q) tt ex_parse ex_infer (fun _ => false) (fun _ => 1%Z) ex_guess ex_pick (fun x : nat => x) (fun b : bool => if b then 1 else 0) ex_num (fun _ z => Z.to_nat z) 99 ex_yes ex_yes ex_yes ex_str true (fun _ => true) (fun l => l) te_fit te_low str_nat (fun _ => false) example_draw example_draws).
Notation te_learn := (learner_fit ex_space (fun q => q) tt ex_parse ex_infer (fun _ => false) (fun _ => 1%Z) ex_guess ex_pick (fun x : nat => x) (fun b : bool => if b then 1 else 0) ex_num (fun _ z => Z.to_nat z) 99 ex_yes ex_yes ex_yes ex_str true (fun _ => true) (fun l => l) te_fit te_low str_nat (fun _ => false) example_draw example_draws (fun _ => true) (fun l => length l) 0 1 (fun l => length l) (fun s x => x + s)).
Notation te_run := (run_pipeline ex_space tt (fun _ => Some tt) (fun _ : unit => Some tt) ex_parse ex_infer (fun _ => false) (fun _ => 1%Z) (fun x : nat => x) (fun b : bool => if b then 1 else 0) ex_num (fun _ z => Z.to_nat z) 99 ex_yes ex_yes ex_yes ex_str true (fun _ => true) (fun l => l) te_transform (fun _ => false) (fun _ => true) 0 1 (fun s x => x + s)).
Definition kinds_of (d : data nat unit nat unit) : list (string * string) :=
  match d with Frame X => map (fun p => (fst p, match cdtype (snd p) with TNum true => "float32" | TCat _ => "category" | _ => "other" end)) X | Array _ => [] end.

Example te_encoders : EncodersOk te_fit te_transform.
Proof.
  assert (Nu : forall c, Numeric (te_numbers c)) by (intros c; exists false; reflexivity).
  assert (G : forall e P, Gives te_fit te_transform e P).
  { intros e P n c outs st _ Ef. injection Ef as <- <-. split; [destruct e; repeat constructor; apply Nu|]. intros d outs' _ Et. injection Et as <-. split; [destruct e; reflexivity|destruct e; repeat constructor; apply Nu]. }
  unfold L_tabular4.EncodersOk. split; [intros b; apply G|]. split; [apply G|]. split; [apply G|]. split; apply G.
Qed.
Lemma te_wf : forall c, In c [ex_a; ex_d; ex_n; ex_k; ex_s; ex_e] -> WF c.
Proof. intros c I. change [ex_a; ex_d; ex_n; ex_k; ex_s; ex_e] with (map snd ex_X) in I. apply in_map_iff in I. destruct I as ([n c'] & <- & I). exact (proj1 (proj1 (ex_wf n c' I))). Qed.
Example te_possible : Possible te_X /\ Possible te_X'.
Proof. split; intros l cs Ea; injection Ea as <- <-; repeat (constructor; [apply te_wf; cbn; tauto|]); constructor. Qed.
Ltac te_step :=
  split; [intros columns Hc; vm_compute in Hc; injection Hc as <-; apply example_draws_fresh; vm_compute;
          [lia|intros s Hs; repeat (destruct Hs as [<-|Hs]; [vm_compute; lia|]); destruct Hs]
         |intros f X' Hf; vm_compute in Hf; injection Hf as <- <-].
Lemma te_fresh : forall v, In v [vec_of (hgbt true); vec_of te_linear] -> te_nocollision v te_X.
Proof.
  intros v I ci X1 Eci. vm_compute in Eci. injection Eci as <- <-. split; [repeat constructor; cbn; intuition discriminate|].
  destruct I as [<-|[<-|[]]].
  all: split; [exact example_draws_hex|]; split; [repeat te_step; exact I|].
  all: intros fpre X2 E2; vm_compute in E2; injection E2 as <- <-; split; [repeat te_step; exact I|].
  all: intros fenc X3 E3; vm_compute in E3; injection E3 as <- <-; split; [exact I|].
  all: intros fspec X4 E4; vm_compute in E4; injection E4 as <- <-; repeat te_step; exact I.
Qed.
(** HistGradientBoosting gets categories for the column of few texts; a linear model gets an array, with indicators of missing entries *)
Example C118_example : (forall ps v, tabular_learner true (AString "classifier") = Ok ps -> In (Vectorizer v) ps -> te_nocollision v te_X) /\
  exists fs d d', te_learn true (AString "classifier") te_X = Ok (fs, (hgbt true, d)) /\ te_run fs (Input te_X') = Ok d' /\
    kinds_of d = [("a", "category"); ("d_t", "float32"); ("n", "float32"); ("k_0", "float32"); ("k_1", "float32"); ("s", "float32")] /\ kinds_of d' = kinds_of d.
Proof.
  split; [intros ps v Ep Iv; injection Ep as <-; destruct Iv as [Iv|[Iv|[]]]; [injection Iv as <-; apply te_fresh; left; reflexivity|discriminate]|].
  eexists _, _, _. split; [vm_compute; reflexivity|]. split; [vm_compute; reflexivity|]. split; reflexivity.
Qed.
Example C118_linear_example : (forall ps v, tabular_learner true (AEstimator te_linear) = Ok ps -> In (Vectorizer v) ps -> te_nocollision v te_X) /\
  exists fs Y Y', te_learn true (AEstimator te_linear) te_X = Ok (fs, (te_linear, Array Y)) /\ te_run fs (Input te_X') = Ok (Array Y') /\ length Y = 14 /\ length Y' = 14.
Proof.
  split; [intros ps v Ep Iv; injection Ep as <-; destruct Iv as [Iv|[Iv|[Iv|[Iv|[]]]]]; [injection Iv as <-; apply te_fresh; right; left; reflexivity|discriminate|discriminate|discriminate]|].
  eexists _, _, _. split; [vm_compute; reflexivity|]. split; [vm_compute; reflexivity|]. split; reflexivity.
Qed.
Notation te_vec := (vec_fit ex_space (fun q => q) tt ex_parse ex_infer (fun _ => false) (fun _ => 1%Z) ex_guess ex_pick (fun x : nat => x) (fun b : bool => if b then 1 else 0) ex_num (fun _ z => Z.to_nat z) 99 ex_yes ex_yes ex_yes ex_str true (fun _ => true) (fun l => l) te_fit te_low str_nat (fun _ => false) example_draw example_draws).
Notation te_vec_transform := (vec_transform ex_space tt (fun _ => Some tt) (fun _ : unit => Some tt) ex_parse ex_infer (fun _ => false) (fun _ => 1%Z) (fun x : nat => x) (fun b : bool => if b then 1 else 0) ex_num (fun _ z => Z.to_nat z) 99 ex_yes ex_yes ex_yes ex_str true (fun _ => true) (fun l => l) te_transform (fun _ => false)).
Example C117_example : SetUp te_fit te_transform (vec_of (hgbt true)) /\ exists tv out out', te_vec (vec_of (hgbt true)) te_X = Ok (tv, out) /\ te_vec_transform tv te_X' = Ok out' /\
  column_names out = ["a"; "d_t"; "n"; "k_0"; "k_1"; "s"] /\ map (fun p => is_categorical (snd p)) out = [true; false; false; false; false; false] /\
  map (fun p => map (fun x => is_null x) (cells (snd p))) out' = [[false; false; true]; [true; true; true]; [true; true; true]; [false; false; false]; [false; false; false]; [false; true; false]].
Proof. split; [apply vec_setup; exact te_encoders|]. eexists _, _, _. split; [vm_compute; reflexivity|]. split; [vm_compute; reflexivity|]. repeat split. Qed.
Example C118_refused_example : (forall e, ~ Asked true (AString "cluster") e) /\ tabular_learner true (AString "cluster") = Err ValueError /\ tabular_learner true AClass = Err TypeError.
Proof. split; [|split; reflexivity]. intros e [I _]. cbn in I. intuition discriminate. Qed.

(** C118: an estimator that takes only positive numbers ([positive_only]) gets negative ones: columns are centred whatever the estimator. *)
Section Negative.
  Notation zcolumn := (column Z unit nat unit).
  Notation z_learn := (learner_fit (TZ := unit) (K := unit) (F := unit) (E := unit) (L := nat) ex_space (fun q => q) tt (fun _ _ _ => None) (fun _ _ => None) (fun _ => false) (fun _ => 1%Z) (fun _ _ => None) (fun _ _ => []) (fun x : Z => x) (fun b : bool => if b then 1%Z else 0%Z) (fun _ _ _ => None) (fun _ z => z) 0%Z (fun _ => true) (fun _ => true) (fun _ => true) (fun _ _ (_ : cell Z nat) => text_of "") true (fun _ => true) (fun l => l)
    (fun _ _ _ => Rejected) (fun _ => true) str_nat (fun _ => false) example_draw example_draws (fun _ => true) (fun l => (fold_right Z.add 0 l / Z.of_nat (length l))%Z) 0%Z 1%Z (fun l => (fold_right Z.add 0 (present l) / Z.of_nat (length l))%Z) (fun m x => (x - m)%Z)).
  Theorem C118_positive_refuted : exists (e : estimator) (c : zcolumn) fs Y, positive_only e = true /\ Forall (fun x => exists z, x = CNum z /\ (0 < z)%Z) (cells c) /\
    z_learn true (AEstimator e) (DataFrame M_oncols.Pandas [(inl "a", c)]) = Ok (fs, (e, Array Y)) /\ exists l z, In l Y /\ In (Some z) l /\ (z < 0)%Z.
  Proof.
    exists {| is_hgbt := false; is_forest := false; from_dtype := false; allow_nan := false; positive_only := true |}, {| clib := Pandas; cdtype := TNum true; cells := [CNum 1%Z; CNum 5%Z] |}.
    eexists _, _. split; [reflexivity|]. split; [repeat constructor; eexists; split; reflexivity|]. split; [vm_compute; reflexivity|].
    exists [Some (-2)%Z; Some 2%Z], (-2)%Z. split; [left; reflexivity|]. split; [left; reflexivity|reflexivity].
  Qed.
End Negative.
Print Assumptions C118_positive_refuted.
