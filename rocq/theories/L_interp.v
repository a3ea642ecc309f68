(** Interpolation joins: specification and lemmas. *)
From Verif Require Import Base M_names M_select M_oncols M_interp L_names L_select.
From Coq Require Import Permutation.
Open Scope string_scope.
Open Scope list_scope.
Open Scope nat_scope.

Lemma concat_untagged : forall {C} draw (dfs : list (frame C)), dfs <> [] ->
  NoDup (column_names (concat dfs)) -> (forall s, In s (column_names (concat dfs)) -> ~ SubString "__skrub_" s) ->
  concat_horizontal draw dfs = Ok (concat dfs).
Proof.
  intros C draw dfs Hd ND Ht.
  assert (E : concat (make_column_names_unique draw dfs) = concat dfs).
  { pose proof (make_unique_names draw dfs 0 []) as HN. pose proof (make_unique_data draw dfs 0 []) as HD.
    rewrite pick_identity in HN; [|intros s I; split; [apply Ht, I|intros []]|exact ND].
    unfold make_column_names_unique. revert HN HD. generalize (concat (make_unique_from draw 0 [] dfs)) (concat dfs).
    unfold column_names, column_data. clear. intros l. induction l as [|[a c] f IH]; intros [|[b d] g]; simpl; intros H1 H2; try discriminate; [reflexivity|].
    injection H1 as -> H1. injection H2 as -> H2. f_equal. apply IH; assumption. }
  unfold concat_horizontal. destruct dfs; [congruence|]. rewrite E. reflexivity.
Qed.

Section Interp.
  Context {V : Type}.
  Variable isnull : V -> bool.
  Variable lib : library.
  Variables numeric is_string categorical : string -> list V -> bool.
  Variable set_order : list string -> list string.
  Variable multi_output : est -> bool.
  Hypothesis set_order_perm : forall l, Permutation (set_order l) l.

  (** ** Specification *)
  Definition Keys (p : interp_params (V := V)) (m a : list string) : Prop :=
    (i_key p <> KNone /\ i_main_key p = KNone /\ i_aux_key p = KNone /\
     m = atleast_1d_or_none (i_key p) /\ a = atleast_1d_or_none (i_key p)) \/
    (i_key p = KNone /\ i_main_key p <> KNone /\ i_aux_key p <> KNone /\ length m = length a /\
     m = atleast_1d_or_none (i_main_key p) /\ a = atleast_1d_or_none (i_aux_key p)).

  (** [c] is a column that the estimator [e] must predict. *)
  Definition Target (aux : frame (list V)) (ak : list string) (e : est) (c : string) : Prop :=
    exists v, In (c, v) aux /\ ~ In c ak /\
      match e with
      | Regressor => numeric c v = true
      | Classifier => is_string c v = true \/ categorical c v = true
      end.
  Definition DisjointTypes (aux : frame (list V)) : Prop :=
    forall c v, In (c, v) aux -> numeric c v = true -> is_string c v = false /\ categorical c v = false.

  Definition WellAssigned (aux : frame (list V)) (ak : list string) (assigns : list (list string * est)) : Prop :=
    (forall e c, Target aux ak e c <-> exists cs, In (cs, e) assigns /\ In c cs) /\
    (DisjointTypes aux -> NoDup (concat (map fst assigns))) /\
    (forall cs e c v, In (cs, e) assigns -> In c cs -> In (c, v) aux -> (exists x, In x v /\ isnull x = true) -> cs = [c]) /\
    (forall cs e, In (cs, e) assigns -> cs <> [] /\ NoDup cs /\ (multi_output e = false -> length cs = 1)).

  (** ** Assignments *)
  Lemma NoDup_names_unique : forall (t : frame (list V)) c v v', NoDup (column_names t) -> In (c, v) t -> In (c, v') t -> v = v'.
  Proof.
    intros t c v v' ND I I'. pose proof (proj2 (dget_some_iff t c v ND) I). pose proof (proj2 (dget_some_iff t c v' ND) I'). congruence.
  Qed.

  Lemma concat_singles : forall (e : est) l, concat (map fst (map (fun c : string => ([c], e)) l)) = l.
  Proof. intros e l. induction l as [|c l IH]; simpl; congruence. Qed.

  Lemma in_names : forall (t : frame (list V)) c, In c (column_names t) <-> exists v, In (c, v) t.
  Proof.
    intros t c. unfold column_names. rewrite in_map_iff. split.
    - intros ([c' v] & E & I). simpl in E. subst. eauto.
    - intros (v & I). exists (c, v). split; [reflexivity|exact I].
  Qed.

  Lemma assignments_for_spec : forall n table e, NoDup (column_names table) ->
    exists l, assignments_for isnull lib set_order multi_output n table e = Ok l /\
      (forall cs e', In (cs, e') l -> e' = e) /\ NoDup (concat (map fst l)) /\
      (forall c, In c (concat (map fst l)) <-> In c (column_names table)) /\
      (forall cs e' c v, In (cs, e') l -> In c cs -> In (c, v) table -> (exists x, In x v /\ isnull x = true) -> cs = [c]) /\
      (forall cs e', In (cs, e') l -> cs <> [] /\ NoDup cs /\ (multi_output e = false -> length cs = 1)).
  Proof.
    intros n table e ND. unfold assignments_for.
    destruct (shape_00 lib n table) eqn:S0.
    - exists []. split; [reflexivity|]. split; [intros ? ? []|]. split; [constructor|]. split; [|split; [intros ? ? ? ? []|intros ? ? []]].
      unfold shape_00 in S0. destruct table; [simpl; tauto|discriminate].
    - clear S0. destruct (multi_output e) eqn:M; cbn [negb].
      + assert (NR : NoRaise (sel_has_nulls isnull) table) by (intros c v _; simpl; eauto).
        destruct (expand_spec (sel_has_nulls isnull) table) as (sel & E & F); [intros (l & X); discriminate|exact NR|].
        rewrite E. cbn [bind]. set (wn := column_names sel).
        set (wo := set_order (filter (fun c => negb (mem c wn)) (column_names table))).
        assert (Hwn : forall c v, In (c, v) table -> (In c wn <-> existsb isnull v = true)).
        { intros c v I. unfold wn. rewrite in_names. split.
          - intros (v' & I'). apply (FilterOf_incl _ _ _ F) in I'. destruct I' as [I1 I2]. simpl in I2.
            rewrite (NoDup_names_unique _ _ _ _ ND I I1). congruence.
          - intros Hx. exists v. apply (FilterOf_incl _ _ _ F). split; [exact I|]. simpl. congruence. }
        assert (Hsub : forall c, In c wn -> In c (column_names table)).
        { intros c I. unfold wn in I. rewrite in_names in *. destruct I as (v & I). exists v. apply (FilterOf_incl _ _ _ F) in I. tauto. }
        assert (Hwo : forall c, In c wo <-> In c (column_names table) /\ ~ In c wn).
        { intros c. unfold wo. split.
          - intros I. apply (Permutation_in _ (set_order_perm _)) in I. apply filter_In in I. rewrite negb_true_iff, mem_false in I. exact I.
          - intros I. apply (Permutation_in _ (Permutation_sym (set_order_perm _))). apply filter_In. rewrite negb_true_iff, mem_false. exact I. }
        assert (Nwn : NoDup wn) by (eapply FilterOf_NoDup_names; eassumption).
        assert (Nwo : NoDup wo) by (eapply Permutation_NoDup; [apply Permutation_sym, set_order_perm|apply NoDup_filter, ND]).
        assert (Ec : concat (map fst (map (fun c => ([c], e)) wn ++ match wo with [] => [] | _ => [(wo, e)] end)) = wn ++ wo).
        { rewrite map_app, concat_app, concat_singles. f_equal. destruct wo; [reflexivity|]. simpl. rewrite app_nil_r. reflexivity. }
        assert (HI : forall cs e', In (cs, e') (map (fun c => ([c], e)) wn ++ match wo with [] => [] | _ => [(wo, e)] end) ->
                   e' = e /\ ((exists c, cs = [c] /\ In c wn) \/ cs = wo /\ wo <> [])).
        { intros cs e' I. apply in_app_iff in I. destruct I as [I|I].
          - apply in_map_iff in I. destruct I as (c & E1 & I). injection E1 as <- <-. split; [reflexivity|left; eauto].
          - destruct wo as [|w wo']; [destruct I|]. destruct I as [E1|[]]. injection E1 as <- <-. split; [reflexivity|right; split; [reflexivity|discriminate]]. }
        eexists. split; [reflexivity|]. rewrite Ec. split; [intros cs e' I; apply (HI cs e' I)|]. split; [|split; [|split]].
        * apply NoDup_app_intro; [exact Nwn|exact Nwo|]. intros c I1 I2. apply Hwo in I2. tauto.
        * intros c. rewrite in_app_iff, Hwo. destruct (in_dec eqd c wn) as [I|N]; [pose proof (Hsub c I)|]; tauto.
        * intros cs e' c v I Ic It (x & Ix & Nx). destruct (HI cs e' I) as (_ & [(c' & -> & I')|(-> & _)]).
          -- destruct Ic as [->|[]]. reflexivity.
          -- exfalso. apply Hwo in Ic. apply (proj2 Ic). apply (Hwn c v It). apply existsb_exists. eauto.
        * intros cs e' I. split; [|split; [|discriminate]]; destruct (HI cs e' I) as (_ & [(c' & -> & I')|(-> & Hn)]); try assumption; [discriminate|].
          constructor; [intros []|constructor].
      + exists (map (fun c => ([c], e)) (column_names table)). split; [reflexivity|]. rewrite concat_singles.
        assert (HI : forall cs e', In (cs, e') (map (fun c => ([c], e)) (column_names table)) -> e' = e /\ exists c, cs = [c]).
        { intros cs e' I. apply in_map_iff in I. destruct I as (c & E1 & I). injection E1 as <- <-. eauto. }
        split; [intros cs e' I; apply (HI cs e' I)|]. split; [exact ND|]. split; [tauto|]. split.
        * intros cs e' c v I Ic _ _. destruct (HI cs e' I) as (_ & c' & ->). destruct Ic as [->|[]]. reflexivity.
        * intros cs e' I. destruct (HI cs e' I) as (_ & c' & ->). split; [discriminate|].
          split; [constructor; [intros []|constructor]|reflexivity].
  Qed.

  Lemma in_concat_fst : forall (l : list (list string * est)) c, In c (concat (map fst l)) <-> exists cs e, In (cs, e) l /\ In c cs.
  Proof.
    intros l c. rewrite in_concat. split.
    - intros (x & I1 & I2). apply in_map_iff in I1. destruct I1 as ([cs e] & <- & I). eauto.
    - intros (cs & e & I1 & I2). exists cs. split; [|exact I2]. apply in_map_iff. exists (cs, e). auto.
  Qed.

  Lemma assignments_spec : forall aux ak, NoDup (column_names aux) ->
    exists assigns, assignments isnull lib numeric is_string categorical set_order multi_output aux ak = Ok assigns /\
      WellAssigned aux ak assigns.
  Proof.
    intros aux ak ND. unfold assignments.
    destruct (select_spec (SInv (SCols ak)) aux) as (aux' & E1 & F1); [intros (l & X); discriminate|intros c v _; exact I|exact ND|].
    rewrite E1. cbn [bind]. pose proof (FilterOf_NoDup_names _ _ _ F1 ND) as ND1.
    destruct (select_spec (sel_numeric numeric) aux') as (rt & E2 & F2); [intros (l & X); discriminate|intros c v _; simpl; eauto|exact ND1|].
    rewrite E2. cbn [bind]. pose proof (FilterOf_NoDup_names _ _ _ F2 ND1) as ND2.
    destruct (assignments_for_spec (nrows_of aux) rt Regressor ND2) as (a1 & G1 & R1 & R2 & R3 & R4 & R5).
    rewrite G1. cbn [bind].
    destruct (select_spec (sel_class is_string categorical) aux') as (ct & E3 & F3); [intros (l & X); discriminate|intros c v _; simpl; eauto|exact ND1|].
    rewrite E3. cbn [bind]. pose proof (FilterOf_NoDup_names _ _ _ F3 ND1) as ND3.
    destruct (assignments_for_spec (nrows_of aux) ct Classifier ND3) as (a2 & G2 & C1 & C2 & C3 & C4 & C5).
    rewrite G2. cbn [bind]. exists (a1 ++ a2). split; [reflexivity|].
    assert (Haux' : forall c v, In (c, v) aux' <-> In (c, v) aux /\ ~ In c ak).
    { intros c v. rewrite (FilterOf_incl _ _ _ F1). simpl. tauto. }
    assert (Hrt : forall c v, In (c, v) rt <-> In (c, v) aux /\ ~ In c ak /\ numeric c v = true).
    { intros c v. rewrite (FilterOf_incl _ _ _ F2), Haux'. simpl. split; intros H; intuition congruence. }
    assert (Hct : forall c v, In (c, v) ct <-> In (c, v) aux /\ ~ In c ak /\ (is_string c v = true \/ categorical c v = true)).
    { intros c v. rewrite (FilterOf_incl _ _ _ F3), Haux'. simpl. split; intros H; intuition congruence. }
    assert (Tr : forall c, Target aux ak Regressor c <-> In c (column_names rt)).
    { intros c. rewrite in_names. unfold Target. split; intros (v & H); exists v; apply Hrt; exact H. }
    assert (Tc : forall c, Target aux ak Classifier c <-> In c (column_names ct)).
    { intros c. rewrite in_names. unfold Target. split; intros (v & H); exists v; apply Hct; exact H. }
    split; [|split; [|split]].
    - intros e c. split.
      + intros T. destruct e.
        * apply Tr, R3, in_concat_fst in T. destruct T as (cs & e' & I1 & I2). rewrite (R1 _ _ I1) in I1. exists cs. rewrite in_app_iff. auto.
        * apply Tc, C3, in_concat_fst in T. destruct T as (cs & e' & I1 & I2). rewrite (C1 _ _ I1) in I1. exists cs. rewrite in_app_iff. auto.
      + intros (cs & I & Ic). apply in_app_iff in I. destruct I as [I|I].
        * pose proof (R1 _ _ I). subst e. apply Tr, R3, in_concat_fst. eauto.
        * pose proof (C1 _ _ I). subst e. apply Tc, C3, in_concat_fst. eauto.
    - intros D. rewrite map_app, concat_app. apply NoDup_app_intro; [exact R2|exact C2|].
      intros c I1 I2. apply R3, in_names in I1. apply C3, in_names in I2. destruct I1 as (v & I1), I2 as (v' & I2).
      apply Hrt in I1. apply Hct in I2. destruct I1 as (J1 & _ & J2), I2 as (K1 & _ & K2).
      rewrite (NoDup_names_unique _ _ _ _ ND K1 J1) in K2. destruct (D c v J1 J2). intuition congruence.
    - intros cs e c v I Ic Ia Hn. apply in_app_iff in I. destruct I as [I|I].
      + apply (R4 cs e c v I Ic); [|exact Hn].
        assert (Ir : In c (column_names rt)) by (apply R3, in_concat_fst; eauto). apply in_names in Ir. destruct Ir as (v' & Ir).
        assert (v' = v) as <-; [|exact Ir]. apply Hrt in Ir. exact (NoDup_names_unique _ _ _ _ ND (proj1 Ir) Ia).
      + apply (C4 cs e c v I Ic); [|exact Hn].
        assert (Ir : In c (column_names ct)) by (apply C3, in_concat_fst; eauto). apply in_names in Ir. destruct Ir as (v' & Ir).
        assert (v' = v) as <-; [|exact Ir]. apply Hct in Ir. exact (NoDup_names_unique _ _ _ _ ND (proj1 Ir) Ia).
    - intros cs e I. apply in_app_iff in I. destruct I as [I|I].
      + destruct (R5 cs e I) as (H1 & H2 & H3). rewrite (R1 _ _ I) in *. auto.
      + destruct (C5 cs e I) as (H1 & H2 & H3). rewrite (C1 _ _ I) in *. auto.
  Qed.

  Context {A VS : Type}.
  Variable vec_fit : frame (list V) -> res (VS * list A).
  Context {Mdl : Type}.
  Variable efit : est -> list A -> list (list V) -> res Mdl.

  (** ** Training *)
  (** The vectors [kv'] and targets [Y] given to an estimator: for each column, all the rows without
      null in this column. *)
  Definition Training (kv : list A) (aux : frame (list V)) (cs : list string) (kv' : list A) (Y : list (list V)) : Prop :=
    Forall2 (fun c y => exists v, In (c, v) aux /\ length y = length kv' /\
               combine kv' y = filter (fun q => negb (isnull (snd q))) (combine kv v)) cs Y.

  Definition ok_models (assigns : list (list string * est)) (rs : list (res Mdl)) : list (list string * Mdl) :=
    concat (map (fun ar => match snd ar with Ok m => [(fst (fst ar), m)] | Err _ => [] end) (combine assigns rs)).
  Definition ko_columns (assigns : list (list string * est)) (rs : list (res Mdl)) : list string :=
    concat (map (fun ar => match snd ar with Ok _ => [] | Err _ => fst (fst ar) end) (combine assigns rs)).

  Definition Rectangular (t : frame (list V)) (n : nat) : Prop := forall c v, In (c, v) t -> length v = n.
  (** One vector per row. *)
  Definition VecRows : Prop := forall t vs kv n, vec_fit t = Ok (vs, kv) -> t <> [] -> Rectangular t n -> length kv = n.

  Lemma keep_rows_len : forall {B B'} d (l : list B) (l' : list B'), length l = length l' -> length (keep_rows d l) = length (keep_rows d l').
  Proof.
    intros B B' d. unfold keep_rows. induction d as [|b d IH]; intros [|x l] [|y l'] L; simpl in *; try discriminate; try reflexivity.
    injection L as L. destruct b; simpl; [apply IH, L|]. f_equal. apply IH, L.
  Qed.
  Lemma keep_rows_combine : forall (kv : list A) v, length kv = length v ->
    combine (keep_rows (map isnull v) kv) (keep_rows (map isnull v) v) = filter (fun q => negb (isnull (snd q))) (combine kv v).
  Proof.
    induction kv as [|k kv IH]; intros [|x v] L; simpl in *; try discriminate; [reflexivity|].
    injection L as L. specialize (IH v L). unfold keep_rows in *. simpl. destruct (isnull x); simpl; [exact IH|]. f_equal. exact IH.
  Qed.

  Lemma any_null_none : forall cols n, cols <> [] -> (forall c, In c cols -> length c = n /\ forall x, In x c -> isnull x = false) ->
    any_null isnull cols = repeat false n.
  Proof.
    assert (G : forall (c : list V) n, length c = n -> (forall x, In x c -> isnull x = false) -> map isnull c = repeat false n).
    { induction c as [|x c IH]; intros n L Hx; subst n; [reflexivity|]. simpl. rewrite (Hx x (or_introl eq_refl)). f_equal. apply IH; [reflexivity|].
      intros y I. apply Hx. right. exact I. }
    assert (O : forall n, or_rows (repeat false n) (repeat false n) = repeat false n) by (induction n; simpl; congruence).
    induction cols as [|c cols IH]; intros n Hn Hc; [congruence|].
    destruct (Hc c (or_introl eq_refl)) as [L1 L2]. destruct cols as [|c2 cols]; [apply G; assumption|].
    change (or_rows (map isnull c) (any_null isnull (c2 :: cols)) = repeat false n).
    rewrite (IH n); [|discriminate|intros c' I; apply Hc; right; exact I]. rewrite (G c n L1 L2). apply O.
  Qed.

  Lemma map_isnull_none : forall (v : list V) n, length v = n -> (forall x, In x v -> isnull x = false) -> map isnull v = repeat false n.
  Proof.
    induction v as [|x v IH]; intros n L Hx; subst n; [reflexivity|]. simpl. rewrite (Hx x (or_introl eq_refl)). f_equal.
    apply IH; [reflexivity|]. intros y I. apply Hx. right. exact I.
  Qed.

  (** For each column of the target, the discarded rows are those where this column is null. *)
  Lemma discarded_spec : forall (target : frame (list V)) n, target <> [] -> Rectangular target n ->
    (forall c v, In (c, v) target -> (exists x, In x v /\ isnull x = true) -> target = [(c, v)]) ->
    forall c v, In (c, v) target -> any_null isnull (map snd target) = map isnull v.
  Proof.
    intros target n Hne HR H1 c v I.
    destruct (existsb isnull v) eqn:Ev.
    - apply existsb_exists in Ev. rewrite (H1 c v I Ev). reflexivity.
    - assert (Nn : forall c' v', In (c', v') target -> forall x, In x v' -> isnull x = false).
      { intros c' v' I' x Ix. destruct (isnull x) eqn:Ex; [|reflexivity]. exfalso.
        rewrite (H1 c' v' I') in I by eauto. destruct I as [E|[]]. injection E as -> ->.
        assert (X : existsb isnull v = true) by (apply existsb_exists; eauto). congruence. }
      rewrite (any_null_none _ n).
      + symmetry. apply map_isnull_none; [exact (HR c v I)|exact (Nn c v I)].
      + destruct target; [congruence|discriminate].
      + intros v' Iv. apply in_map_iff in Iv. destruct Iv as ([c' v''] & <- & I'). split; [exact (HR c' v'' I')|exact (Nn c' v'' I')].
  Qed.

  Lemma fit_one_spec : forall aux n kv cs e target, NoDup (column_names aux) -> Rectangular aux n -> length kv = n ->
    select aux (SCols cs) = Ok target -> (forall c, In c cs -> In c (column_names aux)) -> cs <> [] ->
    (forall c v, In c cs -> In (c, v) aux -> (exists x, In x v /\ isnull x = true) -> cs = [c]) ->
    exists kv' Y, Training kv aux cs kv' Y /\
      forall raise, fit_one isnull efit raise kv target e =
      match efit e kv' Y with Ok m => Ok (cs, Some m) | Err x => if raise then Err x else Ok (cs, None) end.
  Proof.
    intros aux n kv cs e target ND HR Lk Es Hcs Hne Hn.
    destruct (select_cols_ok cs aux ND Hcs) as (t & Et & En & Hin). assert (t = target) by congruence. subst t. clear Et.
    set (d := any_null isnull (map snd target)).
    assert (Hd : forall c v, In (c, v) target -> d = map isnull v).
    { apply (discarded_spec target n).
      - intros ->. simpl in En. congruence.
      - intros c v I. apply (HR c v). apply Hin, I.
      - intros c v I Hx. assert (cs = [c]) as Ecs.
        { apply (Hn c v); [|apply Hin, I|exact Hx]. rewrite <- En. apply in_names. eauto. }
        rewrite Ecs in En. destruct target as [|[c0 v0] [|]]; try discriminate. destruct I as [->|[]]. reflexivity. }
    exists (keep_rows d kv), (map (keep_rows d) (map snd target)). split; [|intros raise; unfold fit_one; rewrite En; reflexivity].
    rewrite <- En. unfold Training, column_names.
    assert (G : forall l : frame (list V), (forall q, In q l -> In q target) ->
      Forall2 (fun c y => exists v, In (c, v) aux /\ length y = length (keep_rows d kv) /\
        combine (keep_rows d kv) y = filter (fun q => negb (isnull (snd q))) (combine kv v)) (map fst l) (map (keep_rows d) (map snd l))).
    { induction l as [|[c v] l IH]; intros Hl; simpl; constructor; [|apply IH; intros q I; apply Hl; right; exact I].
      assert (It : In (c, v) target) by (apply Hl; left; reflexivity).
      assert (Lv : length v = n) by (apply (HR c v), Hin, It).
      exists v. split; [apply Hin, It|]. split; [apply keep_rows_len; congruence|].
      rewrite (Hd c v It). apply keep_rows_combine. congruence. }
    apply G. auto.
  Qed.

  (** ** fit *)
  Lemma bindI : forall {X Y} (r : res X) (f : X -> res Y) b, bind r f = Ok b -> exists a, r = Ok a /\ f a = Ok b.
  Proof. intros X Y [a|e] f b E; [eauto|discriminate]. Qed.

  Definition fit_ := fit isnull lib numeric is_string categorical set_order vec_fit multi_output efit.

  (** The outcome of each assignment. *)
  Definition Outcomes (kv : list A) (aux : frame (list V)) (assigns : list (list string * est)) (rs : list (res Mdl)) : Prop :=
    Forall2 (fun a r => exists kv' Y, Training kv aux (fst a) kv' Y /\ r = efit (snd a) kv' Y) assigns rs.

  Lemma run_fits : forall aux n kv ak raise assigns, NoDup (column_names aux) -> Rectangular aux n -> length kv = n ->
    WellAssigned aux ak assigns ->
    forall l, (forall a, In a l -> In a assigns) ->
    exists rs, Outcomes kv aux l rs /\
      match mapM (fun a => let! target := select aux (SCols (fst a)) in fit_one isnull efit raise kv target (snd a)) l with
      | Ok out => successful out = ok_models l rs /\ failed_columns out = ko_columns l rs /\
                  (raise = true -> Forall (fun r => exists m, r = Ok m) rs)
      | Err x => raise = true /\ exists i, (forall j, j < i -> exists m, nth_error rs j = Some (Ok m)) /\ nth_error rs i = Some (Err x)
      end.
  Proof.
    intros aux n kv ak raise assigns ND HR Lk (W1 & _ & W3 & W4). induction l as [|[cs e] l IH]; intros Hl.
    - exists []. split; [constructor|]. simpl. repeat split. intros _. constructor.
    - destruct IH as (rs & Ho & Hm); [intros a I; apply Hl; right; exact I|].
      assert (Ia : In (cs, e) assigns) by (apply Hl; left; reflexivity).
      assert (Hc : forall c, In c cs -> In c (column_names aux)).
      { intros c Ic. assert (T : Target aux ak e c) by (apply W1; eauto). destruct T as (v & I & _). apply in_names. eauto. }
      destruct (select_cols_ok cs aux ND Hc) as (target & Et & _ & _).
      destruct (fit_one_spec aux n kv cs e target ND HR Lk Et Hc) as (kv' & Y & HT & HF).
      { apply (W4 cs e Ia). }
      { intros c v Ic Iv Hx. exact (W3 cs e c v Ia Ic Iv Hx). }
      exists (efit e kv' Y :: rs). split; [constructor; [exists kv', Y; split; [exact HT|reflexivity]|exact Ho]|].
      cbn [mapM fst snd]. rewrite Et. cbn [bind]. rewrite HF.
      destruct (efit e kv' Y) as [m|x] eqn:Ee.
      + cbn [bind]. destruct (mapM _ l) as [out|x]; cbn [bind].
        * destruct Hm as (H1 & H2 & H3). unfold successful, failed_columns, ok_models, ko_columns in *. simpl. rewrite H1, H2. repeat split.
          intros Hr. constructor; [eauto|]. apply H3, Hr.
        * destruct Hm as (H1 & i & H2 & H3). split; [exact H1|]. exists (S i). split; [|exact H3].
          intros [|j] L; simpl; [eauto|]. apply H2. lia.
      + destruct raise; cbn [bind].
        * split; [reflexivity|]. exists 0. split; [intros j L; lia|reflexivity].
        * destruct (mapM _ l) as [out|x']; cbn [bind].
          -- destruct Hm as (H1 & H2 & H3). unfold successful, failed_columns, ok_models, ko_columns in *. simpl. rewrite H1, H2. repeat split. discriminate.
          -- destruct Hm as (H1 & _). discriminate.
  Qed.

  Theorem fit_spec : forall p X n mk ak vs kv, NoDup (column_names (i_aux p)) -> Rectangular (i_aux p) n -> VecRows ->
    Keys p mk ak -> ak <> [] -> (forall c, In c ak -> In c (column_names (i_aux p))) ->
    (forall t, X = Some t -> forall c, In c mk -> In c (column_names t)) ->
    (forall keytab, column_names keytab = ak -> (forall q, In q keytab -> In q (i_aux p)) -> vec_fit keytab = Ok (vs, kv)) ->
    exists assigns rs, WellAssigned (i_aux p) ak assigns /\ Outcomes kv (i_aux p) assigns rs /\
      match fit_ p X with
      | Ok f => f = mk_interp_fitted p mk ak vs (ok_models assigns rs) (if is_pass (i_policy p) then [] else ko_columns assigns rs) /\
                (i_policy p = PRaise -> Forall (fun r => exists m, r = Ok m) rs)
      | Err x => i_policy p = PRaise /\ exists i, (forall j, j < i -> exists m, nth_error rs j = Some (Ok m)) /\ nth_error rs i = Some (Err x)
      end.
  Proof.
    intros p X n mk ak vs kv ND HR HV HK Hne Hak HX Hvec.
    destruct (assignments_spec (i_aux p) ak ND) as (assigns & Ea & W).
    destruct (select_cols_ok ak (i_aux p) ND Hak) as (keytab & Ek & En & Hin).
    specialize (Hvec keytab En Hin).
    assert (Lk : length kv = n).
    { apply (HV keytab vs kv n Hvec).
      - intros ->. simpl in En. congruence.
      - intros c v I. apply (HR c v), Hin, I. }
    destruct (run_fits (i_aux p) n kv ak (is_raise (i_policy p)) assigns ND HR Lk W assigns (fun _ I => I)) as (rs & Ho & Hm).
    exists assigns, rs. split; [exact W|]. split; [exact Ho|].
    unfold fit_, fit. rewrite (proj2 (check_key_spec _ _ _ mk ak) HK). cbn [bind].
    rewrite (proj2 (proj1 (check_missing_spec _ _)) Hak). cbn [bind].
    assert (EX : match X with None => Ok tt | Some t => check_missing_columns (column_names t) mk end = Ok tt).
    { destruct X as [t|]; [|reflexivity]. apply (proj2 (proj1 (check_missing_spec _ _))). apply (HX t eq_refl). }
    rewrite EX. cbn [bind]. rewrite Ek. cbn [bind]. rewrite Hvec. cbn [bind]. rewrite Ea. cbn [bind].
    destruct (mapM _ assigns) as [out|x]; cbn [bind].
    - destruct Hm as (-> & -> & H3). split; [reflexivity|]. intros E. apply H3. rewrite E. reflexivity.
    - destruct Hm as (H1 & H2). split; [|exact H2]. destruct (i_policy p); [reflexivity|discriminate|discriminate].
  Qed.

  (** Wrong keys are refused. *)
  Theorem fit_refuses : forall p X,
    ((forall mk ak, ~ Keys p mk ak) -> exists e, fit_ p X = Err e) /\
    (forall mk ak, Keys p mk ak ->
       (exists c, In c ak /\ ~ In c (column_names (i_aux p))) \/
       ((forall c, In c ak -> In c (column_names (i_aux p))) /\ exists t c, X = Some t /\ In c mk /\ ~ In c (column_names t)) ->
       fit_ p X = Err ValueError).
  Proof.
    intros p X. unfold fit_, fit. split.
    - intros HN. destruct (check_key (i_main_key p) (i_aux_key p) (i_key p)) as [[mk ak]|e] eqn:E; [|eexists; reflexivity].
      exfalso. apply (HN mk ak). apply check_key_spec. exact E.
    - intros mk ak HK H. rewrite (proj2 (check_key_spec _ _ _ mk ak) HK). cbn [bind]. destruct H as [H|(H1 & t & c & -> & H)].
      + rewrite (proj2 (proj2 (check_missing_spec _ _)) H). reflexivity.
      + rewrite (proj2 (proj1 (check_missing_spec _ _)) H1). cbn [bind].
        rewrite (proj2 (proj2 (check_missing_spec (column_names t) mk))); [reflexivity|eauto].
  Qed.

  (** The columns of the estimators kept by [fit] are columns of the auxiliary table. *)
  Lemma ok_models_columns : forall aux ak assigns rs, WellAssigned aux ak assigns ->
    forall cs m, In (cs, m) (ok_models assigns rs) -> cs <> [] /\ forall c, In c cs -> In c (column_names aux).
  Proof.
    intros aux ak assigns rs (W1 & _ & _ & W4) cs m I. unfold ok_models in I. apply in_concat in I. destruct I as (l & I1 & I2).
    apply in_map_iff in I1. destruct I1 as ([[cs' e] r] & <- & I1). apply in_combine_l in I1. simpl in I2.
    destruct r as [m'|]; [|destruct I2]. destruct I2 as [E|[]]. injection E as <- <-.
    split; [apply (W4 cs' e I1)|]. intros c Ic. assert (T : Target aux ak e c) by (apply W1; eauto).
    destruct T as (v & I & _). apply in_names. eauto.
  Qed.
End Interp.

Section Predict.
  Context {V : Type}.
  Variable null : V.
  Context {A VS : Type}.
  Variable vec_transform : VS -> frame (list V) -> res (list A).
  Context {Mdl : Type}.
  Variable epredict : Mdl -> list A -> res (list (list V)).

  (** ** transform *)
  Definition transform_ := transform null vec_transform epredict.

  (** The columns for one estimator. *)
  Definition Block (kv : list A) (cm : list string * Mdl) (b : list (list V)) : Prop :=
    match epredict (snd cm) kv with
    | Ok Y => b = Y
    | Err _ => b = repeat (repeat null (length kv)) (length (fst cm))
    end.
  Definition PredictShape (kv : list A) (f : interp_fitted (V := V) (VS := VS) (Mdl := Mdl)) : Prop :=
    forall cs m Y, In (cs, m) (f_estimators f) -> epredict m kv = Ok Y -> length Y = length cs.

  Lemma null_frame_ok : forall aux n cs, (forall c, In c cs -> In c (column_names aux)) ->
    null_frame null aux n cs = Ok (combine cs (repeat (repeat null n) (length cs))).
  Proof.
    intros aux n cs. unfold null_frame. induction cs as [|c cs IH]; intros Hc; [reflexivity|]. cbn [mapM length repeat combine].
    destruct (dget c aux) as [v|] eqn:D.
    - cbn [bind]. rewrite IH by (intros c' I; apply Hc; right; exact I). reflexivity.
    - exfalso. apply (proj1 (dget_none_iff aux c) D). apply Hc. left. reflexivity.
  Qed.

  Lemma run_predictions : forall (aux : frame (list V)) kv raise ests,
    (forall cs m, In (cs, m) ests -> (forall c, In c cs -> In c (column_names aux)) /\
       forall Y, epredict m kv = Ok Y -> length Y = length cs) ->
    match mapM (fun cm => predict_one epredict raise kv (fst cm) (snd cm)) ests with
    | Ok rs => exists blocks, Forall2 (Block kv) ests blocks /\ Forall2 (fun cm b => length b = length (fst cm)) ests blocks /\
        mapM (checked null aux (length kv)) rs = Ok (map (fun cb => combine (fst (fst cb)) (snd cb)) (combine ests blocks)) /\
        flat_map (fun r => match snd r with Some _ => [] | None => fst r end) rs =
        concat (map (fun cm => match epredict (snd cm) kv with Ok _ => [] | Err _ => fst cm end) ests) /\
        (raise = true -> forall cs m, In (cs, m) ests -> exists Y, epredict m kv = Ok Y)
    | Err x => raise = true /\ exists i cs m, nth_error ests i = Some (cs, m) /\ epredict m kv = Err x /\
        forall j cs' m', j < i -> nth_error ests j = Some (cs', m') -> exists Y, epredict m' kv = Ok Y
    end.
  Proof.
    intros aux kv raise. induction ests as [|[cs m] ests IH]; intros HE.
    - simpl. exists []. repeat split; try constructor. intros _ ? ? [].
    - destruct (HE cs m (or_introl eq_refl)) as [Hc HY].
      specialize (IH (fun cs' m' I => HE cs' m' (or_intror I))).
      cbn [mapM fst snd]. unfold predict_one at 1. destruct (epredict m kv) as [Y|x] eqn:Ee.
      + cbn [bind]. destruct (mapM _ ests) as [rs|x]; cbn [bind].
        * destruct IH as (blocks & B1 & B2 & B3 & B4 & B5). exists (Y :: blocks).
          split; [constructor; [unfold Block; simpl; rewrite Ee; reflexivity|exact B1]|].
          split; [constructor; [simpl; apply HY; reflexivity|exact B2]|].
          assert (Ec : match cs with [c] => [(c, concat Y)] | _ => combine cs Y end = combine cs Y).
          { destruct cs as [|c [|c2 cs]]; try reflexivity. specialize (HY Y eq_refl). destruct Y as [|y [|]]; try discriminate.
            simpl. rewrite app_nil_r. reflexivity. }
          rewrite Ec. split; [cbn [mapM]; unfold checked at 1; cbn [snd bind]; rewrite B3; reflexivity|].
          split; [simpl; rewrite Ee; exact B4|]. intros Hr cs' m' [E|I]; [injection E as <- <-; eauto|]. apply (B5 Hr cs' m' I).
        * destruct IH as (H1 & i & cs' & m' & H2 & H3 & H4). split; [exact H1|]. exists (S i), cs', m'. split; [exact H2|]. split; [exact H3|].
          intros [|j] cs2 m2 L E; simpl in E; [injection E as <- <-; eauto|]. apply (H4 j cs2 m2); [lia|exact E].
      + destruct raise; cbn [bind].
        * split; [reflexivity|]. exists 0, cs, m. split; [reflexivity|]. split; [exact Ee|]. intros j; lia.
        * destruct (mapM _ ests) as [rs|x']; cbn [bind].
          -- destruct IH as (blocks & B1 & B2 & B3 & B4 & B5). exists (repeat (repeat null (length kv)) (length cs) :: blocks).
             split; [constructor; [unfold Block; simpl; rewrite Ee; reflexivity|exact B1]|].
             split; [constructor; [simpl; apply repeat_length|exact B2]|].
             split; [cbn [mapM]; unfold checked at 1; cbn [snd fst]; rewrite null_frame_ok by exact Hc; cbn [bind]; rewrite B3; reflexivity|].
             split; [simpl; rewrite Ee; f_equal; exact B4|]. discriminate.
          -- destruct IH as (H1 & _). discriminate.
  Qed.

  Definition suffixed (suffix : string) (f : interp_fitted (V := V) (VS := VS) (Mdl := Mdl)) : list string :=
    map (fun c => (c ++ suffix)%string) (concat (map fst (f_estimators f))).

  Lemma set_names_combine : forall cs (b : list (list V)) g, length b = length cs ->
    set_column_names (combine cs b) (map g (column_names (combine cs b))) = combine (map g cs) b.
  Proof.
    intros cs b g. unfold set_column_names, column_names. revert b. induction cs as [|c cs IH]; intros [|x b] L; simpl in *; try discriminate; [reflexivity|].
    f_equal. apply IH. congruence.
  Qed.

  Lemma renamed_frames : forall suffix (ests : list (list string * Mdl)) (blocks : list (list (list V))),
    Forall2 (fun cm b => length b = length (fst cm)) ests blocks ->
    concat (map (fun df => set_column_names df (map (fun c => (c ++ suffix)%string) (column_names df)))
      (map (fun cb => combine (fst (fst cb)) (snd cb)) (combine ests blocks))) =
    combine (map (fun c => (c ++ suffix)%string) (concat (map fst ests))) (concat blocks) /\
    length (concat blocks) = length (concat (map fst ests)).
  Proof.
    intros suffix ests blocks F. induction F as [|[cs m] b ests blocks L F [IH1 IH2]]; [split; reflexivity|].
    cbn [combine map concat fst snd] in *. rewrite set_names_combine by exact L. rewrite IH1. split; [|rewrite !app_length; congruence].
    rewrite map_app. clear -L. revert b L. induction cs as [|c cs IH]; intros [|x b] L; simpl in *; try discriminate; [reflexivity|].
    f_equal. apply IH. congruence.
  Qed.

  Theorem transform_spec : forall draw f X kv,
    NoDup (column_names X) -> (forall c, In c (f_main_key f) -> In c (column_names X)) -> length (f_aux_key f) = length (f_main_key f) ->
    (forall keytab, column_names keytab = f_aux_key f ->
       (exists l, column_names l = f_main_key f /\ (forall q, In q l -> In q X) /\ column_data keytab = column_data l) ->
       vec_transform (f_vec f) keytab = Ok kv) ->
    (forall cs m, In (cs, m) (f_estimators f) -> forall c, In c cs -> In c (column_names (i_aux (f_params f)))) ->
    PredictShape kv f ->
    match transform_ draw f X with
    | Ok (out, warned) =>
        exists blocks, Forall2 (Block kv) (f_estimators f) blocks /\
          column_data out = column_data X ++ concat blocks /\
          (Fresh draw (length (column_names X ++ suffixed (i_suffix (f_params f)) f)) (column_names X ++ suffixed (i_suffix (f_params f)) f) [] ->
             NoDup (column_names out)) /\
          (NoDup (column_names X ++ suffixed (i_suffix (f_params f)) f) ->
           (forall s, In s (column_names X ++ suffixed (i_suffix (f_params f)) f) -> ~ SubString "__skrub_" s) ->
           column_names out = column_names X ++ suffixed (i_suffix (f_params f)) f) /\
          (i_policy (f_params f) = PRaise -> forall cs m, In (cs, m) (f_estimators f) -> exists Y, epredict m kv = Ok Y) /\
          warned = if is_pass (i_policy (f_params f)) then []
                   else concat (map (fun cm => match epredict (snd cm) kv with Ok _ => [] | Err _ => fst cm end) (f_estimators f))
    | Err x => i_policy (f_params f) = PRaise /\ exists i cs m, nth_error (f_estimators f) i = Some (cs, m) /\ epredict m kv = Err x /\
        forall j cs' m', j < i -> nth_error (f_estimators f) j = Some (cs', m') -> exists Y, epredict m' kv = Ok Y
    end.
  Proof.
    intros draw f X kv ND Hmk Lk Hvec HA HP. unfold transform_, transform.
    rewrite (proj2 (proj1 (check_missing_spec _ _)) Hmk). cbn [bind].
    destruct (select_cols_ok (f_main_key f) X ND Hmk) as (l & El & En & Hin). rewrite El. cbn [bind].
    assert (Ll : length l = length (f_main_key f)) by (rewrite <- En; unfold column_names; rewrite map_length; reflexivity).
    assert (HN : column_names (set_column_names l (f_aux_key f)) = f_aux_key f /\ column_data (set_column_names l (f_aux_key f)) = column_data l).
    { unfold column_names, column_data, set_column_names. rewrite <- Ll in Lk. clear -Lk. revert Lk. generalize (f_aux_key f). induction l as [|[a c] l IH]; intros [|k ks] L; simpl in *; try discriminate; [split; reflexivity|].
      destruct (IH ks) as [H1 H2]; [congruence|]. split; congruence. }
    rewrite (Hvec (set_column_names l (f_aux_key f))); [|apply HN|exists l; split; [exact En|]; split; [exact Hin|apply HN]].
    cbn [bind].
    pose proof (run_predictions (i_aux (f_params f)) kv (is_raise (i_policy (f_params f))) (f_estimators f)) as RP.
    assert (HE : forall cs m, In (cs, m) (f_estimators f) -> (forall c, In c cs -> In c (column_names (i_aux (f_params f)))) /\
       forall Y, epredict m kv = Ok Y -> length Y = length cs).
    { intros cs m I. split; [exact (HA cs m I)|]. intros Y EY. exact (HP cs m Y I EY). }
    specialize (RP HE). clear HE. destruct (mapM _ (f_estimators f)) as [rs|x]; cbn [bind].
    - destruct RP as (blocks & B1 & B2 & B3 & B4 & B5). rewrite B3. cbn [bind].
      set (renamed := map _ (map _ (combine (f_estimators f) blocks))).
      destruct (renamed_frames (i_suffix (f_params f)) (f_estimators f) blocks B2) as [R1 R2].
      change (concat renamed = combine (map (fun c => (c ++ i_suffix (f_params f))%string) (concat (map fst (f_estimators f)))) (concat blocks)) in R1.
      clearbody renamed.
      assert (CN : column_names (concat (X :: renamed)) = column_names X ++ suffixed (i_suffix (f_params f)) f).
      { simpl. unfold column_names. rewrite map_app. f_equal. rewrite R1. unfold suffixed.
        rewrite <- (map_length (fun c => (c ++ i_suffix (f_params f))%string)) in R2. revert R2. generalize (concat blocks) (map (fun c => (c ++ i_suffix (f_params f))%string) (concat (map fst (f_estimators f)))).
        clear. intros l l0. revert l. induction l0 as [|s l0 IH]; intros [|b l] L; simpl in *; try discriminate; [reflexivity|]. f_equal. apply IH. congruence. }
      assert (CD : column_data (concat (X :: renamed)) = column_data X ++ concat blocks).
      { simpl. unfold column_data. rewrite map_app. f_equal. rewrite R1.
        rewrite <- (map_length (fun c => (c ++ i_suffix (f_params f))%string)) in R2. revert R2. generalize (concat blocks) (map (fun c => (c ++ i_suffix (f_params f))%string) (concat (map fst (f_estimators f)))).
        clear. intros l l0. revert l. induction l0 as [|s l0 IH]; intros [|b l] L; simpl in *; try discriminate; [reflexivity|]. f_equal. apply IH. congruence. }
      destruct (concat_horizontal draw (X :: renamed)) as [out|] eqn:Eo; [|discriminate]. cbn [bind].
      exists blocks. split; [exact B1|]. split; [|split; [|split; [|split]]].
      + rewrite <- CD. unfold concat_horizontal in Eo. injection Eo as <-. unfold make_column_names_unique. apply (make_unique_data draw (X :: renamed)).
      + intros F. rewrite <- CN in F. destruct (concat_ok draw (X :: renamed)) as (out' & E' & _ & N'); [discriminate|exact F|]. congruence.
      + intros N HT. rewrite <- CN in N, HT. rewrite (concat_untagged draw (X :: renamed)) in Eo; [|discriminate|exact N|exact HT].
        injection Eo as <-. exact CN.
      + intros E. apply B5. rewrite E. reflexivity.
      + rewrite B4. reflexivity.
    - destruct RP as (H1 & H2). split; [|exact H2]. destruct (i_policy (f_params f)); [reflexivity|discriminate|discriminate].
  Qed.

End Predict.
