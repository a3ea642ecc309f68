(** Selectors by type and by values: lemmas. *)
From Verif Require Import Base M_seltypes.
From Coq Require Import Lia.
Open Scope list_scope.
Open Scope nat_scope.
Set Default Proof Using "Type".

(** * Specification *)
Definition entries {X} (c : column X) : list (cell X) := match c with Pandas _ l | Polars _ l => l end.
Definition missing {X} (x : cell X) : Prop := x = CNull \/ x = CNaN.
(** columns in which NaN stands for a null, or is not there *)
Definition nan_is_null {X} (c : column X) : Prop :=
  match c with Pandas PFloatNA l | Pandas (PArrow _) l => ~ In CNaN l | Pandas _ _ => True | Polars LFloat _ => True | Polars _ l => ~ In CNaN l end.
(** [n] different values among the entries that are there *)
Definition n_values {X Y} (key : cell X -> Y) (l : list (cell X)) (n : nat) : Prop :=
  exists d : list Y, NoDup d /\ length d = n /\ forall y, In y d <-> exists x, In x l /\ ~ missing x /\ key x = y.
(** nulls and at least one value, of one kind *)
Definition of_kind {X} (k : kind) (l : list (cell X)) : Prop :=
  (forall x, In x l -> x = CNull \/ exists v, x = CVal k v) /\ (exists v, In (CVal k v) l).

Section Types.
  Context {X Y : Type} {EX : EqD X} {EY : EqD Y}.
  Variable eis : bool.
  Variable key : cell X -> Y.
  Variable countable : column X -> bool.
  Notation column := (column X).
  Notation is_string := (is_string eis).

  Lemma all_kind_true : forall k (l : list (cell X)), all_kind k l = true -> l <> [] /\ forall x, In x l -> exists v, x = CVal k v.
  Proof.
    intros k l H. destruct l as [|a l]; [discriminate|]. split; [discriminate|]. intros x I. unfold all_kind in H. rewrite forallb_forall in H.
    specialize (H x I). destruct x as [| |k' v]; try discriminate. simpl in H. apply eqb_of_eq in H. subst. exists v. reflexivity.
  Qed.
  Lemma integer_numeric : forall c : column, is_integer c = true -> is_numeric c = true /\ is_float c = false.
  Proof. intros [t l|t l] H; destruct t; try discriminate H; try (split; reflexivity). destruct a; try discriminate H. split; reflexivity. Qed.
  Lemma float_numeric : forall c : column, is_float c = true -> is_numeric c = true /\ is_integer c = false.
  Proof. intros [t l|t l] H; destruct t; try discriminate H; try (split; reflexivity). destruct a; try discriminate H. split; reflexivity. Qed.
  Lemma numeric_only : forall c : column, is_numeric c = true -> is_bool c = false /\ is_string c = false /\ is_any_date c = false /\ is_categorical c = false.
  Proof.
    intros [t l|t l] H; destruct t; try discriminate H; try (repeat split; reflexivity). destruct a; try discriminate H; repeat split; reflexivity.
  Qed.
  Lemma string_only : forall c : column, is_string c = true -> is_bool c = false /\ is_any_date c = false /\ is_categorical c = false.
  Proof.
    intros [t l|t l] H; destruct t; try discriminate H; try (repeat split; reflexivity). split; [|split; reflexivity]. simpl in *.
    destruct (filter (fun x : cell X => negb (isna PObj x)) l) as [|x l'] eqn:E; [reflexivity|]. destruct (all_kind KBool (x :: l')) eqn:B; [|reflexivity].
    apply all_kind_true in B. destruct B as [_ B]. destruct (B x (or_introl eq_refl)) as [v ->]. discriminate H.
  Qed.
  Lemma date_only : forall c : column, is_any_date c = true -> is_bool c = false /\ is_categorical c = false.
  Proof. intros [t l|t l] H; destruct t; try discriminate H; try (repeat split; reflexivity). destruct a; try discriminate H; repeat split; reflexivity. Qed.

  Lemma null_missing : forall c : column, nan_is_null c -> forall x, In x (entries c) ->
    (match c with Pandas t _ => isna t x | Polars t _ => polars_null t x end = true <-> missing x).
  Proof.
    intros c N x I. unfold missing. destruct c as [t l|t l]; destruct x as [| |k v]; simpl in *;
      (split; [intros H; (discriminate H || (left; reflexivity) || (right; reflexivity))|intros [H|H]; try discriminate H; try reflexivity]).
    - destruct t; try reflexivity; contradiction.
    - destruct t; try reflexivity; contradiction.
  Qed.
  Lemma has_nulls_lem : forall c : column, nan_is_null c -> (has_nulls c = true <-> exists x, In x (entries c) /\ missing x).
  Proof.
    intros c N. pose proof (null_missing c N) as M. unfold has_nulls. rewrite existsb_exists. destruct c as [t l|t l]; simpl in *; split.
    - intros [b [I ->]]. apply in_map_iff in I. destruct I as [x [E I]]. exists x. split; [exact I|]. apply (M x I). exact E.
    - intros [x [I H]]. exists true. split; [|reflexivity]. apply in_map_iff. exists x. split; [apply (M x I); exact H|exact I].
    - intros [b [I ->]]. apply in_map_iff in I. destruct I as [x [E I]]. exists x. split; [exact I|]. apply (M x I). exact E.
    - intros [x [I H]]. exists true. split; [|reflexivity]. apply in_map_iff. exists x. split; [apply (M x I); exact H|exact I].
  Qed.
  Lemma n_values_unique : forall (l : list (cell X)) n m, n_values key l n -> n_values key l m -> n = m.
  Proof.
    intros l n m [d [ND [<- Hd]]] [e [NE [<- He]]]. apply Nat.le_antisymm; apply NoDup_incl_length; try assumption; intros y I.
    - apply He, Hd, I.
    - apply Hd, He, I.
  Qed.
  Lemma n_unique_lem : (forall x y, key x = key y -> x = CNull -> y = CNull) -> forall c : column, countable c = true ->
    match c with Pandas _ _ => nan_is_null c | Polars _ l => ~ In CNaN l end ->
    exists n, n_unique key countable c = Ok n /\ n_values key (entries c) n.
  Proof.
    intros KN c C N. assert (M : forall x, In x (entries c) -> (match c with Pandas t _ => isna t x | Polars t _ => polars_null t x end = true <-> missing x)).
    { apply null_missing. destruct c as [t l|t l]; [exact N|]. destruct t; simpl in *; auto. }
    unfold n_unique. rewrite C. destruct c as [t l|t l]; simpl in *.
    - eexists. split; [reflexivity|]. exists (nodup eqd (map key (filter (fun x => negb (isna t x)) l))). split; [apply NoDup_nodup|]. split; [reflexivity|].
      intros y. rewrite nodup_In, in_map_iff. split.
      + intros [x [E I]]. apply filter_In in I. destruct I as [I H]. exists x. split; [exact I|]. split; [|exact E]. intros H'. apply (M x I) in H'. rewrite H' in H. discriminate.
      + intros [x [I [H E]]]. exists x. split; [exact E|]. apply filter_In. split; [exact I|]. destruct (isna t x) eqn:F; [|reflexivity]. exfalso. apply H, (M x I), F.
    - eexists. split; [reflexivity|]. unfold distinct. destruct (existsb _ l) eqn:EN.
      + apply existsb_exists in EN. destruct EN as [z [Iz Ez]]. destruct z; try discriminate. clear Ez.
        exists (remove eqd (key CNull) (nodup eqd (map key l))).
        assert (NDr : NoDup (remove eqd (key CNull) (nodup eqd (map key l)))).
        { clear. generalize (NoDup_nodup eqd (map key l)). generalize (nodup eqd (map key l)) as d. intros d H. induction H as [|y d N H IH]; [constructor|]. simpl.
          destruct (eqd (key CNull) y); [exact IH|]. constructor; [|exact IH]. intros I. apply in_remove in I. tauto. }
        split; [exact NDr|]. split.
        * assert (I : In (key CNull) (nodup eqd (map key l))) by (apply nodup_In, in_map, Iz).
          clear -I. generalize (NoDup_nodup eqd (map key l)). revert I. generalize (nodup eqd (map key l)) as d. intros d I H. induction H as [|y d N H IH]; [destruct I|]. simpl.
          destruct (eqd (key CNull) y) as [E|E].
          -- rewrite notin_remove by (rewrite E; exact N). lia.
          -- destruct I as [->|I]; [congruence|]. simpl. rewrite (IH I). destruct d; [destruct I|simpl; lia].
        * intros y. split.
          -- intros I. apply in_remove in I. destruct I as [I NE]. apply nodup_In, in_map_iff in I. destruct I as [x [E I]]. exists x. split; [exact I|]. split; [|exact E].
             intros [->| ->]; [congruence|exact (N I)].
          -- intros [x [I [H E]]]. apply in_in_remove.
             ++ intros E'. apply H. left. apply (KN CNull x); congruence.
             ++ apply nodup_In, in_map_iff. exists x. auto.
      + exists (nodup eqd (map key l)). split; [apply NoDup_nodup|]. split; [reflexivity|]. intros y. rewrite nodup_In, in_map_iff. split.
        * intros [x [E I]]. exists x. split; [exact I|]. split; [|exact E]. intros [->| ->]; [|exact (N I)].
          assert (T : existsb (fun x : cell X => match x with CNull => true | _ => false end) l = true) by (apply existsb_exists; exists CNull; auto). congruence.
        * intros [x [I [_ E]]]. exists x. auto.
  Qed.
  Lemma cardinality_lem : (forall x y, key x = key y -> x = CNull -> y = CNull) -> forall (c : column) t n, countable c = true ->
    match c with Pandas _ _ => nan_is_null c | Polars _ l => ~ In CNaN l end -> n_values key (entries c) n ->
    (cardinality_below key countable t c = true <-> n < t).
  Proof.
    intros KN c t n C N V. destruct (n_unique_lem KN c C N) as [m [E Vm]]. rewrite (n_values_unique _ _ _ V Vm). unfold cardinality_below. rewrite E. apply Nat.ltb_lt.
  Qed.
  Lemma cardinality_mono : forall (c : column) t t', t <= t' -> cardinality_below key countable t c = true -> cardinality_below key countable t' c = true.
  Proof.
    intros c t t' LE. unfold cardinality_below. destruct (n_unique key countable c); [|discriminate]. rewrite !Nat.ltb_lt. lia.
  Qed.

  (** * Agreement *)
  Definition same_types (a b : column) : Prop :=
    is_bool a = is_bool b /\ is_numeric a = is_numeric b /\ is_integer a = is_integer b /\ is_float a = is_float b
    /\ is_string a = is_string b /\ is_any_date a = is_any_date b /\ is_categorical a = is_categorical b.
  Lemma objects : forall k (l : list (cell X)), of_kind k l ->
    exists x l', filter (fun x : cell X => negb (isna PObj x)) l = x :: l' /\ forall y, In y (x :: l') -> exists v, y = CVal k v.
  Proof.
    intros k l [A [v I]]. destruct (filter (fun x : cell X => negb (isna PObj x)) l) as [|x l'] eqn:E.
    - assert (J : In (CVal k v) (filter (fun x : cell X => negb (isna PObj x)) l)) by (apply filter_In; split; [exact I|reflexivity]). rewrite E in J. destruct J.
    - exists x, l'. split; [reflexivity|]. intros y J. rewrite <- E in J. apply filter_In in J. destruct J as [J H]. destruct (A y J) as [->|H']; [discriminate|exact H'].
  Qed.
  Lemma obj_bool : forall k (l : list (cell X)), of_kind k l -> is_bool (Pandas PObj l) = eqb_of k KBool.
  Proof.
    intros k l H. destruct (objects k l H) as [x [l' [E A]]]. unfold is_bool. rewrite E. unfold all_kind. destruct (eqb_of k KBool) eqn:EK.
    - apply eqb_of_eq in EK. subst. apply forallb_forall. intros y I. destruct (A y I) as [v ->]. reflexivity.
    - destruct (A x (or_introl eq_refl)) as [v ->]. simpl. replace (eqb_of KBool k) with false; [reflexivity|]. symmetry. apply eqb_of_false. apply (proj1 (eqb_of_false _ _)) in EK. congruence.
  Qed.
  Lemma obj_string : forall k (l : list (cell X)), of_kind k l -> is_string (Pandas PObj l) = eqb_of k KStr.
  Proof.
    intros k l H. destruct (objects k l H) as [x [l' [E A]]]. unfold M_seltypes.is_string. rewrite E. destruct (eqb_of k KStr) eqn:EK.
    - apply eqb_of_eq in EK. subst. apply forallb_forall. intros y I. destruct (A y I) as [v ->]. reflexivity.
    - destruct (A x (or_introl eq_refl)) as [v ->]. simpl. replace (eqb_of KStr k) with false; [reflexivity|]. symmetry. apply eqb_of_false. apply (proj1 (eqb_of_false _ _)) in EK. congruence.
  Qed.
  Ltac obj H := unfold same_types; rewrite (obj_bool _ _ H), (obj_string _ _ H); repeat split; reflexivity.
  Lemma default_same : forall to_float k (l : list (cell X)), of_kind k l -> k <> KDate -> k <> KDecimal -> (k = KInt -> ~ In CNull l) ->
    same_types (default_pandas to_float k l) (polars k l).
  Proof.
    intros to_float k l H N1 N2 N3. destruct k; try congruence; simpl; try (repeat split; reflexivity); try obj H.
    - destruct (some_null l); [obj H|repeat split; reflexivity].
    - destruct (some_null l) eqn:E; [|repeat split; reflexivity]. exfalso. apply existsb_exists in E. destruct E as [x [I E]]. destruct x; try discriminate. exact (N3 eq_refl I).
  Qed.
  Lemma nullable_same : forall k (l : list (cell X)), of_kind k l -> k <> KDate -> k <> KDecimal -> same_types (nullable_pandas k l) (polars k l).
  Proof. intros k l H N1 N2. destruct k; try congruence; simpl; try (repeat split; reflexivity); obj H. Qed.
  Lemma arrow_same : forall k (l : list (cell X)), k <> KDate -> k <> KStr -> same_types (arrow_pandas k l) (polars k l).
  Proof. intros k l N1 N2. destruct k; try congruence; repeat split; reflexivity. Qed.
  Lemma values_same : (forall x y, key x = key y -> x = CNull -> y = CNull) -> forall (a b : column) t, entries a = entries b -> ~ In CNaN (entries a) ->
    countable a = true -> countable b = true ->
    has_nulls a = has_nulls b /\ cardinality_below key countable t a = cardinality_below key countable t b.
  Proof.
    intros KN a b t E N Ca Cb. assert (G : forall c : column, ~ In CNaN (entries c) -> nan_is_null c /\ match c with Pandas _ _ => nan_is_null c | Polars _ l => ~ In CNaN l end).
    { intros [ty l|ty l] H; simpl in *; split; try exact H; destruct ty; auto. }
    destruct (G a N) as [Na Na']. rewrite E in N. destruct (G b N) as [Nb Nb']. split.
    - apply Bool.eq_true_iff_eq. rewrite (has_nulls_lem a Na), (has_nulls_lem b Nb), E. reflexivity.
    - destruct (n_unique_lem KN a Ca Na') as [n [_ V]]. apply Bool.eq_true_iff_eq. rewrite (cardinality_lem KN a t n Ca Na' V). rewrite E in V. rewrite (cardinality_lem KN b t n Cb Nb' V). reflexivity.
  Qed.
End Types.
