(** C134: selectors by type and by values tell columns apart, and alike in pandas and polars. *)
From Verif Require Import Base M_seltypes L_seltypes.
From Coq Require Import Lia.
Open Scope list_scope.
Open Scope nat_scope.

Section Theorems.
  Context {X Y : Type} {EX : EqD X} {EY : EqD Y} (empty_is_string : bool) (key : cell X -> Y) (countable : column X -> bool).
  (** equality tells nulls from other entries *)
  Definition nulls_apart : Prop := forall x y, key x = key y -> x = CNull -> y = CNull.

  (** Integers and floats are numbers and differ; numbers, texts and dates are not selected together, nor with Booleans or categories. *)
  Theorem C134_types_apart : forall c : column X,
    (is_integer c = true -> is_numeric c = true /\ is_float c = false) /\ (is_float c = true -> is_numeric c = true /\ is_integer c = false) /\
    (is_numeric c = true -> is_bool c = false /\ is_string empty_is_string c = false /\ is_any_date c = false /\ is_categorical c = false) /\
    (is_string empty_is_string c = true -> is_bool c = false /\ is_any_date c = false /\ is_categorical c = false) /\
    (is_any_date c = true -> is_bool c = false /\ is_categorical c = false).
  Proof.
    intros c. split; [exact (integer_numeric c)|]. split; [exact (float_numeric c)|]. split; [exact (numeric_only empty_is_string c)|].
    split; [exact (string_only empty_is_string c)|exact (date_only c)].
  Qed.
  (** [has_nulls] selects the columns with a null or a NaN, where NaN stands for a null. *)
  Theorem C134_nulls : forall c : column X, nan_is_null c -> (has_nulls c = true <-> exists x, In x (entries c) /\ (x = CNull \/ x = CNaN)).
  Proof. exact has_nulls_lem. Qed.
  (** [cardinality_below] selects the columns with fewer different values, not counting nulls. *)
  Theorem C134_cardinality : nulls_apart -> forall (c : column X) t n, countable c = true ->
    match c with Pandas _ _ => nan_is_null c | Polars _ l => ~ In CNaN l end -> n_values key (entries c) n ->
    (cardinality_below key countable t c = true <-> n < t).
  Proof. exact (cardinality_lem key countable). Qed.
  (** ... and more columns for a larger number. *)
  Theorem C134_cardinality_monotone : forall (c : column X) t t', t <= t' -> cardinality_below key countable t c = true -> cardinality_below key countable t' c = true.
  Proof. exact (cardinality_mono key countable). Qed.
  (** The same values, of one kind and with nulls, are selected alike in polars and in the types pandas gives them... *)
  Theorem C134_same_types_partial : forall to_float k (l : list (cell X)),
    (of_kind k l -> k <> KDate -> k <> KDecimal -> (k = KInt -> ~ In CNull l) -> same_types empty_is_string (default_pandas to_float k l) (polars k l)) /\
    (of_kind k l -> k <> KDate -> k <> KDecimal -> same_types empty_is_string (nullable_pandas k l) (polars k l)) /\
    (k <> KDate -> k <> KStr -> same_types empty_is_string (arrow_pandas k l) (polars k l)).
  Proof.
    intros to_float k l. split; [exact (default_same empty_is_string to_float k l)|]. split; [exact (nullable_same empty_is_string k l)|exact (arrow_same empty_is_string k l)].
  Qed.
  (** ... and by their values. *)
  Theorem C134_same_values_partial : nulls_apart -> forall (a b : column X) t, entries a = entries b -> ~ In CNaN (entries a) ->
    countable a = true -> countable b = true ->
    has_nulls a = has_nulls b /\ cardinality_below key countable t a = cardinality_below key countable t b.
  Proof. exact (values_same key countable). Qed.
End Theorems.
Print Assumptions C134_types_apart.
Print Assumptions C134_nulls.
Print Assumptions C134_cardinality.
Print Assumptions C134_cardinality_monotone.
Print Assumptions C134_same_types_partial.
Print Assumptions C134_same_values_partial.

Definition ex_key (c : cell nat) : option nat := match c with CNull => None | CNaN => Some 0 | CVal _ x => Some (S x) end.
Example ex_nulls_apart : nulls_apart ex_key.
Proof. intros [| |k x] [| |k' x'] E N; try discriminate; reflexivity. Qed.
Example ex_types : is_string true (Pandas PObj [CVal KStr 1; CNull; CNaN]) = true /\ is_bool (Pandas PObj [CVal KBool 1; CNull]) = true
  /\ is_integer (Pandas (X := nat) (PArrow AInt) []) = true /\ is_any_date (Polars LDate [CVal KDate 3]) = true.
Proof. repeat split. Qed.
Example ex_has_nulls : has_nulls (Polars LFloat [CVal KFloat 1; CNaN]) = true /\ nan_is_null (Polars LFloat [CVal KFloat 1; CNaN])
  /\ has_nulls (Pandas PObj [CVal KStr 1]) = false.
Proof. repeat split. Qed.
Example ex_cardinality : cardinality_below ex_key (fun _ => true) 3 (Polars LInt [CVal KInt 1; CNull; CVal KInt 1; CVal KInt 2]) = true
  /\ cardinality_below ex_key (fun _ => true) 2 (Polars LInt [CVal KInt 1; CNull; CVal KInt 1; CVal KInt 2]) = false
  /\ cardinality_below ex_key (fun _ => false) 3 (Polars LObject [CVal KOther 1]) = false
  /\ n_values ex_key [CVal KInt 1; CNull; CVal KInt 1; CVal KInt 2] 2.
Proof.
  split; [reflexivity|]. split; [reflexivity|]. split; [reflexivity|]. exists [Some 2; Some 3]. split; [|split; [reflexivity|]].
  - repeat constructor; simpl; intuition discriminate.
  - intros y. simpl. unfold missing. split.
    + intros [<-|[<-|[]]]; [exists (CVal KInt 1)|exists (CVal KInt 2)]; (split; [tauto|]); (split; [intuition discriminate|reflexivity]).
    + intros [x [[<-|[<-|[<-|[<-|[]]]]] [N <-]]]; simpl; tauto.
Qed.
Example ex_same : same_types true (default_pandas S KBool [CVal KBool 1; CNull]) (polars KBool [CVal KBool 1; CNull])
  /\ of_kind KBool [CVal KBool 1; CNull].
Proof.
  split; [repeat split|]. split.
  - intros x [<-|[<-|[]]]; [right; exists 1; reflexivity|left; reflexivity].
  - exists 1. left. reflexivity.
Qed.

(** Numbers that are neither integers nor floats, in each library. *)
Theorem C134_numbers_are_integers_or_floats_refuted : exists a b : column nat,
  is_numeric a = true /\ is_integer a = false /\ is_float a = false /\ a = Pandas PComplex [CVal KOther 1] /\
  is_numeric b = true /\ is_integer b = false /\ is_float b = false /\ b = Polars LDecimal [CVal KDecimal 1].
Proof. exists (Pandas PComplex [CVal KOther 1]), (Polars LDecimal [CVal KDecimal 1]). repeat split. Qed.
Print Assumptions C134_numbers_are_integers_or_floats_refuted.
(** Categories that are Booleans are selected both as Booleans and as categories in pandas. *)
Theorem C134_booleans_and_categories_refuted : exists c : column nat, is_bool c = true /\ is_categorical c = true.
Proof. exists (Pandas (PCat [CVal KBool 0; CVal KBool 1]) [CVal KBool 0; CVal KBool 1]). split; reflexivity. Qed.
Print Assumptions C134_booleans_and_categories_refuted.
(** NaN is a null for [has_nulls] in polars, but also counts as a value: the same entries are selected in pandas and not in polars. *)
Theorem C134_nan_counts_refuted : exists (l : list (cell nat)) t,
  has_nulls (polars KFloat l) = true /\ n_values ex_key l 1 /\ 1 < t /\
  cardinality_below ex_key (fun _ => true) t (default_pandas S KFloat l) = true /\ cardinality_below ex_key (fun _ => true) t (polars KFloat l) = false.
Proof.
  exists [CVal KFloat 1; CNaN], 2. split; [reflexivity|]. split; [|split; [lia|split; reflexivity]].
  exists [Some 2]. split; [repeat constructor; simpl; tauto|]. split; [reflexivity|]. intros y. simpl. split.
  - intros [<-|[]]. exists (CVal KFloat 1). split; [tauto|]. split; [intros [H|H]; discriminate|reflexivity].
  - intros [x [[<-|[<-|[]]] [N <-]]]; [left; reflexivity|]. exfalso. apply N. right. reflexivity.
Qed.
Print Assumptions C134_nan_counts_refuted.
(** A NaN in a nullable column of pandas is not a null, though it is one in other columns of floats. *)
Theorem C134_nan_is_null_refuted : exists l : list (cell nat),
  has_nulls (nullable_pandas KFloat l) = false /\ has_nulls (default_pandas S KFloat l) = true /\ has_nulls (polars KFloat l) = true.
Proof. exists [CNaN]. repeat split. Qed.
Print Assumptions C134_nan_is_null_refuted.
(** Without the conditions: integers with nulls, dates, decimals, texts that are all null, and texts and dates of pyarrow are not selected alike. *)
Theorem C134_alike_refuted : exists (l : list (cell nat)) (d e n : list (cell nat)),
  of_kind KInt l /\ is_integer (default_pandas S KInt l) = false /\ is_integer (polars KInt l) = true /\
  of_kind KDate d /\ is_any_date (default_pandas S KDate d) = false /\ is_any_date (arrow_pandas KDate d) = false /\ is_any_date (polars KDate d) = true /\
  of_kind KDecimal e /\ is_numeric (default_pandas S KDecimal e) = false /\ is_numeric (polars KDecimal e) = true /\
  is_string false (default_pandas S KStr n) = false /\ is_string false (polars KStr n) = true /\
  is_string true (arrow_pandas KStr [CVal KStr 1]) = false.
Proof.
  exists [CVal KInt 1; CNull], [CVal KDate 1], [CVal KDecimal 1], [CNull].
  repeat split; try (intros x [<-|[<-|[]]]); try (intros x [<-|[]]); try (right; exists 1; reflexivity); try (left; reflexivity); exists 1; left; reflexivity.
Qed.
Print Assumptions C134_alike_refuted.
