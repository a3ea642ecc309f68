(** Theorems about the summaries of columns in reports (C72-C77). *)
From Coq Require Import QArith Qabs Permutation Sorting.Sorted.
From Verif Require Import Base M_matching L_matching M_summary L_summary L_summary2.
Open Scope string_scope.
Open Scope list_scope.
Open Scope nat_scope.

Section Theorems.
  Context {V : Type} `{EqD V}.
  Notation column := (column V).
  Variable num : V -> Q.
  Variable seconds : V -> Q.
  Variable leb : V -> V -> bool.
  Variable scale : unit_ -> Q -> Q.
  Variable qidx : lib -> Q -> nat -> nat.
  Variable sort_counts : list (V * nat) -> list (V * nat).
  Notation summarize := (summarize_column num seconds leb scale qidx sort_counts).
  Notation summarize_df := (summarize_dataframe num seconds leb scale qidx sort_counts).
  Hypothesis qidx_ok : QidxOk qidx.
  Hypothesis sort_ok : SortOk sort_counts.
  Hypothesis date_order : DateOrder leb.

  (** C72: each column has a summary, whose number of nulls is exact, as is its level. *)
  Theorem C72_total : forall n wp od col, WF n col -> exists s, summarize n wp od col = Ok s.
  Proof using sort_ok. exact (summary_total num seconds leb scale qidx sort_counts sort_ok). Qed.
  Theorem C72_nulls : forall n wp od col s, WF n col -> summarize n wp od col = Ok s ->
    Number IsNull (cells col) (null_count s) /\
    (nulls_level s = LOk <-> forall c, In c (cells col) -> ~ IsNull c) /\ (nulls_level s = LCritical <-> cells col <> [] /\ forall c, In c (cells col) -> IsNull c).
  Proof using sort_ok date_order.
    intros n wp od col s W E. destruct (summary_nulls num seconds leb scale qidx sort_counts sort_ok date_order n wp od col s W E) as (-> & _ & ->). split; [exact (nulls_number n col W)|exact (level_ok n col W)].
  Qed.

  (** C73: the number of distinct values is exact, without NaN in polars and without categories that do not occur. *)
  Theorem C73_partial : forall n wp od col s, WF n col -> Plain col -> summarize n wp od col = Ok s ->
    match unique s with Some k => Card (Occurs col) k | None => forall v, ~ Occurs col v end.
  Proof using sort_ok date_order.
    intros n wp od col s W Pl E. pose proof (summary_unique num seconds leb scale qidx sort_counts sort_ok date_order n wp od col s W Pl E) as U. destruct (unique s); [exact (proj1 U)|exact U].
  Qed.
  (** C73 is wrong for floats of polars with a NaN: it is counted as a value, although it is counted as a null too. *)
  Theorem C73_nan_refuted : forall n wp od col s, WF n col -> clib col = Polars -> Numeric col -> In NaN (cells col) -> (exists v, Occurs col v) -> summarize n wp od col = Ok s ->
    exists k, unique s = Some k /\ 0 < k /\ Card (Occurs col) (k - 1).
  Proof using.
    intros n wp od col s W L K I (v & O) E. assert (N : count_nulls col <> n) by (intros Z; exact (proj1 (nulls_all n col W) Z v O)).
    destruct (summary_numeric num seconds leb scale qidx sort_counts n wp od col W K N) as (c & _ & E'). cbv zeta in E'. rewrite E' in E. injection E as <-. cbn [unique]. exists (n_unique col).
    split; [reflexivity|]. pose proof (n_unique_ok col) as U. rewrite L in U. rewrite (proj2 (existsb_nan _) I) in U. split; [|exact U].
    destruct U as (l & _ & Ll & Il). apply Il in O. destruct l; [destruct O|]. cbn in Ll. lia.
  Qed.
  (** C73 is wrong for categories of pandas: those that do not occur are counted. *)
  Theorem C73_categories_refuted : forall n wp od col s cats, WF n col -> clib col = Pandas -> ckind col = KCategory cats -> (exists v, Occurs col v) -> summarize n wp od col = Ok s ->
    unique s = Some (length cats).
  Proof using sort_ok.
    intros n wp od col s cats W L K (v & O) E. assert (N : count_nulls col <> n) by (intros Z; exact (proj1 (nulls_all n col W) Z v O)).
    assert (Li : Listed col) by (unfold Listed; rewrite K; exact Logic.I).
    destruct (summary_listed num seconds leb scale qidx sort_counts sort_ok n wp od col W Li N) as (c & _ & E'). rewrite E' in E. injection E as <-. cbn [unique]. unfold value_counts. rewrite map_length, L, K. reflexivity.
  Qed.

  (** C74: a column is constant exactly when it has one value, if all categories occur and distinct durations are distinct numbers. *)
  Theorem C74_partial : forall n wp od col s, WF n col -> AllCategories col -> Injective num seconds scale qidx col -> summarize n wp od col = Ok s ->
    (value_is_constant s = true <-> exists v, Single col v).
  Proof using qidx_ok sort_ok date_order. intros n wp od col s W A I E. apply (summary_constant num seconds leb scale qidx sort_counts qidx_ok sort_ok date_order n wp od col s W A I E). Qed.
  (** C74: its value is reported, if it is not a number or its first entry is not null. *)
  Theorem C74_value_partial : forall n wp od col s v, WF n col -> AllCategories col -> Injective num seconds scale qidx col -> summarize n wp od col = Ok s -> Single col v ->
    (Numeric col -> exists c, hd_error (cells col) = Some c /\ ~ IsNull c) -> constant_value s = Some (Val v).
  Proof using qidx_ok sort_ok date_order.
    intros n wp od col s v W A I E Sv Hd. destruct (summary_constant num seconds leb scale qidx sort_counts qidx_ok sort_ok date_order n wp od col s W A I E) as (C1 & C2 & _).
    rewrite C2 by (apply C1; exists v; exact Sv). destruct Sv as [O U]. destruct (match ckind col with KNumber _ | KDuration => true | _ => false end) eqn:B.
    - destruct Hd as (c & Hc & Nc); [unfold Numeric; destruct (ckind col); try discriminate; exact Logic.I|]. rewrite Hc. destruct c as [| |w]; [exfalso; apply Nc; left; reflexivity|exfalso; apply Nc; right; reflexivity|].
      f_equal. f_equal. apply U. unfold Occurs. destruct (cells col); [discriminate|]. injection Hc as ->. left. reflexivity.
    - destruct (values (cells col)) as [|w l] eqn:Ev; [apply values_in in O; rewrite Ev in O; destruct O|]. f_equal. f_equal. apply U. apply values_in. rewrite Ev. left. reflexivity.
  Qed.
  (** C74 is wrong: the constant of a column of numbers whose first entry is null is reported as null. *)
  Theorem C74_refuted : forall n wp od col s v c, WF n col -> Numeric col -> Injective num seconds scale qidx col -> hd_error (cells col) = Some c -> IsNull c -> Single col v -> summarize n wp od col = Ok s ->
    value_is_constant s = true /\ constant_value s = Some c.
  Proof using qidx_ok sort_ok date_order.
    intros n wp od col s v c W K I Hd Nc Sv E. assert (A : AllCategories col) by (intros cats _ Kc; unfold Numeric in K; rewrite Kc in K; contradiction).
    destruct (summary_constant num seconds leb scale qidx sort_counts qidx_ok sort_ok date_order n wp od col s W A I E) as (C1 & C2 & _). assert (T : value_is_constant s = true) by (apply C1; exists v; exact Sv).
    split; [exact T|]. rewrite (C2 T), Hd. unfold Numeric in K. destruct (ckind col); try contradiction; reflexivity.
  Qed.
  (** C74 is wrong: a column of pandas with one value but two categories is not constant. *)
  Theorem C74_categories_refuted : forall n wp od col s cats, WF n col -> clib col = Pandas -> ckind col = KCategory cats -> (exists v, Single col v) -> length cats <> 1 -> summarize n wp od col = Ok s ->
    value_is_constant s = false.
  Proof using sort_ok.
    intros n wp od col s cats W L K (v & O & _) Nc E. assert (N : count_nulls col <> n) by (intros Z; exact (proj1 (nulls_all n col W) Z v O)).
    assert (Li : Listed col) by (unfold Listed; rewrite K; exact Logic.I).
    destruct (summary_listed num seconds leb scale qidx sort_counts sort_ok n wp od col W Li N) as (c & Hc & E'). rewrite E' in E. injection E as <-. cbn [value_is_constant]. destruct c as [[| |w]|]; try contradiction; [|reflexivity].
    exfalso. apply Nc. destruct Hc as (k & Hc). unfold value_counts in Hc. rewrite L, K in Hc. apply (f_equal (@length _)) in Hc. rewrite map_length in Hc. exact Hc.
  Qed.
  (** C74: durations are compared after their conversion to floats of some unit, so a column of durations is constant when these numbers are equal. *)
  Theorem C74_durations : forall n wp od col s, WF n col -> ckind col = KDuration -> summarize n wp od col = Ok s ->
    (value_is_constant s = true <-> (exists v, Occurs col v) /\ forall v w, Occurs col v -> Occurs col w -> (measure num seconds scale qidx col v == measure num seconds scale qidx col w)%Q).
  Proof using qidx_ok sort_ok date_order.
    intros n wp od col s W K E. apply (summary_constant_measure num seconds leb scale qidx sort_counts qidx_ok n wp od col s W); [unfold Numeric; rewrite K; exact Logic.I|exact E].
  Qed.

  (** C74: the report counts the constant columns. *)
  Theorem C74_table_partial : forall n wp df cols k, (forall col, In col df -> WF n col /\ AllCategories col /\ Injective num seconds scale qidx col) ->
    summarize_df n None wp df = Ok (cols, k) -> Number (fun col => exists v, Single col v) df k.
  Proof using qidx_ok sort_ok date_order.
    intros n wp df cols k W E. unfold summarize_dataframe in E. destruct (mapM (summarize n wp false) df) as [cs|e] eqn:M; [|discriminate]. cbn [bind] in E. injection E as <- <-.
    apply mapM_Forall2 in M. revert W. induction M as [|col s df cs Es M IH]; intros W; [constructor|]. specialize (IH (fun c I => W c (or_intror I))). destruct (W col (or_introl eq_refl)) as (W1 & A & I).
    pose proof (C74_partial n wp false col s W1 A I Es) as C. cbn. destruct (value_is_constant s) eqn:B; cbn; [apply Number_yes; [apply C; reflexivity|exact IH]|apply Number_no; [intros X; apply C in X; discriminate|exact IH]].
  Qed.

  (** C75: the values that are listed have their true numbers of occurrences, in decreasing order; there are 10 or all of
      them, and those that are not listed are not more frequent. *)
  Theorem C75_counts : forall n wp od col s cs, WF n col -> summarize n wp od col = Ok s -> counts s = Some cs ->
    NoDup (map fst cs) /\ (forall v k, In (v, k) cs -> Number (fun c => c = Val v) (cells col) k) /\
    StronglySorted (fun a b => snd b <= snd a) cs /\
    (exists u, unique s = Some u /\ length cs = Nat.min 10 u) /\
    (forall v k, Occurs col v -> Number (fun c => c = Val v) (cells col) k -> ~ In v (map fst cs) -> length cs = 10 /\ forall w j, In (w, j) cs -> k <= j).
  Proof using sort_ok date_order. exact (summary_counts num seconds leb scale qidx sort_counts sort_ok date_order). Qed.

  (** C76: the quantiles are values of the column in increasing order, from the smallest to the largest. *)
  Theorem C76_quantiles : forall n wp od col s qs, WF n col -> Numeric col -> summarize n wp od col = Ok s -> quantiles_of s = Some qs ->
    exists a b c d e, qs = [a; b; c; d; e] /\ (a <= b /\ b <= c /\ c <= d /\ d <= e /\ ~ a == e)%Q /\
      (forall q, In q qs -> exists v, Occurs col v /\ q = measure num seconds scale qidx col v) /\ forall v, Occurs col v -> (a <= measure num seconds scale qidx col v <= e)%Q.
  Proof using qidx_ok. intros n wp od col s qs W K E Eq. exact (proj1 (proj2 (summary_quantiles num seconds leb scale qidx sort_counts qidx_ok n wp od col s W K E)) qs Eq). Qed.
  Theorem C76_present : forall n wp od col s, WF n col -> Numeric col -> summarize n wp od col = Ok s ->
    (exists qs, quantiles_of s = Some qs) <-> value_is_constant s = false /\ exists v, Occurs col v.
  Proof using qidx_ok. intros n wp od col s W K E. exact (proj2 (proj2 (summary_quantiles num seconds leb scale qidx sort_counts qidx_ok n wp od col s W K E))). Qed.
  Theorem C76_range : forall n wp od col s q, WF n col -> Numeric col -> summarize n wp od col = Ok s -> inter_quartile_range s = Some q -> (0 <= q)%Q.
  Proof using qidx_ok. intros n wp od col s q W K E Eq. exact (proj1 (summary_quantiles num seconds leb scale qidx sort_counts qidx_ok n wp od col s W K E) q Eq). Qed.

  (** The unit of durations suits one of them. *)
  Theorem C76_unit : forall n wp od col s u, WF n col -> summarize n wp od col = Ok s -> unit_of s = Some u ->
    ckind col = KDuration /\ exists v, Occurs col v /\ Suits u (Qabs (seconds v)).
  Proof using qidx_ok.
    exact (summary_unit num seconds leb scale qidx sort_counts qidx_ok).
  Qed.

  (** C77: the order of the rows changes nothing but the constant and the order of equally frequent values. *)
  Theorem C77_partial : forall n wp od col col' s s', WF n col -> SameRows col col' -> summarize n wp od col = Ok s -> summarize n wp od col' = Ok s' -> SameSummary s s'.
  Proof using sort_ok date_order. exact (summary_rows num seconds leb scale qidx sort_counts sort_ok date_order). Qed.
  Lemma no_plots : forall n od od' col, summarize n false od col = summarize n false od' col.
  Proof using. intros n od od' col. unfold summarize_column. destruct (count_nulls col =? n); [reflexivity|]. destruct (cells col); [reflexivity|]. destruct (ckind col); try reflexivity; rewrite !Bool.orb_true_r; reflexivity. Qed.
  (** C77: neither does the column that is given to sort the table. *)
  Theorem C77_table_partial : forall n rows df, (forall col, In col df -> WF n col) -> Permutation rows (seq 0 n) ->
    exists cols cols' k, summarize_df n None false df = Ok (cols, k) /\ summarize_df n (Some rows) false df = Ok (cols', k) /\ length cols = length df /\ Forall2 SameSummary cols cols'.
  Proof using sort_ok date_order.
    intros n rows df W P. unfold summarize_dataframe.
    assert (X : exists cols cols', mapM (summarize n false false) df = Ok cols /\ mapM (summarize n false true) (map (reorder rows) df) = Ok cols' /\ length cols = length df /\ Forall2 SameSummary cols cols').
    { induction df as [|col df IH]; [exists [], []; repeat split; constructor|]. destruct IH as (cols & cols' & E1 & E2 & L & F); [intros c I; apply W; right; exact I|].
      assert (W1 : WF n col) by (apply W; left; reflexivity). pose proof (reorder_same n rows col (wf_length _ _ W1) P) as SR.
      destruct (C72_total n false false col W1) as (s & Es). destruct (C72_total n false true (reorder rows col) (same_wf n _ _ SR W1)) as (s' & Es').
      exists (s :: cols), (s' :: cols'). cbn [mapM map]. rewrite Es, Es', E1, E2. cbn [bind]. split; [reflexivity|]. split; [reflexivity|]. split; [cbn; congruence|]. constructor; [|exact F].
      rewrite (no_plots n false true) in Es. exact (C77_partial n false true col (reorder rows col) s s' W1 SR Es Es'). }
    destruct X as (cols & cols' & E1 & E2 & L & F). rewrite E1, E2. cbn [bind]. exists cols, cols', (length (filter value_is_constant cols)). split; [reflexivity|]. split; [|split; [exact L|exact F]].
    f_equal. f_equal. clear - F. induction F as [|s s' cols cols' Ss F IH]; [reflexivity|]. destruct Ss as (_ & _ & _ & _ & _ & _ & Ec & _). cbn. rewrite Ec. destruct (value_is_constant s'); cbn; rewrite IH; reflexivity.
  Qed.
  (** C77 is wrong: the constant of a column of numbers depends on the order of the rows. *)
  Theorem C77_refuted : forall l v, exists col col', clib col = l /\ SameRows col col' /\ WF 2 col /\
    exists s s', summarize 2 false false col = Ok s /\ summarize 2 false false col' = Ok s' /\ constant_value s = Some (Val v) /\ constant_value s' = Some Null.
  Proof using qidx_ok.
    intros l v. exists {| clib := l; ckind := KNumber false; cells := [Val v; Null] |}, {| clib := l; ckind := KNumber false; cells := [Null; Val v] |}.
    assert (Sr : forall a b : list (cell V), Permutation a b -> SameRows {| clib := l; ckind := KNumber false; cells := a |} {| clib := l; ckind := KNumber false; cells := b |}) by (intros a b P; split; [reflexivity|split; [reflexivity|exact P]]).
    assert (SR : SameRows {| clib := l; ckind := KNumber false; cells := [Val v; Null] |} {| clib := l; ckind := KNumber false; cells := [Null; Val v] |}) by (apply Sr, perm_swap).
    assert (W : WF 2 {| clib := l; ckind := KNumber false; cells := [Val v; Null] |}) by (constructor; cbn; [reflexivity|intros _ _ [X|[X|[]]]; discriminate|discriminate]).
    split; [reflexivity|]. split; [exact SR|]. split; [exact W|]. unfold summarize_column. destruct l; cbn -[quantiles]; (do 2 eexists; split; [reflexivity|]; split; [reflexivity|]); cbn -[quantiles];
      unfold quantiles, QS, quantile; cbn [map nth length qsort fold_right insert]; rewrite !(qidx_0 qidx qidx_ok), !(qidx_1 qidx qidx_ok); cbn [nth];
      rewrite (proj2 (Qeq_bool_iff _ _) (Qeq_refl (num v))); split; reflexivity.
  Qed.
End Theorems.

Print Assumptions C72_total.
Print Assumptions C72_nulls.
Print Assumptions C73_partial.
Print Assumptions C73_nan_refuted.
Print Assumptions C73_categories_refuted.
Print Assumptions C74_partial.
Print Assumptions C74_value_partial.
Print Assumptions C74_refuted.
Print Assumptions C74_categories_refuted.
Print Assumptions C74_durations.
Print Assumptions C74_table_partial.
Print Assumptions C75_counts.
Print Assumptions C76_quantiles.
Print Assumptions C76_present.
Print Assumptions C76_range.
Print Assumptions C76_unit.
Print Assumptions C77_partial.
Print Assumptions C77_table_partial.
Print Assumptions C77_refuted.

(** ** Examples: values are numbers of nanoseconds or plain numbers; positions are rounded down at one half *)
Definition ex_num (v : nat) : Q := inject_Z (Z.of_nat v).
Definition ex_seconds (v : nat) : Q := Z.of_nat v # 1000000000.
Definition ex_scale (u : unit_) (q : Q) : Q :=
  match u with Microsecond => q * 1000000 | Millisecond => q * 1000 | Second => q | Hour => q / 3600 | Day => q / 86400 | Year => q / 31556952 end.
Definition ex_qidx (_ : lib) (q : Q) (n : nat) : nat := Z.to_nat ((2 * Qnum q * (Z.of_nat n - 1) + Zpos (Qden q) - 1) / (2 * Zpos (Qden q))).
Fixpoint ex_insert (x : nat * nat) (l : list (nat * nat)) : list (nat * nat) :=
  match l with [] => [x] | y :: l' => if snd y <=? snd x then x :: l else y :: ex_insert x l' end.
Definition ex_sort (l : list (nat * nat)) : list (nat * nat) := fold_right ex_insert [] l.
Lemma ex_qidx_ok : QidxOk ex_qidx.
Proof.
  intros l q n [P B]. unfold ex_qidx. destruct q as [a b]. cbn [Qnum Qden].
  assert (Ha : (0 <= a <= Zpos b)%Z) by (unfold Qle in P, B; cbn in P, B; lia).
  replace (Z.of_nat (S n) - 1)%Z with (Z.of_nat n) by lia. set (N := Z.of_nat n). assert (HN : (0 <= N)%Z) by lia.
  pose proof (Z.div_mod (2 * a * N + Zpos b - 1) (2 * Zpos b) ltac:(lia)) as D. pose proof (Z.mod_pos_bound (2 * a * N + Zpos b - 1) (2 * Zpos b) ltac:(lia)) as M.
  set (k := ((2 * a * N + Zpos b - 1) / (2 * Zpos b))%Z) in *. assert (Hk : (0 <= k)%Z) by (apply Z.div_pos; nia). rewrite Z2Nat.id by exact Hk.
  apply Qabs_Qle_condition. unfold Qle, Qminus, Qplus, Qopp, Qmult, inject_Z. cbn [Qnum Qden]. rewrite ?Pos2Z.inj_mul. cbn [Z.opp]. split; nia.
Qed.
Lemma ex_insert_perm : forall x l, Permutation (ex_insert x l) (x :: l).
Proof. induction l as [|y l IH]; cbn; [reflexivity|]. destruct (snd y <=? snd x); [reflexivity|]. rewrite IH. apply perm_swap. Qed.
Lemma ex_sort_ok : SortOk ex_sort.
Proof.
  intros l. induction l as [|x l [P So]]; cbn; [split; [reflexivity|constructor]|]. split; [rewrite ex_insert_perm, P; reflexivity|]. fold (ex_sort l). revert So. generalize (ex_sort l). clear.
  intros l So. induction So as [|y l So IH F]; cbn; [constructor; constructor|]. destruct (Nat.leb_spec (snd y) (snd x)) as [L|L].
  - constructor; [constructor; assumption|]. constructor; [exact L|]. rewrite Forall_forall in *. intros z I. specialize (F z I). lia.
  - constructor; [exact IH|]. rewrite Forall_forall in *. intros z I. apply (Permutation_in _ (ex_insert_perm x l)) in I. destruct I as [<-|I]; [lia|apply F; exact I].
Qed.
Lemma ex_date_order : DateOrder Nat.leb.
Proof.
  split; [intros a b; rewrite !Nat.leb_le; lia|]. split; [intros a b; rewrite !Nat.leb_le; lia|intros a b c; rewrite !Nat.leb_le; lia].
Qed.
Definition ex_summarize (n : nat) := summarize_column ex_num ex_seconds Nat.leb ex_scale ex_qidx ex_sort n true false.

(** nulls, distinct values and quantiles of numbers *)
Definition ex_numbers : column nat := {| clib := Pandas; ckind := KNumber true; cells := [Val 3; NaN; Val 1; Val 3; Val 8; Val 5] |}.
Example ex_C72 : exists s, ex_summarize 6 ex_numbers = Ok s /\ null_count s = 1 /\ nulls_level s = LWarning /\ unique s = Some 4 /\ quantiles_of s = Some [1; 3; 3; 5; 8]%Q /\ value_is_constant s = false.
Proof. eexists. repeat split. Qed.
Example ex_WF : WF 6 ex_numbers /\ Plain ex_numbers /\ Numeric ex_numbers.
Proof. split; [constructor; [reflexivity|discriminate|discriminate]|]. split; [split; discriminate|exact Logic.I]. Qed.
(** a polars column with a NaN: 2 instead of 1 *)
Definition ex_nan : column nat := {| clib := Polars; ckind := KNumber true; cells := [Val 3; NaN; Null] |}.
Example ex_C73_nan : exists s, ex_summarize 3 ex_nan = Ok s /\ null_count s = 2 /\ unique s = Some 2 /\ Card (Occurs ex_nan) 1.
Proof.
  eexists. split; [reflexivity|]. split; [reflexivity|]. split; [reflexivity|]. apply card_1. exists 3. split; [left; reflexivity|]. intros w [E|[E|[E|[]]]]; congruence.
Qed.
(** categories 1 and 2, of which only 1 occurs *)
Definition ex_categories : column nat := {| clib := Pandas; ckind := KCategory [1; 2]; cells := [Val 1; Val 1; Null] |}.
Example ex_C73_categories : exists s, ex_summarize 3 ex_categories = Ok s /\ unique s = Some 2 /\ value_is_constant s = false /\ counts s = Some [(1, 2); (2, 0)].
Proof. eexists. repeat split. Qed.
Example ex_C73_WF : WF 3 ex_categories /\ Single ex_categories 1.
Proof.
  split.
  - constructor; [reflexivity|discriminate|]. intros cats _ E. injection E as <-. split; [repeat constructor; cbn; intuition lia|]. intros v [E|[E|[E|[]]]]; inversion E; left; reflexivity.
  - split; [left; reflexivity|]. intros w [E|[E|[E|[]]]]; congruence.
Qed.
(** a constant column that starts with a null *)
Definition ex_constant : column nat := {| clib := Pandas; ckind := KNumber true; cells := [NaN; Val 7; Val 7] |}.
Example ex_C74 : exists s, ex_summarize 3 ex_constant = Ok s /\ value_is_constant s = true /\ constant_value s = Some NaN.
Proof. eexists. repeat split. Qed.
Example ex_C74_hypotheses : WF 3 ex_constant /\ Injective ex_num ex_seconds ex_scale ex_qidx ex_constant /\ Single ex_constant 7.
Proof.
  split; [constructor; [reflexivity|discriminate|discriminate]|]. split.
  - intros v w _ _ E. unfold measure, ex_num, Qeq in E. cbn in E. lia.
  - split; [right; left; reflexivity|]. intros w [E|[E|[E|[]]]]; congruence.
Qed.
(** strings; dates *)
Definition ex_strings : column nat := {| clib := Polars; ckind := KOther; cells := [Val 4; Val 5; Null; Val 5] |}.
Example ex_C75 : exists s, ex_summarize 4 ex_strings = Ok s /\ counts s = Some [(5, 2); (4, 1)] /\ plot_names s = ["value_counts_plot"].
Proof. eexists. repeat split. Qed.
Example ex_dates : exists s, ex_summarize 4 {| clib := Polars; ckind := KDate; cells := [Val 4; Val 5; Null; Val 2] |} = Ok s /\ min_max s = Some (2, 5) /\ unique s = Some 3.
Proof. eexists. repeat split. Qed.
(** sorting by the second column *)
Example ex_C77 : exists cols cols' k, summarize_dataframe ex_num ex_seconds Nat.leb ex_scale ex_qidx ex_sort 3 None false [ex_constant; ex_categories] = Ok (cols, k) /\
  summarize_dataframe ex_num ex_seconds Nat.leb ex_scale ex_qidx ex_sort 3 (Some [2; 0; 1]) false [ex_constant; ex_categories] = Ok (cols', k) /\ length cols = 2 /\ Forall2 SameSummary cols cols'.
Proof.
  apply (C77_table_partial ex_num ex_seconds Nat.leb ex_scale ex_qidx ex_sort ex_sort_ok ex_date_order).
  - intros col [<-|[<-|[]]]; [apply ex_C74_hypotheses|apply ex_C73_WF].
  - cbn. etransitivity; [apply perm_swap|]. apply perm_skip. apply perm_swap.
Qed.
(** durations of 1 second and of 2 hours; half an hour would suit seconds *)
Definition ex_durations : column nat := {| clib := Pandas; ckind := KDuration; cells := [Val 1; Null; Val 7200] |}.
Example ex_C76_unit : exists s, summarize_column ex_num ex_num Nat.leb ex_scale ex_qidx ex_sort 3 true false ex_durations = Ok s /\
  unit_of s = Some Hour /\ WF 3 ex_durations /\ Suits Hour (Qabs (ex_num 7200)) /\ Suits Second 1800.
Proof.
  eexists. split; [vm_compute; reflexivity|]. split; [reflexivity|]. split; [constructor; [reflexivity|discriminate|discriminate]|].
  split; split; vm_compute; (reflexivity || discriminate).
Qed.
