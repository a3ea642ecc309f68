(** Specification and lemmas for C72-C76. *)
From Coq Require Import QArith Qabs Permutation Sorting.Sorted.
From Verif Require Import Base M_matching L_matching M_summary.
Open Scope string_scope.
Open Scope list_scope.
Open Scope nat_scope.

(** [n] is the number of elements that satisfy [P] *)
Definition Card {A} (P : A -> Prop) (n : nat) : Prop := exists l, NoDup l /\ length l = n /\ forall a, In a l <-> P a.
Lemma card_fun : forall A (P : A -> Prop) n m, Card P n -> Card P m -> n = m.
Proof.
  intros A P n m (l & N1 & <- & I1) (l' & N2 & <- & I2). apply Permutation_length. apply NoDup_Permutation; [exact N1|exact N2|]. intros a. rewrite I1, I2. reflexivity.
Qed.
Lemma card_ext : forall A (P Q : A -> Prop) n, (forall a, P a <-> Q a) -> Card P n -> Card Q n.
Proof. intros A P Q n E (l & N & L & I). exists l. split; [exact N|]. split; [exact L|]. intros a. rewrite I. apply E. Qed.
Lemma nodup_app_l : forall A (a b : list A), NoDup (a ++ b) -> NoDup a.
Proof. induction a as [|x a IH]; intros b N; [constructor|]. inversion N as [|? ? N1 N2]; subst. constructor; [intros I; apply N1; apply in_or_app; left; exact I|eapply IH; exact N2]. Qed.
Lemma perm_filter : forall A (f : A -> bool) l l', Permutation l l' -> Permutation (filter f l) (filter f l').
Proof.
  intros A f l l' P. induction P; cbn; [constructor|destruct (f x); [constructor|]; assumption|destruct (f x), (f y); repeat constructor; reflexivity|etransitivity; eassumption].
Qed.
Lemma perm_flat_map : forall A B (f : A -> list B) l l', Permutation l l' -> Permutation (flat_map f l) (flat_map f l').
Proof.
  intros A B f l l' P. induction P; cbn; [constructor|apply Permutation_app_head; assumption| |etransitivity; eassumption].
  rewrite !app_assoc. apply Permutation_app_tail. apply Permutation_app_comm.
Qed.

(** ** Quantiles *)
(** the nearest position *)
Definition QidxOk (qidx : lib -> Q -> nat -> nat) : Prop :=
  forall l q n, (0 <= q <= 1)%Q -> (Qabs (inject_Z (Z.of_nat (qidx l q (Datatypes.S n))) - q * inject_Z (Z.of_nat n)) <= 1 # 2)%Q.
Lemma near_z : forall (a b : Z), (Qabs (inject_Z a - inject_Z b) <= 1 # 2)%Q -> a = b.
Proof.
  intros a b E. apply Qabs_Qle_condition in E. unfold Qle, Qminus, Qplus, Qopp, inject_Z in E. cbn in E. lia.
Qed.
Section Qidx.
  Variable qidx : lib -> Q -> nat -> nat.
  Hypothesis ok : QidxOk qidx.
  Lemma qidx_0 : forall l n, qidx l 0%Q (Datatypes.S n) = 0.
  Proof.
    intros l n. pose proof (ok l 0%Q n) as E. apply Nat2Z.inj. apply near_z. eapply Qle_trans; [|apply E; split; discriminate]. apply Qle_lteq. right. apply Qabs_wd. cbn. ring.
  Qed.
  Lemma qidx_1 : forall l n, qidx l 1%Q (Datatypes.S n) = n.
  Proof.
    intros l n. pose proof (ok l 1%Q n) as E. apply Nat2Z.inj. apply near_z. eapply Qle_trans; [|apply E; split; discriminate]. apply Qle_lteq. right. apply Qabs_wd. ring.
  Qed.
  Lemma qidx_mono : forall l q q' n, (0 <= q)%Q -> (q < q')%Q -> (q' <= 1)%Q -> qidx l q (Datatypes.S n) <= qidx l q' (Datatypes.S n).
  Proof.
    intros l q q' n P L B. assert (E1 : (0 <= q <= 1)%Q) by (split; [exact P|apply Qlt_le_weak; eapply Qlt_le_trans; eassumption]).
    assert (E2 : (0 <= q' <= 1)%Q) by (split; [apply Qlt_le_weak; eapply Qle_lt_trans; eassumption|exact B]).
    pose proof (ok l q n E1) as A1. pose proof (ok l q' n E2) as A2. destruct n as [|n].
    - apply Qabs_Qle_condition in A1. apply Qabs_Qle_condition in A2. cbn [Z.of_nat] in A1, A2.
      assert (N : forall k q, (inject_Z (Z.of_nat k) - q * inject_Z 0 <= 1 # 2)%Q -> k = 0).
      { intros k x A. assert (A' : (inject_Z (Z.of_nat k) <= 1 # 2)%Q) by (eapply Qle_trans; [|exact A]; apply Qle_lteq; right; cbn; ring). unfold Qle in A'. cbn in A'. lia. }
      rewrite (N _ _ (proj2 A1)). lia.
    - apply Qabs_Qle_condition in A1. apply Qabs_Qle_condition in A2. destruct A1 as [_ A1]. destruct A2 as [A2 _].
      set (i := qidx l q _) in *. set (j := qidx l q' _) in *.
      assert (Pn : (0 < inject_Z (Z.of_nat (Datatypes.S n)))%Q) by (unfold Qlt; cbn; lia).
      assert (M : (q * inject_Z (Z.of_nat (Datatypes.S n)) < q' * inject_Z (Z.of_nat (Datatypes.S n)))%Q) by (apply Qmult_lt_r; assumption).
      assert (X : (inject_Z (Z.of_nat i) < inject_Z (Z.of_nat j) + 1)%Q).
      { set (x := (q * _)%Q) in *. set (y := (q' * _)%Q) in *. set (a := inject_Z (Z.of_nat i)) in *. set (b := inject_Z (Z.of_nat j)) in *.
        assert (a <= x + (1#2))%Q by (setoid_replace a with ((a - x) + x)%Q by ring; rewrite (Qplus_comm x); apply Qplus_le_compat; [exact A1|apply Qle_refl]).
        assert (y - (1#2) <= b)%Q by (setoid_replace b with ((b - y) + y)%Q by ring; setoid_replace (y - (1#2))%Q with (- (1#2) + y)%Q by ring; apply Qplus_le_compat; [exact A2|apply Qle_refl]).
        eapply Qle_lt_trans; [eassumption|]. apply Qlt_le_trans with (y - (1#2) + 1)%Q; [|apply Qplus_le_compat; [assumption|apply Qle_refl]].
        setoid_replace (y - (1#2) + 1)%Q with (y + (1#2))%Q by ring. apply Qplus_lt_le_compat; [exact M|apply Qle_refl]. }
      unfold Qlt in X. cbn in X. lia.
  Qed.
  Lemma qidx_bound : forall l q n, (0 <= q <= 1)%Q -> qidx l q (Datatypes.S n) <= n.
  Proof.
    intros l q n E. destruct (Qlt_le_dec q 1) as [L|L].
    - rewrite <- (qidx_1 l n) at 2. apply qidx_mono; [apply E|exact L|apply Qle_refl].
    - pose proof (ok l q n E) as A. apply Qabs_Qle_condition in A. destruct A as [_ A]. assert (X : (q == 1)%Q) by (apply Qle_antisym; [apply E|exact L]).
      set (i := qidx l q _) in *. clearbody i. setoid_rewrite X in A. assert (A' : (inject_Z (Z.of_nat i) - inject_Z (Z.of_nat n) <= 1 # 2)%Q) by (eapply Qle_trans; [|exact A]; apply Qle_lteq; right; ring).
      unfold Qle, Qminus, Qplus, Qopp, inject_Z in A'. cbn in A'. lia.
  Qed.
  Notation quantile := (quantile qidx).
  Notation quantiles := (quantiles qidx).

  Lemma sorted_nth : forall l, StronglySorted Qle l -> forall i j, i <= j -> j < length l -> (nth i l 0 <= nth j l 0)%Q.
  Proof.
    intros l So. induction So as [|x l So IH F]; intros i j Lij Lj; cbn in Lj; [lia|]. destruct i as [|i], j as [|j]; cbn; [apply Qle_refl| |lia|apply IH; lia].
    rewrite Forall_forall in F. apply F. apply nth_In. lia.
  Qed.
  Lemma quantile_in : forall l xs q, xs <> [] -> (0 <= q <= 1)%Q -> In (quantile l xs q) xs.
  Proof.
    intros l xs q N E. unfold M_summary.quantile. apply (Permutation_in _ (qsort_perm xs)). apply nth_In. rewrite (Permutation_length (qsort_perm xs)).
    destruct xs as [|x xs]; [contradiction|]. cbn [length]. pose proof (qidx_bound l q (length xs) E). lia.
  Qed.
  Lemma quantile_mono : forall l xs q q', xs <> [] -> (0 <= q)%Q -> (q < q')%Q -> (q' <= 1)%Q -> (quantile l xs q <= quantile l xs q')%Q.
  Proof.
    intros l xs q q' N P L B. unfold M_summary.quantile. destruct xs as [|x xs]; [contradiction|]. apply sorted_nth; [apply qsort_sorted| |].
    - cbn [length]. apply qidx_mono; assumption.
    - rewrite (Permutation_length (qsort_perm _)). cbn [length]. apply Nat.lt_succ_r. apply qidx_bound. split; [apply Qlt_le_weak; eapply Qle_lt_trans; eassumption|exact B].
  Qed.
  Lemma quantile_0 : forall l xs x, In x xs -> (quantile l xs 0 <= x)%Q.
  Proof.
    intros l xs x I. unfold M_summary.quantile. destruct xs as [|y xs]; [destruct I|]. cbn [length]. rewrite qidx_0.
    apply (Permutation_in _ (Permutation_sym (qsort_perm _))) in I. destruct (In_nth _ _ 0%Q I) as (j & Lj & <-). apply sorted_nth; [apply qsort_sorted|lia|exact Lj].
  Qed.
  Lemma quantile_1 : forall l xs x, In x xs -> (x <= quantile l xs 1)%Q.
  Proof.
    intros l xs x I. unfold M_summary.quantile. destruct xs as [|y xs]; [destruct I|]. cbn [length]. rewrite qidx_1.
    apply (Permutation_in _ (Permutation_sym (qsort_perm _))) in I. destruct (In_nth _ _ 0%Q I) as (j & Lj & <-).
    rewrite (Permutation_length (qsort_perm (y :: xs))) in Lj. cbn [length] in Lj.
    apply sorted_nth; [apply qsort_sorted|lia|rewrite (Permutation_length (qsort_perm (y :: xs))); cbn; lia].
  Qed.
  Lemma quantile_const : forall l xs, xs <> [] -> Qeq_bool (quantile l xs 0) (quantile l xs 1) = true <-> (forall x y, In x xs -> In y xs -> (x == y)%Q).
  Proof.
    intros l xs N. rewrite Qeq_bool_iff. split.
    - intros E x y Ix Iy. apply Qle_antisym.
      + eapply Qle_trans; [apply quantile_1; exact Ix|]. rewrite <- E. apply quantile_0. exact Iy.
      + eapply Qle_trans; [apply quantile_1; exact Iy|]. rewrite <- E. apply quantile_0. exact Ix.
    - intros A. apply A; apply quantile_in; try exact N; split; discriminate.
  Qed.
  (** sorted permutations *)
  Lemma sorted_perm : forall a b, Permutation a b -> StronglySorted Qle a -> StronglySorted Qle b -> Forall2 Qeq a b.
  Proof.
    assert (X : forall c (d : list Q), (exists e, Permutation c e /\ Forall2 Qeq e d) -> StronglySorted Qle c -> StronglySorted Qle d -> Forall2 Qeq c d).
    { clear. induction c as [|u c IH]; intros d (e & Pe & Fe) Sc Sd.
      - apply Permutation_nil in Pe. subst. inversion Fe. constructor.
      - destruct d as [|v d]; [inversion Fe; subst; apply Permutation_sym, Permutation_nil in Pe; discriminate|].
        inversion Sc as [|? ? Sc' Fc]; subst. inversion Sd as [|? ? Sd' Fd]; subst. rewrite Forall_forall in Fc, Fd.
        assert (Iu : In u e) by (apply (Permutation_in _ Pe); left; reflexivity).
        assert (Lft : forall e d, Forall2 Qeq e d -> forall u, In u e -> exists v, In v d /\ (u == v)%Q).
        { clear. induction 1 as [|p q e d E F IH]; intros u I; [destruct I|]. destruct I as [->|I]; [exists q; split; [left; reflexivity|exact E]|]. destruct (IH u I) as (v & Iv & Ev). exists v. split; [right; exact Iv|exact Ev]. }
        assert (Rgt : forall e d, Forall2 Qeq e d -> forall v, In v d -> exists u, In u e /\ (u == v)%Q).
        { clear. induction 1 as [|p q e d E F IH]; intros u I; [destruct I|]. destruct I as [->|I]; [exists p; split; [left; reflexivity|exact E]|]. destruct (IH u I) as (v & Iv & Ev). exists v. split; [right; exact Iv|exact Ev]. }
        assert (Euv : (u == v)%Q).
        { apply Qle_antisym.
          - destruct (Rgt _ _ Fe v (or_introl eq_refl)) as (w & Iw & Ew). rewrite <- Ew. apply (Permutation_in _ (Permutation_sym Pe)) in Iw. destruct Iw as [->|Iw]; [apply Qle_refl|apply Fc; exact Iw].
          - destruct (Lft _ _ Fe u Iu) as (w & Iw & Ew). rewrite Ew. destruct Iw as [->|Iw]; [apply Qle_refl|apply Fd; exact Iw]. }
        constructor; [exact Euv|]. apply IH; [|exact Sc'|exact Sd'].
        destruct e as [|p e]; [inversion Fe|]. inversion Fe as [|? ? ? ? Ep Fe']; subst.
        (* u :: c ~ p :: e ; if u is p, done, else swap u into the position of p *)
        apply in_split in Iu. destruct Iu as (e1 & e2 & Eu). destruct e1 as [|p' e1]; cbn in Eu; injection Eu as -> ->.
        + exists e2. split; [apply Permutation_cons_inv in Pe; exact Pe|exact Fe'].
        + exists (e1 ++ p' :: e2). split.
          * apply (Permutation_cons_inv (a := u)). rewrite Pe. etransitivity; [apply perm_skip; symmetry; apply Permutation_middle|]. etransitivity; [apply perm_swap|]. apply perm_skip. apply Permutation_middle.
          * apply Forall2_app_inv_l in Fe'. destruct Fe' as (d1 & d2 & F1 & F2 & ->). inversion F2 as [|? v2 ? d2' E2 F2']; subst. apply Forall2_app; [exact F1|]. constructor; [|exact F2'].
            rewrite Ep, <- Euv, E2. reflexivity. }
    intros a b P Sa Sb. apply X; [|exact Sa|exact Sb]. exists b. split; [exact P|]. clear. induction b; constructor; [reflexivity|assumption].
  Qed.
  Lemma quantile_perm : forall l xs ys q, Permutation xs ys -> (quantile l xs q == quantile l ys q)%Q.
  Proof.
    intros l xs ys q P. unfold M_summary.quantile. rewrite (Permutation_length P).
    assert (F : Forall2 Qeq (qsort xs) (qsort ys)).
    { apply sorted_perm; [|apply qsort_sorted|apply qsort_sorted]. rewrite (qsort_perm xs), (qsort_perm ys). exact P. }
    generalize (qidx l q (length ys)). clear P. induction F as [|x y a b E F IH]; intros i; destruct i; cbn; try reflexivity; [exact E|apply IH].
  Qed.
End Qidx.

(** ** Columns *)
Section Columns.
  Context {V : Type} `{EqD V}.
  Notation column := (column V).
  Notation cell := (cell V).
  Variable num : V -> Q.
  Variable seconds : V -> Q.
  Variable leb : V -> V -> bool.
  Variable scale : unit_ -> Q -> Q.
  Variable qidx : lib -> Q -> nat -> nat.
  Variable sort_counts : list (V * nat) -> list (V * nat).
  Notation summarize := (summarize_column num seconds leb scale qidx sort_counts).

  Definition Occurs (col : column) (v : V) : Prop := In (Val v) (cells col).
  (** the only value *)
  Definition Single (col : column) (v : V) : Prop := Occurs col v /\ forall w, Occurs col w -> w = v.
  (** only columns of floats of polars have nulls and NaN; pandas categories are distinct and contain the values *)
  Record WF (n_rows : nat) (col : column) : Prop := {
    wf_length : length (cells col) = n_rows;
    wf_nan : clib col = Polars -> is_float (ckind col) = false -> ~ In NaN (cells col);
    wf_categories : forall cats, clib col = Pandas -> ckind col = KCategory cats -> NoDup cats /\ forall v, Occurs col v -> In v cats }.
  (** no NaN of polars, no categories of pandas that do not occur *)
  Definition Plain (col : column) : Prop :=
    (clib col = Polars -> ~ In NaN (cells col)) /\ forall cats, clib col = Pandas -> ckind col = KCategory cats -> forall v, In v cats -> Occurs col v.
  Definition DateOrder : Prop :=
    (forall a b, leb a b = true \/ leb b a = true) /\ (forall a b, leb a b = true -> leb b a = true -> a = b) /\ (forall a b c, leb a b = true -> leb b c = true -> leb a c = true).
  Definition SortOk : Prop := forall l, Permutation (sort_counts l) l /\ StronglySorted (fun a b => snd b <= snd a) (sort_counts l).
  Definition IsNull (c : cell) : Prop := c = Null \/ c = NaN.
  (** number of entries that satisfy [P] *)
  Inductive Number {A} (P : A -> Prop) : list A -> nat -> Prop :=
  | Number_nil : Number P [] 0
  | Number_yes : forall a l n, P a -> Number P l n -> Number P (a :: l) (1 + n)
  | Number_no : forall a l n, ~ P a -> Number P l n -> Number P (a :: l) n.

  Lemma number_filter : forall A (P : A -> Prop) (f : A -> bool) l, (forall a, In a l -> f a = true <-> P a) -> Number P l (length (filter f l)).
  Proof.
    clear. induction l as [|a l IH]; intros E; cbn; [constructor|]. assert (IH' := IH (fun x I => E x (or_intror I))). destruct (f a) eqn:F; cbn.
    - apply Number_yes; [apply E; [left; reflexivity|exact F]|exact IH'].
    - apply Number_no; [intros P'; apply E in P'; [congruence|left; reflexivity]|exact IH'].
  Qed.
  Lemma number_fun : forall A (P : A -> Prop) l n, Number P l n -> forall m, Number P l m -> n = m.
  Proof. clear. induction 1; intros m M; inversion M; subst; try contradiction; [reflexivity|f_equal|]; auto. Qed.
  Lemma number_le : forall A (P : A -> Prop) l n, Number P l n -> n <= length l /\ (n = length l <-> forall a, In a l -> P a) /\ (n = 0 <-> forall a, In a l -> ~ P a).
  Proof.
    clear. intros A P l n N0. induction N0 as [|a l n P1 N (L & E & Z)|a l n P1 N (L & E & Z)]; cbn.
    - repeat split; auto; intros; contradiction.
    - split; [lia|]. split; split.
      + intros X b [<-|I]; [exact P1|]. apply E; [lia|exact I].
      + intros X. f_equal. apply E. intros b I. apply X. right. exact I.
      + discriminate.
      + intros X. exfalso. apply (X a); [left; reflexivity|exact P1].
    - split; [lia|]. split; split.
      + lia.
      + intros X. exfalso. apply P1. apply X. left. reflexivity.
      + intros X b [<-|I]; [exact P1|]. apply Z; [exact X|exact I].
      + intros X. apply Z. intros b I. apply X. right. exact I.
  Qed.

  Lemma values_in : forall (cs : list cell) v, In v (values cs) <-> In (Val v) cs.
  Proof.
    clear. intros cs v. unfold values. rewrite in_flat_map. split.
    - intros ([| |w] & I & J); cbn in J; try contradiction. destruct J as [->|[]]. exact I.
    - intros I. exists (Val v). split; [exact I|left; reflexivity].
  Qed.
  Lemma cell_eqb_true : forall a b : cell, cell_eqb a b = true <-> a = b.
  Proof. intros [| |v] [| |w]; cbn; split; try congruence; intros E; [apply (proj1 (eqb_of_true _ _)) in E; congruence|]. injection E as ->. apply eqb_of_refl. Qed.
  Lemma distinct_in : forall A (eqb : A -> A -> bool), (forall a b, eqb a b = true <-> a = b) -> forall l a, In a (distinct eqb l) <-> In a l.
  Proof.
    clear. intros A eqb E l a. induction l as [|b l IH]; cbn; [reflexivity|]. destruct (existsb (eqb b) l) eqn:X.
    - rewrite IH. split; [right; assumption|intros [<-|I]; [|exact I]]. apply existsb_exists in X. destruct X as (c & I & Ec). apply E in Ec. subst. exact I.
    - cbn. rewrite IH. reflexivity.
  Qed.
  Lemma distinct_nodup : forall A (eqb : A -> A -> bool), (forall a b, eqb a b = true <-> a = b) -> forall l, NoDup (distinct eqb l).
  Proof.
    clear. intros A eqb E l. induction l as [|b l IH]; cbn; [constructor|]. destruct (existsb (eqb b) l) eqn:X; [exact IH|]. constructor; [|exact IH].
    rewrite (distinct_in _ _ E). intros I. assert (T : existsb (eqb b) l = true); [|congruence]. apply existsb_exists. exists b. split; [exact I|]. apply E. reflexivity.
  Qed.
  Lemma distinct_values : forall (cs : list cell), Card (fun v => In (Val v) cs) (length (distinct eqb_of (values cs))).
  Proof.
    intros cs. exists (distinct eqb_of (values cs)). split; [apply distinct_nodup; intros; apply eqb_of_true|]. split; [reflexivity|]. intros v.
    rewrite distinct_in by (intros; apply eqb_of_true). apply values_in.
  Qed.

  Lemma is_null_ok : forall n col, WF n col -> forall c, In c (cells col) -> is_null (clib col) (ckind col) c = true <-> IsNull c.
  Proof.
    clear. intros n col W c I. unfold IsNull. destruct c as [| |v]; cbn; [tauto| |split; [discriminate|intros [|]; discriminate]]. split; [right; reflexivity|]. intros _.
    destruct (clib col) eqn:L; [reflexivity|]. destruct (is_float (ckind col)) eqn:F; [reflexivity|]. exfalso. exact (wf_nan _ _ W L F I).
  Qed.
  Lemma nulls_number : forall n col, WF n col -> Number IsNull (cells col) (count_nulls col).
  Proof. intros n col W. apply number_filter. intros c I. apply (is_null_ok n); assumption. Qed.
  Lemma nulls_all : forall n col, WF n col -> count_nulls col = n <-> forall v, ~ Occurs col v.
  Proof.
    intros n col W. pose proof (number_le _ _ _ _ (nulls_number n col W)) as (_ & E & _). rewrite (wf_length _ _ W) in E. rewrite E. unfold Occurs. split.
    - intros A v I. destruct (A _ I) as [X|X]; discriminate.
    - intros A c I. destruct c as [| |v]; [left; reflexivity|right; reflexivity|]. exfalso. exact (A v I).
  Qed.
  Lemma level_ok : forall n col, WF n col -> let p := proportion (count_nulls col) n in
    (level_of p = LOk <-> forall c, In c (cells col) -> ~ IsNull c) /\ (level_of p = LCritical <-> cells col <> [] /\ forall c, In c (cells col) -> IsNull c).
  Proof.
    intros n col W p. pose proof (number_le _ _ _ _ (nulls_number n col W)) as (L & E & Z). rewrite (wf_length _ _ W) in L, E.
    assert (P0 : Qeq_bool p 0 = true <-> count_nulls col = 0).
    { rewrite Qeq_bool_iff. unfold p, proportion, Qeq. cbn. lia. }
    assert (P1 : Qeq_bool p 1 = true <-> count_nulls col = n /\ n <> 0).
    { rewrite Qeq_bool_iff. unfold p, proportion, Qeq. cbn [Qnum Qden]. pose proof (positive_nat_Z (Pos.of_nat (Nat.max 1 n))) as Y. rewrite Nat2Pos.id in Y by lia. lia. }
    unfold level_of. destruct (Qeq_bool p 0) eqn:B0; [|destruct (Qeq_bool p 1) eqn:B1].
    - assert (X : count_nulls col = 0) by (apply P0; reflexivity). split; [split; [intros _; apply Z; exact X|reflexivity]|]. split; [discriminate|]. intros [N A]. exfalso.
      destruct (cells col) as [|c cs]; [contradiction|]. apply (proj1 Z X c); [left; reflexivity|apply A; left; reflexivity].
    - assert (X := proj1 P1 eq_refl). split.
      + split; [discriminate|]. intros A. apply Z in A. lia.
      + split; [intros _|reflexivity]. split; [|apply E, X]. intros N. pose proof (wf_length _ _ W) as Y. rewrite N in Y. cbn in Y. lia.
    - split; (split; [discriminate|]).
      + intros A. apply Z in A. apply P0 in A. discriminate.
      + intros [N A]. apply E in A. assert (Y : false = true); [apply P1; split; [exact A|]|discriminate]. pose proof (wf_length _ _ W) as Y. destruct (cells col); [contradiction|]. cbn in Y. lia.
  Qed.

  (** numbers of distinct values *)
  Lemma distinct_cells : forall D : list cell, NoDup D ->
    length D = length (values D) + (if existsb (cell_eqb Null) D then 1 else 0) + (if existsb (cell_eqb NaN) D then 1 else 0) /\ NoDup (values D).
  Proof.
    induction D as [|c D IH]; intros N; [split; [reflexivity|constructor]|]. inversion N as [|? ? N1 N2]; subst. destruct (IH N2) as [L ND]. cbn [length existsb]. rewrite L.
    destruct c as [| |v]; cbn [cell_eqb values flat_map app length orb].
    - assert (X : existsb (cell_eqb Null) D = false). { apply Bool.not_true_iff_false. intros T. apply existsb_exists in T. destruct T as (c & I & E). apply cell_eqb_true in E. subst. contradiction. }
      rewrite X. fold (values D). split; [lia|exact ND].
    - assert (X : existsb (cell_eqb NaN) D = false). { apply Bool.not_true_iff_false. intros T. apply existsb_exists in T. destruct T as (c & I & E). apply cell_eqb_true in E. subst. contradiction. }
      rewrite X. fold (values D). split; [lia|exact ND].
    - fold (values D). split; [lia|]. constructor; [|exact ND]. rewrite values_in. exact N1.
  Qed.
  Lemma existsb_distinct : forall (c : cell) cs, existsb (cell_eqb c) (distinct cell_eqb cs) = existsb (cell_eqb c) cs.
  Proof.
    intros c cs. apply Bool.eq_iff_eq_true. rewrite !existsb_exists. split; intros (d & I & E); exists d; (split; [|exact E]); apply (distinct_in _ _ cell_eqb_true); exact I.
  Qed.
  Lemma n_unique_ok : forall col, Card (Occurs col) (n_unique col - (match clib col with Polars => if existsb (cell_eqb NaN) (cells col) then 1 else 0 | Pandas => 0 end)).
  Proof.
    intros col. unfold n_unique. destruct (clib col).
    - rewrite Nat.sub_0_r. apply distinct_values.
    - pose proof (distinct_cells _ (distinct_nodup _ _ cell_eqb_true (cells col))) as [L N]. rewrite !existsb_distinct in L. rewrite L.
      match goal with |- Card _ ?k => replace k with (length (values (distinct cell_eqb (cells col)))) end.
      + exists (values (distinct cell_eqb (cells col))). split; [exact N|]. split; [reflexivity|]. intros v. rewrite values_in, (distinct_in _ _ cell_eqb_true). reflexivity.
      + destruct (existsb (cell_eqb Null) (cells col)), (existsb (cell_eqb NaN) (cells col)); lia.
  Qed.
  Lemma value_counts_domain : forall n col, WF n col -> Plain col -> Card (Occurs col) (length (value_counts col)).
  Proof.
    intros n col W [_ Pl]. unfold value_counts. rewrite map_length. destruct (clib col) eqn:L; [|apply distinct_values].
    destruct (ckind col) eqn:K; try apply distinct_values. exists categories. destruct (wf_categories _ _ W _ L K) as [N A]. split; [exact N|]. split; [reflexivity|]. intros v. split; [apply (Pl _ eq_refl eq_refl)|apply A].
  Qed.
  Lemma value_counts_nodup : forall n col, WF n col -> NoDup (map fst (value_counts col)) /\ (forall v, Occurs col v -> In v (map fst (value_counts col))) /\
    (forall v k, In (v, k) (value_counts col) -> Number (fun c => c = Val v) (cells col) k).
  Proof.
    intros n col W. unfold value_counts. rewrite map_map. cbn. rewrite map_id. split; [|split].
    - destruct (clib col) eqn:L; [|apply distinct_nodup; intros; apply eqb_of_true]. destruct (ckind col) eqn:K; try (apply distinct_nodup; intros; apply eqb_of_true). apply (wf_categories _ _ W _ L K).
    - intros v O. assert (D : In v (distinct eqb_of (values (cells col)))) by (rewrite distinct_in by (intros; apply eqb_of_true); apply values_in; exact O).
      destruct (clib col) eqn:L; [|exact D]. destruct (ckind col) eqn:K; try exact D. apply (wf_categories _ _ W _ L K). exact O.
    - intros v k I. apply in_map_iff in I. destruct I as (w & E & _). injection E as -> <-. unfold count. generalize (cells col). clear. induction l as [|c l IH]; [constructor|].
      destruct c as [| |w]; cbn; fold (values l); [apply Number_no; [discriminate|exact IH]..|]. destruct (eqb_of v w) eqn:E.
      + cbn. apply Number_yes; [apply (proj1 (eqb_of_true _ _)) in E; congruence|exact IH].
      + apply Number_no; [|exact IH]. intros X. injection X as ->. rewrite eqb_of_refl in E. discriminate.
  Qed.

  (** constant columns *)
  Lemma card_1 : forall col, Card (Occurs col) 1 <-> exists v, Single col v.
  Proof.
    clear. intros col. split.
    - intros (l & N & L & I). destruct l as [|v [|w l]]; try discriminate. exists v. split; [apply I; left; reflexivity|]. intros w O. apply I in O. destruct O as [->|[]]. reflexivity.
    - intros (v & O & A). exists [v]. split; [repeat constructor; auto|]. split; [reflexivity|]. intros w. cbn. split; [intros [<-|[]]; exact O|]. intros O'. left. symmetry. apply A. exact O'.
  Qed.
  Lemma extremum_ok : forall (R : V -> V -> bool), (forall a b, R a b = true \/ R b a = true) -> (forall a b c, R a b = true -> R b c = true -> R a c = true) ->
    forall vs v, let r := extremum (fun a b => negb (R b a)) v vs in In r (v :: vs) /\ forall w, In w (v :: vs) -> R r w = true.
  Proof.
    clear. intros R T Tr. induction vs as [|w vs IH]; intros v r; unfold r; clear r; cbn [extremum fold_left].
    - split; [left; reflexivity|]. intros w [<-|[]]. destruct (T v v); assumption.
    - destruct (R v w) eqn:E; cbn [negb].
      + destruct (IH v) as [I A]. split; [destruct I as [I|I]; [left; exact I|right; right; exact I]|]. intros x [<-|[<-|Ix]]; [apply A; left; reflexivity| |apply A; right; exact Ix].
        eapply Tr; [apply A; left; reflexivity|exact E].
      + destruct (IH w) as [I A]. split; [right; exact I|]. intros x [<-|Ix]; [|apply A; exact Ix]. eapply Tr; [apply A; left; reflexivity|]. destruct (T v w); congruence.
  Qed.

  Hypothesis qidx_ok : QidxOk qidx.
  Hypothesis sort_ok : SortOk.
  Hypothesis date_order : DateOrder.

  Lemma has_value : forall n col, WF n col -> count_nulls col <> n -> values (cells col) <> [] /\ cells col <> [].
  Proof.
    intros n col W N. assert (X : values (cells col) <> []).
    { intros E. apply N. apply (nulls_all n col W). intros v O. apply values_in in O. rewrite E in O. destruct O. }
    split; [exact X|]. intros E. rewrite E in X. contradiction.
  Qed.
  Lemma counts_nonempty : forall n col, WF n col -> count_nulls col <> n -> length (value_counts col) <> 0.
  Proof.
    intros n col W N. destruct (has_value n col W N) as [X _]. destruct (values (cells col)) as [|v vs] eqn:E; [contradiction|].
    destruct (value_counts_nodup n col W) as (_ & A & _). assert (O : Occurs col v) by (apply values_in; rewrite E; left; reflexivity). apply A in O. destruct (value_counts col); [destruct O|discriminate].
  Qed.
  Lemma add_value_counts_ok : forall n col wp, WF n col -> count_nulls col <> n ->
    exists c plots, add_value_counts sort_counts wp col = Ok (length (value_counts col), firstn 10 (sort_counts (value_counts col)), c, plots) /\
      (match c with Some (Val v) => exists k, value_counts col = [(v, k)] | Some _ => False | None => length (value_counts col) <> 1 end) /\
      plots = (match c with None => if wp then ["value_counts_plot"] else [] | Some _ => [] end).
  Proof.
    intros n col wp W N. unfold add_value_counts. cbn [top_k_value_counts]. pose proof (counts_nonempty n col W N) as Z. destruct (Nat.eqb_spec (length (value_counts col)) 0) as [|_]; [contradiction|].
    destruct (Nat.eqb_spec (length (value_counts col)) 1) as [E|E].
    - destruct (value_counts col) as [|[v k] [|x l]] eqn:Ev; try discriminate. destruct (sort_ok [(v, k)]) as [P _]. apply Permutation_sym, Permutation_length_1_inv in P. rewrite P. cbn.
      exists (Some (Val v)), []. split; [reflexivity|]. split; [exists k; reflexivity|reflexivity].
    - exists None. eexists. split; [reflexivity|]. split; [exact E|reflexivity].
  Qed.

  (** summaries exist *)
  Lemma summary_total : forall n wp od col, WF n col -> exists s, summarize n wp od col = Ok s.
  Proof.
    intros n wp od col W. unfold summarize_column. destruct (Nat.eqb_spec (count_nulls col) n) as [|N]; [eexists; reflexivity|]. destruct (has_value n col W N) as [X Y].
    destruct (cells col) as [|c cs] eqn:Ec; [contradiction|]. rewrite <- Ec in *. destruct (ckind col) eqn:K; try (eexists; reflexivity).
    - destruct (values (cells col)); [contradiction|]. eexists; reflexivity.
    - destruct (add_value_counts_ok n col wp W N) as (c' & pl & E & _). rewrite E. eexists; reflexivity.
    - destruct (add_value_counts_ok n col wp W N) as (c' & pl & E & _). rewrite E. eexists; reflexivity.
  Qed.
  (** the number that stands for a value in a column of numbers or durations *)
  Definition measure (col : column) (v : V) : Q :=
    match ckind col with KDuration => scale (duration_unit seconds qidx (clib col) (values (cells col))) (seconds v) | _ => num v end.
  Definition Injective (col : column) : Prop :=
    match ckind col with KNumber _ | KDuration => forall v w, Occurs col v -> Occurs col w -> (measure col v == measure col w)%Q -> v = w | _ => True end.
  Definition AllCategories (col : column) : Prop := forall cats, clib col = Pandas -> ckind col = KCategory cats -> forall v, In v cats -> Occurs col v.
  Definition Numeric (col : column) : Prop := match ckind col with KNumber _ | KDuration => True | _ => False end.

  Lemma measures_eq : forall col, Numeric col ->
    match (match ckind col with KDuration => Some (duration_unit seconds qidx (clib col) (values (cells col))) | _ => None end) with
    | Some m => map (fun v => scale m (seconds v)) (values (cells col)) | None => map num (values (cells col)) end = map (measure col) (values (cells col)).
  Proof. clear. intros col N. unfold measure, Numeric in *. destruct (ckind col); try contradiction; reflexivity. Qed.

  (** the summary of a column of numbers or durations that has values *)
  Lemma summary_numeric : forall n wp od col, WF n col -> Numeric col -> count_nulls col <> n ->
    exists first, hd_error (cells col) = Some first /\
      let xs := map (measure col) (values (cells col)) in
      let const := Qeq_bool (quantile qidx (clib col) xs 0) (quantile qidx (clib col) xs 1) in
      summarize n wp od col = Ok {| null_count := count_nulls col; null_proportion := proportion (count_nulls col) n; nulls_level := level_of (proportion (count_nulls col) n);
        unique := Some (n_unique col); unique_proportion := Some (proportion (n_unique col) n); counts := None;
        value_is_constant := const; constant_value := if const then Some first else None; min_max := None;
        unit_of := match ckind col with KDuration => Some (duration_unit seconds qidx (clib col) (values (cells col))) | _ => None end;
        quantiles_of := if const then None else Some (quantiles qidx (clib col) xs);
        inter_quartile_range := Some (quantile qidx (clib col) xs (3 # 4) - quantile qidx (clib col) xs (1 # 4))%Q;
        plot_names := if (const || negb wp)%bool then [] else if od then ["line_plot"] else ["histogram_plot"] |}.
  Proof.
    intros n wp od col W Nu N. destruct (has_value n col W N) as [X Y]. unfold summarize_column. destruct (Nat.eqb_spec (count_nulls col) n) as [|_]; [contradiction|].
    destruct (cells col) as [|c cs] eqn:Ec; [contradiction|]. rewrite <- Ec in *. exists c. split; [rewrite Ec; reflexivity|]. cbv zeta. rewrite <- (measures_eq col Nu).
    unfold Numeric in Nu. destruct (ckind col) eqn:K; try contradiction; reflexivity.
  Qed.
  (** of dates *)
  Lemma summary_date : forall n wp od col, WF n col -> ckind col = KDate -> count_nulls col <> n ->
    exists lo hi, Occurs col lo /\ Occurs col hi /\ (forall v, Occurs col v -> leb lo v = true /\ leb v hi = true) /\
      summarize n wp od col = Ok {| null_count := count_nulls col; null_proportion := proportion (count_nulls col) n; nulls_level := level_of (proportion (count_nulls col) n);
        unique := Some (n_unique col); unique_proportion := Some (proportion (n_unique col) n); counts := None;
        value_is_constant := eqb_of lo hi; constant_value := if eqb_of lo hi then Some (Val lo) else None; min_max := if eqb_of lo hi then None else Some (lo, hi);
        unit_of := None; quantiles_of := None; inter_quartile_range := None;
        plot_names := if (eqb_of lo hi || negb wp)%bool then [] else ["histogram_plot"] |}.
  Proof.
    intros n wp od col W K N. destruct (has_value n col W N) as [X Y]. unfold summarize_column. destruct (Nat.eqb_spec (count_nulls col) n) as [|_]; [contradiction|].
    destruct (cells col) as [|c cs] eqn:Ec; [contradiction|]. rewrite <- Ec in *. rewrite K. destruct (values (cells col)) as [|v vs] eqn:Ev; [contradiction|].
    destruct date_order as (T & A & Tr).
    pose proof (extremum_ok leb T Tr vs v) as [I1 A1]. pose proof (extremum_ok (fun a b => leb b a) (fun a b => T b a) (fun a b c x y => Tr c b a y x) vs v) as [I2 A2]. cbv beta in I2, A2.
    set (lo := extremum _ v vs) in I1, A1 |- *. set (hi := extremum _ v vs) in I2, A2 |- *.
    assert (O : forall w, In w (v :: vs) <-> Occurs col w) by (intros w; rewrite <- Ev; apply values_in).
    exists lo, hi. split; [apply O; exact I1|]. split; [apply O; exact I2|]. split; [intros w Ow; apply O in Ow; split; [apply A1|apply A2]; exact Ow|]. reflexivity.
  Qed.
  (** of categories and other types *)
  Definition Listed (col : column) : Prop := match ckind col with KCategory _ | KOther => True | _ => False end.
  Lemma summary_listed : forall n wp od col, WF n col -> Listed col -> count_nulls col <> n ->
    exists c, (match c with Some (Val v) => exists k, value_counts col = [(v, k)] | Some _ => False | None => length (value_counts col) <> 1 end) /\
      summarize n wp od col = Ok {| null_count := count_nulls col; null_proportion := proportion (count_nulls col) n; nulls_level := level_of (proportion (count_nulls col) n);
        unique := Some (length (value_counts col)); unique_proportion := Some (proportion (length (value_counts col)) n); counts := Some (firstn 10 (sort_counts (value_counts col)));
        value_is_constant := match c with Some _ => true | None => false end; constant_value := c; min_max := None;
        unit_of := None; quantiles_of := None; inter_quartile_range := None;
        plot_names := match c with None => if wp then ["value_counts_plot"] else [] | Some _ => [] end |}.
  Proof.
    intros n wp od col W Li N. destruct (has_value n col W N) as [X Y]. unfold summarize_column. destruct (Nat.eqb_spec (count_nulls col) n) as [|_]; [contradiction|].
    destruct (cells col) as [|c cs] eqn:Ec; [contradiction|]. rewrite <- Ec in *. destruct (add_value_counts_ok n col wp W N) as (c' & pl & E & M & ->). exists c'. split; [exact M|]. unfold Listed in Li.
    destruct (ckind col); try contradiction; rewrite E; reflexivity.
  Qed.
  Lemma summary_null : forall n wp od col, count_nulls col = n ->
      summarize n wp od col = Ok {| null_count := count_nulls col; null_proportion := proportion (count_nulls col) n; nulls_level := level_of (proportion (count_nulls col) n);
        unique := None; unique_proportion := None; counts := None; value_is_constant := false; constant_value := None; min_max := None;
        unit_of := None; quantiles_of := None; inter_quartile_range := None; plot_names := [] |}.
  Proof. clear. intros n wp od col E. unfold summarize_column. rewrite E, Nat.eqb_refl. reflexivity. Qed.
  Lemma kind_cases : forall col : column, Numeric col \/ ckind col = KDate \/ Listed col.
  Proof. clear. intros col. unfold Numeric, Listed. destruct (ckind col); auto. Qed.

  (** nulls *)
  Lemma summary_nulls : forall n wp od col s, WF n col -> summarize n wp od col = Ok s ->
    null_count s = count_nulls col /\ null_proportion s = proportion (count_nulls col) n /\ nulls_level s = level_of (proportion (count_nulls col) n).
  Proof.
    intros n wp od col s W E. destruct (Nat.eq_dec (count_nulls col) n) as [Z|N].
    - rewrite (summary_null n wp od col Z) in E. injection E as <-. repeat split.
    - destruct (kind_cases col) as [K|[K|K]].
      + destruct (summary_numeric n wp od col W K N) as (c & _ & E'). cbv zeta in E'. rewrite E' in E. injection E as <-. repeat split.
      + destruct (summary_date n wp od col W K N) as (lo & hi & _ & _ & _ & E'). rewrite E' in E. injection E as <-. repeat split.
      + destruct (summary_listed n wp od col W K N) as (c & _ & E'). rewrite E' in E. injection E as <-. repeat split.
  Qed.

  (** distinct values *)
  Lemma existsb_nan : forall cs : list cell, existsb (cell_eqb NaN) cs = true <-> In NaN cs.
  Proof. intros cs. rewrite existsb_exists. split; [intros (c & I & E); apply cell_eqb_true in E; subst; exact I|intros I; exists NaN; split; [exact I|reflexivity]]. Qed.
  Lemma summary_unique : forall n wp od col s, WF n col -> Plain col -> summarize n wp od col = Ok s ->
    match unique s with Some k => Card (Occurs col) k /\ unique_proportion s = Some (proportion k n) | None => forall v, ~ Occurs col v end.
  Proof.
    intros n wp od col s W Pl E. assert (U : Card (Occurs col) (n_unique col)).
    { pose proof (n_unique_ok col) as U. destruct (clib col) eqn:L; [rewrite Nat.sub_0_r in U; exact U|]. destruct (existsb (cell_eqb NaN) (cells col)) eqn:X; [|rewrite Nat.sub_0_r in U; exact U].
      exfalso. apply existsb_nan in X. exact (proj1 Pl L X). }
    destruct (Nat.eq_dec (count_nulls col) n) as [Z|N].
    - rewrite (summary_null n wp od col Z) in E. injection E as <-. cbn. apply (nulls_all n col W). exact Z.
    - destruct (kind_cases col) as [K|[K|K]].
      + destruct (summary_numeric n wp od col W K N) as (c & _ & E'). cbv zeta in E'. rewrite E' in E. injection E as <-. split; [exact U|reflexivity].
      + destruct (summary_date n wp od col W K N) as (lo & hi & _ & _ & _ & E'). rewrite E' in E. injection E as <-. split; [exact U|reflexivity].
      + destruct (summary_listed n wp od col W K N) as (c & _ & E'). rewrite E' in E. injection E as <-. split; [apply (value_counts_domain n); assumption|reflexivity].
  Qed.

  (** constants *)
  Lemma single_dec : forall col v w, Single col v -> Single col w -> v = w.
  Proof. clear. intros col v w [_ A] [B _]. symmetry. apply A. exact B. Qed.
  Lemma summary_constant : forall n wp od col s, WF n col -> AllCategories col -> Injective col -> summarize n wp od col = Ok s ->
    (value_is_constant s = true <-> exists v, Single col v) /\
    (value_is_constant s = true -> constant_value s = if (match ckind col with KNumber _ | KDuration => true | _ => false end) then hd_error (cells col) else match values (cells col) with v :: _ => Some (Val v) | [] => None end) /\
    (value_is_constant s = false -> constant_value s = None).
  Proof.
    intros n wp od col s W AC Inj E.
    assert (Fst : forall v, Single col v -> match values (cells col) with w :: _ => Some (Val w) | [] => None end = Some (Val v)).
    { intros v [O A]. destruct (values (cells col)) as [|w l] eqn:Ev; [apply values_in in O; rewrite Ev in O; destruct O|]. rewrite (A w); [reflexivity|]. apply values_in. rewrite Ev. left. reflexivity. }
    destruct (Nat.eq_dec (count_nulls col) n) as [Z|N].
    - rewrite (summary_null n wp od col Z) in E. injection E as <-. cbn. split; [|split; [discriminate|reflexivity]]. split; [discriminate|]. intros (v & O & _). exfalso. exact (proj1 (nulls_all n col W) Z v O).
    - destruct (has_value n col W N) as [X Y]. destruct (kind_cases col) as [K|[K|K]].
      + destruct (summary_numeric n wp od col W K N) as (c & Hc & E'). cbv zeta in E'. rewrite E' in E. injection E as <-. cbn [value_is_constant constant_value].
        assert (Nx : map (measure col) (values (cells col)) <> []) by (destruct (values (cells col)); [contradiction|discriminate]).
        pose proof (quantile_const qidx qidx_ok (clib col) _ Nx) as QC. set (bb := Qeq_bool _ _) in *. clearbody bb. clear E'. split; [split|split].
        * intros A0. pose proof (proj1 QC A0) as A. destruct (values (cells col)) as [|v l] eqn:Ev; [contradiction|]. exists v. assert (Ov : Occurs col v) by (apply values_in; rewrite Ev; left; reflexivity). split; [exact Ov|].
          intros w Ow. unfold Injective in Inj. unfold Numeric in K. apply values_in in Ow as Iw. rewrite Ev in Iw.
          assert (M : (measure col w == measure col v)%Q) by (apply A; apply in_map; [exact Iw|left; reflexivity]).
          destruct (ckind col); try contradiction; apply Inj; assumption.
        * intros (v & O & A). apply (proj2 QC). intros x y Ix Iy. apply in_map_iff in Ix, Iy. destruct Ix as (a & <- & Ia). destruct Iy as (b & <- & Ib). apply values_in in Ia, Ib. rewrite (A a Ia), (A b Ib). reflexivity.
        * intros ->. rewrite Hc. unfold Numeric in K. destruct (ckind col); try contradiction; reflexivity.
        * intros ->. reflexivity.
      + destruct (summary_date n wp od col W K N) as (lo & hi & Ol & Oh & B & E'). rewrite E' in E. injection E as <-. cbn [value_is_constant constant_value]. destruct date_order as (_ & An & _). rewrite K.
        assert (Sg : lo = hi -> Single col lo). { intros ->. split; [exact Oh|]. intros w Ow. destruct (B w Ow). apply An; assumption. }
        split; [split|split].
        * intros T. apply (proj1 (eqb_of_true _ _)) in T. exists lo. apply Sg. exact T.
        * intros (v & _ & A). rewrite (A lo Ol), (A hi Oh). apply eqb_of_refl.
        * intros T. rewrite T. apply (proj1 (eqb_of_true _ _)) in T. rewrite (Fst lo (Sg T)). reflexivity.
        * intros ->. reflexivity.
      + destruct (summary_listed n wp od col W K N) as (c & Hc & E'). rewrite E' in E. injection E as <-. cbn [value_is_constant constant_value].
        assert (Cd : Card (Occurs col) (length (value_counts col))).
        { unfold value_counts. rewrite map_length. destruct (clib col) eqn:L; [|apply distinct_values]. destruct (ckind col) eqn:K'; try apply distinct_values.
          exists categories. destruct (wf_categories _ _ W _ L K') as [ND A]. split; [exact ND|]. split; [reflexivity|]. intros v. split; [apply (AC _ L K')|apply A]. }
        destruct c as [[| |v]|]; try contradiction.
        * destruct Hc as (k & Hc). rewrite Hc in Cd. cbn in Cd. destruct (proj1 (card_1 col) Cd) as (w & Sw). assert (v = w).
          { destruct (value_counts_nodup n col W) as (_ & A & _). rewrite Hc in A. destruct (A w (proj1 Sw)) as [Q0|[]]. exact Q0. } subst w.
          split; [split; [intros _; exists v; exact Sw|reflexivity]|]. split; [|discriminate]. intros _. rewrite (Fst v Sw). unfold Listed in K. destruct (ckind col); try contradiction; reflexivity.
        * split; [split; [discriminate|]|split; [discriminate|reflexivity]]. intros Ex. apply card_1 in Ex. exfalso. apply Hc. exact (card_fun _ _ _ _ Cd Ex).
  Qed.
  (** the values of numbers or durations are constant when their measures are *)
  Lemma summary_constant_measure : forall n wp od col s, WF n col -> Numeric col -> summarize n wp od col = Ok s ->
    (value_is_constant s = true <-> (exists v, Occurs col v) /\ forall v w, Occurs col v -> Occurs col w -> (measure col v == measure col w)%Q).
  Proof.
    intros n wp od col s W K E. destruct (Nat.eq_dec (count_nulls col) n) as [Z|N].
    - rewrite (summary_null n wp od col Z) in E. injection E as <-. cbn. split; [discriminate|]. intros ((v & O) & _). exfalso. exact (proj1 (nulls_all n col W) Z v O).
    - destruct (has_value n col W N) as [X Y]. destruct (summary_numeric n wp od col W K N) as (c & Hc & E'). cbv zeta in E'. rewrite E' in E. injection E as <-. cbn [value_is_constant].
      rewrite (quantile_const qidx qidx_ok) by (destruct (values (cells col)); [contradiction|discriminate]). split.
      + intros A. split; [destruct (values (cells col)) as [|v l] eqn:Ev; [contradiction|]; exists v; apply values_in; rewrite Ev; left; reflexivity|].
        intros v w Ov Ow. apply A; apply in_map; apply values_in; assumption.
      + intros [_ A] x y Ix Iy. apply in_map_iff in Ix, Iy. destruct Ix as (a & <- & Ia). destruct Iy as (b & <- & Ib). apply A; apply values_in; assumption.
  Qed.

  (** counts *)
  Lemma sorted_firstn : forall A (R : A -> A -> Prop) k l, StronglySorted R l -> StronglySorted R (firstn k l).
  Proof.
    clear. intros A R k. induction k as [|k IH]; intros l So; [constructor|]. destruct So as [|a l So F]; [constructor|]. cbn. constructor; [apply IH; exact So|].
    rewrite Forall_forall in *. intros x I. apply F. rewrite <- (firstn_skipn k l). apply in_or_app. left. exact I.
  Qed.
  Lemma sorted_rest : forall A (R : A -> A -> Prop) k l x y, StronglySorted R l -> In x (firstn k l) -> In y (skipn k l) -> R x y.
  Proof.
    clear. intros A R k. induction k as [|k IH]; intros l x y So Ix Iy; [destruct Ix|]. destruct So as [|a l So F]; [destruct Ix|]. cbn in Ix, Iy. destruct Ix as [<-|Ix]; [|apply (IH l); assumption].
    rewrite Forall_forall in F. apply F. rewrite <- (firstn_skipn k l). apply in_or_app. right. exact Iy.
  Qed.
  Lemma summary_counts : forall n wp od col s cs, WF n col -> summarize n wp od col = Ok s -> counts s = Some cs ->
    NoDup (map fst cs) /\ (forall v k, In (v, k) cs -> Number (fun c => c = Val v) (cells col) k) /\
    StronglySorted (fun a b => snd b <= snd a) cs /\
    (exists u, unique s = Some u /\ length cs = Nat.min 10 u) /\
    (forall v k, Occurs col v -> Number (fun c => c = Val v) (cells col) k -> ~ In v (map fst cs) -> length cs = 10 /\ forall w j, In (w, j) cs -> k <= j).
  Proof.
    intros n wp od col s cs W E Ec. destruct (Nat.eq_dec (count_nulls col) n) as [Z|N]; [rewrite (summary_null n wp od col Z) in E; injection E as <-; discriminate|].
    destruct (kind_cases col) as [K|[K|K]].
    - destruct (summary_numeric n wp od col W K N) as (c & _ & E'). cbv zeta in E'. rewrite E' in E. injection E as <-. discriminate.
    - destruct (summary_date n wp od col W K N) as (lo & hi & _ & _ & _ & E'). rewrite E' in E. injection E as <-. discriminate.
    - destruct (summary_listed n wp od col W K N) as (c & _ & E'). rewrite E' in E. assert (Es : counts s = Some (firstn 10 (sort_counts (value_counts col))) /\ unique s = Some (length (value_counts col))) by (inversion E; split; reflexivity). destruct Es as [Es Eu].
      assert (Ecs : cs = firstn 10 (sort_counts (value_counts col))) by congruence. subst cs. rewrite Eu. destruct (value_counts_nodup n col W) as (ND & D & Cn). destruct (sort_ok (value_counts col)) as [P So].
      assert (NDs : NoDup (map fst (sort_counts (value_counts col)))) by (eapply Permutation_NoDup; [apply Permutation_sym, Permutation_map, P|exact ND]).
      split; [|split; [|split; [|split]]].
      + rewrite <- (firstn_skipn 10 (sort_counts (value_counts col))), map_app in NDs. apply nodup_app_l in NDs. exact NDs.
      + intros v k I. apply Cn. apply (Permutation_in _ P). rewrite <- (firstn_skipn 10 (sort_counts (value_counts col))). apply in_or_app. left. exact I.
      + apply sorted_firstn. exact So.
      + eexists. split; [reflexivity|]. rewrite firstn_length, (Permutation_length P). reflexivity.
      + intros v k O Nk Nin. apply D in O. apply (Permutation_in _ (Permutation_map fst (Permutation_sym P))) in O. rewrite <- (firstn_skipn 10 (sort_counts (value_counts col))), map_app in O.
        apply in_app_or in O. destruct O as [O|O]; [contradiction|]. apply in_map_iff in O. destruct O as ([v' k'] & Ev & I). cbn in Ev. subst v'.
        assert (k' = k). { apply (number_fun _ (fun c => c = Val v) (cells col)); [|exact Nk]. apply Cn. apply (Permutation_in _ P). rewrite <- (firstn_skipn 10 (sort_counts (value_counts col))). apply in_or_app. right. exact I. } subst k'.
        split.
        * apply firstn_length_le. destruct (Nat.le_gt_cases 10 (length (sort_counts (value_counts col)))) as [L|L]; [exact L|]. rewrite skipn_all2 in I by lia. destruct I.
        * intros w j Iw. exact (sorted_rest _ _ _ _ _ _ So Iw I).
  Qed.

  (** quantiles *)
  Lemma summary_quantiles : forall n wp od col s, WF n col -> Numeric col -> summarize n wp od col = Ok s ->
    (forall q, inter_quartile_range s = Some q -> (0 <= q)%Q) /\
    (forall qs, quantiles_of s = Some qs -> exists a b c d e, qs = [a; b; c; d; e] /\ (a <= b /\ b <= c /\ c <= d /\ d <= e /\ ~ a == e)%Q /\
      (forall q, In q qs -> exists v, Occurs col v /\ q = measure col v) /\ forall v, Occurs col v -> (a <= measure col v <= e)%Q) /\
    ((exists qs, quantiles_of s = Some qs) <-> value_is_constant s = false /\ exists v, Occurs col v).
  Proof.
    intros n wp od col s W K E. destruct (Nat.eq_dec (count_nulls col) n) as [Z|N].
    { rewrite (summary_null n wp od col Z) in E. injection E as <-. cbn. split; [discriminate|]. split; [discriminate|]. split; [intros (? & ?); discriminate|]. intros (_ & v & O). exfalso. exact (proj1 (nulls_all n col W) Z v O). }
    destruct (has_value n col W N) as [X Y]. destruct (summary_numeric n wp od col W K N) as (c & Hc & E'). cbv zeta in E'. rewrite E' in E. injection E as <-. cbn [inter_quartile_range quantiles_of value_is_constant].
    set (xs := map (measure col) (values (cells col))). assert (Nx : xs <> []) by (unfold xs; destruct (values (cells col)); [contradiction|discriminate]).
    assert (M : forall q q', (0 <= q)%Q -> (q < q')%Q -> (q' <= 1)%Q -> (quantile qidx (clib col) xs q <= quantile qidx (clib col) xs q')%Q) by (intros; apply quantile_mono; assumption).
    split; [|split].
    - intros q Eq. injection Eq as <-. apply (Qplus_le_l _ _ (quantile qidx (clib col) xs (1 # 4))). ring_simplify. apply M; reflexivity || discriminate.
    - intros qs Eq. destruct (Qeq_bool _ _) eqn:B; [discriminate|]. injection Eq as <-. unfold quantiles, QS. cbn [map]. do 5 eexists. split; [reflexivity|]. split; [|split].
      + repeat split; try (apply M; reflexivity || discriminate). intros Eq. apply Qeq_bool_iff in Eq. apply Bool.diff_true_false. rewrite <- B. symmetry. exact Eq.
      + intros q I. assert (Iq : In q xs). { repeat (destruct I as [<-|I]; [apply quantile_in; [assumption|assumption|split; discriminate]|]). destruct I. }
        apply in_map_iff in Iq. destruct Iq as (v & <- & Iv). exists v. split; [apply values_in; exact Iv|reflexivity].
      + intros v O. apply values_in in O. apply (in_map (measure col)) in O. fold xs in O. split; [apply quantile_0; assumption|apply quantile_1; assumption].
    - destruct (Qeq_bool _ _) eqn:B.
      + split; [intros (? & ?); discriminate|intros (? & _); discriminate].
      + split; [|intros _; eexists; reflexivity]. intros _. split; [reflexivity|]. destruct (values (cells col)) as [|v l] eqn:Ev; [contradiction|]. exists v. apply values_in. rewrite Ev. left. reflexivity.
  Qed.
  (** ** The order of the rows *)
  Definition SameRows (col col' : column) : Prop := clib col = clib col' /\ ckind col = ckind col' /\ Permutation (cells col) (cells col').
  Lemma same_occurs : forall col col', SameRows col col' -> forall v, Occurs col v <-> Occurs col' v.
  Proof. clear. intros col col' (_ & _ & P) v. unfold Occurs. split; apply Permutation_in; [exact P|symmetry; exact P]. Qed.
  Lemma same_wf : forall n col col', SameRows col col' -> WF n col -> WF n col'.
  Proof.
    clear. intros n col col' S W. pose proof (same_occurs _ _ S) as O. destruct S as (E1 & E2 & P). destruct W as [W1 W2 W3]. constructor.
    - rewrite <- (Permutation_length P). exact W1.
    - rewrite <- E1, <- E2. intros A B I. apply (W2 A B). apply (Permutation_in _ (Permutation_sym P)). exact I.
    - rewrite <- E1, <- E2. intros cats A B. destruct (W3 cats A B) as [N I]. split; [exact N|]. intros v Ov. apply I. apply O. exact Ov.
  Qed.
  Lemma same_nulls : forall col col', SameRows col col' -> count_nulls col = count_nulls col'.
  Proof. clear. intros col col' (E1 & E2 & P). unfold count_nulls. rewrite E1, E2. apply Permutation_length, perm_filter, P. Qed.
  Lemma same_values : forall col col', SameRows col col' -> Permutation (values (cells col)) (values (cells col')).
  Proof. clear. intros col col' (_ & _ & P). apply perm_flat_map. exact P. Qed.
  Lemma distinct_perm : forall A (eqb : A -> A -> bool), (forall a b, eqb a b = true <-> a = b) -> forall l l', Permutation l l' -> Permutation (distinct eqb l) (distinct eqb l').
  Proof.
    clear. intros A eqb E l l' P. apply NoDup_Permutation; [apply distinct_nodup; exact E..|]. intros a. rewrite !(distinct_in _ _ E). split; apply Permutation_in; [exact P|symmetry; exact P].
  Qed.
  Lemma existsb_perm : forall A (f : A -> bool) l l', Permutation l l' -> existsb f l = existsb f l'.
  Proof. clear. intros A f l l' P. induction P; cbn; [reflexivity|congruence|destruct (f x), (f y); reflexivity|congruence]. Qed.
  Lemma same_n_unique : forall col col', SameRows col col' -> n_unique col = n_unique col'.
  Proof.
    intros col col' S. unfold n_unique. pose proof (same_values _ _ S) as P'. destruct S as (E1 & E2 & P). rewrite <- E1. destruct (clib col).
    - apply Permutation_length, distinct_perm; [intros; apply eqb_of_true|exact P'].
    - rewrite (existsb_perm _ _ _ _ P). rewrite (Permutation_length (distinct_perm _ _ cell_eqb_true _ _ P)). reflexivity.
  Qed.
  Lemma same_counts : forall col col', SameRows col col' -> Permutation (value_counts col) (value_counts col').
  Proof.
    intros col col' S. unfold value_counts. pose proof (same_values _ _ S) as P'. destruct S as (E1 & E2 & P). rewrite <- E1, <- E2.
    assert (C : forall v, count v (values (cells col)) = count v (values (cells col'))) by (intros v; apply Permutation_length, perm_filter, P').
    assert (D : Permutation (map (fun v => (v, count v (values (cells col)))) (distinct eqb_of (values (cells col)))) (map (fun v => (v, count v (values (cells col')))) (distinct eqb_of (values (cells col'))))).
    { erewrite map_ext; [|intros v; rewrite C; reflexivity]. apply Permutation_map, distinct_perm; [intros; apply eqb_of_true|exact P']. }
    destruct (clib col); [|exact D]. destruct (ckind col); try exact D. erewrite map_ext; [|intros v; rewrite C; reflexivity]. reflexivity.
  Qed.
  Lemma sorted_nat_perm : forall a b : list nat, Permutation a b -> StronglySorted (fun x y => y <= x) a -> StronglySorted (fun x y => y <= x) b -> a = b.
  Proof.
    clear. induction a as [|x a IH]; intros b P Sa Sb; [apply Permutation_nil in P; subst; reflexivity|].
    destruct b as [|y b]; [apply Permutation_sym, Permutation_nil in P; discriminate|].
    inversion Sa as [|? ? Sa' Fa]; subst. inversion Sb as [|? ? Sb' Fb]; subst. rewrite Forall_forall in Fa, Fb.
    assert (Exy : x = y).
    { apply Nat.le_antisymm.
      - assert (I : In x (y :: b)) by (apply (Permutation_in _ P); left; reflexivity). destruct I as [->|I]; [lia|apply Fb; exact I].
      - assert (I : In y (x :: a)) by (apply (Permutation_in _ (Permutation_sym P)); left; reflexivity). destruct I as [->|I]; [lia|apply Fa; exact I]. }
    subst y. f_equal. apply IH; [apply Permutation_cons_inv in P; exact P|assumption|assumption].
  Qed.
  Lemma sorted_map_snd : forall l : list (V * nat), StronglySorted (fun a b => snd b <= snd a) l -> StronglySorted (fun x y => y <= x) (map snd l).
  Proof. clear. intros l So. induction So as [|a l So IH F]; cbn; constructor; [exact IH|]. rewrite Forall_map. exact F. Qed.
  Lemma same_top : forall col col', SameRows col col' -> map snd (firstn 10 (sort_counts (value_counts col))) = map snd (firstn 10 (sort_counts (value_counts col'))).
  Proof.
    intros col col' S. pose proof (same_counts _ _ S) as P. destruct (sort_ok (value_counts col)) as [P1 S1]. destruct (sort_ok (value_counts col')) as [P2 S2].
    rewrite <- !firstn_map. f_equal. apply sorted_nat_perm; [|apply sorted_map_snd; assumption..]. apply Permutation_map. rewrite P1, P2. exact P.
  Qed.
  Lemma qle_bool_compat : forall a b c, (a == b)%Q -> Qle_bool c a = Qle_bool c b.
  Proof. clear. intros a b c E. apply Bool.eq_iff_eq_true. rewrite !Qle_bool_iff, E. reflexivity. Qed.
  Lemma same_unit : forall l vs vs', Permutation vs vs' -> duration_unit seconds qidx l vs = duration_unit seconds qidx l vs'.
  Proof.
    clear - qidx_ok. intros l vs vs' P. unfold duration_unit. cbv zeta.
    assert (E : (quantile qidx l (map (fun v => Qabs (seconds v)) vs) (9 # 10) == quantile qidx l (map (fun v => Qabs (seconds v)) vs') (9 # 10))%Q) by (apply quantile_perm, Permutation_map, P).
    unfold Qlt_bool. rewrite !(qle_bool_compat _ _ _ E). reflexivity.
  Qed.
  Lemma same_measure : forall col col', SameRows col col' -> forall v, measure col v = measure col' v.
  Proof. intros col col' S v. unfold measure. pose proof (same_values _ _ S) as P'. destruct S as (E1 & E2 & P). rewrite <- E2. destruct (ckind col); try reflexivity. rewrite <- E1. rewrite (same_unit _ _ _ P'). reflexivity. Qed.
  Lemma qeq_bool_compat : forall a b c d, (a == b)%Q -> (c == d)%Q -> Qeq_bool a c = Qeq_bool b d.
  Proof. clear. intros a b c d E F. apply Bool.eq_iff_eq_true. rewrite !Qeq_bool_iff, E, F. reflexivity. Qed.

  (** everything but which values are named as most frequent, and the constant *)
  Definition SameSummary (s s' : summary V) : Prop :=
    null_count s = null_count s' /\ null_proportion s = null_proportion s' /\ nulls_level s = nulls_level s' /\ unique s = unique s' /\ unique_proportion s = unique_proportion s' /\
    option_map (map snd) (counts s) = option_map (map snd) (counts s') /\ value_is_constant s = value_is_constant s' /\ min_max s = min_max s' /\ unit_of s = unit_of s' /\
    (match quantiles_of s, quantiles_of s' with Some qs, Some qs' => Forall2 Qeq qs qs' | None, None => True | _, _ => False end) /\
    (match inter_quartile_range s, inter_quartile_range s' with Some q, Some q' => (q == q')%Q | None, None => True | _, _ => False end) /\ plot_names s = plot_names s'.
  Lemma summary_rows : forall n wp od col col' s s', WF n col -> SameRows col col' -> summarize n wp od col = Ok s -> summarize n wp od col' = Ok s' -> SameSummary s s'.
  Proof.
    intros n wp od col col' s s' W S E E'. pose proof (same_wf n _ _ S W) as W'. pose proof (same_nulls _ _ S) as EN. pose proof (same_n_unique _ _ S) as EU. pose proof (same_occurs _ _ S) as O.
    unfold SameSummary. destruct (Nat.eq_dec (count_nulls col) n) as [Z|N].
    - rewrite (summary_null n wp od col Z) in E. injection E as <-. rewrite EN in Z. rewrite (summary_null n wp od col' Z) in E'. injection E' as <-. cbn. rewrite EN. repeat split.
    - assert (N' : count_nulls col' <> n) by congruence. pose proof S as (S1 & S2 & S3). destruct (kind_cases col) as [K|[K|K]].
      + assert (K' : Numeric col') by (unfold Numeric in *; rewrite <- S2; exact K).
        destruct (summary_numeric n wp od col W K N) as (c & _ & F). cbv zeta in F. rewrite F in E. injection E as <-. destruct (summary_numeric n wp od col' W' K' N') as (c' & _ & F'). cbv zeta in F'. rewrite F' in E'. injection E' as <-.
        clear F F'. cbn [null_count null_proportion nulls_level unique unique_proportion counts value_is_constant min_max unit_of quantiles_of inter_quartile_range plot_names].
        assert (Q0 : forall q, (quantile qidx (clib col) (map (measure col) (values (cells col))) q == quantile qidx (clib col') (map (measure col') (values (cells col'))) q)%Q).
        { intros q. rewrite <- S1. apply quantile_perm. erewrite map_ext; [|apply (same_measure _ _ S)]. apply Permutation_map, same_values, S. }
        rewrite (qeq_bool_compat _ _ _ _ (Q0 0%Q) (Q0 1%Q)). rewrite EN, EU. repeat split.
        * rewrite <- S1, <- S2. destruct (ckind col); try reflexivity. rewrite (same_unit _ _ _ (same_values _ _ S)). reflexivity.
        * destruct (Qeq_bool _ _); [exact Logic.I|]. unfold quantiles. generalize QS. induction l as [|q l IH]; cbn; constructor; [apply Q0|exact IH].
        * rewrite (Q0 (3 # 4)), (Q0 (1 # 4)). reflexivity.
      + assert (K' : ckind col' = KDate) by (rewrite <- S2; exact K).
        destruct (summary_date n wp od col W K N) as (lo & hi & Ol & Oh & B & F). rewrite F in E. injection E as <-. destruct (summary_date n wp od col' W' K' N') as (lo' & hi' & Ol' & Oh' & B' & F'). rewrite F' in E'. injection E' as <-. clear F F'.
        destruct date_order as (_ & An & _). assert (lo = lo') by (apply An; [apply B, O, Ol'|apply B', O, Ol]). assert (hi = hi') by (apply An; [apply B', O, Oh|apply B, O, Oh']). subst lo' hi'.
        cbn. rewrite EN, EU. repeat split.
      + assert (K' : Listed col') by (unfold Listed in *; rewrite <- S2; exact K).
        destruct (summary_listed n wp od col W K N) as (c & Hc & F). rewrite F in E. injection E as <-. destruct (summary_listed n wp od col' W' K' N') as (c' & Hc' & F'). rewrite F' in E'. injection E' as <-. clear F F'.
        cbn [null_count null_proportion nulls_level unique unique_proportion counts value_is_constant min_max unit_of quantiles_of inter_quartile_range plot_names option_map].
        pose proof (Permutation_length (same_counts _ _ S)) as EL. rewrite EN, EL. pose proof (same_top _ _ S) as ET.
        assert (Ec : match c with Some _ => true | None => false end = match c' with Some _ => true | None => false end).
        { destruct c as [[| |v]|], c' as [[| |v']|]; try contradiction; try reflexivity; [destruct Hc as (k & Hc); rewrite Hc in EL; exfalso; apply Hc'; rewrite <- EL; reflexivity|destruct Hc' as (k & Hc'); rewrite Hc' in EL; exfalso; apply Hc; rewrite EL; reflexivity]. }
        repeat split; try exact Ec; [apply f_equal; exact ET|]. destruct c, c'; try discriminate Ec; reflexivity.
  Qed.

  (** reordering the rows of a table *)
  Lemma reorder_same : forall n rows col, length (cells col) = n -> Permutation rows (seq 0 n) -> SameRows col (reorder rows col).
  Proof.
    clear. intros n rows col L P. split; [reflexivity|]. split; [reflexivity|]. cbn [cells reorder]. rewrite P. rewrite <- L. clear.
    assert (E : forall (l : list cell), l = map (fun i => nth i l Null) (seq 0 (length l))).
    { clear. intros l. apply nth_ext with (d := Null) (d' := Null); [rewrite map_length, seq_length; reflexivity|]. intros i Li.
      symmetry. rewrite (nth_indep _ Null (nth 0 l Null)) by (rewrite map_length, seq_length; exact Li). rewrite (map_nth (fun i => nth i l Null) (seq 0 (length l)) 0), seq_nth by exact Li. reflexivity. }
    rewrite <- E. reflexivity.
  Qed.
End Columns.
