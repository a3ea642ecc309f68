(** Specification and lemmas for C56. *)
From Coq Require Import QArith Qabs Lqa.
From Verif Require Import Base M_dropnulls.
Open Scope list_scope.
Open Scope nat_scope.

(** the number of nulls of a column *)
Inductive Nulls {V} (Null : V -> Prop) : list V -> nat -> Prop :=
| Nulls_nil : Nulls Null [] 0
| Nulls_yes : forall v c n, Null v -> Nulls Null c n -> Nulls Null (v :: c) (S n)
| Nulls_no : forall v c n, ~ Null v -> Nulls Null c n -> Nulls Null (v :: c) n.

(** What is assumed of floats: rounding is monotone and keeps its results; for fractions [k / n] between 0 and 1 the relative error is at most [2 ^ -53]. *)
Record FloatOk (fl : Q -> Q) : Prop := {
  fl_le : forall p q, (p <= q)%Q -> (fl p <= fl q)%Q;
  fl_0 : (fl 0 == 0)%Q;
  fl_1 : (fl 1 == 1)%Q;
  fl_error : forall k n, (0 <= k <= Zpos n)%Z -> (Zpos n < 2 ^ 52)%Z -> (Qabs (fl (k # n) - (k # n)) <= (k # n) * (1 # 2 ^ 53))%Q }.

Section Lemmas.
  Context {V : Type} (is_null : V -> bool) (fl : Q -> Q).
  Notation Null := (fun v => is_null v = true).

  Lemma nulls_count : forall c n, Nulls Null c n <-> null_count is_null c = n.
  Proof.
    intros c n. split.
    - induction 1 as [|v c n Nv H IH|v c n Nv H IH]; [reflexivity| |]; unfold null_count in *; cbn.
      + rewrite Nv. cbn. congruence.
      + destruct (is_null v); [congruence|exact IH].
    - intros <-. induction c as [|v c IH]; [constructor|]. unfold null_count. cbn. destruct (is_null v) eqn:E; cbn; constructor; [exact E|exact IH|congruence|exact IH].
  Qed.
  Lemma count_le : forall c, null_count is_null c <= length c.
  Proof. intros c. unfold null_count. induction c as [|v c IH]; [reflexivity|]. cbn. destruct (is_null v); cbn; lia. Qed.
  Lemma count_all : forall c, null_count is_null c = length c <-> is_all_null is_null c = true.
  Proof.
    intros c. unfold is_all_null. induction c as [|v c IH]; [cbn; tauto|]. pose proof (count_le c) as L. unfold null_count in *. cbn.
    destruct (is_null v) eqn:E; cbn; [rewrite <- IH; lia|]. split; [lia|discriminate].
  Qed.

  Lemma gt_bool : forall p q, negb (Qle_bool p q) = true <-> (q < p)%Q.
  Proof.
    intros p q. rewrite negb_true_iff. destruct (Qle_bool p q) eqn:E.
    - apply Qle_bool_iff in E. split; [discriminate|]. intros L. apply Qlt_not_le in L. contradiction.
    - split; [|reflexivity]. intros _. apply Qnot_le_lt. intros L. apply Qle_bool_iff in L. congruence.
  Qed.
  Lemma frac_lt : forall k n (t : Q), ((Z.of_nat k # Pos.of_nat (S n)) > t)%Q <-> (t * inject_Z (Z.of_nat (S n)) < inject_Z (Z.of_nat k))%Q.
  Proof.
    intros k n t. unfold Qlt. cbn [Qnum Qden Qmult inject_Z]. rewrite !Z.mul_1_r, !Pos.mul_1_r.
    replace (Zpos (Pos.of_nat (S n))) with (Z.of_nat (S n)); [reflexivity|]. rewrite <- (Nat2Pos.id (S n)) at 1 by discriminate. apply positive_nat_Z.
  Qed.

  Hypothesis ok : FloatOk fl.

  (** fractions that are different in Q are different floats *)
  Lemma fl_lt : forall k n p q, (0 <= k <= Zpos n)%Z -> (0 <= p <= Zpos q)%Z -> (Zpos n * Zpos q < 2 ^ 52)%Z ->
    ((p # q) < (k # n))%Q -> (fl (p # q) < fl (k # n))%Q.
  Proof.
    intros k n p q Bk Bp L H.
    assert (Ln : (Zpos n < 2 ^ 52)%Z) by nia. assert (Lq : (Zpos q < 2 ^ 52)%Z) by nia.
    pose proof (fl_error fl ok k n Bk Ln) as E1. pose proof (fl_error fl ok p q Bp Lq) as E2.
    apply Qabs_Qle_condition in E1. apply Qabs_Qle_condition in E2.
    assert (K1 : (k # n <= 1)%Q) by (unfold Qle; cbn; lia). assert (P1 : (p # q <= 1)%Q) by (unfold Qle; cbn; lia).
    assert (G : ((k # n) - (p # q) > 1 # 2 ^ 52)%Q).
    { unfold Qlt in *. cbn [Qnum Qden] in *. unfold Qminus, Qplus, Qopp. cbn [Qnum Qden].
      assert (D : (k * Zpos q - p * Zpos n >= 1)%Z) by lia. rewrite !Pos2Z.inj_mul. change (Zpos (2 ^ 52)) with (2 ^ 52)%Z. nia. }
    set (x := k # n) in *. set (y := p # q) in *. clearbody x y.
    assert (E : ((1 # 2 ^ 52) == (1 # 2 ^ 53) + (1 # 2 ^ 53))%Q) by reflexivity.
    assert (X : (x * (1 # 2 ^ 53) <= 1 # 2 ^ 53)%Q). { setoid_replace (1 # 2 ^ 53)%Q with (1 * (1 # 2 ^ 53))%Q at 2 by ring. apply Qmult_le_compat_r; [exact K1|discriminate]. }
    assert (Y : (y * (1 # 2 ^ 53) <= 1 # 2 ^ 53)%Q). { setoid_replace (1 # 2 ^ 53)%Q with (1 * (1 # 2 ^ 53))%Q at 2 by ring. apply Qmult_le_compat_r; [exact P1|discriminate]. }
    rewrite E in G. generalize dependent (1 # 2 ^ 53)%Q. intros e. intros. lra.
  Qed.

  Lemma fl_eq : forall p q, (p == q)%Q -> (fl p == fl q)%Q.
  Proof. intros p q E. apply Qle_antisym; apply (fl_le fl ok); rewrite E; apply Qle_refl. Qed.

  Lemma decide_fraction : forall p q c k, (0 <= p <= Zpos q)%Z -> Nulls Null c k -> c <> [] -> (Z.of_nat (length c) * Zpos q < 2 ^ 52)%Z ->
    valid (TNum (fl (p # q))) = true /\
    (decide is_null fl (TNum (fl (p # q))) c = true <-> (p * Z.of_nat (length c) < Z.of_nat k * Zpos q)%Z \/ (p = Zpos q /\ Forall Null c)).
  Proof.
    intros p q c k B N Ne L. apply nulls_count in N. subst k. pose proof (count_le c) as Lc. split.
    { cbn. rewrite andb_true_iff, !Qle_bool_iff. split.
      - rewrite <- (fl_0 fl ok). apply (fl_le fl ok). unfold Qle. cbn. lia.
      - rewrite <- (fl_1 fl ok). apply (fl_le fl ok). unfold Qle. cbn. lia. }
    assert (All : is_all_null is_null c = true <-> Forall Null c). { unfold is_all_null. rewrite forallb_forall, Forall_forall. reflexivity. }
    cbn [decide]. destruct c as [|v0 c0] eqn:Ec; [contradiction|]. rewrite <- Ec in *.
    assert (Len : length c = S (length c0)) by (subst c; reflexivity).
    assert (Zl : Zpos (Pos.of_nat (length c)) = Z.of_nat (length c)). { rewrite Len. rewrite <- (Nat2Pos.id (S (length c0))) at 2 by discriminate. symmetry. apply positive_nat_Z. }
    destruct (Z.eq_dec p (Zpos q)) as [->|Np].
    - assert (E1 : Qeq_bool (fl (Zpos q # q)) 1 = true). { apply Qeq_bool_iff. rewrite (fl_eq _ 1); [apply (fl_1 fl ok)|]. unfold Qeq. cbn. lia. }
      rewrite E1. rewrite All. split; [intros F; right; auto|]. intros [Lt|[_ F]]; [|exact F]. nia.
    - assert (E1 : Qeq_bool (fl (p # q)) 1 = false).
      { destruct (Qeq_bool _ 1) eqn:E; [|reflexivity]. apply Qeq_bool_iff in E. exfalso.
        assert (Lt : (fl (p # q) < fl (1 # 1))%Q). { apply fl_lt; try lia. unfold Qlt. cbn. lia. }
        rewrite E in Lt. rewrite (fl_1 fl ok) in Lt. exact (Qlt_irrefl _ Lt). }
      rewrite E1. destruct (Nat.eqb_spec (null_count is_null c) 0) as [E0|N0].
      + rewrite E0. split; [discriminate|]. intros [Lt|[E _]]; [|contradiction]. nia.
      + rewrite gt_bool. split.
        * intros Lt. left. apply Z.lt_nge. intros G. apply Qlt_not_le in Lt. apply Lt. apply (fl_le fl ok). unfold Qle. cbn. rewrite Zl. nia.
        * intros [Lt|[E _]]; [|contradiction]. apply fl_lt; try (rewrite ?Zl; lia). unfold Qlt. cbn. rewrite Zl. lia.
  Qed.

  (** whatever the rounding, no column is dropped too early *)
  Lemma decide_late : forall t c k, (fl t == t)%Q -> Nulls Null c k -> decide is_null fl (TNum t) c = true ->
    (t * inject_Z (Z.of_nat (length c)) < inject_Z (Z.of_nat k))%Q \/ ((t == 1)%Q /\ Forall Null c).
  Proof.
    intros t c k Ft N D. apply nulls_count in N. subst k. cbn [decide] in D. destruct (Qeq_bool t 1) eqn:E1.
    - apply Qeq_bool_iff in E1. right. split; [exact E1|]. unfold is_all_null in D. rewrite forallb_forall in D. apply Forall_forall. exact D.
    - left. destruct (Nat.eqb_spec (null_count is_null c) 0) as [E0|N0]; [discriminate|]. apply gt_bool in D. pose proof (count_le c) as L.
      destruct (length c) as [|n] eqn:El; [lia|]. apply frac_lt. apply Qnot_le_lt. intros G. apply (fl_le fl ok) in G. rewrite Ft in G. apply Qlt_not_le in D. contradiction.
  Qed.

  Lemma decide_mono : forall t1 t2 c, c <> [] -> (t1 <= t2)%Q -> (t2 <= 1)%Q ->
    decide is_null fl (TNum t2) c = true -> decide is_null fl (TNum t1) c = true.
  Proof.
    intros t1 t2 c Ne L12 L2 D. cbn [decide] in *.
    assert (El : exists n, length c = S n). { destruct c as [|v c]; [contradiction|]. exists (length c). reflexivity. } destruct El as (n & El).
    destruct (Qeq_bool t2 1) eqn:E2.
    - apply Qeq_bool_iff in E2. destruct (Qeq_bool t1 1) eqn:E1; [exact D|]. apply count_all in D. rewrite D.
      destruct (Nat.eqb_spec (length c) 0) as [E0|_]; [lia|]. apply gt_bool.
      rewrite (fl_eq _ 1); [|]. { rewrite (fl_1 fl ok). destruct (Qlt_le_dec t1 1) as [Lt|G]; [exact Lt|]. exfalso.
        assert (E : (t1 == 1)%Q) by (apply Qle_antisym; [rewrite <- E2; exact L12|exact G]). apply Qeq_bool_iff in E. congruence. }
      unfold Qeq. cbn. rewrite El. rewrite <- (Nat2Pos.id (S n)) at 1 by discriminate. rewrite positive_nat_Z. lia.
    - destruct (Nat.eqb_spec (null_count is_null c) 0) as [E0|N0]; [discriminate|]. apply gt_bool in D.
      destruct (Qeq_bool t1 1) eqn:E1.
      + apply Qeq_bool_iff in E1. exfalso. assert (E : (t2 == 1)%Q) by (apply Qle_antisym; [exact L2|rewrite <- E1; exact L12]). apply Qeq_bool_iff in E. congruence.
      + apply gt_bool. apply Qle_lt_trans with t2; assumption.
  Qed.

  Lemma fit_spec : forall t st c, fit_transform is_null fl t st c =
    if valid t then (Some (decide is_null fl t c), Ok (if decide is_null fl t c then None else Some c)) else (st, Err ValueError).
  Proof. clear ok. intros t st c. unfold fit_transform. destruct (valid t); [|reflexivity]. unfold transform. destruct (decide is_null fl t c); reflexivity. Qed.
End Lemmas.
