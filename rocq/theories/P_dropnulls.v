(** Theorems about dropping the columns with too many nulls (C56). *)
From Coq Require Import QArith Qabs Qround Lqa.
From Verif Require Import Base M_dropnulls L_dropnulls.
Open Scope list_scope.
Open Scope nat_scope.

Section Theorems.
  Context {V : Type} (is_null : V -> bool) (fl : Q -> Q).
  Notation Null := (fun v => is_null v = true).
  Notation fit := (fit_transform is_null fl).

  (** C56: with the threshold [p / q] (rounded to a float), a column of [n] values with [k] nulls is dropped exactly when [k / n > p / q],
      or all values are null and the threshold is 1. *)
  Theorem C56_exact : FloatOk fl -> forall p q st c k, (0 <= p <= Zpos q)%Z -> Nulls Null c k -> c <> [] -> (Z.of_nat (length c) * Zpos q < 2 ^ 52)%Z ->
    let Drop := ((p * Z.of_nat (length c) < Z.of_nat k * Zpos q)%Z \/ (p = Zpos q /\ Forall Null c)) in
    (Drop -> fit (TNum (fl (p # q))) st c = (Some true, Ok None)) /\ (~ Drop -> fit (TNum (fl (p # q))) st c = (Some false, Ok (Some c))).
  Proof.
    intros ok p q st c k B N Ne L. destruct (decide_fraction is_null fl ok p q c k B N Ne L) as (Va & D). cbn zeta. rewrite !fit_spec, Va.
    split; intros H; [apply (proj2 D) in H; rewrite H; reflexivity|]. destruct (decide _ _ _ _); [exfalso; apply H, D; reflexivity|reflexivity].
  Qed.

  (** C56: for any float and any number of rows, no column is dropped if its fraction of nulls is at most the threshold. *)
  Theorem C56_kept : FloatOk fl -> forall t st c k, (0 <= t <= 1)%Q -> (fl t == t)%Q -> Nulls Null c k ->
    (inject_Z (Z.of_nat k) <= t * inject_Z (Z.of_nat (length c)))%Q -> ((t == 1)%Q -> ~ Forall Null c) -> fit (TNum t) st c = (Some false, Ok (Some c)).
  Proof.
    intros ok t st c k [B1 B2] Ft N L N1. rewrite fit_spec. cbn [valid]. apply Qle_bool_iff in B1. apply Qle_bool_iff in B2. rewrite B1, B2. cbn [andb].
    destruct (decide _ _ _ _) eqn:D; [|reflexivity]. destruct (decide_late is_null fl ok t c k Ft N D) as [Lt|[E F]]; [|exfalso; exact (N1 E F)].
    apply Qlt_not_le in Lt. contradiction.
  Qed.

  Theorem C56_none : forall st c, fit TNone st c = (Some false, Ok (Some c)).
  Proof. intros st c. rewrite fit_spec. reflexivity. Qed.

  (** C56: lowering the threshold never keeps more columns, if they have rows. *)
  Theorem C56_monotone : FloatOk fl -> forall t1 t2 st1 st2 c, c <> [] -> (0 <= t1)%Q -> (t1 <= t2)%Q -> (t2 <= 1)%Q ->
    fit (TNum t2) st2 c = (Some true, Ok None) -> fit (TNum t1) st1 c = (Some true, Ok None).
  Proof.
    intros ok t1 t2 st1 st2 c Ne L0 L L1. rewrite !fit_spec. cbn [valid].
    assert (A1 : Qle_bool 0 t1 = true) by (apply Qle_bool_iff; exact L0). assert (A2 : Qle_bool t2 1 = true) by (apply Qle_bool_iff; exact L1).
    assert (A3 : Qle_bool t1 1 = true) by (apply Qle_bool_iff; apply Qle_trans with t2; assumption).
    assert (A4 : Qle_bool 0 t2 = true) by (apply Qle_bool_iff; apply Qle_trans with t1; assumption).
    rewrite A1, A2, A3, A4. cbn [andb]. intros E. assert (D : decide is_null fl (TNum t2) c = true) by congruence.
    rewrite (decide_mono is_null fl ok t1 t2 c Ne L L1 D). reflexivity.
  Qed.

  (** C56: [transform] repeats the decision of the last fit, whatever its column; without a fit it raises. *)
  Theorem C56_transform : forall t st st' c r, fit t st c = (st', Ok r) -> forall c' : list V, transform st' c' = Ok (match r with None => None | Some _ => Some c' end).
  Proof.
    intros t st st' c r. rewrite fit_spec. destruct (valid t); [|discriminate]. intros E c'.
    assert (E1 : st' = Some (decide is_null fl t c)) by congruence. assert (E2 : r = if decide is_null fl t c then None else Some c) by congruence.
    subst. destruct (decide _ _ _ _); reflexivity.
  Qed.
  Theorem C56_not_fitted : forall c : list V, transform None c = Err NotFittedError.
  Proof. reflexivity. Qed.

  (** C56: exactly the thresholds that are not [None] or a number between 0 and 1 are rejected, and a rejection keeps the previous decision. *)
  Theorem C56_invalid : forall t st c, (exists st' e, fit t st c = (st', Err e)) <-> ~ (t = TNone \/ exists q, t = TNum q /\ (0 <= q <= 1)%Q).
  Proof.
    intros t st c. rewrite fit_spec. destruct t as [|q| |]; cbn [valid].
    - split; [intros (? & ? & E); discriminate|intros N; exfalso; apply N; left; reflexivity].
    - destruct (Qle_bool 0 q && Qle_bool q 1)%bool eqn:E.
      + apply andb_true_iff in E. rewrite !Qle_bool_iff in E. split; [intros (? & ? & E1); discriminate|]. intros N. exfalso. apply N. right. exists q. tauto.
      + split; [|intros _; eexists; eexists; reflexivity]. intros _ [E1|(q' & E1 & B)]; [discriminate|]. injection E1 as <-. rewrite <- !Qle_bool_iff in B. destruct B as [B1 B2].
        rewrite B1, B2 in E. discriminate.
    - split; [intros _ [E|(q & E & _)]; discriminate|intros _; eexists; eexists; reflexivity].
    - split; [intros _ [E|(q & E & _)]; discriminate|intros _; eexists; eexists; reflexivity].
  Qed.
  Theorem C56_rejected : forall t st st' c e, fit t st c = (st', Err e) -> st' = st /\ e = ValueError.
  Proof. intros t st st' c e. rewrite fit_spec. destruct (valid t); intros E; [congruence|]. split; congruence. Qed.

  (** C56 is wrong for a column without rows: it is dropped with the threshold 1 and kept with any lower one. *)
  Theorem C56_monotone_refuted : forall t st, (0 <= t)%Q -> (t < 1)%Q -> fit (TNum 1) st [] = (Some true, Ok None) /\ fit (TNum t) st [] = (Some false, Ok (Some [])).
  Proof.
    intros t st L0 L1. rewrite !fit_spec. split; [reflexivity|]. cbn [valid decide].
    assert (A1 : Qle_bool 0 t = true) by (apply Qle_bool_iff; exact L0). assert (A2 : Qle_bool t 1 = true) by (apply Qle_bool_iff; apply Qlt_le_weak; exact L1).
    rewrite A1, A2. cbn [andb]. destruct (Qeq_bool t 1) eqn:E; [|reflexivity]. apply Qeq_bool_iff in E. rewrite E in L1. exfalso. exact (Qlt_irrefl _ L1).
  Qed.
End Theorems.

Print Assumptions C56_exact.
Print Assumptions C56_kept.
Print Assumptions C56_none.
Print Assumptions C56_monotone.
Print Assumptions C56_transform.
Print Assumptions C56_not_fitted.
Print Assumptions C56_invalid.
Print Assumptions C56_rejected.
Print Assumptions C56_monotone_refuted.

(** ** Examples *)
(** rounding down to multiples of [2 ^ -106] *)
Definition ex_fl (x : Q) : Q := Qfloor (x * inject_Z (2 ^ 106)) # (2 ^ 106).
Lemma ex_fl_ok : FloatOk ex_fl.
Proof.
  split.
  - intros p q L. unfold ex_fl. assert (F : (Qfloor (p * inject_Z (2 ^ 106)) <= Qfloor (q * inject_Z (2 ^ 106)))%Z).
    { apply Qfloor_resp_le. apply Qmult_le_compat_r; [exact L|discriminate]. }
    unfold Qle. cbn [Qnum Qden]. apply Z.mul_le_mono_nonneg_r; [discriminate|exact F].
  - reflexivity.
  - reflexivity.
  - intros k n B Ln. unfold ex_fl. set (x := k # n).
    pose proof (Qfloor_le (x * inject_Z (2 ^ 106))) as L1. pose proof (Qlt_floor (x * inject_Z (2 ^ 106))) as L2.
    set (f := Qfloor (x * inject_Z (2 ^ 106))) in *. clearbody f.
    assert (X0 : (0 <= x)%Q) by (unfold x, Qle; cbn; lia).
    assert (E : (f # 2 ^ 106 == inject_Z f * (1 # 2 ^ 106))%Q). { unfold Qeq. cbn [Qnum Qden Qmult inject_Z]. rewrite Z.mul_1_r. reflexivity. }
    assert (U : (inject_Z (2 ^ 106) * (1 # 2 ^ 106) == 1)%Q) by reflexivity.
    rewrite E. apply Qabs_Qle_condition.
    assert (G1 : (inject_Z f * (1 # 2 ^ 106) <= x)%Q).
    { apply Qle_trans with (x * inject_Z (2 ^ 106) * (1 # 2 ^ 106))%Q; [apply Qmult_le_compat_r; [exact L1|discriminate]|]. rewrite <- Qmult_assoc, U, Qmult_1_r. apply Qle_refl. }
    destruct (Z.eq_dec k 0) as [->|Nk].
    { assert (Zx : (x == 0)%Q) by reflexivity. assert (Zf : (0 <= f)%Z).
      { apply Z.lt_succ_r. rewrite Zlt_Qlt. replace (Z.succ f) with (f + 1)%Z by lia. eapply Qle_lt_trans; [|exact L2]. rewrite Zx. discriminate. }
      assert (G2 : (0 <= inject_Z f * (1 # 2 ^ 106))%Q). { apply Qmult_le_0_compat; [|discriminate]. unfold Qle. cbn. lia. }
      rewrite Zx in *. clear - G1 G2. generalize dependent (inject_Z f * (1 # 2 ^ 106))%Q. intros y H1 H2. split; lra. }
    assert (G2 : (x <= inject_Z f * (1 # 2 ^ 106) + (1 # 2 ^ 106))%Q).
    { apply Qle_trans with ((inject_Z f + 1) * (1 # 2 ^ 106))%Q; [|rewrite Qmult_plus_distr_l, Qmult_1_l; apply Qle_refl].
      apply Qle_trans with (x * inject_Z (2 ^ 106) * (1 # 2 ^ 106))%Q; [rewrite <- Qmult_assoc, U, Qmult_1_r; apply Qle_refl|].
      apply Qmult_le_compat_r; [|discriminate]. apply Qlt_le_weak. rewrite inject_Z_plus in L2. exact L2. }
    assert (G3 : (1 # 2 ^ 106 <= x * (1 # 2 ^ 53))%Q).
    { unfold x, Qle. cbn [Qnum Qden Qmult]. rewrite !Pos2Z.inj_mul. change (Zpos (2 ^ 106)) with (2 ^ 53 * 2 ^ 53)%Z. change (Zpos (2 ^ 53)) with (2 ^ 53)%Z. nia. }
    clear - G1 G2 G3. generalize dependent (x * (1 # 2 ^ 53))%Q. generalize dependent (inject_Z f * (1 # 2 ^ 106))%Q. generalize (1 # 2 ^ 106)%Q. intros e y L1 L2 z L3. split; lra.
Qed.
(** 3 nulls in 10 values: kept with the threshold 3/10, dropped with 29/100 *)
Definition ex_null (v : option nat) : bool := match v with None => true | Some _ => false end.
Definition ex_col : list (option nat) := [Some 1; None; Some 2; Some 3; None; Some 4; Some 5; None; Some 6; Some 7].
Example ex_C56_kept : fit_transform ex_null ex_fl (TNum (ex_fl (3 # 10))) None ex_col = (Some false, Ok (Some ex_col)).
Proof.
  apply (C56_exact ex_null ex_fl ex_fl_ok 3 10 None ex_col 3); [lia|apply nulls_count; reflexivity|discriminate|reflexivity|].
  cbn. intros [L|[E _]]; [lia|discriminate].
Qed.
Example ex_C56_dropped : fit_transform ex_null ex_fl (TNum (ex_fl (29 # 100))) None ex_col = (Some true, Ok None).
Proof.
  apply (C56_exact ex_null ex_fl ex_fl_ok 29 100 None ex_col 3); [lia|apply nulls_count; reflexivity|discriminate|reflexivity|].
  left. reflexivity.
Qed.
Example ex_C56_monotone : fit_transform ex_null ex_fl (TNum 0) None ex_col = (Some true, Ok None).
Proof.
  apply (C56_monotone ex_null ex_fl ex_fl_ok 0 (1 # 4) None None ex_col); try discriminate. vm_compute. reflexivity.
Qed.
Example ex_C56_all_null : fit_transform ex_null ex_fl (TNum 1) None [None; None] = (Some true, Ok None) /\ fit_transform ex_null ex_fl (TNum 1) None ex_col = (Some false, Ok (Some ex_col)).
Proof. split; reflexivity. Qed.
