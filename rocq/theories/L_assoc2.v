(** Association tables: the model computes Cramer's V of the bins. *)
From Coq Require Import QArith Qfield Permutation Lqa Sorted.
From Verif Require Import Base M_names L_names L_leftjoin M_assoc L_assoc.
Open Scope string_scope.
Open Scope list_scope.
Open Scope nat_scope.

(** ** Specification *)

(** the one-hot encoding in [n] bins of rows that are in the bins [xs] *)
Definition onehot (n : nat) (xs : list nat) : list (list bool) := map (fun b => map (fun x => x =? b) xs) (seq 0 n).

Section SpecEncoders.
  Context {V : Type}.
  (** [OneHotEncoder(max_categories=n)]: one column for each category; values have their own category when there are no more
      than [n] of them. It fails without rows. *)
  Definition OneHotOk (one_hot : nat -> list V -> res (nat * list (list bool))) : Prop :=
    forall n vals w rows, one_hot n vals = Ok (w, rows) ->
      w <= n /\ exists f : V -> nat, (forall v, In v vals -> f v < w) /\
        rows = map (fun v => map (fun b => f v =? b) (seq 0 w)) vals /\
        ((exists u, length u <= n /\ incl vals u) -> forall v v', In v vals -> In v' vals -> f v = f v' -> v = v').
  (** [KBinsDiscretizer(n_bins=n)]: at most [n] intervals *)
  Definition KBinsOk (kbins : nat -> list V -> res (nat * list (list bool))) : Prop :=
    forall n vals w rows, kbins n vals = Ok (w, rows) ->
      w <= n /\ exists f : V -> nat, (forall v, In v vals -> f v < w) /\ rows = map (fun v => map (fun b => f v =? b) (seq 0 w)) vals.
End SpecEncoders.

(** ** Contingency tables *)

Lemma both_map : forall {A B} (f : A -> bool) (g : B -> bool) xs ys,
  both (map f xs) (map g ys) = map (fun p => (f (fst p) && g (snd p))%bool) (combine xs ys).
Proof.
  intros A B f g. induction xs as [|x xs IH]; intros [|y ys]; try reflexivity. cbn. rewrite IH. reflexivity.
Qed.
Lemma count_true_map : forall {A} (f : A -> bool) l, count_true (map f l) = length (filter f l).
Proof.
  intros A f l. unfold count_true. rewrite filter_map, map_length. reflexivity.
Qed.
Lemma contingency_onehot : forall n xs ys,
  contingency (onehot n xs) (onehot n ys) = map (fun i => map (fun j => O (combine xs ys) i j) (seq 0 n)) (seq 0 n).
Proof.
  intros n xs ys. unfold contingency, onehot. rewrite map_map. apply map_ext. intros i. rewrite map_map. apply map_ext. intros j.
  rewrite both_map, count_true_map. unfold O. f_equal. apply filter_ext. intros [x y]. cbn [fst snd].
  assert (K : forall a b : nat, (a =? b) = eqb_of a b).
  { intros a b. destruct (Nat.eqb_spec a b) as [->|N]; symmetry; [apply eqb_of_true; reflexivity|].
    destruct (eqb_of a b) eqn:E0; [|reflexivity]. apply (proj1 (eqb_of_true _ _)) in E0. contradiction. }
  rewrite !K. reflexivity.
Qed.

Lemma nsum_Sq : forall {A} (f : A -> nat) u, (of_nat (nsum (map f u)) == Sq (fun a => of_nat (f a)) u)%Q.
Proof.
  intros A f. induction u as [|a u IH]; [reflexivity|]. rewrite Sq_cons, <- IH, <- of_nat_add. reflexivity.
Qed.
Lemma Qsum_Sq : forall {A} (f : A -> Q) u, Qsum (map f u) = Sq f u.
Proof. reflexivity. Qed.

Section Marginals.
  Variables (n : nat) (l : list (nat * nat)).
  Hypothesis Bx : forall p, In p l -> fst p < n.
  Hypothesis By : forall p, In p l -> snd p < n.

  Lemma sum_row : forall i, nsum (map (fun j => O l i j) (seq 0 n)) = R l i.
  Proof using By.
    intros i. apply of_nat_inj. rewrite nsum_Sq. unfold O, R. apply (count_by snd (fun p => eqb_of (fst p) i)); [apply seq_NoDup|].
    intros p I. apply in_seq. specialize (By p I). lia.
  Qed.
  Lemma sum_col : forall j, nsum (map (fun i => O l i j) (seq 0 n)) = C l j.
  Proof using Bx.
    intros j. apply of_nat_inj. rewrite nsum_Sq. unfold C. rewrite <- (count_by fst (fun p => eqb_of (snd p) j) (seq 0 n)).
    - apply Sq_ext. intros i _. unfold O. rewrite (filter_ext _ (fun p => (eqb_of (snd p) j && eqb_of (fst p) i)%bool)); [reflexivity|].
      intros p. apply andb_comm.
    - apply seq_NoDup.
    - intros p I. apply in_seq. specialize (Bx p I). lia.
  Qed.
  Lemma sum_all : nsum (map (C l) (seq 0 n)) = length l.
  Proof using By.
    apply of_nat_inj. rewrite nsum_Sq. pose proof (count_by snd (fun _ : nat * nat => true) (seq 0 n) (seq_NoDup n 0) l) as K.
    rewrite filter_all in K. apply K. intros p I. apply in_seq. specialize (By p I). lia.
  Qed.
  Lemma perm_lefts : Permutation (filter (fun i => 0 <? R l i) (seq 0 n)) (lefts l).
  Proof using Bx.
    apply NoDup_Permutation; [apply NoDup_filter, seq_NoDup|apply lefts_NoDup|]. intros i. rewrite filter_In, Nat.ltb_lt. split.
    - intros [_ P]. unfold R in P. destruct (filter (fun p => eqb_of (fst p) i) l) as [|p r] eqn:Ef; [cbn in P; lia|].
      assert (Ip : In p (filter (fun p => eqb_of (fst p) i) l)) by (rewrite Ef; left; reflexivity).
      apply filter_In in Ip. destruct Ip as [Ip Ex]. apply (proj1 (eqb_of_true _ _)) in Ex. subst i. apply lefts_In. exact Ip.
    - intros I. split; [|apply R_pos; exact I]. apply nodup_In in I. apply in_map_iff in I. destruct I as (p & <- & I).
      apply in_seq. specialize (Bx p I). lia.
  Qed.
  Lemma perm_rights : Permutation (filter (fun i => 0 <? C l i) (seq 0 n)) (rights l).
  Proof using By.
    apply NoDup_Permutation; [apply NoDup_filter, seq_NoDup|apply rights_NoDup|]. intros i. rewrite filter_In, Nat.ltb_lt. split.
    - intros [_ P]. unfold C in P. destruct (filter (fun p => eqb_of (snd p) i) l) as [|p r] eqn:Ef; [cbn in P; lia|].
      assert (Ip : In p (filter (fun p => eqb_of (snd p) i) l)) by (rewrite Ef; left; reflexivity).
      apply filter_In in Ip. destruct Ip as [Ip Ex]. apply (proj1 (eqb_of_true _ _)) in Ex. subst i. apply rights_In. exact Ip.
    - intros I. split; [|apply C_pos; exact I]. apply nodup_In in I. apply in_map_iff in I. destruct I as (p & <- & I).
      apply in_seq. specialize (By p I). lia.
  Qed.
  Lemma count_pos_map : forall f : nat -> nat, count_pos (map f (seq 0 n)) = length (filter (fun i => 0 <? f i) (seq 0 n)).
  Proof using. intros f. unfold count_pos. rewrite filter_map, map_length. reflexivity. Qed.
End Marginals.

Lemma nth_map_seq : forall {A} (f : nat -> A) d n i, i < n -> nth i (map f (seq 0 n)) d = f i.
Proof.
  intros A f d n i L. rewrite (nth_indep _ d (f 0)) by (rewrite map_length, seq_length; exact L).
  rewrite map_nth, seq_nth by exact L. reflexivity.
Qed.

Section Scores.
  Context {num : Type} (zero nan : num) (root : Q -> num).
  Hypothesis root_eq : forall p q, (p == q)%Q -> root p = root q.
  Hypothesis root_0 : root 0 = zero.

  Theorem compute_cramer_spec : forall n xs ys, length xs = length ys -> xs <> [] ->
    (forall x, In x xs -> x < n) -> (forall y, In y ys -> y < n) ->
    compute_cramer zero nan root n (length xs) (contingency (onehot n xs) (onehot n ys)) = root (cramer2 (combine xs ys)).
  Proof using root_eq root_0.
    intros n xs ys L NE Hx Hy. set (l := combine xs ys).
    assert (Bx : forall p, In p l -> fst p < n) by (intros [x y] I; apply Hx; apply in_combine_l in I; exact I).
    assert (By : forall p, In p l -> snd p < n) by (intros [x y] I; apply Hy; apply in_combine_r in I; exact I).
    assert (Ll : length l = length xs) by (unfold l; rewrite combine_length; lia).
    assert (NEl : l <> []) by (intros E0; rewrite E0 in Ll; destruct xs; [contradiction|discriminate]).
    rewrite contingency_onehot. fold l. unfold compute_cramer.
    assert (M0 : map (fun j => nsum (map (fun row => nth j row 0) (map (fun i => map (fun j => O l i j) (seq 0 n)) (seq 0 n)))) (seq 0 n) = map (C l) (seq 0 n)).
    { apply map_ext_in. intros j I. apply in_seq in I. rewrite map_map. rewrite <- (sum_col n l Bx). f_equal. apply map_ext. intros i.
      apply nth_map_seq. lia. }
    assert (M1 : map nsum (map (fun i => map (fun j => O l i j) (seq 0 n)) (seq 0 n)) = map (R l) (seq 0 n)).
    { rewrite map_map. apply map_ext. intros i. apply (sum_row n l By). }
    rewrite M0, M1, (sum_all n l By), !count_pos_map.
    rewrite (Permutation_length (perm_lefts n l Bx)), (Permutation_length (perm_rights n l By)).
    assert (P1 : 0 < length (lefts l)) by (destruct l as [|p l0]; [contradiction|]; pose proof (lefts_In (p :: l0) p (or_introl eq_refl)) as I; destruct (lefts (p :: l0)); [destruct I|cbn; lia]).
    assert (P2 : 0 < length (rights l)) by (destruct l as [|p l0]; [contradiction|]; pose proof (rights_In (p :: l0) p (or_introl eq_refl)) as I; destruct (rights (p :: l0)); [destruct I|cbn; lia]).
    assert (EZ : Z.min (Z.of_nat (length (rights l)) - 1) (Z.of_nat (length (lefts l)) - 1) = Z.of_nat (Nat.min (length (lefts l)) (length (rights l)) - 1)) by lia.
    rewrite EZ. unfold cramer2. set (m := Nat.min _ _) in *.
    destruct (Z.of_nat (m - 1) =? 0)%Z eqn:Ez.
    { apply Z.eqb_eq in Ez. rewrite (proj2 (Nat.leb_le m 1)) by lia. symmetry; exact root_0. }
    apply Z.eqb_neq in Ez. rewrite (proj2 (Nat.leb_gt m 1)) by lia.
    destruct (length l =? 0) eqn:El; [apply Nat.eqb_eq in El; destruct l; [contradiction|discriminate]|]. apply Nat.eqb_neq in El.
    apply root_eq. rewrite Z.max_l by lia.
    match goal with |- (?a / _ == _)%Q => assert (EC : (a == chi2 l)%Q) end.
    2:{ rewrite EC, Ll. reflexivity. }
    rewrite Qsum_Sq. assert (N : (0 < of_nat (length l))%Q) by (apply of_nat_pos; lia).
    set (term := fun i j => (let expected := of_nat (C l j) * of_nat (R l i) / of_nat (length l) in
       (of_nat (O l i j) - expected) * (of_nat (O l i j) - expected) / (if Qeq_bool expected 0 then 1 else expected))%Q).
    transitivity (Sq (fun i => Sq (fun j => term i j) (seq 0 n)) (seq 0 n)).
    { apply Sq_ext. intros i Ii. rewrite Qsum_Sq. apply Sq_ext. intros j Ij. apply in_seq in Ii, Ij.
      rewrite !nth_map_seq by lia. unfold term. reflexivity. }
    assert (T0 : forall i j, R l i = 0 \/ C l j = 0 -> (term i j == 0)%Q).
    { intros i j Z0. unfold term. cbv zeta.
      assert (EO : O l i j = 0) by (pose proof (O_le_R l i j); pose proof (O_le_C l i j); destruct Z0 as [Z0|Z0]; lia).
      rewrite EO. change (of_nat 0) with 0%Q.
      assert (EE : (of_nat (C l j) * of_nat (R l i) / of_nat (length l) == 0)%Q).
      { unfold Qdiv. destruct Z0 as [Z0|Z0]; rewrite Z0; change (of_nat 0) with 0%Q; ring. }
      rewrite (proj2 (Qeq_bool_iff _ _) EE). rewrite EE. reflexivity. }
    rewrite <- (Sq_filter _ (fun i => 0 <? R l i)).
    2:{ intros i _ E0. apply Nat.ltb_ge in E0. rewrite (Sq_ext _ (fun _ => 0%Q)); [apply Sq_zero|]. intros j _. apply T0. lia. }
    rewrite (Sq_perm _ _ _ (perm_lefts n l Bx)). unfold chi2. apply Sq_ext. intros i Ii.
    rewrite <- (Sq_filter _ (fun j => 0 <? C l j)).
    2:{ intros j _ E0. apply Nat.ltb_ge in E0. apply T0. lia. }
    rewrite (Sq_perm _ _ _ (perm_rights n l By)). apply Sq_ext. intros j Ij. unfold term, E. cbv zeta.
    pose proof (of_nat_pos _ (R_pos l i Ii)) as Pr. pose proof (of_nat_pos _ (C_pos l j Ij)) as Pc.
    assert (NZ : ~ (of_nat (C l j) * of_nat (R l i) / of_nat (length l) == 0)%Q).
    { intros E0. assert (E1 : (of_nat (C l j) * of_nat (R l i) == 0)%Q).
      { setoid_replace (of_nat (C l j) * of_nat (R l i))%Q with (of_nat (C l j) * of_nat (R l i) / of_nat (length l) * of_nat (length l))%Q by (field; lra). rewrite E0. ring. }
      apply Qmult_integral in E1. destruct E1; lra. }
    destruct (Qeq_bool _ 0) eqn:Eq; [exfalso; apply NZ; apply Qeq_bool_iff; exact Eq|].
    rewrite (Qmult_comm (of_nat (C l j))). reflexivity.
  Qed.
End Scores.
