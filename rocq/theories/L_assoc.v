(** Specification of Cramer's V, and its mathematical properties. *)
From Coq Require Import QArith Qfield Permutation Lqa.
From Verif Require Import Base M_assoc.
Open Scope list_scope.
Open Scope nat_scope.

(** ** Specification *)
Section Spec.
  Context {X Y : Type} `{EqD X} `{EqD Y}.
  (** the pairs of values of two columns *)
  Implicit Type l : list (X * Y).
  Definition O l (x : X) (y : Y) : nat := length (filter (fun p => (eqb_of (fst p) x && eqb_of (snd p) y)%bool) l).
  Definition R l (x : X) : nat := length (filter (fun p => eqb_of (fst p) x) l).
  Definition C l (y : Y) : nat := length (filter (fun p => eqb_of (snd p) y) l).
  Definition lefts l : list X := nodup eqd (map fst l).
  Definition rights l : list Y := nodup eqd (map snd l).
  Definition Sq {A} (f : A -> Q) (u : list A) : Q := fold_right Qplus 0%Q (map f u).
  Definition E l x y : Q := (of_nat (R l x) * of_nat (C l y) / of_nat (length l))%Q.
  Definition chi2 l : Q :=
    Sq (fun x => Sq (fun y => (of_nat (O l x y) - E l x y) * (of_nat (O l x y) - E l x y) / E l x y)%Q (rights l)) (lefts l).
  (** the square of Cramer's V *)
  Definition cramer2 l : Q :=
    let m := Nat.min (length (lefts l)) (length (rights l)) in
    if m <=? 1 then 0%Q else (chi2 l / (of_nat (length l) * of_nat (m - 1)))%Q.
  Definition Independent l : Prop := forall x y, O l x y * length l = R l x * C l y.
  Definition Determines l : Prop := forall p q, In p l -> In q l -> fst p = fst q -> snd p = snd q.
  Definition Determined l : Prop := forall p q, In p l -> In q l -> snd p = snd q -> fst p = fst q.
End Spec.
Definition swap {X Y} (p : X * Y) : Y * X := (snd p, fst p).

(** ** Sums *)
Section Sums.
  Context {A B : Type}.
  Lemma Sq_nil : forall f : A -> Q, Sq f [] = 0%Q.
  Proof. reflexivity. Qed.
  Lemma Sq_cons : forall (f : A -> Q) a u, Sq f (a :: u) = (f a + Sq f u)%Q.
  Proof. reflexivity. Qed.
  Lemma Sq_ext : forall (f g : A -> Q) u, (forall a, In a u -> f a == g a)%Q -> (Sq f u == Sq g u)%Q.
  Proof.
    intros f g. induction u as [|a u IH]; intros H; [reflexivity|]. rewrite !Sq_cons, (H a (or_introl eq_refl)).
    rewrite IH; [reflexivity|]. intros b I. apply H. right; exact I.
  Qed.
  Lemma Sq_plus : forall (f g : A -> Q) u, (Sq (fun a => f a + g a) u == Sq f u + Sq g u)%Q.
  Proof. intros f g. induction u as [|a u IH]; [reflexivity|]. rewrite !Sq_cons, IH. ring. Qed.
  Lemma Sq_scale : forall (f : A -> Q) k u, (Sq (fun a => k * f a) u == k * Sq f u)%Q.
  Proof. intros f k. induction u as [|a u IH]; [rewrite !Sq_nil; ring|]. rewrite !Sq_cons, IH. ring. Qed.
  Lemma Sq_le : forall (f g : A -> Q) u, (forall a, In a u -> f a <= g a)%Q -> (Sq f u <= Sq g u)%Q.
  Proof.
    intros f g. induction u as [|a u IH]; intros H; [apply Qle_refl|]. rewrite !Sq_cons.
    apply Qplus_le_compat; [apply H; left; reflexivity|]. apply IH. intros b I. apply H. right; exact I.
  Qed.
  Lemma Sq_zero : forall u : list A, (Sq (fun _ => 0) u == 0)%Q.
  Proof. induction u as [|a u IH]; [reflexivity|]. rewrite Sq_cons, IH. reflexivity. Qed.
  Lemma Sq_one : forall u : list A, (Sq (fun _ => 1) u == of_nat (length u))%Q.
  Proof.
    induction u as [|a u IH]; [reflexivity|]. rewrite Sq_cons, IH. cbn [length]. unfold of_nat. rewrite Nat2Z.inj_succ, <- Z.add_1_l.
    rewrite inject_Z_plus. reflexivity.
  Qed.
  Lemma Sq_nonneg : forall (f : A -> Q) u, (forall a, In a u -> 0 <= f a)%Q -> (0 <= Sq f u)%Q.
  Proof. intros f u P. rewrite <- (Sq_zero u). apply Sq_le. exact P. Qed.
  Lemma Sq_zero_iff : forall (f : A -> Q) u, (forall a, In a u -> 0 <= f a)%Q -> (Sq f u == 0 <-> forall a, In a u -> f a == 0)%Q.
  Proof.
    intros f. induction u as [|a u IH]; intros P; [split; [intros _ b []|reflexivity]|]. rewrite Sq_cons.
    assert (P1 : (0 <= f a)%Q) by (apply P; left; reflexivity).
    assert (P2 : (forall b, In b u -> 0 <= f b)%Q) by (intros b I; apply P; right; exact I).
    pose proof (Sq_nonneg f u P2) as P3. split.
    - intros Z0 b [<-|I]; [lra|]. apply (proj1 (IH P2)); [lra|exact I].
    - intros Z0. rewrite (Z0 a (or_introl eq_refl)). rewrite (proj2 (IH P2)); [reflexivity|]. intros b I. apply Z0. right; exact I.
  Qed.
  Lemma Sq_map : forall (g : B -> A) (f : A -> Q) u, Sq f (map g u) = Sq (fun b => f (g b)) u.
  Proof. intros g f u. unfold Sq. rewrite map_map. reflexivity. Qed.
  Lemma Sq_perm : forall (f : A -> Q) u v, Permutation u v -> (Sq f u == Sq f v)%Q.
  Proof. intros f u v P. induction P; rewrite ?Sq_cons; [reflexivity|rewrite IHP; reflexivity|ring|rewrite IHP1; exact IHP2]. Qed.
  Lemma Sq_filter : forall (f : A -> Q) (p : A -> bool) u, (forall a, In a u -> p a = false -> f a == 0)%Q -> (Sq f (filter p u) == Sq f u)%Q.
  Proof.
    intros f p. induction u as [|a u IH]; intros Z0; [reflexivity|]. cbn [filter].
    assert (IH' : (Sq f (filter p u) == Sq f u)%Q) by (apply IH; intros b I; apply Z0; right; exact I).
    destruct (p a) eqn:Ep; rewrite !Sq_cons, IH'; [reflexivity|]. rewrite (Z0 a (or_introl eq_refl) Ep). ring.
  Qed.
End Sums.
Lemma Sq_swap {A B : Type} : forall (f : A -> B -> Q) u v, (Sq (fun a => Sq (f a) v) u == Sq (fun b => Sq (fun a => f a b) u) v)%Q.
Proof.
  intros f u v. induction u as [|a u IH].
  - rewrite Sq_nil. symmetry. apply Sq_zero.
  - rewrite Sq_cons, IH. rewrite (Sq_ext (fun b => Sq (fun a0 => f a0 b) (a :: u)) (fun b => f a b + Sq (fun a0 => f a0 b) u)%Q) by (intros b _; reflexivity).
    rewrite Sq_plus. reflexivity.
Qed.

Lemma of_nat_add : forall a b, (of_nat (a + b) == of_nat a + of_nat b)%Q.
Proof. intros a b. unfold of_nat. rewrite Nat2Z.inj_add, inject_Z_plus. reflexivity. Qed.
Lemma of_nat_mul : forall a b, (of_nat (a * b) == of_nat a * of_nat b)%Q.
Proof. intros a b. unfold of_nat. rewrite Nat2Z.inj_mul, inject_Z_mult. reflexivity. Qed.
Lemma of_nat_nonneg : forall a, (0 <= of_nat a)%Q.
Proof. intros a. unfold of_nat. change 0%Q with (inject_Z 0). rewrite <- Zle_Qle. lia. Qed.
Lemma of_nat_pos : forall a, 0 < a -> (0 < of_nat a)%Q.
Proof. intros a L. unfold of_nat. change 0%Q with (inject_Z 0). rewrite <- Zlt_Qlt. lia. Qed.
Lemma of_nat_inj : forall a b, (of_nat a == of_nat b)%Q -> a = b.
Proof. intros a b E0. unfold of_nat, inject_Z, Qeq in E0. cbn in E0. lia. Qed.
Lemma of_nat_le : forall a b, a <= b -> (of_nat a <= of_nat b)%Q.
Proof. intros a b L. unfold of_nat. rewrite <- Zle_Qle. lia. Qed.

Lemma of_nat_pred : forall m, 0 < m -> (of_nat m == of_nat (m - 1) + 1)%Q.
Proof. intros m L. destruct m as [|m]; [lia|]. rewrite <- Nat.add_1_r, of_nat_add, Nat.add_sub. reflexivity. Qed.
Lemma Qsq_nonneg : forall a : Q, (0 <= a * a)%Q.
Proof. intros a. nra. Qed.

Section Counts.
  Context {P Y : Type} `{EqD Y}.
  (** each element is counted for exactly one of the values *)
  Lemma count_by (g : P -> Y) (q : P -> bool) (u : list Y) : NoDup u -> forall l, (forall p, In p l -> In (g p) u) ->
    (Sq (fun y => of_nat (length (filter (fun p => (q p && eqb_of (g p) y)%bool) l))) u == of_nat (length (filter q l)))%Q.
  Proof.
    intros ND. induction l as [|p l IH]; intros S.
    - rewrite (Sq_ext _ (fun _ => 0%Q)) by (intros; reflexivity). apply Sq_zero.
    - assert (IH' := IH (fun p' I => S p' (or_intror I))). cbn [filter]. destruct (q p) eqn:Eq.
      + assert (K : (Sq (fun y => if eqb_of (g p) y then 1 else 0) u == 1)%Q).
        { assert (I : In (g p) u) by (apply S; left; reflexivity). clear - ND I. induction u as [|y u IH]; [destruct I|].
          rewrite Sq_cons. inversion ND as [|? ? N1 N2]; subst. destruct I as [->|I].
          - rewrite (proj2 (eqb_of_true _ _)) by reflexivity. rewrite (Sq_ext _ (fun _ => 0%Q)); [rewrite Sq_zero; reflexivity|].
            intros y I. destruct (eqb_of (g p) y) eqn:Ey; [|reflexivity]. apply (proj1 (eqb_of_true _ _)) in Ey. exfalso. apply N1. congruence.
          - rewrite (IH N2 I). destruct (eqb_of (g p) y) eqn:Ey; [|reflexivity]. apply (proj1 (eqb_of_true _ _)) in Ey. exfalso. apply N1. congruence. }
        cbn [length]. rewrite <- Nat.add_1_r, of_nat_add, <- IH'. rewrite <- K at 1.
        rewrite (Qplus_comm (Sq _ u)), <- Sq_plus. apply Sq_ext. intros y _. cbn [andb].
        destruct (eqb_of (g p) y); cbn [length]; [|ring]. rewrite <- Nat.add_1_l, of_nat_add. reflexivity.
      + rewrite <- IH'. apply Sq_ext. intros y _. reflexivity.
  Qed.
End Counts.

Section Props.
  Context {X Y : Type} `{EqD X} `{EqD Y}.
  Implicit Type l : list (X * Y).
  Lemma lefts_NoDup l : NoDup (lefts l). Proof. apply NoDup_nodup. Qed.
  Lemma rights_NoDup l : NoDup (rights l). Proof. apply NoDup_nodup. Qed.
  Lemma lefts_In l p : In p l -> In (fst p) (lefts l).
  Proof. intros I. apply nodup_In. apply in_map. exact I. Qed.
  Lemma rights_In l p : In p l -> In (snd p) (rights l).
  Proof. intros I. apply nodup_In. apply in_map. exact I. Qed.
  Lemma filter_all : forall {A} (l : list A), filter (fun _ => true) l = l.
  Proof. intros A l0. induction l0 as [|a l0 IH]; [reflexivity|]. cbn. rewrite IH. reflexivity. Qed.

  Lemma sum_O_right l x : (Sq (fun y => of_nat (O l x y)) (rights l) == of_nat (R l x))%Q.
  Proof. apply (count_by snd (fun p => eqb_of (fst p) x)); [apply rights_NoDup|apply rights_In]. Qed.
  Lemma sum_O_left l y : (Sq (fun x => of_nat (O l x y)) (lefts l) == of_nat (C l y))%Q.
  Proof.
    unfold C. rewrite <- (count_by fst (fun p => eqb_of (snd p) y) (lefts l) (lefts_NoDup l) l (lefts_In l)).
    apply Sq_ext. intros x _. unfold O. rewrite (filter_ext _ (fun p => (eqb_of (snd p) y && eqb_of (fst p) x)%bool)); [reflexivity|].
    intros p. apply andb_comm.
  Qed.
  Lemma sum_R l : (Sq (fun x => of_nat (R l x)) (lefts l) == of_nat (length l))%Q.
  Proof.
    pose proof (count_by fst (fun _ => true) (lefts l) (lefts_NoDup l) l (lefts_In l)) as K. rewrite filter_all in K. exact K.
  Qed.
  Lemma sum_C l : (Sq (fun y => of_nat (C l y)) (rights l) == of_nat (length l))%Q.
  Proof.
    pose proof (count_by snd (fun _ => true) (rights l) (rights_NoDup l) l (rights_In l)) as K. rewrite filter_all in K. exact K.
  Qed.
  Lemma filter_pos : forall {A} (f : A -> bool) (l : list A) a, In a l -> f a = true -> 0 < length (filter f l).
  Proof.
    intros A f l0 a I Ea. destruct (filter f l0) eqn:Ef; [|cbn; lia]. exfalso.
    assert (In a (filter f l0)) as I' by (apply filter_In; tauto). rewrite Ef in I'. destruct I'.
  Qed.
  Lemma R_pos l x : In x (lefts l) -> 0 < R l x.
  Proof.
    intros I. apply nodup_In in I. apply in_map_iff in I. destruct I as (p & <- & I). apply (filter_pos _ _ p I).
    apply eqb_of_true. reflexivity.
  Qed.
  Lemma C_pos l y : In y (rights l) -> 0 < C l y.
  Proof.
    intros I. apply nodup_In in I. apply in_map_iff in I. destruct I as (p & <- & I). apply (filter_pos _ _ p I).
    apply eqb_of_true. reflexivity.
  Qed.
  Lemma filter_le : forall {A} (f g : A -> bool) (l : list A), (forall a, f a = true -> g a = true) -> length (filter f l) <= length (filter g l).
  Proof.
    intros A f g l0 S. induction l0 as [|a l0 IH]; [reflexivity|]. cbn. specialize (S a).
    destruct (f a), (g a); cbn; try lia; try discriminate (S eq_refl).
  Qed.
  Lemma filter_tight : forall {A} (f g : A -> bool) (l : list A), (forall a, f a = true -> g a = true) ->
    length (filter g l) = length (filter f l) -> forall a, In a l -> g a = true -> f a = true.
  Proof.
    intros A f g l0 S. induction l0 as [|b l0 IH]; intros E0 a Ia Ga; [destruct Ia|].
    pose proof (filter_le f g l0 S) as L. pose proof (S b) as Sb. cbn in E0. destruct Ia as [->|Ia].
    - rewrite Ga in E0. destruct (f a); [reflexivity|]. cbn in E0. lia.
    - apply IH; [|exact Ia|exact Ga]. destruct (f b), (g b); cbn in E0; try lia; try discriminate (Sb eq_refl).
  Qed.
  Lemma O_le_R l x y : O l x y <= R l x.
  Proof. apply filter_le. intros p Ep. apply andb_true_iff in Ep. tauto. Qed.
  Lemma O_le_C l x y : O l x y <= C l y.
  Proof. apply filter_le. intros p Ep. apply andb_true_iff in Ep. tauto. Qed.

  (** chi-square in terms of the sum of O^2 / (R C) *)
  Definition theta l : Q := Sq (fun x => Sq (fun y => of_nat (O l x y) * of_nat (O l x y) / (of_nat (R l x) * of_nat (C l y)))%Q (rights l)) (lefts l).

  Lemma chi2_theta l : l <> [] -> (chi2 l == of_nat (length l) * theta l - of_nat (length l))%Q.
  Proof.
    intros NE. assert (N : (0 < of_nat (length l))%Q) by (apply of_nat_pos; destruct l; [contradiction|cbn; lia]).
    set (n := of_nat (length l)) in *. unfold chi2.
    transitivity (Sq (fun x => Sq (fun y => (n * (of_nat (O l x y) * of_nat (O l x y) / (of_nat (R l x) * of_nat (C l y))) +
                                             ((-(2)) * of_nat (O l x y) + (of_nat (R l x) / n) * of_nat (C l y)))%Q) (rights l)) (lefts l)).
    { apply Sq_ext. intros x Ix. apply Sq_ext. intros y Iy.
      pose proof (of_nat_pos _ (R_pos l x Ix)) as Px. pose proof (of_nat_pos _ (C_pos l y Iy)) as Py.
      unfold E. fold n. field. repeat split; intros E0; rewrite E0 in *; lra. }
    transitivity (Sq (fun x => (n * Sq (fun y => (of_nat (O l x y) * of_nat (O l x y) / (of_nat (R l x) * of_nat (C l y)))%Q) (rights l) +
                                (-(1)) * of_nat (R l x))%Q) (lefts l)).
    { apply Sq_ext. intros x Ix. rewrite Sq_plus, Sq_scale, Sq_plus, !Sq_scale, sum_O_right, sum_C. fold n. field. lra. }
    rewrite Sq_plus, !Sq_scale, sum_R. fold n. unfold theta. ring.
  Qed.

  Lemma theta_right l : (theta l == of_nat (length (rights l)) -
     Sq (fun x => Sq (fun y => of_nat (O l x y) * (of_nat (R l x) - of_nat (O l x y)) / (of_nat (R l x) * of_nat (C l y)))%Q (rights l)) (lefts l))%Q.
  Proof.
    assert (K : (of_nat (length (rights l)) == Sq (fun x => Sq (fun y => of_nat (O l x y) / of_nat (C l y)) (rights l)) (lefts l))%Q).
    { rewrite Sq_swap. rewrite (Sq_ext _ (fun _ => 1%Q)); [symmetry; apply Sq_one|]. intros y Iy.
      rewrite (Sq_ext _ (fun x => (/ of_nat (C l y)) * of_nat (O l x y))%Q) by (intros x _; unfold Qdiv; ring).
      rewrite Sq_scale, sum_O_left. pose proof (of_nat_pos _ (C_pos l y Iy)). field. lra. }
    rewrite K. unfold theta. assert (G : forall a b c : Q, (a + b == c -> a == c - b)%Q) by (intros a b c E0; rewrite <- E0; ring).
    apply G. rewrite <- Sq_plus. apply Sq_ext. intros x Ix. rewrite <- Sq_plus. apply Sq_ext. intros y Iy.
    pose proof (of_nat_pos _ (R_pos l x Ix)) as Px. pose proof (of_nat_pos _ (C_pos l y Iy)) as Py. field. split; lra.
  Qed.
  Lemma slack_nonneg l x y : In x (lefts l) -> In y (rights l) ->
    (0 <= of_nat (O l x y) * (of_nat (R l x) - of_nat (O l x y)) / (of_nat (R l x) * of_nat (C l y)))%Q.
  Proof.
    intros Ix Iy. pose proof (of_nat_pos _ (R_pos l x Ix)) as Px. pose proof (of_nat_pos _ (C_pos l y Iy)) as Py.
    apply Qle_shift_div_l; [apply Qmult_lt_0_compat; assumption|]. rewrite Qmult_0_l. apply Qmult_le_0_compat; [apply of_nat_nonneg|].
    pose proof (of_nat_le _ _ (O_le_R l x y)). lra.
  Qed.
  Lemma theta_le_right l : (theta l <= of_nat (length (rights l)))%Q.
  Proof.
    rewrite theta_right. match goal with |- (_ - ?s <= _)%Q => assert (P : (0 <= s)%Q) end; [|lra].
    apply Sq_nonneg. intros x Ix. apply Sq_nonneg. intros y Iy. apply slack_nonneg; assumption.
  Qed.
  Lemma theta_eq_right l : (theta l == of_nat (length (rights l)))%Q <-> Determines l.
  Proof.
    rewrite theta_right. match goal with |- (_ - ?s == _)%Q <-> _ => set (sl := s) end.
    transitivity (sl == 0)%Q; [split; intros E0; lra|]. unfold sl.
    rewrite Sq_zero_iff by (intros x Ix; apply Sq_nonneg; intros y Iy; apply slack_nonneg; assumption). split.
    - intros Z0 p q Ip Iq Epq. pose proof (Z0 (fst p) (lefts_In l p Ip)) as Z1.
      rewrite Sq_zero_iff in Z1 by (intros y Iy; apply slack_nonneg; [apply lefts_In; exact Ip|exact Iy]).
      specialize (Z1 (snd p) (rights_In l p Ip)).
      pose proof (of_nat_pos _ (R_pos l (fst p) (lefts_In l p Ip))) as Px. pose proof (of_nat_pos _ (C_pos l (snd p) (rights_In l p Ip))) as Py.
      assert (Po : (0 < of_nat (O l (fst p) (snd p)))%Q).
      { apply of_nat_pos. apply (filter_pos _ _ p Ip). rewrite !(proj2 (eqb_of_true _ _)) by reflexivity. reflexivity. }
      assert (ER : (of_nat (R l (fst p)) == of_nat (O l (fst p) (snd p)))%Q).
      { set (r := of_nat (R l (fst p))) in *. set (o := of_nat (O l (fst p) (snd p))) in *. set (c := of_nat (C l (snd p))) in *.
        assert (M : (o * (r - o) == 0)%Q). { setoid_replace (o * (r - o))%Q with ((o * (r - o) / (r * c)) * (r * c))%Q by (field; split; lra). rewrite Z1. ring. }
        apply Qmult_integral in M. destruct M as [M|M]; lra. }
      apply of_nat_inj in ER. unfold R, O in ER. clear - ER Iq Epq.
      apply (filter_tight _ _ l) with (a := q) in ER; [|intros a Ea; apply andb_true_iff in Ea; tauto|exact Iq|apply eqb_of_true; congruence].
      apply andb_true_iff in ER. destruct ER as [_ ER]. apply (proj1 (eqb_of_true _ _)) in ER. symmetry. exact ER.
    - intros D x Ix. apply Sq_zero_iff; [intros y Iy; apply slack_nonneg; assumption|]. intros y Iy.
      assert (K : O l x y = 0 \/ O l x y = R l x).
      { destruct (Nat.eq_dec (O l x y) 0) as [Z0|NZ]; [left; exact Z0|right]. unfold O, R in *.
        destruct (filter (fun p => (eqb_of (fst p) x && eqb_of (snd p) y)%bool) l) as [|p r] eqn:Ef; [contradiction|].
        assert (Ip : In p (filter (fun p => (eqb_of (fst p) x && eqb_of (snd p) y)%bool) l)) by (rewrite Ef; left; reflexivity).
        apply filter_In in Ip. destruct Ip as [Ip Ep]. apply andb_true_iff in Ep. rewrite !eqb_of_true in Ep. destruct Ep as [Ex Ey].
        rewrite <- Ef. f_equal. apply filter_ext_in. intros q Iq. destruct (eqb_of (fst q) x) eqn:Eq; [|reflexivity]. cbn [andb].
        apply eqb_of_true. apply (proj1 (eqb_of_true _ _)) in Eq. rewrite <- Ey. apply D; [exact Iq|exact Ip|congruence]. }
      destruct K as [K|K]; rewrite K.
      + change (of_nat 0) with 0%Q. unfold Qdiv. ring.
      + unfold Qdiv. ring.
  Qed.
End Props.

Section Swap.
  Context {X Y : Type} `{EqD X} `{EqD Y}.
  Implicit Type l : list (X * Y).
  Lemma filter_map : forall {A B} (g : A -> B) (f : B -> bool) u, filter f (map g u) = map g (filter (fun a => f (g a)) u).
  Proof. intros A B g f u. induction u as [|a u IH]; [reflexivity|]. cbn. destruct (f (g a)); cbn; rewrite IH; reflexivity. Qed.
  Lemma lefts_swap l : lefts (map swap l) = rights l.
  Proof. unfold lefts, rights. rewrite map_map. reflexivity. Qed.
  Lemma rights_swap l : rights (map swap l) = lefts l.
  Proof. unfold lefts, rights. rewrite map_map. reflexivity. Qed.
  Lemma O_swap l x y : O (map swap l) y x = O l x y.
  Proof. unfold O. rewrite filter_map, map_length. cbn [swap fst snd]. f_equal. apply filter_ext. intros p. apply andb_comm. Qed.
  Lemma R_swap l y : R (map swap l) y = C l y.
  Proof. unfold R. rewrite filter_map, map_length. reflexivity. Qed.
  Lemma C_swap l x : C (map swap l) x = R l x.
  Proof. unfold C. rewrite filter_map, map_length. reflexivity. Qed.
  Lemma theta_swap l : (theta (map swap l) == theta l)%Q.
  Proof.
    unfold theta. rewrite lefts_swap, rights_swap, Sq_swap. apply Sq_ext. intros x _. apply Sq_ext. intros y _.
    rewrite O_swap, R_swap, C_swap. rewrite (Qmult_comm (of_nat (C l y))). reflexivity.
  Qed.
  Lemma chi2_swap l : (chi2 (map swap l) == chi2 l)%Q.
  Proof.
    destruct l as [|p l]; [reflexivity|]. rewrite !chi2_theta by discriminate. rewrite theta_swap, map_length. reflexivity.
  Qed.
  Theorem cramer2_swap l : (cramer2 (map swap l) == cramer2 l)%Q.
  Proof.
    unfold cramer2. rewrite lefts_swap, rights_swap, (Nat.min_comm (length (rights l))), map_length.
    destruct (_ <=? 1); [reflexivity|]. rewrite chi2_swap. reflexivity.
  Qed.
  Lemma Determines_swap l : Determines (map swap l) <-> Determined l.
  Proof.
    split.
    - intros D p q Ip Iq Epq. apply (D (swap p) (swap q)); [apply in_map; exact Ip|apply in_map; exact Iq|exact Epq].
    - intros D p q Ip Iq Epq. apply in_map_iff in Ip, Iq. destruct Ip as (p' & <- & Ip), Iq as (q' & <- & Iq).
      apply (D p' q' Ip Iq Epq).
  Qed.
End Swap.

Section Bounds.
  Context {X Y : Type} `{EqD X} `{EqD Y}.
  Implicit Type l : list (X * Y).
  Lemma theta_le_left l : (theta l <= of_nat (length (lefts l)))%Q.
  Proof. rewrite <- theta_swap, <- rights_swap. apply theta_le_right. Qed.
  Lemma theta_eq_left l : (theta l == of_nat (length (lefts l)))%Q <-> Determined l.
  Proof. rewrite <- theta_swap, <- rights_swap, theta_eq_right. apply Determines_swap. Qed.
  Lemma theta_le_min l : (theta l <= of_nat (Nat.min (length (lefts l)) (length (rights l))))%Q.
  Proof. destruct (Nat.min_spec (length (lefts l)) (length (rights l))) as [[_ ->]|[_ ->]]; [apply theta_le_left|apply theta_le_right]. Qed.
  Lemma chi2_nonneg l : (0 <= chi2 l)%Q.
  Proof.
    unfold chi2. apply Sq_nonneg. intros x Ix. apply Sq_nonneg. intros y Iy. destruct l as [|p l0]; [destruct Ix|].
    set (l := p :: l0) in *. apply Qle_shift_div_l.
    - unfold E. apply Qlt_shift_div_l; [apply of_nat_pos; cbn; lia|]. rewrite Qmult_0_l.
      apply Qmult_lt_0_compat; apply of_nat_pos; [apply R_pos; exact Ix|apply C_pos; exact Iy].
    - rewrite Qmult_0_l. apply Qsq_nonneg.
  Qed.
  Lemma many_nonempty l : 1 < Nat.min (length (lefts l)) (length (rights l)) -> l <> [].
  Proof. intros L ->. cbn in L. lia. Qed.

  Theorem cramer2_bounds l : (0 <= cramer2 l <= 1)%Q.
  Proof.
    unfold cramer2. set (m := Nat.min _ _). destruct (m <=? 1) eqn:Em; [split; discriminate|]. apply Nat.leb_gt in Em.
    pose proof (many_nonempty l Em) as NE.
    assert (N : (0 < of_nat (length l))%Q) by (apply of_nat_pos; destruct l; [contradiction|cbn; lia]).
    assert (M : (0 < of_nat (m - 1))%Q) by (apply of_nat_pos; lia).
    assert (NM : (0 < of_nat (length l) * of_nat (m - 1))%Q) by (apply Qmult_lt_0_compat; assumption). split.
    - apply Qle_shift_div_l; [exact NM|]. rewrite Qmult_0_l. apply chi2_nonneg.
    - apply Qle_shift_div_r; [exact NM|]. rewrite Qmult_1_l, (chi2_theta l NE).
      assert (EM : (of_nat m == of_nat (m - 1) + 1)%Q) by (apply of_nat_pred; lia).
      pose proof (theta_le_min l) as T. fold m in T. rewrite EM in T.
      setoid_replace (of_nat (length l) * theta l - of_nat (length l))%Q with (of_nat (length l) * (theta l - 1))%Q by ring.
      apply Qmult_le_l; [exact N|]. lra.
  Qed.

  (** columns that take several values: independent when the score is 0 *)
  Theorem cramer2_zero l : 1 < Nat.min (length (lefts l)) (length (rights l)) -> ((cramer2 l == 0)%Q <-> Independent l).
  Proof.
    intros Em. pose proof (many_nonempty l Em) as NE. unfold cramer2. rewrite (proj2 (Nat.leb_gt _ _) Em). set (m := Nat.min _ _) in *.
    assert (N : (0 < of_nat (length l))%Q) by (apply of_nat_pos; destruct l; [contradiction|cbn; lia]).
    assert (M : (0 < of_nat (m - 1))%Q) by (apply of_nat_pos; lia).
    assert (NM : (0 < of_nat (length l) * of_nat (m - 1))%Q) by (apply Qmult_lt_0_compat; assumption).
    transitivity (chi2 l == 0)%Q.
    { split; intros E0.
      - setoid_replace (chi2 l) with (chi2 l / (of_nat (length l) * of_nat (m - 1)) * (of_nat (length l) * of_nat (m - 1)))%Q by (field; split; lra).
        rewrite E0. ring.
      - rewrite E0. unfold Qdiv. ring. }
    assert (EP : forall x y, In x (lefts l) -> In y (rights l) -> (0 < E l x y)%Q).
    { intros x y Ix Iy. unfold E. apply Qlt_shift_div_l; [exact N|]. rewrite Qmult_0_l.
      apply Qmult_lt_0_compat; apply of_nat_pos; [apply R_pos; exact Ix|apply C_pos; exact Iy]. }
    assert (TP : forall x y, In x (lefts l) -> In y (rights l) -> (0 <= (of_nat (O l x y) - E l x y) * (of_nat (O l x y) - E l x y) / E l x y)%Q).
    { intros x y Ix Iy. apply Qle_shift_div_l; [apply EP; assumption|]. rewrite Qmult_0_l. apply Qsq_nonneg. }
    unfold chi2. rewrite Sq_zero_iff by (intros x Ix; apply Sq_nonneg; intros y Iy; apply TP; assumption). split.
    - intros Z0 x y. destruct (in_dec eqd x (lefts l)) as [Ix|Nx].
      2:{ assert (R l x = 0) as ER. { unfold R. destruct (filter _ l) as [|p r] eqn:Ef; [reflexivity|]. exfalso. apply Nx.
            assert (Ip : In p (filter (fun p => eqb_of (fst p) x) l)) by (rewrite Ef; left; reflexivity).
            apply filter_In in Ip. destruct Ip as [Ip Ex]. apply (proj1 (eqb_of_true _ _)) in Ex. subst x. apply lefts_In. exact Ip. }
          pose proof (O_le_R l x y). rewrite ER in *. lia. }
      destruct (in_dec eqd y (rights l)) as [Iy|Ny].
      2:{ assert (C l y = 0) as EC. { unfold C. destruct (filter _ l) as [|p r] eqn:Ef; [reflexivity|]. exfalso. apply Ny.
            assert (Ip : In p (filter (fun p => eqb_of (snd p) y) l)) by (rewrite Ef; left; reflexivity).
            apply filter_In in Ip. destruct Ip as [Ip Ex]. apply (proj1 (eqb_of_true _ _)) in Ex. subst y. apply rights_In. exact Ip. }
          pose proof (O_le_C l x y). rewrite EC in *. lia. }
      specialize (Z0 x Ix). rewrite Sq_zero_iff in Z0 by (intros y' Iy'; apply TP; assumption). specialize (Z0 y Iy).
      pose proof (EP x y Ix Iy) as Pe. set (o := of_nat (O l x y)) in *.
      assert (K : (o == E l x y)%Q).
      { assert (S0 : ((o - E l x y) * (o - E l x y) == 0)%Q).
        { setoid_replace ((o - E l x y) * (o - E l x y))%Q with ((o - E l x y) * (o - E l x y) / E l x y * E l x y)%Q by (field; lra). rewrite Z0. ring. }
        apply Qmult_integral in S0. destruct S0; lra. }
      apply of_nat_inj. rewrite !of_nat_mul. fold o. rewrite K. unfold E. field. lra.
    - intros I x Ix. apply Sq_zero_iff; [intros y Iy; apply TP; assumption|]. intros y Iy.
      assert (K : (of_nat (O l x y) == E l x y)%Q).
      { unfold E. specialize (I x y). apply (f_equal of_nat) in I. assert (I' : (of_nat (O l x y * length l) == of_nat (R l x * C l y))%Q) by (rewrite I; reflexivity).
        rewrite !of_nat_mul in I'. rewrite <- I'. field. lra. }
      rewrite K. unfold Qdiv. ring.
  Qed.

  (** the score is 1 when one of the columns (the one with more values) determines the other one *)
  Theorem cramer2_one l : (cramer2 l == 1)%Q <->
    1 < Nat.min (length (lefts l)) (length (rights l)) /\
    (length (rights l) <= length (lefts l) /\ Determines l \/ length (lefts l) <= length (rights l) /\ Determined l).
  Proof.
    unfold cramer2. set (m := Nat.min _ _). destruct (m <=? 1) eqn:Em.
    { apply Nat.leb_le in Em. split; [intros E0; discriminate E0|intros [L _]; lia]. }
    apply Nat.leb_gt in Em. pose proof (many_nonempty l Em) as NE.
    assert (N : (0 < of_nat (length l))%Q) by (apply of_nat_pos; destruct l; [contradiction|cbn; lia]).
    assert (M : (0 < of_nat (m - 1))%Q) by (apply of_nat_pos; lia).
    assert (EM : (of_nat m == of_nat (m - 1) + 1)%Q) by (apply of_nat_pred; lia).
    transitivity (theta l == of_nat m)%Q.
    { rewrite (chi2_theta l NE). set (n := of_nat (length l)) in *. set (k := of_nat (m - 1)) in *. split; intros E0.
      - assert (E1 : (n * theta l - n == n * k)%Q).
        { setoid_replace (n * theta l - n)%Q with ((n * theta l - n) / (n * k) * (n * k))%Q by (field; split; lra). rewrite E0. ring. }
        assert (E2 : (n * (theta l - 1 - k) == 0)%Q) by (setoid_replace (n * (theta l - 1 - k))%Q with ((n * theta l - n) - n * k)%Q by ring; rewrite E1; ring).
        apply Qmult_integral in E2. destruct E2; lra.
      - rewrite E0, EM. field. split; lra. }
    assert (LE : forall a b, a < b -> (of_nat a < of_nat b)%Q) by (intros a b L; unfold of_nat; rewrite <- Zlt_Qlt; lia).
    pose proof (theta_le_left l) as TL. pose proof (theta_le_right l) as TR. subst m. split.
    - intros E0. split; [exact Em|]. destruct (Nat.min_spec (length (lefts l)) (length (rights l))) as [[L0 E1]|[L0 E1]]; rewrite E1 in E0.
      + right. split; [lia|]. apply theta_eq_left. exact E0.
      + left. split; [lia|]. apply theta_eq_right. exact E0.
    - intros [_ [[L0 D]|[L0 D]]].
      + rewrite Nat.min_r by exact L0. apply theta_eq_right. exact D.
      + rewrite Nat.min_l by exact L0. apply theta_eq_left. exact D.
  Qed.
End Bounds.

(** The score only depends on which values are equal. *)
Section Relabel.
  Context {X Y X' Y' : Type} `{EqD X} `{EqD Y} `{EqD X'} `{EqD Y'}.
  Variable f : X -> X'.
  Variable g : Y -> Y'.
  Implicit Type l : list (X * Y).
  Definition relabel (p : X * Y) : X' * Y' := (f (fst p), g (snd p)).

  Lemma nodup_map {A B} `{EqD A} `{EqD B} (h : A -> B) : forall u, (forall a b, In a u -> In b u -> h a = h b -> a = b) ->
    nodup eqd (map h u) = map h (nodup eqd u).
  Proof.
    induction u as [|a u IH]; intros Inj; [reflexivity|]. cbn [map nodup].
    assert (IH' := IH (fun a b Ia Ib => Inj a b (or_intror Ia) (or_intror Ib))).
    destruct (in_dec eqd a u) as [I|NI], (in_dec eqd (h a) (map h u)) as [I'|NI']; cbn [map]; rewrite IH'; try reflexivity.
    - exfalso. apply NI'. apply in_map. exact I.
    - exfalso. apply in_map_iff in I'. destruct I' as (b & Eb & Ib). apply NI.
      rewrite <- (Inj b a (or_intror Ib) (or_introl eq_refl) Eb). exact Ib.
  Qed.

  Theorem cramer2_relabel l :
    (forall a b, In a (map fst l) -> In b (map fst l) -> f a = f b -> a = b) ->
    (forall a b, In a (map snd l) -> In b (map snd l) -> g a = g b -> a = b) ->
    (cramer2 (map relabel l) == cramer2 l)%Q.
  Proof.
    intros If Ig. set (l' := map relabel l).
    assert (EL : lefts l' = map f (lefts l)).
    { unfold lefts, l'. rewrite map_map. cbn [relabel fst]. rewrite <- (nodup_map f (map fst l) If), map_map. reflexivity. }
    assert (ER : rights l' = map g (rights l)).
    { unfold rights, l'. rewrite map_map. cbn [relabel snd]. rewrite <- (nodup_map g (map snd l) Ig), map_map. reflexivity. }
    assert (LN : length l' = length l) by (apply map_length).
    assert (Kf : forall x p, In x (lefts l) -> In p l -> eqb_of (f (fst p)) (f x) = eqb_of (fst p) x).
    { intros x p Ix Ip. destruct (eqb_of (fst p) x) eqn:E0.
      - apply (proj1 (eqb_of_true _ _)) in E0. apply eqb_of_true. congruence.
      - destruct (eqb_of (f (fst p)) (f x)) eqn:E1; [|reflexivity]. apply (proj1 (eqb_of_true _ _)) in E1.
        apply If in E1; [rewrite (proj2 (eqb_of_true _ _) E1) in E0; discriminate|apply in_map; exact Ip|apply nodup_In in Ix; exact Ix]. }
    assert (Kg : forall x p, In x (rights l) -> In p l -> eqb_of (g (snd p)) (g x) = eqb_of (snd p) x).
    { intros x p Ix Ip. destruct (eqb_of (snd p) x) eqn:E0.
      - apply (proj1 (eqb_of_true _ _)) in E0. apply eqb_of_true. congruence.
      - destruct (eqb_of (g (snd p)) (g x)) eqn:E1; [|reflexivity]. apply (proj1 (eqb_of_true _ _)) in E1.
        apply Ig in E1; [rewrite (proj2 (eqb_of_true _ _) E1) in E0; discriminate|apply in_map; exact Ip|apply nodup_In in Ix; exact Ix]. }
    assert (EO : forall x y, In x (lefts l) -> In y (rights l) -> O l' (f x) (g y) = O l x y).
    { intros x y Ix Iy. unfold O, l'. rewrite filter_map, map_length. f_equal. apply filter_ext_in. intros p Ip. cbn [relabel fst snd].
      rewrite (Kf x p Ix Ip), (Kg y p Iy Ip). reflexivity. }
    assert (ERx : forall x, In x (lefts l) -> R l' (f x) = R l x).
    { intros x Ix. unfold R, l'. rewrite filter_map, map_length. f_equal. apply filter_ext_in. intros p Ip. cbn [relabel fst]. apply Kf; assumption. }
    assert (ECy : forall y, In y (rights l) -> C l' (g y) = C l y).
    { intros y Iy. unfold C, l'. rewrite filter_map, map_length. f_equal. apply filter_ext_in. intros p Ip. cbn [relabel snd]. apply Kg; assumption. }
    unfold cramer2. rewrite EL, ER, !map_length, LN. destruct (_ <=? 1); [reflexivity|].
    assert (EC : (chi2 l' == chi2 l)%Q); [|rewrite EC; reflexivity].
    unfold chi2. rewrite EL, ER, Sq_map. apply Sq_ext. intros x Ix. rewrite Sq_map. apply Sq_ext. intros y Iy.
    unfold E. rewrite (EO x y Ix Iy), (ERx x Ix), (ECy y Iy), LN. reflexivity.
  Qed.
End Relabel.
