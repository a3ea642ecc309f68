(** Lemmas about histograms and durations. *)
From Coq Require Import QArith Qround Qabs Lqa Sorted.
From Verif Require Import Base M_labels M_hist.
Open Scope string_scope.
Open Scope list_scope.
Open Scope nat_scope.
Set Default Proof Using "Type".

Lemma qleb_iff : forall x y, Qle_bool x y = true <-> (x <= y)%Q.
Proof. exact Qle_bool_iff. Qed.
Lemma qleb_false : forall x y, Qle_bool x y = false <-> (y < x)%Q.
Proof. intros x y. destruct (Qle_bool x y) eqn:E; [apply qleb_iff in E; split; intros H; [discriminate|lra]|]. split; intros H; [|reflexivity].
  destruct (Qlt_le_dec y x) as [L|L]; [exact L|]. apply qleb_iff in L. congruence. Qed.
Lemma qltb_iff : forall x y, qltb x y = true <-> (x < y)%Q.
Proof. intros x y. unfold qltb. rewrite negb_true_iff. apply qleb_false. Qed.
Lemma qltb_false : forall x y, qltb x y = false <-> (y <= x)%Q.
Proof. intros x y. unfold qltb. rewrite negb_false_iff. apply qleb_iff. Qed.

(** ** Sorting and counting *)
Definition count (f : Q -> bool) (l : list Q) : nat := length (filter f l).
Lemma count_perm : forall f l l', Permutation l l' -> count f l = count f l'.
Proof.
  intros f l l' P. unfold count. induction P; cbn; try reflexivity; try congruence.
  - destruct (f x); cbn; congruence.
  - destruct (f x), (f y); reflexivity.
Qed.
Lemma insert_perm : forall x l, Permutation (x :: l) (insert x l).
Proof. intros x l. induction l as [|y l IH]; [reflexivity|]. cbn. destruct (Qle_bool x y); [reflexivity|]. rewrite perm_swap, IH. reflexivity. Qed.
Lemma sort_perm : forall l, Permutation l (sort l).
Proof. induction l as [|x l IH]; [reflexivity|]. cbn. rewrite <- insert_perm, <- IH. reflexivity. Qed.
Definition Incr (l : list Q) : Prop := StronglySorted Qle l.
Lemma insert_sorted : forall x l, Incr l -> Incr (insert x l).
Proof.
  intros x l S. induction S as [|y l S IH F]; [repeat constructor|]. cbn. destruct (Qle_bool x y) eqn:E.
  - apply qleb_iff in E. constructor; [constructor; assumption|]. constructor; [exact E|]. rewrite Forall_forall in *. intros z I. apply F in I. lra.
  - apply qleb_false in E. constructor; [exact IH|]. rewrite Forall_forall in *. intros z I. apply (Permutation_in _ (Permutation_sym (insert_perm x l))) in I.
    destruct I as [<-|I]; [lra|apply F; exact I].
Qed.
Lemma sort_sorted : forall l, Incr (sort l).
Proof. induction l as [|x l IH]; [constructor|]. apply insert_sorted. exact IH. Qed.
Lemma sort_length : forall l, length (sort l) = length l.
Proof. intros l. symmetry. apply Permutation_length, sort_perm. Qed.

Lemma count_cons : forall f x l, count f (x :: l) = (if f x then 1 else 0) + count f l.
Proof. intros f x l. unfold count. cbn. destruct (f x); reflexivity. Qed.
Lemma count_all : forall f l, (forall x, In x l -> f x = true) -> count f l = length l.
Proof. intros f l. induction l as [|x l IH]; intros H; [reflexivity|]. rewrite count_cons, (H x (or_introl eq_refl)), IH; [reflexivity|]. intros y I. apply H. right. exact I. Qed.
Lemma count_none : forall f l, (forall x, In x l -> f x = false) -> count f l = 0.
Proof. intros f l. induction l as [|x l IH]; intros H; [reflexivity|]. rewrite count_cons, (H x (or_introl eq_refl)), IH; [reflexivity|]. intros y I. apply H. right. exact I. Qed.
Lemma count_mono : forall f g l, (forall x, In x l -> f x = true -> g x = true) -> count f l <= count g l.
Proof.
  intros f g l. induction l as [|x l IH]; intros H; [cbn; lia|]. rewrite !count_cons. specialize (IH (fun y I => H y (or_intror I))). pose proof (H x (or_introl eq_refl)).
  destruct (f x), (g x); try lia.
Qed.
Lemma count_ext : forall f g l, (forall x, In x l -> f x = g x) -> count f l = count g l.
Proof. intros f g l H. apply Nat.le_antisymm; apply count_mono; intros x I; rewrite (H x I); auto. Qed.
Lemma count_filter : forall f g l, count f (filter g l) = count (fun x => g x && f x) l.
Proof. intros f g l. induction l as [|x l IH]; [reflexivity|]. cbn [filter]. rewrite count_cons. destruct (g x); cbn [andb]; [rewrite count_cons|]; rewrite IH; reflexivity. Qed.
(** the value at a position is at most [x] iff there are more values at most [x] than the position *)
Lemma nth_le_iff : forall s, Incr s -> forall i a x, nth_error s i = Some a -> ((a <= x)%Q <-> i < count (fun y => Qle_bool y x) s).
Proof.
  intros s S. induction S as [|y s S IH F]; intros i a x E; [destruct i; discriminate|]. rewrite count_cons. destruct i as [|i]; cbn in E.
  - injection E as <-. destruct (Qle_bool y x) eqn:L; [apply qleb_iff in L; split; [lia|auto]|]. apply qleb_false in L. split; [lra|]. intros H.
    rewrite count_none in H; [lia|]. intros z I. rewrite Forall_forall in F. apply F in I. apply qleb_false. lra.
  - specialize (IH i a x E). apply nth_error_In in E. rewrite Forall_forall in F. apply F in E. destruct (Qle_bool y x) eqn:L; [rewrite IH; lia|]. apply qleb_false in L.
    split; [lra|]. intros H. rewrite count_none in H; [lia|]. intros z I. apply F in I. apply qleb_false. lra.
Qed.
Lemma nth_lt_iff : forall s, Incr s -> forall i a x, nth_error s i = Some a -> ((a < x)%Q <-> i < count (fun y => qltb y x) s).
Proof.
  intros s S. induction S as [|y s S IH F]; intros i a x E; [destruct i; discriminate|]. rewrite count_cons. destruct i as [|i]; cbn in E.
  - injection E as <-. destruct (qltb y x) eqn:L; [apply qltb_iff in L; split; [lia|auto]|]. apply qltb_false in L. split; [lra|]. intros H.
    rewrite count_none in H; [lia|]. intros z I. rewrite Forall_forall in F. apply F in I. apply qltb_false. lra.
  - specialize (IH i a x E). apply nth_error_In in E. rewrite Forall_forall in F. apply F in E. destruct (qltb y x) eqn:L; [rewrite IH; lia|]. apply qltb_false in L.
    split; [lra|]. intros H. rewrite count_none in H; [lia|]. intros z I. apply F in I. apply qltb_false. lra.
Qed.
Lemma nth_mono : forall s, Incr s -> forall i j a b, i <= j -> nth_error s i = Some a -> nth_error s j = Some b -> (a <= b)%Q.
Proof.
  intros s S i j a b L A B. apply (proj2 (nth_le_iff s S i a b A)). pose proof (proj1 (nth_le_iff s S j b b B) (Qle_refl b)). lia.
Qed.
(** sorted lists of the same values are equal up to equality of numbers *)
Lemma sorted_unique : forall s s', Incr s -> Incr s' -> Permutation s s' -> forall i a b, nth_error s i = Some a -> nth_error s' i = Some b -> (a == b)%Q.
Proof.
  intros s s' S S' P i a b A B.
  assert (X : (a <= b)%Q) by (apply (proj2 (nth_le_iff s S i a b A)); rewrite (count_perm _ _ _ P); apply (proj1 (nth_le_iff s' S' i b b B)); lra).
  assert (Y : (b <= a)%Q) by (apply (proj2 (nth_le_iff s' S' i b a B)); rewrite <- (count_perm _ _ _ P); apply (proj1 (nth_le_iff s S i a a A)); lra). lra.
Qed.

(** ** Quantiles *)
(** [x] is the quantile [q] of the sorted list [s]: linear interpolation at the position q (n - 1) *)
Definition IsQuantile (s : list Q) (q x : Q) : Prop :=
  exists i j a b g, nth_error s i = Some a /\ nth_error s j = Some b /\ (i = j \/ j = i + 1) /\ (0 <= g < 1)%Q /\ (i = j -> g == 0)%Q /\
    (of_nat i + g == q * of_nat (length s - 1))%Q /\ (x == a + g * (b - a))%Q.
Lemma get_some : forall s i, i < length s -> exists a, nth_error s i = Some a /\ get s i = Ok a.
Proof. intros s i L. unfold get. destruct (nth_error s i) as [a|] eqn:E; [exists a; split; reflexivity|]. apply nth_error_None in E. lia. Qed.
Lemma of_nat_le : forall a b, a <= b -> (of_nat a <= of_nat b)%Q.
Proof. intros a b L. unfold of_nat. rewrite <- Zle_Qle. lia. Qed.
Lemma of_nat_lt_inv : forall a b, (of_nat a < of_nat b)%Q -> a < b.
Proof. intros a b L. unfold of_nat in L. rewrite <- Zlt_Qlt in L. lia. Qed.
Lemma of_nat_le_inv : forall a b, (of_nat a <= of_nat b)%Q -> a <= b.
Proof. intros a b L. unfold of_nat in L. rewrite <- Zle_Qle in L. lia. Qed.
Lemma of_nat_add : forall a b, (of_nat (a + b) == of_nat a + of_nat b)%Q.
Proof. intros a b. unfold of_nat. rewrite Nat2Z.inj_add, inject_Z_plus. reflexivity. Qed.
Lemma of_nat_mul : forall a b, (of_nat (a * b) == of_nat a * of_nat b)%Q.
Proof. intros a b. unfold of_nat. rewrite Nat2Z.inj_mul, inject_Z_mult. reflexivity. Qed.
Lemma quantile_ok : forall l q, l <> [] -> (0 <= q <= 1)%Q -> exists x, quantile l q = Ok x /\ IsQuantile (sort l) q x.
Proof.
  intros l q N Hq. unfold quantile. cbv zeta. set (s := sort l). assert (L : 0 < length s) by (unfold s; rewrite sort_length; destruct l; [contradiction|cbn; lia]).
  set (v := (q * of_nat (length s - 1))%Q). assert (V0 : (0 <= v)%Q) by (unfold v; apply Qmult_le_0_compat; [lra|change 0%Q with (of_nat 0); apply of_nat_le; lia]).
  assert (V1 : (v <= of_nat (length s - 1))%Q).
  { unfold v. setoid_replace (of_nat (length s - 1)) with (1 * of_nat (length s - 1))%Q at 2 by lra. apply Qmult_le_compat_r; [lra|change 0%Q with (of_nat 0); apply of_nat_le; lia]. }
  pose proof (Qfloor_le v) as F1. pose proof (Qlt_floor v) as F2. rewrite inject_Z_plus in F2. change (inject_Z 1) with 1%Q in F2.
  assert (F0 : (0 <= Qfloor v)%Z). { pose proof (Qfloor_resp_le 0 v V0) as R. change (Qfloor 0) with 0%Z in R. exact R. }
  assert (E : (inject_Z (Qfloor v) == of_nat (Z.to_nat (Qfloor v)))%Q) by (unfold of_nat; rewrite Z2Nat.id by exact F0; reflexivity).
  set (i := Z.to_nat (Qfloor v)) in *. assert (Li : i <= length s - 1) by (apply of_nat_le_inv; lra).
  destruct (get_some s i) as (a & A1 & A2); [lia|]. destruct (get_some s (Nat.min (i + 1) (length s - 1))) as (b & B1 & B2); [lia|].
  rewrite A2. cbn [bind]. rewrite B2. cbn [bind]. eexists. split; [reflexivity|]. exists i, (Nat.min (i + 1) (length s - 1)), a, b, (v - inject_Z (Qfloor v))%Q.
  split; [exact A1|]. split; [exact B1|]. split; [lia|]. split; [lra|]. split; [|split; [fold v; lra|reflexivity]].
  intros Ei. assert (i = length s - 1) by lia. assert (of_nat i == of_nat (length s - 1))%Q by (rewrite H; reflexivity). lra.
Qed.
Lemma quantile_empty : forall q, quantile [] q = Err IndexError.
Proof. intros q. unfold quantile. cbn [sort]. cbv zeta. unfold get at 1. destruct (Z.to_nat (Qfloor (q * of_nat (length (@nil Q) - 1)))); reflexivity. Qed.
(** positions before q (n - 1) have smaller values, positions after have larger ones *)
Lemma quantile_above : forall s q x, Incr s -> IsQuantile s q x -> forall k c, nth_error s k = Some c -> (of_nat k <= q * of_nat (length s - 1))%Q -> (c <= x)%Q.
Proof.
  intros s q x S (i & j & a & b & g & A & B & IJ & G & G0 & V & X) k c C L.
  assert (K : k <= i). { assert (T : (of_nat k < of_nat (i + 1))%Q) by (rewrite of_nat_add; change (of_nat 1) with 1%Q; lra). apply of_nat_lt_inv in T. lia. }
  pose proof (nth_mono s S k i c a K C A). assert (a <= b)%Q by (apply (nth_mono s S i j); [lia|exact A|exact B]). assert (0 <= g * (b - a))%Q by (apply Qmult_le_0_compat; lra). lra.
Qed.
Lemma quantile_below : forall s q x, Incr s -> IsQuantile s q x -> forall k c, nth_error s k = Some c -> (q * of_nat (length s - 1) <= of_nat k)%Q -> (x <= c)%Q.
Proof.
  intros s q x S (i & j & a & b & g & A & B & IJ & G & G0 & V & X) k c C L.
  assert (K : i <= k) by (apply of_nat_le_inv; lra). destruct (Qlt_le_dec 0 g) as [P|P].
  - assert (j <= k). { destruct IJ as [E|E]; [apply G0 in E; lra|]. subst j. assert (T : (of_nat i < of_nat k)%Q) by lra. apply of_nat_lt_inv in T. lia. }
    pose proof (nth_mono s S j k b c H B C). assert (a <= b)%Q by (apply (nth_mono s S i j); [lia|exact A|exact B]).
    assert (0 <= (1 - g) * (b - a))%Q by (apply Qmult_le_0_compat; lra). lra.
  - assert (g == 0)%Q as Z by lra. pose proof (nth_mono s S i k a c K A C). assert (g * (b - a) == 0)%Q as Z' by (rewrite Z; lra). lra.
Qed.
Lemma quantile_fun : forall s s' q x y, Incr s -> Incr s' -> Permutation s s' -> IsQuantile s q x -> IsQuantile s' q y -> (x == y)%Q.
Proof.
  intros s s' q x y S S' P (i & j & a & b & g & A & B & IJ & G & G0 & V & X) (i' & j' & a' & b' & g' & A' & B' & IJ' & G' & G0' & V' & Y).
  rewrite <- (Permutation_length P) in V'.
  assert (E : i = i').
  { assert (T1 : (of_nat i < of_nat (i' + 1))%Q) by (rewrite of_nat_add; change (of_nat 1) with 1%Q; lra). assert (T2 : (of_nat i' < of_nat (i + 1))%Q) by (rewrite of_nat_add; change (of_nat 1) with 1%Q; lra).
    apply of_nat_lt_inv in T1, T2. lia. }
  subst i'. assert (Eg : (g == g')%Q) by lra. pose proof (sorted_unique s s' S S' P i a a' A A') as Ea.
  destruct (Nat.eq_dec j j') as [->|Nj].
  - pose proof (sorted_unique s s' S S' P j' b b' B B') as Eb. rewrite X, Y, Ea, Eb, Eg. reflexivity.
  - assert (Z : (g == 0)%Q) by (destruct IJ as [E|E]; [apply G0; exact E|]; destruct IJ' as [E'|E']; [apply G0' in E'; lra|lia]).
    assert (Z' : (g' == 0)%Q) by lra. rewrite X, Y, Z, Z', Ea. lra.
Qed.
Lemma quantile_affine : forall s q x a b, IsQuantile s q x -> IsQuantile (map (fun y => a * y + b)%Q s) q (a * x + b)%Q.
Proof.
  intros s q x u w (i & j & a & b & g & A & B & IJ & G & G0 & V & X). exists i, j, (u * a + w)%Q, (u * b + w)%Q, g. rewrite map_length.
  split; [apply map_nth_error with (f := fun y => (u * y + w)%Q); exact A|]. split; [apply map_nth_error with (f := fun y => (u * y + w)%Q); exact B|]. repeat split; try assumption; try apply G. rewrite X. ring.
Qed.
Lemma quantile_mono : forall s q q' x y, Incr s -> (q <= q')%Q -> IsQuantile s q x -> IsQuantile s q' y -> (x <= y)%Q.
Proof.
  intros s q q' x y S L Hx Hy. pose proof Hx as (i & j & a & b & g & A & B & IJ & G & G0 & V & X). pose proof Hy as (i' & j' & a' & b' & g' & A' & B' & IJ' & G' & G0' & V' & Y).
  assert (N0 : (0 <= of_nat (length s - 1))%Q) by (change 0%Q with (of_nat 0); apply of_nat_le; lia).
  assert (LV : (q * of_nat (length s - 1) <= q' * of_nat (length s - 1))%Q) by (apply Qmult_le_compat_r; assumption).
  assert (A1 : (a' <= y)%Q) by (apply (quantile_above s q' y S Hy i' a' A'); lra).
  destruct (Qlt_le_dec (of_nat i') (q * of_nat (length s - 1))) as [M|M].
  - assert (E : i = i').
    { assert (T1 : (of_nat i < of_nat (i' + 1))%Q) by (rewrite of_nat_add; change (of_nat 1) with 1%Q; lra). assert (T2 : (of_nat i' < of_nat (i + 1))%Q) by (rewrite of_nat_add; change (of_nat 1) with 1%Q; lra).
      apply of_nat_lt_inv in T1, T2. lia. }
    subst i'. assert (Eg : (g <= g')%Q) by lra. assert (0 < g)%Q by lra.
    assert (J : j = i + 1) by (destruct IJ as [E|E]; [apply G0 in E; lra|exact E]). assert (J' : j' = i + 1) by (destruct IJ' as [E|E]; [apply G0' in E; lra|exact E]). subst j j'.
    rewrite A in A'. injection A' as <-. rewrite B in B'. injection B' as <-. assert (a <= b)%Q by (apply (nth_mono s S i (i + 1)); [lia|exact A|exact B]).
    assert (0 <= (g' - g) * (b - a))%Q by (apply Qmult_le_0_compat; lra). lra.
  - pose proof (quantile_below s q x S Hx i' a' A' M). lra.
Qed.

(** ** The range of a histogram *)
Record Range (values : list Q) (lp hp low high : Q) : Prop := {
  r_lp : IsQuantile (sort values) (1 # 5) lp; r_hp : IsQuantile (sort values) (4 # 5) hp; r_le : (lp <= hp)%Q;
  r_low : (low <= lp)%Q; r_high : (hp <= high)%Q;
  (** the values under the range *)
  r_below : forall v, In v values -> ((v < low)%Q <-> (lp < hp /\ v < lp - 3 * (hp - lp))%Q /\ exists m, In m values /\ (m <= lp - (345 # 100) * (hp - lp))%Q);
  r_above : forall v, In v values -> ((high < v)%Q <-> (lp < hp /\ hp + 3 * (hp - lp) < v)%Q /\ exists m, In m values /\ (hp + (345 # 100) * (hp - lp) <= m)%Q) }.
Lemma sort_in : forall l x, In x l <-> exists i, nth_error (sort l) i = Some x.
Proof.
  intros l x. split.
  - intros I. apply (Permutation_in _ (sort_perm l)) in I. apply In_nth_error in I. exact I.
  - intros (i & E). apply nth_error_In in E. apply (Permutation_in _ (Permutation_sym (sort_perm l))). exact E.
Qed.
Lemma quantile_min : forall l x, IsQuantile (sort l) 0 x -> (forall v, In v l -> (x <= v)%Q) /\ exists m, In m l /\ (m == x)%Q.
Proof.
  intros l x H. split.
  - intros v I. apply sort_in in I. destruct I as (i & E). apply (quantile_below _ 0 x (sort_sorted l) H i v E). assert (0 <= of_nat i)%Q by (change 0%Q with (of_nat 0); apply of_nat_le; lia). lra.
  - destruct H as (i & j & a & b & g & A & B & _ & G & _ & V & X). exists a. split; [apply sort_in; exists i; exact A|].
    assert (0 <= of_nat i)%Q by (change 0%Q with (of_nat 0); apply of_nat_le; lia). assert (g == 0)%Q as Z by lra. rewrite X, Z. ring.
Qed.
Lemma quantile_max : forall l x, IsQuantile (sort l) 1 x -> (forall v, In v l -> (v <= x)%Q) /\ exists m, In m l /\ (m == x)%Q.
Proof.
  intros l x H. split.
  - intros v I. apply sort_in in I. destruct I as (i & E). apply (quantile_above _ 1 x (sort_sorted l) H i v E).
    assert (of_nat i <= of_nat (length (sort l) - 1))%Q by (apply of_nat_le; assert (i < length (sort l)) by (apply nth_error_Some; rewrite E; discriminate); lia). lra.
  - destruct H as (i & j & a & b & g & A & B & IJ & G & G0 & V & X). exists a. split; [apply sort_in; exists i; exact A|].
    assert (L : i < length (sort l)) by (apply nth_error_Some; rewrite A; discriminate). assert (Lj : j < length (sort l)) by (apply nth_error_Some; rewrite B; discriminate).
    assert (T : i = length (sort l) - 1).
    { assert (T1 : (of_nat (length (sort l) - 1) < of_nat (i + 1))%Q) by (rewrite of_nat_add; change (of_nat 1) with 1%Q; lra). apply of_nat_lt_inv in T1. lia. }
    assert (Z : (g == 0)%Q) by (apply G0; lia). rewrite X, Z. ring.
Qed.
Lemma range_ok : forall values, values <> [] -> exists low high, get_range values = Ok (low, high) /\ exists lp hp, Range values lp hp low high.
Proof.
  intros values N. unfold get_range. cbv zeta.
  destruct (quantile_ok values 0 N) as (mn & -> & Q0); [lra|]. destruct (quantile_ok values (1 # 5) N) as (lp & -> & Q1); [lra|].
  destruct (quantile_ok values (1 - (1 # 5)) N) as (hp & -> & Q2); [lra|]. destruct (quantile_ok values 1 N) as (mx & -> & Q3); [lra|]. cbn [bind].
  assert (L0 : (mn <= lp)%Q) by (apply (quantile_mono _ 0 (1 # 5) mn lp (sort_sorted values)); [lra|exact Q0|exact Q1]).
  assert (L1 : (lp <= hp)%Q) by (apply (quantile_mono _ (1 # 5) (1 - (1 # 5)) lp hp (sort_sorted values)); [lra|exact Q1|exact Q2]).
  assert (L2 : (hp <= mx)%Q) by (apply (quantile_mono _ (1 - (1 # 5)) 1 hp mx (sort_sorted values)); [lra|exact Q2|exact Q3]).
  destruct (quantile_min values mn Q0) as (M1 & m & Im & Em). destruct (quantile_max values mx Q3) as (X1 & m' & Im' & Em').
  assert (Q2' : IsQuantile (sort values) (4 # 5) hp) by exact Q2.
  destruct (Qeq_bool (hp - lp) 0) eqn:D.
  - apply Qeq_bool_iff in D. exists mn, mx. split; [reflexivity|]. exists lp, hp. split; try assumption.
    + intros v I. apply M1 in I. split; [lra|]. intros [[? _] _]. lra.
    + intros v I. apply X1 in I. split; [lra|]. intros [[? _] _]. lra.
  - apply Qeq_bool_neq in D. assert (L3 : (lp < hp)%Q) by (apply Qle_lteq in L1; destruct L1 as [L1|L1]; [exact L1|exfalso; apply D; lra]).
    exists (if qltb (lp - 3 * (hp - lp) - 3 * (hp - lp) * (15 # 100)) mn then mn else (lp - 3 * (hp - lp))%Q),
           (if qltb mx (hp + 3 * (hp - lp) + 3 * (hp - lp) * (15 # 100)) then mx else (hp + 3 * (hp - lp))%Q).
    split; [reflexivity|]. exists lp, hp.
    destruct (qltb (lp - 3 * (hp - lp) - 3 * (hp - lp) * (15 # 100)) mn) eqn:B1; [apply qltb_iff in B1|apply qltb_false in B1];
    destruct (qltb mx (hp + 3 * (hp - lp) + 3 * (hp - lp) * (15 # 100))) eqn:B2; [apply qltb_iff in B2|apply qltb_false in B2|apply qltb_iff in B2|apply qltb_false in B2];
    (split; try assumption; try lra; intros v I; pose proof (M1 v I); pose proof (X1 v I); (split; [intros Hv|intros [[_ Hv] (w & Iw & Hw)]; pose proof (M1 w Iw); pose proof (X1 w Iw)]); try lra;
     (split; [lra|first [exists m; split; [exact Im|lra]|exists m'; split; [exact Im'|lra]]])).
Qed.
Lemma range_unique : forall l l' f a b, (f = (fun x => a * x + b)%Q) -> (0 < a)%Q -> Permutation (map f l) l' -> forall lp hp low high lp' hp' low' high',
  Range l lp hp low high -> Range l' lp' hp' low' high' ->
  (forall v, In v l -> In (f v) l' -> ((v < low)%Q <-> (f v < low')%Q)) /\ (forall v, In v l -> In (f v) l' -> ((high < v)%Q <-> (high' < f v)%Q)).
Proof.
  intros l l' f a b Ef Pa P lp hp low high lp' hp' low' high' R R'.
  assert (S1 : Incr (map f (sort l))).
  { pose proof (sort_sorted l) as S. subst f. induction S as [|y s S IH F]; [constructor|]. constructor; [exact IH|]. rewrite Forall_forall in *. intros z I. apply in_map_iff in I. destruct I as (w & <- & I).
    apply F in I. assert (0 <= a * (w - y))%Q by (apply Qmult_le_0_compat; lra). lra. }
  assert (P1 : Permutation (map f (sort l)) (sort l')) by (rewrite <- (sort_perm l'), <- P; apply Permutation_map; symmetry; apply sort_perm).
  assert (E1 : (a * lp + b == lp')%Q).
  { apply (quantile_fun (map f (sort l)) (sort l') (1 # 5)); [exact S1|apply sort_sorted|exact P1| |apply (r_lp _ _ _ _ _ R')]. subst f. apply quantile_affine. apply (r_lp _ _ _ _ _ R). }
  assert (E2 : (a * hp + b == hp')%Q).
  { apply (quantile_fun (map f (sort l)) (sort l') (4 # 5)); [exact S1|apply sort_sorted|exact P1| |apply (r_hp _ _ _ _ _ R')]. subst f. apply quantile_affine. apply (r_hp _ _ _ _ _ R). }
  assert (LT : forall x y, (x < y <-> a * x + b < a * y + b)%Q).
  { intros x y. split; intros H; [assert (0 < a * (y - x))%Q by (apply Qmult_lt_0_compat; lra); lra|]. destruct (Qlt_le_dec x y) as [L|L]; [exact L|exfalso].
    assert (0 <= a * (x - y))%Q by (apply Qmult_le_0_compat; lra). lra. }
  assert (LE : forall x y, (x <= y <-> a * x + b <= a * y + b)%Q).
  { intros x y. split; intros H; [assert (0 <= a * (y - x))%Q by (apply Qmult_le_0_compat; lra); lra|]. destruct (Qlt_le_dec y x) as [L|L]; [exfalso|exact L].
    assert (0 < a * (x - y))%Q by (apply Qmult_lt_0_compat; lra). lra. }
  assert (IN : forall m, In m l -> In (f m) l') by (intros m I; apply (Permutation_in _ P); apply in_map; exact I).
  assert (NI : forall m, In m l' -> exists w, In w l /\ f w = m) by (intros m I; apply (Permutation_in _ (Permutation_sym P)) in I; apply in_map_iff in I; destruct I as (w & E & I); exists w; auto).
  assert (C1 : (lp < hp <-> lp' < hp')%Q) by (rewrite (LT lp hp); split; intros H; lra).
  split; intros v I I'.
  - rewrite (r_below _ _ _ _ _ R v I), (r_below _ _ _ _ _ R' (f v) I'). rewrite C1.
    assert (C2 : (v < lp - 3 * (hp - lp) <-> f v < lp' - 3 * (hp' - lp'))%Q) by (rewrite (LT v); subst f; cbn beta; split; intros H; lra). rewrite C2.
    split; intros [H (m & Im & Hm)]; (split; [exact H|]).
    + exists (f m). split; [apply IN; exact Im|]. apply LE in Hm. subst f. cbn beta. lra.
    + destruct (NI m Im) as (w & Iw & <-). exists w. split; [exact Iw|]. apply LE. subst f. cbn beta in Hm. lra.
  - rewrite (r_above _ _ _ _ _ R v I), (r_above _ _ _ _ _ R' (f v) I'). rewrite C1.
    assert (C2 : (hp + 3 * (hp - lp) < v <-> hp' + 3 * (hp' - lp') < f v)%Q) by (rewrite (LT _ v); subst f; cbn beta; split; intros H; lra). rewrite C2.
    split; intros [H (m & Im & Hm)]; (split; [exact H|]).
    + exists (f m). split; [apply IN; exact Im|]. apply LE in Hm. subst f. cbn beta. lra.
    + destruct (NI m Im) as (w & Iw & <-). exists w. split; [exact Iw|]. apply LE. subst f. cbn beta in Hm. lra.
Qed.

(** ** Bars *)
Lemma edge_mono : forall r k, (fst r < snd r)%Q -> (edge r k < edge r (k + 1))%Q.
Proof. intros r k L. unfold edge. rewrite of_nat_add. change (of_nat 1) with 1%Q. assert (0 < (snd r - fst r) / 10)%Q by (apply Qlt_shift_div_l; lra). lra. Qed.
Lemma edge_0 : forall r, (edge r 0 == fst r)%Q.
Proof. intros r. unfold edge. change (of_nat 0) with 0%Q. lra. Qed.
Lemma edge_10 : forall r, (edge r 10 == snd r)%Q.
Proof. intros r. unfold edge. change (of_nat 10) with 10%Q. field. Qed.
Lemma count_split : forall (f g h : Q -> bool) l, (forall x, In x l -> (if f x then 1 else 0) + (if g x then 1 else 0) = (if h x then 1 else 0)) -> count f l + count g l = count h l.
Proof.
  intros f g h l. induction l as [|x l IH]; intros H; [reflexivity|]. rewrite !count_cons. specialize (IH (fun y I => H y (or_intror I))). pose proof (H x (or_introl eq_refl)). lia.
Qed.
Lemma bar_step : forall l r k, (fst r < snd r)%Q -> k <> 9 -> bar l r k + count (fun x => qltb x (edge r k)) l = count (fun x => qltb x (edge r (k + 1))) l.
Proof.
  intros l r k L N. unfold bar. apply count_split. intros x _. destruct (Nat.eqb_spec k 9) as [|_]; [contradiction|]. pose proof (edge_mono r k L).
  destruct (Qle_bool (edge r k) x) eqn:A; [apply qleb_iff in A|apply qleb_false in A]; destruct (qltb x (edge r (k + 1))) eqn:B; [apply qltb_iff in B|apply qltb_false in B|apply qltb_iff in B|apply qltb_false in B];
  destruct (qltb x (edge r k)) eqn:C; [apply qltb_iff in C|apply qltb_false in C|apply qltb_iff in C|apply qltb_false in C|apply qltb_iff in C|apply qltb_false in C|apply qltb_iff in C|apply qltb_false in C]; try reflexivity; exfalso; lra.
Qed.
Lemma bar_last : forall l r, (forall x, In x l -> (x <= snd r)%Q) -> bar l r 9 + count (fun x => qltb x (edge r 9)) l = length l.
Proof.
  intros l r H. rewrite <- (count_all (fun _ => true) l) by reflexivity. unfold bar. apply count_split. intros x I. cbn [Nat.eqb]. pose proof (edge_10 r) as E. change (9 + 1) with 10. pose proof (H x I).
  assert (B : Qle_bool x (edge r 10) = true) by (apply qleb_iff; lra). rewrite B, andb_true_r. unfold qltb. destruct (Qle_bool (edge r 9) x); reflexivity.
Qed.
Lemma bars_total : forall l r, (fst r < snd r)%Q -> (forall x, In x l -> (fst r <= x <= snd r)%Q) -> list_sum (map (bar l r) (seq 0 10)) = length l.
Proof.
  intros l r L H. pose proof (bar_last l r (fun x I => proj2 (H x I))) as E9.
  assert (E0 : count (fun x => qltb x (edge r 0)) l = 0) by (apply count_none; intros x I; apply qltb_false; pose proof (edge_0 r); pose proof (H x I); lra).
  pose proof (bar_step l r 0 L) as B0. pose proof (bar_step l r 1 L) as B1. pose proof (bar_step l r 2 L) as B2. pose proof (bar_step l r 3 L) as B3. pose proof (bar_step l r 4 L) as B4.
  pose proof (bar_step l r 5 L) as B5. pose proof (bar_step l r 6 L) as B6. pose proof (bar_step l r 7 L) as B7. pose proof (bar_step l r 8 L) as B8.
  specialize (B0 ltac:(lia)). specialize (B1 ltac:(lia)). specialize (B2 ltac:(lia)). specialize (B3 ltac:(lia)). specialize (B4 ltac:(lia)). specialize (B5 ltac:(lia)). specialize (B6 ltac:(lia)). specialize (B7 ltac:(lia)). specialize (B8 ltac:(lia)).
  cbn [Nat.add] in *. cbn [seq map]. unfold list_sum. cbn [fold_right]. lia.
Qed.
Lemma last_in : forall (s : list Q) d, In (last s d) (d :: s).
Proof. intros s. induction s as [|x s IH]; intros d; [left; reflexivity|]. destruct s as [|y s]; [right; left; reflexivity|]. change (last (x :: y :: s) d) with (last (y :: s) d). destruct (IH d) as [E|I]; [left; exact E|right; right; exact I]. Qed.
Lemma last_cons : forall (s : list Q) y d, last (y :: s) d = last s y.
Proof. induction s as [|z s IH]; intros y d; [reflexivity|]. change (last (y :: z :: s) d) with (last (z :: s) d). rewrite !IH. reflexivity. Qed.
Lemma last_max : forall s d, Incr (d :: s) -> forall x, In x (d :: s) -> (x <= last s d)%Q.
Proof.
  intros s. induction s as [|y s IH]; intros d S x I.
  - destruct I as [<-|[]]. apply Qle_refl.
  - inversion S as [|? ? S' F]. subst. assert (E : last (y :: s) d = last s y) by (apply last_cons).
    rewrite E. destruct I as [<-|I]; [|apply IH; assumption]. inversion F. subst. pose proof (IH y S' y (or_introl eq_refl)). lra.
Qed.
Lemma hist_range_ok : forall l, (fst (hist_range l) < snd (hist_range l))%Q /\ (forall x, In x l -> (fst (hist_range l) <= x <= snd (hist_range l))%Q) /\
  ((exists x y, In x l /\ In y l /\ ~ (x == y)%Q) -> In (fst (hist_range l)) l /\ In (snd (hist_range l)) l).
Proof.
  intros l. unfold hist_range. pose proof (sort_sorted l) as S. pose proof (sort_perm l) as P. destruct (sort l) as [|lo s].
  - apply Permutation_sym, Permutation_nil in P. subst l. cbn. split; [lra|]. split; [intros x []|]. intros (x & _ & [] & _).
  - assert (I1 : forall x, In x l <-> In x (lo :: s)) by (intros x; split; [apply Permutation_in; exact P|apply Permutation_in; symmetry; exact P]).
    pose proof (last_in s lo) as Il. pose proof (last_max s lo S) as M. assert (Lo : forall x, In x (lo :: s) -> (lo <= x)%Q).
    { intros x [<-|I]; [lra|]. inversion S as [|? ? _ F]. subst. rewrite Forall_forall in F. apply F. exact I. }
    pose proof (Lo _ Il) as Le. cbv zeta. destruct (Qeq_bool lo (last s lo)) eqn:E; cbn [fst snd].
    + apply Qeq_bool_iff in E. split; [lra|]. split; [intros x I; apply I1 in I; pose proof (M x I); pose proof (Lo x I); lra|].
      intros (x & y & Ix & Iy & N). exfalso. apply N. apply I1 in Ix, Iy. pose proof (M x Ix). pose proof (Lo x Ix). pose proof (M y Iy). pose proof (Lo y Iy). lra.
    + apply Qeq_bool_neq in E. split; [apply Qle_lteq in Le; destruct Le as [Le|Le]; [exact Le|contradiction]|]. split; [intros x I; apply I1 in I; split; [apply Lo|apply M]; exact I|].
      intros _. split; apply I1; [left; reflexivity|exact Il].
Qed.

(** ** The histogram *)
Lemma hist_empty : robust_hist [] = Err IndexError.
Proof. unfold robust_hist, get_range. rewrite quantile_empty. reflexivity. Qed.
Definition below (v : Q) (l : list Q) : nat := count (fun x => qltb x v) l.
Definition above (v : Q) (l : list Q) : nat := count (fun x => qltb v x) l.
Lemma hist_spec : forall values, values <> [] -> exists lp hp low high d, Range values lp hp low high /\ robust_hist values = Ok (d, (below low values, above high values)) /\
  let inliers := filter (fun x => Qle_bool low x && Qle_bool x high) values in
  d_bars d = bars inliers /\ d_range d = hist_range inliers /\
  d_low d = (if below low values =? 0 then None else Some (below low values)) /\ d_high d = (if above high values =? 0 then None else Some (above high values)) /\
  d_text d = (if below low values + above high values =? 0 then None else Some (below low values + above high values, format_percent (of_nat (below low values + above high values) / of_nat (length values)))).
Proof.
  intros values N. destruct (range_ok values N) as (low & high & E & lp & hp & R). unfold robust_hist. rewrite E. cbn [bind].
  fold (count (fun x => qltb x low) values) (count (fun x => qltb high x) values). fold (below low values) (above high values). exists lp, hp, low, high.
  destruct (Nat.eqb_spec (below low values + above high values) 0) as [Z|Z].
  - eexists. split; [exact R|]. assert (Z1 : below low values = 0) by lia. assert (Z2 : above high values = 0) by lia. split; [rewrite Z1, Z2; reflexivity|]. rewrite Z1, Z2. repeat split.
  - eexists. split; [exact R|]. split; [reflexivity|]. repeat split.
Qed.
(** every value is in one bar or is an outlier *)
Theorem hist_total : forall values d nl nh, robust_hist values = Ok (d, (nl, nh)) -> list_sum (d_bars d) + nl + nh = length values /\ length (d_bars d) = 10.
Proof.
  intros values d nl nh E. destruct values as [|v0 values]; [rewrite hist_empty in E; discriminate|]. remember (v0 :: values) as l eqn:El. assert (N : l <> []) by (rewrite El; discriminate). clear El.
  destruct (hist_spec l N) as (lp & hp & low & high & d' & R & E' & B & _). rewrite E' in E. injection E as <- <- <-. rewrite B. split; [|unfold bars; rewrite map_length, seq_length; reflexivity].
  set (inl := filter (fun x => Qle_bool low x && Qle_bool x high) l) in *. destruct (hist_range_ok inl) as (H1 & H2 & _). unfold bars. rewrite (bars_total inl _ H1 H2).
  unfold below, above, inl. fold (count (fun x => Qle_bool low x && Qle_bool x high) l). pose proof (r_low _ _ _ _ _ R). pose proof (r_high _ _ _ _ _ R). pose proof (r_le _ _ _ _ _ R).
  rewrite (count_split (fun x => Qle_bool low x && Qle_bool x high) (fun x => qltb x low) (fun x => Qle_bool x high) l).
  - rewrite (count_split (fun x => Qle_bool x high) (fun x => qltb high x) (fun _ => true) l); [apply count_all; reflexivity|]. intros x _. unfold qltb. destruct (Qle_bool x high); reflexivity.
  - intros x _. unfold qltb. destruct (Qle_bool low x) eqn:A; cbn [andb negb]; [lia|]. apply qleb_false in A. assert (B' : Qle_bool x high = true) by (apply qleb_iff; lra). rewrite B'. reflexivity.
Qed.
(** what is drawn in red *)
Theorem hist_red : forall values d nl nh, robust_hist values = Ok (d, (nl, nh)) ->
  d_low d = (if nl =? 0 then None else Some nl) /\ d_high d = (if nh =? 0 then None else Some nh) /\
  d_text d = (if nl + nh =? 0 then None else Some (nl + nh, format_percent (of_nat (nl + nh) / of_nat (length values)))).
Proof.
  intros values d nl nh E. destruct values as [|v0 values]; [rewrite hist_empty in E; discriminate|]. remember (v0 :: values) as l eqn:El. assert (N : l <> []) by (rewrite El; discriminate). clear El.
  destruct (hist_spec l N) as (lp & hp & low & high & d' & R & E' & _ & _ & L & H & T). rewrite E' in E. injection E as <- <- <-. auto.
Qed.
(** the middle: positions between one fifth and four fifths of the sorted values *)
Definition Sorted_of (l s : list Q) : Prop := Permutation l s /\ Incr s.
Lemma pos_low : forall n i, 0 < n -> n - 1 <= 5 * i -> ((1 # 5) * of_nat (n - 1) <= of_nat i)%Q.
Proof. intros n i N L. apply of_nat_le in L. rewrite of_nat_mul in L. change (of_nat 5) with 5%Q in L. lra. Qed.
Lemma pos_high : forall n i, 0 < n -> 5 * i <= 4 * (n - 1) -> (of_nat i <= (4 # 5) * of_nat (n - 1))%Q.
Proof. intros n i N L. apply of_nat_le in L. rewrite !of_nat_mul in L. change (of_nat 5) with 5%Q in L. change (of_nat 4) with 4%Q in L. lra. Qed.
Lemma pos_low' : forall n i, 0 < n -> 5 * i <= n - 1 -> (of_nat i <= (1 # 5) * of_nat (n - 1))%Q.
Proof. intros n i N L. apply of_nat_le in L. rewrite of_nat_mul in L. change (of_nat 5) with 5%Q in L. lra. Qed.
Lemma pos_high' : forall n i, 0 < n -> 4 * (n - 1) <= 5 * i -> ((4 # 5) * of_nat (n - 1) <= of_nat i)%Q.
Proof. intros n i N L. apply of_nat_le in L. rewrite !of_nat_mul in L. change (of_nat 5) with 5%Q in L. change (of_nat 4) with 4%Q in L. lra. Qed.
Lemma quantile_sorted : forall l s q x, Sorted_of l s -> IsQuantile (sort l) q x -> exists y, IsQuantile s q y /\ (x == y)%Q.
Proof.
  intros l s q x [P S] H. assert (P' : Permutation (sort l) s) by (rewrite <- sort_perm; exact P). pose proof H as (i & j & a & b & g & A & B & IJ & G & G0 & V & X).
  assert (Li : i < length s) by (rewrite <- (Permutation_length P'); apply nth_error_Some; rewrite A; discriminate). assert (Lj : j < length s) by (rewrite <- (Permutation_length P'); apply nth_error_Some; rewrite B; discriminate).
  destruct (get_some s i Li) as (a' & A' & _). destruct (get_some s j Lj) as (b' & B' & _). assert (Y : IsQuantile s q (a' + g * (b' - a'))%Q).
  { exists i, j, a', b', g. rewrite <- (Permutation_length P'). repeat split; try assumption; try apply G; try reflexivity. }
  eexists. split; [exact Y|]. exact (quantile_fun _ _ q _ _ (sort_sorted l) S P' H Y).
Qed.
Theorem hist_far : forall values d nl nh s i j a b, robust_hist values = Ok (d, (nl, nh)) -> Sorted_of values s -> nth_error s i = Some a -> nth_error s j = Some b ->
  length values - 1 <= 5 * i -> 5 * j <= 4 * (length values - 1) ->
  nl <= below (a - 3 * (b - a)) values /\ nh <= above (b + 3 * (b - a)) values.
Proof.
  intros values d nl nh s i j a b E So A B Li Lj. destruct values as [|v0 values]; [rewrite hist_empty in E; discriminate|]. remember (v0 :: values) as l eqn:El. assert (N : l <> []) by (rewrite El; discriminate).
  assert (N0 : 0 < length l) by (rewrite El; cbn; lia). clear El.
  destruct (hist_spec l N) as (lp & hp & low & high & d' & R & E' & _). rewrite E' in E. injection E as <- <- <-. pose proof (Permutation_length (proj1 So)) as Len.
  destruct (quantile_sorted l s _ lp So (r_lp _ _ _ _ _ R)) as (lp' & Q1 & E1). destruct (quantile_sorted l s _ hp So (r_hp _ _ _ _ _ R)) as (hp' & Q2 & E2).
  assert (C1 : (lp' <= a)%Q) by (apply (quantile_below s _ lp' (proj2 So) Q1 i a A); rewrite <- Len; apply pos_low; assumption).
  assert (C2 : (b <= hp')%Q) by (apply (quantile_above s _ hp' (proj2 So) Q2 j b B); rewrite <- Len; apply pos_high; assumption).
  split; apply count_mono; intros x I; rewrite !qltb_iff; intros H.
  - apply (r_below _ _ _ _ _ R x I) in H. destruct H as [[_ H] _]. lra.
  - apply (r_above _ _ _ _ _ R x I) in H. destruct H as [[_ H] _]. lra.
Qed.
(** far values are outliers, when the middle is not constant *)
Theorem hist_detect : forall values d nl nh s i j a b i' j' a' b', robust_hist values = Ok (d, (nl, nh)) -> Sorted_of values s -> nth_error s i = Some a -> nth_error s j = Some b ->
  length values - 1 <= 5 * i -> 5 * j <= 4 * (length values - 1) -> (a < b)%Q ->
  nth_error s i' = Some a' -> nth_error s j' = Some b' -> 5 * i' <= length values - 1 -> 4 * (length values - 1) <= 5 * j' ->
  below (a' - (345 # 100) * (b' - a')) values <= nl /\ above (b' + (345 # 100) * (b' - a')) values <= nh.
Proof.
  intros values d nl nh s i j a b i' j' a' b' E So A B Li Lj AB A' B' Li' Lj'. destruct values as [|v0 values]; [rewrite hist_empty in E; discriminate|]. remember (v0 :: values) as l eqn:El. assert (N : l <> []) by (rewrite El; discriminate).
  assert (N0 : 0 < length l) by (rewrite El; cbn; lia). clear El.
  destruct (hist_spec l N) as (lp & hp & low & high & d' & R & E' & _). rewrite E' in E. injection E as <- <- <-. pose proof (Permutation_length (proj1 So)) as Len.
  destruct (quantile_sorted l s _ lp So (r_lp _ _ _ _ _ R)) as (lp' & Q1 & E1). destruct (quantile_sorted l s _ hp So (r_hp _ _ _ _ _ R)) as (hp' & Q2 & E2).
  assert (C1 : (lp' <= a)%Q) by (apply (quantile_below s _ lp' (proj2 So) Q1 i a A); rewrite <- Len; apply pos_low; assumption).
  assert (C2 : (b <= hp')%Q) by (apply (quantile_above s _ hp' (proj2 So) Q2 j b B); rewrite <- Len; apply pos_high; assumption).
  assert (C3 : (a' <= lp')%Q) by (apply (quantile_above s _ lp' (proj2 So) Q1 i' a' A'); rewrite <- Len; apply pos_low'; assumption).
  assert (C4 : (hp' <= b')%Q) by (apply (quantile_below s _ hp' (proj2 So) Q2 j' b' B'); rewrite <- Len; apply pos_high'; assumption).
  split; apply count_mono; intros x I; rewrite !qltb_iff; intros H.
  - apply (r_below _ _ _ _ _ R x I). split; [lra|]. exists x. split; [exact I|]. lra.
  - apply (r_above _ _ _ _ _ R x I). split; [lra|]. exists x. split; [exact I|]. lra.
Qed.
Theorem hist_few : forall values d nl nh, robust_hist values = Ok (d, (nl, nh)) -> 5 * nl <= length values + 3 /\ 5 * nh <= length values + 3.
Proof.
  intros values d nl nh E. destruct values as [|v0 values]; [rewrite hist_empty in E; discriminate|]. remember (v0 :: values) as l eqn:El. assert (N : l <> []) by (rewrite El; discriminate).
  assert (N0 : 0 < length l) by (rewrite El; cbn; lia). clear El.
  destruct (hist_spec l N) as (lp & hp & low & high & d' & R & E' & _). rewrite E' in E. injection E as <- <- <-. pose proof (sort_length l) as Len. pose proof (sort_sorted l) as S. split.
  - set (k := (length l + 3) / 5). assert (K : 5 * k <= length l + 3 < 5 * k + 5) by (unfold k; pose proof (Nat.div_mod (length l + 3) 5 ltac:(lia)); pose proof (Nat.mod_upper_bound (length l + 3) 5 ltac:(lia)); lia). clearbody k.
    assert (B : below low l <= k); [|lia]. destruct (Nat.le_gt_cases (below low l) k) as [H|H]; [exact H|exfalso].
    destruct (Nat.le_gt_cases (length l) k) as [Lk|Lk]; [unfold below in H; pose proof (count_mono (fun x => qltb x low) (fun _ => true) l (fun _ _ _ => eq_refl)) as X; rewrite (count_all (fun _ => true)) in X by reflexivity; lia|].
    destruct (get_some (sort l) k) as (c & C & _); [lia|]. unfold below in H. rewrite (count_perm _ _ _ (sort_perm l)) in H. apply (nth_lt_iff _ S k c low C) in H.
    assert (lp <= c)%Q by (apply (quantile_below _ _ lp S (r_lp _ _ _ _ _ R) k c C); rewrite Len; apply pos_low; [exact N0|lia]). pose proof (r_low _ _ _ _ _ R). lra.
  - set (k := (4 * (length l - 1)) / 5). assert (K : 5 * k <= 4 * (length l - 1) < 5 * k + 5) by (unfold k; pose proof (Nat.div_mod (4 * (length l - 1)) 5 ltac:(lia)); pose proof (Nat.mod_upper_bound (4 * (length l - 1)) 5 ltac:(lia)); lia). clearbody k.
    destruct (get_some (sort l) k) as (c & C & _); [lia|]. assert (Cc : (c <= hp)%Q) by (apply (quantile_above _ _ hp S (r_hp _ _ _ _ _ R) k c C); rewrite Len; apply pos_high; [exact N0|lia]).
    pose proof (r_high _ _ _ _ _ R) as Hh. assert (X : k < count (fun y => Qle_bool y high) (sort l)) by (apply (nth_le_iff _ S k c high C); lra). rewrite <- (count_perm _ _ _ (sort_perm l)) in X.
    assert (T : count (fun x => Qle_bool x high) l + above high l = length l).
    { rewrite <- (count_all (fun _ => true) l) by reflexivity. apply count_split. intros x _. unfold qltb. destruct (Qle_bool x high); reflexivity. } lia.
Qed.
(** units and order do not matter *)
Theorem hist_units : forall values values' a b d nl nh, robust_hist values = Ok (d, (nl, nh)) -> (0 < a)%Q -> Permutation (map (fun x => a * x + b)%Q values) values' ->
  exists d', robust_hist values' = Ok (d', (nl, nh)) /\ d_text d' = d_text d /\ d_low d' = d_low d /\ d_high d' = d_high d.
Proof.
  intros values values' a b d nl nh E Pa P. destruct values as [|v0 values]; [rewrite hist_empty in E; discriminate|]. remember (v0 :: values) as l eqn:El. assert (N : l <> []) by (rewrite El; discriminate). clear El.
  assert (N' : values' <> []) by (intros X; subst values'; apply Permutation_sym, Permutation_nil in P; destruct l; [contradiction|discriminate]).
  destruct (hist_spec l N) as (lp & hp & low & high & d1 & R & E1 & _ & _ & D1). destruct (hist_spec values' N') as (lp' & hp' & low' & high' & d2 & R' & E2 & _ & _ & D2). rewrite E1 in E. injection E as <- <- <-.
  destruct (range_unique l values' _ a b eq_refl Pa P lp hp low high lp' hp' low' high' R R') as [U1 U2].
  assert (IN : forall m, In m l -> In (a * m + b)%Q values') by (intros m I; apply (Permutation_in _ P); apply (in_map (fun x => (a * x + b)%Q)); exact I).
  assert (CM : forall f, count f values' = count (fun x => f (a * x + b)%Q) l).
  { intros f. rewrite <- (count_perm f _ _ P). clear. induction l as [|x l IH]; [reflexivity|]. cbn [map]. rewrite !count_cons, IH. reflexivity. }
  assert (EQ : forall p q, (p = true <-> q = true) -> p = q) by (intros [|] [|] H; try reflexivity; [symmetry; apply H; reflexivity|apply H; reflexivity]).
  assert (F1 : below low' values' = below low l) by (unfold below; rewrite CM; apply count_ext; intros x I; apply EQ; rewrite !qltb_iff; symmetry; apply U1; [exact I|apply IN; exact I]).
  assert (F2 : above high' values' = above high l) by (unfold above; rewrite CM; apply count_ext; intros x I; apply EQ; rewrite !qltb_iff; symmetry; apply U2; [exact I|apply IN; exact I]).
  assert (Len : length values' = length l) by (rewrite <- (Permutation_length P), map_length; reflexivity).
  exists d2. rewrite F1, F2 in *. split; [exact E2|]. destruct D1 as (X1 & X2 & X3), D2 as (Y1 & Y2 & Y3). rewrite Len in Y3. rewrite X1, X2, X3, Y1, Y2, Y3. auto.
Qed.
(** outliers are outside of what is drawn, if there are two bars *)
Lemma edge_le : forall r j k, (fst r < snd r)%Q -> j <= k -> (edge r j <= edge r k)%Q.
Proof. intros r j k L H. induction H as [|k H IH]; [apply Qle_refl|]. pose proof (edge_mono r k L) as M. replace (k + 1) with (S k) in M by lia. lra. Qed.
Lemma bar_in : forall l r k n, bar l r k = S n -> exists x, In x l /\ (edge r k <= x)%Q /\ ((x < edge r (k + 1))%Q \/ k = 9).
Proof.
  intros l r k n E. unfold bar in E. destruct (filter _ l) as [|x f] eqn:F; [discriminate|]. assert (I : In x (x :: f)) by (left; reflexivity). rewrite <- F in I. apply filter_In in I. destruct I as [I H].
  apply andb_prop in H. destruct H as [H1 H2]. exists x. split; [exact I|]. split; [apply qleb_iff; exact H1|]. destruct (Nat.eqb_spec k 9) as [->|]; [right; reflexivity|left; apply qltb_iff; exact H2].
Qed.
Theorem hist_outside : forall values d nl nh j k x y, robust_hist values = Ok (d, (nl, nh)) -> j < k -> nth_error (d_bars d) j = Some (S x) -> nth_error (d_bars d) k = Some (S y) ->
  nl = below (fst (d_range d)) values /\ nh = above (snd (d_range d)) values.
Proof.
  intros values d nl nh j k x y E L J K. destruct values as [|v0 values]; [rewrite hist_empty in E; discriminate|]. remember (v0 :: values) as l eqn:El. assert (N : l <> []) by (rewrite El; discriminate). clear El.
  destruct (hist_spec l N) as (lp & hp & low & high & d' & R & E' & B & Rg & _). rewrite E' in E. injection E as <- <- <-. rewrite Rg. rewrite B in J, K.
  set (inl := filter (fun x => Qle_bool low x && Qle_bool x high) l) in *. destruct (hist_range_ok inl) as (H1 & H2 & H3).
  assert (BK : forall k n, nth_error (bars inl) k = Some n -> k < 10 /\ bar inl (hist_range inl) k = n).
  { intros k0 n X. assert (L0 : k0 < 10) by (assert (k0 < length (bars inl)) by (apply nth_error_Some; rewrite X; discriminate); unfold bars in H; rewrite map_length, seq_length in H; exact H).
    split; [exact L0|]. unfold bars in X. assert (Y : nth_error (seq 0 10) k0 = Some k0) by (clear X; do 10 (destruct k0 as [|k0]; [reflexivity|]); lia).
    rewrite (map_nth_error _ _ _ Y) in X. injection X as X. exact X. }
  apply BK in J, K. destruct J as [J0 J], K as [K0 K]. apply bar_in in J, K. destruct J as (u & Iu & U1 & U2), K as (w & Iw & W1 & W2).
  assert (D : ~ (u == w)%Q). { pose proof (edge_le (hist_range inl) (j + 1) k H1 ltac:(lia)). destruct U2 as [U2|U2]; [lra|lia]. }
  destruct H3 as [F1 F2]; [exists u, w; auto|]. unfold inl in F1, F2. apply filter_In in F1, F2. destruct F1 as [_ F1], F2 as [_ F2]. fold inl in F1, F2. apply andb_prop in F1, F2. destruct F1 as [F1 _], F2 as [_ F2]. apply qleb_iff in F1, F2.
  assert (IN : forall x, In x l -> (low <= x)%Q -> (x <= high)%Q -> In x inl) by (intros z I Z1 Z2; apply filter_In; split; [exact I|]; apply qleb_iff in Z1, Z2; rewrite Z1, Z2; reflexivity).
  pose proof (r_low _ _ _ _ _ R). pose proof (r_high _ _ _ _ _ R). pose proof (r_le _ _ _ _ _ R).
  split; unfold below, above; apply Nat.le_antisymm; apply count_mono; intros z I; rewrite !qltb_iff; intros Hz; try lra.
  - destruct (Qlt_le_dec z low) as [C|C]; [exact C|exfalso]. assert (I' : In z inl) by (apply IN; [exact I|exact C|lra]). apply H2 in I'. lra.
  - destruct (Qlt_le_dec high z) as [C|C]; [exact C|exfalso]. assert (I' : In z inl) by (apply IN; [exact I|lra|exact C]). apply H2 in I'. lra.
Qed.

(** ** Durations *)
Definition smaller (u : unit_of_time) : list unit_of_time := match u with Microsecond => [] | Millisecond => [Microsecond] | Second => [Microsecond; Millisecond] | Hour => [Microsecond; Millisecond; Second]
  | Day => [Microsecond; Millisecond; Second; Hour] | Year => [Microsecond; Millisecond; Second; Hour; Day] end.
Theorem duration_ok : forall q9 seconds q, q9 (map Qabs seconds) = Ok q -> exists shown u, duration_to_numeric q9 seconds = Ok (shown, u) /\
  Forall2 (fun s x => x * seconds_in u == s)%Q seconds shown /\ ((u = Microsecond /\ q < seconds_in Millisecond)%Q \/ (seconds_in u <= q)%Q) /\ (forall w, In u (smaller w) -> (q < seconds_in w)%Q).
Proof.
  intros q9 seconds q E. unfold duration_to_numeric. rewrite E. cbn [bind]. cbv zeta.
  assert (M : forall f c, (forall x, (f x * c == x)%Q) -> Forall2 (fun s x => x * c == s)%Q seconds (map f seconds)) by (clear E; intros f c H; induction seconds as [|x l IH]; [constructor|constructor; [apply H|exact IH]]).
  assert (M1 : Forall2 (fun s x => x * 1 == s)%Q seconds seconds) by (clear; induction seconds as [|x l IH]; [constructor|constructor; [ring|exact IH]]).
  destruct (qltb q (1 # 1000)) eqn:Q1; [apply qltb_iff in Q1|apply qltb_false in Q1; destruct (qltb q 1) eqn:Q2; [apply qltb_iff in Q2|apply qltb_false in Q2; destruct (qltb q 3600) eqn:Q3; [apply qltb_iff in Q3|apply qltb_false in Q3;
    destruct (qltb q (3600 * 24)) eqn:Q4; [apply qltb_iff in Q4|apply qltb_false in Q4; destruct (qltb q (3600 * 24 * (3652425 # 10000))) eqn:Q5; [apply qltb_iff in Q5|apply qltb_false in Q5]]]]];
  eexists _, _; (split; [reflexivity|]); (split; [first [exact M1|apply M; intros x; cbn [seconds_in]; field]|]); cbn [seconds_in]; (split; [lra || (left; split; [reflexivity|lra]) || (right; lra)|]);
  intros w I; destruct w; cbn [smaller In] in I; repeat (destruct I as [I|I]; [try discriminate|]); try destruct I; cbn [seconds_in]; lra.
Qed.
(** [q] is the 90% quantile, with the nearest position: one of the values, and at most a tenth (and a half value) of the values are larger *)
Definition Nearest9 (q : Q) (l : list Q) : Prop := In q l /\ 10 * above q l <= length l + 4.
Theorem duration_readable : forall q9 seconds q shown u, q9 (map Qabs seconds) = Ok q -> Nearest9 q (map Qabs seconds) -> duration_to_numeric q9 seconds = Ok (shown, u) ->
  (u = Microsecond \/ exists x, In x shown /\ (1 <= Qabs x)%Q) /\
  (forall w, In u (smaller w) -> 10 * length (filter (fun x => Qle_bool (seconds_in w) (Qabs x * seconds_in u)) shown) <= length seconds + 4).
Proof.
  intros q9 seconds q shown u E [I C] D. destruct (duration_ok q9 seconds q E) as (shown' & u' & D' & F & U & W). rewrite D' in D. injection D as -> ->.
  assert (Pu : (0 < seconds_in u)%Q) by (destruct u; reflexivity).
  assert (AB : forall s x, (x * seconds_in u == s)%Q -> (Qabs x * seconds_in u == Qabs s)%Q) by (intros s x H; rewrite <- H, Qabs_Qmult, (Qabs_pos (seconds_in u)) by lra; reflexivity).
  split.
  - destruct U as [[-> _]|U]; [left; reflexivity|right]. apply in_map_iff in I. destruct I as (s & Es & Is). clear -F U Pu AB Es Is. induction F as [|s' x l l' H F IH]; [destruct Is|].
    destruct Is as [->|Is]; [|destruct (IH Is) as (y & Iy & Hy); exists y; split; [right; exact Iy|exact Hy]]. exists x. split; [left; reflexivity|]. pose proof (AB s x H) as X.
    destruct (Qlt_le_dec (Qabs x) 1) as [L|L]; [exfalso|exact L]. assert (0 < (1 - Qabs x) * seconds_in u)%Q by (apply Qmult_lt_0_compat; lra). rewrite <- Es in U. lra.
  - intros w Iw. pose proof (W w Iw) as L. rewrite map_length in C. enough (T : length (filter (fun x => Qle_bool (seconds_in w) (Qabs x * seconds_in u)) shown) <= above q (map Qabs seconds)) by lia.
    clear -F L AB. unfold above, count. induction F as [|s x l l' H F IH]; [cbn; lia|]. cbn [filter map]. pose proof (AB s x H) as X.
    destruct (Qle_bool (seconds_in w) (Qabs x * seconds_in u)) eqn:Q1; [apply qleb_iff in Q1|]; destruct (qltb q (Qabs s)) eqn:Q2; cbn [length]; try lia. apply qltb_false in Q2. exfalso. lra.
Qed.
