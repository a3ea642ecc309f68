(** Settings and histograms: independent specification and lemmas. *)
From Verif Require Import Base M_plotting L_dict L_matching.
From Coq Require Import QArith Qround Lqa Permutation Sorted.
Open Scope string_scope.
Open Scope list_scope.
Open Scope nat_scope.

(** ** Settings *)
Section Settings.
  Context {val A : Type}.
  Variable validate : string -> val -> res val.
  Notation rcp := (rc_params val).

  Lemma set_params_other : forall kvs (rc rc' : rcp) o k, set_params validate rc kvs = (rc', o) ->
    ~ In k (map fst kvs) -> dget k rc' = dget k rc.
  Proof.
    induction kvs as [|[k0 v0] kvs IH]; simpl; intros rc rc' o k E N; [injection E as <- <-; reflexivity|].
    unfold set_param in E. destruct (validate k0 v0) as [v'|e]; cbn [bind] in E; [|injection E as <- <-; reflexivity].
    rewrite (IH _ _ _ k E) by tauto. apply dget_dset_neq. intro X. apply N. left. symmetry. exact X.
  Qed.

  (** Setting valid values succeeds. *)
  Lemma set_params_valid : forall kvs (rc : rcp) f, (forall k v, In (k, v) kvs -> validate k v = Ok v /\ f k = Some v) ->
    exists rc', set_params validate rc kvs = (rc', None) /\
      (forall k, In k (map fst kvs) -> dget k rc' = f k) /\ (forall k, ~ In k (map fst kvs) -> dget k rc' = dget k rc).
  Proof.
    induction kvs as [|[k0 v0] kvs IH]; intros rc f H; simpl.
    - exists rc. split; [reflexivity|]. split; [intros k []|reflexivity].
    - destruct (H k0 v0 (or_introl eq_refl)) as [V F]. unfold set_param. rewrite V. cbn [bind].
      destruct (IH (dset k0 v0 rc) f (fun k v I => H k v (or_intror I))) as (rc' & E & H1 & H2).
      exists rc'. split; [exact E|].
      assert (D : forall k, {In k (map fst kvs)} + {~ In k (map fst kvs)}) by (intro k; apply in_dec, string_dec).
      split.
      + intros k [<-|I]; [|apply H1; exact I]. destruct (D k0) as [I|I]; [apply H1; exact I|].
        rewrite (H2 k0 I), dget_dset_eq. symmetry. exact F.
      + intros k N. rewrite H2 by tauto. apply dget_dset_neq. intro X. apply N. left. symmetry. exact X.
  Qed.

  Lemma set_params_set : forall kvs (rc rc' : rcp) k, set_params validate rc kvs = (rc', None) -> NoDup (map fst kvs) ->
    forall v, In (k, v) kvs -> exists v', validate k v = Ok v' /\ dget k rc' = Some v'.
  Proof.
    induction kvs as [|[k0 v0] kvs IH]; simpl; intros rc rc' k E N v I; [destruct I|].
    unfold set_param in E. destruct (validate k0 v0) as [v'|e] eqn:V; cbn [bind] in E; [|discriminate]. inversion_clear N.
    destruct I as [I|I].
    - injection I as <- <-. exists v'. split; [exact V|]. rewrite (set_params_other _ _ _ _ _ E H). apply dget_dset_eq.
    - eapply IH; eassumption.
  Qed.

  (** The stored value of a setting can be stored again. *)
  Definition Stored (rc : rcp) : Prop := forall k v, dget k rc = Some v -> validate k v = Ok v.

  Theorem plot_restores : forall (params rc rc' : rcp) (plotting_fun : rcp -> rcp * res A) r,
    NoDup (dkeys params) -> Stored rc -> plot validate params plotting_fun rc = (rc', r) ->
    (forall k, In k (dkeys params) -> dget k rc' = dget k rc) /\
    ((exists e, r = Err e /\ forall k, dget k rc' = dget k rc) \/
     (exists rc1 rc2, plotting_fun rc1 = (rc2, r) /\
        (forall k v, In (k, v) params -> exists v', validate k v = Ok v' /\ dget k rc1 = Some v') /\
        forall k, ~ In k (dkeys params) -> dget k rc1 = dget k rc /\ dget k rc' = dget k rc2)).
  Proof.
    intros params rc rc' fn r N V E. unfold plot in E.
    destruct (mapM _ (dkeys params)) as [originals|e] eqn:Em.
    2:{ injection E as <- <-. split; [reflexivity|]. left. exists e. split; reflexivity. }
    apply mapM_Forall2 in Em.
    assert (K : map fst originals = dkeys params).
    { clear E N. induction Em as [|k o ks os H F IH]; [reflexivity|]. simpl. destruct (dget k rc); [|discriminate]. injection H as <-.
      simpl. f_equal. apply IH. }
    assert (O : forall k v, In (k, v) originals -> validate k v = Ok v /\ dget k rc = Some v).
    { intros k v I. clear E K N. induction Em as [|k' o ks os H F IH]; [destruct I|]. destruct I as [->|I]; [|apply IH; exact I].
      destruct (dget k' rc) as [v'|] eqn:G; [|discriminate]. injection H as -> ->. split; [apply V; exact G|exact G]. }
    destruct (set_params validate rc params) as [rc1 failure] eqn:E1.
    set (run := match failure with Some e => (rc1, Err e) | None => fn rc1 end) in E.
    destruct run as [rc2 r2] eqn:E2. unfold run in E2. clear run.
    destruct (set_params_valid originals rc2 (fun k => dget k rc) O) as (rc3 & E3 & H1 & H2).
    rewrite E3 in E. rewrite K in H1, H2. injection E as <- <-.
    split; [exact H1|]. destruct failure as [e|].
    - injection E2 as <- <-. left. exists e. split; [reflexivity|]. intro k.
      destruct (in_dec string_dec k (dkeys params)) as [I|I]; [apply H1; exact I|]. rewrite (H2 k I).
      apply (set_params_other _ _ _ _ k E1). exact I.
    - right. exists rc1, rc2. split; [exact E2|]. split; [intros k v; eapply set_params_set; eassumption|]. intros k I.
      split; [apply (set_params_other _ _ _ _ k E1); exact I|]. apply H2. exact I.
  Qed.
End Settings.

(** ** Histograms *)
(** The values of a column without the nulls, all finite. *)
Inductive FiniteValues : list (option fl) -> list Q -> Prop :=
| fv_nil : FiniteValues [] []
| fv_null : forall c col qs, c = None \/ c = Some NaN -> FiniteValues col qs -> FiniteValues (c :: col) qs
| fv_value : forall q col qs, FiniteValues col qs -> FiniteValues (Some (Fl q) :: col) (q :: qs).
(** The number of values that satisfy a property. *)
Inductive Count (P : Q -> Prop) : list Q -> nat -> Prop :=
| count_nil : Count P [] 0
| count_yes : forall q qs n, P q -> Count P qs n -> Count P (q :: qs) (S n)
| count_no : forall q qs n, ~ P q -> Count P qs n -> Count P (q :: qs) n.

Lemma fle_Fl : forall a b, fle (Fl a) (Fl b) = true <-> (a <= b)%Q.
Proof. intros. simpl. apply Qle_bool_iff. Qed.
Lemma flt_Fl : forall a b, flt (Fl a) (Fl b) = true <-> (a < b)%Q.
Proof.
  intros. unfold flt. simpl. rewrite andb_true_iff, negb_true_iff. rewrite Qle_bool_iff. split.
  - intros [H1 H2]. apply Qnot_le_lt. intro H. apply Qle_bool_iff in H. congruence.
  - intro H. split; [apply Qlt_le_weak; exact H|]. apply not_true_iff_false. intro X. apply Qle_bool_iff in X. lra.
Qed.
Lemma feq_Fl : forall a b, feq (Fl a) (Fl b) = true <-> (a == b)%Q.
Proof. intros. unfold feq. rewrite andb_true_iff, !fle_Fl. split; [intros [H1 H2]; apply Qle_antisym; assumption|]. intro H. split; lra. Qed.

Lemma finsert_Fl : forall q l, finsert (Fl q) (map Fl l) = map Fl (M_matching.insert q l).
Proof. induction l as [|y l IH]; simpl; [reflexivity|]. destruct (Qle_bool q y); [reflexivity|]. simpl. f_equal. exact IH. Qed.
Lemma fsort_Fl : forall l, fsort (map Fl l) = map Fl (M_matching.qsort l).
Proof. induction l as [|q l IH]; simpl; [reflexivity|]. rewrite IH. apply finsert_Fl. Qed.
Lemma no_nan : forall l, existsb is_nan (map Fl l) = false.
Proof. induction l; simpl; auto. Qed.

Section Quantiles.
  Variable l : list Q.
  Hypothesis Hl : l <> [].
  Let s := M_matching.qsort l.
  Let m := length l - 1.
  (** [r] is at the position [q * (n - 1)] of the sorted values, interpolated. *)
  Definition Interpolated (q r : Q) : Prop :=
    exists i f, i <= m /\ (0 <= f < 1)%Q /\ (inject_Z (Z.of_nat i) + f == inject_Z (Z.of_nat m) * q)%Q /\
      (r == nth i s 0 + f * (nth (Nat.min (S i) m) s 0 - nth i s 0))%Q.

  Lemma length_s : length s = S m.
  Proof. unfold s, m. rewrite (Permutation_length (qsort_perm l)).
    assert (length l <> 0) by (intro X; apply length_zero_iff_nil in X; contradiction). lia. Qed.

  Lemma quantile_spec : forall q, (0 <= q <= 1)%Q -> exists r, quantile (map Fl l) q = Ok (Fl r) /\ Interpolated q r.
  Proof.
    intros q [Q0 Q1]. unfold quantile.
    destruct (map Fl l) as [|x0 l0] eqn:El; [apply map_eq_nil in El; contradiction|]. rewrite <- El. clear El x0 l0.
    rewrite no_nan, map_length, fsort_Fl. fold m. fold s. set (v := (inject_Z (Z.of_nat m) * q)%Q).
    assert (V0 : (0 <= v)%Q).
    { unfold v. apply Qmult_le_0_compat; [|exact Q0]. change 0%Q with (inject_Z 0). rewrite <- Zle_Qle. lia. }
    assert (V1 : (v <= inject_Z (Z.of_nat m))%Q).
    { unfold v. rewrite <- (Qmult_1_r (inject_Z (Z.of_nat m))) at 2. rewrite Qmult_comm, (Qmult_comm _ 1).
      apply Qmult_le_compat_r; [exact Q1|]. change 0%Q with (inject_Z 0). rewrite <- Zle_Qle. lia. }
    pose proof (Qfloor_le v) as F1. pose proof (Qlt_floor v) as F2.
    assert (Fl0 : (0 <= Qfloor v)%Z). { change 0%Z with (Qfloor 0). apply Qfloor_resp_le. exact V0. }
    assert (Fl1 : (Qfloor v <= Z.of_nat m)%Z). { rewrite <- (Qfloor_Z (Z.of_nat m)). apply Qfloor_resp_le. exact V1. }
    set (i := Z.to_nat (Qfloor v)). assert (Ei : Z.of_nat i = Qfloor v) by (unfold i; apply Z2Nat.id; exact Fl0).
    assert (Li : i <= m) by lia. pose proof length_s as Ls.
    assert (Nth : forall j, j <= m -> nth j (map Fl s) NaN = Fl (nth j s 0%Q)).
    { intros j Lj. rewrite <- (map_nth Fl s 0%Q j). apply nth_indep. rewrite map_length. lia. }
    rewrite (Nth i Li), (Nth (Nat.min (S i) m)) by lia.
    assert (B : (0 <= v - inject_Z (Qfloor v) < 1)%Q). { rewrite inject_Z_plus in F2. change (inject_Z 1) with 1%Q in F2. lra. }
    assert (P : (inject_Z (Z.of_nat i) + (v - inject_Z (Qfloor v)) == inject_Z (Z.of_nat m) * q)%Q). { rewrite Ei. fold v. ring. }
    set (f := (v - inject_Z (Qfloor v))%Q) in *. unfold lerp. set (a := nth i s 0%Q) in *. set (b := nth (Nat.min (S i) m) s 0%Q) in *.
    destruct (Qle_bool (1 # 2) f); simpl; eexists; (split; [reflexivity|]); exists i, f; (split; [exact Li|]); (split; [exact B|]); (split; [exact P|]).
    all: fold a; fold b; ring.
  Qed.

  Lemma s_mono : forall i j, i <= j -> j <= m -> (nth i s 0 <= nth j s 0)%Q.
  Proof. intros i j H1 H2. apply sorted_nth; [apply qsort_sorted|exact H1|]. fold s. rewrite length_s. lia. Qed.

  Lemma interp_bounds : forall q r, Interpolated q r -> exists i, i <= m /\
    (inject_Z (Z.of_nat i) <= inject_Z (Z.of_nat m) * q)%Q /\ (inject_Z (Z.of_nat m) * q < inject_Z (Z.of_nat (S i)))%Q /\
    (nth i s 0 <= r)%Q /\ (r <= nth (Nat.min (S i) m) s 0)%Q.
  Proof.
    intros q r (i & f & Li & [F0 F1] & P & R). exists i. split; [exact Li|].
    pose proof (s_mono i (Nat.min (S i) m) ltac:(lia) ltac:(lia)) as M.
    rewrite Nat2Z.inj_succ, <- Z.add_1_r, inject_Z_plus. change (inject_Z 1) with 1%Q.
    split; [lra|]. split; [lra|]. set (a := nth i s 0%Q) in *. set (b := nth (Nat.min (S i) m) s 0%Q) in *.
    rewrite R. split; nra.
  Qed.

  Lemma interp_mono : forall q q' r r', (q <= q')%Q -> Interpolated q r -> Interpolated q' r' -> (r <= r')%Q.
  Proof.
    intros q q' r r' Q0 I I'.
    assert (V : (inject_Z (Z.of_nat m) * q <= inject_Z (Z.of_nat m) * q')%Q).
    { rewrite (Qmult_comm _ q), (Qmult_comm _ q'). apply Qmult_le_compat_r; [exact Q0|]. change 0%Q with (inject_Z 0). rewrite <- Zle_Qle. lia. }
    destruct I as (i & f & Li & [F0 F1] & P & R). destruct I' as (i' & f' & Li' & [F0' F1'] & P' & R').
    assert (C : i <= i').
    { destruct (Nat.le_gt_cases i i') as [H|H]; [exact H|]. exfalso.
      assert (X : (inject_Z (Z.of_nat i') + 1 <= inject_Z (Z.of_nat i))%Q).
      { change 1%Q with (inject_Z 1). rewrite <- inject_Z_plus, <- Zle_Qle. lia. }
      lra. }
    pose proof (s_mono i (Nat.min (S i) m) ltac:(lia) ltac:(lia)) as M.
    pose proof (s_mono i' (Nat.min (S i') m) ltac:(lia) ltac:(lia)) as M'.
    destruct (Nat.eq_dec i i') as [->|Ne].
    - assert (f <= f')%Q by lra. set (a := nth i' s 0%Q) in *. set (b := nth (Nat.min (S i') m) s 0%Q) in *. rewrite R, R'.
      apply Qplus_le_r. apply Qmult_le_compat_r; [assumption|lra].
    - pose proof (s_mono (Nat.min (S i) m) i' ltac:(lia) Li') as M2.
      set (a := nth i s 0%Q) in *. set (b := nth (Nat.min (S i) m) s 0%Q) in *.
      set (a' := nth i' s 0%Q) in *. set (b' := nth (Nat.min (S i') m) s 0%Q) in *. rewrite R, R'.
      apply (Qle_trans _ b); [nra|]. apply (Qle_trans _ a'); [exact M2|]. nra.
  Qed.

  Lemma in_s : forall x, In x l <-> In x s.
  Proof. intro x. split; apply Permutation_in; [apply Permutation_sym|]; apply qsort_perm. Qed.
  Lemma s_bounds : forall x, In x l -> (nth 0 s 0 <= x)%Q /\ (x <= nth m s 0)%Q.
  Proof.
    intros x I. apply in_s in I. destruct (In_nth _ _ 0%Q I) as (j & Lj & <-). pose proof length_s as Ls.
    split; apply s_mono; lia.
  Qed.
  Lemma interp_min : forall r, Interpolated 0 r -> (r == nth 0 s 0)%Q.
  Proof.
    intros r (i & f & Li & [F0 F1] & P & R). rewrite Qmult_0_r in P.
    assert (X : (inject_Z 0 <= inject_Z (Z.of_nat i))%Q) by (rewrite <- Zle_Qle; lia). change (inject_Z 0) with 0%Q in X.
    assert (f == 0)%Q by lra. assert (Z0 : (inject_Z (Z.of_nat i) == inject_Z 0)%Q) by (change (inject_Z 0) with 0%Q; lra).
    assert (Z.of_nat i = 0%Z) by (apply inject_Z_injective; exact Z0). assert (i = 0) by lia. subst i. rewrite R, H. ring.
  Qed.
  Lemma interp_max : forall r, Interpolated 1 r -> (r == nth m s 0)%Q.
  Proof.
    intros r (i & f & Li & [F0 F1] & P & R). rewrite Qmult_1_r in P.
    assert (C : i = m).
    { destruct (Nat.eq_dec i m) as [H|H]; [exact H|]. exfalso.
      assert (X : (inject_Z (Z.of_nat i) + 1 <= inject_Z (Z.of_nat m))%Q).
      { change 1%Q with (inject_Z 1). rewrite <- inject_Z_plus, <- Zle_Qle. lia. } lra. }
    subst i. assert (f == 0)%Q by lra. rewrite R, H. ring.
  Qed.

  (** Few values are smaller than the one at a position of the sorted list. *)
  Lemma count_below : forall x k, (x <= nth k s 0)%Q -> k <= m ->
    length (filter (fun v => flt v (Fl x)) (map Fl l)) <= k.
  Proof.
    intros x k H Lk. pose proof length_s as Ls.
    assert (Pm : Permutation (filter (fun v => flt v (Fl x)) (map Fl s)) (filter (fun v => flt v (Fl x)) (map Fl l))).
    { assert (G : forall a b : list fl, Permutation a b -> Permutation (filter (fun v => flt v (Fl x)) a) (filter (fun v => flt v (Fl x)) b)).
      { intros a b HP. induction HP; simpl; [constructor| | |eapply Permutation_trans; eassumption].
        - destruct (flt x0 (Fl x)); [constructor|]; assumption.
        - destruct (flt y (Fl x)); destruct (flt x0 (Fl x)); try apply Permutation_refl. apply perm_swap. }
      apply G. apply Permutation_map. apply qsort_perm. }
    rewrite <- (Permutation_length Pm). rewrite <- (firstn_skipn k s), map_app, filter_app, app_length.
    assert (Z : filter (fun v => flt v (Fl x)) (map Fl (skipn k s)) = []).
    { assert (Al : forall y, In y (skipn k s) -> flt (Fl y) (Fl x) = false).
      { intros y I. apply not_true_iff_false. intro X. apply flt_Fl in X. destruct (In_nth _ _ 0%Q I) as (j & Lj & Ej).
        rewrite skipn_length in Lj.
        assert (E : nth j (skipn k s) 0%Q = nth (k + j) s 0%Q).
        { rewrite <- (firstn_skipn k s) at 2. rewrite app_nth2; rewrite firstn_length, Nat.min_l by lia; [f_equal; lia|lia]. }
        rewrite E in Ej. subst y. pose proof (s_mono k (k + j) ltac:(lia) ltac:(lia)). lra. }
      clear - Al. induction (skipn k s) as [|y t IH]; simpl; [reflexivity|]. rewrite (Al y (or_introl eq_refl)). apply IH.
      intros z I. apply Al. right. exact I. }
    rewrite Z. simpl. rewrite Nat.add_0_r.
    assert (Len : forall (f : fl -> bool) t, length (filter f t) <= length t). { intros f t. induction t as [|y t IH]; simpl; [lia|]. destruct (f y); simpl; lia. }
    eapply Nat.le_trans; [apply Len|]. rewrite map_length, firstn_length. lia.
  Qed.
  Lemma count_above : forall x k, (nth k s 0 <= x)%Q -> k <= m ->
    length (filter (fun v => flt (Fl x) v) (map Fl l)) <= m - k.
  Proof.
    intros x k H Lk. pose proof length_s as Ls.
    assert (Pm : Permutation (filter (fun v => flt (Fl x) v) (map Fl s)) (filter (fun v => flt (Fl x) v) (map Fl l))).
    { assert (G : forall a b : list fl, Permutation a b -> Permutation (filter (fun v => flt (Fl x) v) a) (filter (fun v => flt (Fl x) v) b)).
      { intros a b HP. induction HP; simpl; [constructor| | |eapply Permutation_trans; eassumption].
        - destruct (flt (Fl x) x0); [constructor|]; assumption.
        - destruct (flt (Fl x) y); destruct (flt (Fl x) x0); try apply Permutation_refl. apply perm_swap. }
      apply G. apply Permutation_map. apply qsort_perm. }
    rewrite <- (Permutation_length Pm). rewrite <- (firstn_skipn (S k) s), map_app, filter_app, app_length.
    assert (Z : filter (fun v => flt (Fl x) v) (map Fl (firstn (S k) s)) = []).
    { assert (Al : forall y, In y (firstn (S k) s) -> flt (Fl x) (Fl y) = false).
      { intros y I. apply not_true_iff_false. intro X. apply flt_Fl in X. destruct (In_nth _ _ 0%Q I) as (j & Lj & Ej).
        rewrite firstn_length in Lj.
        assert (E : nth j (firstn (S k) s) 0%Q = nth j s 0%Q).
        { rewrite <- (firstn_skipn (S k) s) at 2. rewrite app_nth1; [reflexivity|]. rewrite firstn_length. lia. }
        rewrite E in Ej. subst y. pose proof (s_mono j k ltac:(lia) ltac:(lia)). lra. }
      clear - Al. induction (firstn (S k) s) as [|y t IH]; simpl; [reflexivity|]. rewrite (Al y (or_introl eq_refl)). apply IH.
      intros z I. apply Al. right. exact I. }
    rewrite Z. change (length (@nil fl)) with 0. rewrite Nat.add_0_l.
    assert (Len : forall (f : fl -> bool) t, length (filter f t) <= length t). { intros f t. induction t as [|y t IH]; simpl; [lia|]. destruct (f y); simpl; lia. }
    eapply Nat.le_trans; [apply Len|]. rewrite map_length, skipn_length. lia.
  Qed.

  Lemma range_spec : exists low high low_p high_p, get_range (map Fl l) = Ok (Fl low, Fl high) /\
    Interpolated frac low_p /\ Interpolated (1 - frac) high_p /\
    ((nth 0 s 0 <= low)%Q /\ (low <= low_p)%Q /\ (low_p <= high_p)%Q /\ (high_p <= high)%Q /\ (high <= nth m s 0)%Q).
  Proof.
    destruct (quantile_spec 0) as (mn & E0 & I0); [split; discriminate|].
    destruct (quantile_spec frac) as (lp & E1 & I1); [split; discriminate|].
    destruct (quantile_spec (1 - frac)) as (hp & E2 & I2); [split; discriminate|].
    destruct (quantile_spec 1) as (mx & E3 & I3); [split; discriminate|].
    assert (M01 : (mn <= lp)%Q) by (eapply interp_mono; [|exact I0|exact I1]; discriminate).
    assert (M12 : (lp <= hp)%Q) by (eapply interp_mono; [|exact I1|exact I2]; discriminate).
    assert (M23 : (hp <= mx)%Q) by (eapply interp_mono; [|exact I2|exact I3]; discriminate).
    pose proof (interp_min _ I0) as Mn. pose proof (interp_max _ I3) as Mx.
    unfold get_range. rewrite E0, E1, E2, E3. cbn [bind].
    change (fsub (Fl hp) (Fl lp)) with (Fl (hp + - lp)). destruct (feq (Fl (hp + - lp)) (Fl 0)) eqn:Ed.
    - exists mn, mx, lp, hp. split; [reflexivity|]. split; [exact I1|]. split; [exact I2|]. repeat split; lra.
    - set (mg := (factor * (hp + - lp))%Q).
      assert (Mg : (0 <= mg)%Q). { unfold mg, factor. lra. }
      change (fscale factor (Fl (hp + - lp))) with (Fl mg).
      change (fsub (fsub (Fl lp) (Fl mg)) (fscale (3 # 20) (Fl mg))) with (Fl (lp + - mg + - ((3 # 20) * mg))).
      change (fadd (fadd (Fl hp) (Fl mg)) (fscale (3 # 20) (Fl mg))) with (Fl (hp + mg + (3 # 20) * mg)).
      change (fsub (Fl lp) (Fl mg)) with (Fl (lp + - mg)). change (fadd (Fl hp) (Fl mg)) with (Fl (hp + mg)).
      destruct (flt (Fl (lp + - mg + - ((3 # 20) * mg))) (Fl mn)) eqn:C1; destruct (flt (Fl mx) (Fl (hp + mg + (3 # 20) * mg))) eqn:C2;
        (eexists _, _, lp, hp; split; [reflexivity|]; split; [exact I1|]; split; [exact I2|]).
      all: assert (D1 : flt (Fl (lp + - mg + - ((3 # 20) * mg))) (Fl mn) = false -> (mn <= lp + - mg + - ((3 # 20) * mg))%Q)
             by (intro X; apply Qnot_lt_le; intro Y; apply flt_Fl in Y; congruence).
      all: assert (D2 : flt (Fl mx) (Fl (hp + mg + (3 # 20) * mg)) = false -> (hp + mg + (3 # 20) * mg <= mx)%Q)
             by (intro X; apply Qnot_lt_le; intro Y; apply flt_Fl in Y; congruence).
      all: try (specialize (D1 C1)); try (specialize (D2 C2)).
      all: repeat split; lra.
  Qed.
End Quantiles.

Lemma partition3 : forall low high (l : list Q), (low <= high)%Q ->
  count (fun v => flt v (Fl low)) (map Fl l) + length (filter (fun v => fle (Fl low) v && fle v (Fl high)) (map Fl l)) +
    count (fun v => flt (Fl high) v) (map Fl l) = length l.
Proof.
  intros low high l H. unfold count. induction l as [|x l IH]; [reflexivity|]. cbn [map filter length].
  destruct (flt (Fl x) (Fl low)) eqn:A; destruct (fle (Fl low) (Fl x)) eqn:B; destruct (fle (Fl x) (Fl high)) eqn:C;
    destruct (flt (Fl high) (Fl x)) eqn:D; cbn [andb length]; try lia.
  all: exfalso.
  all: try (apply flt_Fl in A); try (apply fle_Fl in B); try (apply fle_Fl in C); try (apply flt_Fl in D); try lra.
  all: try (assert (A' : ~ (x < low)%Q) by (intro X; apply flt_Fl in X; congruence)).
  all: try (assert (B' : ~ (low <= x)%Q) by (intro X; apply fle_Fl in X; congruence)).
  all: try (assert (C' : ~ (x <= high)%Q) by (intro X; apply fle_Fl in X; congruence)).
  all: try (assert (D' : ~ (high < x)%Q) by (intro X; apply flt_Fl in X; congruence)).
  all: lra.
Qed.

Lemma histogram_values : forall col qs, FiniteValues col qs ->
  flat_map (fun c => match c with Some v => if is_nan v then [] else [v] | None => [] end) col = map Fl qs.
Proof. intros col qs H. induction H as [|c col qs [->| ->] H IH|]; simpl; [reflexivity|exact IH|exact IH|]. f_equal. assumption. Qed.

Lemma count_spec : forall (f : fl -> bool) P, (forall q, f (Fl q) = true <-> P q) -> forall l, Count P l (length (filter f (map Fl l))).
Proof.
  intros f P H. induction l as [|q l IH]; simpl; [constructor|]. destruct (f (Fl q)) eqn:E; simpl; constructor; try exact IH.
  - apply H. exact E.
  - intro X. apply H in X. congruence.
Qed.

Theorem histogram_spec : forall col qs, FiniteValues col qs -> qs <> [] ->
  exists low high shown n_low n_high,
    histogram col = Ok (map Fl shown, (n_low, n_high)) /\
    (exists mn mx, In mn qs /\ In mx qs /\ (mn <= low)%Q /\ (low <= high)%Q /\ (high <= mx)%Q) /\
    (forall q, In q shown <-> In q qs /\ (low <= q <= high)%Q) /\
    Count (fun q => (q < low)%Q) qs n_low /\ Count (fun q => (high < q)%Q) qs n_high /\
    n_low + length shown + n_high = length qs /\
    5 * n_low <= length qs + 4 /\ 5 * n_high <= length qs + 4.
Proof.
  intros col qs F N. unfold histogram. rewrite (histogram_values _ _ F). unfold robust_hist.
  destruct (range_spec qs N) as (low & high & lp & hp & -> & I1 & I2 & B1 & B2 & B3 & B4 & B5). cbn [bind].
  pose proof (length_s qs N) as Ls. set (m := length qs - 1) in *. set (s := M_matching.qsort qs) in *.
  set (keep := fun v => fle (Fl low) v && fle v (Fl high)).
  set (shown := filter (fun q => keep (Fl q)) qs).
  assert (Es : filter keep (map Fl qs) = map Fl shown).
  { unfold shown. clear. induction qs as [|q qs IH]; simpl; [reflexivity|]. destruct (keep (Fl q)); simpl; [f_equal|]; exact IH. }
  rewrite Es. assert (Fi : forallb is_finite (map Fl shown) = true) by (clear; induction shown; simpl; auto). rewrite Fi.
  cbn [negb]. pose proof (partition3 low high qs ltac:(lra)) as Part. fold keep in Part. rewrite Es, map_length in Part.
  set (nl := count (fun v => flt v (Fl low)) (map Fl qs)) in *. set (nh := count (fun v => flt (Fl high) v) (map Fl qs)) in *.
  exists low, high, shown, nl, nh. split.
  { destruct (Nat.eqb_spec (nl + nh) 0) as [Z|Z]; [|reflexivity]. replace nl with 0 by lia. replace nh with 0 by lia. reflexivity. }
  split.
  { exists (nth 0 s 0%Q), (nth m s 0%Q). split; [apply (in_s qs); apply nth_In; fold s; lia|].
    split; [apply (in_s qs); apply nth_In; fold s; lia|]. repeat split; lra. }
  split.
  { intro q. unfold shown. rewrite filter_In. unfold keep. rewrite andb_true_iff, !fle_Fl. tauto. }
  split; [apply count_spec; intro q; apply flt_Fl|]. split; [apply count_spec; intro q; apply flt_Fl|]. split; [exact Part|].
  assert (Ll : length qs = S m). { unfold m. destruct qs; [contradiction|]. simpl. lia. }
  destruct (interp_bounds qs N _ _ I1) as (i & Li & P1 & P2 & X1 & X2). destruct (interp_bounds qs N _ _ I2) as (j & Lj & P3 & P4 & X3 & X4).
  fold m in Li, Lj, P1, P2, P3, P4, X2, X4. fold s in X1, X2, X3, X4.
  assert (Bi : 5 * i <= m).
  { unfold frac in P1. assert (Y : (inject_Z (5 * Z.of_nat i) <= inject_Z (Z.of_nat m))%Q). { rewrite inject_Z_mult. change (inject_Z 5) with 5%Q. lra. }
    rewrite <- Zle_Qle in Y. lia. }
  assert (Bj : 4 * m < 5 * S j).
  { unfold frac in P4. assert (Y : (inject_Z (4 * Z.of_nat m) < inject_Z (5 * Z.of_nat (S j)))%Q).
    { rewrite !inject_Z_mult. change (inject_Z 5) with 5%Q. change (inject_Z 4) with 4%Q. lra. }
    rewrite <- Zlt_Qlt in Y. lia. }
  split.
  - assert (nl <= Nat.min (S i) m). { apply (count_below qs N); [fold s; lra|fold m; lia]. } lia.
  - assert (nh <= m - j). { apply (count_above qs N); [fold s; lra|fold m; lia]. } lia.
Qed.

Theorem histogram_refuted : exists col : list (option fl),
  (forall c, In c col -> exists v, c = Some v /\ is_nan v = false) /\ col <> [] /\
  ~ (exists shown n_low n_high, histogram col = Ok (shown, (n_low, n_high)) /\ n_low + length shown + n_high = length col).
Proof.
  exists [Some (Fl 1); Some PInf]. split; [intros c [<-|[<-|[]]]; eexists; split; reflexivity|]. split; [discriminate|].
  intros (shown & nl & nh & E & L). vm_compute in E. injection E as <- <- <-. discriminate.
Qed.
