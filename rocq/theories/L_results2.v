(** Lemmas on the plots of search results. *)
From Coq Require Import QArith Qabs Lqa Permutation Sorting.Sorted.
From Verif Require Import Base L_dict M_names L_names M_grid M_results L_results.
Open Scope string_scope.
Open Scope list_scope.
Open Scope nat_scope.

(** ** Minimum and maximum *)
Lemma qmin_or : forall a b, (qmin a b = a /\ a <= b \/ qmin a b = b /\ b <= a)%Q.
Proof. intros a b. unfold qmin. destruct (Qle_bool a b) eqn:E; [left; split; [reflexivity|apply Qle_bool_iff; exact E]|right; split; [reflexivity|apply Qlt_le_weak, Qle_bool_false; exact E]]. Qed.
Lemma qmax_or : forall a b, (qmax a b = a /\ b <= a \/ qmax a b = b /\ a <= b)%Q.
Proof. intros a b. unfold qmax. destruct (Qle_bool a b) eqn:E; [right; split; [reflexivity|apply Qle_bool_iff; exact E]|left; split; [reflexivity|apply Qlt_le_weak, Qle_bool_false; exact E]]. Qed.
Lemma fold_qmin : forall l a, In (fold_left qmin l a) (a :: l) /\ forall x, In x (a :: l) -> (fold_left qmin l a <= x)%Q.
Proof.
  induction l as [|b l IH]; intros a; cbn [fold_left].
  - split; [left; reflexivity|]. intros x [<-|[]]. apply Qle_refl.
  - destruct (IH (qmin a b)) as [I B]. pose proof (B (qmin a b) (or_introl eq_refl)) as B0. destruct (qmin_or a b) as [[E L]|[E L]]; rewrite E in *.
    + split; [destruct I as [I|I]; [left; exact I|right; right; exact I]|]. intros x [<-|[<-|J]]; [exact B0|eapply Qle_trans; [exact B0|exact L]|apply B; right; exact J].
    + split; [destruct I as [I|I]; [right; left; exact I|right; right; exact I]|]. intros x [<-|[<-|J]]; [eapply Qle_trans; [exact B0|exact L]|exact B0|apply B; right; exact J].
Qed.
Lemma fold_qmax : forall l a, In (fold_left qmax l a) (a :: l) /\ forall x, In x (a :: l) -> (x <= fold_left qmax l a)%Q.
Proof.
  induction l as [|b l IH]; intros a; cbn [fold_left].
  - split; [left; reflexivity|]. intros x [<-|[]]. apply Qle_refl.
  - destruct (IH (qmax a b)) as [I B]. pose proof (B (qmax a b) (or_introl eq_refl)) as B0. destruct (qmax_or a b) as [[E L]|[E L]]; rewrite E in *.
    + split; [destruct I as [I|I]; [left; exact I|right; right; exact I]|]. intros x [<-|[<-|J]]; [exact B0|eapply Qle_trans; [exact L|exact B0]|apply B; right; exact J].
    + split; [destruct I as [I|I]; [right; left; exact I|right; right; exact I]|]. intros x [<-|[<-|J]]; [eapply Qle_trans; [exact L|exact B0]|exact B0|apply B; right; exact J].
Qed.
Lemma min_max_ok : forall l a b, min_max l = Some (a, b) -> In a l /\ In b l /\ forall x, In x l -> (a <= x <= b)%Q.
Proof.
  intros [|x l] a b E; [discriminate|]. cbn [min_max] in E. assert (Ea : a = fold_left qmin l x) by congruence. assert (Eb : b = fold_left qmax l x) by congruence. rewrite Ea, Eb.
  destruct (fold_qmin l x) as [I B]. destruct (fold_qmax l x) as [I' B']. split; [exact I|]. split; [exact I'|]. intros y J. split; [exact (B y J)|exact (B' y J)].
Qed.
Lemma min_max_some : forall l x, In x l -> exists a b, min_max l = Some (a, b).
Proof. intros [|y l] x I; [destruct I|]. eexists. eexists. reflexivity. Qed.

Lemma some_in : forall (A : Type) (l : list (option A)) a, In a (some l) <-> In (Some a) l.
Proof.
  intros A l a. unfold some. rewrite in_flat_map. split.
  - intros ([x|] & I & J); [destruct J as [->|[]]; exact I|destruct J].
  - intros I. exists (Some a). split; [exact I|left; reflexivity].
Qed.

(** ** Jitter *)
Lemma jitter_nth : forall noise d i v a b, (forall w, In w (dim_values d) -> w <> None) -> min_max (some (dim_values d)) = Some (a, b) -> nth_error (dim_values d) i = Some (Some v) ->
  nth_error (dim_values (add_jitter noise d)) i = Some (Some (v + (b - a) / 200 * noise i)%Q).
Proof.
  intros noise d i v a b N M E. unfold add_jitter. cbn [dim_values]. assert (X : existsb (fun v => match v with None => true | Some _ => false end) (dim_values d) = false).
  { destruct (existsb _ _) eqn:X; [|reflexivity]. apply existsb_exists in X. destruct X as ([w|] & I & Y); [discriminate|]. exfalso. exact (N None I eq_refl). }
  rewrite X, M, nth_error_map. assert (L : i < length (dim_values d)) by (apply nth_error_Some; congruence).
  rewrite (combine_nth_error _ _ (seq 0 (length (dim_values d))) (dim_values d) i i (Some v)); [reflexivity| |exact E].
  rewrite (nth_error_nth' _ 0) by (rewrite seq_length; exact L). rewrite seq_nth by exact L. reflexivity.
Qed.

Section Plots.
  Context {O : Type}.
  Variable okind_of : O -> okind.
  Variable ostr : O -> string.
  Variable numstr : Q -> string.
  Variable ln : Q -> Q.
  Variable fmt : bool -> Q -> string.
  Variable categories : list string -> list string.
  Notation tcell := (tcell (O := O)).
  Notation text := (text okind_of ostr numstr).
  Notation is_null := (is_null okind_of).
  Notation number := (number okind_of).
  Notation prepare_obj := (prepare_obj okind_of ostr numstr categories).
  Notation prepare_num := (prepare_num okind_of ln fmt).
  Notation prepare_column := (prepare_column okind_of ostr numstr ln fmt categories).
  Notation plot_results := (plot_results okind_of ostr numstr ln fmt categories).
  Definition CategoriesOk : Prop := forall l, NoDup (categories l) /\ forall s, In s (categories l) <-> In s l.
  Hypothesis cats_ok : CategoriesOk.

  Lemma text_null : forall x, text x = None <-> is_null x = true.
  Proof. intros [[q|]|[[s|o|q]|]]; cbn; try (split; congruence). destruct (okind_of o); split; congruence. Qed.

  (** the label of the tick of a row *)
  Definition shown_text (x : tcell) : string := match text x with Some s => s | None => "Null" end.

  Lemma position_nth : forall l s i k, position s l i = Some k -> i <= k /\ nth_error l (k - i) = Some s.
  Proof.
    induction l as [|s' l IH]; intros s i k E; [discriminate|]. cbn in E. destruct (eqb_of s' s) eqn:B.
    - apply (proj1 (eqb_of_true _ _)) in B. subst s'. injection E as ->. rewrite Nat.sub_diag. split; [lia|reflexivity].
    - destruct (IH s (S i) k E) as [L N]. split; [lia|]. replace (k - i) with (S (k - S i)) by lia. exact N.
  Qed.
  Lemma position_in : forall l s i, In s l -> exists k, position s l i = Some k.
  Proof.
    induction l as [|s' l IH]; intros s i I; [destruct I|]. cbn. destruct (eqb_of s' s) eqn:B; [exists i; reflexivity|]. apply IH. destruct I as [->|I]; [|exact I]. rewrite eqb_of_refl in B. discriminate.
  Qed.

  (** positions of the categories: integers *)
  Lemma obj_shape : forall name (col : list tcell) d, prepare_obj name col = Ok d ->
    label d = name /\ length (dim_values d) = length col /\
    (forall i x, nth_error col i = Some x -> exists z : Z, nth_error (dim_values d) i = Some (Some (inject_Z z)) /\ In (Some (inject_Z z), shown_text x) (ticks d)) /\
    (forall p t, In (p, t) (ticks d) -> exists z : Z, p = Some (inject_Z z) /\ exists i, nth_error (dim_values d) i = Some (Some (inject_Z z))) /\
    (forall p t t', In (p, t) (ticks d) -> In (p, t') (ticks d) -> t = t') /\
    exists z : Z, forall z', (exists t, In (Some (inject_Z z'), t) (ticks d)) <-> (z <= z' < z + Z.of_nat (length (ticks d)))%Z.
  Proof using cats_ok.
    clear ln fmt. intros name col d E. unfold M_results.prepare_obj in E. set (texts := some (map text col)) in *. destruct (cats_ok texts) as [Nc Ic]. set (cats := categories texts) in *.
    set (val := fun x : tcell => match text x with None => Some (- (1))%Q | Some s => option_map qnat (position s cats 0) end) in *.
    set (tks := map (fun it => (Some (qnat (fst it)), snd it)) (combine (seq 0 (length cats)) cats)) in *.
    assert (Dd : d = {| label := name; dim_values := map val col; ticks := if existsb is_null col then (Some (- (1))%Q, "Null") :: tks else tks |}) by (destruct texts; [discriminate|congruence]).
    clear E. assert (Tk : forall p t, In (p, t) tks <-> exists k, nth_error cats k = Some t /\ p = Some (qnat k)).
    { intros p t. unfold tks. rewrite in_map_iff. split.
      - intros ((k & t') & E & I). cbn in E. injection E as <- <-. apply In_nth_error in I. destruct I as (j & I). exists k. split; [|reflexivity].
        assert (nth_error (seq 0 (length cats)) j = Some k /\ nth_error cats j = Some t') as [A B].
        { clear - I. revert I. generalize (seq 0 (length cats)). generalize cats. revert j. induction j as [|j IH]; intros [|y l'] [|x l] I; cbn in *; try discriminate; [injection I as -> ->; auto|exact (IH l' l I)]. }
        assert (j < length cats) by (apply nth_error_Some; congruence). rewrite (nth_error_nth' _ 0) in A by (rewrite seq_length; lia). rewrite seq_nth in A by lia. cbn in A. congruence.
      - intros (k & E & ->). exists (k, t). split; [reflexivity|]. assert (k < length cats) by (apply nth_error_Some; congruence). apply (nth_error_In _ k). apply combine_nth_error; [|exact E].
        rewrite (nth_error_nth' _ 0) by (rewrite seq_length; lia). rewrite seq_nth by lia. reflexivity. }
    assert (Lt : length tks = length cats) by (unfold tks; rewrite map_length, combine_length, seq_length; lia).
    assert (Tx : forall i x s, nth_error col i = Some x -> text x = Some s -> exists k, position s cats 0 = Some k /\ nth_error cats k = Some s).
    { intros i x s Ei Es. destruct (position_in cats s 0) as (k & Ek); [apply Ic; apply some_in; apply in_map_iff; exists x; split; [exact Es|exact (nth_error_In _ _ Ei)]|].
      exists k. split; [exact Ek|]. destruct (position_nth _ _ _ _ Ek) as [_ N]. rewrite Nat.sub_0_r in N. exact N. }
    assert (Nl : forall i x, nth_error col i = Some x -> text x = None -> existsb is_null col = true).
    { intros i x Ei Et. apply existsb_exists. exists x. split; [exact (nth_error_In _ _ Ei)|apply text_null; exact Et]. }
    rewrite Dd. cbn [label dim_values ticks]. split; [reflexivity|]. split; [apply map_length|]. split; [|split; [|split]].
    - intros i x Ei. rewrite nth_error_map, Ei. cbn [option_map]. unfold val, shown_text. destruct (text x) as [s|] eqn:Et.
      + destruct (Tx i x s Ei Et) as (k & Ek & Nk). rewrite Ek. cbn [option_map]. exists (Z.of_nat k). split; [reflexivity|]. assert (I : In (Some (inject_Z (Z.of_nat k)), s) tks) by (apply Tk; exists k; split; [exact Nk|reflexivity]).
        destruct (existsb is_null col); [right; exact I|exact I].
      + exists (-1)%Z. split; [reflexivity|]. rewrite (Nl i x Ei Et). left. reflexivity.
    - intros p t I. assert (Z : In (p, t) tks -> exists z : Z, p = Some (inject_Z z) /\ exists i, nth_error (map val col) i = Some (Some (inject_Z z))).
      { intros J. apply Tk in J. destruct J as (k & Nk & ->). exists (Z.of_nat k). split; [reflexivity|]. pose proof (nth_error_In _ _ Nk) as It. apply Ic in It. apply some_in in It. apply in_map_iff in It. destruct It as (x & Et & Ix).
        apply In_nth_error in Ix. destruct Ix as (i & Ei). exists i. rewrite nth_error_map, Ei. cbn [option_map]. unfold val. rewrite Et. destruct (Tx i x t Ei Et) as (k' & Ek' & Nk'). rewrite Ek'. cbn [option_map].
        replace k' with k; [reflexivity|]. apply (proj1 (NoDup_nth_error cats) Nc); [apply nth_error_Some; congruence|congruence]. }
      destruct (existsb is_null col) eqn:B; [|exact (Z I)]. destruct I as [I|I]; [|exact (Z I)]. injection I as <- <-. exists (-1)%Z. split; [reflexivity|].
      apply existsb_exists in B. destruct B as (x & Ix & Nx). apply In_nth_error in Ix. destruct Ix as (i & Ei). exists i. rewrite nth_error_map, Ei. cbn [option_map]. unfold val. apply text_null in Nx. rewrite Nx. reflexivity.
    - assert (NN : forall k, Some (qnat k) <> Some (- (1))%Q) by (intros k E; injection E as E; lia).
      assert (QI : forall k k', Some (qnat k) = Some (qnat k') -> k = k') by (intros k k' E; injection E as E; lia).
      intros p t t' I I'. assert (Z : In (p, t) tks -> In (p, t') tks -> t = t') by (intros J J'; apply Tk in J, J'; destruct J as (k & Nk & ->), J' as (k' & Nk' & Ek'); apply QI in Ek'; congruence).
      destruct (existsb is_null col); [|exact (Z I I')]. destruct I as [I|I], I' as [I'|I']; [congruence| | |exact (Z I I')].
      + injection I as <- <-. apply Tk in I'. destruct I' as (k & _ & E). symmetry in E. exfalso. exact (NN k E).
      + injection I' as <- <-. apply Tk in I. destruct I as (k & _ & E). symmetry in E. exfalso. exact (NN k E).
    - assert (Zs : forall z', (exists t, In (Some (inject_Z z'), t) tks) <-> (0 <= z' < Z.of_nat (length cats))%Z).
      { intros z'. split.
        - intros (t & I). apply Tk in I. destruct I as (k & Nk & Ek). injection Ek as ->. assert (k < length cats) by (apply nth_error_Some; congruence). lia.
        - intros B. destruct (nth_error cats (Z.to_nat z')) as [t|] eqn:E; [|apply nth_error_None in E; lia]. exists t. apply Tk. exists (Z.to_nat z'). split; [exact E|]. unfold qnat. rewrite Z2Nat.id by lia. reflexivity. }
      destruct (existsb is_null col).
      + exists (-1)%Z. intros z'. cbn [length]. rewrite Lt. split.
        * intros (t & [I|I]); [injection I as <- _; lia|]. assert (0 <= z' < Z.of_nat (length cats))%Z by (apply Zs; exists t; exact I). lia.
        * intros B. destruct (Z.eq_dec z' (-1)) as [->|D]; [exists "Null"; left; reflexivity|]. destruct (proj2 (Zs z')) as (t & I); [lia|]. exists t. right. exact I.
      + exists 0%Z. intros z'. rewrite Lt. rewrite Zs. lia.
  Qed.

  Lemma inject_lt : forall a b : Z, (inject_Z a - inject_Z b < 1)%Q -> (a - b < 1)%Z.
  Proof. intros a b. unfold Qlt, Qminus, Qplus, Qopp, inject_Z. cbn. lia. Qed.
  Definition Noise (noise : nat -> Q) : Prop := forall i, (-(1) <= noise i <= 1)%Q.

  (** the extreme values of a column of categories *)
  Lemma obj_range : forall name (col : list tcell) d, prepare_obj name col = Ok d -> exists z : Z, 0 < length (ticks d) /\
    min_max (some (dim_values d)) = Some (inject_Z z, inject_Z (z + Z.of_nat (length (ticks d)) - 1)) /\ (forall w, In w (dim_values d) -> w <> None) /\
    forall z', (exists t, In (Some (inject_Z z'), t) (ticks d)) <-> (z <= z' < z + Z.of_nat (length (ticks d)))%Z.
  Proof using cats_ok.
    clear ln fmt. intros name col d E. destruct (obj_shape name col d E) as (_ & Ll & V & T & _ & z & Rg).
    assert (exists x, In x col) as (x & Ix). { destruct col as [|x l]; [cbn in E; discriminate|exists x; left; reflexivity]. }
    apply In_nth_error in Ix. destruct Ix as (i & Ei). destruct (V i x Ei) as (z0 & E0 & I0). assert (B0 : (z <= z0 < z + Z.of_nat (length (ticks d)))%Z) by (apply Rg; eexists; exact I0).
    assert (Nn : forall w, In w (dim_values d) -> exists z', w = Some (inject_Z z') /\ (z <= z' < z + Z.of_nat (length (ticks d)))%Z).
    { intros w Iw. apply In_nth_error in Iw. destruct Iw as (j & Ej). assert (exists y, nth_error col j = Some y) as (y & Ey) by (destruct (nth_error col j) as [y|] eqn:Z; [exists y; reflexivity|apply nth_error_None in Z; assert (j < length (dim_values d)) by (apply nth_error_Some; congruence); lia]).
      destruct (V j y Ey) as (z' & Ez & Iz). exists z'. split; [congruence|]. apply Rg. eexists. exact Iz. }
    exists z. split; [lia|]. split; [|split; [|exact Rg]].
    - assert (Ms : In (inject_Z z0) (some (dim_values d))) by (apply some_in; exact (nth_error_In _ _ E0)). destruct (min_max_some _ _ Ms) as (a & b & Em). rewrite Em. destruct (min_max_ok _ _ _ Em) as (Ia & Ib & Bd).
      assert (A : forall z', (z <= z' < z + Z.of_nat (length (ticks d)))%Z -> In (inject_Z z') (some (dim_values d))).
      { intros z' B. apply Rg in B. destruct B as (t & It). destruct (T _ _ It) as (z2 & Ez & j & Ej). apply some_in. injection Ez as ->. exact (nth_error_In _ _ Ej). }
      apply some_in in Ia, Ib. destruct (Nn _ Ia) as (za & Ea & Ba). destruct (Nn _ Ib) as (zb & Eb & Bb). assert (a = inject_Z za) by congruence. assert (b = inject_Z zb) by congruence. subst a b.
      destruct (Bd _ (A z ltac:(lia))) as [L _]. destruct (Bd _ (A (z + Z.of_nat (length (ticks d)) - 1)%Z ltac:(lia))) as [_ L']. rewrite <- Zle_Qle in L, L'.
      f_equal. f_equal; f_equal; lia.
    - intros w Iw E'. destruct (Nn w Iw) as (z' & Ez & _). congruence.
  Qed.

  Lemma mult_bound : forall e x : Q, (0 <= e -> -(1) <= x <= 1 -> - e <= e * x <= e)%Q.
  Proof.
    intros e x P [A B]. split; nra.
  Qed.

  (** the nearest tick of a row is the tick of its value *)
  Lemma categories_readable : forall noise name (col : list tcell) d, Noise noise -> prepare_obj name col = Ok d -> length (ticks d) <= 100 ->
    forall i x, nth_error col i = Some x ->
      exists v, nth_error (dim_values (jittered noise d)) i = Some (Some v) /\
        (exists p, In (Some p, shown_text x) (ticks (jittered noise d)) /\ (Qabs (v - p) < 1 # 2)%Q) /\
        forall p t, In (Some p, t) (ticks (jittered noise d)) -> (Qabs (v - p) < 1 # 2)%Q -> t = shown_text x.
  Proof using cats_ok.
    clear ln fmt. intros noise name col d Ns E Lk i x Ei. destruct (obj_shape name col d E) as (_ & Ll & V & T & U & _). destruct (obj_range name col d E) as (z & Lp & Mm & Nn & _).
    destruct (V i x Ei) as (z0 & E0 & I0). assert (Tk : ticks (jittered noise d) = ticks d) by (unfold jittered; destruct (eqb_of _ _); reflexivity). rewrite Tk.
    assert (exists e, nth_error (dim_values (jittered noise d)) i = Some (Some (inject_Z z0 + e)%Q) /\ (- (99 # 200) <= e <= 99 # 200)%Q) as (e & Ev & Be).
    { unfold jittered. destruct (eqb_of (label d) "score").
      - exists 0%Q. split; [|split; discriminate]. rewrite E0. f_equal. f_equal. unfold Qplus, inject_Z. cbn. f_equal; lia.
      - exists ((inject_Z (z + Z.of_nat (length (ticks d)) - 1) - inject_Z z) / 200 * noise i)%Q. split; [apply jitter_nth; assumption|].
        assert (P : (0 <= (inject_Z (z + Z.of_nat (length (ticks d)) - 1) - inject_Z z) / 200 <= 99 # 200)%Q).
        { unfold Qle, Qdiv, Qminus, Qplus, Qopp, Qmult, Qinv, inject_Z. cbn [Qnum Qden]. split; lia. }
        destruct (mult_bound _ _ (proj1 P) (Ns i)) as [A B]. split; [eapply Qle_trans; [|exact A]; apply Qopp_le_compat; apply P|eapply Qle_trans; [exact B|apply P]]. }
    exists (inject_Z z0 + e)%Q. split; [exact Ev|]. split.
    - exists (inject_Z z0). split; [exact I0|]. apply Qabs_Qlt_condition. split; lra.
    - intros p t I B. destruct (T _ _ I) as (z1 & Ez & _). injection Ez as ->. apply Qabs_Qlt_condition in B. assert (z1 = z0). { assert (z1 - z0 < 1)%Z by (apply inject_lt; lra). assert (z0 - z1 < 1)%Z by (apply inject_lt; lra). lia. }
      subst z1. exact (U _ _ _ I I0).
  Qed.
  (** with many categories it may be another one *)
  Lemma categories_unreadable : forall name (col : list tcell) d, prepare_obj name col = Ok d -> name <> "score" -> 102 <= length (ticks d) ->
    exists noise, Noise noise /\ exists i x v p p' t, nth_error col i = Some x /\ nth_error (dim_values (jittered noise d)) i = Some (Some v) /\
      In (Some p, shown_text x) (ticks (jittered noise d)) /\ nth_error (dim_values d) i = Some (Some p) /\ (1 # 2 < Qabs (v - p))%Q /\ In (Some p', t) (ticks (jittered noise d)) /\ (Qabs (v - p') < 1 # 2)%Q /\ p <> p'.
  Proof using cats_ok.
    clear ln fmt. intros name col d E Ns Lk. destruct (obj_shape name col d E) as (El & Ll & V & T & U & _). destruct (obj_range name col d E) as (z & Lp & Mm & Nn & Rg).
    set (K := Z.of_nat (length (ticks d))) in *. assert (Hk : (102 <= K)%Z) by lia. exists (fun _ => 101 / inject_Z (K - 1))%Q.
    assert (Pk : (0 < inject_Z (K - 1))%Q) by (rewrite <- (Zlt_Qlt 0); lia).
    assert (Ek : ((inject_Z (z + K - 1) - inject_Z z) / 200 * (101 / inject_Z (K - 1)) == 101 # 200)%Q).
    { setoid_replace (inject_Z (z + K - 1) - inject_Z z)%Q with (inject_Z (K - 1)) by (unfold Qminus; rewrite <- inject_Z_opp, <- inject_Z_plus; f_equiv; lia). field. intros Z. rewrite Z in Pk. exact (Qlt_irrefl _ Pk). }
    split.
    - intros _. split; [eapply Qle_trans; [|apply Qlt_le_weak, Qlt_shift_div_l; [exact Pk|rewrite Qmult_0_l; reflexivity]]; discriminate|]. apply Qle_shift_div_r; [exact Pk|]. rewrite Qmult_1_l. change (101)%Q with (inject_Z 101). rewrite <- Zle_Qle. lia.
    - destruct (proj2 (Rg z)) as (t0 & It0); [lia|]. destruct (proj2 (Rg (z + 1)%Z)) as (t1 & It1); [lia|]. destruct (T _ _ It0) as (z' & Ez & i & Ei). injection Ez as <-.
      assert (exists x, nth_error col i = Some x) as (x & Ex) by (destruct (nth_error col i) as [x|] eqn:Z; [exists x; reflexivity|apply nth_error_None in Z; assert (i < length (dim_values d)) by (apply nth_error_Some; congruence); lia]).
      destruct (V i x Ex) as (z0 & E0 & I0). assert (z0 = z) by (rewrite Ei in E0; injection E0 as E0; lia). subst z0.
      assert (Ja : jittered (fun _ => 101 / inject_Z (K - 1))%Q d = add_jitter (fun _ => 101 / inject_Z (K - 1))%Q d).
      { unfold jittered. destruct (eqb_of (label d) "score") eqn:B; [|reflexivity]. apply (proj1 (eqb_of_true _ _)) in B. congruence. }
      rewrite Ja. exists i, x, (inject_Z z + (inject_Z (z + K - 1) - inject_Z z) / 200 * (101 / inject_Z (K - 1)))%Q, (inject_Z z), (inject_Z (z + 1)), t1.
      split; [exact Ex|]. split; [apply (jitter_nth _ d i (inject_Z z)); assumption|]. cbn [ticks add_jitter]. split; [exact I0|]. split; [exact Ei|]. split; [|split; [exact It1|split]].
      + setoid_rewrite Ek. rewrite Qabs_pos; lra.
      + setoid_rewrite Ek. rewrite inject_Z_plus. change (inject_Z 1) with 1%Q. apply Qabs_Qlt_condition. split; lra.
      + intros X. injection X as X. lia.
  Qed.

  (** ** Numbers *)
  (** the position of a number *)
  Definition coordinate (log : bool) (q : Q) : Q := if log then ln q else q.
  Lemma num_shape : forall name log (col : list tcell) a b, min_max (some (map (fun x => option_map (coordinate log) (number x)) col)) = Some (a, b) ->
    (forall x, In x col -> is_null x = true \/ exists q, number x = Some q) ->
    let d := prepare_num name log col in
    label d = name /\ forall i x, nth_error col i = Some x ->
      nth_error (dim_values d) i = Some (Some (match number x with Some q => coordinate log q | None => a - (b - a) / 10 end))%Q.
  Proof.
    intros name log col a b M W d. subst d. unfold M_results.prepare_num.
    replace (map (fun x => option_map (if log then ln else fun q => q) (number x)) col) with (map (fun x => option_map (coordinate log) (number x)) col) by (apply map_ext; intros x; destruct log, (number x); reflexivity).
    rewrite M. destruct (existsb _ col) eqn:B; cbn [label dim_values]; (split; [reflexivity|]); intros i x Ei.
    - rewrite nth_error_map, nth_error_map, Ei. cbn [option_map]. destruct (number x); reflexivity.
    - rewrite nth_error_map, Ei. cbn [option_map]. destruct (number x) as [q|] eqn:Nx; [reflexivity|]. exfalso. assert (existsb (fun x => match number x with None => true | Some _ => false end) col = true) by (apply existsb_exists; exists x; split; [exact (nth_error_In _ _ Ei)|rewrite Nx; reflexivity]). congruence.
  Qed.
  Lemma num_length : forall name log (col : list tcell), length (dim_values (prepare_num name log col)) = length col.
  Proof.
    intros name log col. unfold M_results.prepare_num. match goal with |- context [min_max ?l] => destruct (min_max l) as [[? ?]|] end; [match goal with |- context [existsb ?f ?l] => destruct (existsb f l) end|]; cbn [dim_values]; rewrite ?map_length; reflexivity.
  Qed.
  Lemma null_number : forall x, is_null x = true -> number x = None.
  Proof. intros [[q|]|[[s|o|q]|]]; cbn; try discriminate; try reflexivity. destruct (okind_of o); try discriminate; reflexivity. Qed.

  Definition NumColumn (col : list tcell) : Prop := forall x, In x col -> is_null x = true \/ exists q, number x = Some q.
  (** missing values are displayed apart from the numbers, below a threshold, if the numbers are not all equal *)
  Lemma nulls_readable : forall noise name log (col : list tcell), Noise noise -> NumColumn col ->
    (exists x y q q', In x col /\ In y col /\ number x = Some q /\ number y = Some q' /\ ~ (coordinate log q == coordinate log q')%Q) ->
    exists m, forall i x, nth_error col i = Some x -> exists v, nth_error (dim_values (jittered noise (prepare_num name log col))) i = Some (Some v) /\ (is_null x = true <-> (v < m)%Q).
  Proof using.
    clear cats_ok. intros noise name log col Ns W (x0 & y0 & q & q' & Ix & Iy & Eq & Eq' & D). set (vals := map (fun x => option_map (coordinate log) (number x)) col).
    assert (I1 : In (coordinate log q) (some vals)) by (apply some_in; apply in_map_iff; exists x0; split; [rewrite Eq; reflexivity|exact Ix]).
    assert (I2 : In (coordinate log q') (some vals)) by (apply some_in; apply in_map_iff; exists y0; split; [rewrite Eq'; reflexivity|exact Iy]).
    destruct (min_max_some _ _ I1) as (a & b & M). destruct (min_max_ok _ _ _ M) as (Ia & Ib & Bd).
    assert (Lt : (a < b)%Q). { destruct (Bd _ I1) as [A1 A2]. destruct (Bd _ I2) as [B1 B2]. destruct (Qlt_le_dec a b) as [L|L]; [exact L|]. exfalso. apply D. apply Qle_antisym; eapply Qle_trans; eauto; eapply Qle_trans; eauto. }
    assert (T10 : ((b - a) / 10 == (b - a) * (1 # 10))%Q) by field. assert (T20 : ((b - a) / 20 == (b - a) * (1 # 20))%Q) by field. assert (T100 : ((b - a) / 100 == (b - a) * (1 # 100))%Q) by field.
    destruct (num_shape name log col a b M W) as [El V]. set (d := prepare_num name log col) in *.
    assert (Vb : forall i x, nth_error col i = Some x -> exists v, nth_error (dim_values d) i = Some (Some v) /\ (is_null x = true -> v = a - (b - a) / 10)%Q /\ (is_null x = false -> (a <= v <= b)%Q)).
    { intros i x Ei. eexists. split; [exact (V i x Ei)|]. destruct (W x (nth_error_In _ _ Ei)) as [Nx|(p & Ep)].
      - rewrite (null_number x Nx). split; [reflexivity|]. congruence.
      - rewrite Ep. split; [intros Nx; rewrite (null_number x Nx) in Ep; discriminate|]. intros _. apply Bd. apply some_in. apply in_map_iff. exists x. split; [rewrite Ep; reflexivity|exact (nth_error_In _ _ Ei)]. }
    assert (Ld : length (dim_values d) = length col) by apply num_length.
    assert (Bv : forall w, In w (dim_values d) -> exists v, w = Some v /\ (a - (b - a) / 10 <= v <= b)%Q).
    { intros w Iw. apply In_nth_error in Iw. destruct Iw as (i & Ei). assert (exists x, nth_error col i = Some x) as (x & Ex) by (destruct (nth_error col i) as [x|] eqn:Z; [exists x; reflexivity|apply nth_error_None in Z; assert (i < length (dim_values d)) by (apply nth_error_Some; congruence); lia]).
      destruct (Vb i x Ex) as (v & Ev & A & B). exists v. split; [congruence|]. destruct (is_null x); [rewrite (A eq_refl); split; [apply Qle_refl|lra]|]. specialize (B eq_refl). split; lra. }
    exists (a - (b - a) / 20)%Q. intros i x Ei. destruct (Vb i x Ei) as (v & Ev & A & B).
    assert (exists e, nth_error (dim_values (jittered noise d)) i = Some (Some (v + e)%Q) /\ (- ((b - a) / 100) <= e <= (b - a) / 100)%Q) as (e & Ee & Be).
    { unfold jittered. destruct (eqb_of (label d) "score").
      - exists 0%Q. split; [rewrite Ev; f_equal; f_equal; destruct v; unfold Qplus; cbn; f_equal; lia|]. split; lra.
      - assert (Iv : In v (some (dim_values d))) by (apply some_in; exact (nth_error_In _ _ Ev)). destruct (min_max_some _ _ Iv) as (a' & b' & M'). destruct (min_max_ok _ _ _ M') as (Ia' & Ib' & Bd'). apply some_in in Ia', Ib'.
        destruct (Bv _ Ia') as (va & Ea & Ba). destruct (Bv _ Ib') as (vb & Eb & Bb). assert (va = a') by congruence. assert (vb = b') by congruence. subst va vb. specialize (Bd' v Iv).
        exists ((b' - a') / 200 * noise i)%Q. split; [apply jitter_nth; [intros w Iw Z; destruct (Bv w Iw) as (v' & Z' & _); congruence|exact M'|exact Ev]|].
        assert (P : (0 <= (b' - a') / 200 <= (b - a) / 100)%Q) by (assert (T200 : ((b' - a') / 200 == (b' - a') * (1 # 200))%Q) by field; split; lra). destruct (mult_bound _ _ (proj1 P) (Ns i)) as [C1 C2]. split; lra. }
    exists (v + e)%Q. split; [exact Ee|]. destruct (is_null x).
    - rewrite (A eq_refl). split; [intros _; lra|reflexivity].
    - specialize (B eq_refl). split; [discriminate|]. intros L. exfalso. lra.
  Qed.
  (** they are displayed like the numbers if these are all equal *)
  Lemma nulls_unreadable : forall noise name log (col : list tcell) c, NumColumn col -> (exists x q, In x col /\ number x = Some q) -> (forall x q, In x col -> number x = Some q -> (coordinate log q == c)%Q) ->
    forall i x, nth_error col i = Some x -> exists v, nth_error (dim_values (jittered noise (prepare_num name log col))) i = Some (Some v) /\ (v == c)%Q.
  Proof using.
    clear cats_ok. intros noise name log col c W (x0 & q0 & I0 & E0) C i x Ei. set (vals := map (fun x => option_map (coordinate log) (number x)) col).
    assert (I1 : In (coordinate log q0) (some vals)) by (apply some_in; apply in_map_iff; exists x0; split; [rewrite E0; reflexivity|exact I0]).
    destruct (min_max_some _ _ I1) as (a & b & M). destruct (min_max_ok _ _ _ M) as (Ia & Ib & Bd).
    assert (Cv : forall v, In v (some vals) -> (v == c)%Q). { intros v Iv. apply some_in in Iv. apply in_map_iff in Iv. destruct Iv as (y & Ey & Iy). destruct (number y) as [q|] eqn:Nq; [|discriminate]. injection Ey as <-. exact (C y q Iy Nq). }
    pose proof (Cv a Ia) as Ca. pose proof (Cv b Ib) as Cb. destruct (num_shape name log col a b M W) as [El V]. set (d := prepare_num name log col) in *.
    assert (Ev : exists v, nth_error (dim_values d) i = Some (Some v) /\ (v == c)%Q).
    { eexists. split; [exact (V i x Ei)|]. destruct (number x) as [q|] eqn:Nq; [exact (C x q (nth_error_In _ _ Ei) Nq)|]. rewrite Ca, Cb. field. }
    destruct Ev as (v & Ev & Cc). unfold jittered. destruct (eqb_of (label d) "score"); [exists v; auto|].
    assert (Ld : length (dim_values d) = length col) by apply num_length.
    assert (Bv : forall w, In w (dim_values d) -> exists v, w = Some v /\ (v == c)%Q).
    { intros w Iw. apply In_nth_error in Iw. destruct Iw as (j & Ej). assert (exists y, nth_error col j = Some y) as (y & Ey) by (destruct (nth_error col j) as [y|] eqn:Z; [exists y; reflexivity|apply nth_error_None in Z; assert (j < length (dim_values d)) by (apply nth_error_Some; congruence); lia]).
      pose proof (V j y Ey) as Vj. rewrite Vj in Ej. injection Ej as <-. eexists. split; [reflexivity|]. destruct (number y) as [q|] eqn:Nq; [exact (C y q (nth_error_In _ _ Ey) Nq)|]. rewrite Ca, Cb. field. }
    assert (Iv : In v (some (dim_values d))) by (apply some_in; exact (nth_error_In _ _ Ev)). destruct (min_max_some _ _ Iv) as (a' & b' & M'). destruct (min_max_ok _ _ _ M') as (Ia' & Ib' & Bd'). apply some_in in Ia', Ib'.
    destruct (Bv _ Ia') as (va & Ea & Ba). destruct (Bv _ Ib') as (vb & Eb & Bb). assert (va = a') by congruence. assert (vb = b') by congruence. subst va vb.
    exists (v + (b' - a') / 200 * noise i)%Q. split; [apply jitter_nth; [intros w Iw Z; destruct (Bv w Iw) as (v' & Z' & _); congruence|exact M'|exact Ev]|]. rewrite Cc, Ba, Bb. field.
  Qed.

  (** ** Whether there is a plot *)
  (** the rows that are kept *)
  Definition Kept (min_score : option Q) (t : table (O := O)) (i : nat) : Prop :=
    exists col, In ("mean_test_score", col) t /\ i < length col /\ match min_score with None => True | Some m => exists x, nth_error col i = Some (TScore (Some x)) /\ (m <= x)%Q end.
  Definition Square (t : table (O := O)) : Prop := NoDup (map fst t) /\ exists n, forall name col, In (name, col) t -> length col = n.

  Lemma filter_nodup : forall (t : table (O := O)) f, NoDup (map fst t) -> NoDup (map fst (filter f t)).
  Proof.
    intros t f N. induction t as [|c t IH]; [constructor|]. cbn in N. inversion N as [|? ? N0 N1]; subst. cbn. destruct (f c); [|exact (IH N1)]. cbn. constructor; [|exact (IH N1)]. intros I. apply N0. apply in_map_iff in I. destruct I as (c' & E & I). apply filter_In in I. apply in_map_iff. exists c'. split; [exact E|apply I].
  Qed.
  Lemma mapM_ok : forall (A B : Type) (f : A -> res B) l, (forall a, In a l -> exists b, f a = Ok b) -> exists bs, mapM f l = Ok bs.
  Proof.
    intros A B f l. induction l as [|a l IH]; intros W; [exists []; reflexivity|]. destruct (W a (or_introl eq_refl)) as (b & Eb). destruct IH as (bs & Ebs); [intros x I; apply W; right; exact I|]. exists (b :: bs). cbn. rewrite Eb. cbn [bind]. rewrite Ebs. reflexivity.
  Qed.
  Lemma mapM_err : forall (A B : Type) (f : A -> res B) l a e, In a l -> f a = Err e -> exists e', mapM f l = Err e'.
  Proof.
    intros A B f l a e I E. destruct (mapM f l) as [bs|e'] eqn:M; [|exists e'; reflexivity]. exfalso. apply mapM_Forall2 in M. induction M as [|x b l bs Ex M IH]; [destruct I|]. destruct I as [->|I]; [congruence|exact (IH I)].
  Qed.
  Notation rows_of col rows := (flat_map (fun i => match nth_error col i with Some x => [x] | None => [] end) rows).
  Lemma seq_sorted : forall n i, StronglySorted lt (seq i n).
  Proof. induction n as [|n IH]; intros i; cbn; constructor; [apply IH|]. apply Forall_forall. intros j I. apply in_seq in I. lia. Qed.
  Lemma sorted_filter : forall f l, StronglySorted lt l -> StronglySorted lt (filter f l).
  Proof.
    intros f l S. induction S as [|i l S IH F]; [constructor|]. cbn. destruct (f i); [|exact IH]. constructor; [exact IH|]. rewrite Forall_forall in *. intros j I. apply filter_In in I. apply F. apply I.
  Qed.
  Lemma plot_shape : forall noise ms (t : table (O := O)) logs, Square t -> In "mean_test_score" (map fst t) ->
    exists rows, StronglySorted lt rows /\ (forall i, In i rows <-> Kept ms t i) /\
      plot_results noise ms t logs = match rows with [] => Err ValueError | _ :: _ =>
        let! dims := mapM (fun c => prepare_column (numeric_dtype okind_of (snd c)) (mem (fst c) logs) (fst c) (rows_of (snd c) rows)) (filter (fun c => negb (mem (fst c) hidden)) t) in
        Ok (map (fun jd => jittered (noise (fst jd)) (snd jd)) (combine (seq 0 (length dims)) dims)) end.
  Proof using.
    clear cats_ok. intros noise ms t logs [N (n & L)] I. apply in_map_iff in I. destruct I as ((name & col) & E & I). cbn in E. subst name.
    unfold M_results.plot_results. set (t' := filter (fun c => negb (mem (fst c) hidden)) t). assert (I' : In ("mean_test_score", col) t') by (apply filter_In; split; [exact I|reflexivity]).
    assert (N' : NoDup (dkeys t')) by (apply filter_nodup; exact N). assert (G : dget "mean_test_score" t' = Some col) by (apply dget_In_iff; assumption).
    assert (Hn : match t' with [] => 0 | (_, c) :: _ => length c end = n). { assert (X : forall c, In c t' -> length (snd c) = n) by (intros (nm & c) J; apply filter_In in J; exact (L nm c (proj1 J))). destruct t' as [|(nm & c) tl]; [destruct I'|]. exact (X (nm, c) (or_introl eq_refl)). }
    rewrite Hn. assert (Lc : length col = n) by exact (L _ _ I).
    assert (K : forall i, Kept ms t i <-> i < length col /\ match ms with None => True | Some m => exists x, nth_error col i = Some (TScore (Some x)) /\ (m <= x)%Q end).
    { intros i. split; [|intros X; exists col; split; [exact I|exact X]]. intros (c & Ic & X). assert (c = col) as ->; [|exact X]. assert (dget "mean_test_score" t = Some c) by (apply dget_In_iff; assumption). assert (dget "mean_test_score" t = Some col) by (apply dget_In_iff; assumption). congruence. }
    unfold lookup. rewrite G. destruct ms as [m|]; cbn [bind].
    - exists (filter (fun i => match score_at col i with Some x => Qle_bool m x | None => false end) (seq 0 n)). split; [apply sorted_filter, seq_sorted|]. split.
      + intros i. rewrite filter_In, in_seq, K. unfold score_at. split.
        * intros [A B]. split; [lia|]. destruct (nth_error col i) as [[[x|]|]|]; try discriminate. exists x. split; [reflexivity|]. apply Qle_bool_iff. exact B.
        * intros (A & x & B & C). rewrite B. split; [lia|]. apply Qle_bool_iff. exact C.
      + destruct (filter _ (seq 0 n)); reflexivity.
    - exists (seq 0 n). split; [apply seq_sorted|]. split; [intros i; rewrite in_seq, K; split; [intros B; split; [lia|exact Logic.I]|intros [B _]; lia]|]. destruct (seq 0 n); reflexivity.
  Qed.
  Definition Texts (col : list tcell) : Prop := numeric_dtype okind_of col = false.
  Lemma plot_ok : forall noise ms (t : table (O := O)) logs, Square t -> In "mean_test_score" (map fst t) -> (exists i, Kept ms t i) ->
    (forall name col, In (name, col) t -> ~ In name hidden -> Texts col -> exists i x, Kept ms t i /\ nth_error col i = Some x /\ is_null x = false) ->
    exists dims, plot_results noise ms t logs = Ok dims /\ length dims = length (filter (fun c => negb (mem (fst c) hidden)) t).
  Proof using.
    clear cats_ok. intros noise ms t logs S I (i0 & K0) W. destruct (plot_shape noise ms t logs S I) as (rows & So & R & E). destruct rows as [|r rows]; [apply R in K0; destruct K0|].
    assert (Lt : forall name col i, In (name, col) t -> Kept ms t i -> i < length col). { intros name col i J (c & Jc & B & _). destruct S as [_ (n & L)]. rewrite (L _ _ J). rewrite (L _ _ Jc) in B. exact B. }
    set (rs := r :: rows) in *. destruct (mapM_ok _ _ (fun c => prepare_column (numeric_dtype okind_of (snd c)) (mem (fst c) logs) (fst c) (rows_of (snd c) rs)) (filter (fun c => negb (mem (fst c) hidden)) t)) as (dims & M).
    { intros (name & col) J. apply filter_In in J. destruct J as [J H]. cbn [fst snd] in *. unfold M_results.prepare_column. destruct (numeric_dtype okind_of col) eqn:Nd; cbn [negb].
      - destruct (_ || _)%bool; eexists; reflexivity.
      - assert (~ In name hidden) as Hn by (apply mem_false; destruct (mem name hidden); [discriminate|reflexivity]). destruct (W name col J Hn Nd) as (i & x & K & Ei & Nx).
        unfold M_results.prepare_obj. destruct (text x) as [s|] eqn:Tx; [|apply text_null in Tx; congruence].
        assert (Is : In s (some (map text (rows_of col rs)))). { apply some_in. apply in_map_iff. exists x. split; [exact Tx|]. apply in_flat_map. exists i. split; [apply R; exact K|]. rewrite Ei. left. reflexivity. }
        destruct (some (map text (rows_of col rs))); [destruct Is|]. eexists. reflexivity. }
    rewrite E, M. cbn [bind]. eexists. split; [reflexivity|]. rewrite map_length, combine_length, seq_length, Nat.min_id. apply mapM_Forall2 in M. symmetry. exact (Forall2_len _ _ _ M).
  Qed.
  Lemma plot_fails_texts : forall noise ms (t : table (O := O)) logs name col, Square t -> In "mean_test_score" (map fst t) -> In (name, col) t -> ~ In name hidden -> Texts col ->
    (forall i x, Kept ms t i -> nth_error col i = Some x -> is_null x = true) -> exists e, plot_results noise ms t logs = Err e.
  Proof using.
    clear cats_ok. intros noise ms t logs name col S I J Hn Tx W. destruct (plot_shape noise ms t logs S I) as (rows & So & R & E). destruct rows as [|r rows]; [exists ValueError; exact E|]. set (rs := r :: rows) in *.
    destruct (mapM_err _ _ (fun c => prepare_column (numeric_dtype okind_of (snd c)) (mem (fst c) logs) (fst c) (rows_of (snd c) rs)) (filter (fun c => negb (mem (fst c) hidden)) t) (name, col) ValueError) as (e & M).
    - apply filter_In. split; [exact J|]. cbn. apply mem_false in Hn. rewrite Hn. reflexivity.
    - cbn [fst snd]. unfold M_results.prepare_column. rewrite Tx. cbn [negb]. unfold M_results.prepare_obj. destruct (some (map text (rows_of col rs))) as [|s l] eqn:Z; [reflexivity|]. exfalso.
      assert (Is : In s (some (map text (rows_of col rs)))) by (rewrite Z; left; reflexivity). apply some_in in Is. apply in_map_iff in Is. destruct Is as (x & Ex & Ix). apply in_flat_map in Ix. destruct Ix as (i & Ii & Jx).
      destruct (nth_error col i) as [y|] eqn:Ey; [|destruct Jx]. destruct Jx as [->|[]]. apply R in Ii. pose proof (proj2 (text_null x) (W i x Ii Ey)). congruence.
    - exists e. rewrite E, M. reflexivity.
  Qed.
  Lemma plot_fails_metric : forall noise ms (t : table (O := O)) logs, ~ In "mean_test_score" (map fst t) -> exists e, plot_results noise ms t logs = Err e.
  Proof using.
    clear cats_ok. intros noise ms t logs N. unfold M_results.plot_results. set (t' := filter (fun c => negb (mem (fst c) hidden)) t).
    assert (G : dget "mean_test_score" t' = None). { apply dget_None_keys. intros I. apply N. apply in_map_iff in I. destruct I as (c & E & I). apply filter_In in I. apply in_map_iff. exists c. split; [exact E|apply I]. }
    unfold lookup. rewrite G. destruct ms as [m|]; cbn [bind]; [exists KeyError; reflexivity|]. destruct (seq 0 _); [exists ValueError; reflexivity|]. destruct (mapM _ t') as [dims|e]; cbn [bind]; [exists KeyError; reflexivity|exists e; reflexivity].
  Qed.

  (** ** The axes of a plot *)
  Definition visible (t : table (O := O)) : table (O := O) := filter (fun c => negb (mem (fst c) hidden)) t.
  Lemma rows_nth : forall (col : list tcell) rows r, (forall i, In i rows -> i < length col) -> nth_error (rows_of col rows) r = match nth_error rows r with Some i => nth_error col i | None => None end.
  Proof using. clear cats_ok. exact take_nth. Qed.
  Lemma plot_axes : forall noise ms (t : table (O := O)) logs dims, Square t -> In "mean_test_score" (map fst t) -> plot_results noise ms t logs = Ok dims ->
    exists rows, StronglySorted lt rows /\ (forall i, In i rows <-> Kept ms t i) /\ length dims = length (visible t) /\
      forall j name col, nth_error (visible t) j = Some (name, col) -> (forall i, In i rows -> i < length col) /\
        exists d, nth_error dims j = Some (jittered (noise j) d) /\ prepare_column (numeric_dtype okind_of col) (mem name logs) name (rows_of col rows) = Ok d.
  Proof using.
    clear cats_ok. intros noise ms t logs dims S I E. destruct (plot_shape noise ms t logs S I) as (rows & So & R & E'). rewrite E' in E. exists rows. split; [exact So|]. split; [exact R|]. destruct rows as [|r0 rows]; [discriminate|]. set (rs := r0 :: rows) in *.
    fold (visible t) in E. destruct (mapM _ (visible t)) as [ds|] eqn:M; [|discriminate]. cbn [bind] in E. assert (Ed : dims = map (fun jd => jittered (noise (fst jd)) (snd jd)) (combine (seq 0 (length ds)) ds)) by congruence. apply mapM_Forall2 in M.
    split; [rewrite Ed, map_length, combine_length, seq_length, Nat.min_id; symmetry; exact (Forall2_len _ _ _ M)|].
    intros j name col Ej. split.
    - intros i Ii. apply R in Ii. destruct Ii as (c & Jc & B & _). destruct S as [_ (n & L)]. apply nth_error_In in Ej. apply filter_In in Ej. rewrite (L _ _ (proj1 Ej)). rewrite (L _ _ Jc) in B. exact B.
    - destruct (forall2_nth _ _ _ _ _ _ _ M Ej) as (d & Edj & Pd). cbn [fst snd] in Pd. exists d. split; [|exact Pd]. rewrite Ed, nth_error_map. rewrite (combine_nth_error _ _ _ _ j j d); [reflexivity| |exact Edj].
      assert (j < length ds) by (apply nth_error_Some; congruence). rewrite (nth_error_nth' _ 0) by (rewrite seq_length; assumption). rewrite seq_nth by assumption. reflexivity.
  Qed.
  Lemma plot_categories : forall noise ms (t : table (O := O)) logs dims, (forall j, Noise (noise j)) -> Square t -> In "mean_test_score" (map fst t) -> plot_results noise ms t logs = Ok dims ->
    exists rows, StronglySorted lt rows /\ (forall i, In i rows <-> Kept ms t i) /\ length dims = length (visible t) /\
      forall j name col, nth_error (visible t) j = Some (name, col) -> Texts col -> exists d, nth_error dims j = Some d /\ label d = name /\ length (dim_values d) = length rows /\
        (length (ticks d) <= 100 -> forall r i x, nth_error rows r = Some i -> nth_error col i = Some x ->
           exists v, nth_error (dim_values d) r = Some (Some v) /\ (exists p, In (Some p, shown_text x) (ticks d) /\ (Qabs (v - p) < 1 # 2)%Q) /\
             forall p t, In (Some p, t) (ticks d) -> (Qabs (v - p) < 1 # 2)%Q -> t = shown_text x).
  Proof using cats_ok.
    intros noise ms t logs dims Ns S I E. destruct (plot_axes noise ms t logs dims S I E) as (rows & So & R & L & A). exists rows. split; [exact So|]. split; [exact R|]. split; [exact L|]. intros j name col Ej Tx. destruct (A j name col Ej) as (B & d & Ed & Pd).
    unfold M_results.prepare_column in Pd. rewrite Tx in Pd. cbn [negb] in Pd. exists (jittered (noise j) d). split; [exact Ed|]. destruct (obj_shape _ _ _ Pd) as (Ln & Lv & _).
    assert (Lr : length (rows_of col rows) = length rows) by (apply take_length; exact B).
    split; [unfold jittered; destruct (eqb_of _ _); exact Ln|]. split; [rewrite <- Lr, <- Lv; unfold jittered; destruct (eqb_of _ _); [reflexivity|]; cbn [dim_values add_jitter]; rewrite map_length, combine_length, seq_length; lia|].
    intros Lt r i x Er Ei. assert (Tk : ticks (jittered (noise j) d) = ticks d) by (unfold jittered; destruct (eqb_of _ _); reflexivity). rewrite Tk in Lt. apply (categories_readable (noise j) name _ d (Ns j) Pd Lt r x). rewrite rows_nth by exact B. rewrite Er. exact Ei.
  Qed.
  (** the axis of numbers shows each number with an error of at most 1/200 of the range; missing values are apart *)
  Lemma plot_numbers : forall noise ms (t : table (O := O)) logs dims, (forall j, Noise (noise j)) -> Square t -> In "mean_test_score" (map fst t) -> plot_results noise ms t logs = Ok dims ->
    exists rows, StronglySorted lt rows /\ (forall i, In i rows <-> Kept ms t i) /\ length dims = length (visible t) /\
      forall j name col, nth_error (visible t) j = Some (name, col) -> ~ Texts col -> exists d, nth_error dims j = Some d /\
        ((exists i x y i' q q', In i rows /\ nth_error col i = Some x /\ number x = Some q /\ In i' rows /\ nth_error col i' = Some y /\ number y = Some q' /\
            ~ (coordinate (mem name logs) q == coordinate (mem name logs) q')%Q) ->
         exists m, forall r i x, nth_error rows r = Some i -> nth_error col i = Some x -> exists v, nth_error (dim_values d) r = Some (Some v) /\ (is_null x = true <-> (v < m)%Q)).
  Proof using.
    clear cats_ok. intros noise ms t logs dims Ns S I E. destruct (plot_axes noise ms t logs dims S I E) as (rows & So & R & L & A). exists rows. split; [exact So|]. split; [exact R|]. split; [exact L|]. intros j name col Ej Tx. destruct (A j name col Ej) as (B & d & Ed & Pd).
    unfold Texts in Tx. unfold M_results.prepare_column in Pd. destruct (numeric_dtype okind_of col) eqn:Nd; [|congruence]. cbn [negb] in Pd. exists (jittered (noise j) d). split; [exact Ed|].
    intros (i1 & x1 & x2 & i2 & q1 & q2 & I1 & E1 & N1 & I2 & E2 & N2 & D).
    assert (W : forall x, In x col -> is_null x = true \/ exists q, number x = Some q).
    { intros x Ix. unfold numeric_dtype in Nd. apply andb_true_iff in Nd. destruct Nd as [Nd _]. rewrite forallb_forall in Nd. specialize (Nd x Ix). apply orb_true_iff in Nd. destruct Nd as [Z|Z]; [left; exact Z|right]. unfold has_number in Z. destruct (number x) as [q|]; [exists q; reflexivity|discriminate]. }
    assert (Wr : NumColumn (rows_of col rows)).
    { intros x Ix. apply in_flat_map in Ix. destruct Ix as (i & _ & Ix). destruct (nth_error col i) as [y|] eqn:Ey; [|destruct Ix]. destruct Ix as [->|[]]. exact (W x (nth_error_In _ _ Ey)). }
    destruct (mem name logs || existsb is_null (rows_of col rows))%bool eqn:Lg.
    - injection Pd as <-. destruct (nulls_readable (noise j) name (mem name logs) (rows_of col rows) (Ns j) Wr) as (m & Hm).
      + exists x1, x2, q1, q2. split; [apply in_flat_map; exists i1; split; [exact I1|rewrite E1; left; reflexivity]|]. split; [apply in_flat_map; exists i2; split; [exact I2|rewrite E2; left; reflexivity]|]. auto.
      + exists m. intros r i x Er Ei. apply Hm. rewrite rows_nth by exact B. rewrite Er. exact Ei.
    - apply orb_false_iff in Lg. destruct Lg as [_ Ln]. assert (Nn : forall x, In x (rows_of col rows) -> exists q, number x = Some q).
      { intros x Ix. destruct (Wr x Ix) as [Z|Z]; [|exact Z]. exfalso. assert (existsb is_null (rows_of col rows) = true) by (apply existsb_exists; exists x; auto). congruence. }
      assert (Vd : dim_values d = map number (rows_of col rows)) by (assert (d = {| label := plain_label name; dim_values := map number (rows_of col rows); ticks := [] |}) as -> by congruence; reflexivity). clear Pd.
      assert (exists a b, min_max (some (dim_values d)) = Some (a, b)) as (a & b & M).
      { apply (min_max_some _ q1). apply some_in. rewrite Vd. apply in_map_iff. exists x1. split; [exact N1|]. apply in_flat_map. exists i1. split; [exact I1|]. rewrite E1. left. reflexivity. }
      destruct (min_max_ok _ _ _ M) as (Ia & Ib & Bd). exists (a - (b - a) / 100 - 1)%Q. intros r i x Er Ei.
      assert (Ix : nth_error (rows_of col rows) r = Some x) by (rewrite rows_nth by exact B; rewrite Er; exact Ei). destruct (Nn x (nth_error_In _ _ Ix)) as (q & Nq).
      assert (Ev : nth_error (dim_values d) r = Some (Some q)) by (rewrite Vd, nth_error_map, Ix; cbn; rewrite Nq; reflexivity).
      assert (Bq : (a <= q <= b)%Q) by (apply Bd; apply some_in; exact (nth_error_In _ _ Ev)).
      assert (T100 : ((b - a) / 100 == (b - a) * (1 # 100))%Q) by field. assert (T200 : ((b - a) / 200 == (b - a) * (1 # 200))%Q) by field.
      assert (Ex : exists v, nth_error (dim_values (jittered (noise j) d)) r = Some (Some v) /\ (a - (b - a) / 100 <= v)%Q).
      { unfold jittered. destruct (eqb_of (label d) "score"); [exists q; split; [exact Ev|lra]|]. eexists. split.
        - apply jitter_nth; [|exact M|exact Ev]. rewrite Vd. intros w Iw ->. apply in_map_iff in Iw. destruct Iw as (y & Ey & Iy). destruct (Nn y Iy) as (q' & Nq'). congruence.
        - assert (P : (0 <= (b - a) / 200)%Q) by lra. destruct (mult_bound _ _ P (Ns j r)) as [C1 C2]. lra. }
      destruct Ex as (v & Ev' & Lv). exists v. split; [exact Ev'|]. split; [intros Z; rewrite (null_number x Z) in Nq; discriminate|]. intros Z. exfalso. lra.
  Qed.
End Plots.

(** ** Tables of results that are plotted *)
Section Tables.
  Context {O : Type}.
  Notation choice := (choice (O := O)).
  Notation table := (table (O := O)).

  (** a better score; NaN is the worst *)
  Definition Better (a b : option Q) : Prop := match a, b with Some x, Some y => (y < x)%Q | Some _, None => True | None, _ => False end.
  Lemma precedes_better : forall a b, precedes a b = true <-> Better a b.
  Proof.
    intros [x|] [y|]; cbn; try (split; [discriminate|tauto]); [|split; auto]. split.
    - intros E. apply Qle_bool_false. destruct (Qle_bool x y); [discriminate|reflexivity].
    - intros L. destruct (Qle_bool x y) eqn:E; [|reflexivity]. apply Qle_bool_iff in E. exfalso. exact (Qlt_not_le _ _ L E).
  Qed.
  (** the order of rows: better scores first, then earlier candidates *)
  Definition Ranked (s : nat -> option Q) (order : list nat) : Prop := StronglySorted (fun i j => Better (s i) (s j) \/ ~ Better (s j) (s i) /\ i < j) order.
  Lemma before_ranked : forall s order, StronglySorted (Before s) order -> Ranked s order.
  Proof.
    intros s order S. induction S as [|i l S IH F]; constructor; [exact IH|]. rewrite Forall_forall in *. intros j I. destruct (F j I) as [B|[B L]]; [left; apply precedes_better; exact B|right]. split; [|exact L]. intros X. apply precedes_better in X. congruence.
  Qed.

  Lemma detailed_table : forall draw (choices : dict nat choice) (names : dict nat string) scorers refit ms cands cv t logs,
    Fitted choices names scorers refit ms cands cv -> Fresh draw (length names) (map snd names) (result_keys ms) ->
    cv_table draw choices names scorers refit (map named cands) cv true = Ok (t, logs) ->
    NoDup (map fst t) /\ (forall name col, In (name, col) t -> length col = length cands) /\
    (forall m, In m ms -> In ("mean_test_" ++ m)%string (map fst t)) /\
    forall name, In name (map fst t) -> In name (result_keys ms) \/ In name (pick_column_names draw (map snd names) (result_keys ms)).
  Proof.
    intros draw choices names scorers refit ms cands cv t logs F Fr E. destruct (table_shape draw choices names scorers refit ms cands cv true F Fr) as (rows & logs0 & logs' & X).
    cbv zeta in X. destruct X as (E' & R & N & Ln & _). set (new_names := pick_column_names draw (map snd names) (result_keys ms)) in *.
    match type of N with NoDup (map fst ?u) => set (t0 := u) in * end. rewrite E' in E. assert (Et : t = take_rows (sorted_rows (length cands) t0) t0) by congruence.
    assert (Fst : map fst t = map fst t0) by (rewrite Et; unfold take_rows; rewrite map_map; reflexivity).
    assert (L0 : forall name col, In (name, col) t0 -> length col = length cands).
    { intros name col I. unfold t0 in I. apply in_app_iff in I. destruct I as [I|I]; [|apply in_app_iff in I; destruct I as [I|I]].
      - apply in_map_iff in I. destruct I as (k & Ek & Ik). unfold score_column, scores in Ek. destruct (f_mean _ _ _ _ _ _ _ F k Ik) as (xs & Exs & Lx). rewrite Exs in Ek. injection Ek as <- <-. rewrite map_length. exact Lx.
      - unfold choice_columns in I. apply in_map_iff in I. destruct I as (on & Ek & _). injection Ek as <- <-. rewrite map_length. symmetry. exact (Forall2_len _ _ _ R).
      - apply in_map_iff in I. destruct I as (k & Ek & Ik). apply filter_In in Ik. destruct Ik as [Ik Pk]. unfold present in Pk. unfold score_column, scores in Ek. destruct (dget k cv) as [xs|] eqn:Exs; [|discriminate]. injection Ek as <- <-. rewrite map_length. exact (f_other _ _ _ _ _ _ _ F k xs Ik Exs). }
    assert (Lo : length (sorted_rows (length cands) t0) = length cands /\ forall i, In i (sorted_rows (length cands) t0) -> i < length cands).
    { unfold sorted_rows. destruct t0 as [|(nm & c) tl]; [rewrite seq_length; split; [reflexivity|intros i I; apply in_seq in I; lia]|]. destruct (rows_sorted c (length cands) 0) as [P _].
      split; [rewrite (Permutation_length P), seq_length; reflexivity|intros i I; apply (Permutation_in _ P) in I; apply in_seq in I; lia]. }
    rewrite Fst. split; [exact N|]. split; [|split].
    - intros name col I. rewrite Et in I. unfold take_rows in I. apply in_map_iff in I. destruct I as ((nm & c) & Ec & I). cbn [fst snd] in Ec. assert (Lc : length c = length cands) by exact (L0 nm c I).
      assert (Hc : col = flat_map (fun i => match nth_error c i with Some x => [x] | None => [] end) (sorted_rows (length cands) t0)) by congruence. rewrite Hc, take_length; [apply Lo|]. intros i J. rewrite Lc. apply Lo. exact J.
    - intros m I. unfold t0. rewrite map_app. apply in_app_iff. left. rewrite map_map. cbn. apply in_map_iff. exists ("mean_test_" ++ m)%string. split; [reflexivity|]. apply in_map_iff. exists m. split; [reflexivity|exact I].
    - intros name I. unfold t0 in I. rewrite !map_app in I. apply in_app_iff in I. unfold result_keys. destruct I as [I|I]; [left|apply in_app_iff in I; destruct I as [I|I]; [right|left]].
      + rewrite map_map in I. cbn in I. rewrite map_id in I. apply in_app_iff. left. exact I.
      + unfold choice_columns in I. rewrite map_map in I. cbn in I. rewrite combine_map_snd in I by (rewrite map_length; lia). exact I.
      + rewrite map_map in I. cbn in I. rewrite map_id in I. apply filter_In in I. apply in_app_iff. right. apply I.
  Qed.
  Lemma no_score : forall ms, ~ In "score" ms -> ~ In "mean_test_score" (result_keys ms).
  Proof.
    intros ms N I. unfold result_keys, other_keys, prefixed in I. rewrite !in_app_iff in I. destruct I as [I|[I|[I|[I|I]]]].
    - apply in_map_iff in I. destruct I as (m & E & I). assert (m = "score") by (cbn in E; congruence). subst m. contradiction.
    - apply in_map_iff in I. destruct I as (m & E & I). discriminate.
    - cbn in I. intuition discriminate.
    - apply in_map_iff in I. destruct I as (m & E & I). discriminate.
    - apply in_map_iff in I. destruct I as (m & E & I). discriminate.
  Qed.
  Lemma multi_metric : forall draw (choices : dict nat choice) (names : dict nat string) l refit ms cands cv t logs,
    Fitted choices names (Some l) refit ms cands cv -> Fresh draw (length names) (map snd names) (result_keys ms) ->
    cv_table draw choices names (Some l) refit (map named cands) cv true = Ok (t, logs) ->
    ~ In "score" l -> (forall s, In s (map snd names) -> ~ SubString "__skrub_" s) -> ~ In "mean_test_score" (map snd names) -> ~ In "mean_test_score" (map fst t).
  Proof.
    intros draw choices names l refit ms cands cv t logs F Fr E Ns U Nn I. destruct (detailed_table _ _ _ _ _ _ _ _ _ _ F Fr E) as (_ & _ & _ & X). destruct (X _ I) as [J|J].
    - revert J. apply no_score. intros J. apply Ns. exact (Permutation_in _ (fitted_perm _ _ _ _ _ _ _ F) J).
    - unfold pick_column_names in J. apply picked_names in J; [|exact U]. destruct J as [J|(a & b & J)]; [contradiction|].
      assert (D : forall a s : string, "mean_test_score" = (a ++ ("__skrub_" ++ s))%string -> False) by (clear; intros a s E; do 15 (destruct a as [|? a]; cbn in E; [discriminate|apply (f_equal (fun x => match x with String _ r => r | EmptyString => EmptyString end)) in E; cbn in E]); destruct a; discriminate).
      exact (D a b J).
  Qed.
End Tables.
