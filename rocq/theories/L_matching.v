(** Fuzzy matching: specification and lemmas. *)
From Verif Require Import Base L_tablevec3 M_matching.
From Coq Require Import QArith Qround Permutation Sorted Lqa.
Open Scope list_scope.
Open Scope nat_scope.

(** ** Specification *)
(** The rescaled distance. *)
Inductive RescaledTo (d ref : Q) : ext -> Prop :=
| Resc_exact : (d == 0)%Q -> RescaledTo d ref (Fin 0)
| Resc_inf : ~ (d == 0)%Q -> (ref == 0)%Q -> RescaledTo d ref Inf
| Resc_div q : ~ (d == 0)%Q -> ~ (ref == 0)%Q -> (q == d / ref)%Q -> RescaledTo d ref (Fin q).
Definition Within (r max_dist : ext) : Prop :=
  match r, max_dist with
  | _, Inf => True
  | Inf, Fin _ => False
  | Fin x, Fin y => (x <= y)%Q
  end.

Section Spec.
  Context {P : Type}.
  Variable dist : P -> P -> Q.

  (** [q] is the [k]-th smallest distance (from 0) of [x] to the rows [aux]: at most [k] rows are
      nearer, and at least [k + 1] are not farther. *)
  Definition KthDistance (aux : list P) (x : P) (k : nat) (q : Q) : Prop :=
    exists s, Permutation s (map (dist x) aux) /\
      StronglySorted Qle s /\ nth_error s k = Some q.

  Definition Nearest (aux : list P) (x : P) (i : nat) (d : Q) : Prop :=
    exists a, nth_error aux i = Some a /\ d = dist x a /\ forall b, In b aux -> (d <= dist x b)%Q.

  (** [order aux k x] lists all the rows of [aux], the nearest to [x] first. *)
  Definition is_order (order : list P -> nat -> P -> list nat) : Prop :=
    forall aux k x, Permutation (order aux k x) (seq 0 (length aux)) /\
      StronglySorted (fun i j => forall a b, nth_error aux i = Some a -> nth_error aux j = Some b ->
                                   (dist x a <= dist x b)%Q) (order aux k x).

  (** The reference distance for the row [x], with nearest neighbour [i]. *)
  Definition ReferenceFor (aux : list P) (s : strategy) (ref : option Q) (x : P) (i : nat) (q : Q) : Prop :=
    match s with
    | NoRescaling => q = 1%Q
    | RandomPairs _ _ => ref = Some q
    | SelfJoinNeighbor k => exists a, nth_error aux i = Some a /\ KthDistance aux a k q
    | OtherNeighbor k => KthDistance aux x k q
    end.
End Spec.

(** ** Lemmas *)
Lemma is_zero_spec : forall q, is_zero q = true <-> (q == 0)%Q.
Proof. intros q. unfold is_zero. apply Qeq_bool_iff. Qed.

Lemma ext_le_spec : forall a b, ext_le a b = true <-> Within a b.
Proof. intros [x|] [y|]; simpl; try tauto; [apply Qle_bool_iff|split; [discriminate|tauto]]. Qed.

Lemma fix_zeros_spec : forall d q, RescaledTo d q (fix_zeros d (is_zero q) (Fin (d / q))).
Proof.
  intros d q. unfold fix_zeros. destruct (is_zero d) eqn:Ed.
  - constructor. apply is_zero_spec. exact Ed.
  - assert (Nd : ~ (d == 0)%Q) by (intros E; apply is_zero_spec in E; congruence).
    destruct (is_zero q) eqn:Eq.
    + apply Resc_inf; [exact Nd|]. apply is_zero_spec. exact Eq.
    + apply Resc_div; [exact Nd| |apply Qeq_refl]. intros E. apply is_zero_spec in E. congruence.
Qed.

Lemma rescale_scalar : forall ds q, ~ (q == 0)%Q ->
  rescale_distances ds (Scalar q) = Ok (map (fun d => fix_zeros d (is_zero q) (Fin (d / q))) ds).
Proof.
  intros ds q N. unfold rescale_distances.
  assert (E : is_zero q = false).
  { destruct (is_zero q) eqn:E; [|reflexivity]. apply is_zero_spec in E. contradiction. }
  rewrite E. unfold select_scalar, assignable. cbn [negb app broadcast Nat.eqb].
  destruct (length ds) as [|[|n]] eqn:El; try reflexivity.
  cbn [Nat.eqb broadcast]. rewrite Nat.eqb_refl. 
  unfold eqb_of. destruct (eqd [S (S n); 1] [S (S n); 1]); [reflexivity|congruence].
Qed.

Lemma rescale_scalar_zero : forall ds q, (q == 0)%Q -> ds <> [] ->
  rescale_distances ds (Scalar q) = Err ValueError.
Proof.
  intros ds q E N. unfold rescale_distances.
  apply is_zero_spec in E. rewrite E. unfold select_scalar, assignable. cbn [negb app broadcast Nat.eqb].
  destruct ds as [|d ds]; [congruence|]. cbn [length]. destruct (length ds) as [|n]; reflexivity.
Qed.

Lemma rescale_per_row : forall ds refs, length refs = length ds ->
  exists l, rescale_distances ds (PerRow refs) = Ok l /\ length l = length ds /\
    forall i d q, nth_error ds i = Some d -> nth_error refs i = Some q ->
      exists r, nth_error l i = Some r /\ RescaledTo d q r.
Proof.
  intros ds refs L. unfold rescale_distances. rewrite L, Nat.eqb_refl. eexists. split; [reflexivity|].
  split; [rewrite map_length, combine_length; lia|].
  intros i d q Ed Eq. exists (fix_zeros d (is_zero q) (Fin (d / q))). split; [|apply fix_zeros_spec].
  rewrite nth_error_map. assert (E : nth_error (combine ds refs) i = Some (d, q)).
  { clear L. revert refs i Ed Eq. induction ds as [|d' ds IH]; intros refs i Ed Eq; [destruct i; discriminate|].
    destruct refs as [|q' refs]; [destruct i; discriminate|]. destruct i as [|i]; simpl in *; [congruence|]. auto. }
  rewrite E. reflexivity.
Qed.

(** *** Consequences of the rescaling *)
Lemma exact_accepted : forall d ref r max_dist, (d == 0)%Q -> RescaledTo d ref r -> Within (Fin 0) max_dist -> Within r max_dist.
Proof. intros d ref r m E R W. inversion R; subst; [exact W|contradiction|contradiction]. Qed.
Lemma inf_accepts : forall r, Within r Inf.
Proof. intros [x|]; exact I. Qed.
Lemma within_trans : forall a b c, Within a b -> Within b c -> Within a c.
Proof.
  intros [x|] [y|] [z|] H1 H2; simpl in *; try tauto. eapply Qle_trans; eassumption.
Qed.

(** *** Neighbours *)
Section Neighbours.
  Context {P : Type}.
  Variable dist : P -> P -> Q.
  Variable order : list P -> nat -> P -> list nat.
  Hypothesis order_ok : is_order dist order.

  Lemma order_rows : forall aux k x i, In i (order aux k x) -> exists a, nth_error aux i = Some a.
  Proof.
    intros aux k x i I. destruct (order_ok aux k x) as [HP _]. apply (Permutation_in _ HP) in I.
    apply in_seq in I. destruct (nth_error aux i) as [a|] eqn:E; [eauto|]. apply nth_error_None in E. lia.
  Qed.

  Definition entry (aux : list P) (x : P) (i : nat) : list (Q * nat) :=
    match nth_error aux i with Some a => [(dist x a, i)] | None => [] end.

  Lemma flat_entries : forall aux x l, (forall i, In i l -> exists a, nth_error aux i = Some a) ->
    length (flat_map (entry aux x) l) = length l /\
    forall j i, nth_error l j = Some i -> exists a, nth_error aux i = Some a /\
      nth_error (flat_map (entry aux x) l) j = Some (dist x a, i).
  Proof.
    induction l as [|i l IH]; intros Hl; simpl.
    - split; [reflexivity|]. intros j i E. destruct j; discriminate.
    - destruct (Hl i (or_introl eq_refl)) as [a Ea]. unfold entry at 1. rewrite Ea. cbn [app length].
      destruct IH as [IH1 IH2]; [intros i' I; apply Hl; right; exact I|]. split; [congruence|].
      intros j i' E. destruct j as [|j]; simpl in E |- *.
      + injection E as <-. exists a. split; [exact Ea|]. unfold entry at 1. rewrite Ea. reflexivity.
      + destruct (IH2 j i' E) as (a' & E1 & E2). exists a'. split; [exact E1|]. unfold entry at 1. rewrite Ea.
        simpl. exact E2.
  Qed.

  Lemma sorted_distances : forall aux x l, (forall i, In i l -> exists a, nth_error aux i = Some a) ->
    StronglySorted (fun i j => forall a b, nth_error aux i = Some a -> nth_error aux j = Some b ->
                                   (dist x a <= dist x b)%Q) l ->
    StronglySorted Qle (map fst (flat_map (entry aux x) l)).
  Proof.
    intros aux x l Hl S. induction S as [|i l S IH F]; simpl; [constructor|].
    destruct (Hl i (or_introl eq_refl)) as [a Ea]. unfold entry at 1. rewrite Ea. cbn [app map fst].
    constructor; [apply IH; intros i' I; apply Hl; right; exact I|].
    rewrite Forall_forall in *. intros q I. apply in_map_iff in I. destruct I as ([q' j] & <- & I).
    apply in_flat_map in I. destruct I as (j' & Ij & I). unfold entry in I.
    destruct (nth_error aux j') as [b|] eqn:Eb; [|destruct I]. destruct I as [E|[]]. injection E as <- <-.
    cbn [fst]. apply (F j' Ij); assumption.
  Qed.

  Lemma distances_perm : forall aux k x,
    Permutation (map fst (flat_map (entry aux x) (order aux k x))) (map (dist x) aux).
  Proof.
    intros aux k x. destruct (order_ok aux k x) as [HP _].
    apply (Permutation_trans (l' := map fst (flat_map (entry aux x) (seq 0 (length aux))))).
    - apply Permutation_map. apply Permutation_flat_map. exact HP.
    - assert (G : forall pre l, map fst (flat_map (entry (pre ++ l) x) (seq (length pre) (length l))) = map (dist x) l).
      { intros pre l. revert pre. induction l as [|a l IH]; intros pre; simpl; [reflexivity|].
        unfold entry at 1. rewrite nth_error_app2, Nat.sub_diag by lia. cbn [nth_error app map fst]. f_equal.
        specialize (IH (pre ++ [a])). rewrite <- app_assoc, app_length in IH. cbn [app length] in IH.
        rewrite Nat.add_1_r in IH. exact IH. }
      specialize (G [] aux). simpl in G. rewrite G. apply Permutation_refl.
  Qed.

  Lemma flat_firstn : forall aux x l k, (forall i, In i l -> exists a, nth_error aux i = Some a) ->
    flat_map (entry aux x) (firstn k l) = firstn k (flat_map (entry aux x) l).
  Proof.
    induction l as [|i l IH]; intros k Hl; destruct k as [|k]; simpl; try reflexivity.
    - destruct (Hl i (or_introl eq_refl)) as [a Ea]. unfold entry at 1 3. rewrite Ea. cbn [app]. simpl. f_equal.
      apply IH. intros i' I. apply Hl. right. exact I.
  Qed.

  Lemma kneighbors_spec : forall aux k x ns, kneighbors dist order aux k x = Ok ns ->
    k <= length aux /\ length ns = k /\
    (forall j dn, nth_error ns j = Some dn -> KthDistance dist aux x j (fst dn) /\
       exists a, nth_error aux (snd dn) = Some a /\ fst dn = dist x a).
  Proof.
    intros aux k x ns E. unfold kneighbors in E. destruct (length aux <? k) eqn:El; [discriminate|].
    apply Nat.ltb_ge in El. injection E as <-. split; [exact El|].
    change (flat_map _ (firstn k (order aux k x))) with (flat_map (entry aux x) (firstn k (order aux k x))).
    destruct (order_ok aux k x) as [HP HS].
    assert (Hr : forall i, In i (order aux k x) -> exists a, nth_error aux i = Some a) by (apply order_rows).
    assert (Lo : length (order aux k x) = length aux).
    { rewrite (Permutation_length HP), seq_length. reflexivity. }
    rewrite flat_firstn by exact Hr.
    destruct (flat_entries aux x _ Hr) as [F1 F2]. split.
    - rewrite firstn_length, F1. lia.
    - intros j dn Ej.
      assert (Ej' : nth_error (flat_map (entry aux x) (order aux k x)) j = Some dn).
      { rewrite <- (firstn_skipn k (flat_map (entry aux x) (order aux k x))).
        rewrite nth_error_app1; [exact Ej|]. apply nth_error_Some. congruence. }
      split.
      + exists (map fst (flat_map (entry aux x) (order aux k x))). split; [apply distances_perm|].
        split; [apply sorted_distances; assumption|]. rewrite nth_error_map, Ej'. reflexivity.
      + apply nth_error_In, in_flat_map in Ej'. destruct Ej' as (i & _ & I). unfold entry in I.
        destruct (nth_error aux i) as [a|] eqn:Ea; [|destruct I]. destruct I as [<-|[]]. cbn [fst snd]. eauto.
  Qed.

  Lemma kth0_least : forall aux x q, KthDistance dist aux x 0 q -> forall b, In b aux -> (q <= dist x b)%Q.
  Proof.
    intros aux x q (s & HP & HS & E) b I. destruct s as [|q' s]; [discriminate|]. injection E as ->.
    assert (In (dist x b) (q :: s)) as J.
    { apply (Permutation_in _ (Permutation_sym HP)). apply in_map. exact I. }
    inversion HS as [|? ? _ F]; subst. destruct J as [<-|J]; [apply Qle_refl|].
    rewrite Forall_forall in F. apply F. exact J.
  Qed.

  Lemma last_distance_spec : forall aux k x ns q, kneighbors dist order aux (k + 1) x = Ok ns ->
    last_distance ns = Ok q -> KthDistance dist aux x k q.
  Proof.
    intros aux k x ns q E El. destruct (kneighbors_spec _ _ _ _ E) as (L1 & L2 & L3).
    unfold last_distance in El. destruct (rev ns) as [|dn r] eqn:Er; [discriminate|]. injection El as <-.
    apply (f_equal (@rev _)) in Er. rewrite rev_involutive in Er. simpl in Er.
    assert (nth_error ns k = Some dn) as En.
    { rewrite Er, app_length in L2. simpl in L2. rewrite Er, nth_error_app2 by lia.
      replace (k - length (rev r)) with 0 by lia. reflexivity. }
    destruct (L3 k dn En) as [K _]. exact K.
  Qed.

  Lemma last_distance_ok : forall aux k x, k < length aux ->
    exists ns q, kneighbors dist order aux (k + 1) x = Ok ns /\ last_distance ns = Ok q.
  Proof.
    intros aux k x L. destruct (kneighbors dist order aux (k + 1) x) as [ns|e] eqn:E.
    - destruct (kneighbors_spec _ _ _ _ E) as (_ & L2 & _). exists ns. unfold last_distance.
      destruct (rev ns) as [|dn r] eqn:Er.
      + apply (f_equal (@length _)) in Er. rewrite rev_length in Er. simpl in Er. lia.
      + eauto.
    - unfold kneighbors in E. destruct (length aux <? k + 1) eqn:El; [|discriminate]. apply Nat.ltb_lt in El. lia.
  Qed.

  (** *** Matching *)
  Definition references_exist (m : @matcher P) : Prop :=
    match m_strategy m with
    | NoRescaling => True
    | RandomPairs _ _ => exists q, m_ref m = Some q /\ ~ (q == 0)%Q
    | SelfJoinNeighbor k | OtherNeighbor k => k < length (m_aux m)
    end.

  Definition RowMatched (m : @matcher P) (max_dist : ext) (x : P) (r : match_row) : Prop :=
    Nearest dist (m_aux m) x (r_index r) (r_distance r) /\
    exists ref, ReferenceFor dist (m_aux m) (m_strategy m) (m_ref m) x (r_index r) ref /\
      RescaledTo (r_distance r) ref (r_rescaled r) /\
      (r_accepted r = true <-> Within (r_rescaled r) max_dist).

  Theorem match_spec : forall m main max_dist, m_aux m <> [] -> main <> [] -> references_exist m ->
    exists rows, match_ dist order m main max_dist = Ok rows /\
      Forall2 (RowMatched m max_dist) main rows.
  Proof.
    intros m main max_dist Ha Hm HR. unfold match_.
    assert (HN : exists near, mapM (fun x => let! ns := kneighbors dist order (m_aux m) 1 x in
                   match ns with [dn] => Ok dn | _ => Err ValueError end) main = Ok near /\
                 Forall2 (fun x dn => Nearest dist (m_aux m) x (snd dn) (fst dn)) main near).
    { assert (G : forall l, exists near, mapM (fun x => let! ns := kneighbors dist order (m_aux m) 1 x in
                   match ns with [dn] => Ok dn | _ => Err ValueError end) l = Ok near /\
                 Forall2 (fun x dn => Nearest dist (m_aux m) x (snd dn) (fst dn)) l near).
      { induction l as [|x l (near & E1 & E2)]; [exists []; split; [reflexivity|constructor]|].
        destruct (kneighbors dist order (m_aux m) 1 x) as [ns|e] eqn:E.
        2:{ unfold kneighbors in E. destruct (length (m_aux m) <? 1) eqn:El; [|discriminate]. apply Nat.ltb_lt in El.
            destruct (m_aux m); [congruence|simpl in El; lia]. }
        destruct (kneighbors_spec _ _ _ _ E) as (_ & L & K). destruct ns as [|dn [|? ?]]; try discriminate L.
        exists (dn :: near). simpl. rewrite E. cbn [bind]. rewrite E1. split; [reflexivity|].
        constructor; [|exact E2]. destruct (K 0 dn eq_refl) as (K0 & a & Ka & Kd). exists a.
        split; [exact Ka|]. split; [exact Kd|]. apply kth0_least. exact K0. }
      apply G. }
    destruct HN as (near & E1 & FN). rewrite E1. cbn [bind].
    assert (Len : length near = length main) by (symmetry; apply (Forall2_len _ _ _ FN)).
    assert (HRef : exists refs rescaled,
       get_reference_distances dist order m main (map snd near) = Ok refs /\
       rescale_distances (map fst near) refs = Ok rescaled /\ length rescaled = length near /\
       forall i x dn r, nth_error main i = Some x -> nth_error near i = Some dn -> nth_error rescaled i = Some r ->
         exists ref, ReferenceFor dist (m_aux m) (m_strategy m) (m_ref m) x (snd dn) ref /\ RescaledTo (fst dn) ref r).
    { assert (Scal : forall q, ~ (q == 0)%Q ->
         (forall x i, ReferenceFor dist (m_aux m) (m_strategy m) (m_ref m) x i q) ->
         exists rescaled, rescale_distances (map fst near) (Scalar q) = Ok rescaled /\ length rescaled = length near /\
         forall i x dn r, nth_error main i = Some x -> nth_error near i = Some dn -> nth_error rescaled i = Some r ->
         exists ref, ReferenceFor dist (m_aux m) (m_strategy m) (m_ref m) x (snd dn) ref /\ RescaledTo (fst dn) ref r).
      { intros q Nq HF. rewrite rescale_scalar by exact Nq. eexists. split; [reflexivity|].
        split; [rewrite !map_length; reflexivity|]. intros i x dn r _ Ed Er.
        rewrite map_map, nth_error_map, Ed in Er. cbn in Er. injection Er as <-. exists q. split; [apply HF|].
        apply fix_zeros_spec. }
      assert (Rows : forall refs, length refs = length near ->
         (forall i x dn q, nth_error main i = Some x -> nth_error near i = Some dn -> nth_error refs i = Some q ->
            ReferenceFor dist (m_aux m) (m_strategy m) (m_ref m) x (snd dn) q) ->
         exists rescaled, rescale_distances (map fst near) (PerRow refs) = Ok rescaled /\ length rescaled = length near /\
         forall i x dn r, nth_error main i = Some x -> nth_error near i = Some dn -> nth_error rescaled i = Some r ->
         exists ref, ReferenceFor dist (m_aux m) (m_strategy m) (m_ref m) x (snd dn) ref /\ RescaledTo (fst dn) ref r).
      { intros refs Lr HF. destruct (rescale_per_row (map fst near) refs) as (l & E & Ll & Hl).
        - rewrite map_length. exact Lr.
        - rewrite map_length in Ll. exists l. split; [exact E|]. split; [exact Ll|].
          intros i x dn r Ex Ed Er.
          destruct (nth_error refs i) as [q|] eqn:Eq.
          2:{ apply nth_error_None in Eq. assert (i < length near) by (apply nth_error_Some; congruence). lia. }
          destruct (Hl i (fst dn) q) as (r' & Er' & HT); [rewrite nth_error_map, Ed; reflexivity|exact Eq|].
          exists q. split; [eapply HF; eassumption|]. congruence. }
      assert (MF : forall (A : Type) (f : A -> res Q) l, (forall a, In a l -> exists q, f a = Ok q) ->
                exists qs, mapM f l = Ok qs).
      { intros A f. induction l as [|a l IH]; intros Hl; simpl; [eauto|].
        destruct (Hl a (or_introl eq_refl)) as [q Eq]. rewrite Eq. cbn [bind].
        destruct IH as [qs Eqs]; [intros b I; apply Hl; right; exact I|]. rewrite Eqs. cbn [bind]. eexists. reflexivity. }
      assert (F2n : forall (A B : Type) (R : A -> B -> Prop) l l', Forall2 R l l' ->
                forall i a b, nth_error l i = Some a -> nth_error l' i = Some b -> R a b).
      { intros A B R l l' F. induction F as [|a b l l' Hab F IH]; intros i a' b' Ea Eb; [destruct i; discriminate|].
        destruct i as [|i]; simpl in *; [congruence|]. eapply IH; eassumption. }
      unfold references_exist in HR. unfold get_reference_distances.
      destruct (m_strategy m) as [|pc n|k|k] eqn:Es.
      - destruct (Scal 1%Q) as (rs & H1 & H2 & H3); [discriminate|reflexivity|].
        exists (Scalar 1), rs. auto.
      - destruct HR as (q & Eq & Nq). rewrite Eq. destruct (Scal q) as (rs & H1 & H2 & H3); [exact Nq|intros x i; exact Eq|].
        rewrite Eq in H3. exists (Scalar q), rs. auto.
      - destruct (MF _ (fun i => match nth_error (m_aux m) i with
                                 | None => Err IndexError
                                 | Some a => let! ns := kneighbors dist order (m_aux m) (k + 1) a in last_distance ns
                                 end) (map snd near)) as [qs Eqs].
        { intros i I. apply in_map_iff in I. destruct I as (dn & <- & I).
          destruct (Forall2_in_r _ _ _ _ FN I) as (x & _ & a & Ea & _). rewrite Ea.
          destruct (last_distance_ok (m_aux m) k a HR) as (ns & q & E2 & E3). rewrite E2. cbn [bind]. exists q. exact E3. }
        rewrite Eqs. cbn [bind]. apply mapM_Forall2 in Eqs.
        destruct (Rows qs) as (rs & H1 & H2 & H3).
        + rewrite <- (Forall2_len _ _ _ Eqs), map_length. reflexivity.
        + intros i x dn q _ Ed Eq. pose proof (F2n _ _ _ _ _ Eqs i (snd dn) q) as H.
          rewrite nth_error_map, Ed in H. specialize (H eq_refl Eq). cbn beta in H.
          destruct (nth_error (m_aux m) (snd dn)) as [a|] eqn:Ea; [|discriminate].
          destruct (kneighbors dist order (m_aux m) (k + 1) a) as [ns|] eqn:En; cbn [bind] in H; [|discriminate].
          exists a. split; [exact Ea|]. eapply last_distance_spec; eassumption.
        + exists (PerRow qs), rs. auto.
      - destruct (MF _ (fun x => let! ns := kneighbors dist order (m_aux m) (k + 1) x in last_distance ns) main) as [qs Eqs].
        { intros x _. destruct (last_distance_ok (m_aux m) k x HR) as (ns & q & E2 & E3). rewrite E2. cbn [bind]. exists q. exact E3. }
        rewrite Eqs. cbn [bind]. apply mapM_Forall2 in Eqs.
        destruct (Rows qs) as (rs & H1 & H2 & H3).
        + rewrite <- (Forall2_len _ _ _ Eqs). symmetry. exact Len.
        + intros i x dn q Ex _ Eq. pose proof (F2n _ _ _ _ _ Eqs i x q Ex Eq) as H. cbn beta in H.
          destruct (kneighbors dist order (m_aux m) (k + 1) x) as [ns|] eqn:En; cbn [bind] in H; [|discriminate].
          eapply last_distance_spec; eassumption.
        + exists (PerRow qs), rs. auto. }
    destruct HRef as (refs & rs & R1 & R2 & R3 & R4). rewrite R1. cbn [bind]. rewrite R2. cbn [bind].
    destruct main as [|x0 main0] eqn:Em; [congruence|]. rewrite <- Em in *. clear Em x0 main0 Hm.
    eexists. split; [reflexivity|]. clear E1 R1 R2 Len.
    revert rs R3 R4. induction FN as [|x dn main near HN FN IH]; intros rs R3 R4; destruct rs as [|r rs]; try discriminate; [constructor|].
    simpl. constructor.
    - destruct (R4 0 x dn r eq_refl eq_refl eq_refl) as (ref & H1 & H2).
      split; [exact HN|]. exists ref. cbn. split; [exact H1|]. split; [exact H2|]. apply ext_le_spec.
    - apply IH; [simpl in R3; lia|]. intros i x' dn' r' Ex Ed Er. exact (R4 (S i) x' dn' r' Ex Ed Er).
  Qed.

  Lemma RowMatched_mono : forall m d1 d2 main rows1 rows2,
    match_ dist order m main d1 = Ok rows1 -> match_ dist order m main d2 = Ok rows2 ->
    Within d1 d2 ->
    Forall2 (fun r1 r2 => r_index r2 = r_index r1 /\ r_distance r2 = r_distance r1 /\ r_rescaled r2 = r_rescaled r1 /\
                          (r_accepted r1 = true -> r_accepted r2 = true)) rows1 rows2.
  Proof.
    intros m d1 d2 main rows1 rows2 E1 E2 W. unfold match_ in *. destruct main as [|x main]; [discriminate|].
    destruct (mapM _ (x :: main)) as [near|]; cbn [bind] in *; [|discriminate].
    destruct (get_reference_distances _ _ _ _ _) as [refs|]; cbn [bind] in *; [|discriminate].
    destruct (rescale_distances _ _) as [rs|]; cbn [bind] in *; [|discriminate].
    injection E1 as <-. injection E2 as <-. induction (combine near rs) as [|nr l IH]; simpl; constructor; [|exact IH].
    cbn. repeat split. intros A. apply ext_le_spec. apply ext_le_spec in A. eapply within_trans; eassumption.
  Qed.
End Neighbours.

(** *** Samples *)
Lemma sample_parts_spec : forall draws n found parts out, sample_parts draws n found parts = Some out ->
  length (concat parts) = found ->
  n <= length (concat out) /\
  (forall p, In p (concat out) -> In p (concat parts) \/ (In p (concat draws) /\ fst p <> snd p)).
Proof.
  induction draws as [|d draws IH]; intros n found parts out E L; simpl in E.
  - destruct (n <=? found) eqn:El; [|discriminate]. injection E as <-. apply Nat.leb_le in El. split; [lia|tauto].
  - destruct (n <=? found) eqn:El.
    + injection E as <-. apply Nat.leb_le in El. split; [lia|tauto].
    + apply IH in E.
      * destruct E as [E1 E2]. split; [exact E1|]. intros p I. destruct (E2 p I) as [J|[J N]].
        -- rewrite concat_app in J. apply in_app_or in J. destruct J as [J|J]; [tauto|]. right.
           simpl in J. rewrite app_nil_r in J. apply filter_In in J. destruct J as [J N]. split.
           ++ simpl. apply in_or_app. left. exact J.
           ++ apply negb_true_iff, Nat.eqb_neq in N. exact N.
        -- right. split; [simpl; apply in_or_app; right; exact J|exact N].
      * rewrite concat_app, app_length, L. simpl. rewrite app_nil_r. reflexivity.
Qed.

Lemma firstn_In : forall {A} n (l : list A) x, In x (firstn n l) -> In x l.
Proof. intros A n l x I. rewrite <- (firstn_skipn n l). apply in_or_app. left. exact I. Qed.

Lemma sample_pairs_spec : forall n_items n_pairs draws pairs,
  sample_pairs n_items n_pairs draws = Ok (Some pairs) ->
  length pairs = n_pairs /\
  (forall p, In p pairs -> In p (concat draws) /\ fst p <> snd p).
Proof.
  intros n_items n_pairs draws pairs E. unfold sample_pairs in E.
  destruct (negb (1 <? n_items)); [discriminate|]. destruct (negb (0 <? n_pairs)); [discriminate|].
  destruct (sample_parts draws n_pairs 0 []) as [parts|] eqn:Es; [|discriminate]. injection E as <-.
  destruct (sample_parts_spec _ _ _ _ _ Es eq_refl) as [L H]. split; [rewrite firstn_length; lia|].
  intros p I. apply firstn_In in I. destruct (H p I) as [[]|J]. exact J.
Qed.

(** *** Percentiles *)
Lemma insert_perm : forall x l, Permutation (insert x l) (x :: l).
Proof.
  induction l as [|y l IH]; simpl; [apply Permutation_refl|].
  destruct (Qle_bool x y); [apply Permutation_refl|].
  eapply Permutation_trans; [apply perm_skip; exact IH|apply perm_swap].
Qed.
Lemma qsort_perm : forall l, Permutation (qsort l) l.
Proof.
  induction l as [|x l IH]; simpl; [constructor|].
  eapply Permutation_trans; [apply insert_perm|apply perm_skip; exact IH].
Qed.
Lemma insert_sorted : forall x l, StronglySorted Qle l -> StronglySorted Qle (insert x l).
Proof.
  intros x l S. induction S as [|y l S IH F]; simpl; [repeat constructor|].
  destruct (Qle_bool x y) eqn:E.
  - apply Qle_bool_iff in E. constructor; [constructor; assumption|]. constructor; [exact E|].
    rewrite Forall_forall in *. intros z I. eapply Qle_trans; [exact E|]. apply F. exact I.
  - assert (L : (y <= x)%Q).
    { destruct (Qlt_le_dec y x) as [H|H]; [apply Qlt_le_weak; exact H|]. apply Qle_bool_iff in H. congruence. }
    constructor; [exact IH|]. rewrite Forall_forall in *. intros z I.
    apply (Permutation_in _ (insert_perm x l)) in I. destruct I as [<-|I]; [exact L|]. apply F. exact I.
Qed.
Lemma qsort_sorted : forall l, StronglySorted Qle (qsort l).
Proof. induction l as [|x l IH]; simpl; [constructor|]. apply insert_sorted. exact IH. Qed.

Lemma sorted_nth : forall s i j, StronglySorted Qle s -> i <= j -> j < length s ->
  (nth i s 0 <= nth j s 0)%Q.
Proof.
  intros s i j S. revert i j. induction S as [|x s S IH F]; intros i j L1 L2; simpl in L2; [lia|].
  destruct j as [|j].
  - assert (i = 0) by lia. subst. apply Qle_refl.
  - destruct i as [|i]; simpl.
    + rewrite Forall_forall in F. apply F. apply nth_In. lia.
    + apply IH; lia.
Qed.

(** The percentile is between two consecutive values of the sorted sample, at the right place. *)
Lemma percentile_spec : forall l p q, percentile l p = Ok q ->
  exists i, i < length l /\ StronglySorted Qle (qsort l) /\ Permutation (qsort l) l /\
    (nth i (qsort l) 0 <= q)%Q /\ (q <= nth (Nat.min (S i) (length l - 1)) (qsort l) 0)%Q /\
    (inject_Z (Z.of_nat i) <= inject_Z (Z.of_nat (length l - 1)) * (p / 100))%Q /\
    (inject_Z (Z.of_nat (length l - 1)) * (p / 100) < inject_Z (Z.of_nat (S i)))%Q.
Proof.
  intros l p q E. unfold percentile in E. destruct l as [|x0 l0] eqn:El; [discriminate|]. rewrite <- El in *.
  assert (Hpos : 0 < length l) by (rewrite El; simpl; lia). clear El x0 l0.
  destruct (Qle_bool 0 p && Qle_bool p 100) eqn:Ep; [|discriminate]. injection E as <-.
  apply andb_true_iff in Ep. destruct Ep as [P0 P1]. apply Qle_bool_iff in P0, P1.
  set (m := length l - 1) in *. set (v := (inject_Z (Z.of_nat m) * (p / 100))%Q).
  assert (V0 : (0 <= v)%Q).
  { unfold v. apply Qmult_le_0_compat.
    - change 0%Q with (inject_Z 0). rewrite <- Zle_Qle. lia.
    - apply Qle_shift_div_l; [reflexivity|]. rewrite Qmult_0_l. exact P0. }
  assert (V1 : (v <= inject_Z (Z.of_nat m))%Q).
  { unfold v. rewrite <- (Qmult_1_r (inject_Z (Z.of_nat m))) at 2.
    rewrite Qmult_comm, (Qmult_comm _ 1). apply Qmult_le_compat_r.
    - apply Qle_shift_div_r; [reflexivity|]. rewrite Qmult_1_l. exact P1.
    - change 0%Q with (inject_Z 0). rewrite <- Zle_Qle. lia. }
  pose proof (Qfloor_le v) as F1. pose proof (Qlt_floor v) as F2.
  assert (Fl0 : (0 <= Qfloor v)%Z).
  { change 0%Z with (Qfloor 0). apply Qfloor_resp_le. exact V0. }
  assert (Fl1 : (Qfloor v <= Z.of_nat m)%Z).
  { rewrite <- (Qfloor_Z (Z.of_nat m)). apply Qfloor_resp_le. exact V1. }
  set (lo := Z.to_nat (Qfloor v)) in *.
  assert (Elo : Z.of_nat lo = Qfloor v) by (unfold lo; apply Z2Nat.id; exact Fl0).
  exists lo. split; [unfold m in *; lia|]. split; [apply qsort_sorted|]. split; [apply qsort_perm|].
  assert (Ls : length (qsort l) = length l) by (apply Permutation_length, qsort_perm).
  set (a := nth lo (qsort l) 0%Q). set (b := nth (Nat.min (S lo) m) (qsort l) 0%Q).
  assert (AB : (a <= b)%Q).
  { apply sorted_nth; [apply qsort_sorted|unfold m in *; lia|unfold m in *; lia]. }
  set (fr := (v - inject_Z (Qfloor v))%Q).
  assert (Fr0 : (0 <= fr)%Q) by (unfold fr; apply -> Qle_minus_iff; exact F1).
  assert (Fr1 : (fr <= 1)%Q).
  { unfold fr. rewrite inject_Z_plus in F2. change (inject_Z 1) with 1%Q in F2. lra. }
  assert (D0 : (0 <= b - a)%Q) by (apply -> Qle_minus_iff; exact AB).
  split; [|split; [|split]].
  - rewrite <- (Qplus_0_r a) at 1. apply Qplus_le_r. apply Qmult_le_0_compat; assumption.
  - apply (Qle_trans _ (a + 1 * (b - a))%Q); [|lra]. apply Qplus_le_r. apply Qmult_le_compat_r; assumption.
  - rewrite Elo. exact F1.
  - rewrite Nat2Z.inj_succ, Elo. exact F2.
Qed.

(** If all the sampled distances are null, so is the reference. *)
Lemma percentile_zero : forall l p q, percentile l p = Ok q -> (forall x, In x l -> (x == 0)%Q) -> (q == 0)%Q.
Proof.
  intros l p q E Z. destruct (percentile_spec l p q E) as (i & Li & _ & HP & H1 & H2 & _).
  assert (Ls : length (qsort l) = length l) by (apply Permutation_length, HP).
  assert (N : forall j, j < length l -> (nth j (qsort l) 0 == 0)%Q).
  { intros j Lj. apply Z. apply (Permutation_in _ HP). apply nth_In. lia. }
  rewrite (N i Li) in H1. rewrite (N (Nat.min (S i) (length l - 1))) in H2 by lia.
  apply Qle_antisym; assumption.
Qed.

(** *** Fit *)
Section Fit.
  Context {P : Type}.
  Variable dist : P -> P -> Q.

  Definition SampledDistances (aux : list P) (ds : list Q) : Prop :=
    forall d, In d ds -> exists i j a b, i <> j /\ nth_error aux i = Some a /\ nth_error aux j = Some b /\ d = dist a b.

  Lemma fit_spec : forall s draws aux m, fit dist s draws aux = Ok (Some m) ->
    m_aux m = aux /\ aux <> [] /\ m_strategy m = s /\
    match s with
    | RandomPairs percent n =>
        exists ds q, length ds = n /\ SampledDistances aux ds /\ m_ref m = Some q /\ percentile ds percent = Ok q
    | _ => True
    end.
  Proof.
    intros s draws aux m E. unfold fit in E. destruct aux as [|a0 aux0] eqn:Ea; [discriminate|]. rewrite <- Ea in *.
    assert (Na : aux <> []) by (rewrite Ea; discriminate). clear Ea a0 aux0.
    destruct s as [|pc n|k|k]; try (injection E as <-; cbn; auto; fail).
    destruct (n =? 0); [discriminate|]. destruct (length aux <=? 1); [discriminate|].
    destruct (sample_pairs (length aux) n draws) as [[pairs|]|] eqn:Es; cbn [bind] in E; try discriminate.
    destruct (mapM _ pairs) as [ds|] eqn:Ed; cbn [bind] in E; [|discriminate].
    destruct (percentile ds pc) as [q|] eqn:Eq; cbn [bind] in E; [|discriminate]. injection E as <-. cbn.
    repeat split; try assumption. exists ds, q. destruct (sample_pairs_spec _ _ _ _ Es) as [L H].
    apply mapM_Forall2 in Ed. split; [rewrite <- (Forall2_len _ _ _ Ed); exact L|]. split; [|auto].
    intros d I. destruct (Forall2_in_r _ _ _ _ Ed I) as ([i j] & Ip & E). cbn [fst snd] in E.
    destruct (nth_error aux i) as [a|] eqn:Ei; [|discriminate].
    destruct (nth_error aux j) as [b|] eqn:Ej; [|discriminate]. injection E as <-.
    exists i, j, a, b. destruct (H _ Ip) as [_ N]. auto.
  Qed.
End Fit.

(** *** An order of the neighbours, for the examples *)
Section Order.
  Context {P : Type}.
  Variable dist : P -> P -> Q.
  Definition dist_at (aux : list P) (x : P) (i : nat) : Q :=
    match nth_error aux i with Some a => dist x a | None => 0%Q end.
  Fixpoint insert_row (f : nat -> Q) (i : nat) (l : list nat) : list nat :=
    match l with [] => [i] | j :: l' => if Qle_bool (f i) (f j) then i :: l else j :: insert_row f i l' end.
  Definition by_distance (aux : list P) (k : nat) (x : P) : list nat :=
    fold_right (insert_row (dist_at aux x)) [] (seq 0 (length aux)).

  Lemma insert_row_perm : forall f i l, Permutation (insert_row f i l) (i :: l).
  Proof.
    induction l as [|j l IH]; simpl; [apply Permutation_refl|].
    destruct (Qle_bool (f i) (f j)); [apply Permutation_refl|].
    eapply Permutation_trans; [apply perm_skip; exact IH|apply perm_swap].
  Qed.
  Lemma insert_row_sorted : forall f i l, StronglySorted (fun a b => (f a <= f b)%Q) l ->
    StronglySorted (fun a b => (f a <= f b)%Q) (insert_row f i l).
  Proof.
    intros f i l S. induction S as [|j l S IH F]; simpl; [repeat constructor|].
    destruct (Qle_bool (f i) (f j)) eqn:E.
    - apply Qle_bool_iff in E. constructor; [constructor; assumption|]. constructor; [exact E|].
      rewrite Forall_forall in *. intros z I. eapply Qle_trans; [exact E|]. apply F. exact I.
    - assert (L : (f j <= f i)%Q).
      { destruct (Qlt_le_dec (f j) (f i)) as [H|H]; [apply Qlt_le_weak; exact H|]. apply Qle_bool_iff in H. congruence. }
      constructor; [exact IH|]. rewrite Forall_forall in *. intros z I.
      apply (Permutation_in _ (insert_row_perm f i l)) in I. destruct I as [<-|I]; [exact L|]. apply F. exact I.
  Qed.
  Lemma by_distance_ok : is_order dist by_distance.
  Proof.
    intros aux k x. unfold by_distance. split.
    - induction (seq 0 (length aux)) as [|i l IH]; simpl; [constructor|].
      eapply Permutation_trans; [apply insert_row_perm|apply perm_skip; exact IH].
    - assert (S : StronglySorted (fun i j => (dist_at aux x i <= dist_at aux x j)%Q)
                    (fold_right (insert_row (dist_at aux x)) [] (seq 0 (length aux)))).
      { induction (seq 0 (length aux)) as [|i l IH]; simpl; [constructor|]. apply insert_row_sorted. exact IH. }
      induction S as [|i l S IH F]; constructor; [exact IH|].
      rewrite Forall_forall in *. intros j I a b Ea Eb. specialize (F j I). unfold dist_at in F. rewrite Ea, Eb in F. exact F.
  Qed.
End Order.

(** *** Fitting then matching *)
Section FitMatch.
  Context {P : Type}.
  Variable dist : P -> P -> Q.
  Variable order : list P -> nat -> P -> list nat.
  Hypothesis order_ok : is_order dist order.

  Lemma fit_match : forall s draws aux m main max_dist,
    fit dist s draws aux = Ok (Some m) -> main <> [] ->
    match s with
    | NoRescaling => True
    | RandomPairs percent n => forall q, m_ref m = Some q -> ~ (q == 0)%Q
    | SelfJoinNeighbor k | OtherNeighbor k => k < length aux
    end ->
    exists rows, match_ dist order m main max_dist = Ok rows /\
      Forall2 (fun x r =>
        Nearest dist aux x (r_index r) (r_distance r) /\
        exists ref,
          match s with
          | NoRescaling => ref = 1%Q
          | RandomPairs percent n => exists ds, length ds = n /\ SampledDistances dist aux ds /\ percentile ds percent = Ok ref
          | SelfJoinNeighbor k => exists a, nth_error aux (r_index r) = Some a /\ KthDistance dist aux a k ref
          | OtherNeighbor k => KthDistance dist aux x k ref
          end /\
          RescaledTo (r_distance r) ref (r_rescaled r) /\
          (r_accepted r = true <-> Within (r_rescaled r) max_dist)) main rows.
  Proof.
    intros s draws aux m main max_dist E Hm HR.
    destruct (fit_spec dist s draws aux m E) as (Ea & Na & Es & Hs).
    destruct (match_spec dist order order_ok m main max_dist) as (rows & E1 & F).
    - rewrite Ea. exact Na.
    - exact Hm.
    - unfold references_exist. rewrite Es, Ea. destruct s as [|pc n|k|k]; try exact HR.
      destruct Hs as (ds & q & _ & _ & Eq & _). exists q. split; [exact Eq|]. apply HR. exact Eq.
    - exists rows. split; [exact E1|].
      apply (fun Hh => Forall2_impl_in _ _ _ _ Hh F). intros x r _ _ (HN & ref & H1 & H2 & H3).
      rewrite Ea in HN. split; [exact HN|]. exists ref. split; [|auto].
      rewrite Ea, Es in H1. unfold ReferenceFor in H1. destruct s as [|pc n|k|k]; try exact H1.
      destruct Hs as (ds & q & Hd & HS & Eq & Ep). exists ds. split; [exact Hd|]. split; [exact HS|]. congruence.
  Qed.

  Lemma zero_reference : forall percent n draws aux m main max_dist,
    fit dist (RandomPairs percent n) draws aux = Ok (Some m) -> main <> [] ->
    (forall a b, In a aux -> In b aux -> (dist a b == 0)%Q) ->
    match_ dist order m main max_dist = Err ValueError.
  Proof.
    intros percent n draws aux m main max_dist E Hm Z.
    destruct (fit_spec dist _ draws aux m E) as (Ea & Na & Es & ds & q & Hd & HS & Eq & Ep).
    assert (Zq : (q == 0)%Q).
    { apply (percentile_zero _ _ _ Ep). intros d I. destruct (HS d I) as (i & j & a & b & _ & Ei & Ej & ->).
      apply Z; eapply nth_error_In; eassumption. }
    unfold match_. destruct main as [|x main]; [congruence|]. clear Hm.
    assert (HN : exists near, mapM (fun x => let! ns := kneighbors dist order (m_aux m) 1 x in
                   match ns with [dn] => Ok dn | _ => Err ValueError end) (x :: main) = Ok near).
    { induction (x :: main) as [|y l (near & E1)]; [exists []; reflexivity|].
      destruct (kneighbors dist order (m_aux m) 1 y) as [ns|e] eqn:E2.
      2:{ unfold kneighbors in E2. destruct (length (m_aux m) <? 1) eqn:El; [|discriminate]. apply Nat.ltb_lt in El.
          rewrite Ea in El. destruct aux; [congruence|simpl in El; lia]. }
      destruct (kneighbors_spec dist order order_ok _ _ _ _ E2) as (_ & L & _).
      destruct ns as [|dn [|? ?]]; try discriminate L. exists (dn :: near). simpl. rewrite E2. cbn [bind].
      rewrite E1. reflexivity. }
    destruct HN as [near EN]. rewrite EN. cbn [bind]. unfold get_reference_distances. rewrite Es, Eq. cbn [bind].
    rewrite rescale_scalar_zero; [reflexivity|exact Zq|].
    apply mapM_Forall2, Forall2_len in EN. destruct near; [discriminate EN|discriminate].
  Qed.
End FitMatch.
