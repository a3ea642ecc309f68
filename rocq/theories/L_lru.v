(** Specification of the LRU cache by the history of operations, and lemmas. *)
From Verif Require Import Base M_lru.

Section Spec.
  Context {K V : Type} `{EqD K}.

  (** ** Independent specification (does not mention the cache structure).
      Histories are given newest operation first. *)

  (** keys met before the first occurrence of [k] *)
  Fixpoint before_first (k : K) (l : list K) : list K :=
    match l with
    | [] => []
    | x :: l' => if eqd x k then [] else x :: before_first k l'
    end.
  (** number of distinct keys touched since [k] was last touched *)
  Definition distinct_since (k : K) (ts : list K) : nat :=
    length (nodup eqd (before_first k ts)).
  Definition spec_live (cap : nat) (ts : list K) (k : K) : bool :=
    mem k ts && (distinct_since k ts <? cap).
  (** touches of a history, newest first: a write touches its key, a read touches its key
      if it is found, a membership test touches nothing. *)
  Fixpoint spec_touches (cap : nat) (h : list (lru_op K V)) : list K :=
    match h with
    | [] => []
    | OSet k _ :: h' => k :: spec_touches cap h'
    | OGet k :: h' => if spec_live cap (spec_touches cap h') k
                      then k :: spec_touches cap h' else spec_touches cap h'
    | OIn _ :: h' => spec_touches cap h'
    end.
  Fixpoint spec_last_write (k : K) (h : list (lru_op K V)) : option V :=
    match h with
    | [] => None
    | OSet k' v :: h' => if eqd k k' then Some v else spec_last_write k h'
    | _ :: h' => spec_last_write k h'
    end.
  (** answer to operation [o] after history [h] (newest first) *)
  Definition spec_answer (cap : nat) (h : list (lru_op K V)) (o : lru_op K V) : lru_out V :=
    match o with
    | OGet k => RVal (if spec_live cap (spec_touches cap h) k then spec_last_write k h else None)
    | OSet _ _ => RUnit
    | OIn k => RBool (spec_live cap (spec_touches cap h) k)
    end.
  Fixpoint spec_answers (cap : nat) (h : list (lru_op K V)) (ops : list (lru_op K V))
    : list (lru_out V) :=
    match ops with
    | [] => []
    | o :: ops' => spec_answer cap h o :: spec_answers cap (o :: h) ops'
    end.

  (** ** Lemmas *)
  (* distinct keys in order of first occurrence *)
  Fixpoint nub (l : list K) : list K :=
    match l with
    | [] => []
    | x :: l' => x :: remove eqd x (nub l')
    end.

  Lemma nub_In : forall l x, In x (nub l) <-> In x l.
  Proof.
    induction l as [|a l IH]; simpl; intros x; [tauto|].
    split.
    - intros [E|I]; [auto|]. apply in_remove in I. right. apply IH. tauto.
    - intros [E|I]; [auto|]. destruct (eqd x a) as [E|N]; [auto|].
      right. apply in_in_remove; [exact N|]. apply IH; exact I.
  Qed.

  Lemma NoDup_remove' : forall l (x : K), NoDup l -> NoDup (remove eqd x l).
  Proof.
    induction l as [|a l IH]; simpl; intros x N; [constructor|].
    inversion N; subst. destruct (eqd x a); [apply IH; assumption|].
    constructor; [|apply IH; assumption].
    intros I. apply in_remove in I. tauto.
  Qed.

  Lemma nub_NoDup : forall l, NoDup (nub l).
  Proof.
    induction l as [|a l IH]; simpl; constructor.
    - apply remove_In.
    - apply NoDup_remove'; exact IH.
  Qed.

  Lemma before_first_remove : forall l k a, a <> k ->
    before_first k (remove eqd a l) = remove eqd a (before_first k l).
  Proof.
    induction l as [|b l IH]; simpl; intros k a N; [reflexivity|].
    destruct (eqd a b) as [E|Nb].
    - subst b. destruct (eqd a k) as [E|N']; [congruence|].
      simpl. destruct (eqd a a); [|congruence]. apply IH; exact N.
    - simpl. destruct (eqd b k) as [E|N'].
      + reflexivity.
      + simpl. destruct (eqd a b) as [E|_]; [congruence|]. f_equal. apply IH; exact N.
  Qed.

  Lemma before_first_nub : forall l k, before_first k (nub l) = nub (before_first k l).
  Proof.
    induction l as [|a l IH]; simpl; intros k; [reflexivity|].
    destruct (eqd a k) as [E|N]; [reflexivity|]. simpl. f_equal.
    rewrite before_first_remove by exact N. rewrite IH. reflexivity.
  Qed.

  Lemma nub_length_nodup : forall l, length (nub l) = length (nodup eqd l).
  Proof.
    intros l. apply Permutation_length. apply NoDup_Permutation.
    - apply nub_NoDup.
    - apply NoDup_nodup.
    - intros x. rewrite nub_In, nodup_In. tauto.
  Qed.

  Lemma In_firstn_before : forall l k n, In k l ->
    (In k (firstn n l) <-> length (before_first k l) < n).
  Proof.
    induction l as [|a l IH]; simpl; intros k n I; [tauto|].
    destruct (eqd a k) as [E|N].
    - subst. simpl. destruct n; simpl; [|split; [lia|auto]]. split; [tauto|lia].
    - destruct I as [E|I]; [congruence|]. destruct n; simpl; [split; [tauto|lia]|].
      rewrite <- Nat.succ_lt_mono. rewrite <- IH by exact I. split; [|auto].
      intros [E|I']; [congruence|exact I'].
  Qed.

  Lemma live_iff : forall cap ts k,
    spec_live cap ts k = true <-> In k (firstn cap (nub ts)).
  Proof.
    intros cap ts k. unfold spec_live, distinct_since. rewrite andb_true_iff, mem_true.
    rewrite Nat.ltb_lt. rewrite <- nub_length_nodup, <- before_first_nub. split.
    - intros [I L]. apply In_firstn_before; [apply nub_In; exact I|exact L].
    - intros I.
      assert (I' : In k (nub ts)).
      { rewrite <- (firstn_skipn cap (nub ts)). apply in_or_app. left; exact I. }
      split; [apply nub_In; exact I'|]. apply In_firstn_before; assumption.
  Qed.

  (* association list facts *)
  Definition pairs (h : list (lru_op K V)) (ks : list K) : list (K * option V) :=
    map (fun k => (k, spec_last_write k h)) ks.

  Lemma dget_app_r : forall (d : dict K V) k v, ~ In k (map fst d) ->
    dget k (d ++ [(k, v)]) = Some v.
  Proof.
    induction d as [|[a b] d IH]; simpl; intros k v N.
    - destruct (eqd k k); congruence.
    - destruct (eqd k a) as [E|_]; [subst; tauto|]. apply IH; tauto.
  Qed.

  Lemma dget_In : forall (d : dict K V) k v, NoDup (map fst d) ->
    (dget k d = Some v <-> In (k, v) d).
  Proof.
    induction d as [|[a b] d IH]; simpl; intros k v N; [split; [discriminate|tauto]|].
    inversion N as [|? ? N1 N2]; subst. destruct (eqd k a) as [E|Ne].
    - subst. split.
      + intros E. left. congruence.
      + intros [E|I]; [congruence|]. exfalso. apply N1.
        change a with (fst (a, v)). apply in_map; exact I.
    - rewrite IH by exact N2. split; [auto|]. intros [E|I]; [congruence|exact I].
  Qed.

  Lemma dget_None : forall (d : dict K V) k, dget k d = None <-> ~ In k (map fst d).
  Proof.
    induction d as [|[a b] d IH]; simpl; intros k; [tauto|].
    destruct (eqd k a) as [E|Ne].
    - subst. split; [discriminate|tauto].
    - rewrite IH. split; intros A; [intros [E|I]|]; [congruence|tauto|tauto].
  Qed.

  Lemma ddel_filter : forall (d : dict K V) k, NoDup (map fst d) ->
    map fst (ddel k d) = remove eqd k (map fst d).
  Proof.
    induction d as [|[a b] d IH]; simpl; intros k N; [reflexivity|].
    inversion N as [|? ? N1 N2]; subst. destruct (eqd k a) as [E|Ne].
    - subst. rewrite notin_remove; [reflexivity|exact N1].
    - simpl. f_equal. apply IH; exact N2.
  Qed.

  Lemma ddel_In : forall (d : dict K V) k x, NoDup (map fst d) ->
    (In x (ddel k d) <-> In x d /\ fst x <> k).
  Proof.
    induction d as [|[a b] d IH]; simpl; intros k x N; [tauto|].
    inversion N as [|? ? N1 N2]; subst. destruct (eqd k a) as [E|Ne].
    - subst. split.
      + intros I. split; [auto|]. intros E. subst. apply N1. apply in_map; exact I.
      + intros [[E|I] Nk]; [subst; simpl in Nk; congruence|exact I].
    - simpl. rewrite IH by exact N2. split.
      + intros [E|[I Nk]]; [subst; simpl; split; [auto|congruence]|tauto].
      + intros [[E|I] Nk]; tauto.
  Qed.

  Lemma remove_rev : forall (l : list K) k, remove eqd k (rev l) = rev (remove eqd k l).
  Proof.
    induction l as [|a l IH]; simpl; intros k; [reflexivity|].
    rewrite remove_app, IH. simpl. destruct (eqd k a); simpl; [apply app_nil_r|reflexivity].
  Qed.

  Lemma remove_firstn_notin : forall (l : list K) n k, NoDup l -> ~ In k (firstn (S n) l) ->
    firstn n (remove eqd k l) = firstn n l.
  Proof.
    induction l as [|a l IH]; simpl; intros n k N I; [reflexivity|].
    inversion N; subst. destruct (eqd k a) as [E|Ne]; [subst; tauto|].
    destruct n as [|n]; simpl; [reflexivity|]. f_equal. apply IH; [assumption|].
    intros I'. apply I. right. exact I'.
  Qed.

  Lemma remove_firstn_in : forall (l : list K) n k, NoDup l -> In k (firstn (S n) l) ->
    firstn n (remove eqd k l) = remove eqd k (firstn (S n) l).
  Proof.
    induction l as [|a l IH]; intros n k N I; [simpl; destruct n; reflexivity|].
    inversion N; subst. simpl remove. simpl firstn at 2. simpl in I.
    destruct (eqd k a) as [E|Ne].
    - subst. simpl. destruct (eqd a a); [|congruence].
      rewrite !notin_remove; [reflexivity| |assumption].
      intros I'. match goal with X : ~ In a l |- _ => apply X end.
      rewrite <- (firstn_skipn n l). apply in_or_app; left; exact I'.
    - simpl. destruct (eqd k a) as [E|_]; [congruence|].
      destruct I as [E|I]; [congruence|]. destruct n as [|n]; [simpl in I; tauto|].
      simpl. f_equal. apply IH; assumption.
  Qed.

  Lemma remove_length_in : forall (l : list K) k, NoDup l -> In k l ->
    S (length (remove eqd k l)) = length l.
  Proof.
    induction l as [|a l IH]; simpl; intros k N I; [tauto|]. inversion N; subst.
    destruct (eqd k a) as [E|Ne].
    - subst. rewrite notin_remove by assumption. reflexivity.
    - simpl. f_equal. apply IH; [assumption|]. destruct I; [congruence|assumption].
  Qed.

  (** the cache, oldest first, holds exactly the [cap] most recently touched keys with
      their last written value *)
  Definition Inv (cap : nat) (h : list (lru_op K V)) (s : lru K V) : Prop :=
    capacity s = cap /\
    map fst (cache s) = rev (firstn cap (nub (spec_touches cap h))) /\
    forall k v, In (k, v) (cache s) -> spec_last_write k h = Some v.

  Lemma NoDup_firstn : forall (l : list K) n, NoDup l -> NoDup (firstn n l).
  Proof.
    induction l as [|a l IH]; intros n N; destruct n; simpl; try constructor.
    - inversion N; subst. intros I. apply H2.
      rewrite <- (firstn_skipn n l). apply in_or_app; left; exact I.
    - inversion N; subst. apply IH; assumption.
  Qed.

  Lemma Inv_NoDup : forall cap h s, Inv cap h s -> NoDup (map fst (cache s)).
  Proof.
    intros cap h s (_ & E & _). rewrite E. apply NoDup_rev, NoDup_firstn, nub_NoDup.
  Qed.

  Lemma Inv_live : forall cap h s k, Inv cap h s ->
    (spec_live cap (spec_touches cap h) k = true <-> In k (map fst (cache s))).
  Proof.
    intros cap h s k (_ & E & _). rewrite E, <- in_rev. apply live_iff.
  Qed.

  Lemma Inv_dget : forall cap h s k, Inv cap h s ->
    dget k (cache s) =
    (if spec_live cap (spec_touches cap h) k then spec_last_write k h else None).
  Proof.
    intros cap h s k I. pose proof (Inv_live cap h s k I) as L.
    destruct (spec_live cap (spec_touches cap h) k) eqn:E.
    - destruct L as [L _]. specialize (L eq_refl). apply in_map_iff in L.
      destruct L as [[k' v] [Ek Iv]]. simpl in Ek. subst k'.
      destruct I as (Ec & Em & Ev). rewrite (Ev _ _ Iv).
      apply dget_In; [|exact Iv]. apply Inv_NoDup with (cap := cap) (h := h).
      repeat split; assumption.
    - apply dget_None. intros I'. apply L in I'. discriminate.
  Qed.

  Lemma dmem_eq : forall (d : dict K V) k,
    dmem k d = if in_dec eqd k (map fst d) then true else false.
  Proof.
    intros d k. unfold dmem. destruct (dget k d) eqn:E.
    - destruct (in_dec eqd k (map fst d)) as [|N]; [reflexivity|].
      apply dget_None in N. congruence.
    - apply dget_None in E. destruct (in_dec eqd k (map fst d)); [contradiction|reflexivity].
  Qed.

  Lemma Inv_contains : forall cap h s k, Inv cap h s ->
    lru_contains s k = spec_live cap (spec_touches cap h) k.
  Proof.
    intros cap h s k I. unfold lru_contains. rewrite dmem_eq.
    pose proof (Inv_live cap h s k I) as L.
    destruct (in_dec eqd k (map fst (cache s))) as [Hi|Hn].
    - symmetry. apply L; exact Hi.
    - destruct (spec_live cap (spec_touches cap h) k); [|reflexivity].
      exfalso. apply Hn, L. reflexivity.
  Qed.

  (* moving an existing key to the end *)
  Lemma Inv_touch_keys : forall cap ts (d : dict K V) k v, 0 < cap ->
    map fst d = rev (firstn cap (nub ts)) -> In k (firstn cap (nub ts)) ->
    map fst (ddel k d ++ [(k, v)]) = rev (firstn cap (nub (k :: ts))).
  Proof.
    intros cap ts d k v Hc E I. rewrite map_app, ddel_filter.
    2:{ rewrite E. apply NoDup_rev, NoDup_firstn, nub_NoDup. }
    rewrite E, remove_rev. simpl. destruct cap as [|n]; [lia|]. cbn [firstn rev].
    rewrite remove_firstn_in; [reflexivity|apply nub_NoDup|exact I].
  Qed.

  Lemma Inv_get : forall cap h s k, 0 < cap -> Inv cap h s ->
    Inv cap (OGet k :: h) (fst (lru_get s k)) /\
    RVal (snd (lru_get s k)) = spec_answer cap h (OGet k).
  Proof.
    intros cap h s k Hc I. unfold lru_get. rewrite (Inv_dget _ _ _ k I).
    unfold spec_answer. pose proof (Inv_live cap h s k I) as L.
    destruct (spec_live cap (spec_touches cap h) k) eqn:E.
    - pose proof (Inv_dget _ _ _ k I) as D. rewrite E in D.
      assert (In k (map fst (cache s))) as Ik by (apply L; reflexivity).
      destruct (spec_last_write k h) as [v|] eqn:W.
      2:{ apply dget_None in D. contradiction. }
      cbn [fst snd]. split; [|reflexivity].
      pose proof (Inv_NoDup _ _ _ I) as ND. destruct I as (Ec & Em & Ev).
      split; [exact Ec|]. split.
      + cbn [cache spec_touches]. rewrite E. apply Inv_touch_keys; [exact Hc|exact Em|].
        apply live_iff; exact E.
      + cbn [cache spec_last_write]. intros k' v' Iv. apply in_app_or in Iv.
        destruct Iv as [Iv|[Iv|[]]].
        * apply ddel_In in Iv; [|exact ND]. apply Ev. tauto.
        * injection Iv as <- <-. exact W.
    - cbn [fst snd]. split; [|reflexivity]. destruct I as (Ec & Em & Ev).
      split; [exact Ec|]. split; [|exact Ev]. cbn [spec_touches]. rewrite E. exact Em.
  Qed.

  Lemma Inv_set : forall cap h s k v, 0 < cap -> Inv cap h s ->
    exists s', lru_set s k v = Ok s' /\ Inv cap (OSet k v :: h) s'.
  Proof.
    intros cap h s k v Hc I. unfold lru_set.
    pose proof (Inv_contains cap h s k I) as C. unfold lru_contains in C. rewrite C.
    pose proof (Inv_NoDup _ _ _ I) as ND.
    pose proof (Inv_live cap h s k I) as L.
    destruct I as (Ec & Em & Ev). rewrite Ec.
    assert (VAL : forall (d : dict K V), (forall x, In x d -> In x (cache s) /\ fst x <> k) ->
      forall k' v', In (k', v') (d ++ [(k, v)]) ->
      spec_last_write k' (OSet k v :: h) = Some v').
    { intros d Hd k' v' Iv. apply in_app_or in Iv. cbn [spec_last_write].
      destruct Iv as [Iv|[Iv|[]]].
      - apply Hd in Iv. destruct Iv as [Iv Nk]. simpl in Nk.
        destruct (eqd k' k); [congruence|]. apply Ev; exact Iv.
      - injection Iv as <- <-. destruct (eqd k k); congruence. }
    destruct (spec_live cap (spec_touches cap h) k) eqn:E.
    - eexists; split; [reflexivity|]. split; [reflexivity|]. split.
      + cbn [cache spec_touches]. apply Inv_touch_keys; [exact Hc|exact Em|].
        apply live_iff; exact E.
      + cbn [cache]. apply VAL. intros x Ix. apply ddel_In in Ix; [exact Ix|exact ND].
    - assert (~ In k (map fst (cache s))) as Nk.
      { intros I'. apply L in I'. congruence. }
      assert (forall x, In x (cache s) -> fst x <> k) as Nkx.
      { intros x Ix Ek. apply Nk. rewrite <- Ek. apply in_map; exact Ix. }
      assert (~ In k (firstn cap (nub (spec_touches cap h)))) as Nf.
      { intros I'. apply Nk. rewrite Em. apply in_rev in I'. exact I'. }
      assert (length (cache s) = length (firstn cap (nub (spec_touches cap h)))) as Lc.
      { rewrite <- (map_length fst (cache s)), Em, rev_length. reflexivity. }
      destruct cap as [|n]; [lia|].
      destruct (S n <=? length (cache s)) eqn:Full.
      + apply Nat.leb_le in Full. destruct (cache s) as [|[k0 v0] c] eqn:Ecache.
        { simpl in Full. lia. }
        eexists; split; [reflexivity|]. split; [reflexivity|]. split.
        * cbn [cache spec_touches nub firstn rev].
          rewrite remove_firstn_notin; [|apply nub_NoDup|exact Nf].
          rewrite map_app. cbn [map fst].
          f_equal. cbn [map fst] in Em.
          set (l := nub (spec_touches (S n) h)) in *.
          rewrite firstn_length in Lc. cbn [length] in Lc, Full.
          assert (S n <= length l) as Ll by lia.
          assert (exists y, firstn (S n) l = firstn n l ++ [y]) as [y Ey].
          { clearbody l. clear -Ll. revert l Ll. induction n as [|n IH]; intros [|a l] Ll;
              simpl in Ll; try lia.
            - exists a. reflexivity.
            - destruct (IH l) as [y Ey]; [lia|]. exists y.
              change (firstn (S (S n)) (a :: l)) with (a :: firstn (S n) l).
              rewrite Ey. reflexivity. }
          rewrite Ey, rev_app_distr in Em. cbn in Em. congruence.
        * cbn [cache]. apply VAL. intros x Ix. split; [right; exact Ix|].
          apply Nkx. right; exact Ix.
      + apply Nat.leb_gt in Full.
        eexists; split; [reflexivity|]. split; [reflexivity|]. split.
        * cbn [cache spec_touches nub firstn rev].
          rewrite remove_firstn_notin; [|apply nub_NoDup|exact Nf].
          rewrite map_app. cbn [map fst]. f_equal. rewrite Em. f_equal.
          rewrite firstn_length in Lc.
          rewrite !firstn_all2; [reflexivity|lia|lia].
        * cbn [cache]. apply VAL. intros x Ix. split; [exact Ix|]. apply Nkx; exact Ix.
  Qed.

  Lemma Inv_step : forall cap h s o, 0 < cap -> Inv cap h s ->
    Inv cap (o :: h) (fst (lru_step s o)) /\ snd (lru_step s o) = spec_answer cap h o.
  Proof.
    intros cap h s o Hc I. destruct o as [k|k v|k]; cbn [lru_step].
    - pose proof (Inv_get cap h s k Hc I) as G. destruct (lru_get s k) as [s' v].
      exact G.
    - destruct (Inv_set cap h s k v Hc I) as [s' [E I']]. rewrite E. split; [exact I'|reflexivity].
    - cbn [fst snd]. rewrite (Inv_contains cap h s k I). split; [|reflexivity].
      exact I.
  Qed.

  Lemma Inv_init : forall cap, Inv cap [] (lru_init cap).
  Proof.
    intros cap. split; [reflexivity|]. split.
    - cbn. rewrite firstn_nil. reflexivity.
    - cbn. tauto.
  Qed.

  Lemma lru_run_spec : forall cap ops h s, 0 < cap -> Inv cap h s ->
    snd (lru_run s ops) = spec_answers cap h ops /\
    Inv cap (rev ops ++ h) (fst (lru_run s ops)).
  Proof.
    intros cap. induction ops as [|o ops IH]; intros h s Hc I; [split; [reflexivity|exact I]|].
    cbn [lru_run spec_answers].
    destruct (Inv_step cap h s o Hc I) as [I1 A1].
    destruct (lru_step s o) as [s1 r]. cbn [fst snd] in I1, A1.
    destruct (IH (o :: h) s1 Hc I1) as [A2 I2].
    destruct (lru_run s1 ops) as [s2 rs]. cbn [fst snd] in *. split; [congruence|].
    cbn [rev]. rewrite <- app_assoc. exact I2.
  Qed.

  Lemma lru_refines : forall cap (ops : list (lru_op K V)), 0 < cap ->
    snd (lru_run (lru_init cap) ops) = spec_answers cap [] ops.
  Proof. intros cap ops Hc. apply lru_run_spec; [exact Hc|apply Inv_init]. Qed.

  Lemma lru_size : forall cap (ops : list (lru_op K V)), 0 < cap ->
    let s := fst (lru_run (lru_init cap) ops) in
    length (cache s) <= cap /\ NoDup (dkeys (cache s)).
  Proof.
    intros cap ops Hc s.
    destruct (lru_run_spec cap ops [] (lru_init cap) Hc (Inv_init cap)) as [_ I].
    fold s in I. split; [|apply (Inv_NoDup _ _ _ I)].
    destruct I as (_ & Em & _). rewrite <- (map_length fst (cache s)), Em, rev_length, firstn_length.
    lia.
  Qed.

  Lemma lru_zero_capacity : forall k v,
    lru_run (lru_init 0) [OSet k v] = (lru_init 0, [RExn KeyError] : list (lru_out V)).
  Proof. intros. reflexivity. Qed.
End Spec.
