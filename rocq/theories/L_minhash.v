(** Lemmas on [unique_strings] and the batched, cached MinHash transform. *)
From Verif Require Import Base M_lru L_lru.

(** ** string order *)
Lemma insert_unique_In : forall l x y, In y (insert_unique x l) <-> y = x \/ In y l.
Proof.
  induction l as [|a l IH]; simpl; intros x y; [intuition|].
  destruct (String.compare x a) eqn:E.
  - apply String.compare_eq_iff in E. subst. simpl. intuition congruence.
  - simpl. intuition.
  - simpl. rewrite IH. intuition.
Qed.

Lemma np_unique_In : forall l x, In x (np_unique l) <-> In x l.
Proof.
  induction l as [|a l IH]; simpl; intros x; [tauto|].
  rewrite insert_unique_In, IH. intuition.
Qed.

(** the empty string sorts first *)
Lemma insert_unique_head : forall l x,
  (In EmptyString l -> exists r, l = EmptyString :: r) ->
  In EmptyString (insert_unique x l) -> exists r, insert_unique x l = EmptyString :: r.
Proof.
  intros l x IH I. apply insert_unique_In in I. destruct I as [E|I].
  - subst x. destruct l as [|a l]; simpl; [eauto|].
    destruct a as [|c a]; simpl; eauto.
  - destruct (IH I) as [r E]. subst l. simpl.
    destruct x as [|c x]; simpl; eauto.
Qed.

Lemma np_unique_head : forall l, In EmptyString (np_unique l) ->
  exists r, np_unique l = EmptyString :: r.
Proof.
  induction l as [|a l IH]; simpl; intros I; [tauto|].
  apply insert_unique_head; assumption.
Qed.

Lemma index_of_nth : forall l x d, In x l -> nth (index_of x l) l d = x.
Proof.
  induction l as [|a l IH]; simpl; intros x d I; [tauto|].
  destruct (eqd x a) as [E|N]; [congruence|]. apply IH. destruct I; [congruence|assumption].
Qed.

Lemma index_of_lt : forall l x, In x l -> index_of x l < length l.
Proof.
  induction l as [|a l IH]; simpl; intros x I; [tauto|].
  destruct (eqd x a) as [E|N]; [lia|]. apply -> Nat.succ_lt_mono. apply IH.
  destruct I; [congruence|assumption].
Qed.

(** null values read as the empty string *)
Definition null_as_empty (v : option string) : string :=
  match v with Some s => s | None => EmptyString end.

Lemma not_null_length : forall vs, any_null vs = false ->
  map null_as_empty vs = not_null_values vs.
Proof.
  induction vs as [|[s|] vs IH]; simpl; intros E; [reflexivity| |discriminate].
  f_equal. apply IH; exact E.
Qed.

Lemma scatter_spec : forall vs (u : list string) (f : string -> nat),
  (exists r, u = EmptyString :: r) ->
  (forall x, In x (not_null_values vs) -> nth_error u (f x) = Some x) ->
  map (fun i => nth_error u i) (scatter_idx vs (map f (not_null_values vs))) =
  map (fun v => Some (null_as_empty v)) vs.
Proof.
  induction vs as [|[s|] vs IH]; simpl; intros u f [r Eu] Hf; [reflexivity| |].
  - rewrite Hf by auto. f_equal. apply IH; [eauto|]. intros x I. apply Hf; auto.
  - rewrite Eu at 1. simpl. f_equal. apply IH; eauto.
Qed.

(** values[idx] gives the input back, with nulls as empty strings *)
Lemma unique_strings_inverse : forall vs,
  let '(u, idx) := unique_strings vs in
  map (fun i => nth_error u i) idx = map (fun v => Some (null_as_empty v)) vs.
Proof.
  intros vs. unfold unique_strings.
  assert (HI : forall x, In x (not_null_values vs) ->
     nth_error (np_unique (not_null_values vs)) (index_of x (np_unique (not_null_values vs)))
     = Some x).
  { intros x I. rewrite (nth_error_nth' _ EmptyString).
    - f_equal. apply index_of_nth. apply np_unique_In; exact I.
    - apply index_of_lt. apply np_unique_In; exact I. }
  destruct (any_null vs) eqn:A; cbn [negb].
  - set (u := np_unique (not_null_values vs)) in *.
    unfold np_inverse. fold u. clearbody u.
    destruct u as [|u0 u'].
    + rewrite map_map. apply scatter_spec; [eauto|]. intros x I.
      specialize (HI x I). simpl in HI. discriminate.
    + destruct (eqb_of u0 EmptyString) eqn:E0; cbn [negb].
      * apply eqb_of_eq in E0. subst u0. apply scatter_spec; [eauto|exact HI].
      * rewrite map_map. apply scatter_spec; [eauto|]. intros x I. simpl nth_error.
        apply HI; exact I.
  - unfold np_inverse. rewrite map_map. rewrite <- (map_map null_as_empty Some).
    rewrite (not_null_length vs A). apply map_ext_in. exact HI.
Qed.


Section MinHashLemmas.
  Context {H : Type} (hash_func : string -> H).

  (** every cached value is the hash of its key, and the cache has a positive capacity *)
  Definition GoodCache (s : lru string H) : Prop :=
    0 < capacity s /\ NoDup (dkeys (cache s)) /\ length (cache s) <= capacity s /\
    forall k v, In (k, v) (cache s) -> v = hash_func k.

  Lemma ddel_sub : forall (d : dict string H) k x, In x (ddel k d) -> In x d.
  Proof.
    induction d as [|[a b] d IH]; simpl; intros k x I; [tauto|].
    destruct (eqd k a); [auto|]. destruct I; [auto|]. right. eapply IH; eassumption.
  Qed.

  Lemma ddel_len : forall (d : dict string H) k, In k (dkeys d) -> S (length (ddel k d)) = length d.
  Proof.
    induction d as [|[a b] d IH]; simpl; intros k I; [tauto|].
    destruct (eqd k a) as [E|N]; [reflexivity|]. simpl. f_equal. apply IH.
    destruct I; [congruence|assumption].
  Qed.

  Lemma Good_move : forall s k v, GoodCache s -> In k (dkeys (cache s)) -> v = hash_func k ->
    GoodCache {| capacity := capacity s; cache := ddel k (cache s) ++ [(k, v)] |}.
  Proof.
    intros s k v (Hc & ND & Hl & Hv) I Ev. split; [exact Hc|]. cbn [cache capacity]. split; [|split].
    - unfold dkeys. rewrite map_app. cbn [map fst]. apply NoDup_rev in ND.
      apply (Permutation_NoDup (l := k :: map fst (ddel k (cache s)))).
      { apply Permutation_cons_append. }
      apply NoDup_rev in ND. rewrite rev_involutive in ND.
      constructor; rewrite (ddel_filter _ _ ND).
      + apply remove_In.
      + apply NoDup_remove'. exact ND.
    - rewrite app_length. simpl. rewrite <- (ddel_len (cache s) k I) in Hl. lia.
    - intros k' v' I'. apply in_app_or in I'. destruct I' as [I'|[E|[]]].
      + apply Hv. eapply ddel_sub; exact I'.
      + congruence.
  Qed.

  Lemma Good_append : forall cap (d : dict string H) k v, 0 < cap -> NoDup (dkeys d) ->
    length d < cap -> (forall k v, In (k, v) d -> v = hash_func k) ->
    ~ In k (dkeys d) -> v = hash_func k ->
    GoodCache {| capacity := cap; cache := d ++ [(k, v)] |}.
  Proof.
    intros cap d k v Hc ND Hl Hv Nk Ev. split; [exact Hc|]. cbn [cache capacity]. split; [|split].
    - unfold dkeys. rewrite map_app. cbn [map fst].
      apply (Permutation_NoDup (l := k :: map fst d)).
      { apply Permutation_cons_append. }
      constructor; assumption.
    - rewrite app_length. simpl. lia.
    - intros k' v' I'. apply in_app_or in I'. destruct I' as [I'|[E|[]]].
      + apply Hv. exact I'.
      + congruence.
  Qed.

  Lemma In_last : forall (d : dict string H) k v, In k (dkeys (d ++ [(k, v)])).
  Proof.
    intros. unfold dkeys. rewrite map_app. apply in_or_app. right. left. reflexivity.
  Qed.

  Lemma Good_ensure : forall s x, GoodCache s ->
    exists s1, (if lru_contains s x then Ok s else lru_set s x (hash_func x)) = Ok s1 /\
      GoodCache s1 /\ In x (dkeys (cache s1)).
  Proof.
    intros s x G. unfold lru_contains. rewrite dmem_eq.
    destruct (in_dec eqd x (map fst (cache s))) as [I|N].
    - exists s. split; [reflexivity|]. split; [exact G|exact I].
    - unfold lru_set. rewrite dmem_eq. destruct (in_dec eqd x (map fst (cache s))) as [I|_]; [contradiction|].
      destruct G as (Hc & ND & Hl & Hv).
      destruct (capacity s <=? length (cache s)) eqn:F.
      + apply Nat.leb_le in F. destruct (cache s) as [|[k0 v0] c] eqn:Ec; [simpl in F; lia|].
        eexists; split; [reflexivity|]. split; [|apply In_last].
        cbn [dkeys map fst] in *. inversion ND; subst. simpl in Hl.
        apply Good_append; [exact Hc|assumption|lia| | |reflexivity].
        * intros k v I. apply Hv. right; exact I.
        * intros I. apply N. right; exact I.
      + apply Nat.leb_gt in F.
        eexists; split; [reflexivity|]. split; [|apply In_last].
        apply Good_append; auto.
  Qed.

  Lemma Good_get : forall s x, GoodCache s -> In x (dkeys (cache s)) ->
    exists s2, lru_get s x = (s2, Some (hash_func x)) /\ GoodCache s2.
  Proof.
    intros s x G I. unfold lru_get. destruct (dget x (cache s)) as [v|] eqn:E.
    - assert (v = hash_func x) as Ev.
      { destruct G as (_ & ND & _ & Hv). apply Hv. apply dget_In; assumption. }
      subst v. eexists; split; [reflexivity|]. apply Good_move; auto.
    - apply dget_None in E. contradiction.
  Qed.

  Lemma batched_spec : forall batch s, GoodCache s ->
    exists s', compute_hash_batched hash_func s batch
               = Ok (s', map (fun x => Some (hash_func x)) batch) /\ GoodCache s'.
  Proof.
    induction batch as [|x batch IH]; intros s G; cbn [compute_hash_batched map].
    - exists s. split; [reflexivity|exact G].
    - destruct (Good_ensure s x G) as (s1 & E1 & G1 & I1). rewrite E1. cbn [bind].
      destruct (Good_get s1 x G1 I1) as (s2 & E2 & G2). rewrite E2.
      destruct (IH s2 G2) as (s3 & E3 & G3). rewrite E3. cbn [bind].
      eexists; split; [reflexivity|exact G3].
  Qed.

  Lemma run_seq_spec : forall bs s, GoodCache s ->
    exists s', run_sequential hash_func s bs
               = Ok (s', map (map (fun x => Some (hash_func x))) bs) /\ GoodCache s'.
  Proof.
    induction bs as [|b bs IH]; intros s G; cbn [run_sequential map].
    - exists s. split; [reflexivity|exact G].
    - destruct (batched_spec b s G) as (s1 & E1 & G1). rewrite E1. cbn [bind].
      destruct (IH s1 G1) as (s2 & E2 & G2). rewrite E2. cbn [bind].
      eexists; split; [reflexivity|exact G2].
  Qed.

  Lemma run_copies_spec : forall bs s, GoodCache s ->
    run_copies hash_func s bs = Ok (s, map (map (fun x => Some (hash_func x))) bs).
  Proof.
    induction bs as [|b bs IH]; intros s G; cbn [run_copies map].
    - reflexivity.
    - destruct (batched_spec b s G) as (s1 & E1 & G1). rewrite E1. cbn [bind].
      rewrite (IH s G). reflexivity.
  Qed.

  (** ** slices *)
  Lemma slices_concat : forall {A} sizes (l : list A),
    list_sum sizes = length l -> concat (slices sizes l) = l.
  Proof.
    induction sizes as [|k sizes IH]; intros l E; simpl in *.
    - destruct l; [reflexivity|discriminate].
    - rewrite IH.
      + apply firstn_skipn.
      + rewrite skipn_length. lia.
  Qed.

  Lemma slices_length : forall {A} sizes (l : list A), length (slices sizes l) = length sizes.
  Proof. induction sizes as [|k sizes IH]; intros l; simpl; [reflexivity|]. f_equal. apply IH. Qed.

  Lemma list_sum_filter_pos : forall l, list_sum (filter (fun k => 0 <? k) l) = list_sum l.
  Proof.
    induction l as [|a l IH]; [reflexivity|]. cbn [filter].
    destruct (0 <? a) eqn:E.
    - cbn [list_sum fold_right] in *. fold (list_sum l). fold (list_sum (filter (fun k => 0 <? k) l)).
      unfold list_sum in *. cbn [fold_right]. lia.
    - apply Nat.ltb_ge in E. assert (a = 0) by lia. subst. unfold list_sum in *. cbn [fold_right]. exact IH.
  Qed.

  Lemma sum_ind : forall q r m, list_sum (map (fun p => q + (if p <? r then 1 else 0)) (seq 0 m))
    = q * m + Nat.min r m.
  Proof.
    intros q r m. induction m as [|m IH]; [simpl; lia|].
    rewrite seq_S, map_app, list_sum_app, IH. cbn [map list_sum fold_right Nat.add].
    destruct (m <? r) eqn:E; [apply Nat.ltb_lt in E|apply Nat.ltb_ge in E]; lia.
  Qed.

  Lemma even_sizes_sum : forall n packs, 0 < packs -> list_sum (even_slice_sizes n packs) = n.
  Proof.
    intros n packs Hp. unfold even_slice_sizes. rewrite list_sum_filter_pos, sum_ind.
    pose proof (Nat.mod_upper_bound n packs ltac:(lia)) as M.
    rewrite Nat.min_l by lia. rewrite Nat.mul_comm. symmetry. apply Nat.div_mod. lia.
  Qed.

  Lemma unique_empty : forall vs, fst (unique_strings vs) = [] -> vs = [].
  Proof.
    intros vs E. pose proof (unique_strings_inverse vs) as I.
    destruct (unique_strings vs) as [u idx]. simpl in E. subst u.
    destruct vs as [|v vs]; [reflexivity|]. destruct idx as [|i idx]; simpl in I; [discriminate|].
    destruct i; discriminate.
  Qed.

  Lemma nth_error_map_some : forall (u : list string) i x,
    nth_error u i = Some x ->
    i < length u /\ nth i (map (fun x => Some (hash_func x)) u) None = Some (hash_func x).
  Proof.
    intros u i x E. split.
    - apply nth_error_Some. congruence.
    - apply nth_error_nth. rewrite nth_error_map, E. reflexivity.
  Qed.

  Lemma minhash_rowwise : forall n_jobs s X, 0 < n_jobs -> GoodCache s -> X <> [] ->
    exists s', minhash_transform hash_func n_jobs s X
      = Ok (s', map (fun v => Some (hash_func (null_as_empty v))) X) /\ GoodCache s'.
  Proof.
    intros n_jobs s X Hn G HX. unfold minhash_transform.
    pose proof (unique_strings_inverse X) as I. pose proof (unique_empty X) as UE.
    destruct (unique_strings X) as [u idx]. cbn [fst] in UE.
    set (bs := slices (even_slice_sizes (length u) n_jobs) u).
    assert (HC : concat bs = u).
    { apply slices_concat. apply even_sizes_sum. exact Hn. }
    assert (HR : exists s', (if n_jobs =? 1 then run_sequential hash_func s bs
         else run_copies hash_func s bs) = Ok (s', map (map (fun x => Some (hash_func x))) bs)
         /\ GoodCache s').
    { destruct (n_jobs =? 1).
      - apply run_seq_spec; exact G.
      - exists s. split; [apply run_copies_spec; exact G|exact G]. }
    destruct HR as (s' & ER & G'). rewrite ER. cbn [bind].
    assert (HB : bs <> []).
    { intros E. apply HX, UE. rewrite <- HC, E. reflexivity. }
    destruct (map (map (fun x => Some (hash_func x))) bs) as [|p ps] eqn:EP.
    { destruct bs; [congruence|discriminate]. }
    rewrite <- EP. rewrite <- concat_map, HC.
    assert (HI : Forall2 (fun i v => nth_error u i = Some (null_as_empty v)) idx X).
    { clear -I. revert X I. induction idx as [|i idx IH]; intros [|v X] I; simpl in I;
        try discriminate; constructor.
      - congruence.
      - apply IH. congruence. }
    assert (HF : forallb (fun i => i <? length (map (fun x => Some (hash_func x)) u)) idx = true).
    { rewrite map_length. clear -HI. induction HI as [|i v idx X E _ IH]; [reflexivity|].
      cbn [forallb]. assert (L : i < length u) by (apply nth_error_Some; congruence).
      apply Nat.ltb_lt in L. rewrite L. exact IH. }
    rewrite HF. exists s'. split; [|exact G'].
    f_equal. f_equal. clear -HI hash_func. induction HI as [|i v idx X E _ IH]; [reflexivity|].
    cbn [map]. apply nth_error_map_some in E. destruct E as [_ E]. rewrite E. f_equal. exact IH.
  Qed.

  Lemma minhash_empty : forall n_jobs s, minhash_transform hash_func n_jobs s [] = Err ValueError.
  Proof.
    intros n_jobs s. unfold minhash_transform. cbn [unique_strings any_null existsb negb
      not_null_values np_unique np_inverse fold_right map length].
    assert (E : slices (even_slice_sizes 0 n_jobs) (@nil string) = []).
    { assert (E : even_slice_sizes 0 n_jobs = []).
      { unfold even_slice_sizes. destruct n_jobs as [|m]; [reflexivity|].
        rewrite Nat.div_0_l, Nat.mod_0_l by lia.
        generalize (seq 0 (S m)) as l. induction l as [|a l IH]; [reflexivity|]. simpl. exact IH. }
      rewrite E. reflexivity. }
    rewrite E. cbn. destruct (n_jobs =? 1); reflexivity.
  Qed.

  Lemma Good_init : forall cap, 0 < cap -> GoodCache (minhash_fit cap).
  Proof.
    intros cap Hc. split; [exact Hc|]. cbn. split; [constructor|]. split; [lia|]. tauto.
  Qed.

  Lemma history_Good : forall n_jobs calls s, 0 < n_jobs -> GoodCache s ->
    GoodCache (minhash_history hash_func n_jobs s calls).
  Proof.
    intros n_jobs. induction calls as [|X calls IH]; intros s Hn G; cbn [minhash_history]; [exact G|].
    destruct X as [|v X].
    - rewrite minhash_empty. apply IH; assumption.
    - destruct (minhash_rowwise n_jobs s (v :: X) Hn G) as (s' & E & G'); [discriminate|].
      rewrite E. apply IH; assumption.
  Qed.

  Lemma minhash_pure : forall cap n_jobs calls X, 0 < cap -> 0 < n_jobs -> X <> [] ->
    exists s', minhash_transform hash_func n_jobs
                 (minhash_history hash_func n_jobs (minhash_fit cap) calls) X
      = Ok (s', map (fun v => Some (hash_func (null_as_empty v))) X).
  Proof.
    intros cap n_jobs calls X Hc Hn HX.
    destruct (minhash_rowwise n_jobs _ X Hn
      (history_Good n_jobs calls _ Hn (Good_init cap Hc)) HX) as (s' & E & _).
    exists s'. exact E.
  Qed.
End MinHashLemmas.
