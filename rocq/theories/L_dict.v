(** Lemmas about dictionaries (association lists). *)
From Verif Require Import Base.
Open Scope list_scope.

Section Dict.
  Context {K V : Type} `{EqD K}.

  Lemma dget_dset_eq : forall (d : dict K V) k v, dget k (dset k v d) = Some v.
  Proof.
    induction d as [|[a b] d IH]; intros k v; simpl.
    - destruct (eqd k k); congruence.
    - destruct (eqd k a) as [E|N]; simpl.
      + destruct (eqd k a); congruence.
      + destruct (eqd k a); [contradiction|]. apply IH.
  Qed.
  Lemma dget_dset_neq : forall (d : dict K V) k k' v, k <> k' -> dget k (dset k' v d) = dget k d.
  Proof.
    induction d as [|[a b] d IH]; intros k k' v N; simpl.
    - destruct (eqd k k'); [contradiction|reflexivity].
    - destruct (eqd k' a) as [E|N']; simpl.
      + subst a. destruct (eqd k k'); [contradiction|reflexivity].
      + destruct (eqd k a); [reflexivity|]. apply IH. exact N.
  Qed.
  Lemma dget_dset_if : forall (d : dict K V) k k' v,
    dget k (dset k' v d) = if eqd k k' then Some v else dget k d.
  Proof.
    intros d k k' v. destruct (eqd k k') as [->|N]; [apply dget_dset_eq|apply dget_dset_neq; exact N].
  Qed.
  Lemma dkeys_dset_in : forall (d : dict K V) k v, In k (dkeys d) -> dkeys (dset k v d) = dkeys d.
  Proof.
    induction d as [|[a b] d IH]; intros k v I; simpl in *; [destruct I|].
    destruct (eqd k a) as [E|N]; simpl; [congruence|]. f_equal. apply IH. destruct I; [congruence|assumption].
  Qed.
  Lemma dkeys_dset_notin : forall (d : dict K V) k v, ~ In k (dkeys d) -> dkeys (dset k v d) = dkeys d ++ [k].
  Proof.
    induction d as [|[a b] d IH]; intros k v I; simpl in *; [reflexivity|].
    destruct (eqd k a) as [E|N]; [exfalso; apply I; left; congruence|]. simpl. f_equal. apply IH. tauto.
  Qed.
  Lemma dkeys_dset_iff : forall (d : dict K V) k v x, In x (dkeys (dset k v d)) <-> x = k \/ In x (dkeys d).
  Proof.
    intros d k v x. destruct (in_dec eqd k (dkeys d)) as [I|N].
    - rewrite dkeys_dset_in by exact I. split; [tauto|]. intros [->|I']; assumption.
    - rewrite dkeys_dset_notin by exact N. rewrite in_app_iff. simpl. intuition.
  Qed.
  Lemma dset_NoDup : forall (d : dict K V) k v, NoDup (dkeys d) -> NoDup (dkeys (dset k v d)).
  Proof.
    intros d k v ND. destruct (in_dec eqd k (dkeys d)) as [I|N].
    - rewrite dkeys_dset_in by exact I. exact ND.
    - rewrite dkeys_dset_notin by exact N. apply NoDup_app_intro; [exact ND|constructor; [tauto|constructor]|].
      intros x I [<-|[]]. contradiction.
  Qed.
  Lemma dget_in_keys : forall (d : dict K V) k, (exists v, dget k d = Some v) <-> In k (dkeys d).
  Proof.
    induction d as [|[a b] d IH]; intros k; simpl.
    - split; [intros [v E]; discriminate|tauto].
    - destruct (eqd k a) as [->|N].
      + split; [auto|eauto].
      + rewrite IH. split; [auto|]. intros [E|I]; [congruence|exact I].
  Qed.
  Lemma dget_None_keys : forall (d : dict K V) k, dget k d = None <-> ~ In k (dkeys d).
  Proof.
    intros d k. rewrite <- dget_in_keys. destruct (dget k d) as [v|]; split; try congruence.
    - intros N. exfalso. apply N. eauto.
    - intros _ [v E]. discriminate.
  Qed.
  Lemma dget_In_iff : forall (d : dict K V) k v, NoDup (dkeys d) -> (dget k d = Some v <-> In (k, v) d).
  Proof.
    induction d as [|[a b] d IH]; intros k v ND; simpl; [split; [discriminate|tauto]|].
    simpl in ND. inversion ND as [|? ? N1 N2]; subst. destruct (eqd k a) as [->|N].
    - split; [intros E; left; congruence|]. intros [E|I]; [congruence|]. exfalso. apply N1.
      unfold dkeys. apply in_map_iff. exists (a, v). auto.
    - rewrite (IH k v N2). split; [auto|]. intros [E|I]; [congruence|exact I].
  Qed.
  Lemma dget_In_weak : forall (d : dict K V) k v, dget k d = Some v -> In (k, v) d.
  Proof.
    induction d as [|[a b] d IH]; intros k v; simpl; [discriminate|].
    destruct (eqd k a) as [->|N]; [intros E; left; congruence|]. intros E. right. apply IH. exact E.
  Qed.

  (** setting all keys of a list to values depending on the key *)
  Lemma dget_fold_set : forall (g : K -> V) l (d : dict K V) k,
    dget k (fold_left (fun d c => dset c (g c) d) l d) = if in_dec eqd k l then Some (g k) else dget k d.
  Proof.
    intros g. induction l as [|a l IH]; intros d k; [reflexivity|]. cbn [fold_left]. rewrite IH.
    destruct (in_dec eqd k l) as [I|N]; destruct (in_dec eqd k (a :: l)) as [I'|N']; simpl in *; try tauto.
    - rewrite dget_dset_if. destruct (eqd k a); [congruence|]. destruct I'; [congruence|contradiction].
    - rewrite dget_dset_neq; [reflexivity|]. intros ->. tauto.
  Qed.
  Lemma dkeys_fold_set : forall (g : K -> V) l (d : dict K V), NoDup (dkeys d ++ l) ->
    dkeys (fold_left (fun d c => dset c (g c) d) l d) = dkeys d ++ l.
  Proof.
    intros g. induction l as [|a l IH]; intros d ND; [symmetry; apply app_nil_r|]. cbn [fold_left].
    assert (N : ~ In a (dkeys d)).
    { intros I. apply NoDup_remove_2 in ND. apply ND. rewrite in_app_iff. auto. }
    rewrite IH; rewrite dkeys_dset_notin by exact N; rewrite <- app_assoc; [reflexivity|exact ND].
  Qed.
End Dict.
