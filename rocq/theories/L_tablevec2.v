(** The attributes stored by [TableVectorizer.fit_transform]. *)
From Verif Require Import Base M_str M_names L_names M_select L_select M_oncols L_oncols
  M_checkinput L_checkinput M_tablevec L_tablevec L_dict.
Open Scope string_scope.
Open Scope list_scope.
Open Scope nat_scope.

Section Store.
  Context {C St : Type}.
  Notation steps_t := (dict string (list (St + dict string St))).

  Lemma append_step_ok : forall (d : steps_t) col s, In col (dkeys d) ->
    exists l, dget col d = Some l /\ append_step d col s = Ok (dset col (l ++ [s]) d).
  Proof.
    intros d col s I. apply dget_in_keys in I. destruct I as [l E]. exists l. unfold append_step. rewrite E. auto.
  Qed.

  Lemma store_pre_fold : forall (trs : dict string St) (d : steps_t), NoDup (dkeys trs) ->
    (forall n, In n (dkeys trs) -> In n (dkeys d)) ->
    exists d', foldM (fun d ct => append_step d (fst ct) (inl (snd ct))) d trs = Ok d' /\
      dkeys d' = dkeys d /\
      forall n, dget n d' = option_map (fun l => l ++ match dget n trs with Some st => [inl st] | None => [] end) (dget n d).
  Proof.
    induction trs as [|[c t] trs IH]; intros d ND Hk; simpl.
    - exists d. repeat split. intros n. destruct (dget n d) as [l|]; simpl; [rewrite app_nil_r|]; reflexivity.
    - simpl in ND. inversion ND as [|? ? N1 N2]; subst.
      destruct (append_step_ok d c (inl t) (Hk c (or_introl eq_refl))) as (l & El & Ea). rewrite Ea. simpl.
      destruct (IH (dset c (l ++ [inl t]) d) N2) as (d' & E & Ek & Eg).
      { intros n I. rewrite dkeys_dset_iff. right. apply Hk. right. exact I. }
      exists d'. split; [exact E|]. split; [rewrite Ek; apply dkeys_dset_in; apply Hk; left; reflexivity|].
      intros n. rewrite Eg, dget_dset_if. destruct (eqd n c) as [->|N]; [|reflexivity].
      rewrite El. simpl. apply dget_None_keys in N1. rewrite N1, app_nil_r. reflexivity.
  Qed.

  Lemma store_pre_all : forall (fs : list (fitted St)) (d : steps_t),
    Forall (fun g => NoDup (dkeys (transformers_ g))) fs ->
    (forall g n, In g fs -> In n (dkeys (transformers_ g)) -> In n (dkeys d)) ->
    exists d', foldM store_pre d fs = Ok d' /\ dkeys d' = dkeys d /\
      forall n, dget n d' = option_map (fun l => l ++ map inl (applied n fs)) (dget n d).
  Proof.
    induction fs as [|f fs IH]; intros d ND Hk; simpl.
    - exists d. repeat split. intros n. destruct (dget n d); simpl; [rewrite app_nil_r|]; reflexivity.
    - inversion ND as [|? ? N1 N2]; subst.
      destruct (store_pre_fold (transformers_ f) d N1) as (d1 & E1 & Ek1 & Eg1).
      { intros n. apply Hk. left. reflexivity. }
      unfold store_pre at 1. rewrite E1. simpl.
      destruct (IH d1 N2) as (d' & E & Ek & Eg).
      { intros g n I J. rewrite Ek1. apply (Hk g n (or_intror I) J). }
      exists d'. split; [exact E|]. split; [congruence|]. intros n. rewrite Eg, Eg1.
      destruct (dget n d) as [l|]; simpl; [|reflexivity]. rewrite <- app_assoc, map_app.
      destruct (dget n (transformers_ f)); reflexivity.
  Qed.

  Lemma store_enc_fold : forall (i2o : dict string (list string)) (trs : dict string St)
    (d : steps_t) (o : dict string (list string)) (r : dict string St), NoDup (dkeys trs) ->
    (forall n, In n (dkeys trs) -> In n (dkeys d) /\ In n (dkeys o) /\ In n (dkeys i2o)) ->
    exists d' o' r',
      foldM (fun '(steps, outs, trs) '(col, t) =>
             let! steps' := append_step steps col (inl t) in
             let! os := match dget col i2o with Some os => Ok os | None => Err KeyError end in
             Ok (steps', dset col os outs, dset col t trs)) (d, o, r) trs = Ok (d', o', r') /\
      dkeys d' = dkeys d /\ dkeys o' = dkeys o /\
      forall n, dget n d' = option_map (fun l => l ++ match dget n trs with Some st => [inl st] | None => [] end) (dget n d) /\
        dget n o' = (match dget n trs with Some _ => dget n i2o | None => dget n o end) /\
        dget n r' = (match dget n trs with Some t => Some t | None => dget n r end).
  Proof.
    intros i2o. induction trs as [|[c t] trs IH]; intros d o r ND Hk; cbn [foldM].
    - exists d, o, r. repeat split; simpl. destruct (dget n d) as [l|]; simpl; [rewrite app_nil_r|]; reflexivity.
    - simpl in ND. inversion ND as [|? ? N1 N2]; subst.
      destruct (Hk c (or_introl eq_refl)) as (K1 & K2 & K3).
      destruct (append_step_ok d c (inl t) K1) as (l & El & Ea). rewrite Ea. cbn [bind].
      destruct (proj2 (dget_in_keys i2o c) K3) as [os Eos]. rewrite Eos. cbn [bind].
      destruct (IH (dset c (l ++ [inl t]) d) (dset c os o) (dset c t r) N2) as (d' & o' & r' & E & Ek & Eo & Eg).
      { intros n I. rewrite !dkeys_dset_iff. destruct (Hk n (or_intror I)) as (A & B & D). auto. }
      exists d', o', r'. split; [exact E|]. split; [rewrite Ek; apply dkeys_dset_in; exact K1|].
      split; [rewrite Eo; apply dkeys_dset_in; exact K2|]. intros n.
      destruct (Eg n) as (G1 & G2 & G3). rewrite G1, G2, G3, !dget_dset_if. cbn [dget].
      destruct (eqd n c) as [->|N]; [|repeat split].
      apply dget_None_keys in N1. rewrite N1, El, Eos. simpl. rewrite app_nil_r. auto.
  Qed.

  (** the last of the steps that has a transformer for [n] *)
  Fixpoint handler (n : string) (fs : list (fitted St)) : option (fitted St) :=
    match fs with
    | [] => None
    | f :: fs' => match handler n fs' with
                  | Some g => Some g
                  | None => match dget n (transformers_ f) with Some _ => Some f | None => None end
                  end
    end.

  Lemma store_enc_all : forall (fs : list (fitted St)) (d : steps_t) (o : dict string (list string)) (r : dict string St),
    Forall (fun g => NoDup (dkeys (transformers_ g))) fs ->
    (forall g n, In g fs -> In n (dkeys (transformers_ g)) ->
       In n (dkeys d) /\ In n (dkeys o) /\ In n (dkeys (input_to_outputs_ g))) ->
    exists d' o' r', foldM store_encoder (d, o, r) fs = Ok (d', o', r') /\
      dkeys d' = dkeys d /\ dkeys o' = dkeys o /\
      forall n, dget n d' = option_map (fun l => l ++ map inl (applied n fs)) (dget n d) /\
        dget n o' = (match handler n fs with Some f => dget n (input_to_outputs_ f) | None => dget n o end) /\
        dget n r' = (match handler n fs with Some f => dget n (transformers_ f) | None => dget n r end).
  Proof.
    induction fs as [|f fs IH]; intros d o r ND Hk; cbn [foldM].
    - exists d, o, r. repeat split. simpl. destruct (dget n d); simpl; [rewrite app_nil_r|]; reflexivity.
    - inversion ND as [|? ? N1 N2]; subst.
      destruct (store_enc_fold (input_to_outputs_ f) (transformers_ f) d o r N1) as (d1 & o1 & r1 & E1 & Ek1 & Eo1 & Eg1).
      { intros n I. apply (Hk f n (or_introl eq_refl) I). }
      unfold store_encoder at 1. rewrite E1. cbn [bind].
      destruct (IH d1 o1 r1 N2) as (d' & o' & r' & E & Ek & Eo & Eg).
      { intros g n I J. rewrite Ek1, Eo1. apply (Hk g n (or_intror I) J). }
      exists d', o', r'. split; [exact E|]. split; [congruence|]. split; [congruence|]. intros n.
      destruct (Eg n) as (G1 & G2 & G3). destruct (Eg1 n) as (H1 & H2 & H3). rewrite G1, G2, G3, H1, H2, H3.
      cbn [handler applied flat_map]. split; [|split].
      + destruct (dget n d) as [l|]; simpl; [|reflexivity]. rewrite <- app_assoc, map_app.
        destruct (dget n (transformers_ f)); reflexivity.
      + destruct (handler n fs); [reflexivity|]. destruct (dget n (transformers_ f)); reflexivity.
      + destruct (handler n fs); [reflexivity|]. destruct (dget n (transformers_ f)) eqn:Et; [|reflexivity]. congruence.
  Qed.

  Lemma post_proc_get : forall (post : fitted St) outputs d o,
    dget o (fold_left (fun d c => match dget c (transformers_ post) with
                          | Some t => dset c t d | None => d end) outputs d)
    = if in_dec eqd o outputs then match dget o (transformers_ post) with Some t => Some t | None => dget o d end
      else dget o d.
  Proof.
    intros post. induction outputs as [|a l IH]; intros d o; [reflexivity|]. cbn [fold_left]. rewrite IH.
    destruct (in_dec eqd o l) as [I|N]; destruct (in_dec eqd o (a :: l)) as [I'|N']; simpl in *; try tauto.
    - destruct (dget o (transformers_ post)) eqn:E; [reflexivity|].
      destruct (dget a (transformers_ post)) eqn:E2; [|reflexivity]. apply dget_dset_neq. congruence.
    - destruct I' as [->|I']; [|contradiction]. destruct (dget o (transformers_ post)); [apply dget_dset_eq|reflexivity].
    - destruct (dget a (transformers_ post)); [|reflexivity]. apply dget_dset_neq. intros ->. tauto.
  Qed.

  Definition post_entry (post : fitted St) (names : list string) : list (St + dict string St) :=
    match post_proc post names with [] => [] | d => [inr d] end.

  Lemma store_post_all : forall (post : fitted St) (outs : dict string (list string)) (d : steps_t),
    NoDup (dkeys outs) -> (forall n, In n (dkeys outs) -> In n (dkeys d)) ->
    exists d', foldM (store_post post) d outs = Ok d' /\ dkeys d' = dkeys d /\
      forall n, dget n d' = option_map (fun l => l ++ match dget n outs with
                                                       | Some names => post_entry post names | None => [] end) (dget n d).
  Proof.
    intros post. induction outs as [|[c names] outs IH]; intros d ND Hk; cbn [foldM].
    - exists d. repeat split. intros n. simpl. destruct (dget n d); simpl; [rewrite app_nil_r|]; reflexivity.
    - simpl in ND. inversion ND as [|? ? N1 N2]; subst.
      assert (exists d1, store_post post d (c, names) = Ok d1 /\ dkeys d1 = dkeys d /\
                forall n, dget n d1 = option_map (fun l => l ++ (if eqd n c then post_entry post names else [])) (dget n d)) as (d1 & E1 & Ek1 & Eg1).
      { unfold store_post, post_entry. cbn [fst snd]. destruct (post_proc post names) as [|x l].
        - exists d. repeat split. intros n. destruct (dget n d) as [l|]; simpl; [|reflexivity].
          destruct (eqd n c); rewrite app_nil_r; reflexivity.
        - destruct (append_step_ok d c (inr (x :: l)) (Hk c (or_introl eq_refl))) as (y & Ey & Ea). rewrite Ea.
          eexists. split; [reflexivity|]. split; [apply dkeys_dset_in; apply Hk; left; reflexivity|].
          intros n. rewrite dget_dset_if. destruct (eqd n c) as [->|N]; [rewrite Ey; reflexivity|].
          destruct (dget n d); simpl; [rewrite app_nil_r|]; reflexivity. }
      rewrite E1. cbn [bind]. destruct (IH d1 N2) as (d' & E & Ek & Eg).
      { intros n I. rewrite Ek1. apply Hk. right. exact I. }
      exists d'. split; [exact E|]. split; [congruence|]. intros n. rewrite Eg, Eg1. cbn [dget].
      destruct (dget n d) as [l|]; simpl; [|reflexivity]. rewrite <- app_assoc.
      destruct (eqd n c) as [->|N]; [|reflexivity]. apply dget_None_keys in N1. rewrite N1, app_nil_r. reflexivity.
  Qed.

  (** ** reverse maps *)
  Lemma rev_map_get : forall {V} (items : list (V * list string)) (d : dict string V) o,
    dget o (fold_left (fun d kc => fold_left (fun d' c => dset c (fst kc) d') (snd kc) d) items d)
    = fold_left (fun r kc => if in_dec eqd o (snd kc) then Some (fst kc) else r) items (dget o d).
  Proof.
    intros V. induction items as [|[v l] items IH]; intros d o; [reflexivity|]. cbn [fold_left fst snd].
    rewrite IH. f_equal. exact (dget_fold_set (fun _ => v) l d o).
  Qed.
  Lemma rev_map_none : forall {V} (items : list (V * list string)) o r,
    (forall v l, In (v, l) items -> ~ In o l) ->
    fold_left (fun r kc => if in_dec eqd o (snd kc) then Some (fst kc) else r) items r = r.
  Proof.
    intros V. induction items as [|[v l] items IH]; intros o r N; [reflexivity|]. cbn [fold_left fst snd].
    destruct (in_dec eqd o l) as [I|_]; [exfalso; exact (N v l (or_introl eq_refl) I)|].
    apply IH. intros v' l' I. apply (N v' l'). right. exact I.
  Qed.
  Lemma rev_map_some : forall {V} (items : list (V * list string)) o r v l,
    In (v, l) items -> In o l -> (forall v' l', In (v', l') items -> In o l' -> v' = v) ->
    fold_left (fun r kc => if in_dec eqd o (snd kc) then Some (fst kc) else r) items r = Some v.
  Proof.
    intros V. induction items as [|[v0 l0] items IH]; intros o r v l I J U; [destruct I|]. cbn [fold_left fst snd].
    destruct (in_dec eqd o l0) as [I0|N0].
    - assert (v0 = v) as -> by (apply (U v0 l0); [left; reflexivity|exact I0]).
      clear I J. assert (U' : forall v' l', In (v', l') items -> In o l' -> v' = v) by (intros v' l' I; apply U; right; exact I).
      clear U. assert (G : forall r, r = Some v -> fold_left (fun r kc => if in_dec eqd o (snd kc) then Some (fst kc) else r) items r = Some v).
      { clear IH. induction items as [|[v1 l1] items IH]; intros s E; [exact E|]. cbn [fold_left fst snd]. apply IH.
        - intros v' l' I. apply (U' v' l'). right. exact I.
        - destruct (in_dec eqd o l1) as [I1|_]; [|exact E]. f_equal. apply (U' v1 l1); [left; reflexivity|exact I1]. }
      apply G. reflexivity.
    - destruct I as [I|I]; [injection I as -> ->; contradiction|].
      apply (IH o r v l I J). intros v' l' I'. apply U. right. exact I'.
  Qed.
End Store.
