(** Lemmas for C117-C118: what the steps of a TableVectorizer do to the columns of two tables, one of them used to fit. *)
From Verif Require Import Base M_str M_names L_names M_select L_select M_oncols L_oncols
  M_checkinput L_checkinput M_tablevec L_tablevec L_dict L_tablevec2 L_tablevec3 L_tablevec4.
Open Scope string_scope.
Open Scope list_scope.
Open Scope nat_scope.
Set Default Proof Using "Type".

Lemma Forall2_concat : forall {A B} (P : A -> B -> Prop) ls ms, Forall2 (Forall2 P) ls ms -> Forall2 P (concat ls) (concat ms).
Proof. intros A B P ls ms Fa. induction Fa; cbn; [constructor|]. apply Forall2_app; assumption. Qed.

Section Steps.
  Context {C St : Type}.
  Variable tr : St -> string -> C -> res (list (string * C)).
  (** columns with the same names *)
  Definition Paired (R : string -> C -> C -> Prop) (X Y : frame C) : Prop := Forall2 (fun p q => fst p = fst q /\ R (fst p) (snd p) (snd q)) X Y.
  Lemma paired_names : forall R X Y, Paired R X Y -> column_names Y = column_names X.
  Proof using Type. intros R X Y Fa. induction Fa as [|p q X Y [E _] _ IH]; cbn; [reflexivity|]. f_equal; [congruence|exact IH]. Qed.
  (** a column that a step leaves as it is *)
  Definition Unhandled (t : transformer C St) (rej : bool) (columns : list string) (n : string) (c : C) : Prop :=
    ~ In n columns \/ (rej = true /\ t n c = Rejected).
  Definition Fresh1 (draw : nat -> string) (t : transformer C St) (cols : selector C) (X : frame C) : Prop :=
    forall columns, expand cols X = Ok columns ->
      Fresh draw (length (suggestions t (fun n => n) columns X)) (suggestions t (fun n => n) columns X) (column_names X).

  Lemma created_names : forall (X : frame C) (bs : list (@fate C St)) (f : fitted St) p outs st ns x, length bs = length X -> input_to_outputs_ f = concat (map i2o_of (combine X bs)) ->
    In (p, Some (outs, st, ns)) (combine X bs) -> In x ns -> In x (created_outputs_ f).
  Proof using Type.
    intros X bs f p outs st ns x L E I J. unfold created_outputs_. rewrite E. apply in_concat. exists ns. split; [|exact J].
    apply in_map_iff. exists (fst p, ns). split; [reflexivity|]. apply (i2o_in X bs _ _ L). exists p, outs, st. auto.
  Qed.
  Lemma nodup_app_r : forall {A} (l m : list A), NoDup (l ++ m) -> NoDup m.
  Proof using Type. clear. intros A l m. induction l as [|a l IH]; intros N; [exact N|]. cbn in N. inversion N; subst. apply IH. assumption. Qed.
  Lemma nodup_app_out : forall {A} (l m : list A) x, NoDup (l ++ m) -> In x l -> In x m -> False.
  Proof using Type. clear. intros A l m x. induction l as [|a l IH]; intros N I J; [destruct I|]. cbn in N. inversion N; subst. destruct I as [->|I]; [apply H1; apply in_or_app; right; exact J|apply IH; assumption]. Qed.
  Lemma blocks_distinct : forall (X : frame C) (bs : list (@fate C St)), length bs = length X ->
    NoDup (column_names (concat (map (block false) (combine X bs)))) ->
    forall p, In (p, None) (combine X bs) -> forall q outs st ns, In (q, Some (outs, st, ns)) (combine X bs) -> length ns = length outs -> ~ In (fst p) ns.
  Proof using Type.
    induction X as [|x X IH]; intros [|b bs] L N p I q outs st ns J Ln K; cbn in *; try discriminate; [destruct I|].
    unfold column_names in N. rewrite map_app in N. injection L as L.
    assert (InB : forall y (b : @fate C St) s, In (y, b) (combine X bs) -> In s (map fst (block false (y, b))) -> In s (map fst (concat (map (block false) (combine X bs))))).
    { intros y b0 s Iy Is. apply in_map_iff in Is. destruct Is as (z & <- & Iz). apply in_map. apply in_concat. exists (block false (y, b0)). split; [|exact Iz]. apply in_map. exact Iy. }
    assert (Bn : forall y s, In s ns -> In s (map fst (block false (y, Some (outs, st, ns))))).
    { intros y s Is. cbn. rewrite combine_fst; [exact Is|]. rewrite map_length. exact Ln. }
    destruct I as [I|I]; destruct J as [J|J].
    - congruence.
    - injection I as -> ->. apply (nodup_app_out _ _ (fst p) N); [left; reflexivity|]. apply (InB q _ _ J). apply Bn. exact K.
    - injection J as -> ->. apply (nodup_app_out _ _ (fst p) N); [apply (Bn q); exact K|]. apply (InB p None _ I). left. reflexivity.
    - apply nodup_app_r in N. exact (IH bs L N p I q outs st ns J Ln K).
  Qed.
  Lemma unhandled_new : forall (X : frame C) (bs : list (@fate C St)) (f : fitted St) t rej columns p, length bs = length X ->
    NoDup (column_names (concat (map (block false) (combine X bs)))) -> input_to_outputs_ f = concat (map i2o_of (combine X bs)) -> Forall2 (Fate t rej columns) X bs ->
    In (p, None) (combine X bs) -> ~ In (fst p) (created_outputs_ f).
  Proof using Type.
    intros X bs f t rej columns p L N E HF I K. unfold created_outputs_ in K. rewrite E in K. apply in_concat in K. destruct K as (ns & Kn & K).
    apply in_map_iff in Kn. destruct Kn as ([m ns'] & <- & Kn). apply (i2o_in X bs _ _ L) in Kn. destruct Kn as (q & outs & st & J & ->).
    assert (Ln : length ns' = length outs).
    { clear - HF J. induction HF as [|x b X bs Hx HF IH]; [destruct J|]. destruct J as [J|J]; [|apply IH; exact J]. injection J as -> ->. apply Hx. }
    exact (blocks_distinct X bs L N p I q outs st ns' J Ln K).
  Qed.

  Lemma oec_fit_step : forall lib draw (t : transformer C St) cols rej (X : frame C) f out,
    NoDup (column_names X) -> Fresh1 draw t cols X ->
    oec_fit_transform lib draw t cols rej false (fun n => n) X = Ok (f, out) ->
    exists columns, expand cols X = Ok columns /\ NoDup (column_names out) /\
    forall m c', In (m, c') out ->
      (~ In m (created_outputs_ f) /\ In (m, c') X /\ Unhandled t rej columns m c') \/
      (In m (created_outputs_ f) /\ exists n c outs st, In (n, c) X /\ In n columns /\ t n c = Fitted outs st /\ In c' (map snd outs)).
  Proof using Type.
    intros lib draw t cols rej X f out ND Fr E.
    destruct (expand cols X) as [columns|] eqn:Ex.
    2:{ unfold oec_fit_transform in E. rewrite Ex in E. discriminate. }
    exists columns. split; [reflexivity|]. pose proof (Fr columns Ex) as Fr'.
    pose proof (oec_fit_inv t (fun n => n) rej false lib draw cols X columns f out ND Ex Fr' E)
      as (bs & Eo & Lb & HF & NDo & _ & _ & _ & Ei2o & _).
    split; [exact NDo|]. intros m c' I. subst out. apply in_concat in I. destruct I as (blk & Ib & I).
    apply in_map_iff in Ib. destruct Ib as ([p b] & <- & Ib).
    assert (Hb : Fate t rej columns p b).
    { clear - HF Ib. induction HF as [|x b' X bs Hx HF IH]; [destruct Ib|]. destruct Ib as [J|J]; [|apply IH; exact J]. injection J as -> ->. exact Hx. }
    destruct b as [[[outs st] ns]|]; cbn in I.
    - right. destruct Hb as (Ic & Hft & Ln). split.
      + apply (created_names X bs f p outs st ns m Lb Ei2o Ib). apply in_combine_l in I. exact I.
      + exists (fst p), (snd p), outs, st. split; [apply in_combine_l in Ib; destruct p; exact Ib|]. split; [exact Ic|]. split; [exact Hft|]. apply in_combine_r in I. exact I.
    - left. destruct I as [->|[]]. split; [apply (unhandled_new X bs f t rej columns (m, c') Lb NDo Ei2o HF Ib)|]. split; [apply in_combine_l in Ib; exact Ib|exact Hb].
  Qed.

  Definition Kept (t : transformer C St) rej columns (X : frame C) (R : string -> C -> C -> Prop) (m : string) (c' d' : C) : Prop :=
    In (m, c') X /\ Unhandled t rej columns m c' /\ R m c' d'.
  Definition Made (t : transformer C St) columns (X : frame C) (R : string -> C -> C -> Prop) (c' d' : C) : Prop :=
    exists n c d outs st outs', In (n, c) X /\ In n columns /\ R n c d /\ t n c = Fitted outs st /\ tr st n d = Ok outs' /\ In (c', d') (combine (map snd outs) (map snd outs')).

  Lemma oec_pair_step : forall lib draw (t : transformer C St) cols rej (X : frame C) f out columns R Y Y',
    NoDup (column_names X) -> Fresh1 draw t cols X ->
    oec_fit_transform lib draw t cols rej false (fun n => n) X = Ok (f, out) -> expand cols X = Ok columns ->
    Paired R X Y -> oec_transform lib tr false f Y = Ok Y' ->
    (forall n c d outs st outs', In (n, c) X -> R n c d -> In n columns -> t n c = Fitted outs st -> tr st n d = Ok outs' -> length outs' = length outs) ->
    Paired (fun m c' d' => (~ In m (created_outputs_ f) /\ Kept t rej columns X R m c' d') \/ (In m (created_outputs_ f) /\ Made t columns X R c' d')) out Y'.
  Proof using Type.
    intros lib draw t cols rej X f out columns R Y Y' ND Fr E Ex HP ET HL.
    pose proof (Fr columns Ex) as Fr'.
    pose proof (oec_fit_inv t (fun n => n) rej false lib draw cols X columns f out ND Ex Fr' E)
      as (bs & Eo & Lb & HF & NDo & Ei & Eao & Et & Ei2o & _).
    assert (HFin : forall p b, In (p, b) (combine X bs) -> Fate t rej columns p b).
    { clear - HF. intros p b Ib. induction HF as [|x b' X bs Hx HF IH]; [destruct Ib|]. destruct Ib as [J|J]; [|apply IH; exact J]. injection J as -> ->. exact Hx. }
    pose proof (paired_names _ _ _ HP) as EY.
    assert (HB : exists blks, Y' = concat blks /\ Forall2 (NewBlock false tr f) Y blks).
    { destruct (oec_transform_ok t (fun n => n) rej false tr lib draw cols X columns f out ND Ex Fr' E Y EY) as (blks & E1 & _ & _ & E2).
      - intros q st I D. unfold oec_transform in ET.
        destruct (mapM (transform_column tr (transformers_ f) false) Y) as [raws|] eqn:EM; [|discriminate].
        destruct (transform_column_ok tr _ _ _ _ EM q st I D) as [outs' Eouts].
        assert (exists p b, In (p, b) (combine X bs) /\ fst p = fst q /\ R (fst p) (snd p) (snd q)) as (p & b & Ib & Ep & Rp).
        { clear - HP I Lb. revert bs Lb. induction HP as [|x y X Y [E0 R0] HP IH]; intros bs Lb; [destruct I|]. destruct bs as [|b bs]; [discriminate|]. destruct I as [->|I].
          - exists x, b. split; [left; reflexivity|]. split; [exact E0|exact R0].
          - destruct (IH I bs) as (p & b' & I' & E' & R'); [cbn in Lb; congruence|]. exists p, b'. split; [right; exact I'|]. split; assumption. }
        rewrite Et, <- Ep, (tr_lookup X bs Lb ND p b Ib) in D. destruct b as [[[outs st'] ns]|]; [|discriminate]. injection D as ->.
        destruct (HFin _ _ Ib) as (Ic & Hft & Ln). exists outs', ns. split; [exact Eouts|]. split.
        + rewrite Ei2o, <- Ep. apply (i2o_lookup X bs Lb ND p _ Ib).
        + rewrite Ln. rewrite <- Ep in Eouts. apply (HL (fst p) (snd p) (snd q) outs st outs'); try assumption. apply in_combine_l in Ib. destruct p; exact Ib.
      - rewrite ET in E1. injection E1 as ->. exists blks. split; [reflexivity|exact E2]. }
    destruct HB as (blks & -> & HB). rewrite Eo. unfold Paired. apply Forall2_concat.
    assert (HN : forall p, In (p, None) (combine X bs) -> ~ In (fst p) (created_outputs_ f)).
    { intros p I. rewrite Eo in NDo. exact (unhandled_new X bs f t rej columns p Lb NDo Ei2o HF I). }
    assert (HC : forall p outs st ns x, In (p, Some (outs, st, ns)) (combine X bs) -> In x ns -> In x (created_outputs_ f)).
    { intros p outs st ns x I J. exact (created_names X bs f p outs st ns x Lb Ei2o I J). }
    assert (HT : forall p b, In (p, b) (combine X bs) -> dget (fst p) (transformers_ f) = match b with None => None | Some (_, st, _) => Some st end /\ dget (fst p) (input_to_outputs_ f) = match b with None => None | Some (_, _, ns) => Some ns end).
    { intros p b I. split; [rewrite Et; apply (tr_lookup X bs Lb ND p b I)|rewrite Ei2o; apply (i2o_lookup X bs Lb ND p b I)]. }
    assert (Gen : forall X0 (X Y : frame C) (bs : list (@fate C St)) blks, Paired R X Y -> length bs = length X -> Forall2 (NewBlock false tr f) Y blks ->
      (forall p, In p X -> In p X0) -> (forall p, In (p, None) (combine X bs) -> ~ In (fst p) (created_outputs_ f)) ->
      (forall p outs st ns x, In (p, Some (outs, st, ns)) (combine X bs) -> In x ns -> In x (created_outputs_ f)) ->
      (forall p b, In (p, b) (combine X bs) -> dget (fst p) (transformers_ f) = match b with None => None | Some (_, st, _) => Some st end /\ dget (fst p) (input_to_outputs_ f) = match b with None => None | Some (_, _, ns) => Some ns end) ->
      (forall p b, In (p, b) (combine X bs) -> Fate t rej columns p b) ->
      Forall2 (Forall2 (fun p q => fst p = fst q /\ ((~ In (fst p) (created_outputs_ f) /\ Kept t rej columns X0 R (fst p) (snd p) (snd q)) \/ (In (fst p) (created_outputs_ f) /\ Made t columns X0 R (snd p) (snd q))))) (map (block false) (combine X bs)) blks);
      [|apply (Gen X X Y bs blks); auto].
    clear. intros X0 X Y bs blks HP. revert bs blks. induction HP as [|p q X Y [E0 R0] HP IH]; intros bs blks Lb HB HX HN HC HT HFin.
    - inversion HB; subst. constructor.
    - destruct bs as [|b bs]; [discriminate|]. inversion HB as [|? blk ? blks' HB1 HB2]; subst. cbn [combine map]. constructor.
      + destruct (HT p b (or_introl eq_refl)) as [T1 T2]. unfold NewBlock in HB1. rewrite <- E0, T1, T2 in HB1.
        destruct b as [[[outs st] ns]|].
        * destruct HB1 as (outs' & names & Eo' & En & Ln' & ->). injection En as <-. destruct (HFin p _ (or_introl eq_refl)) as (Ic & Hft & Ln). cbn [block app].
          assert (Lo : length (map snd outs) = length ns) by (rewrite map_length; congruence).
          assert (Lo' : length (map snd outs') = length ns) by (rewrite map_length; congruence).
          assert (G : Forall2 (fun a b : string * C => fst a = fst b /\ In (fst a) ns /\ In (snd a, snd b) (combine (map snd outs) (map snd outs'))) (combine ns (map snd outs)) (combine ns (map snd outs'))).
          { clear - Lo Lo'. revert Lo Lo'. generalize (map snd outs) as l1, (map snd outs') as l2. intros l1 l2. revert l1 l2. induction ns as [|n ns IH]; intros [|a l1] [|b l2] L1 L2; cbn in *; try discriminate; [constructor|].
            constructor; [cbn; tauto|]. specialize (IH l1 l2 ltac:(congruence) ltac:(congruence)). revert IH. apply Forall2_impl_in. intros x y _ _ (A1 & A2 & A3). cbn. tauto. }
          revert G. apply Forall2_impl_in. intros a b _ _ (A1 & A2 & A3). split; [exact A1|]. right. split; [apply (HC p outs st ns (fst a) (or_introl eq_refl) A2)|].
          exists (fst p), (snd p), (snd q), outs, st, outs'. split; [apply HX; left; destruct p; reflexivity|]. repeat (split; [assumption|]). assumption.
        * rewrite HB1. cbn [block]. constructor; [|constructor]. split; [exact E0|]. left. split; [apply HN; left; reflexivity|]. split; [apply HX; left; destruct p; reflexivity|]. split; [exact (HFin p None (or_introl eq_refl))|exact R0].
      + apply (IH bs blks'); [cbn in Lb; congruence|exact HB2|intros x I; apply HX; right; exact I|intros x I; apply HN; right; exact I|intros x o s ns y I; apply (HC x o s); right; exact I|intros x y I; apply HT; right; exact I|intros x y I; apply HFin; right; exact I].
  Qed.
End Steps.
