(** Specification of the routing of columns in [TableVectorizer], and lemmas. *)
From Coq Require Import Permutation.
From Verif Require Import Base M_str M_names L_names M_select L_select M_oncols L_oncols
  M_checkinput L_checkinput M_tablevec.
Open Scope string_scope.
Open Scope list_scope.
Open Scope nat_scope.

(** ** Tidy names: at most one tag, at the end *)
Definition Tidy (s : string) : Prop :=
  ~ SubString "__skrub_" s \/
  exists u h, s = (u ++ "__skrub_" ++ h ++ "__")%string /\ hex8 h /\ ~ SubString "__skrub_" u.
(** a suggested name whose tags can be tidied up *)
Definition Tidiable (s : string) : Prop :=
  exists u ts, Untag s u ts /\ ~ SubString "__skrub_" u /\
    Forall (fun t => exists h, t = ("__skrub_" ++ h ++ "__")%string /\ hex8 h) ts.

Lemma Tidy_Canonical : forall s, Tidy s -> Canonical s.
Proof.
  intros s [N|(u & h & -> & Hh & N)]; [apply canonical_untagged; exact N|].
  apply canonical_tagged; assumption.
Qed.

Lemma pick_Tidy : forall draw, (forall i, hex8 (draw i)) -> forall suggested i forbidden,
  Forall Tidiable suggested -> Forall Tidy (pick_from draw i suggested forbidden).
Proof.
  intros draw Hd. induction suggested as [|s l IH]; intros i forbidden F; simpl; [constructor|].
  inversion F as [|s' l' (u & ts & U & N & Ht) F']; subst. constructor; [|apply IH; exact F'].
  rewrite (get_new_name_spec (draw i) s u ts forbidden U).
  destruct (in_dec eqd (wanted u ts) forbidden) as [I|_].
  - right. exists u, (draw i). split; [reflexivity|]. split; [apply Hd|exact N].
  - destruct ts as [|t [|t' ts]]; simpl.
    + left. exact N.
    + right. inversion Ht as [|? ? (h & -> & Hh) _]; subst. exists u, h. auto.
    + left. exact N.
Qed.

(** the names created by a column-wise transformer are tidy *)
Section TidyOec.
  Context {C St : Type}.
  Lemma dset_values : forall {V} (P : V -> Prop) (d : dict string V) k v,
    (forall x, In x d -> P (snd x)) -> P v -> forall x, In x (dset k v d) -> P (snd x).
  Proof.
    intros V P. induction d as [|[a b] d IH]; intros k v Hd Hv x I; simpl in I.
    - destruct I as [<-|[]]. exact Hv.
    - destruct (eqd k a).
      + destruct I as [<-|I]; [exact Hv|]. apply Hd. right. exact I.
      + destruct I as [<-|I]; [apply (Hd (a, b)); left; reflexivity|].
        apply (IH k v); [intros y J; apply Hd; right; exact J|exact Hv|exact I].
  Qed.

  Lemma process_tidy : forall draw keep X (rs : list (string * list (string * C) * option St)) s s',
    (forall i, hex8 (draw i)) ->
    process draw (fun n => n) keep X s rs = Ok s' ->
    (forall n outs st, In (n, outs, Some st) rs -> Forall Tidiable (map fst outs)) ->
    (forall x, In x (l_i2o s) -> Forall Tidy (snd x)) ->
    (forall x, In x (l_i2o s') -> Forall Tidy (snd x)).
  Proof.
    intros draw keep X. induction rs as [|[[n outs] [st|]] rs IH]; intros s s' Hd E Hs Hi; simpl in E.
    - injection E as <-. exact Hi.
    - rewrite map_id in E.
      destruct (if keep then _ else _) as [orig|]; simpl in E; [|discriminate].
      refine (IH _ s' Hd E _ _).
      + intros n' outs' st' I. apply (Hs n' outs' st'). right. exact I.
      + simpl. intros x. apply (dset_values (fun v => Forall Tidy v)); [exact Hi|].
        apply pick_Tidy; [exact Hd|]. apply (Hs n outs st). left. reflexivity.
    - refine (IH _ s' Hd E _ Hi).
      intros n' outs' st' I. apply (Hs n' outs' st'). right. exact I.
  Qed.

  Lemma oec_tidy : forall lib draw (ft : string -> C -> outcome C St) cols columns rej keep X f out,
    (forall i, hex8 (draw i)) -> expand cols X = Ok columns ->
    oec_fit_transform lib draw ft cols rej keep (fun n => n) X = Ok (f, out) ->
    (forall n c outs st, In (n, c) X -> In n columns -> ft n c = Fitted outs st ->
       Forall Tidiable (map fst outs)) ->
    forall x, In x (input_to_outputs_ f) -> Forall Tidy (snd x).
  Proof.
    intros lib draw ft cols columns rej keep X f out Hd Ex E Hs x I. unfold oec_fit_transform in E.
    rewrite Ex in E. cbn [bind] in E.
    destruct (mapM (fit_transform_column ft columns rej) X) as [rs|] eqn:Er; [|discriminate]. cbn [bind] in E.
    destruct (process _ _ _ _ _ rs) as [s|] eqn:Ep; [|discriminate]. cbn [bind] in E.
    destruct (make_dataframe_like lib (l_cols s)) as [o|]; [|discriminate]. cbn [bind] in E.
    injection E as <- <-. simpl in I. revert x I.
    apply (process_tidy _ _ _ _ _ _ Hd Ep); [|simpl; tauto].
    intros n outs st I. apply mapM_Forall2 in Er.
    assert (exists p, In p X /\ fit_transform_column ft columns rej p = Ok (n, outs, Some st)) as ([m c] & Ip & E).
    { clear -Er I. induction Er as [|a b l l' E F IH]; [destruct I|].
      destruct I as [->|I]; [exists a; split; [left; reflexivity|exact E]|].
      destruct (IH I) as (p & I' & E'). exists p. split; [right; exact I'|exact E']. }
    simpl in E. destruct (mem m columns) eqn:Em; simpl in E; [|discriminate]. apply mem_true in Em.
    destruct (ft m c) eqn:Ef; try discriminate; [destruct rej; discriminate|].
    injection E as <- <- <-. eapply Hs; eassumption.
  Qed.
End TidyOec.

Section Cells.
  Context {C St : Type}.
  Notation transformer := (transformer C St).

  (** ** The table during encoding *)
  (** A column, not encoded yet, or encoded: what the encoder computed, its state, the names
      given to the outputs, and the number of the step that did it. *)
  Inductive cell := Raw (c : C) | Done (outs : list (string * C)) (st : St) (names : list string) (k : nat).
  Definition flat1 (x : string * cell) : list (string * C) :=
    match snd x with
    | Raw c => [(fst x, c)]
    | Done outs _ names _ => combine names (map snd outs)
    end.
  Definition flat (cells : list (string * cell)) : frame C := concat (map flat1 cells).
  Definition tr_lab (k : nat) (cells : list (string * cell)) : list (string * St) :=
    flat_map (fun x => match snd x with
                       | Done _ st _ k' => if (k =? k')%nat then [(fst x, st)] else []
                       | Raw _ => [] end) cells.
  Definition i2o_lab (k : nat) (cells : list (string * cell)) : list (string * list string) :=
    flat_map (fun x => match snd x with
                       | Done _ _ names k' => if (k =? k')%nat then [(fst x, names)] else []
                       | Raw _ => [] end) cells.
  Definition wf1 (x : string * cell) : Prop :=
    match snd x with Raw _ => True | Done outs _ names _ => length names = length outs end.
  Definition labels_below (k : nat) (cells : list (string * cell)) : Prop :=
    forall n outs st names k', In (n, Done outs st names k') cells -> k' < k.

  (** what one step does to a column *)
  Definition Adv (t : transformer) (columns : list string) (k : nat) (x y : string * cell) : Prop :=
    fst y = fst x /\
    match snd x with
    | Done _ _ _ _ => snd y = snd x
    | Raw c =>
        (In (fst x) columns -> exists outs st names, t (fst x) c = Fitted outs st /\
           length names = length outs /\ snd y = Done outs st names k) /\
        (~ In (fst x) columns -> snd y = Raw c)
    end.

  Lemma flat_cons : forall x cells, flat (x :: cells) = flat1 x ++ flat cells.
  Proof. reflexivity. Qed.

  Definition none_list (l : frame C) : list (@fate C St) := map (fun _ => None) l.
  Lemma none_fates : forall (t : transformer) columns (l : frame C) bs1,
    Forall2 (Fate t false columns) l bs1 -> (forall x, In x (map fst l) -> ~ In x columns) ->
    bs1 = none_list l.
  Proof.
    intros t columns l bs1 F. induction F as [|p b l bs1 H F IH]; intros N; simpl; [reflexivity|].
    f_equal; [|apply IH; intros x I; apply N; right; exact I].
    destruct b as [[[o st] ns]|]; [|reflexivity]. exfalso. apply (N (fst p)); [left; reflexivity|]. apply H.
  Qed.

  Lemma none_blocks : forall (l : frame C),
    concat (map (@block C St false) (combine l (none_list l))) = l /\
    concat (map (@tr_of C St) (combine l (none_list l))) = [] /\
    concat (map (@i2o_of C St) (combine l (none_list l))) = [].
  Proof.
    induction l as [|p l (IH1 & IH2 & IH3)]; simpl; [auto|]. rewrite IH1, IH2, IH3. auto.
  Qed.

  Lemma combine_app : forall {A B} (l1 l2 : list A) (m1 m2 : list B), length l1 = length m1 ->
    combine (l1 ++ l2) (m1 ++ m2) = combine l1 m1 ++ combine l2 m2.
  Proof.
    intros A B. induction l1 as [|a l1 IH]; intros l2 [|b m1] m2 L; simpl in *; try discriminate; [reflexivity|].
    f_equal. apply IH. congruence.
  Qed.

  Lemma regroup : forall (t : transformer) columns k cells bs,
    labels_below k cells ->
    (forall n outs st names k' x, In (n, Done outs st names k') cells -> In x names -> ~ In x columns) ->
    Forall wf1 cells ->
    Forall2 (Fate t false columns) (flat cells) bs ->
    exists cells',
      concat (map (block false) (combine (flat cells) bs)) = flat cells' /\
      Forall2 (Adv t columns k) cells cells' /\ Forall wf1 cells' /\
      concat (map tr_of (combine (flat cells) bs)) = tr_lab k cells' /\
      concat (map i2o_of (combine (flat cells) bs)) = i2o_lab k cells'.
  Proof.
    intros t columns k. induction cells as [|[n s] cells IH]; intros bs HL HN HW HF.
    - inversion HF; subst. exists []. repeat split; constructor.
    - rewrite flat_cons in *. apply Forall2_app_inv_l in HF. destruct HF as (b1 & b2 & F1 & F2 & ->).
      inversion HW as [|? ? W1 W2]; subst.
      destruct (IH b2) as (cells' & E1 & A & W' & E2 & E3); try assumption.
      { intros n' outs st names k' I. apply (HL n' outs st names k'). right. exact I. }
      { intros n' outs st names k' x I. apply (HN n' outs st names k' x). right. exact I. }
      pose proof (Forall2_len _ _ _ F1) as Lb.
      rewrite !combine_app by exact Lb. rewrite !map_app, !concat_app, E1, E2, E3.
      destruct s as [c|outs st names k'].
      + unfold flat1 in *. simpl in F1. inversion F1 as [|p b l l' H1 H2]; subst. inversion H2; subst.
        simpl. destruct b as [[[outs st] names]|].
        * simpl in H1. destruct H1 as (H1a & H1b & H1c).
          exists ((n, Done outs st names k) :: cells'). rewrite flat_cons. simpl. rewrite Nat.eqb_refl.
          rewrite app_nil_r. repeat split; try reflexivity; [|constructor; [exact H1c|exact W']].
          constructor; [|exact A]. split; [reflexivity|]. simpl. split; [|contradiction].
          intros _. exists outs, st, names. auto.
        * simpl in H1. destruct H1 as [H1|[H1 _]]; [|discriminate].
          exists ((n, Raw c) :: cells'). rewrite flat_cons. simpl.
          repeat split; try reflexivity; [|constructor; [exact Logic.I|exact W']].
          constructor; [|exact A]. split; [reflexivity|]. simpl. split; [contradiction|reflexivity].
      + apply none_fates in F1.
        * subst b1. destruct (none_blocks (flat1 (n, Done outs st names k'))) as (B1 & B2 & B3).
          unfold frame in *. rewrite B1, B2, B3.
          assert (Nk : (k =? k')%nat = false).
          { apply Nat.eqb_neq. intros ->. specialize (HL n outs st names k' (or_introl eq_refl)). lia. }
          exists ((n, Done outs st names k') :: cells'). rewrite flat_cons. simpl. rewrite Nk.
          repeat split; try reflexivity; [|constructor; [exact W1|exact W']].
          constructor; [|exact A]. split; reflexivity.
        * intros x I. apply (HN n outs st names k' x (or_introl eq_refl)).
          unfold flat1 in I. simpl in I. rewrite combine_fst in I; [exact I|]. rewrite map_length. exact W1.
  Qed.

  (** one encoding step *)
  Lemma adv_step : forall lib draw (t : transformer) sel columns k cells,
    NoDup (column_names (flat cells)) -> expand sel (flat cells) = Ok columns ->
    Fresh draw (length (suggestions t (fun n => n) columns (flat cells)))
      (suggestions t (fun n => n) columns (flat cells)) (column_names (flat cells)) ->
    labels_below k cells -> Forall wf1 cells ->
    (forall n outs st names k' x, In (n, Done outs st names k') cells -> In x names -> ~ In x columns) ->
    (forall n c, In (n, Raw c) cells -> In n columns -> exists outs st, t n c = Fitted outs st) ->
    exists f cells',
      oec_fit_transform lib draw t sel false false (fun n => n) (flat cells) = Ok (f, flat cells') /\
      Forall2 (Adv t columns k) cells cells' /\ Forall wf1 cells' /\
      NoDup (column_names (flat cells')) /\
      transformers_ f = tr_lab k cells' /\ input_to_outputs_ f = i2o_lab k cells' /\
      ((forall i, hex8 (draw i)) ->
       (forall n c outs st, In (n, Raw c) cells -> In n columns -> t n c = Fitted outs st ->
          Forall Tidiable (map fst outs)) ->
       forall n outs st names, In (n, Done outs st names k) cells' -> Forall Tidy names).
  Proof.
    intros lib draw t sel columns k cells ND Ex Fr HL HW HN HR.
    destruct (oec_fit_ok t (fun n => n) false false lib draw sel (flat cells) columns ND Ex Fr)
      as (f & bs & E & L & HF & NDo & _ & _ & Et & Ei & _).
    - intros [n c] e I [Ic CE]. simpl in Ic, CE.
      unfold flat in I. apply in_concat in I. destruct I as (l & Il & I).
      apply in_map_iff in Il. destruct Il as ([n' s] & <- & Ix). unfold flat1 in I. simpl in I.
      destruct s as [c'|outs st names k'].
      + destruct I as [I|[]]. injection I as -> ->.
        destruct (HR n c Ix Ic) as (outs & st & Ef). rewrite Ef in CE. exact CE.
      + apply (HN _ _ _ _ _ n Ix); [|exact Ic]. eapply in_combine_l. exact I.
    - cbn zeta in E, NDo. destruct (regroup t columns k cells bs HL HN HW HF) as (cells' & E1 & A & W' & E2 & E3).
      exists f, cells'. split; [rewrite <- E1; exact E|]. split; [exact A|]. split; [exact W'|].
      split; [rewrite <- E1; exact NDo|]. split; [rewrite Et; exact E2|]. split; [rewrite Ei; exact E3|].
      intros Hd HT n outs st names I.
      apply (oec_tidy lib draw t sel columns false false (flat cells) f _ Hd Ex E) with (x := (n, names)).
      + intros m c o s J Jc Ef. apply (HT m c o s); [|exact Jc|exact Ef].
        unfold flat in J. apply in_concat in J. destruct J as (l & Il & J).
        apply in_map_iff in Il. destruct Il as ([n' s'] & <- & Ix). unfold flat1 in J. simpl in J.
        destruct s' as [c'|outs' st' names' k'].
        * destruct J as [J|[]]. injection J as -> ->. exact Ix.
        * exfalso. apply (HN _ _ _ _ _ m Ix); [|exact Jc]. eapply in_combine_l. exact J.
      + rewrite Ei, E3. unfold i2o_lab. apply in_flat_map. exists (n, Done outs st names k). split; [exact I|].
        simpl. rewrite Nat.eqb_refl. left. reflexivity.
  Qed.

  Lemma Adv_lab : forall (t : transformer) columns k j cells cells', k <> j ->
    Forall2 (Adv t columns k) cells cells' ->
    tr_lab j cells' = tr_lab j cells /\ i2o_lab j cells' = i2o_lab j cells.
  Proof.
    intros t columns k j cells cells' N F. induction F as [|[n s] [n' s'] l l' [E H] F (IH1 & IH2)]; [auto|].
    simpl in E, H. subst n'. unfold tr_lab, i2o_lab in *. simpl. rewrite IH1, IH2.
    destruct s as [c|]; [|simpl in H; subst s'; auto].
    destruct (in_dec eqd n columns) as [I|I].
    - destruct (proj1 H I) as (outs & st & names & _ & _ & ->). simpl.
      destruct (j =? k)%nat eqn:Ej; [apply Nat.eqb_eq in Ej; congruence|]. auto.
    - rewrite (proj2 H I). auto.
  Qed.

  Lemma Adv_labels : forall (t : transformer) columns k cells cells', labels_below k cells ->
    Forall2 (Adv t columns k) cells cells' -> labels_below (S k) cells'.
  Proof.
    intros t columns k cells cells' HL F n outs st names k' I.
    induction F as [|[m s] [m' s'] l l' [E H] F IH]; [destruct I|].
    destruct I as [I|I].
    - injection I as <- ->. simpl in E, H. subst. destruct s as [c|].
      + destruct (in_dec eqd m columns) as [J|J].
        * destruct (proj1 H J) as (o & s & ns & _ & _ & E). injection E as -> -> -> ->. lia.
        * pose proof (proj2 H J) as E. discriminate.
      + specialize (HL m outs st names k'). simpl in H. rewrite <- H in HL.
        specialize (HL (or_introl eq_refl)). lia.
    - apply IH; [|exact I]. intros a b c d e J. apply (HL a b c d e). right. exact J.
  Qed.

  Lemma Adv_names : forall (t : transformer) columns k cells cells',
    Forall2 (Adv t columns k) cells cells' -> map fst cells' = map fst cells.
  Proof. intros. induction H as [|x y l l' [E _] F IH]; simpl; [reflexivity|]. congruence. Qed.

  Lemma raw_in_flat : forall cells n c, In (n, Raw c) cells -> In (n, c) (flat cells).
  Proof.
    intros cells n c I. unfold flat. apply in_concat. exists [(n, c)]. split; [|left; reflexivity].
    apply in_map_iff. exists (n, Raw c). auto.
  Qed.

  Lemma done_in_flat : forall cells n outs st names k x, Forall wf1 cells ->
    In (n, Done outs st names k) cells -> In x names -> In x (column_names (flat cells)).
  Proof.
    intros cells n outs st names k x W I Ix. rewrite Forall_forall in W. specialize (W _ I).
    unfold flat, column_names. rewrite concat_map, map_map. apply in_concat.
    exists (map fst (flat1 (n, Done outs st names k))). split; [apply in_map_iff; eexists; eauto|].
    unfold flat1. simpl. rewrite combine_fst; [exact Ix|]. rewrite map_length. exact W.
  Qed.

  Lemma flat_in : forall cells n c, In (n, c) (flat cells) ->
    In (n, Raw c) cells \/ exists m outs st names k, In (m, Done outs st names k) cells /\ In n names.
  Proof.
    intros cells n c I. unfold flat in I. apply in_concat in I. destruct I as (l & Il & I).
    apply in_map_iff in Il. destruct Il as ([m s] & <- & Ix). unfold flat1 in I. simpl in I.
    destruct s as [c'|outs st names k].
    - destruct I as [I|[]]. injection I as -> ->. auto.
    - right. exists m, outs, st, names, k. split; [exact Ix|]. eapply in_combine_l. exact I.
  Qed.

  (** a raw column's name is not the name of an encoded output *)
  Lemma raw_not_done : forall cells n c m outs st names k,
    NoDup (column_names (flat cells)) -> Forall wf1 cells ->
    In (n, Raw c) cells -> In (m, Done outs st names k) cells -> ~ In n names.
  Proof.
    induction cells as [|x cells IH]; intros n c m outs st names k ND W I1 I2 J; [destruct I1|].
    rewrite flat_cons in ND. unfold column_names in ND. rewrite map_app in ND.
    inversion W as [|? ? W1 W2]; subst.
    destruct I1 as [I1|I1]; destruct I2 as [I2|I2].
    - subst x. discriminate.
    - subst x. apply (NoDup_app_disj _ _ n ND); [left; reflexivity|].
      apply (done_in_flat cells m outs st names k n W2 I2 J).
    - subst x. apply (NoDup_app_disj _ _ n ND).
      + unfold flat1. simpl. rewrite combine_fst; [exact J|]. rewrite map_length. exact W1.
      + apply in_map_iff. exists (n, c). split; [reflexivity|]. apply raw_in_flat. exact I1.
    - apply (IH n c m outs st names k); try assumption. apply NoDup_app_r in ND. exact ND.
  Qed.
End Cells.
Arguments cell C St : clear implicits.

Section Steps.
  Context {C St : Type}.
  Notation transformer := (transformer C St).
  Notation step := (step C St).

  (** The random strings drawn along a run are new at each step. *)
  Fixpoint FreshRun (lib : library) (draws : nat -> nat -> string) (k : nat) (steps : list step)
    (done : list (fitted St)) (X : frame C) : Prop :=
    match steps with
    | [] => True
    | s :: steps' =>
        (forall columns, expand (s_cols s done) X = Ok columns ->
           let sg := suggestions (s_ft s) (fun n => n) columns X in
           Fresh (draws k) (length sg) sg (column_names X)) /\
        (forall f X', oec_fit_transform lib (draws k) (s_ft s) (s_cols s done) (s_reject s)
                        false (fun n => n) X = Ok (f, X') ->
           FreshRun lib draws (S k) steps' (done ++ [f]) X')
    end.

  (** ** Steps that keep names *)
  (** what a name-keeping transformer may return *)
  Definition SameName (t : transformer) (n : string) (c : C) : Prop :=
    t n c = Rejected \/ (exists st, t n c = Fitted [] st) \/ (exists c' st, t n c = Fitted [(n, c')] st).
  Definition keep_out (t : transformer) (b : bool) (p : string * C) : list (string * C) :=
    if b then match t (fst p) (snd p) with
              | Fitted outs _ => map (fun o => (fst p, snd o)) outs
              | _ => [p]
              end
    else [p].
  Definition keep_st (t : transformer) (b : bool) (p : string * C) : option St :=
    if b then match t (fst p) (snd p) with Fitted _ st => Some st | _ => None end else None.

  Lemma combine_same_key : forall (X : frame C) (bs : list (@fate C St)) p b p' b',
    length bs = length X -> NoDup (column_names X) ->
    In (p, b) (combine X bs) -> In (p', b') (combine X bs) -> fst p = fst p' -> p = p' /\ b = b'.
  Proof.
    induction X as [|q X IH]; intros [|b0 bs] p b p' b' L ND I I' E; simpl in *; try contradiction; try discriminate.
    inversion ND as [|? ? N1 N2]; subst.
    assert (K : forall r s, In (r, s) (combine X bs) -> In (fst r) (column_names X)).
    { intros r s J. apply in_map_iff. exists r. split; [reflexivity|]. eapply in_combine_l. exact J. }
    destruct I as [I|I]; destruct I' as [I'|I'].
    - injection I as -> ->. injection I' as -> ->. auto.
    - injection I as -> ->. exfalso. apply N1. rewrite E. eapply K. exact I'.
    - injection I' as -> ->. exfalso. apply N1. rewrite <- E. eapply K. exact I.
    - apply (IH bs p b p' b'); try assumption. congruence.
  Qed.

  Lemma Forall2_combine : forall {A B} (R : A -> B -> Prop) l l' a b, Forall2 R l l' ->
    In (a, b) (combine l l') -> R a b.
  Proof.
    intros A B R l l' a b F. induction F as [|x y l l' H F IH]; intros I; [destruct I|].
    destruct I as [I|I]; [injection I as -> ->; exact H|apply IH; exact I].
  Qed.

  Lemma map_combine_fst : forall {A B D} (g : A -> D) (l : list A) (l' : list B), length l' = length l ->
    map (fun x => g (fst x)) (combine l l') = map g l.
  Proof.
    intros A B D g. induction l as [|a l IH]; intros [|b l'] L; simpl in *; try discriminate; [reflexivity|].
    f_equal. apply IH. congruence.
  Qed.

  Lemma same_name_step : forall lib draw (t : transformer) sel rej (selb : string * C -> bool) (X : frame C) columns,
    NoDup (column_names X) -> expand sel X = Ok columns ->
    (forall p, In p X -> (In (fst p) columns <-> selb p = true)) ->
    Fresh draw (length (suggestions t (fun n => n) columns X)) (suggestions t (fun n => n) columns X) (column_names X) ->
    (forall p, In p X -> selb p = true -> Canonical (fst p) /\ SameName t (fst p) (snd p)) ->
    rej = true ->
    exists f,
      oec_fit_transform lib draw t sel rej false (fun n => n) X
      = Ok (f, concat (map (fun p => keep_out t (selb p) p) X)) /\
      NoDup (column_names (concat (map (fun p => keep_out t (selb p) p) X))) /\
      (forall p, In p X -> dget (fst p) (transformers_ f) = keep_st t (selb p) p) /\
      (forall n, In n (dkeys (transformers_ f)) -> In n (column_names X)) /\
      NoDup (dkeys (transformers_ f)).
  Proof.
    intros lib draw t sel rej selb X columns ND Ex Hsel Fr HS ->.
    destruct (oec_fit_ok t (fun n => n) true false lib draw sel X columns ND Ex Fr)
      as (f & bs & E & L & HF & NDo & _ & _ & Et & Ei & _ & HK & HN).
    { intros p e I [Ic CE]. apply (Hsel p I) in Ic. destruct (HS p I Ic) as [_ SN].
      destruct SN as [SN|[(st & SN)|(c' & st & SN)]]; rewrite SN in CE; [|exact CE|exact CE].
      destruct CE; discriminate. }
    cbn zeta in *. set (out := concat (map (block false) (combine X bs))) in *.
    assert (HB : forall p b, In (p, b) (combine X bs) ->
              block false (p, b) = keep_out t (selb p) p /\
              match b with None => None | Some (_, st, _) => Some st end = keep_st t (selb p) p).
    { intros p b I. pose proof (Forall2_combine _ _ _ _ _ HF I) as Fb.
      pose proof (Forall2_combine _ _ _ _ _ HN I) as Nb.
      assert (Ip : In p X) by (eapply in_combine_l; exact I).
      destruct b as [[[outs st] names]|]; simpl in Fb, Nb.
      - destruct Fb as (Ic & Ef & Ln). apply (Hsel p Ip) in Ic. destruct (HS p Ip Ic) as [Cn SN].
        unfold keep_out, keep_st. rewrite Ic, Ef. split; [|reflexivity].
        destruct SN as [SN|[(st' & SN)|(c' & st' & SN)]]; rewrite Ef in SN; [discriminate| |].
        + injection SN as -> ->. destruct names; [reflexivity|discriminate].
        + injection SN as -> ->. destruct names as [|nm [|? ?]]; try discriminate. simpl.
          simpl in Nb. inversion Nb as [|? ? ? ? NF _]; subst.
          pose proof (scan_Untag (fst p)) as U. destruct (NF _ _ U) as [En|[T _]].
          * rewrite En, (Cn _ _ U). reflexivity.
          * rewrite (Cn _ _ U) in T. destruct T as [[_ [T|T]]|T]; [discriminate|congruence|].
            assert (En : nm = fst p); [|rewrite En; reflexivity].
            unfold out, column_names in T. apply in_map_iff in T. destruct T as (q & Eq & Iq).
            apply in_concat in Iq. destruct Iq as (blk & Ib & Iq). apply in_map_iff in Ib.
            destruct Ib as ([p' b'] & <- & Ib). destruct b' as [[[outs' st''] names']|]; simpl in Iq.
            -- assert (In (fst q) names') as Iq' by (destruct q; eapply in_combine_l; exact Iq).
               destruct (HK (p', Some (outs', st'', names')) Ib (fst q)) as [_ Ef'].
               { exact Iq'. }
               { rewrite Eq. apply in_map. exact Ip. }
               simpl in Ef'. destruct (combine_same_key X bs _ _ _ _ L ND I Ib) as [-> Ebb]; [congruence|].
               injection Ebb as <- <- <-. destruct Iq' as [Iq'|[]]. congruence.
            -- destruct Iq as [<-|[]].
               destruct (combine_same_key X bs _ _ _ _ L ND I Ib) as [_ Ebb]; [congruence|]. discriminate.
      - simpl. unfold keep_out, keep_st. destruct (selb p) eqn:Es; [|auto].
        destruct Fb as [Fb|[_ Fb]]; [exfalso; apply Fb; apply (Hsel p Ip); exact Es|]. rewrite Fb. auto. }
    assert (Eout : out = concat (map (fun p => keep_out t (selb p) p) X)).
    { unfold out. f_equal. rewrite <- (map_combine_fst (fun p => keep_out t (selb p) p) X bs L).
      apply map_ext_in. intros [p b] I. apply HB. exact I. }
    exists f. rewrite <- Eout. split; [exact E|]. split; [exact NDo|]. split; [|split].
    - intros p I.
      assert (exists b, In (p, b) (combine X bs)) as [b Ib].
      { clear -I L. revert bs L. induction X as [|q X IH]; intros [|b bs] L; simpl in *; try contradiction; try discriminate.
        destruct I as [->|I]; [eauto|]. destruct (IH I bs ltac:(congruence)) as [b' Ib]. eauto. }
      rewrite Et, (tr_lookup X bs L ND p b Ib). apply HB. exact Ib.
    - intros n I. rewrite Et in I. apply (tr_keys X bs n L I).
    - rewrite Et. clear -ND L. revert bs L. unfold dkeys.
      induction X as [|p X IH]; intros [|b bs] L; simpl in *; try discriminate; [constructor|].
      inversion ND as [|? ? N1 N2]; subst. rewrite map_app.
      destruct b as [[[o st] ns]|]; simpl; [|apply (IH N2); congruence].
      constructor; [|apply (IH N2); congruence]. intros I. apply N1.
      apply (tr_keys X bs (fst p)); [congruence|exact I].
  Qed.
End Steps.

Section Runs.
  Context {C St : Type}.
  Notation transformer := (transformer C St).
  Notation step := (step C St).
  Variable lib : library.
  Variable draws : nat -> nat -> string.

  (** ** Preprocessing *)
  (** What preprocessing makes of one column: its final data (or nothing if it is dropped),
      and the fitted transformers applied to it. *)
  Inductive PreCol : list transformer -> string -> C -> option C -> list St -> Prop :=
  | PC_nil : forall n c, PreCol [] n c (Some c) []
  | PC_reject : forall t ts n c r sts, t n c = Rejected -> PreCol ts n c r sts -> PreCol (t :: ts) n c r sts
  | PC_drop : forall t ts n c st, t n c = Fitted [] st -> PreCol (t :: ts) n c None [st]
  | PC_apply : forall t ts n c c' st r sts, t n c = Fitted [(n, c')] st -> PreCol ts n c' r sts ->
      PreCol (t :: ts) n c r (st :: sts).
  Definition applied (n : string) (fs : list (fitted St)) : list St :=
    flat_map (fun f => match dget n (transformers_ f) with Some st => [st] | None => [] end) fs.
  (** the columns after preprocessing that come from [p] *)
  Definition Preprocessed (specific : list string) (ts : list transformer) (fs : list (fitted St))
    (p : string * C) (blk : list (string * C)) : Prop :=
    if in_dec eqd (fst p) specific then blk = [p] /\ applied (fst p) fs = []
    else exists r sts, PreCol ts (fst p) (snd p) r sts /\ applied (fst p) fs = sts /\
           blk = match r with Some c => [(fst p, c)] | None => [] end.

  Lemma expand_all_but : forall specific (X : frame C),
    exists columns, expand (all_but specific) X = Ok columns /\
      forall p, In p X -> (In (fst p) columns <-> ~ In (fst p) specific).
  Proof.
    intros specific X. destruct (expand_spec (all_but specific) X) as (sel & E & F).
    - intros [l E]. discriminate.
    - intros n c _. simpl. auto.
    - exists (column_names sel). split; [exact E|]. intros p I. split.
      + intros J. apply in_map_iff in J. destruct J as (q & Eq & J).
        apply (FilterOf_incl _ _ _ F) in J. destruct J as [_ J]. simpl in J. rewrite Eq in J. tauto.
      + intros N. apply in_map. apply (FilterOf_incl _ _ _ F). split; [exact I|]. simpl. auto.
  Qed.

  Lemma blocks_names : forall (specific : list string) (g : string * C -> list (string * C)) (X : frame C),
    (forall p, In p X -> forall q, In q (g p) -> fst q = fst p) ->
    forall n, In n (column_names (concat (map g X))) -> In n (column_names X).
  Proof.
    intros specific g X Hg n I. apply in_map_iff in I. destruct I as (q & <- & I).
    apply in_concat in I. destruct I as (b & Ib & I). apply in_map_iff in Ib. destruct Ib as (p & <- & Ip).
    rewrite (Hg p Ip q I). apply in_map. exact Ip.
  Qed.

  Lemma Forall2_concat_inv : forall {A B D} (R : A -> B -> Prop) (g : D -> list A) (l : list D) bs,
    Forall2 R (concat (map g l)) bs ->
    exists bss, Forall2 (fun d b => Forall2 R (g d) b) l bss /\ bs = concat bss.
  Proof.
    intros A B D R g. induction l as [|d l IH]; intros bs F; simpl in F.
    - inversion F; subst. exists []. split; [constructor|reflexivity].
    - apply Forall2_app_inv_l in F. destruct F as (b1 & b2 & F1 & F2 & ->).
      destruct (IH b2 F2) as (bss & G & ->). exists (b1 :: bss). split; [constructor; assumption|reflexivity].
  Qed.

  Lemma pre_run : forall specific ts k done (X : frame C),
    NoDup (column_names X) ->
    (forall n, In n (column_names X) -> In n specific \/ Canonical n) ->
    FreshRun lib draws k (map (pre_step specific) ts) done X ->
    (forall p, In p X -> ~ In (fst p) specific -> exists r sts, PreCol ts (fst p) (snd p) r sts) ->
    exists gs blks,
      run_steps lib draws k (map (pre_step specific) ts) done X = Ok (done ++ gs, concat blks) /\
      Forall2 (Preprocessed specific ts gs) X blks /\
      NoDup (column_names (concat blks)) /\
      (forall g n, In g gs -> In n (dkeys (transformers_ g)) -> In n (column_names X)) /\
      Forall (fun g => NoDup (dkeys (transformers_ g))) gs.
  Proof.
    intros specific. induction ts as [|t ts IH]; intros k done X ND HC FR HP.
    - exists [], (map (fun p => [p]) X). simpl.
      assert (E : concat (map (fun p : string * C => [p]) X) = X) by (clear; induction X; simpl; congruence).
      rewrite app_nil_r, E. split; [reflexivity|]. split; [|split; [exact ND|split; [tauto|constructor]]].
      assert (G : forall p, In p X -> Preprocessed specific [] [] p [p]).
      { intros p I. unfold Preprocessed. destruct (in_dec eqd (fst p) specific) as [J|J]; [auto|].
        exists (Some (snd p)), []. split; [constructor|]. split; [reflexivity|]. destruct p; reflexivity. }
      clear -G. induction X as [|p X IH]; simpl; constructor.
      + apply G. left. reflexivity.
      + apply IH. intros q I. apply G. right. exact I.
    - simpl in FR. destruct FR as [Fr FR].
      destruct (expand_all_but specific X) as (columns & Ex & Hc). specialize (Fr columns Ex). cbn zeta in Fr.
      set (selb := fun p : string * C => negb (mem (fst p) specific)).
      assert (Hselb : forall p, selb p = true <-> ~ In (fst p) specific).
      { intros p. unfold selb. rewrite negb_true_iff. apply mem_false. }
      destruct (same_name_step lib (draws k) t (all_but specific) true selb X columns ND Ex) as (f & E & NDo & Ht & Hk & NDk).
      { intros p I. rewrite (Hc p I). symmetry. apply Hselb. }
      { exact Fr. }
      { intros p I Es. apply Hselb in Es. split.
        - destruct (HC (fst p)) as [J|J]; [apply in_map; exact I|contradiction|exact J].
        - destruct (HP p I Es) as (r & sts & P). inversion P; subst; unfold SameName; eauto 6. }
      { reflexivity. }
      set (X1 := concat (map (fun p => keep_out t (selb p) p) X)) in *.
      assert (Hg : forall p, In p X -> forall q, In q (keep_out t (selb p) p) -> fst q = fst p).
      { intros p _ q. unfold keep_out. destruct (selb p); [|intros [<-|[]]; reflexivity].
        destruct (t (fst p) (snd p)); try (intros [<-|[]]; reflexivity).
        intros J. apply in_map_iff in J. destruct J as (o & <- & _). reflexivity. }
      assert (Hsub : forall n, In n (column_names X1) -> In n (column_names X)).
      { apply blocks_names; [exact specific|exact Hg]. }
      destruct (IH (S k) (done ++ [f]) X1 NDo) as (gs & blks & E' & F & NDf & Hgs & NDg).
      { intros n I. apply HC. apply Hsub. exact I. }
      { apply FR. exact E. }
      { intros q I N. apply in_concat in I. destruct I as (b & Ib & I). apply in_map_iff in Ib.
        destruct Ib as (p & <- & Ip). pose proof (Hg p Ip q I) as Eq. rewrite Eq in N.
        unfold keep_out in I. rewrite (proj2 (Hselb p) N) in I.
        destruct (HP p Ip N) as (r & sts & P).
        inversion P as [|? ? ? ? ? ? Et P'|? ? ? ? ? Et|? ? ? ? c' st ? sts' Et P']; subst; rewrite Et in I; simpl in I.
        - destruct I as [<-|[]]. eauto.
        - destruct I.
        - destruct I as [<-|[]]. simpl. eauto. }
      apply Forall2_concat_inv in F. destruct F as (bss & F & ->).
      exists (f :: gs), (map (@concat _) bss). simpl. rewrite E. cbn [bind]. rewrite E', <- app_assoc. simpl.
      assert (Ecc : concat (concat bss) = concat (map (@concat _) bss)).
      { clear. induction bss as [|b l IH]; simpl; [reflexivity|]. rewrite concat_app, IH. reflexivity. }
      rewrite <- Ecc. split; [reflexivity|]. split; [|split; [exact NDf|split]].
      + assert (G : forall p, In p X -> forall b, Forall2 (Preprocessed specific ts gs) (keep_out t (selb p) p) b ->
                  Preprocessed specific (t :: ts) (f :: gs) p (concat b)).
        { intros p Ip b Fb. unfold Preprocessed. unfold applied. cbn [flat_map]. rewrite (Ht p Ip).
          unfold keep_out, keep_st in *. destruct (in_dec eqd (fst p) specific) as [J|J].
          - assert (Es : selb p = false) by (unfold selb; rewrite negb_false_iff; apply mem_true; exact J).
            rewrite Es in *. inversion Fb as [|? b1 ? ? F1 F2]; subst. inversion F2; subst.
            unfold Preprocessed in F1. destruct (in_dec eqd (fst p) specific); [|contradiction].
            destruct F1 as [-> F1]. simpl. split; [reflexivity|exact F1].
          - rewrite (proj2 (Hselb p) J) in *. destruct (HP p Ip J) as (r & sts & P).
            inversion P as [|? ? ? ? ? ? Et P'|? ? ? ? ? Et|? ? ? ? c' st ? sts' Et P']; subst; rewrite Et in *; simpl in Fb.
            + inversion Fb as [|? b1 ? ? F1 F2]; subst. inversion F2; subst. unfold Preprocessed in F1.
              destruct (in_dec eqd (fst p) specific); [contradiction|].
              destruct F1 as (r1 & sts1 & P1 & A1 & ->). exists r1, sts1. split; [apply PC_reject; assumption|].
              split; [exact A1|]. simpl. apply app_nil_r.
            + inversion Fb; subst. exists None, [st]. split; [apply PC_drop; exact Et|].
              split; [|reflexivity]. simpl. f_equal.
              (* a dropped column is not seen by the later steps *)
              assert (Nx : ~ In (fst p) (column_names X1)).
              { intros I. apply in_map_iff in I. destruct I as (q & Eq & I). apply in_concat in I.
                destruct I as (bl & Ib & I). apply in_map_iff in Ib. destruct Ib as (p' & <- & Ip').
                pose proof (Hg p' Ip' q I) as E2.
                assert (Epp : p' = p).
                { clear -ND Ip Ip' Eq E2. rewrite E2 in Eq. clear E2. induction X as [|x X IH]; [destruct Ip|].
                  inversion ND as [|? ? N1 N2]; subst.
                  destruct Ip as [->|Ip]; destruct Ip' as [->|Ip']; [reflexivity| | |apply IH; assumption].
                  - exfalso. apply N1. rewrite <- Eq. apply in_map. exact Ip'.
                  - exfalso. apply N1. rewrite Eq. apply in_map. exact Ip. }
                subst p'. unfold keep_out in I. rewrite (proj2 (Hselb p) J), Et in I. destruct I. }
              assert (Ng : forall g, In g gs -> dget (fst p) (transformers_ g) = None).
              { intros g Ig. destruct (dget (fst p) (transformers_ g)) as [x|] eqn:Eg; [|reflexivity].
                exfalso. apply Nx. apply (Hgs g (fst p) Ig). apply dget_In in Eg.
                unfold dkeys. apply in_map_iff. exists (fst p, x). auto. }
              clear -Ng. induction gs as [|g gs IH]; simpl; [reflexivity|].
              rewrite (Ng g (or_introl eq_refl)). simpl. apply IH. intros g' I. apply Ng. right. exact I.
            + inversion Fb as [|? b1 ? ? F1 F2]; subst. inversion F2; subst. unfold Preprocessed in F1. simpl in F1.
              destruct (in_dec eqd (fst p) specific); [contradiction|].
              destruct F1 as (r1 & sts1 & P1 & A1 & ->). exists r1, (st :: sts1). split; [eapply PC_apply; eassumption|].
              split; [simpl; f_equal; exact A1|]. simpl. apply app_nil_r. }
        clear -F G. induction F as [|p b X bss H F IH]; simpl; constructor.
        * apply G; [left; reflexivity|exact H].
        * apply IH. intros q I. apply G. right. exact I.
      + intros g n [<-|I] J; [apply Hk; exact J|]. apply Hsub. exact (Hgs g n I J).
      + constructor; assumption.
  Qed.
End Runs.

Section Encoding.
  Context {C St : Type}.
  Notation transformer := (transformer C St).
  Notation cell := (cell C St).
  Variable lib : library.
  Variable draws : nat -> nat -> string.

  (** A column is handled by the first of the steps that selects it. *)
  Inductive Handled : list ((string -> C -> bool) * transformer) -> nat -> string -> C -> cell -> Prop :=
  | H_none : forall k n c, Handled [] k n c (Raw c)
  | H_here : forall sel t es k n c outs st names, sel n c = true -> t n c = Fitted outs st ->
      length names = length outs -> Handled ((sel, t) :: es) k n c (Done outs st names k)
  | H_later : forall sel t es k n c y, sel n c = false -> Handled es (S k) n c y ->
      Handled ((sel, t) :: es) k n c y.
  Definition Route es k (x y : string * cell) : Prop :=
    fst y = fst x /\
    match snd x with Done _ _ _ _ => snd y = snd x | Raw c => Handled es k (fst x) c (snd y) end.
  (** the first selecting step does not fail on the column *)
  Inductive Works (Q : list (string * C) -> Prop) : list ((string -> C -> bool) * transformer) -> string -> C -> Prop :=
  | W_none : forall n c, Works Q [] n c
  | W_here : forall sel t es n c outs st, sel n c = true -> t n c = Fitted outs st -> Q outs ->
      Works Q ((sel, t) :: es) n c
  | W_later : forall sel t es n c, sel n c = false -> Works Q es n c -> Works Q ((sel, t) :: es) n c.

  Lemma Route_cons : forall sel t es k columns (cells cells1 cells2 : list (string * cell)),
    (forall n c, In (n, Raw c) cells -> (In n columns <-> sel n c = true)) ->
    Forall2 (Adv t columns k) cells cells1 -> Forall2 (Route es (S k)) cells1 cells2 ->
    Forall2 (Route ((sel, t) :: es) k) cells cells2.
  Proof.
    intros sel t es k columns cells cells1 cells2 Hc F1. revert cells2.
    induction F1 as [|[n s] [n1 s1] cells cells1 [E1 H1] F1 IH]; intros cells2 F2; inversion F2 as [|? [n2 s2] ? ? [E2 H2] F3]; subst.
    - constructor.
    - constructor; [|apply IH; [intros m c I; apply Hc; right; exact I|exact F3]].
      simpl in *. subst. split; [reflexivity|]. simpl. destruct s as [c|].
      + destruct (in_dec eqd n columns) as [I|I].
        * destruct (proj1 H1 I) as (outs & st & names & Ef & Ln & ->). rewrite H2.
          apply H_here; [apply (Hc n c (or_introl eq_refl)); exact I|exact Ef|exact Ln].
        * rewrite (proj2 H1 I) in H2. apply H_later; [|exact H2].
          destruct (sel n c) eqn:Es; [|reflexivity]. exfalso. apply I. apply (Hc n c (or_introl eq_refl)). exact Es.
      + rewrite H1 in H2. exact H2.
  Qed.

  Lemma Route_nil : forall k (cells : list (string * cell)), Forall2 (Route [] k) cells cells.
  Proof.
    intros k. induction cells as [|[n [c|]] cells IH]; constructor; try exact IH; split; try reflexivity. constructor.
  Qed.

  Lemma Route_lab : forall es k j (cells cells' : list (string * cell)), Forall2 (Route es k) cells cells' -> j < k ->
    tr_lab j cells' = tr_lab j cells /\ i2o_lab j cells' = i2o_lab j cells.
  Proof.
    intros es k j cells cells' F L. induction F as [|[n s] [n' s'] l l' [E H] F (IH1 & IH2)]; [auto|].
    simpl in E, H. subst n'. unfold tr_lab, i2o_lab in *. simpl. rewrite IH1, IH2.
    destruct s as [c|]; [|subst s'; auto]. 
    assert (G : forall k', k <= k' -> Handled es k' n c s' -> match s' with Raw _ => True | Done _ _ _ i => k' <= i end).
    { clear. induction es as [|[sel t] es IH]; intros k' L H; inversion H; subst; simpl; auto.
      specialize (IH (S k') ltac:(lia) H8). destruct s'; [exact I|]. lia. }
    specialize (G k (le_n _) H). destruct s' as [c'|outs st names i]; [auto|].
    destruct (j =? i)%nat eqn:Ej; [apply Nat.eqb_eq in Ej; lia|]. auto.
  Qed.

  Lemma Handled_label : forall es k n c y, Handled es k n c y ->
    match y with Raw c' => c' = c | Done _ _ _ j => k <= j < k + length es end.
  Proof.
    intros es k n c y H. induction H; simpl; [reflexivity|lia|]. destruct y; [exact IHHandled|lia].
  Qed.

  Lemma Route_done_low : forall es k (cells cells' : list (string * cell)) n outs st names j,
    Forall2 (Route es k) cells cells' -> j < k -> In (n, Done outs st names j) cells' ->
    In (n, Done outs st names j) cells.
  Proof.
    intros es k cells cells' n outs st names j F L I.
    induction F as [|[m s] [m1 s1] l l1 [E H] F IH]; [destruct I|].
    destruct I as [I|I]; [|right; exact (IH I)].
    injection I as -> ->. simpl in E, H. subst. destruct s as [c|].
    - apply Handled_label in H. lia.
    - left. rewrite <- H. reflexivity.
  Qed.

  Definition Records (cells : list (string * cell)) (j : nat) (g : fitted St) : Prop :=
    transformers_ g = tr_lab j cells /\ input_to_outputs_ g = i2o_lab j cells.

  Lemma Adv_raw : forall (t : transformer) columns k (cells cells1 : list (string * cell)),
    Forall2 (Adv t columns k) cells cells1 ->
    forall n c, In (n, Raw c) cells1 -> In (n, Raw c) cells /\ ~ In n columns.
  Proof.
    intros t columns k cells cells1 F n c I.
    induction F as [|[m s] [m1 s1] l l1 [E H] F IH]; [destruct I|].
    destruct I as [I|I]; [|destruct (IH I); split; [right; assumption|assumption]].
    injection I as -> ->. simpl in E, H. subst. destruct s as [c'|]; [|discriminate].
    destruct (in_dec eqd m columns) as [J|J].
    - destruct (proj1 H J) as (? & ? & ? & _ & _ & X). discriminate.
    - specialize (proj2 H J) as X. injection X as <-. split; [left; reflexivity|exact J].
  Qed.

  Lemma Adv_done : forall (t : transformer) columns k (cells cells1 : list (string * cell)),
    Forall2 (Adv t columns k) cells cells1 ->
    forall n outs st names j, In (n, Done outs st names j) cells1 ->
      In (n, Done outs st names j) cells \/
      (j = k /\ In n columns /\ exists c, In (n, Raw c) cells /\ t n c = Fitted outs st).
  Proof.
    intros t columns k cells cells1 F n outs st names j I.
    induction F as [|[m s] [m1 s1] l l1 [E H] F IH]; [destruct I|].
    destruct I as [I|I].
    - injection I as -> ->. simpl in E, H. subst. destruct s as [c|o' s' n' j'].
      + destruct (in_dec eqd m columns) as [J|J].
        * destruct (proj1 H J) as (o & s & ns & Ef & _ & X). injection X as -> -> -> ->.
          right. split; [reflexivity|]. split; [exact J|]. exists c. split; [left; reflexivity|exact Ef].
        * specialize (proj2 H J) as X. discriminate.
      + injection H as -> -> -> ->. left. left. reflexivity.
    - destruct (IH I) as [J|(A & B & c & D & G)]; [left; right; exact J|]. right. eauto 7 using in_cons.
  Qed.

  Lemma Adv_done_keep : forall (t : transformer) columns k (cells cells1 : list (string * cell)),
    Forall2 (Adv t columns k) cells cells1 ->
    forall n outs st names j, In (n, Done outs st names j) cells -> In (n, Done outs st names j) cells1.
  Proof.
    intros t columns k cells cells1 F n outs st names j I.
    induction F as [|[m s] [m1 s1] l l1 [E H] F IH]; [destruct I|].
    destruct I as [I|I]; [|right; exact (IH I)].
    injection I as -> ->. simpl in E, H. subst. left. reflexivity.
  Qed.

  (** columns selected by a step with [created_by] *)
  Definition created_in (done : list (fitted St)) (x : string) : bool :=
    existsb (fun f => mem x (created_outputs_ f)) done.
  Definition Tracks (done : list (fitted St)) (cells : list (string * cell)) : Prop :=
    forall x, created_in done x = true <->
      exists m outs st names j, In (m, Done outs st names j) cells /\ In x names.

  Lemma created_lab : forall k (cells : list (string * cell)) x,
    In x (concat (map snd (i2o_lab k cells))) <->
    exists m outs st names, In (m, Done outs st names k) cells /\ In x names.
  Proof.
    intros k cells x. split.
    - intros I. apply in_concat in I. destruct I as (l & Il & I). apply in_map_iff in Il.
      destruct Il as ([m names] & <- & Il). unfold i2o_lab in Il. apply in_flat_map in Il.
      destruct Il as ([m' s] & Ic & Il). simpl in Il. destruct s as [c|outs st names' j]; [destruct Il|].
      destruct (k =? j)%nat eqn:Ej; [|destruct Il]. apply Nat.eqb_eq in Ej. subst j.
      destruct Il as [Il|[]]. injection Il as -> ->. exists m, outs, st, names. auto.
    - intros (m & outs & st & names & Ic & I). apply in_concat. exists names. split; [|exact I].
      apply in_map_iff. exists (m, names). split; [reflexivity|]. unfold i2o_lab. apply in_flat_map.
      exists (m, Done outs st names k). split; [exact Ic|]. simpl. rewrite Nat.eqb_refl. left. reflexivity.
  Qed.

  Lemma Tracks_step : forall done (t : transformer) columns k (cells cells1 : list (string * cell)) f,
    Tracks done cells -> Forall2 (Adv t columns k) cells cells1 ->
    labels_below k cells -> input_to_outputs_ f = i2o_lab k cells1 -> Tracks (done ++ [f]) cells1.
  Proof.
    intros done t columns k cells cells1 f HT HA HL Ef x. unfold created_in. rewrite existsb_app, orb_true_iff.
    simpl. rewrite orb_false_r, mem_true. unfold created_outputs_. rewrite Ef, created_lab.
    fold (created_in done x). rewrite (HT x). split.
    - intros [(m & outs & st & names & j & Ic & I)|(m & outs & st & names & Ic & I)].
      + exists m, outs, st, names, j. split; [|exact I]. eapply Adv_done_keep; eassumption.
      + exists m, outs, st, names, k. auto.
    - intros (m & outs & st & names & j & Ic & I).
      destruct (Adv_done _ _ _ _ _ HA _ _ _ _ _ Ic) as [Ic'|(-> & _)].
      + left. exists m, outs, st, names, j. auto.
      + right. exists m, outs, st, names. auto.
  Qed.

  Lemma expand_encoder : forall specific (sel : C -> bool) (t : transformer) done (cells : list (string * cell)),
    NoDup (column_names (flat cells)) -> Forall wf1 cells -> Tracks done cells ->
    exists columns, expand (s_cols (encoder_step specific sel t) done) (flat cells) = Ok columns /\
      (forall n outs st names k' x, In (n, Done outs st names k') cells -> In x names -> ~ In x columns) /\
      (forall n c, In (n, Raw c) cells -> (In n columns <-> ~ In n specific /\ sel c = true)).
  Proof.
    intros specific sel t done cells ND W HT.
    destruct (expand_spec (s_cols (encoder_step specific sel t) done) (flat cells)) as (sl & E & F).
    - intros [l E]. discriminate.
    - intros n c _. simpl. eauto 10.
    - exists (column_names sl). split; [exact E|].
      assert (G : forall n, In n (column_names sl) -> created_in done n = false).
      { intros n I. apply in_map_iff in I. destruct I as (q & <- & I).
        apply (FilterOf_incl _ _ _ F) in I. destruct I as [_ I]. simpl in I.
        unfold created_in. destruct (existsb _ done); [|reflexivity]. destruct I as (_ & _ & I). congruence. }
      split.
      + intros n outs st names k' x I J K. specialize (G x K).
        assert (created_in done x = true); [|congruence]. apply HT. eauto 10.
      + intros n c I. split.
        * intros J. pose proof (raw_in_flat _ _ _ I) as Ir. apply in_map_iff in J. destruct J as (q & Eq & J).
          apply (FilterOf_incl _ _ _ F) in J. destruct J as [Jf J]. simpl in J.
          assert (Eqc : q = (n, c)).
          { destruct q as [n' c']. simpl in Eq. subst n'. f_equal.
            apply (proj2 (dget_some_iff (flat cells) n c' ND)) in Jf.
            apply (proj2 (dget_some_iff (flat cells) n c ND)) in Ir. congruence. }
          subst q. simpl in J. destruct J as ((_ & J1) & J2 & _). split; [exact J1|congruence].
        * intros [J1 J2]. apply in_map_iff. exists (n, c). split; [reflexivity|].
          apply (FilterOf_incl _ _ _ F). split; [apply raw_in_flat; exact I|]. simpl.
          split; [auto|]. split; [congruence|]. intros X. injection X as X. fold (created_in done n) in X.
          apply HT in X. destruct X as (m & outs & st & names & j & Ic & In').
          exact (raw_not_done cells n c m outs st names j ND W I Ic In').
  Qed.

  Definition enc_sel (specific : list string) (e : (C -> bool) * transformer)
    : (string -> C -> bool) * transformer :=
    (fun n c => negb (mem n specific) && fst e c, snd e).

  Lemma enc_run : forall specific (encs : list ((C -> bool) * transformer)) k done (cells : list (string * cell)),
    NoDup (column_names (flat cells)) -> Forall wf1 cells -> labels_below k cells -> Tracks done cells ->
    FreshRun lib draws k (map (fun e => encoder_step specific (fst e) (snd e)) encs) done (flat cells) ->
    (forall i j, hex8 (draws i j)) ->
    (forall n c, In (n, Raw c) cells -> Works (fun outs => Forall Tidiable (map fst outs)) (map (enc_sel specific) encs) n c) ->
    exists gs cells',
      run_steps lib draws k (map (fun e => encoder_step specific (fst e) (snd e)) encs) done (flat cells)
      = Ok (done ++ gs, flat cells') /\
      Forall2 (Route (map (enc_sel specific) encs) k) cells cells' /\ Forall wf1 cells' /\
      NoDup (column_names (flat cells')) /\ labels_below (k + length encs) cells' /\
      Forall2 (Records cells') (seq k (length encs)) gs /\
      (forall n outs st names j, In (n, Done outs st names j) cells' -> k <= j -> Forall Tidy names).
  Proof.
    intros specific. induction encs as [|[sel t] encs IH]; intros k done cells ND W HL HT FR Hd HW; simpl.
    - exists [], cells. rewrite app_nil_r, Nat.add_0_r. split; [reflexivity|]. split; [apply Route_nil|].
      repeat split; try assumption; [constructor|].
      intros n outs st names j I L. specialize (HL _ _ _ _ _ I). lia.
    - simpl in FR. destruct FR as [Fr FR].
      destruct (expand_encoder specific sel t done cells ND W HT) as (columns & Ex & HD & HR).
      specialize (Fr columns Ex). cbn zeta in Fr.
      destruct (adv_step lib (draws k) t (s_cols (encoder_step specific sel t) done) columns k cells ND Ex Fr HL W HD) as (f & cells1 & E & A & W1 & ND1 & Et & Ei & HTd).
      { intros n c I J. specialize (HW n c I). apply (HR n c I) in J. destruct J as [J1 J2].
        inversion HW as [|? ? ? ? ? outs st Hs Ef HQ|? ? ? ? ? Hs _]; subst; [eauto|].
        exfalso. simpl in Hs. rewrite J2, andb_true_r in Hs. apply negb_false_iff, mem_true in Hs. contradiction. }
      pose proof (Adv_labels _ _ _ _ _ HL A) as HL1.
      pose proof (Tracks_step done t columns k cells cells1 f HT A HL Ei) as HT1.
      destruct (IH (S k) (done ++ [f]) cells1 ND1 W1 HL1 HT1 (FR f _ E) Hd) as (gs & cells' & E' & R & W' & ND' & HL' & HR' & HTd').
      { intros n c I. destruct (Adv_raw _ _ _ _ _ A n c I) as [I0 N]. specialize (HW n c I0).
        inversion HW as [|? ? ? ? ? outs st Hs Ef HQ|? ? ? ? ? Hs Hw]; subst; [|exact Hw].
        exfalso. apply N. apply (HR n c I0). simpl in Hs. apply andb_true_iff in Hs. destruct Hs as [Hs1 Hs2].
        rewrite negb_true_iff, mem_false in Hs1. auto. }
      exists (f :: gs), cells'. simpl in E. rewrite E. cbn [bind]. rewrite E', <- app_assoc. simpl.
      split; [reflexivity|]. split; [|split; [exact W'|split; [exact ND'|split; [|split]]]].
      + apply (Route_cons _ t _ k columns cells cells1); [|exact A|exact R].
        intros n c I. rewrite (HR n c I), andb_true_iff, negb_true_iff, mem_false. reflexivity.
      + rewrite <- Nat.add_succ_comm. exact HL'.
      + constructor; [|exact HR']. destruct (Route_lab _ _ k _ _ R ltac:(lia)) as [R1 R2].
        unfold Records. rewrite R1, R2. auto.
      + intros n outs st names j I L. apply Nat.le_lteq in L. destruct L as [L|<-].
        * apply (HTd' n outs st names j I). lia.
        * assert (I1 : In (n, Done outs st names k) cells1) by (eapply Route_done_low; [exact R|lia|exact I]).
          apply (HTd (Hd k)) with (n := n) (outs := outs) (st := st); [|exact I1].
          intros m c o s' J Jc Ef. specialize (HW m c J). apply (HR m c J) in Jc. destruct Jc as [J1 J2].
          inversion HW as [|? ? ? ? ? outs' st' Hs Ef' HQ|? ? ? ? ? Hs _]; subst.
          -- simpl in Ef'. rewrite Ef in Ef'. injection Ef' as -> ->. exact HQ.
          -- exfalso. simpl in Hs. rewrite J2, andb_true_r in Hs. apply negb_false_iff, mem_true in Hs. contradiction.
  Qed.

  (** ** Specific transformers *)
  Definition spec_sel (e : transformer * list string) : (string -> C -> bool) * transformer :=
    (fun n c => mem n (snd e), fst e).
  Inductive PairwiseDisjoint : list (list string) -> Prop :=
  | PD_nil : PairwiseDisjoint []
  | PD_cons : forall l ls, (forall l' x, In l' ls -> In x l -> ~ In x l') -> PairwiseDisjoint ls ->
      PairwiseDisjoint (l :: ls).

  Lemma spec_run : forall (specs : list (transformer * list string)) k done (cells : list (string * cell)),
    NoDup (column_names (flat cells)) -> Forall wf1 cells -> labels_below k cells ->
    FreshRun lib draws k (map (fun e => specific_step (fst e) (snd e)) specs) done (flat cells) ->
    (forall e n, In e specs -> In n (snd e) -> exists c, In (n, Raw c) cells) ->
    PairwiseDisjoint (map snd specs) ->
    (forall n c, In (n, Raw c) cells -> Works (fun _ => True) (map spec_sel specs) n c) ->
    exists gs cells',
      run_steps lib draws k (map (fun e => specific_step (fst e) (snd e)) specs) done (flat cells)
      = Ok (done ++ gs, flat cells') /\
      Forall2 (Route (map spec_sel specs) k) cells cells' /\ Forall wf1 cells' /\
      NoDup (column_names (flat cells')) /\ labels_below (k + length specs) cells' /\
      Forall2 (Records cells') (seq k (length specs)) gs.
  Proof.
    induction specs as [|[t cols] specs IH]; intros k done cells ND W HL FR HC HP HW; simpl.
    - exists [], cells. rewrite app_nil_r, Nat.add_0_r. split; [reflexivity|]. split; [apply Route_nil|].
      repeat split; try assumption. constructor.
    - simpl in FR. destruct FR as [Fr FR]. inversion HP as [|? ? HP1 HP2]; subst.
      assert (Ex : expand (SCols cols) (flat cells) = Ok cols).
      { simpl. replace (filter (fun k => negb (mem k (column_names (flat cells)))) cols) with (@nil string); [reflexivity|].
        symmetry. assert (Q : forall n, In n cols -> In n (column_names (flat cells))).
        { intros n I. destruct (HC (t, cols) n (or_introl eq_refl) I) as [c Ic].
          apply raw_in_flat in Ic. apply in_map_iff. exists (n, c). auto. }
        clear -Q. induction cols as [|a l IHl]; simpl; [reflexivity|].
        rewrite (proj2 (mem_true a (column_names (flat cells))) (Q a (or_introl eq_refl))). simpl.
        apply IHl. intros n I. apply Q. right. exact I. }
      specialize (Fr cols Ex). cbn zeta in Fr.
      destruct (adv_step lib (draws k) t _ cols k cells ND Ex Fr HL W) as (f & cells1 & E & A & W1 & ND1 & Et & Ei & HTd).
      { intros n outs st names k' x I J K. destruct (HC (t, cols) x (or_introl eq_refl) K) as [c Ic].
        exact (raw_not_done cells x c n outs st names k' ND W Ic I J). }
      { intros n c I J. specialize (HW n c I).
        inversion HW as [|? ? ? ? ? outs st Hs Ef HQ|? ? ? ? ? Hs _]; subst; [eauto|].
        exfalso. simpl in Hs. apply mem_false in Hs. contradiction. }
      pose proof (Adv_labels _ _ _ _ _ HL A) as HL1.
      destruct (IH (S k) (done ++ [f]) cells1 ND1 W1 HL1 (FR f _ E)) as (gs & cells' & E' & R & W' & ND' & HL' & HR').
      { intros e n I J. destruct (HC e n (or_intror I) J) as [c Ic].
        assert (N : ~ In n cols) by (intros X; apply (HP1 (snd e) n); [apply in_map; exact I|exact X|exact J]).
        exists c. clear -A Ic N. induction A as [|[m s] [m1 s1] l l1 [E H] F IHl]; [destruct Ic|].
        destruct Ic as [Ic|Ic]; [|right; apply IHl; exact Ic]. injection Ic as -> ->. simpl in E, H. subst.
        left. rewrite (proj2 H N). reflexivity. }
      { exact HP2. }
      { intros n c I. destruct (Adv_raw _ _ _ _ _ A n c I) as [I0 N]. specialize (HW n c I0).
        inversion HW as [|? ? ? ? ? outs st Hs Ef HQ|? ? ? ? ? Hs Hw]; subst; [|exact Hw].
        exfalso. apply N. simpl in Hs. apply mem_true. exact Hs. }
      exists (f :: gs), cells'. simpl in E. simpl. rewrite E. cbn [bind]. rewrite E', <- app_assoc. simpl.
      split; [reflexivity|]. split; [|split; [exact W'|split; [exact ND'|split]]].
      + apply (Route_cons _ t _ k cols cells cells1); [|exact A|exact R].
        intros n c I. simpl. symmetry. apply mem_true.
      + rewrite <- Nat.add_succ_comm. exact HL'.
      + constructor; [|exact HR']. destruct (Route_lab _ _ k _ _ R ltac:(lia)) as [R1 R2].
        unfold Records. rewrite R1, R2. auto.
  Qed.
End Encoding.
