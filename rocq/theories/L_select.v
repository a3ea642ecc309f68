(** Specification of selectors and lemmas. *)
From Verif Require Import Base M_names M_select.
Open Scope string_scope.
Open Scope list_scope.
Open Scope nat_scope.

Section Sel.
  Context {C : Type}.

  (** ** Specification *)
  (** the set of columns a selector stands for *)
  Fixpoint denote (s : selector C) (n : string) (c : C) : Prop :=
    match s with
    | SAll => True
    | SCols l => In n l
    | SInv a => ~ denote a n c
    | SOr a b => denote a n c \/ denote b n c
    | SAnd a b => denote a n c /\ denote b n c
    | SSub a b => denote a n c /\ ~ denote b n c
    | SXor a b => (denote a n c /\ ~ denote b n c) \/ (~ denote a n c /\ denote b n c)
    | SFilter p => p n c = Ok true
    end.
  (** the predicates inside [s] do not raise on this column *)
  Fixpoint no_raise (s : selector C) (n : string) (c : C) : Prop :=
    match s with
    | SAll | SCols _ => True
    | SInv a => no_raise a n c
    | SOr a b | SAnd a b | SSub a b | SXor a b => no_raise a n c /\ no_raise b n c
    | SFilter p => exists b, p n c = Ok b
    end.
  Definition NoRaise (s : selector C) (df : frame C) : Prop :=
    forall n c, In (n, c) df -> no_raise s n c.
  (** [l'] is the list of the elements of [l] satisfying [P], in order *)
  Inductive FilterOf {A} (P : A -> Prop) : list A -> list A -> Prop :=
  | FO_nil : FilterOf P [] []
  | FO_keep : forall x l l', P x -> FilterOf P l l' -> FilterOf P (x :: l) (x :: l')
  | FO_skip : forall x l l', ~ P x -> FilterOf P l l' -> FilterOf P (x :: l) l'.
  Definition is_cols (s : selector C) : Prop := exists l, s = SCols l.

  (** ** Lemmas *)
  Lemma matches_denote : forall s n c, no_raise s n c ->
    exists b, matches s n c = Ok b /\ (b = true <-> denote s n c).
  Proof.
    induction s as [|l|a IH|a IHa b IHb|a IHa b IHb|a IHa b IHb|a IHa b IHb|p]; intros n c NR; simpl in *.
    - exists true. tauto.
    - exists (mem n l). split; [reflexivity|apply mem_true].
    - destruct (IH n c NR) as (x & E & D). rewrite E. simpl. exists (negb x).
      split; [reflexivity|]. destruct x; simpl; intuition discriminate.
    - destruct NR as [N1 N2]. destruct (IHa n c N1) as (x & Ex & Dx).
      destruct (IHb n c N2) as (y & Ey & Dy). rewrite Ex, Ey. simpl.
      exists (x || y). destruct x, y; simpl; intuition discriminate.
    - destruct NR as [N1 N2]. destruct (IHa n c N1) as (x & Ex & Dx).
      destruct (IHb n c N2) as (y & Ey & Dy). rewrite Ex, Ey. simpl.
      exists (x && y). destruct x, y; simpl; intuition discriminate.
    - destruct NR as [N1 N2]. destruct (IHa n c N1) as (x & Ex & Dx).
      destruct (IHb n c N2) as (y & Ey & Dy). rewrite Ex, Ey. simpl.
      exists (x && negb y). destruct x, y; simpl; intuition discriminate.
    - destruct NR as [N1 N2]. destruct (IHa n c N1) as (x & Ex & Dx).
      destruct (IHb n c N2) as (y & Ey & Dy). rewrite Ex, Ey. simpl.
      exists (xorb x y). destruct x, y; simpl; intuition discriminate.
    - destruct NR as [b E]. rewrite E. exists b. split; [reflexivity|]. split; congruence.
  Qed.

  Lemma expand_default_spec : forall s df, NoRaise s df ->
    exists sel, expand_default s df = Ok (column_names sel) /\
      FilterOf (fun p => denote s (fst p) (snd p)) df sel.
  Proof.
    intros s. induction df as [|[n c] df IH]; intros NR; simpl.
    - exists []. split; [reflexivity|constructor].
    - destruct (matches_denote s n c) as (b & E & D); [apply NR; left; reflexivity|].
      destruct IH as (sel & E' & F); [intros n' c' I; apply NR; right; exact I|].
      rewrite E, E'. simpl. destruct b.
      + exists ((n, c) :: sel). split; [reflexivity|]. constructor; [apply D; reflexivity|exact F].
      + exists sel. split; [reflexivity|]. constructor; [|exact F]. simpl. intros X.
        apply D in X. discriminate.
  Qed.

  Lemma expand_not_cols : forall s (df : frame C), ~ is_cols s -> expand s df = expand_default s df.
  Proof. intros s df N. destruct s; try reflexivity. exfalso. apply N. eexists. reflexivity. Qed.

  Lemma expand_spec : forall s df, ~ is_cols s -> NoRaise s df ->
    exists sel, expand s df = Ok (column_names sel) /\
      FilterOf (fun p => denote s (fst p) (snd p)) df sel.
  Proof. intros s df N NR. rewrite expand_not_cols by exact N. apply expand_default_spec. exact NR. Qed.

  Lemma expand_default_ext : forall s s' (df : frame C),
    (forall n c, In (n, c) df -> matches s n c = matches s' n c) ->
    expand_default s df = expand_default s' df.
  Proof.
    intros s s'. induction df as [|[n c] df IH]; intros H; simpl; [reflexivity|].
    rewrite (H n c) by (left; reflexivity). rewrite IH; [reflexivity|].
    intros n' c' I. apply H. right. exact I.
  Qed.

  (** the algebraic laws hold even if predicates raise *)
  Lemma law_de_morgan_or : forall a b (df : frame C),
    expand (SInv (SOr a b)) df = expand (SAnd (SInv a) (SInv b)) df.
  Proof.
    intros a b df. apply expand_default_ext. intros n c _. simpl.
    destruct (matches a n c) as [[|]|]; simpl; try reflexivity.
  Qed.
  Lemma law_de_morgan_and : forall a b (df : frame C),
    expand (SInv (SAnd a b)) df = expand (SOr (SInv a) (SInv b)) df.
  Proof.
    intros a b df. apply expand_default_ext. intros n c _. simpl.
    destruct (matches a n c) as [[|]|]; simpl; try reflexivity.
  Qed.
  Lemma law_sub : forall a b (df : frame C), expand (SSub a b) df = expand (SAnd a (SInv b)) df.
  Proof. intros a b df. apply expand_default_ext. intros n c _. reflexivity. Qed.
  Lemma law_xor : forall a b (df : frame C), expand (SXor a b) df = expand (SSub (SOr a b) (SAnd a b)) df.
  Proof.
    intros a b df. apply expand_default_ext. intros n c _. simpl.
    destruct (matches a n c) as [[|]|]; simpl; try reflexivity;
      destruct (matches b n c) as [[|]|]; reflexivity.
  Qed.
  Lemma law_double_neg : forall a (df : frame C), ~ is_cols a -> expand (SInv (SInv a)) df = expand a df.
  Proof.
    intros a df N. rewrite (expand_not_cols a df N). apply expand_default_ext. intros n c _. simpl.
    destruct (matches a n c) as [[|]|]; reflexivity.
  Qed.

  Lemma FilterOf_partition : forall {A} (P : A -> Prop) l l1 l2,
    FilterOf P l l1 -> FilterOf (fun x => ~ P x) l l2 -> Permutation l (l1 ++ l2).
  Proof.
    intros A P l l1 l2 F1. revert l2. induction F1 as [|x l l1 Px F1 IH|x l l1 Nx F1 IH]; intros l2 F2.
    - inversion F2; subst. constructor.
    - inversion F2; subst; [contradiction|]. simpl. constructor. apply IH. assumption.
    - inversion F2; subst; [|contradiction]. apply Permutation_cons_app. apply IH. assumption.
  Qed.

  Lemma law_partition : forall a (df : frame C), ~ is_cols a -> NoRaise a df ->
    exists s1 s2, expand a df = Ok (column_names s1) /\ expand (SInv a) df = Ok (column_names s2) /\
      Permutation df (s1 ++ s2).
  Proof.
    intros a df N NR. destruct (expand_spec a df N NR) as (s1 & E1 & F1).
    destruct (expand_spec (SInv a) df) as (s2 & E2 & F2).
    - intros [l E]. discriminate.
    - exact NR.
    - exists s1, s2. split; [exact E1|]. split; [exact E2|]. eapply FilterOf_partition; eassumption.
  Qed.

  (** indices and names agree *)
  Lemma expand_index_spec : forall s (df : frame C) i,
    match expand_default s df, expand_index_from s i df with
    | Ok names, Ok idx => map (fun k => nth_error (column_names df) (k - i)) idx = map Some names
                          /\ (forall k, In k idx -> i <= k)
    | Err e, Err e' => e = e'
    | _, _ => False
    end.
  Proof.
    intros s. induction df as [|[n c] df IH]; intros i; simpl; [tauto|].
    destruct (matches s n c) as [b|e]; simpl; [|reflexivity].
    specialize (IH (S i)).
    destruct (expand_default s df) as [names|e1]; destruct (expand_index_from s (S i) df) as [idx|e2];
      simpl; try tauto. destruct IH as [IH IHle].
    assert (E : map (fun k => nth_error (n :: column_names df) (k - i)) idx = map Some names).
    { rewrite <- IH. apply map_ext_in. intros k Ik. specialize (IHle k Ik).
      replace (k - i) with (S (k - S i)) by lia. reflexivity. }
    destruct b; simpl.
    - rewrite Nat.sub_diag. simpl. split; [f_equal; exact E|].
      intros k [<-|Ik]; [lia|]. specialize (IHle k Ik). lia.
    - split; [exact E|]. intros k Ik. specialize (IHle k Ik). lia.
  Qed.

  (** ** strict lists *)
  Lemma expand_cols_spec : forall l (df : frame C),
    (expand (SCols l) df = Ok l <-> forall n, In n l -> In n (column_names df)) /\
    (expand (SCols l) df = Err ValueError <-> exists n, In n l /\ ~ In n (column_names df)).
  Proof.
    intros l df. simpl.
    assert (HF : forall k, In k (filter (fun k => negb (mem k (column_names df))) l)
                  <-> In k l /\ ~ In k (column_names df)).
    { intros k. rewrite filter_In, negb_true_iff, mem_false. tauto. }
    destruct (filter _ l) as [|x r] eqn:E.
    - split; (split; [intros A|intros A]); try discriminate; try reflexivity.
      + intros n I. destruct (in_dec eqd n (column_names df)) as [Y|N]; [exact Y|].
        exfalso. apply (proj2 (HF n)). tauto.
      + destruct A as (n & Hn). apply HF in Hn. destruct Hn.
    - destruct (proj1 (HF x) (or_introl eq_refl)) as [I1 I2].
      split; (split; intros A); try discriminate; try reflexivity.
      + exfalso. apply I2, A, I1.
      + eauto.
  Qed.

  Lemma dget_some_iff : forall (df : frame C) n c, NoDup (column_names df) ->
    (dget n df = Some c <-> In (n, c) df).
  Proof.
    unfold column_names. induction df as [|[a b] d IH]; simpl; intros k v N; [split; [discriminate|tauto]|].
    inversion N as [|? ? N1 N2]; subst. destruct (eqd k a) as [E|Ne].
    - subst. split.
      + intros E. left. congruence.
      + intros [E|I]; [congruence|]. exfalso. apply N1.
        change a with (fst (a, v)). apply in_map; exact I.
    - rewrite IH by exact N2. split; [auto|]. intros [E|I]; [congruence|exact I].
  Qed.

  Lemma dget_none_iff : forall (df : frame C) n, dget n df = None <-> ~ In n (column_names df).
  Proof.
    unfold column_names. induction df as [|[a b] d IH]; simpl; intros k; [tauto|].
    destruct (eqd k a) as [E|Ne].
    - subst. split; [discriminate|tauto].
    - rewrite IH. split; intros A; [intros [E|I]|]; [congruence|tauto|tauto].
  Qed.

  Lemma select_names_ok : forall (df : frame C) names, NoDup (column_names df) ->
    (forall n, In n names -> In n (column_names df)) ->
    exists out, select_names df names = Ok out /\ column_names out = names /\
      (forall p, In p out -> In p df).
  Proof.
    intros df names ND. unfold select_names. induction names as [|n names IH]; intros H; simpl.
    - exists []. repeat split. simpl. tauto.
    - destruct IH as (out & E & En & Hin); [intros m I; apply H; right; exact I|].
      destruct (dget n df) as [c|] eqn:D.
      + simpl. rewrite E. simpl. exists ((n, c) :: out). split; [reflexivity|]. split.
        * simpl. rewrite En. reflexivity.
        * intros p [<-|I]; [apply dget_some_iff; assumption|apply Hin; exact I].
      + apply dget_none_iff in D. exfalso. apply D, H. left. reflexivity.
  Qed.

  Lemma select_cols_ok : forall l (df : frame C), NoDup (column_names df) ->
    (forall n, In n l -> In n (column_names df)) ->
    exists out, select df (SCols l) = Ok out /\ column_names out = l /\
      (forall p, In p out -> In p df).
  Proof.
    intros l df ND H. unfold select. rewrite (proj2 (proj1 (expand_cols_spec l df)) H). simpl.
    apply select_names_ok; assumption.
  Qed.

  Lemma select_cols_err : forall l (df : frame C),
    (exists n, In n l /\ ~ In n (column_names df)) -> select df (SCols l) = Err ValueError.
  Proof.
    intros l df H. unfold select. rewrite (proj2 (proj2 (expand_cols_spec l df)) H). reflexivity.
  Qed.

  Lemma FilterOf_incl : forall {A} (P : A -> Prop) l l', FilterOf P l l' ->
    forall x, In x l' <-> In x l /\ P x.
  Proof.
    intros A P l l' F. induction F as [|x l l' Px F IH|x l l' Nx F IH]; intros y; simpl.
    - tauto.
    - rewrite IH. intuition congruence.
    - rewrite IH. split; [tauto|]. intros [[E|I] Py]; [congruence|tauto].
  Qed.

  Lemma FilterOf_NoDup_names : forall (P : string * C -> Prop) df sel, FilterOf P df sel ->
    NoDup (column_names df) -> NoDup (column_names sel).
  Proof.
    intros P df sel F. unfold column_names. induction F as [|x l l' Px F IH|x l l' Nx F IH]; intros ND; simpl in *.
    - constructor.
    - inversion ND; subst. constructor; [|apply IH; assumption].
      intros I. apply in_map_iff in I. destruct I as (y & E & Iy).
      apply (FilterOf_incl _ _ _ F) in Iy. apply H1. rewrite <- E. apply in_map. tauto.
    - inversion ND; subst. apply IH. assumption.
  Qed.

  Lemma select_names_sub : forall (df sel : frame C), NoDup (column_names df) ->
    (forall p, In p sel -> In p df) -> select_names df (column_names sel) = Ok sel.
  Proof.
    intros df. unfold select_names, column_names. induction sel as [|[n c] sel IH]; intros ND H; simpl; [reflexivity|].
    assert (D : dget n df = Some c) by (apply dget_some_iff; [exact ND|apply H; left; reflexivity]).
    rewrite D. simpl. rewrite IH; [reflexivity|exact ND|]. intros p I. apply H. right. exact I.
  Qed.

  Lemma select_spec : forall s df, ~ is_cols s -> NoRaise s df -> NoDup (column_names df) ->
    exists out, select df s = Ok out /\ FilterOf (fun p => denote s (fst p) (snd p)) df out.
  Proof.
    intros s df N NR ND. destruct (expand_spec s df N NR) as (sel & E & F).
    exists sel. split; [|exact F]. unfold select. rewrite E. simpl. apply select_names_sub; [exact ND|].
    intros p I. apply (FilterOf_incl _ _ _ F) in I. tauto.
  Qed.

  (** ** SelectCols and DropCols *)
  Lemma expand_subset : forall s (df : frame C) cols, expand s df = Ok cols ->
    forall n, In n cols -> In n (column_names df).
  Proof.
    intros s df cols E. destruct (match s with SCols _ => true | _ => false end) eqn:K.
    - destruct s as [|l| | | | | |]; try discriminate. simpl in E.
      destruct (filter _ l) eqn:F; [|discriminate]. injection E as <-.
      intros n I. destruct (in_dec eqd n (column_names df)) as [Y|N]; [exact Y|]. exfalso.
      assert (In n (filter (fun k => negb (mem k (column_names df))) l)) as I'.
      { apply filter_In. split; [exact I|]. apply negb_true_iff, mem_false. exact N. }
      rewrite F in I'. destruct I'.
    - assert (E' : expand_default s df = Ok cols) by (destruct s; try discriminate; exact E).
      clear E K. revert cols E'. induction df as [|[n c] df IH]; intros cols E'; simpl in E'.
      + injection E' as <-. simpl. tauto.
      + destruct (matches s n c) as [b|]; [|discriminate]. simpl in E'.
        destruct (expand_default s df) as [r|]; [|discriminate]. simpl in E'. injection E' as <-.
        intros m I. simpl. destruct b; [destruct I as [<-|I]; [left; reflexivity|]|];
          right; apply (IH r eq_refl); exact I.
  Qed.

  Lemma expand_NoDup : forall s (df : frame C) cols, expand s df = Ok cols ->
    NoDup (column_names df) -> (forall l, s = SCols l -> NoDup l) -> NoDup cols.
  Proof.
    intros s df cols E ND Hl. destruct (match s with SCols _ => true | _ => false end) eqn:K.
    - destruct s as [|l| | | | | |]; try discriminate. simpl in E.
      destruct (filter _ l); [|discriminate]. injection E as <-. apply Hl. reflexivity.
    - assert (E' : expand_default s df = Ok cols) by (destruct s; try discriminate; exact E).
      clear E K Hl. revert cols E'. induction df as [|[n c] df IH]; intros cols E'; simpl in E'.
      + injection E' as <-. constructor.
      + destruct (matches s n c) as [b|]; [|discriminate]. simpl in E'.
        pose proof (expand_subset (SAnd s SAll) df) as HS.
        destruct (expand_default s df) as [r|] eqn:Er; [|discriminate]. simpl in E'. injection E' as <-.
        simpl in ND. inversion ND as [|? ? N1 N2]; subst. specialize (IH N2 r eq_refl).
        destruct b; [|exact IH]. constructor; [|exact IH]. intros I. apply N1.
        apply (HS r); [|exact I].
        rewrite expand_not_cols by (intros [l E]; discriminate).
        rewrite <- Er. apply expand_default_ext. intros n' c' _. simpl.
        destruct (matches s n' c') as [[|]|]; reflexivity.
  Qed.

  Lemma select_drop_partition : forall s (df : frame C) cols, NoDup (column_names df) ->
    (forall l, s = SCols l -> NoDup l) -> selcols_fit s df = Ok cols ->
    exists kept dropped,
      selectcols_transform cols df = Ok kept /\ column_names kept = cols /\
      dropcols_transform cols df = Ok dropped /\
      FilterOf (fun p => ~ In (fst p) cols) df dropped /\
      Permutation df (kept ++ dropped).
  Proof.
    intros s df cols ND Hl E. pose proof (expand_subset s df cols E) as HS.
    pose proof (expand_NoDup s df cols E ND Hl) as NDc.
    destruct (select_cols_ok cols df ND HS) as (kept & E1 & En & Hin).
    destruct (select_spec (SInv (SCols cols)) df) as (dropped & E2 & F).
    { intros [l X]. discriminate. }
    { intros n c _. exact I. }
    { exact ND. }
    exists kept, dropped. split; [exact E1|]. split; [exact En|]. split; [exact E2|]. split; [exact F|].
    apply NoDup_Permutation.
    - apply (NoDup_map_inv fst). exact ND.
    - apply NoDup_app_intro.
      + apply (NoDup_map_inv fst). change (map fst kept) with (column_names kept). rewrite En. exact NDc.
      + apply (NoDup_map_inv fst). eapply (FilterOf_NoDup_names _ df); eassumption.
      + intros x I1 I2. apply (FilterOf_incl _ _ _ F) in I2. apply (proj2 I2). simpl.
        rewrite <- En. apply in_map. exact I1.
    - intros [n c]. rewrite in_app_iff. rewrite (FilterOf_incl _ _ _ F). split.
      + intros I. destruct (in_dec eqd n cols) as [Y|N]; [left|right; tauto].
        rewrite <- En in Y. unfold column_names in Y. apply in_map_iff in Y.
        destruct Y as ([n' c'] & En' & I'). simpl in En'. subst n'.
        assert (c' = c).
        { apply Hin in I'. apply (dget_some_iff df n c' ND) in I'.
          apply (dget_some_iff df n c ND) in I. congruence. }
        subst. exact I'.
      + intros [I|[I _]]; [apply Hin; exact I|exact I].
  Qed.

  Lemma selectcols_later : forall cols (df2 : frame C), NoDup (column_names df2) ->
    ((forall n, In n cols -> In n (column_names df2)) ->
     exists out, selectcols_transform cols df2 = Ok out /\ column_names out = cols /\
       (forall p, In p out -> In p df2)) /\
    ((exists n, In n cols /\ ~ In n (column_names df2)) ->
     selectcols_transform cols df2 = Err ValueError).
  Proof.
    intros cols df2 ND. split.
    - apply select_cols_ok. exact ND.
    - apply select_cols_err.
  Qed.

  Lemma dropcols_later : forall cols (df2 : frame C), NoDup (column_names df2) ->
    exists out, dropcols_transform cols df2 = Ok out /\
      FilterOf (fun p => ~ In (fst p) cols) df2 out.
  Proof.
    intros cols df2 ND. apply (select_spec (SInv (SCols cols)) df2); [|intros n c _; exact I|exact ND].
    intros [l X]. discriminate.
  Qed.
End Sel.
