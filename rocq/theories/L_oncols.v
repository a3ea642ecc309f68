(** Specification of column-wise and sub-frame application, and lemmas. *)
From Verif Require Import Base M_names L_names M_select L_select M_oncols.
Open Scope string_scope.
Open Scope list_scope.
Open Scope nat_scope.

(** ** More on picked names *)
Lemma FreshAt_incl : forall draw i n l l' f f',
  (forall x, In x l' -> In x l) -> (forall x, In x f' -> In x f) ->
  FreshAt draw i n l f -> FreshAt draw i n l' f'.
Proof.
  intros draw i n l l' f f' Hl Hf (F1 & F2 & F3 & F4). split; [exact F1|]. split; [exact F2|]. split.
  - intros j x L1 L2 I. apply F3; auto.
  - intros j s u ts L1 L2 I. apply F4; auto.
Qed.

Lemma pick_fresh_gen : forall draw n l2 suggested i forbidden,
  i + length suggested <= n -> FreshAt draw i n (suggested ++ l2) forbidden ->
  NoDup (pick_from draw i suggested forbidden) /\
  (forall x, In x (pick_from draw i suggested forbidden) -> ~ In x forbidden) /\
  FreshAt draw (i + length suggested) n l2 (forbidden ++ pick_from draw i suggested forbidden).
Proof.
  intros draw n l2. induction suggested as [|s l IH]; intros i forbidden En F; simpl.
  - split; [constructor|]. split; [tauto|]. rewrite Nat.add_0_r, app_nil_r. exact F.
  - destruct F as (F1 & F2 & F3 & F4). simpl in En.
    pose proof (scan_Untag s) as U. set (u := fst (scan_tags 0 s)) in *.
    set (ts := snd (scan_tags 0 s)) in *.
    rewrite (get_new_name_spec (draw i) s u ts forbidden U).
    set (new := if in_dec eqd (wanted u ts) forbidden then _ else _).
    assert (Hnew : ~ In new forbidden).
    { unfold new. destruct (in_dec eqd (wanted u ts) forbidden) as [I|N]; [|exact N].
      intros I'. apply (F3 i _ (le_n _) ltac:(lia) I'). exists u. reflexivity. }
    assert (F' : FreshAt draw (S i) n (l ++ l2) (new :: forbidden)).
    { split; [|split; [|split]].
      - intros j Lj. apply F1. lia.
      - intros j k Lj. apply F2. lia.
      - intros j f Lj Ln [E|I] T.
        + subst f. unfold new in T. destruct (in_dec eqd (wanted u ts) forbidden) as [I|N].
          * apply (F2 i j (le_n _) ltac:(lia) Ln).
            eapply ends_with_tag_inj; [|exists u; reflexivity|exact T].
            rewrite (proj1 (F1 i (le_n _) ltac:(lia))). symmetry. apply (F1 j); lia.
          * destruct (F4 j s u ts ltac:(lia) Ln (or_introl eq_refl) U) as [A B].
            revert T. apply (fresh_wanted _ s); [apply F1; lia|exact U|exact A|exact B].
        + revert T. apply F3; [lia|lia|exact I].
      - intros j s' u' ts' Lj Ln I. apply F4; [lia|lia|right; exact I]. }
    destruct (IH (S i) (new :: forbidden) ltac:(lia) F') as (ND & DIS & F'').
    split; [|split].
    + constructor; [|exact ND]. intros I. apply (DIS _ I). left. reflexivity.
    + intros x [E|I]; [subst x; exact Hnew|]. intros I'. apply (DIS _ I). right. exact I'.
    + rewrite Nat.add_succ_r. revert F''. apply FreshAt_incl; [tauto|].
      intros x. simpl. rewrite !in_app_iff. simpl. tauto.
Qed.

(** The name given to a suggestion: the suggestion with its tags normalised, or a tagged
    version of it if that is already [taken]. *)
Definition NameFor (taken : string -> Prop) (suggested name : string) : Prop :=
  forall u ts, Untag suggested u ts ->
    name = wanted u ts \/
    (taken (wanted u ts) /\ exists token, name = (u ++ "__skrub_" ++ token ++ "__")%string).

Lemma pick_NameFor : forall draw suggested i forbidden (taken : string -> Prop),
  (forall x, In x forbidden -> taken x) ->
  (forall x, In x (pick_from draw i suggested forbidden) -> taken x) ->
  Forall2 (NameFor taken) suggested (pick_from draw i suggested forbidden).
Proof.
  intros draw. induction suggested as [|s l IH]; intros i forbidden taken Hf Hp; simpl; [constructor|].
  constructor.
  - intros u ts U. rewrite (get_new_name_spec (draw i) s u ts forbidden U).
    destruct (in_dec eqd (wanted u ts) forbidden) as [I|N]; [right|left; reflexivity].
    split; [apply Hf; exact I|]. exists (draw i). reflexivity.
  - apply IH.
    + intros x [E|I]; [|apply Hf; exact I]. apply Hp. simpl. left. exact E.
    + intros x I. apply Hp. simpl. right. exact I.
Qed.

(** ** dictionaries with new keys *)
Lemma dset_new : forall {K V} `{EqD K} (d : dict K V) k v, ~ In k (map fst d) -> dset k v d = d ++ [(k, v)].
Proof.
  intros K V HK. induction d as [|[a b] d IH]; simpl; intros k v N; [reflexivity|].
  destruct (eqd k a) as [E|Ne]; [subst; tauto|]. rewrite IH by tauto. reflexivity.
Qed.

Lemma fold_dset_new : forall {K V A} `{EqD K} (key : A -> K) (val : A -> V) (l : list A) (d : dict K V),
  NoDup (map fst d ++ map key l) ->
  fold_left (fun d a => dset (key a) (val a) d) l d = d ++ map (fun a => (key a, val a)) l.
Proof.
  intros K V A HK key val. induction l as [|a l IH]; simpl; intros d N; [rewrite app_nil_r; reflexivity|].
  rewrite dset_new.
  - rewrite IH; [rewrite <- app_assoc; reflexivity|]. rewrite map_app, <- app_assoc. exact N.
  - intros I. apply NoDup_remove_2 in N. apply N. rewrite in_app_iff. tauto.
Qed.

Lemma nodup_fixed : forall {A} (dec : forall x y : A, {x = y} + {x <> y}) l,
  NoDup l -> nodup dec l = l.
Proof.
  intros A dec. induction l as [|a l IH]; intros N; simpl; [reflexivity|].
  inversion N; subst. destruct (in_dec dec a l); [contradiction|]. f_equal. apply IH. assumption.
Qed.

Lemma make_dataframe_distinct : forall {C} lib (cols : list (string * C)), NoDup (map fst cols) ->
  make_dataframe_like lib cols = Ok cols.
Proof.
  intros C lib cols N. destruct lib; unfold make_dataframe_like.
  - rewrite (fold_dset_new fst snd cols []) by (simpl; exact N). simpl. f_equal.
    rewrite <- (map_id cols) at 2. apply map_ext. intros [a b]. reflexivity.
  - rewrite (nodup_fixed eqd (map fst cols) N), map_length, Nat.eqb_refl. reflexivity.
Qed.

Section OnEach.
  Context {C St : Type}.
  Variable ft : string -> C -> outcome C St.
  Variable rename : string -> string.
  Variables allow_reject keep_original : bool.

  (** ** Specification *)
  (** The fate of one input column: left alone, or replaced by [outs] (computed by the
      transformer, whose fitted state is [st]) under the names [names]. *)
  Definition fate := option (list (string * C) * St * list string).
  Definition Fate (columns : list string) (p : string * C) (b : fate) : Prop :=
    match b with
    | None => ~ In (fst p) columns \/ (allow_reject = true /\ ft (fst p) (snd p) = Rejected)
    | Some (outs, st, names) =>
        In (fst p) columns /\ ft (fst p) (snd p) = Fitted outs st /\ length names = length outs
    end.
  (** the output columns for one input column *)
  Definition block (pb : (string * C) * fate) : list (string * C) :=
    match pb with
    | (p, None) => [p]
    | (p, Some (outs, _, names)) =>
        (if keep_original then [p] else []) ++ combine names (map snd outs)
    end.
  Definition created (pb : (string * C) * fate) : list string :=
    match pb with (_, None) => [] | (_, Some (_, _, names)) => names end.
  (** all the names the transformers suggest *)
  Definition suggestions_of (columns : list string) (p : string * C) : list string :=
    if in_dec eqd (fst p) columns
    then match ft (fst p) (snd p) with
         | Fitted outs _ => map rename (map fst outs)
         | _ => []
         end
    else [].
  Definition suggestions (columns : list string) (X : frame C) : list string :=
    concat (map (suggestions_of columns) X).
  (** the names are chosen as announced; a name is taken if it is another input column's name,
      or any output column's name *)
  Definition NamedFrom (X : frame C) (out_names : list string) (p : string * C) (b : fate) : Prop :=
    match b with
    | None => True
    | Some (outs, _, names) =>
        Forall2 (NameFor (fun x => (In x (column_names X) /\ (keep_original = true \/ x <> fst p))
                                   \/ In x out_names))
          (map rename (map fst outs)) names
    end.
  (** one column makes [fit_transform] fail *)
  Definition ColumnError (columns : list string) (p : string * C) (e : exn) : Prop :=
    In (fst p) columns /\
    match ft (fst p) (snd p) with
    | Rejected => allow_reject = false /\ e = ValueError
    | Raised _ => e = ValueError
    | WrongType => e = TypeError
    | Fitted _ _ => False
    end.

  (** ** Lemmas *)
  Lemma rename_combine : forall (cols : list (string * C)) names, length names = length cols ->
    rename_columns cols names = combine names (map snd cols).
  Proof.
    unfold rename_columns. induction cols as [|[a c] cols IH]; intros [|n names] L; simpl in *; try discriminate; try reflexivity.
    f_equal. apply IH. congruence.
  Qed.
  Lemma combine_fst : forall {A B} (l : list A) (l' : list B), length l = length l' ->
    map fst (combine l l') = l.
  Proof.
    intros A B. induction l as [|a l IH]; intros [|b l'] L; simpl in *; try discriminate; [reflexivity|].
    f_equal. apply IH. congruence.
  Qed.
  Lemma combine_snd : forall {A B} (l : list A) (l' : list B), length l = length l' ->
    map snd (combine l l') = l'.
  Proof.
    intros A B. induction l as [|a l IH]; intros [|b l'] L; simpl in *; try discriminate; [reflexivity|].
    f_equal. apply IH. congruence.
  Qed.

  Lemma ftc_spec : forall columns p,
    match fit_transform_column ft columns allow_reject p with
    | Ok (n, outs, None) => n = fst p /\ outs = [p] /\ Fate columns p None /\ suggestions_of columns p = []
    | Ok (n, outs, Some st) => n = fst p /\ In (fst p) columns /\ ft (fst p) (snd p) = Fitted outs st
                               /\ suggestions_of columns p = map rename (map fst outs)
    | Err e => ColumnError columns p e
    end.
  Proof.
    intros columns [n c]. unfold fit_transform_column, Fate, ColumnError, suggestions_of. simpl.
    destruct (mem n columns) eqn:M; simpl.
    - apply mem_true in M. destruct (in_dec eqd n columns) as [_|N]; [|contradiction].
      destruct (ft n c) as [|e| |outs st] eqn:E.
      + destruct allow_reject; simpl; repeat split; auto.
      + auto.
      + auto.
      + repeat split; auto.
    - apply mem_false in M. destruct (in_dec eqd n columns) as [I|N]; [contradiction|]. repeat split; auto.
  Qed.

  (** loop invariant *)
  Record Inv (draw : nat -> string) (n : nat) (X : frame C) (columns : list string)
    (rest : frame C) (s : loop C St) : Prop := {
    inv_forb : forall x, In x (column_names X) -> In x (l_forbidden s);
    inv_forb' : forall x, In x (l_forbidden s) -> In x (column_names X) \/ In x (map fst (l_cols s));
    inv_nodup : NoDup (map fst (l_cols s));
    inv_cols : forall x, In x (map fst (l_cols s)) -> In x (l_forbidden s);
    inv_rest : forall x, In x (column_names rest) -> ~ In x (map fst (l_cols s));
    inv_tr : forall x, In x (map fst (l_transformers s)) -> ~ In x (column_names rest);
    inv_i2o : map fst (l_i2o s) = map fst (l_transformers s);
    inv_o2i : forall x, In x (map fst (l_o2i s)) -> In x (map fst (l_cols s));
    inv_o2i_nd : NoDup (map fst (l_o2i s));
    inv_len : ctr s + length (suggestions columns rest) <= n;
    inv_fresh : FreshAt draw (ctr s) n (suggestions columns rest) (l_forbidden s) }.

  Definition tr_of (pb : (string * C) * fate) : list (string * St) :=
    match pb with (_, None) => [] | (p, Some (_, st, _)) => [(fst p, st)] end.
  Definition i2o_of (pb : (string * C) * fate) : list (string * list string) :=
    match pb with (_, None) => [] | (p, Some (_, _, names)) => [(fst p, names)] end.
  Definition o2i_of (pb : (string * C) * fate) : list (string * string) :=
    map (fun o => (o, fst (fst pb))) (created pb).

  Lemma process_spec : forall draw n X columns, NoDup (column_names X) ->
    forall rest results s,
    (forall p, In p rest -> In p X) -> NoDup (column_names rest) ->
    Inv draw n X columns rest s ->
    mapM (fit_transform_column ft columns allow_reject) rest = Ok results ->
    exists s' bs, process draw rename keep_original X s results = Ok s' /\
      length bs = length rest /\
      Forall2 (Fate columns) rest bs /\
      l_cols s' = l_cols s ++ concat (map block (combine rest bs)) /\
      l_transformers s' = l_transformers s ++ concat (map tr_of (combine rest bs)) /\
      l_i2o s' = l_i2o s ++ concat (map i2o_of (combine rest bs)) /\
      l_o2i s' = l_o2i s ++ concat (map o2i_of (combine rest bs)) /\
      NoDup (map fst (l_cols s')) /\
      (forall pb, In pb (combine rest bs) -> forall x, In x (created pb) ->
         In x (column_names X) -> keep_original = false /\ x = fst (fst pb)) /\
      Forall2 (NamedFrom X (map fst (l_cols s'))) rest bs.
  Proof.
    intros draw n X columns NDX. induction rest as [|p rest IH]; intros results s HX NDr I E.
    - simpl in E. injection E as <-. exists s, []. simpl. rewrite !app_nil_r.
      split; [reflexivity|]. split; [reflexivity|]. split; [constructor|].
      repeat (split; [reflexivity|]). split; [apply (inv_nodup _ _ _ _ _ _ I)|].
      split; [tauto|constructor].
    - simpl in E. pose proof (ftc_spec columns p) as Sp.
      destruct (fit_transform_column ft columns allow_reject p) as [[[m outs] o]|e]; [|discriminate].
      simpl in E. destruct (mapM _ rest) as [rs|e] eqn:Er; [|discriminate]. simpl in E.
      injection E as <-. simpl in NDr. inversion NDr as [|? ? Np NDr']; subst.
      assert (HX' : forall q, In q rest -> In q X) by (intros q Iq; apply HX; right; exact Iq).
      pose proof (HX p (or_introl eq_refl)) as Ip.
      destruct I as [I1 I1' I2 I3 I4 I5 I6 I7 I7' I8 I9].
      unfold suggestions in I8, I9. simpl in I8, I9.
      destruct o as [st|].
      + destruct Sp as (-> & Hc & Eft & Esug). rewrite Esug in I8, I9.
        cbn [process process_step].
        set (sug := map rename (map fst outs)) in *.
        set (forb := if keep_original then l_forbidden s else remove eqd (fst p) (l_forbidden s)) in *.
        set (names := pick_from draw (ctr s) sug forb).
        assert (Ln : length names = length outs).
        { unfold names. rewrite pick_length. unfold sug. rewrite !map_length. reflexivity. }
        assert (Hforb : forall x, In x forb <-> In x (l_forbidden s) /\ (keep_original = true \/ x <> fst p)).
        { intros x. unfold forb. destruct keep_original; [tauto|]. split.
          - intros A. apply in_remove in A. tauto.
          - intros [A [B|B]]; [discriminate|]. apply in_in_remove; assumption. }
        rewrite app_length in I8.
        destruct (pick_fresh_gen draw n (suggestions columns rest) sug (ctr s) forb) as (P1 & P2 & P3).
        { lia. }
        { revert I9. apply FreshAt_incl; [tauto|]. intros x A. apply Hforb in A. tauto. }
        fold names in P1, P2, P3.
        (* the names that are inputs *)
        assert (Hin : forall x, In x names -> In x (l_forbidden s) -> keep_original = false /\ x = fst p).
        { intros x A B. destruct (eqd x (fst p)) as [Ex|Nx].
          - split; [|exact Ex]. destruct keep_original eqn:K; [|reflexivity].
            exfalso. apply (P2 x A). apply Hforb. tauto.
          - exfalso. apply (P2 x A). apply Hforb. tauto. }
        set (orig := if keep_original then [p] else [] : list (string * C)).
        assert (Eorig : (if keep_original
                         then match dget (fst p) X with Some c => Ok [(fst p, c)] | None => Err KeyError end
                         else Ok []) = Ok orig).
        { unfold orig. destruct keep_original; [|reflexivity].
          rewrite (proj2 (dget_some_iff X (fst p) (snd p) NDX)); [destruct p; reflexivity|].
          destruct p; exact Ip. }
        rewrite Eorig. cbn [bind].
        rewrite (rename_combine outs names Ln).
        assert (NDnew : NoDup (map fst (l_cols s ++ orig ++ combine names (map snd outs)))).
        { rewrite !map_app, combine_fst by (rewrite map_length; exact Ln).
          apply NoDup_app_intro; [exact I2| |].
          - unfold orig. destruct keep_original eqn:K; simpl; [|exact P1].
            constructor; [|exact P1]. intros A. destruct (Hin (fst p) A) as [B _]; [|discriminate].
            apply I1. apply in_map. exact Ip.
          - intros x A B. apply in_app_iff in B. destruct B as [B|B].
            + unfold orig in B. destruct keep_original; [|destruct B]. simpl in B.
              destruct B as [<-|[]]. apply (I4 (fst p)); [left; reflexivity|exact A].
            + destruct (Hin x B (I3 x A)) as [_ ->]. apply (I4 (fst p)); [left; reflexivity|exact A]. }
        set (s1 := {| l_transformers := dset (fst p) st (l_transformers s);
                      l_i2o := dset (fst p) names (l_i2o s);
                      l_o2i := fold_left (fun d o => dset o (fst p) d) names (l_o2i s);
                      l_cols := l_cols s ++ orig ++ combine names (map snd outs);
                      l_forbidden := l_forbidden s ++ names;
                      ctr := ctr s + length sug |}).
        assert (Et : l_transformers s1 = l_transformers s ++ [(fst p, st)]).
        { simpl. apply dset_new. intros A. apply (I5 _ A). left. reflexivity. }
        assert (Ei : l_i2o s1 = l_i2o s ++ [(fst p, names)]).
        { simpl. apply dset_new. rewrite I6. intros A. apply (I5 _ A). left. reflexivity. }
        assert (NDo : NoDup (map fst (l_o2i s) ++ map (fun o : string => o) names)).
        { rewrite map_id. apply NoDup_app_intro; [exact I7'|exact P1|].
          intros x A B. apply I7 in A. destruct (Hin x B (I3 x A)) as [_ ->].
          apply (I4 (fst p)); [left; reflexivity|exact A]. }
        assert (Eo : l_o2i s1 = l_o2i s ++ map (fun o => (o, fst p)) names).
        { simpl. apply (fold_dset_new (fun o => o) (fun _ => fst p) names (l_o2i s) NDo). }
        assert (Enew : map fst (l_cols s1) = map fst (l_cols s) ++ map fst orig ++ names).
        { simpl. rewrite !map_app, combine_fst by (rewrite map_length; exact Ln). reflexivity. }
        assert (Horig : forall x, In x (map fst orig) -> x = fst p).
        { intros x. unfold orig. destruct keep_original; simpl; intuition. }
        destruct (IH rs s1) as (s' & bs & E1 & Lb & E2 & E3 & E4 & E5 & E6 & E7 & E8 & E9).
        { exact HX'. }
        { exact NDr'. }
        { constructor.
          - intros x A. simpl. rewrite in_app_iff. left. apply I1. exact A.
          - intros x A. simpl in A. rewrite Enew. rewrite !in_app_iff. apply in_app_iff in A.
            destruct A as [A|A]; [|tauto]. apply I1' in A. tauto.
          - exact NDnew.
          - intros x A. rewrite Enew in A. simpl. rewrite in_app_iff.
            rewrite !in_app_iff in A. destruct A as [A|[A|A]]; [left; apply I3; exact A| |right; exact A].
            left. apply Horig in A. subst x. apply I1. apply in_map. exact Ip.
          - intros x A B. rewrite Enew in B. rewrite !in_app_iff in B.
            destruct B as [B|[B|B]].
            + apply (I4 x); [right; exact A|exact B].
            + apply Horig in B. subst x. contradiction.
            + assert (In x (l_forbidden s)) as F.
              { apply I1. unfold column_names in A. apply in_map_iff in A. destruct A as (q & <- & Iq).
                apply in_map. apply HX'. exact Iq. }
              destruct (Hin x B F) as [_ ->]. contradiction.
          - intros x A. rewrite Et in A. rewrite map_app, in_app_iff in A. simpl in A.
            destruct A as [A|[<-|[]]]; [|exact Np]. intros B. apply (I5 x A). right. exact B.
          - rewrite Et, Ei, !map_app, I6. reflexivity.
          - intros x A. rewrite Eo, map_app, in_app_iff in A. rewrite Enew, !in_app_iff.
            destruct A as [A|A]; [left; apply I7; exact A|]. rewrite map_map, map_id in A. tauto.
          - rewrite Eo, map_app, map_map, map_id. rewrite map_id in NDo. exact NDo.
          - simpl. fold (suggestions columns rest) in I8. lia.
          - simpl. revert P3. rewrite <- (map_id (suggestions columns rest)).
            intros (F1 & F2 & F3 & F4). split; [exact F1|]. split; [exact F2|]. split; [|exact F4].
            intros j f L1 L2 A. apply in_app_iff in A. destruct A as [A|A].
            + destruct I9 as (_ & _ & G3 & _). apply G3; [lia|exact L2|exact A].
            + apply F3; [exact L1|exact L2|]. apply in_app_iff. right. exact A. }
        { reflexivity. }
        exists s', (Some (outs, st, names) :: bs).
        split; [exact E1|]. split; [simpl; congruence|]. split; [|split; [|split; [|split; [|split; [|split; [|split]]]]]].
        * constructor; [|exact E2]. simpl. auto.
        * rewrite E3. simpl. fold orig. rewrite <- !app_assoc. reflexivity.
        * rewrite E4, Et. simpl. rewrite <- app_assoc. reflexivity.
        * rewrite E5, Ei. simpl. rewrite <- app_assoc. reflexivity.
        * rewrite E6, Eo. simpl. rewrite <- app_assoc. reflexivity.
        * exact E7.
        * intros pb [<-|A] x B D; [|apply (E8 pb A x B D)]. simpl in B |- *. apply Hin; [exact B|].
          apply I1. exact D.
        * constructor; [|exact E9]. simpl. fold sug. apply pick_NameFor.
          -- intros x A. apply Hforb in A. destruct A as [A B]. apply I1' in A.
             destruct A as [A|A]; [left; tauto|right]. rewrite E3, map_app, Enew.
             rewrite !in_app_iff. tauto.
          -- intros x A. right. rewrite E3. rewrite map_app, Enew, !in_app_iff. tauto.
      + destruct Sp as (-> & -> & Hf & Esug). rewrite Esug in I8, I9. simpl in I8, I9.
        cbn [process process_step].
        set (s1 := {| l_transformers := l_transformers s; l_i2o := l_i2o s; l_o2i := l_o2i s;
                      l_cols := l_cols s ++ [p]; l_forbidden := l_forbidden s; ctr := ctr s |}).
        destruct (IH rs s1) as (s' & bs & E1 & Lb & E2 & E3 & E4 & E5 & E6 & E7 & E8 & E9).
        { exact HX'. }
        { exact NDr'. }
        { constructor; simpl.
          - exact I1.
          - intros x A. apply I1' in A. rewrite map_app, in_app_iff. tauto.
          - rewrite map_app. apply NoDup_app_intro; [exact I2|simpl; repeat constructor; simpl; tauto|].
            simpl. intros x A [<-|[]]. apply (I4 (fst p)); [left; reflexivity|exact A].
          - intros x A. rewrite map_app, in_app_iff in A. simpl in A.
            destruct A as [A|[<-|[]]]; [apply I3; exact A|]. apply I1, in_map. exact Ip.
          - intros x A B. rewrite map_app, in_app_iff in B. simpl in B.
            destruct B as [B|[<-|[]]]; [|contradiction]. apply (I4 x); [right; exact A|exact B].
          - intros x A B. apply (I5 x A). right. exact B.
          - exact I6.
          - intros x A. rewrite map_app, in_app_iff. left. apply I7. exact A.
          - exact I7'.
          - exact I8.
          - exact I9. }
        { reflexivity. }
        exists s', (None :: bs). split; [exact E1|]. split; [simpl; congruence|].
        split; [constructor; assumption|].
        split; [rewrite E3; simpl; rewrite <- app_assoc; reflexivity|].
        split; [exact E4|]. split; [exact E5|]. split; [exact E6|]. split; [exact E7|]. split.
        * intros pb [<-|A] x B D; [destruct B|apply (E8 pb A x B D)].
        * constructor; [exact I|exact E9].
  Qed.

  Lemma mapM_err : forall {A B} (f : A -> res B) l e, mapM f l = Err e -> exists a, In a l /\ f a = Err e.
  Proof.
    intros A B f. induction l as [|a l IH]; simpl; intros e E; [discriminate|].
    destruct (f a) as [b|e'] eqn:Ea; simpl in E.
    - destruct (mapM f l) as [bs|e'']; simpl in E; [discriminate|]. injection E as ->.
      destruct (IH e eq_refl) as (a' & I & Ea'). exists a'. auto.
    - injection E as ->. exists a. auto.
  Qed.

  (** fit_transform succeeds or reports the error of a selected column *)
  Lemma oec_fit_ok : forall lib draw cols X columns,
    NoDup (column_names X) -> expand cols X = Ok columns ->
    Fresh draw (length (suggestions columns X)) (suggestions columns X) (column_names X) ->
    (forall p e, In p X -> ~ ColumnError columns p e) ->
    exists f bs,
      let out := concat (map block (combine X bs)) in
      oec_fit_transform lib draw ft cols allow_reject keep_original rename X = Ok (f, out) /\
      length bs = length X /\
      Forall2 (Fate columns) X bs /\
      NoDup (column_names out) /\
      all_inputs_ f = column_names X /\
      all_outputs_ f = column_names out /\
      transformers_ f = concat (map tr_of (combine X bs)) /\
      input_to_outputs_ f = concat (map i2o_of (combine X bs)) /\
      output_to_input_ f = concat (map o2i_of (combine X bs)) /\
      (forall pb, In pb (combine X bs) -> forall x, In x (created pb) ->
         In x (column_names X) -> keep_original = false /\ x = fst (fst pb)) /\
      Forall2 (NamedFrom X (column_names out)) X bs.
  Proof.
    intros lib draw cols X columns ND Ex F NE. unfold oec_fit_transform. rewrite Ex. cbn [bind].
    destruct (mapM (fit_transform_column ft columns allow_reject) X) as [rs|e] eqn:Er.
    - cbn [bind].
      set (s0 := {| l_transformers := []; l_i2o := []; l_o2i := []; l_cols := [];
                    l_forbidden := column_names X; ctr := 0 |}).
      destruct (process_spec draw (length (suggestions columns X)) X columns ND X rs s0)
        as (s' & bs & E1 & Lb & E2 & E3 & E4 & E5 & E6 & E7 & E8 & E9); try assumption.
      { auto. }
      { constructor; simpl; try tauto; try solve [constructor].
        apply Fresh_FreshAt. exact F. }
      rewrite E1. cbn [bind]. rewrite make_dataframe_distinct by exact E7. cbn [bind].
      simpl in E3, E4, E5, E6.
      eexists. exists bs. cbn zeta. rewrite <- E3.
      split; [reflexivity|]. simpl. repeat (split; [solve [assumption|reflexivity]|]). assumption.
    - exfalso. apply mapM_err in Er. destruct Er as (p & I & E).
      pose proof (ftc_spec columns p) as Sp. rewrite E in Sp. exact (NE p e I Sp).
  Qed.

  Lemma oec_fit_err : forall lib draw cols X columns,
    NoDup (column_names X) -> expand cols X = Ok columns ->
    (exists p e, In p X /\ ColumnError columns p e) ->
    exists p e, In p X /\ ColumnError columns p e /\
      oec_fit_transform lib draw ft cols allow_reject keep_original rename X = Err e.
  Proof.
    intros lib draw cols X columns ND Ex (p & e & I & CE). unfold oec_fit_transform.
    rewrite Ex. cbn [bind].
    destruct (mapM (fit_transform_column ft columns allow_reject) X) as [rs|e'] eqn:Er.
    - exfalso. apply mapM_Forall2 in Er. 
      assert (exists r, fit_transform_column ft columns allow_reject p = Ok r) as [r E].
      { clear -Er I. induction Er as [|a b l l' E F IH]; [destruct I|].
        destruct I as [<-|I]; [eexists; exact E|apply IH; exact I]. }
      pose proof (ftc_spec columns p) as Sp. rewrite E in Sp.
      destruct r as [[m outs] [st|]]; destruct CE as [Ic CE].
      + destruct Sp as (_ & _ & Ef & _). rewrite Ef in CE. exact CE.
      + destruct Sp as (_ & _ & [N|[Ea Ef]] & _); [contradiction|]. rewrite Ef in CE.
        destruct CE as [Ea' _]. congruence.
    - apply mapM_err in Er. destruct Er as (q & Iq & E). exists q, e'. split; [exact Iq|].
      split; [|reflexivity]. pose proof (ftc_spec columns q) as Sp. rewrite E in Sp. exact Sp.
  Qed.

End OnEach.

Section Prov.
  Context {C St : Type}.
  Notation fate := (@fate C St).
  (** ** provenance *)
  Lemma combine_in_l : forall {A B} (l : list A) (l' : list B) a b, In (a, b) (combine l l') -> In a l.
  Proof. intros. eapply in_combine_l. eassumption. Qed.

  Lemma tr_keys : forall (X : frame C) (bs : list fate) x, length bs = length X ->
    In x (map fst (concat (map tr_of (combine X bs)))) -> In x (column_names X).
  Proof.
    induction X as [|p X IH]; intros [|b bs] x L I; simpl in *; try discriminate; [exact I|].
    rewrite map_app, in_app_iff in I. destruct I as [I|I].
    - destruct b as [[[o st] ns]|]; simpl in I; [|destruct I]. destruct I as [<-|[]]. auto.
    - right. apply (IH bs); [congruence|exact I].
  Qed.

  Lemma tr_lookup : forall (X : frame C) (bs : list fate), length bs = length X -> NoDup (column_names X) ->
    forall p b, In (p, b) (combine X bs) ->
    dget (fst p) (concat (map tr_of (combine X bs))) =
      match b with None => None | Some (_, st, _) => Some st end.
  Proof.
    induction X as [|q X IH]; intros [|b' bs] L ND p b I; simpl in *; try discriminate; [destruct I|].
    injection L as L. inversion ND as [|? ? N1 N2]; subst. destruct I as [E|I].
    - injection E as -> ->. destruct b as [[[o st] ns]|]; simpl.
      + destruct (eqd (fst p) (fst p)); [reflexivity|congruence].
      + destruct (dget (fst p) _) eqn:D; [|reflexivity]. exfalso. apply N1.
        apply (tr_keys X bs); [congruence|]. clear -D.
        induction (concat _) as [|[a c] l IHl]; simpl in *; [discriminate|].
        destruct (eqd (fst p) a) as [->|]; auto.
    - assert (Ne : fst p <> fst q).
      { intros E. apply N1. rewrite <- E. apply in_map. eapply combine_in_l. exact I. }
      destruct b' as [[[o st] ns]|]; simpl; [destruct (eqd (fst p) (fst q)); [contradiction|]|];
        apply IH; assumption.
  Qed.

  Lemma i2o_in : forall (X : frame C) (bs : list fate) n ns, length bs = length X ->
    (In (n, ns) (concat (map i2o_of (combine X bs))) <->
     exists p outs st, In (p, Some (outs, st, ns)) (combine X bs) /\ n = fst p).
  Proof.
    induction X as [|q X IH]; intros [|b bs] n ns L; simpl in *; try discriminate.
    - split; [tauto|]. intros (p & o & st & [] & _).
    - rewrite in_app_iff, IH by congruence. split.
      + intros [I|(p & o & st & I & E)]; [|exists p, o, st; auto].
        destruct b as [[[o st] ns']|]; simpl in I; [|destruct I].
        destruct I as [E|[]]. injection E as <- <-. exists q, o, st. auto.
      + intros (p & o & st & [E|I] & En); [|right; exists p, o, st; auto].
        injection E as -> ->. left. simpl. left. congruence.
  Qed.

  Lemma o2i_in : forall (X : frame C) (bs : list fate) o n, length bs = length X ->
    (In (o, n) (concat (map o2i_of (combine X bs))) <->
     exists p outs st ns, In (p, Some (outs, st, ns)) (combine X bs) /\ n = fst p /\ In o ns).
  Proof.
    induction X as [|q X IH]; intros [|b bs] o n L; simpl in *; try discriminate.
    - split; [tauto|]. intros (p & outs & st & ns & [] & _).
    - rewrite in_app_iff, IH by congruence. split.
      + intros [I|(p & outs & st & ns & I & E)]; [|exists p, outs, st, ns; auto].
        unfold o2i_of in I. apply in_map_iff in I. destruct I as (o' & E & I).
        injection E as <- <-. destruct b as [[[outs st] ns']|]; simpl in I; [|destruct I].
        exists q, outs, st, ns'. auto.
      + intros (p & outs & st & ns & [E|I] & En & Io); [|right; exists p, outs, st, ns; auto].
        injection E as -> ->. left. unfold o2i_of. apply in_map_iff. exists o. simpl.
        split; [congruence|exact Io].
  Qed.

  Lemma created_concat : forall (l : list ((string * C) * fate)),
    concat (map snd (concat (map i2o_of l))) = concat (map created l).
  Proof.
    induction l as [|[p [[[o st] ns]|]] l IH]; simpl; [reflexivity| |exact IH].
    rewrite IH. reflexivity.
  Qed.

  Lemma used_concat : forall (l : list ((string * C) * fate)),
    map fst (concat (map tr_of l)) =
    concat (map (fun pb => match snd pb with None => [] | Some _ => [fst (fst pb)] end) l).
  Proof.
    induction l as [|[p [[[o st] ns]|]] l IH]; simpl; [reflexivity| |exact IH].
    rewrite IH. reflexivity.
  Qed.
End Prov.

(** ** transform of a column-wise transformer *)
Lemma rename_eq : forall {C} (cols R : list (string * C)), map snd cols = map snd R ->
  rename_columns cols (map fst R) = R.
Proof.
  intros C. unfold rename_columns. induction cols as [|[a c] cols IH]; intros [|[b d] R] E; simpl in *;
    try discriminate; [reflexivity|]. injection E as -> E. f_equal. apply IH. exact E.
Qed.

Section OnEachTransform.
  Context {C St : Type}.
  Variable ft : string -> C -> outcome C St.
  Variable rename : string -> string.
  Variables allow_reject keep_original : bool.
  Variable tr : St -> string -> C -> res (list (string * C)).

  (** the output columns of transform for one column [p] of the new dataframe *)
  Definition NewBlock (f : fitted St) (p : string * C) (blk : list (string * C)) : Prop :=
    match dget (fst p) (transformers_ f) with
    | None => blk = [p]
    | Some st => exists outs names, tr st (fst p) (snd p) = Ok outs /\
                   dget (fst p) (input_to_outputs_ f) = Some names /\ length outs = length names /\
                   blk = (if keep_original then [p] else []) ++ combine names (map snd outs)
    end.

  Lemma i2o_lookup : forall (X : frame C) (bs : list (@fate C St)), length bs = length X -> NoDup (column_names X) ->
    forall p b, In (p, b) (combine X bs) ->
    dget (fst p) (concat (map (@i2o_of C St) (combine X bs))) =
      match b with None => None | Some (_, _, ns) => Some ns end.
  Proof.
    induction X as [|q X IH]; intros [|b' bs] L ND p b I; simpl in *; try discriminate; [destruct I|].
    injection L as L. inversion ND as [|? ? N1 N2]; subst. destruct I as [E|I].
    - injection E as -> ->. destruct b as [[[o st] ns]|]; simpl.
      + destruct (eqd (fst p) (fst p)); [reflexivity|congruence].
      + destruct (dget (fst p) _) as [ns|] eqn:D; [|reflexivity]. exfalso. apply N1.
        assert (In (fst p, ns) (concat (map i2o_of (combine X bs)))) as I'.
        { clear -D. induction (concat _) as [|[a c] l IHl]; simpl in *; [discriminate|].
          destruct (eqd (fst p) a) as [->|]; [left; congruence|auto]. }
        apply i2o_in in I'; [|exact L]. destruct I' as (q & o & st & Iq & Eq).
        rewrite Eq. apply in_map. eapply in_combine_l. exact Iq.
    - assert (Ne : fst p <> fst q).
      { intros E. apply N1. rewrite <- E. apply in_map. eapply in_combine_l. exact I. }
      destruct b' as [[[o st] ns]|]; simpl; [destruct (eqd (fst p) (fst q)); [contradiction|]|];
        apply IH; assumption.
  Qed.

  Lemma transform_blocks : forall (f : fitted St) (X : frame C) (bs : list (@fate C St)),
    length bs = length X ->
    (forall p b, In (p, b) (combine X bs) ->
       dget (fst p) (transformers_ f) = match b with None => None | Some (_, st, _) => Some st end /\
       dget (fst p) (input_to_outputs_ f) = match b with None => None | Some (_, _, ns) => Some ns end) ->
    (forall p b, In (p, b) (combine X bs) -> match b with None => True | Some (outs, _, ns) => length ns = length outs end) ->
    forall X2, column_names X2 = column_names X ->
    (forall p st, In p X2 -> dget (fst p) (transformers_ f) = Some st ->
       exists outs names, tr st (fst p) (snd p) = Ok outs /\
         dget (fst p) (input_to_outputs_ f) = Some names /\ length outs = length names) ->
    exists raws blks,
      mapM (transform_column tr (transformers_ f) keep_original) X2 = Ok raws /\
      Forall2 (NewBlock f) X2 blks /\
      map snd (concat raws) = map snd (concat blks) /\
      map fst (concat blks) = map fst (concat (map (block keep_original) (combine X bs))).
  Proof.
    intros f. induction X as [|q X IH]; intros [|b bs] L HL HLn X2 EX H2; simpl in L; try discriminate.
    - destruct X2 as [|]; [|discriminate]. exists [], []. repeat split; constructor.
    - destruct X2 as [|p X2]; [discriminate|]. simpl in EX. injection EX as Ep EX.
      destruct (IH bs ltac:(congruence) (fun p' b' I => HL p' b' (or_intror I))
                  (fun p' b' I => HLn p' b' (or_intror I)) X2 EX
                  (fun p' st I => H2 p' st (or_intror I))) as (raws & blks & E1 & E2 & E3 & E4).
      destruct (HL q b (or_introl eq_refl)) as [D1 D2]. rewrite <- Ep in D1, D2.
      pose proof (HLn q b (or_introl eq_refl)) as Lb.
      destruct b as [[[o st] ns]|].
      + destruct (H2 p st (or_introl eq_refl) D1) as (outs & names & T1 & T2 & T3).
        rewrite D2 in T2. injection T2 as <-.
        exists (((if keep_original then [p] else []) ++ outs) :: raws),
               (((if keep_original then [p] else []) ++ combine ns (map snd outs)) :: blks).
        split; [|split; [|split]].
        * simpl. unfold transform_column at 1. rewrite D1, T1. simpl. rewrite E1. reflexivity.
        * constructor; [|exact E2]. unfold NewBlock. rewrite D1. exists outs, ns. auto.
        * simpl. rewrite !map_app, E3, combine_snd by (rewrite map_length; congruence). reflexivity.
        * simpl. rewrite !map_app, E4, !combine_fst by (rewrite map_length; congruence).
          destruct keep_original; simpl; [rewrite Ep|]; reflexivity.
      + exists ([p] :: raws), ([p] :: blks). split; [|split; [|split]].
        * simpl. unfold transform_column at 1. rewrite D1. simpl. rewrite E1. reflexivity.
        * constructor; [|exact E2]. unfold NewBlock. rewrite D1. reflexivity.
        * simpl. rewrite E3. reflexivity.
        * simpl. rewrite E4, Ep. reflexivity.
  Qed.

  Lemma oec_fit_inv : forall lib draw cols X columns f out,
    NoDup (column_names X) -> expand cols X = Ok columns ->
    Fresh draw (length (suggestions ft rename columns X)) (suggestions ft rename columns X) (column_names X) ->
    oec_fit_transform lib draw ft cols allow_reject keep_original rename X = Ok (f, out) ->
    exists bs,
      out = concat (map (block keep_original) (combine X bs)) /\
      length bs = length X /\
      Forall2 (Fate ft allow_reject columns) X bs /\
      NoDup (column_names out) /\
      all_inputs_ f = column_names X /\
      all_outputs_ f = column_names out /\
      transformers_ f = concat (map tr_of (combine X bs)) /\
      input_to_outputs_ f = concat (map i2o_of (combine X bs)) /\
      output_to_input_ f = concat (map o2i_of (combine X bs)) /\
      (forall pb, In pb (combine X bs) -> forall x, In x (created pb) ->
         In x (column_names X) -> keep_original = false /\ x = fst (fst pb)) /\
      Forall2 (NamedFrom rename keep_original X (column_names out)) X bs.
  Proof.
    intros lib draw cols X columns f out ND Ex F E.
    destruct (oec_fit_ok ft rename allow_reject keep_original lib draw cols X columns ND Ex F)
      as (f' & bs & E' & R).
    - intros p e I CE. destruct (oec_fit_err ft rename allow_reject keep_original lib draw cols X columns ND Ex)
        as (p' & e' & _ & _ & E2); [eauto|]. congruence.
    - rewrite E in E'. injection E' as -> ->. exists bs. split; [reflexivity|exact R].
  Qed.

  Lemma oec_transform_ok : forall lib draw cols X columns f out,
    NoDup (column_names X) -> expand cols X = Ok columns ->
    Fresh draw (length (suggestions ft rename columns X)) (suggestions ft rename columns X) (column_names X) ->
    oec_fit_transform lib draw ft cols allow_reject keep_original rename X = Ok (f, out) ->
    forall X2, column_names X2 = column_names X ->
    (forall p st, In p X2 -> dget (fst p) (transformers_ f) = Some st ->
       exists outs names, tr st (fst p) (snd p) = Ok outs /\
         dget (fst p) (input_to_outputs_ f) = Some names /\ length outs = length names) ->
    exists blks,
      oec_transform lib tr keep_original f X2 = Ok (concat blks) /\
      column_names (concat blks) = column_names out /\
      column_names (concat blks) = all_outputs_ f /\
      Forall2 (NewBlock f) X2 blks.
  Proof.
    intros lib draw cols X columns f out ND Ex F E X2 EX H2.
    destruct (oec_fit_inv lib draw cols X columns f out ND Ex F E)
      as (bs & Eo & Lb & HF & NDo & Ei & Eao & Et & Ei2o & _).
    edestruct (transform_blocks f X bs Lb) as (raws & blks & E1 & E2 & E3 & E4);
      [| |exact EX|exact H2|].
    - intros p b I. rewrite Et, Ei2o. split.
      + apply (tr_lookup X bs Lb ND p b I).
      + apply (i2o_lookup X bs Lb ND p b I).
    - intros p b I. clear -HF I. induction HF as [|p' b' X bs H HF IH]; [destruct I|].
      destruct I as [E|I]; [|apply IH; exact I]. injection E as -> ->.
      destruct b as [[[o st] ns]|]; [|exact Logic.I]. apply H.
    - exists blks. unfold oec_transform. rewrite E1. cbn [bind]. rewrite Eao, Eo.
      unfold column_names. rewrite <- E4. rewrite rename_eq by exact E3.
      rewrite make_dataframe_distinct.
      + split; [reflexivity|]. split; [reflexivity|]. split; [reflexivity|exact E2].
      + rewrite E4, <- Eo. exact NDo.
  Qed.

  (** a failing transformer makes transform fail *)
  Lemma oec_transform_err : forall lib f X2 p st e, In p X2 ->
    dget (fst p) (transformers_ f) = Some st -> tr st (fst p) (snd p) = Err e ->
    oec_transform lib tr keep_original f X2 = Err ValueError.
  Proof.
    intros lib f X2 p st e I D E. unfold oec_transform.
    assert (mapM (transform_column tr (transformers_ f) keep_original) X2 = Err ValueError) as ->; [|reflexivity].
    induction X2 as [|q X2 IH]; [destruct I|]. simpl.
    destruct I as [->|I].
    - unfold transform_column at 1. rewrite D, E. reflexivity.
    - unfold transform_column at 1. destruct (dget (fst q) _) as [st'|]; simpl.
      + destruct (tr st' (fst q) (snd q)); simpl; [|reflexivity]. rewrite (IH I). reflexivity.
      + rewrite (IH I). reflexivity.
  Qed.

  (** transforming the training dataframe gives the same as fit_transform, for transformers
      for which this holds *)
  Lemma oec_transform_train : forall lib draw cols X columns f out,
    NoDup (column_names X) -> expand cols X = Ok columns ->
    Fresh draw (length (suggestions ft rename columns X)) (suggestions ft rename columns X) (column_names X) ->
    oec_fit_transform lib draw ft cols allow_reject keep_original rename X = Ok (f, out) ->
    (forall n c outs st, ft n c = Fitted outs st -> tr st n c = Ok outs) ->
    oec_transform lib tr keep_original f X = Ok out.
  Proof.
    intros lib draw cols X columns f out ND Ex F E Hc.
    pose proof (oec_fit_inv lib draw cols X columns f out ND Ex F E)
      as (bs & Eo & Lb & HF & NDo & Ei & Eao & Et & Ei2o & _).
    assert (HL : forall p, In p X -> exists b, In (p, b) (combine X bs) /\ Fate ft allow_reject columns p b).
    { clear -HF. induction HF as [|p b X bs H HF IH]; intros q I; [destruct I|].
      destruct I as [->|I]; [exists b; split; [left; reflexivity|exact H]|].
      destruct (IH q I) as (b' & I' & H'). exists b'. split; [right; exact I'|exact H']. }
    assert (HL' : forall p b, In (p, b) (combine X bs) -> Fate ft allow_reject columns p b).
    { clear -HF. induction HF as [|p b X bs H HF IH]; intros q b' I; [destruct I|].
      destruct I as [E|I]; [injection E as -> ->; exact H|]. apply IH. exact I. }
    destruct (oec_transform_ok lib draw cols X columns f out ND Ex F E X eq_refl) as (blks & E1 & _ & _ & E2).
    - intros p st I D. destruct (HL p I) as (b & Ib & Hb). rewrite Et, (tr_lookup X bs Lb ND p b Ib) in D.
      destruct b as [[[outs st'] ns]|]; [|discriminate]. injection D as ->.
      destruct Hb as (_ & Hft & Ln). exists outs, ns. split; [apply Hc; exact Hft|].
      split; [|congruence]. rewrite Ei2o. apply (i2o_lookup X bs Lb ND p _ Ib).
    - rewrite E1. f_equal. rewrite Eo. f_equal.
      assert (HB : forall p blk, In p X -> NewBlock f p blk -> forall b, In (p, b) (combine X bs) ->
                blk = block keep_original (p, b)).
      { intros p blk Ip HB b Ib. unfold NewBlock in HB. rewrite Et, (tr_lookup X bs Lb ND p b Ib) in HB.
        rewrite Ei2o, (i2o_lookup X bs Lb ND p b Ib) in HB.
        destruct b as [[[outs st] ns]|]; [|exact HB].
        destruct HB as (outs' & names & T1 & T2 & _ & T4). injection T2 as <-.
        pose proof (HL' p _ Ib) as (_ & Hft & _). apply Hc in Hft.
        rewrite Hft in T1. injection T1 as <-. exact T4. }
      clear -E2 HB Lb.
      assert (G : forall (X : frame C) (bs : list (@fate C St)) blks, length bs = length X -> Forall2 (NewBlock f) X blks ->
        (forall p blk, In p X -> NewBlock f p blk -> forall b, In (p, b) (combine X bs) -> blk = block keep_original (p, b)) ->
        blks = map (block keep_original) (combine X bs)).
      { clear. induction X as [|p X IH]; intros [|b bs] blks L H2 HB; simpl in *; try discriminate;
          inversion H2; subst; [reflexivity|]. f_equal.
        - apply HB; auto.
        - apply IH; [congruence|assumption|]. intros q blk I N b' I'. apply HB; auto. }
      apply G; assumption.
  Qed.
End OnEachTransform.

(** ** canonical names: picking leaves them alone *)
Definition Canonical (s : string) : Prop := forall u ts, Untag s u ts -> wanted u ts = s.

Lemma canonical_untagged : forall s, ~ SubString "__skrub_" s -> Canonical s.
Proof.
  intros s N u ts U. destruct (Untag_det _ _ _ (no_tag_Untag s N) _ _ U) as [<- <-]. reflexivity.
Qed.

Lemma sub2_cons : forall a w, SubString "__" (String a w) ->
  (a = "_"%char /\ exists w', w = String "_" w') \/ SubString "__" w.
Proof.
  intros a w (x & y & E). destruct x as [|b x]; simpl in E.
  - injection E as -> E. left. split; [reflexivity|]. exists y. exact E.
  - injection E as -> E. right. exists x, y. exact E.
Qed.

Lemma hex_not_underscore : forall c, is_hex c -> c <> "_"%char.
Proof. intros c H ->. unfold is_hex in H. vm_compute in H. lia. Qed.

Lemma hex_no_sub2 : forall t, all_chars is_hex t -> ~ SubString "__" (t ++ "_").
Proof.
  induction t as [|c t IH]; simpl; intros H S.
  - apply sub2_cons in S. destruct S as [[_ [w' E]]|(x & y & E)]; [discriminate|]. destruct x; discriminate.
  - destruct H as [Hc Ht]. apply sub2_cons in S. destruct S as [[E _]|S].
    + revert E. apply hex_not_underscore. exact Hc.
    + exact (IH Ht S).
Qed.

Lemma hex_no_newline : forall t, all_chars is_hex t -> no_newline t.
Proof.
  induction t as [|c t IH]; simpl; intros H; [exact I|]. destruct H as [Hc Ht]. split; [|apply IH; exact Ht].
  intros ->. unfold is_hex in Hc. vm_compute in Hc. lia.
Qed.

Lemma IsTag_token : forall t, hex8 t -> IsTag ("__skrub_" ++ t ++ "__").
Proof.
  intros t [_ H]. exists t. split; [reflexivity|]. split; [apply hex_no_newline; exact H|].
  apply hex_no_sub2. exact H.
Qed.

Lemma IsTag_overlap : forall t, hex8 t -> IsTag ("__skrub_" ++ ("_skrub_" ++ t) ++ "__").
Proof.
  intros t [L H]. exists ("_skrub_" ++ t)%string. split; [reflexivity|]. split.
  - simpl. repeat split; try discriminate. apply hex_no_newline. exact H.
  - destruct t as [|c t]; [discriminate|]. intros S. simpl in S.
    repeat (apply sub2_cons in S; destruct S as [[E [w' E']]|S]; [try discriminate|]).
    + injection E' as -> _. destruct H as [H _]. apply hex_not_underscore in H. congruence.
    + destruct H as [Hc _]. apply hex_not_underscore in Hc. congruence.
    + revert S. apply hex_no_sub2. apply H.
Qed.

Lemma tagged_Untag : forall s t, hex8 t -> ~ SubString "__skrub_" s ->
  exists u t', Untag (s ++ "__skrub_" ++ t ++ "__") u [t'] /\ (u ++ t')%string = (s ++ "__skrub_" ++ t ++ "__")%string.
Proof.
  intros s t Ht. induction s as [|c s IH]; intros N.
  - exists "", ("__skrub_" ++ t ++ "__")%string. split; [|reflexivity].
    rewrite <- (sapp_nil_r ("" ++ "__skrub_" ++ t ++ "__")%string). apply Untag_tag; [apply IsTag_token; exact Ht|constructor].
  - assert (N' : ~ SubString "__skrub_" s).
    { intros (a & b & E). apply N. exists (String c a), b. rewrite E. reflexivity. }
    destruct (IH N') as (u & t' & U & E).
    pose proof (match_tag_spec (String c s ++ "__skrub_" ++ t ++ "__")) as MS.
    destruct (match_tag (String c s ++ "__skrub_" ++ t ++ "__")) as [n|] eqn:M.
    + destruct (proj1 (MS n) eq_refl) as (t0 & r & H0 & E0 & _).
      (* the only possible overlap: s ends with __skrub *)
      assert (String c s = "__skrub") as Es.
      { destruct H0 as (x & Ex & _ & _). rewrite Ex in E0. clear -E0 N.
        simpl in E0. injection E0 as -> E0.
        do 7 (destruct s as [|? s]; simpl in E0;
              [first [discriminate|reflexivity]|injection E0 as -> E0]).
        exfalso. apply N. exists "", s. reflexivity. }
      rewrite Es. exists "", ("__skrub_" ++ ("_skrub_" ++ t) ++ "__")%string. split; [|reflexivity].
      change ("__skrub" ++ "__skrub_" ++ t ++ "__")%string with ("__skrub_" ++ ("_skrub_" ++ t) ++ "__")%string.
      rewrite <- (sapp_nil_r ("__skrub_" ++ ("_skrub_" ++ t) ++ "__")%string) at 1.
      apply Untag_tag; [apply IsTag_overlap; exact Ht|constructor].
    + exists (String c u), t'. split; [|exact (f_equal (String c) E)]. apply Untag_char; [|exact U].
      intros t0 r H0 E0. assert (X : @None nat = Some (String.length t0)); [|discriminate].
      apply MS. exists t0, r. auto.
Qed.

Lemma canonical_tagged : forall s t, hex8 t -> ~ SubString "__skrub_" s ->
  Canonical (s ++ "__skrub_" ++ t ++ "__").
Proof.
  intros s t Ht N u ts U. destruct (tagged_Untag s t Ht N) as (u' & t' & U' & E).
  destruct (Untag_det _ _ _ U' _ _ U) as [<- <-]. exact E.
Qed.

Lemma pick_canonical : forall draw suggested i forbidden,
  (forall s, In s suggested -> Canonical s /\ ~ In s forbidden) ->
  NoDup suggested ->
  pick_from draw i suggested forbidden = suggested.
Proof.
  intros draw. induction suggested as [|s l IH]; intros i forbidden Hs ND; simpl; [reflexivity|].
  destruct (Hs s (or_introl eq_refl)) as [H1 H2]. inversion ND as [|? ? N1 N2]; subst.
  pose proof (scan_Untag s) as U.
  rewrite (get_new_name_spec _ s _ _ forbidden U). rewrite (H1 _ _ U).
  destruct (in_dec eqd s forbidden) as [I|_]; [contradiction|]. f_equal.
  apply IH; [|exact N2]. intros s' I. destruct (Hs s' (or_intror I)) as [H3 H4]. split; [exact H3|].
  simpl. intros [E|I']; [subst; contradiction|contradiction].
Qed.

Lemma pick_gives_canonical : forall draw suggested i forbidden,
  (forall j, i <= j -> j < i + length suggested -> hex8 (draw j)) ->
  (forall s, In s suggested -> ~ SubString "__skrub_" s) ->
  forall x, In x (pick_from draw i suggested forbidden) -> Canonical x.
Proof.
  intros draw. induction suggested as [|s l IH]; intros i forbidden Hd Hs x I; simpl in I; [destruct I|].
  simpl in Hd. destruct I as [<-|I].
  - pose proof (Hs s (or_introl eq_refl)) as N.
    rewrite (get_new_name_spec _ s s [] forbidden (no_tag_Untag s N)). simpl wanted.
    destruct (in_dec eqd s forbidden).
    + apply canonical_tagged; [apply Hd; lia|exact N].
    + apply canonical_untagged. exact N.
  - revert I. apply IH.
    + intros j L1 L2. apply Hd; lia.
    + intros s' I. apply Hs. right. exact I.
Qed.

Section OnSub.
  Context {C St : Type}.

  Lemma concat_two_canonical : forall draw (a b : frame C),
    NoDup (column_names (a ++ b)) ->
    (forall s, In s (column_names (a ++ b)) -> Canonical s) ->
    concat_horizontal draw [a; b] = Ok (a ++ b).
  Proof.
    intros draw a b ND HC. unfold concat_horizontal, make_column_names_unique. simpl.
    unfold column_names in ND, HC. rewrite map_app in ND, HC.
    assert (E : forall (df : frame C), set_column_names df (map fst df) = df).
    { unfold set_column_names. induction df as [|[n c] df IH]; simpl; congruence. }
    rewrite (pick_canonical draw (column_names a)).
    - rewrite (pick_canonical draw (column_names b)).
      + unfold column_names. rewrite !E, app_nil_r. reflexivity.
      + intros s I. split; [apply HC, in_app_iff; right; exact I|]. intros I'.
        exact (NoDup_app_disj _ _ _ ND I' I).
      + eapply NoDup_app_r. exact ND.
    - intros s I. split; [apply HC, in_app_iff; left; exact I|]. intros [].
    - eapply NoDup_app_l. exact ND.
  Qed.

  (** the untouched columns *)
  Definition Untouched (keep_original : bool) (columns : list string) (X pass : frame C) : Prop :=
    FilterOf (fun p => keep_original = true \/ ~ In (fst p) columns) X pass.

  Lemma FilterOf_all : forall {A} (P : A -> Prop) l, (forall x, In x l -> P x) -> FilterOf P l l.
  Proof.
    intros A P. induction l as [|x l IH]; intros H; constructor; [apply H; left; reflexivity|].
    apply IH. intros y I. apply H. right. exact I.
  Qed.
  Lemma FilterOf_iff : forall {A} (P Q : A -> Prop) l l', (forall x, P x <-> Q x) ->
    FilterOf P l l' -> FilterOf Q l l'.
  Proof.
    intros A P Q l l' H F. induction F; constructor; try assumption; [apply H; assumption|].
    intros q. apply H in q. contradiction.
  Qed.

  Lemma passthrough_ok : forall keep columns (X : frame C), NoDup (column_names X) ->
    exists pass, passthrough_of keep columns X = Ok pass /\ Untouched keep columns X pass.
  Proof.
    intros keep columns X ND. unfold passthrough_of, Untouched. destruct keep.
    - exists X. split; [reflexivity|]. apply FilterOf_all. auto.
    - destruct (select_spec (SInv (SCols columns)) X) as (out & E & F).
      + intros [l Q]. discriminate.
      + intros n c _. exact I.
      + exact ND.
      + exists out. split; [exact E|]. revert F. apply FilterOf_iff. intros x. simpl.
        split; [auto|]. intros [Q|Q]; [discriminate|exact Q].
  Qed.

  Lemma FilterOf_names : forall (P : string -> Prop) (X X2 pass pass2 : frame C),
    column_names X = column_names X2 ->
    FilterOf (fun p => P (fst p)) X pass -> FilterOf (fun p => P (fst p)) X2 pass2 ->
    column_names pass = column_names pass2.
  Proof.
    intros P X X2 pass pass2 E F. revert X2 pass2 E.
    induction F as [|x l l' Px F IH|x l l' Nx F IH]; intros X2 pass2 E F2; inversion F2; subst;
      simpl in E; try discriminate; try reflexivity.
    - injection E as E1 E2. simpl. f_equal; [exact E1|]. eapply IH; eassumption.
    - injection E as E1 E2. rewrite E1 in Px. contradiction.
    - injection E as E1 E2. rewrite E1 in Nx. contradiction.
    - injection E as E1 E2. eapply IH; eassumption.
  Qed.

  (** common hypotheses: [to] is the selected sub-dataframe *)
  Definition SubOf (columns : list string) (X to : frame C) : Prop :=
    column_names to = columns /\ forall p, In p to -> In p X.

  Lemma osf_fit_general : forall draw1 draw2 (ft : frame C -> outcome C St) cols keep rename X columns,
    NoDup (column_names X) -> expand cols X = Ok columns -> columns <> [] ->
    exists to pass, SubOf columns X to /\ Untouched keep columns X pass /\
      osf_fit_transform draw1 draw2 ft cols keep rename X =
        match ft to with
        | Rejected => Err RejectColumn
        | Raised e => Err e
        | WrongType => Err TypeError
        | Fitted outs st =>
            let names := pick_column_names draw1 (map rename (column_names outs)) (column_names pass) in
            let! result := concat_horizontal draw2 [pass; combine names (map snd outs)] in
            Ok ({| sf_columns := columns; sf_state := Some st; sf_all_inputs := column_names X;
                   sf_output_names := names; sf_all_outputs := column_names pass ++ names |}, result)
        end.
  Proof.
    intros draw1 draw2 ft cols keep rename X columns ND Ex Hne.
    destruct (select_cols_ok columns X ND (expand_subset cols X columns Ex)) as (to & E1 & E2 & E3).
    destruct (passthrough_ok keep columns X ND) as (pass & P1 & P2).
    exists to, pass. split; [split; assumption|]. split; [exact P2|].
    unfold osf_fit_transform. rewrite Ex. cbn [bind]. rewrite E1. cbn [bind]. rewrite P1. cbn [bind].
    destruct columns as [|c columns]; [congruence|]. destruct (ft to) as [|e| |outs st]; try reflexivity.
    unfold set_column_names_checked. unfold pick_column_names at 1. rewrite pick_length, map_length, names_length, Nat.eqb_refl.
    reflexivity.
  Qed.

  Lemma osf_fit_none : forall draw1 draw2 (ft : frame C -> outcome C St) cols keep rename X,
    NoDup (column_names X) -> expand cols X = Ok [] ->
    exists f, osf_fit_transform draw1 draw2 ft cols keep rename X = Ok (f, X) /\
      sf_all_outputs f = column_names X /\
      (forall draw tr (X2 : frame C), NoDup (column_names X2) -> osf_transform draw tr keep f X2 = Ok X2).
  Proof.
    intros draw1 draw2 ft cols keep rename X ND Ex.
    assert (HP : forall Y : frame C, NoDup (column_names Y) -> passthrough_of keep [] Y = Ok Y).
    { intros Y NDY. destruct (passthrough_ok keep [] Y NDY) as (pass & P1 & P2).
      rewrite P1. f_equal. clear -P2. unfold Untouched in P2. induction P2 as [|x l l' Px F IH|x l l' Nx F IH].
      - reflexivity.
      - congruence.
      - exfalso. apply Nx. right. simpl. tauto. }
    eexists. unfold osf_fit_transform. rewrite Ex. cbn [bind].
    assert (E1 : forall Y : frame C, select Y (SCols []) = Ok []) by reflexivity.
    rewrite E1. cbn [bind]. rewrite (HP X ND). cbn [bind]. split; [reflexivity|]. split; [reflexivity|].
    intros draw tr X2 ND2. unfold osf_transform. cbn [sf_columns]. rewrite E1. cbn [bind].
    rewrite (HP X2 ND2). reflexivity.
  Qed.

  Lemma osf_fit_ok : forall draw1 draw2 (ft : frame C -> outcome C St) cols keep rename X columns,
    NoDup (column_names X) -> expand cols X = Ok columns -> columns <> [] ->
    (forall n, In n (column_names X) -> ~ SubString "__skrub_" n) ->
    (forall to, SubOf columns X to -> exists outs st, ft to = Fitted outs st /\
       (forall n, In n (column_names outs) -> ~ SubString "__skrub_" (rename n)) /\
       Fresh draw1 (length outs) (map rename (column_names outs)) (column_names X)) ->
    exists to pass outs st f,
      SubOf columns X to /\ Untouched keep columns X pass /\ ft to = Fitted outs st /\
      length (sf_output_names f) = length outs /\
      let out := pass ++ combine (sf_output_names f) (map snd outs) in
      osf_fit_transform draw1 draw2 ft cols keep rename X = Ok (f, out) /\
      NoDup (column_names out) /\ sf_all_outputs f = column_names out /\
      sf_all_inputs f = column_names X /\
      sf_columns f = columns /\ sf_state f = Some st /\
      (forall n, In n (sf_output_names f) -> ~ In n (column_names pass)) /\
      Forall2 (NameFor (fun x => In x (column_names out))) (map rename (column_names outs)) (sf_output_names f) /\
      (forall n, In n (column_names out) -> Canonical n).
  Proof.
    intros draw1 draw2 ft cols keep rename X columns ND Ex Hne Hu Hft.
    destruct (osf_fit_general draw1 draw2 ft cols keep rename X columns ND Ex Hne) as (to & pass & S1 & S2 & E).
    destruct (Hft to S1) as (outs & st & E1 & Hu' & F).
    rewrite E1 in E. cbn zeta in E.
    set (names := pick_column_names draw1 (map rename (column_names outs)) (column_names pass)) in *.
    assert (Hsub : forall n, In n (column_names pass) -> In n (column_names X)).
    { intros n I. unfold column_names in I |- *. apply in_map_iff in I. destruct I as (p & <- & Ip).
      apply in_map. apply (FilterOf_incl _ _ _ S2) in Ip. tauto. }
    assert (L : length names = length outs).
    { unfold names, pick_column_names. rewrite pick_length, map_length, names_length. reflexivity. }
    assert (F' : FreshAt draw1 0 (length outs) (map rename (column_names outs)) (column_names pass)).
    { apply Fresh_FreshAt in F. revert F. apply FreshAt_incl; [tauto|exact Hsub]. }
    destruct (pick_fresh draw1 (length outs) (map rename (column_names outs)) 0 (column_names pass)) as [ND1 DIS].
    { rewrite map_length, names_length. reflexivity. }
    { exact F'. }
    fold (pick_column_names draw1 (map rename (column_names outs)) (column_names pass)) in ND1, DIS.
    fold names in ND1, DIS.
    assert (Efst : column_names (pass ++ combine names (map snd outs)) = column_names pass ++ names).
    { unfold column_names. rewrite map_app, combine_fst by (rewrite map_length; exact L). reflexivity. }
    assert (ND2 : NoDup (column_names (pass ++ combine names (map snd outs)))).
    { rewrite Efst. apply NoDup_app_intro; [|exact ND1|].
      - eapply FilterOf_NoDup_names; eassumption.
      - intros x A B. exact (DIS x B A). }
    assert (HC : forall n, In n (column_names (pass ++ combine names (map snd outs))) -> Canonical n).
    { intros n I. rewrite Efst in I. apply in_app_iff in I. destruct I as [I|I].
      - apply canonical_untagged, Hu, Hsub, I.
      - revert I. apply pick_gives_canonical.
        + intros j _ Lj. rewrite map_length, names_length in Lj. apply F. exact Lj.
        + intros s I. apply in_map_iff in I. destruct I as (n' & <- & I'). apply Hu'. exact I'. }
    pose proof (concat_two_canonical draw2 pass (combine names (map snd outs)) ND2 HC) as EC.
    unfold frame in *. rewrite EC in E. cbn [bind] in E.
    exists to, pass, outs, st. eexists. split; [exact S1|]. split; [exact S2|]. split; [exact E1|].
    split; [|cbn zeta; split; [exact E|]]; cbn [sf_output_names sf_all_outputs sf_all_inputs sf_columns sf_state].
    - exact L.
    - split; [exact ND2|]. split; [symmetry; exact Efst|]. repeat (split; [reflexivity|]).
      split; [intros n A; exact (DIS n A)|]. split; [|exact HC].
      apply pick_NameFor.
      + intros x A. rewrite Efst, in_app_iff. tauto.
      + intros x A. rewrite Efst, in_app_iff. right. exact A.
  Qed.

  (** transform, once the fitted names are canonical *)
  Lemma osf_transform_ok : forall draw (tr : St -> frame C -> res (frame C)) keep X X2 (f : sub_fitted St) st pass (out : frame C),
    NoDup (column_names X) -> column_names X2 = column_names X ->
    sf_columns f <> [] -> (forall n, In n (sf_columns f) -> In n (column_names X)) ->
    sf_state f = Some st -> Untouched keep (sf_columns f) X pass ->
    column_names out = column_names pass ++ sf_output_names f -> NoDup (column_names out) ->
    (forall n, In n (column_names out) -> Canonical n) ->
    exists to2 pass2, SubOf (sf_columns f) X2 to2 /\ Untouched keep (sf_columns f) X2 pass2 /\
      (forall outs2, tr st to2 = Ok outs2 -> length outs2 = length (sf_output_names f) ->
         let out2 := pass2 ++ combine (sf_output_names f) (map snd outs2) in
         osf_transform draw tr keep f X2 = Ok out2 /\ column_names out2 = column_names out) /\
      (forall outs2, tr st to2 = Ok outs2 -> length outs2 <> length (sf_output_names f) ->
         osf_transform draw tr keep f X2 = Err ValueError) /\
      (forall e, tr st to2 = Err e -> osf_transform draw tr keep f X2 = Err e).
  Proof.
    intros draw tr keep X X2 f st pass out ND EX Hne Hin Hst HU Eout NDo HC.
    assert (ND2 : NoDup (column_names X2)) by (rewrite EX; exact ND).
    destruct (select_cols_ok (sf_columns f) X2 ND2) as (to & E1 & E2 & E3); [rewrite EX; exact Hin|].
    destruct (passthrough_ok keep (sf_columns f) X2 ND2) as (pass2 & P1 & P2).
    assert (Ep : column_names pass = column_names pass2).
    { apply (FilterOf_names (fun n => keep = true \/ ~ In n (sf_columns f)) X X2); [congruence|exact HU|exact P2]. }
    exists to, pass2. split; [split; assumption|]. split; [exact P2|].
    assert (HT : osf_transform draw tr keep f X2 =
      let! transformed := tr st to in
      let! t' := set_column_names_checked transformed (sf_output_names f) in
      concat_horizontal draw [pass2; t']).
    { unfold osf_transform. rewrite E1. cbn [bind]. rewrite P1. cbn [bind]. rewrite Hst.
      destruct (sf_columns f); [congruence|reflexivity]. }
    split; [|split].
    - intros outs2 T L. cbn zeta.
      assert (Efst : column_names (pass2 ++ combine (sf_output_names f) (map snd outs2)) = column_names out).
      { unfold column_names at 1. rewrite map_app, combine_fst by (rewrite map_length; congruence).
        rewrite Eout, Ep. reflexivity. }
      split; [|exact Efst].
      rewrite HT, T. cbn [bind]. unfold set_column_names_checked. rewrite L, Nat.eqb_refl. cbn [bind].
      apply concat_two_canonical.
      + unfold set_column_names. rewrite Efst. exact NDo.
      + unfold set_column_names. rewrite Efst. exact HC.
    - intros outs2 T L. rewrite HT, T. cbn [bind]. unfold set_column_names_checked.
      apply Nat.eqb_neq in L. rewrite L. reflexivity.
    - intros e T. rewrite HT, T. reflexivity.
  Qed.

  Lemma osf_end_to_end : forall draw1 draw2 (ft : frame C -> outcome C St) cols keep rename X columns f out,
    NoDup (column_names X) -> expand cols X = Ok columns -> columns <> [] ->
    (forall n, In n (column_names X) -> ~ SubString "__skrub_" n) ->
    (forall to outs st, SubOf columns X to -> ft to = Fitted outs st ->
       (forall n, In n (column_names outs) -> ~ SubString "__skrub_" (rename n)) /\
       Fresh draw1 (length outs) (map rename (column_names outs)) (column_names X)) ->
    osf_fit_transform draw1 draw2 ft cols keep rename X = Ok (f, out) ->
    exists st, sf_state f = Some st /\
    forall draw (tr : St -> frame C -> res (frame C)) X2, column_names X2 = column_names X ->
    exists to2 pass2, SubOf columns X2 to2 /\ Untouched keep columns X2 pass2 /\
      (forall outs2, tr st to2 = Ok outs2 -> length outs2 = length (sf_output_names f) ->
         let out2 := pass2 ++ combine (sf_output_names f) (map snd outs2) in
         osf_transform draw tr keep f X2 = Ok out2 /\ column_names out2 = column_names out
         /\ column_names out2 = sf_all_outputs f) /\
      (forall outs2, tr st to2 = Ok outs2 -> length outs2 <> length (sf_output_names f) ->
         osf_transform draw tr keep f X2 = Err ValueError) /\
      (forall e, tr st to2 = Err e -> osf_transform draw tr keep f X2 = Err e).
  Proof.
    intros draw1 draw2 ft cols keep rename X columns f out ND Ex Hne Hu Hft E.
    destruct (osf_fit_general draw1 draw2 ft cols keep rename X columns ND Ex Hne) as (to0 & pass0 & S0 & _ & E0).
    destruct (ft to0) as [|e| |outs0 st0] eqn:F0; try congruence.
    destruct (osf_fit_ok draw1 draw2 ft cols keep rename X columns ND Ex Hne Hu)
      as (to & pass & outs & st & f' & S1 & S2 & E1 & L & E' & ND' & Ea & Ei & Ec & Es & _ & _ & HC).
    { intros to S. destruct (Hft to0 outs0 st0 S0 F0) as [A B].
      assert (to = to0) as ->.
      { destruct S as [A1 A2], S0 as [B1 B2]. rewrite <- B1 in A1. clear -A1 A2 B2 ND.
        revert to0 A1 B2. induction to as [|[n c] to IH]; intros [|[m d] to0] A1 B2; simpl in A1; try discriminate; [reflexivity|].
        injection A1 as -> A1. f_equal.
        - f_equal. pose proof (A2 _ (or_introl eq_refl)) as I1. pose proof (B2 _ (or_introl eq_refl)) as I2.
          apply (dget_some_iff X m c ND) in I1. apply (dget_some_iff X m d ND) in I2. congruence.
        - apply IH; [intros p I; apply A2; right; exact I|exact A1|intros p I; apply B2; right; exact I]. }
      exists outs0, st0. auto. }
    rewrite E in E'. injection E' as <- ->. exists st. split; [exact Es|].
    intros draw tr X2 EX.
    pose proof (osf_transform_ok draw tr keep X X2 f st pass
      (pass ++ combine (sf_output_names f) (map snd outs)) ND EX) as T.
    rewrite Ec in T. destruct T as (to2 & pass2 & T1 & T2 & T3 & T4 & T5); try assumption.
    - apply (expand_subset cols X columns Ex).
    - unfold column_names. rewrite map_app, combine_fst by (rewrite map_length; exact L). reflexivity.
    - exists to2, pass2. split; [exact T1|]. split; [exact T2|]. split; [|split; assumption].
      intros outs2 A B. destruct (T3 outs2 A B) as [T6 T7]. cbn zeta. split; [exact T6|].
      split; [exact T7|]. rewrite T7. symmetry. exact Ea.
  Qed.

  Lemma osf_fit_any_names : forall draw1 draw2 (ft : frame C -> outcome C St) cols keep rename X columns,
    NoDup (column_names X) -> expand cols X = Ok columns -> columns <> [] ->
    exists to pass, SubOf columns X to /\ Untouched keep columns X pass /\
    forall outs st, ft to = Fitted outs st ->
      (forall names, length names = length outs ->
         names = pick_column_names draw1 (map rename (column_names outs)) (column_names pass) ->
         Fresh draw2 (length (column_names pass ++ names)) (column_names pass ++ names) []) ->
      exists f out, osf_fit_transform draw1 draw2 ft cols keep rename X = Ok (f, out) /\
        column_data out = column_data pass ++ column_data outs /\ NoDup (column_names out).
  Proof.
    intros draw1 draw2 ft cols keep rename X columns ND Ex Hne.
    destruct (osf_fit_general draw1 draw2 ft cols keep rename X columns ND Ex Hne) as (to & pass & S1 & S2 & E).
    exists to, pass. split; [exact S1|]. split; [exact S2|]. intros outs st F HF. rewrite F in E. cbn zeta in E.
    set (names := pick_column_names draw1 (map rename (column_names outs)) (column_names pass)) in *.
    assert (L : length names = length outs).
    { unfold names, pick_column_names. rewrite pick_length, map_length, names_length. reflexivity. }
    destruct (concat_ok draw2 [pass; combine names (map snd outs)]) as (out & E1 & E2 & E3).
    - discriminate.
    - simpl. rewrite app_nil_r. unfold column_names at 1 2. rewrite map_app, combine_fst by (rewrite map_length; exact L).
      apply HF; [exact L|reflexivity].
    - unfold frame in *. rewrite E1 in E. cbn [bind] in E. eexists. exists out. split; [exact E|].
      split; [|exact E3]. rewrite E2. simpl. rewrite app_nil_r. f_equal. unfold column_data at 1.
      rewrite combine_snd by (rewrite map_length; exact L). reflexivity.
  Qed.
End OnSub.

(** ** provenance read from the recorded dictionaries *)
Section Prov2.
  Context {C St : Type}.
  Variable keep_original : bool.

  Lemma dget_In : forall {K V} `{EqD K} (d : dict K V) k v, dget k d = Some v -> In (k, v) d.
  Proof.
    intros K V HK. induction d as [|[a b] d IH]; simpl; intros k v E; [discriminate|].
    destruct (eqd k a) as [->|_]; [left; congruence|right; apply IH; exact E].
  Qed.
  Lemma In_dget : forall {K V} `{EqD K} (d : dict K V) k v, NoDup (map fst d) -> In (k, v) d ->
    dget k d = Some v.
  Proof.
    intros K V HK. induction d as [|[a b] d IH]; simpl; intros k v N I; [destruct I|].
    inversion N as [|? ? N1 N2]; subst. destruct I as [E|I].
    - injection E as -> ->. destruct (eqd k k); [reflexivity|congruence].
    - destruct (eqd k a) as [->|_]; [|apply IH; assumption]. exfalso. apply N1.
      change a with (fst (a, v)). apply in_map. exact I.
  Qed.

  Lemma i2o_keys_NoDup : forall (X : frame C) (bs : list (@fate C St)), length bs = length X ->
    NoDup (column_names X) -> NoDup (map fst (concat (map i2o_of (combine X bs)))).
  Proof.
    induction X as [|p X IH]; intros [|b bs] L ND; simpl in *; try discriminate; [constructor|].
    inversion ND as [|? ? N1 N2]; subst. injection L as L. specialize (IH bs L N2).
    destruct b as [[[o st] ns]|]; simpl; [|exact IH]. constructor; [|exact IH].
    intros I. apply N1. apply in_map_iff in I. destruct I as ([n ns'] & E & I). simpl in E. subst n.
    apply i2o_in in I; [|exact L]. destruct I as (q & o' & st' & Iq & ->).
    apply in_map. eapply in_combine_l. exact Iq.
  Qed.

  Lemma created_sub : forall (l : list ((string * C) * @fate C St)),
    (forall p outs st ns, In (p, Some (outs, st, ns)) l -> length ns = length outs) ->
    (forall x, In x (concat (map created l)) -> In x (map fst (concat (map (block keep_original) l)))) /\
    (NoDup (map fst (concat (map (block keep_original) l))) -> NoDup (concat (map created l))).
  Proof.
    induction l as [|[p b] l IH]; intros HL; simpl; [split; [tauto|constructor]|].
    destruct IH as [IH1 IH2]; [intros p' o st ns I; eapply HL; right; exact I|].
    rewrite map_app. destruct b as [[[o st] ns]|]; simpl.
    - pose proof (HL p o st ns (or_introl eq_refl)) as Ln.
      rewrite map_app, combine_fst by (rewrite map_length; exact Ln). split.
      + intros x. rewrite !in_app_iff. intros [I|I]; [auto|]. right. apply IH1. exact I.
      + intros ND. rewrite <- app_assoc in ND. apply NoDup_app_r in ND. apply NoDup_app_intro.
        * eapply NoDup_app_l. exact ND.
        * apply IH2. eapply NoDup_app_r. exact ND.
        * intros x A B. apply IH1 in B. exact (NoDup_app_disj _ _ _ ND A B).
    - split.
      + intros x I. right. apply IH1. exact I.
      + intros ND. inversion ND; subst. apply IH2. assumption.
  Qed.

  Lemma o2i_keys : forall (l : list ((string * C) * @fate C St)),
    map fst (concat (map o2i_of l)) = concat (map created l).
  Proof.
    induction l as [|[p b] l IH]; simpl; [reflexivity|]. rewrite map_app, IH. f_equal.
    unfold o2i_of. rewrite map_map, map_id. reflexivity.
  Qed.

  Lemma oec_provenance : forall ft rename allow_reject lib draw cols X columns f out,
    NoDup (column_names X) -> expand cols X = Ok columns ->
    Fresh draw (length (suggestions ft rename columns X)) (suggestions ft rename columns X) (column_names X) ->
    oec_fit_transform lib draw ft cols allow_reject keep_original rename X = Ok (f, out) ->
    exists bs : list (@fate C St),
      out = concat (map (block keep_original) (combine X bs)) /\
      Forall2 (Fate ft allow_reject columns) X bs /\
      (forall n ns, dget n (input_to_outputs_ f) = Some ns <->
         exists p outs st, In (p, Some (outs, st, ns)) (combine X bs) /\ n = fst p) /\
      (forall o n, dget o (output_to_input_ f) = Some n <->
         exists ns, dget n (input_to_outputs_ f) = Some ns /\ In o ns) /\
      (forall n st, dget n (transformers_ f) = Some st <->
         exists p outs ns, In (p, Some (outs, st, ns)) (combine X bs) /\ n = fst p) /\
      used_inputs_ f = concat (map (fun pb => match snd pb with None => [] | Some _ => [fst (fst pb)] end)
                                 (combine X bs)) /\
      created_outputs_ f = concat (map created (combine X bs)).
  Proof.
    intros ft rename allow_reject lib draw cols X columns f out ND Ex F E.
    destruct (oec_fit_inv ft rename allow_reject keep_original lib draw cols X columns f out ND Ex F E)
      as (bs & Eo & Lb & HF & NDo & Ei & Eao & Et & Ei2o & Eo2i & _ & _).
    exists bs. split; [exact Eo|]. split; [exact HF|].
    assert (HL : forall p outs st ns, In (p, Some (outs, st, ns)) (combine X bs) -> length ns = length outs).
    { clear -HF. induction HF as [|p b X bs H HF IH]; intros q o st ns I; [destruct I|].
      destruct I as [E|I]; [injection E as -> ->; apply H|]. eapply IH. exact I. }
    assert (H1 : forall n ns, dget n (input_to_outputs_ f) = Some ns <->
         exists p outs st, In (p, Some (outs, st, ns)) (combine X bs) /\ n = fst p).
    { intros n ns. rewrite <- (i2o_in X bs n ns Lb), Ei2o. split; [apply dget_In|].
      apply In_dget. apply i2o_keys_NoDup; assumption. }
    split; [exact H1|]. split; [|split; [|split]].
    - intros o n. rewrite Eo2i.
      transitivity (In (o, n) (concat (map o2i_of (combine X bs)))).
      + split; [apply dget_In|]. apply In_dget. rewrite o2i_keys.
        apply created_sub; [exact HL|]. rewrite <- Eo. exact NDo.
      + rewrite (o2i_in X bs o n Lb). split.
        * intros (p & outs & st & ns & I & -> & Io). exists ns. split; [|exact Io]. apply H1. eauto.
        * intros (ns & D & Io). apply H1 in D. destruct D as (p & outs & st & I & ->).
          exists p, outs, st, ns. auto.
    - intros n st. rewrite Et. split.
      + intros D. apply dget_In in D. clear -D Lb. revert bs Lb D.
        induction X as [|q X IH]; intros [|b bs] L D; simpl in *; try discriminate; [destruct D|].
        apply in_app_iff in D. destruct D as [D|D].
        * destruct b as [[[o st'] ns]|]; simpl in D; [|destruct D]. destruct D as [D|[]].
          injection D as <- <-. exists q, o, ns. auto.
        * destruct (IH bs) as (p & o & ns & I & En); [congruence|exact D|]. exists p, o, ns. auto.
      + intros (p & outs & ns & I & ->). apply (tr_lookup X bs Lb ND p _ I).
    - unfold used_inputs_, dkeys. rewrite Et. apply used_concat.
    - unfold created_outputs_. rewrite Ei2o. apply created_concat.
  Qed.
End Prov2.
