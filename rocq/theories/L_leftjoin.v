(** Specification of the left join, and lemmas. *)
From Verif Require Import Base M_names L_names.
Open Scope string_scope.
Open Scope list_scope.
Open Scope nat_scope.

Section LJ.
  Context {V : Type} (null : V) (keq : list V -> list V -> bool).

  (** ** Specification *)
  (** row [row] has value [v] in column [c] *)
  Definition ValueAt (cols : list string) (row : list V) (c : string) (v : V) : Prop :=
    exists i, nth_error cols i = Some c /\ nth_error row i = Some v.
  (** the values of [row] in the columns [on] are [k] *)
  Definition ValuesAt (cols : list string) (row : list V) (on : list string) (k : list V) : Prop :=
    Forall2 (ValueAt cols row) on k.
  Definition WFTable (t : table V) : Prop :=
    NoDup (tcols t) /\ forall r, In r (trows t) -> length r = length (tcols t).
  (** the left row [l] and the right row [r] have matching keys *)
  Definition Matches (left right : table V) (left_on right_on : list string) (l r : list V) : Prop :=
    exists kl kr, ValuesAt (tcols left) l left_on kl /\ ValuesAt (tcols right) r right_on kr /\
                  keq kl kr = true.
  Definition other_columns (cols on : list string) : list string :=
    filter (fun c => negb (mem c on)) cols.
  (** the names given to the right columns that are not keys *)
  Definition other_names (cols names on : list string) : list string :=
    map snd (filter (fun p => negb (mem (fst p) on)) (combine cols names)).

  (** what the join puts after the left row [l] *)
  Definition Completion (left right : table V) (left_on right_on : list string)
    (l vals : list V) : Prop :=
    ((forall r, In r (trows right) -> ~ Matches left right left_on right_on l r) /\
     vals = repeat null (length (other_columns (tcols right) right_on))) \/
    (exists r, In r (trows right) /\ Matches left right left_on right_on l r /\
               ValuesAt (tcols right) r (other_columns (tcols right) right_on) vals).

  (** no left row matches two right rows *)
  Definition AtMostOneMatch (left right : table V) (left_on right_on : list string) : Prop :=
    forall l i j ri rj, In l (trows left) ->
      nth_error (trows right) i = Some ri -> nth_error (trows right) j = Some rj ->
      Matches left right left_on right_on l ri -> Matches left right left_on right_on l rj ->
      i = j.

  (** ** Lemmas *)
  Lemma cell_ValueAt : forall cols row c v, NoDup cols ->
    (cell cols row c = Some v <-> ValueAt cols row c v).
  Proof.
    induction cols as [|k cols IH]; intros row c v ND; simpl.
    - split; [discriminate|]. intros (i & E & _). destruct i; discriminate.
    - inversion ND as [|? ? N1 N2]; subst. destruct row as [|x row].
      + split; [discriminate|]. intros (i & _ & E). destruct i; discriminate.
      + destruct (eqd c k) as [E|N].
        * subst. split.
          -- intros E. exists 0. simpl. split; congruence.
          -- intros (i & E1 & E2). destruct i as [|i]; simpl in *; [congruence|].
             exfalso. apply N1. eapply nth_error_In; exact E1.
        * rewrite (IH row c v N2). split.
          -- intros (i & E1 & E2). exists (S i). simpl. tauto.
          -- intros (i & E1 & E2). destruct i as [|i]; simpl in *; [congruence|].
             exists i. tauto.
  Qed.

  Lemma row_key_spec : forall cols on row k, NoDup cols ->
    (row_key cols on row = Ok k <-> ValuesAt cols row on k).
  Proof.
    intros cols on row k ND. revert k. unfold ValuesAt.
    induction on as [|c on IH]; intros k; simpl.
    - split; [intros E; injection E as <-; constructor|intros F; inversion F; reflexivity].
    - destruct (cell cols row c) as [v|] eqn:E.
      + apply (proj1 (cell_ValueAt _ _ _ _ ND)) in E. split.
        * destruct (row_key cols on row) as [r|] eqn:Er; simpl; [|discriminate].
          intros X. injection X as <-. constructor; [exact E|]. apply IH. reflexivity.
        * intros F. inversion F as [|? v' ? r Hv Hr]; subst.
          apply (proj2 (cell_ValueAt _ _ _ _ ND)) in Hv, E.
          apply IH in Hr. rewrite Hr. simpl. congruence.
      + split; [discriminate|]. intros F. inversion F as [|? v' ? r Hv Hr]; subst.
        apply (proj2 (cell_ValueAt _ _ _ _ ND)) in Hv. congruence.
  Qed.

  Lemma ValuesAt_exists : forall cols row on, length row = length cols ->
    (forall c, In c on -> In c cols) -> exists k, ValuesAt cols row on k.
  Proof.
    intros cols row on L. induction on as [|c on IH]; intros Hon.
    - exists []. constructor.
    - destruct IH as [k Hk]; [intros c' I; apply Hon; right; exact I|].
      destruct (In_nth_error cols c (Hon c (or_introl eq_refl))) as [i Ei].
      destruct (nth_error row i) as [v|] eqn:Ev.
      + exists (v :: k). constructor; [exists i; tauto|exact Hk].
      + apply nth_error_None in Ev. assert (i < length cols) by (apply nth_error_Some; congruence).
        lia.
  Qed.

  (** renaming *)
  Lemma dget_dset : forall (d : dict string string) k v k',
    dget k' (dset k v d) = if eqd k' k then Some v else dget k' d.
  Proof.
    induction d as [|[a b] d IH]; intros k v k'; simpl.
    - reflexivity.
    - destruct (eqd k a) as [E|N]; simpl.
      + subst. destruct (eqd k' a); reflexivity.
      + rewrite IH. destruct (eqd k' a) as [E|N']; [|reflexivity].
        subst. destruct (eqd a k); [congruence|reflexivity].
  Qed.

  Lemma zip_dict_notin : forall ks vs d c, ~ In c ks -> dget c (zip_dict ks vs d) = dget c d.
  Proof.
    induction ks as [|k ks IH]; intros vs d c N; simpl; [reflexivity|].
    destruct vs as [|v vs]; [reflexivity|]. rewrite IH by (intros I; apply N; right; exact I).
    rewrite dget_dset. destruct (eqd c k); [|reflexivity]. subst. exfalso. apply N. left. reflexivity.
  Qed.

  Lemma zip_dict_in : forall ks vs d c n, NoDup ks -> In (c, n) (combine ks vs) ->
    dget c (zip_dict ks vs d) = Some n.
  Proof.
    induction ks as [|k ks IH]; intros vs d c n ND I; simpl in *; [tauto|].
    destruct vs as [|v vs]; [destruct I|]. inversion ND as [|? ? N1 N2]; subst.
    destruct I as [E|I].
    - injection E as -> ->. rewrite zip_dict_notin by exact N1. rewrite dget_dset.
      destruct (eqd c c); congruence.
    - apply IH; assumption.
  Qed.

  (** name of column [c] after renaming the columns [cols] to [names] *)
  Fixpoint rename_of (cols names : list string) (c : string) : string :=
    match cols, names with
    | k :: cols', n :: names' => if eqd c k then n else rename_of cols' names' c
    | _, _ => c
    end.

  Lemma rename_of_In : forall cols names c, length names = length cols -> In c cols ->
    In (c, rename_of cols names c) (combine cols names).
  Proof.
    induction cols as [|k cols IH]; intros names c L I; simpl in *; [tauto|].
    destruct names as [|n names]; [discriminate|]. simpl.
    destruct (eqd c k) as [E|N]; [left; congruence|]. right. apply IH; [simpl in L; lia|].
    destruct I; [congruence|assumption].
  Qed.

  Lemma rename_of_unique : forall cols names c n, NoDup cols ->
    In (c, n) (combine cols names) -> rename_of cols names c = n.
  Proof.
    induction cols as [|k cols IH]; intros names c n ND I; simpl in *; [tauto|].
    destruct names as [|m names]; [destruct I|]. inversion ND as [|? ? N1 N2]; subst.
    destruct I as [E|I].
    - injection E as -> ->. destruct (eqd c c); congruence.
    - destruct (eqd c k) as [E|N]; [|apply IH; assumption]. subst.
      exfalso. apply N1. apply in_combine_l in I. exact I.
  Qed.

  Lemma rename_of_inj : forall cols names c c', length names = length cols -> NoDup names ->
    In c cols -> In c' cols -> rename_of cols names c = rename_of cols names c' -> c = c'.
  Proof.
    induction cols as [|k cols IH]; intros names c c' L ND I I' E; simpl in *; [tauto|].
    destruct names as [|m names]; [discriminate|]. inversion ND as [|? ? N1 N2]; subst.
    assert (HIn : forall x, In x cols -> In (rename_of cols names x) names).
    { intros x Ix. assert (length names = length cols) as L' by (simpl in L; lia).
      pose proof (rename_of_In cols names x L' Ix) as P. apply in_combine_r in P. exact P. }
    destruct (eqd c k) as [Ec|Nc]; destruct (eqd c' k) as [Ec'|Nc'].
    - congruence.
    - exfalso. apply N1. rewrite E. apply HIn. destruct I'; [congruence|assumption].
    - exfalso. apply N1. rewrite <- E. apply HIn. destruct I; [congruence|assumption].
    - apply (IH names); [simpl in L; lia|exact N2| | |exact E].
      + destruct I; [congruence|assumption].
      + destruct I'; [congruence|assumption].
  Qed.

  Lemma cell_rename : forall cols names (row : list V) c, length names = length cols -> NoDup names ->
    In c cols -> cell names row (rename_of cols names c) = cell cols row c.
  Proof.
    induction cols as [|k cols IH]; intros names row c L ND I; simpl in *; [tauto|].
    destruct names as [|n names]; [discriminate|]. inversion ND as [|? ? N1 N2]; subst.
    destruct (eqd c k) as [E|N].
    - simpl. destruct row; [reflexivity|]. destruct (eqd n n); [reflexivity|congruence].
    - assert (I' : In c cols) by (destruct I; [congruence|assumption]).
      simpl. destruct row as [|v row]; [reflexivity|].
      destruct (eqd (rename_of cols names c) n) as [E|_].
      + exfalso. apply N1. rewrite <- E.
        assert (length names = length cols) as L' by (simpl in L; lia).
        pose proof (rename_of_In cols names c L' I') as P. apply in_combine_r in P. exact P.
      + apply IH; [simpl in L; lia|exact N2|exact I'].
  Qed.

  Lemma row_key_rename : forall cols names on (row : list V), length names = length cols -> NoDup names ->
    (forall c, In c on -> In c cols) ->
    row_key names (map (rename_of cols names) on) row = row_key cols on row.
  Proof.
    intros cols names on row L ND. induction on as [|c on IH]; intros Hon; simpl; [reflexivity|].
    rewrite cell_rename; [|exact L|exact ND|apply Hon; left; reflexivity].
    rewrite IH; [reflexivity|]. intros c' I. apply Hon. right. exact I.
  Qed.

  (** dropping columns *)
  Lemma drop_cells_keep : forall cols dropped (row : list V) rest restcols, length row = length cols ->
    (forall c, In c cols -> ~ In c dropped) ->
    drop_cells (cols ++ restcols) dropped (row ++ rest) = row ++ drop_cells restcols dropped rest.
  Proof.
    induction cols as [|c cols IH]; intros dropped row rest restcols L Hc;
      destruct row as [|v row]; try discriminate; simpl; [reflexivity|].
    assert (E : mem c dropped = false) by (apply mem_false; apply Hc; left; reflexivity).
    rewrite E. f_equal. apply IH; [simpl in L; congruence|]. intros c' I. apply Hc. right. exact I.
  Qed.

  (** pointwise: a column is dropped under its new name iff it is dropped under the old *)
  Lemma drop_cells_rename : forall cols names on on' (row : list V), 
    Forall2 (fun c n => mem n on' = mem c on) cols names ->
    drop_cells names on' row = drop_cells cols on row.
  Proof.
    intros cols names on on' row F. revert row. induction F as [|c n cols names E F IH]; intros row;
      [reflexivity|]. destruct row as [|v row]; simpl; [reflexivity|]. rewrite E, IH. reflexivity.
  Qed.

  Lemma drop_cells_values : forall cols on row, length row = length cols -> NoDup cols ->
    ValuesAt cols row (other_columns cols on) (drop_cells cols on row).
  Proof.
    unfold ValuesAt. induction cols as [|c cols IH]; intros on row L ND;
      destruct row as [|v row]; try discriminate; simpl; [constructor|].
    inversion ND as [|? ? N1 N2]; subst. simpl in L.
    assert (S : Forall2 (ValueAt (c :: cols) (v :: row)) (other_columns cols on) (drop_cells cols on row)).
    { assert (P := IH on row ltac:(congruence) N2). clear -P.
      induction P as [|x y xs ys (i & E1 & E2) P IH]; constructor; [|exact IH].
      exists (Datatypes.S i). simpl. tauto. }
    destruct (mem c on); simpl; [exact S|]. constructor; [|exact S]. exists 0. simpl. tauto.
  Qed.

  Lemma drop_cells_null : forall cols on, 
    drop_cells cols on (map (fun _ => null) cols) = repeat null (length (other_columns cols on)).
  Proof.
    induction cols as [|c cols IH]; intros on; simpl; [reflexivity|].
    rewrite IH. destruct (mem c on); reflexivity.
  Qed.

  Lemma drop_names : forall cols names on on',
    Forall2 (fun c n => mem n on' = mem c on) cols names ->
    filter (fun c => negb (mem c on')) names = other_names cols names on.
  Proof.
    intros cols names on on' F. induction F as [|c n cols names E F IH]; [reflexivity|].
    unfold other_names in *. simpl. rewrite E. destruct (mem c on); simpl; congruence.
  Qed.

  Lemma filter_at_most_one : forall {A} (f : A -> bool) l,
    (forall i j a b, nth_error l i = Some a -> nth_error l j = Some b ->
       f a = true -> f b = true -> i = j) ->
    filter f l = [] \/ exists a, filter f l = [a].
  Proof.
    induction l as [|x l IH]; intros H; simpl; [left; reflexivity|].
    assert (Hl : forall i j a b, nth_error l i = Some a -> nth_error l j = Some b ->
       f a = true -> f b = true -> i = j).
    { intros i j a b Ei Ej Fa Fb. assert (S i = S j) as X by (eapply H; eassumption). congruence. }
    destruct (f x) eqn:Ex; [|apply IH; exact Hl]. right.
    assert (filter f l = []) as E.
    { destruct (filter f l) as [|y r] eqn:E; [reflexivity|]. exfalso.
      assert (In y (filter f l)) as I by (rewrite E; left; reflexivity).
      apply filter_In in I. destruct I as [I Fy]. apply In_nth_error in I. destruct I as [i Ei].
      assert (0 = S i) as X by (eapply (H 0 (S i) x y); [reflexivity|exact Ei|exact Ex|exact Fy]).
      discriminate. }
    rewrite E. eauto.
  Qed.

  Lemma In_combine_Forall2 : forall (cols names : list string) (P : string -> string -> Prop),
    length names = length cols -> (forall c n, In (c, n) (combine cols names) -> P c n) ->
    Forall2 P cols names.
  Proof.
    induction cols as [|c cols IH]; intros names P L H; destruct names as [|n names]; try discriminate;
      constructor.
    - apply H. left. reflexivity.
    - apply IH; [simpl in L; congruence|]. intros c' n' I. apply H. right. exact I.
  Qed.

  Theorem left_join_names_ok : forall draw left right left_on right_on rename,
    WFTable left -> WFTable right ->
    (forall c, In c left_on -> In c (tcols left)) ->
    (forall c, In c right_on -> In c (tcols right)) ->
    NoDup (pick_column_names draw (map rename (tcols right)) (tcols left)) ->
    (forall x, In x (pick_column_names draw (map rename (tcols right)) (tcols left)) -> ~ In x (tcols left)) ->
    AtMostOneMatch left right left_on right_on ->
    exists out,
      left_join null keq draw left right left_on right_on rename = Ok out /\
      tcols out = tcols left ++
        other_names (tcols right)
          (pick_column_names draw (map rename (tcols right)) (tcols left)) right_on /\
      NoDup (tcols out) /\
      Forall2 (fun l o => exists vals, o = l ++ vals /\
                 Completion left right left_on right_on l vals)
              (trows left) (trows out).
  Proof.
    intros draw left right left_on right_on rename [NDl Wl] [NDr Wr] Hlo Hro NDn Dis AM.
    assert (Ln : length (pick_column_names draw (map rename (tcols right)) (tcols left)) = length (map rename (tcols right))) by apply pick_length.
    unfold left_join. set (names := pick_column_names draw (map rename (tcols right)) (tcols left)) in *.
    rewrite map_length in Ln. set (rcols := tcols right) in *.
    set (on' := map (rename_of rcols names) right_on).
    assert (E1 : mapM (fun c => match dget c (zip_dict rcols names []) with
                                | Some n => Ok n | None => Err KeyError end) right_on = Ok on').
    { apply mapM_total. intros c I.
      rewrite (zip_dict_in rcols names [] c (rename_of rcols names c)); [reflexivity|exact NDr|].
      apply rename_of_In; [exact Ln|apply Hro; exact I]. }
    rewrite E1. cbn [bind]. unfold do_left_join. cbn [tcols trows].
    (* keys of right rows *)
    assert (HK : exists K : list V -> list V, forall r, In r (trows right) ->
               row_key rcols right_on r = Ok (K r)).
    { exists (fun r => match row_key rcols right_on r with Ok k => k | Err _ => [] end).
      intros r I. destruct (ValuesAt_exists rcols r right_on (Wr r I) Hro) as [k Hk].
      apply (row_key_spec rcols right_on r k NDr) in Hk. rewrite Hk. reflexivity. }
    destruct HK as [K HK].
    assert (HL : exists K : list V -> list V, forall l, In l (trows left) ->
               row_key (tcols left) left_on l = Ok (K l)).
    { exists (fun r => match row_key (tcols left) left_on r with Ok k => k | Err _ => [] end).
      intros r I. destruct (ValuesAt_exists (tcols left) r left_on (Wl r I) Hlo) as [k Hk].
      apply (row_key_spec (tcols left) left_on r k NDl) in Hk. rewrite Hk. reflexivity. }
    destruct HL as [KL HL].
    rewrite (mapM_total _ (fun r => (K r, r))).
    2:{ intros r I. unfold on'. rewrite row_key_rename; [|exact Ln|exact NDn|exact Hro].
        rewrite (HK r I). reflexivity. }
    cbn [bind].
    rewrite (mapM_total _ (fun l =>
       match filter (fun kr => keq (KL l) (fst kr)) (map (fun r => (K r, r)) (trows right)) with
       | [] => [l ++ map (fun _ => null) names]
       | (_ :: _) as ms => map (fun kr => l ++ snd kr) ms
       end)).
    2:{ intros l I. rewrite (HL l I). reflexivity. }
    cbn [bind]. eexists. split; [reflexivity|]. unfold drop_columns. cbn [tcols trows].
    (* on' in terms of right_on *)
    assert (HM : Forall2 (fun c n => mem n on' = mem c right_on) rcols names).
    { apply In_combine_Forall2; [exact Ln|]. intros c n I.
      pose proof (rename_of_unique rcols names c n NDr I) as Ec.
      assert (Ic : In c rcols) by (apply in_combine_l in I; exact I).
      destruct (mem c right_on) eqn:Em.
      - apply mem_true in Em. apply mem_true. rewrite <- Ec. apply in_map. exact Em.
      - apply mem_false. intros I'. unfold on' in I'. apply in_map_iff in I'.
        destruct I' as (c' & E' & I'). assert (c' = c).
        { apply (rename_of_inj rcols names); [exact Ln|exact NDn|apply Hro; exact I'|exact Ic|congruence]. }
        subst c'. apply mem_true in I'. congruence. }
    assert (Hon' : forall c, In c (tcols left) -> ~ In c on').
    { intros c I I'. unfold on' in I'. apply in_map_iff in I'. destruct I' as (c' & E' & I').
      apply (Dis c); [|exact I]. rewrite <- E'.
      pose proof (rename_of_In rcols names c' Ln (Hro c' I')) as P. apply in_combine_r in P. exact P. }
    assert (HF : filter (fun c => negb (mem c on')) (tcols left) = tcols left).
    { clearbody on'. clear -Hon'. induction (tcols left) as [|c l IH]; simpl; [reflexivity|].
      assert (E : mem c on' = false) by (apply mem_false; apply Hon'; left; reflexivity).
      rewrite E. simpl. f_equal. apply IH. intros c' I. apply Hon'. right. exact I. }
    split; [|split].
    - rewrite filter_app, HF. f_equal. apply drop_names. exact HM.
    - apply NoDup_filter. apply NoDup_app_intro; [exact NDl|exact NDn|].
      intros c I I'. exact (Dis c I' I).
    - (* rows *)
      assert (HMatch : forall l r, In l (trows left) -> In r (trows right) ->
                (Matches left right left_on right_on l r <-> keq (KL l) (K r) = true)).
      { intros l r Il Ir. unfold Matches. split.
        - intros (kl & kr & A & B & D).
          apply (row_key_spec (tcols left) left_on l kl NDl) in A.
          apply (row_key_spec rcols right_on r kr NDr) in B.
          rewrite (HL l Il) in A. rewrite (HK r Ir) in B. congruence.
        - intros D. exists (KL l), (K r). split; [|split; [|exact D]].
          + apply (row_key_spec (tcols left) left_on l _ NDl). apply HL. exact Il.
          + apply (row_key_spec rcols right_on r _ NDr). apply HK. exact Ir. }
      assert (HB : forall l, In l (trows left) ->
        exists vals,
          map (drop_cells (tcols left ++ names) on')
            (match filter (fun kr => keq (KL l) (fst kr)) (map (fun r => (K r, r)) (trows right)) with
             | [] => [l ++ map (fun _ => null) names]
             | (_ :: _) as ms => map (fun kr => l ++ snd kr) ms
             end) = [l ++ vals] /\ Completion left right left_on right_on l vals).
      { intros l Il.
        destruct (filter_at_most_one (fun kr => keq (KL l) (fst kr)) (map (fun r => (K r, r)) (trows right)))
          as [E|[[k r] E]].
        - intros i j a b Ei Ej Fa Fb. rewrite nth_error_map in Ei, Ej.
          destruct (nth_error (trows right) i) as [ri|] eqn:Hi; simpl in Ei; [|discriminate].
          destruct (nth_error (trows right) j) as [rj|] eqn:Hj; simpl in Ej; [|discriminate].
          injection Ei as <-. injection Ej as <-. simpl in Fa, Fb.
          pose proof (nth_error_In _ _ Hi) as Ii. pose proof (nth_error_In _ _ Hj) as Ij.
          apply (AM l i j ri rj Il Hi Hj); apply HMatch; assumption.
        - rewrite E. exists (repeat null (length (other_columns rcols right_on))). simpl. split.
          + f_equal. rewrite drop_cells_keep; [|apply Wl; exact Il|exact Hon']. f_equal.
            rewrite (drop_cells_rename rcols names right_on on' _ HM).
            assert (map (fun _ : string => null) names = map (fun _ : string => null) rcols) as Em.
            { clear -Ln. clearbody names rcols. revert names Ln. induction rcols as [|c rc IH]; intros [|n names] Ln;
                try discriminate; simpl; [reflexivity|]. f_equal. apply IH. simpl in Ln. congruence. }
            rewrite Em. apply drop_cells_null.
          + left. split; [|reflexivity]. intros r Ir M. apply (HMatch l r Il Ir) in M.
            assert (In (K r, r) (filter (fun kr => keq (KL l) (fst kr)) (map (fun r => (K r, r)) (trows right)))) as I.
            { apply filter_In. split; [|exact M]. apply in_map_iff. exists r. tauto. }
            rewrite E in I. destruct I.
        - rewrite E. simpl. exists (drop_cells rcols right_on r).
          assert (In (k, r) (filter (fun kr => keq (KL l) (fst kr)) (map (fun r => (K r, r)) (trows right)))) as I.
          { rewrite E. left. reflexivity. }
          apply filter_In in I. destruct I as [I Hk]. apply in_map_iff in I.
          destruct I as (r' & Er & Ir). injection Er as <- ->. simpl in Hk. split.
          + f_equal. rewrite drop_cells_keep; [|apply Wl; exact Il|exact Hon']. f_equal.
            apply (drop_cells_rename rcols names right_on on' _ HM).
          + right. exists r. split; [exact Ir|]. split; [apply HMatch; assumption|].
            apply drop_cells_values; [apply Wr; exact Ir|exact NDr]. }
      rewrite concat_map, map_map.
      assert (HG : forall (blk : list V -> list (list V)) ls,
        (forall l, In l ls -> exists vals, blk l = [l ++ vals] /\
                   Completion left right left_on right_on l vals) ->
        Forall2 (fun l o => exists vals, o = l ++ vals /\
                 Completion left right left_on right_on l vals) ls (concat (map blk ls))).
      { clear. intros blk. induction ls as [|l ls IH]; intros HB; [constructor|].
        destruct (HB l (or_introl eq_refl)) as (vals & E & HC).
        cbn [map concat]. rewrite E. cbn [app]. constructor; [eauto|].
        apply IH. intros l' I. apply HB. right. exact I. }
      apply HG. exact HB.
  Qed.

  Theorem left_join_ok : forall draw left right left_on right_on rename,
    WFTable left -> WFTable right ->
    (forall c, In c left_on -> In c (tcols left)) ->
    (forall c, In c right_on -> In c (tcols right)) ->
    Fresh draw (length (tcols right)) (map rename (tcols right)) (tcols left) ->
    AtMostOneMatch left right left_on right_on ->
    exists out,
      left_join null keq draw left right left_on right_on rename = Ok out /\
      tcols out = tcols left ++
        other_names (tcols right)
          (pick_column_names draw (map rename (tcols right)) (tcols left)) right_on /\
      NoDup (tcols out) /\
      Forall2 (fun l o => exists vals, o = l ++ vals /\
                 Completion left right left_on right_on l vals)
              (trows left) (trows out).
  Proof.
    intros draw left right left_on right_on rename WL WR Hlo Hro F AM.
    rewrite <- (map_length rename (tcols right)) in F.
    destruct (pick_distinct draw _ _ F) as (Ln & NDn & Dis).
    apply left_join_names_ok; assumption.
  Qed.
End LJ.
