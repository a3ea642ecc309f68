(** Fuzzy joins: specification and lemmas. *)
From Verif Require Import Base M_names M_oncols M_agg M_tablevec L_names L_leftjoin L_agg L_agg2 L_tablevec3 M_matching L_matching M_joiner.
From Coq Require Import QArith.
Open Scope string_scope.
Open Scope list_scope.
Open Scope nat_scope.

Lemma bindI : forall {A B} (r : res A) (f : A -> res B) b, bind r f = Ok b -> exists a, r = Ok a /\ f a = Ok b.
Proof. intros A B [a|e] f b E; [eauto|discriminate]. Qed.

(** ** Success of a match *)
Section MatchOk.
  Context {P : Type}.
  Variable dist : P -> P -> Q.
  Variable order : list P -> nat -> P -> list nat.
  Hypothesis order_ok : is_order dist order.

  Lemma match_ok : forall m main max_dist rows, m_aux m <> [] ->
    match_ dist order m main max_dist = Ok rows ->
    main <> [] /\ Forall2 (RowMatched dist m max_dist) main rows.
  Proof.
    intros m main max_dist rows Ha E. assert (Hm : main <> []) by (destruct main; [discriminate E|discriminate]).
    split; [exact Hm|].
    destruct (match_spec dist order order_ok m main max_dist Ha Hm) as (rows' & E' & F); [|congruence].
    unfold match_ in E. destruct main as [|x main]; [congruence|].
    apply bindI in E. destruct E as (near & E1 & E). apply bindI in E. destruct E as (refs & E2 & E).
    apply bindI in E. destruct E as (rs & E3 & _). apply mapM_Forall2 in E1. inversion E1 as [|? dn ? near' _ _]; subst.
    assert (K : forall k y, (exists q, (let! ns := kneighbors dist order (m_aux m) (k + 1) y in last_distance ns) = Ok q) ->
                k < length (m_aux m)).
    { intros k y (q & Eq). apply bindI in Eq. destruct Eq as (ns & Eq & _). unfold kneighbors in Eq.
      destruct (length (m_aux m) <? k + 1) eqn:El; [discriminate|]. apply Nat.ltb_ge in El. lia. }
    unfold references_exist, get_reference_distances in *. destruct (m_strategy m) as [|pc n|k|k].
    - exact I.
    - destruct (m_ref m) as [q|]; [|discriminate]. injection E2 as <-. exists q. split; [reflexivity|].
      intros Z. rewrite rescale_scalar_zero in E3; [discriminate|exact Z|discriminate].
    - apply bindI in E2. destruct E2 as (qs & E2 & _). cbn [map mapM] in E2. apply bindI in E2.
      destruct E2 as (q & E2 & _). destruct (nth_error (m_aux m) (snd dn)) as [a|]; [|discriminate].
      apply (K k a). eauto.
    - apply bindI in E2. destruct E2 as (qs & E2 & _). cbn [mapM] in E2. apply bindI in E2.
      destruct E2 as (q & E2 & _). apply (K k x). eauto.
  Qed.
End MatchOk.

(** ** Columns *)
Section Columns.
  Context {V : Type}.
  Lemma set_cell_new : forall cols (row : list V) c v, length row = length cols -> ~ In c cols ->
    set_cell cols row c v = (cols ++ [c], row ++ [v]).
  Proof.
    induction cols as [|k cols IH]; intros row c v L N; destruct row as [|x row]; try discriminate; [reflexivity|].
    simpl. destruct (eqd c k) as [->|_]; [destruct N; left; reflexivity|].
    rewrite IH; [reflexivity|simpl in L; congruence|]. intros I. apply N. right. exact I.
  Qed.

  Definition add_cells (rows : list (list V)) (vals : list V) : list (list V) :=
    map (fun rv => fst rv ++ [snd rv]) (combine rows vals).

  Lemma with_column_new : forall (t : table V) name vals, (forall r, In r (trows t) -> length r = length (tcols t)) ->
    ~ In name (tcols t) -> length vals = length (trows t) ->
    with_column t (name, vals) = Ok {| tcols := tcols t ++ [name]; trows := add_cells (trows t) vals |}.
  Proof.
    intros t name vals W N L. unfold with_column. cbn [fst snd]. rewrite L, Nat.eqb_refl. cbn [negb].
    rewrite (proj2 (mem_false _ _) N). f_equal. f_equal. unfold add_cells. apply map_ext_in. intros [r v] I.
    cbn [fst snd]. apply in_combine_l in I. rewrite set_cell_new; [reflexivity|apply W; exact I|exact N].
  Qed.

  Lemma add_cells_nth : forall rows (vals : list V) i r v, nth_error rows i = Some r -> nth_error vals i = Some v ->
    nth_error (add_cells rows vals) i = Some (r ++ [v]).
  Proof.
    unfold add_cells. induction rows as [|r0 rows IH]; intros vals i r v Er Ev; [destruct i; discriminate|].
    destruct vals as [|v0 vals]; [destruct i; discriminate|]. destruct i as [|i]; simpl in *; [congruence|]. auto.
  Qed.
  Lemma add_cells_length : forall rows (vals : list V), length vals = length rows -> length (add_cells rows vals) = length rows.
  Proof. intros rows vals L. unfold add_cells. rewrite map_length, combine_length. lia. Qed.
  Lemma add_cells_in : forall rows (vals : list V) x, In x (add_cells rows vals) ->
    exists r v, In r rows /\ In v vals /\ x = r ++ [v].
  Proof.
    intros rows vals x I. apply in_map_iff in I. destruct I as ([r v] & <- & I). exists r, v.
    split; [eapply in_combine_l; exact I|]. split; [eapply in_combine_r; exact I|reflexivity].
  Qed.
  Lemma add_cells_WF : forall (cols : list string) rows (vals : list V) name,
    (forall r, In r rows -> length r = length cols) ->
    forall r, In r (add_cells rows vals) -> length r = length (cols ++ [name]).
  Proof.
    intros cols rows vals name W r I. apply add_cells_in in I. destruct I as (r' & v & I & _ & ->).
    rewrite !app_length, (W r' I). reflexivity.
  Qed.
  Lemma ValueAt_last : forall cols (row : list V) c v, length row = length cols -> ValueAt (cols ++ [c]) (row ++ [v]) c v.
  Proof.
    intros cols row c v L. exists (length cols). split.
    - rewrite nth_error_app2, Nat.sub_diag by lia. reflexivity.
    - rewrite <- L, nth_error_app2, Nat.sub_diag by lia. reflexivity.
  Qed.
  Lemma ValuesAt_last : forall cols (row : list V) c v k, NoDup (cols ++ [c]) -> length row = length cols ->
    ValuesAt (cols ++ [c]) (row ++ [v]) [c] k -> k = [v].
  Proof.
    intros cols row c v k ND L Hv. eapply ValuesAt_det; [exact ND|exact Hv|].
    constructor; [apply ValueAt_last; exact L|constructor].
  Qed.
  Lemma NoDup_snoc : forall (l : list string) c, NoDup l -> ~ In c l -> NoDup (l ++ [c]).
  Proof.
    intros l c ND N. apply NoDup_app_intro; [exact ND|repeat constructor; intros []|].
    intros x I [<-|[]]. exact (N I).
  Qed.
  Lemma other_columns_snoc : forall (cols : list string) c, ~ In c cols -> other_columns (cols ++ [c]) [c] = cols.
  Proof.
    intros cols c N. unfold other_columns. rewrite filter_app. simpl. rewrite (proj2 (mem_true c [c]) (or_introl eq_refl)).
    simpl. rewrite app_nil_r. induction cols as [|k cols IH]; simpl; [reflexivity|].
    rewrite (proj2 (mem_false _ _)); [simpl; f_equal; apply IH; intros I; apply N; right; exact I|].
    intros [E|[]]. apply N. left. symmetry. exact E.
  Qed.
  Lemma other_names_snoc : forall (cols names : list string) c n, ~ In c cols -> length names = length cols ->
    other_names (cols ++ [c]) (names ++ [n]) [c] = names.
  Proof.
    unfold other_names. induction cols as [|k cols IH]; intros names c n N L; destruct names as [|m names]; try discriminate.
    - simpl. rewrite (proj2 (mem_true c [c]) (or_introl eq_refl)). reflexivity.
    - simpl. rewrite (proj2 (mem_false _ _)).
      + simpl. f_equal. apply IH; [intros I; apply N; right; exact I|simpl in L; congruence].
      + intros [E|[]]. apply N. left. symmetry. exact E.
  Qed.
  Lemma pick_snoc : forall draw (l : list string) s f,
    exists n, pick_column_names draw (l ++ [s]) f = pick_column_names draw l f ++ [n].
  Proof. intros draw l s f. unfold pick_column_names. rewrite pick_app. simpl. eexists. reflexivity. Qed.
End Columns.

Section Join.
  Context {V : Type} {EV : EqD V}.
  Variable null : V.
  Variable isnull : V -> bool.
  Variable lib : library.
  Variable of_int : Z -> V.
  Variable of_dist : Q -> V.
  Variable of_ext : ext -> V.
  Variable of_bool : bool -> V.
  Hypothesis of_int_inj : forall a b, of_int a = of_int b -> a = b.
  Hypothesis of_int_not_null : forall a, isnull (of_int a) = false.

  Lemma keq_int : forall a b, keq isnull lib [of_int a] [of_int b] = true <-> a = b.
  Proof.
    intros a b. unfold keq. rewrite andb_true_iff, eqb_of_true. split.
    - intros [E _]. injection E as E. apply of_int_inj. exact E.
    - intros ->. split; [reflexivity|]. destruct lib; [reflexivity|]. simpl. rewrite of_int_not_null. reflexivity.
  Qed.

  (** The join of the rows of [X] and those of [aux] with the numbers [idx] (-1: none). *)
  Lemma index_join : forall draw (X aux : table V) (idx : list Z) lk rk rename,
    WFTable X -> WFTable aux -> ~ In lk (tcols X) -> ~ In rk (tcols aux) -> length idx = length (trows X) ->
    Fresh draw (length (tcols aux) + 1) (map rename (tcols aux ++ [rk])) (tcols X ++ [lk]) ->
    exists left_ right_ join, 
      with_columns X [(lk, map of_int idx)] = Ok left_ /\
      with_columns aux [(rk, map (fun i => of_int (Z.of_nat i)) (seq 0 (length (trows aux))))] = Ok right_ /\
      left_join null (keq isnull lib) draw left_ right_ [lk] [rk] rename = Ok join /\
      let out := drop_columns join [lk] in
      let names := pick_column_names draw (map rename (tcols aux)) (tcols X ++ [lk]) in
      tcols out = tcols X ++ names /\ NoDup (tcols out) /\ length names = length (tcols aux) /\
      length (trows out) = length (trows X) /\
      forall i x z, nth_error (trows X) i = Some x -> nth_error idx i = Some z ->
        exists vals, nth_error (trows out) i = Some (x ++ vals) /\
          match (if (z <? 0)%Z then None else nth_error (trows aux) (Z.to_nat z)) with
          | Some a => vals = a
          | None => vals = repeat null (length (tcols aux))
          end.
  Proof.
    intros draw X aux idx lk rk rename [NX WX] [NA WA] Nl Nr Li F.
    set (ints := map (fun i => of_int (Z.of_nat i)) (seq 0 (length (trows aux)))).
    assert (Lin : length ints = length (trows aux)) by (unfold ints; rewrite map_length, seq_length; reflexivity).
    set (left_ := {| tcols := tcols X ++ [lk]; trows := add_cells (trows X) (map of_int idx) |}).
    set (right_ := {| tcols := tcols aux ++ [rk]; trows := add_cells (trows aux) ints |}).
    exists left_, right_.
    assert (E1 : with_columns X [(lk, map of_int idx)] = Ok left_).
    { unfold with_columns. cbn [foldM]. rewrite with_column_new; [reflexivity|exact WX|exact Nl|rewrite map_length; exact Li]. }
    assert (E2 : with_columns aux [(rk, ints)] = Ok right_).
    { unfold with_columns. cbn [foldM]. rewrite with_column_new; [reflexivity|exact WA|exact Nr|exact Lin]. }
    assert (NL : NoDup (tcols X ++ [lk])) by (apply NoDup_snoc; assumption).
    assert (NR : NoDup (tcols aux ++ [rk])) by (apply NoDup_snoc; assumption).
    assert (Hr : forall j r, nth_error (trows right_) j = Some r ->
              exists a, nth_error (trows aux) j = Some a /\ r = a ++ [of_int (Z.of_nat j)]).
    { intros j r E. assert (Lj : j < length (trows right_)) by (apply nth_error_Some; congruence).
      cbn [right_ trows] in Lj. rewrite add_cells_length in Lj by exact Lin.
      destruct (nth_error (trows aux) j) as [a|] eqn:Ea; [|apply nth_error_None in Ea; lia].
      exists a. split; [reflexivity|]. cbn [right_ trows] in E.
      rewrite (add_cells_nth _ _ j a (of_int (Z.of_nat j)) Ea) in E; [congruence|].
      unfold ints. rewrite nth_error_map.
      assert (Es : nth_error (seq 0 (length (trows aux))) j = Some j).
      { rewrite (nth_error_nth' _ 0) by (rewrite seq_length; exact Lj). rewrite seq_nth by exact Lj. reflexivity. }
      rewrite Es. reflexivity. }
    assert (Hl : forall l, In l (trows left_) -> exists x z, In x (trows X) /\ l = x ++ [of_int z]).
    { intros l I. apply add_cells_in in I. destruct I as (x & v & I1 & I2 & ->). apply in_map_iff in I2.
      destruct I2 as (z & <- & _). eauto. }
    assert (HM : forall x z j a, length x = length (tcols X) -> nth_error (trows aux) j = Some a ->
              (Matches (keq isnull lib) left_ right_ [lk] [rk] (x ++ [of_int z]) (a ++ [of_int (Z.of_nat j)]) <-> z = Z.of_nat j)).
    { intros x z j a Lx Ea. assert (La : length a = length (tcols aux)) by (apply WA; eapply nth_error_In; exact Ea).
      split.
      - intros (kl & kr & Hkl & Hkr & K). apply ValuesAt_last in Hkl; [|exact NL|exact Lx].
        apply ValuesAt_last in Hkr; [|exact NR|exact La]. subst. apply keq_int in K. exact K.
      - intros ->. exists [of_int (Z.of_nat j)], [of_int (Z.of_nat j)].
        split; [constructor; [apply ValueAt_last; exact Lx|constructor]|].
        split; [constructor; [apply ValueAt_last; exact La|constructor]|]. apply keq_int. reflexivity. }
    destruct (left_join_ok null (keq isnull lib) draw left_ right_ [lk] [rk] rename) as (join & E3 & C1 & C2 & C3).
    - split; [exact NL|]. apply add_cells_WF. exact WX.
    - split; [exact NR|]. apply add_cells_WF. exact WA.
    - intros c [<-|[]]. apply in_or_app. right. left. reflexivity.
    - intros c [<-|[]]. apply in_or_app. right. left. reflexivity.
    - cbn [right_ left_ tcols]. rewrite app_length. exact F.
    - intros l i j ri rj Il Ei Ej Mi Mj. destruct (Hl l Il) as (x & z & Ix & ->).
      destruct (Hr i ri Ei) as (a & Ea & ->). destruct (Hr j rj Ej) as (b & Eb & ->).
      apply (HM x z i a (WX x Ix) Ea) in Mi. apply (HM x z j b (WX x Ix) Eb) in Mj. lia.
    - exists join. split; [exact E1|]. split; [exact E2|]. split; [exact E3|]. cbn zeta.
      set (names := pick_column_names draw (map rename (tcols aux)) (tcols X ++ [lk])).
      assert (Ln : length names = length (tcols aux)) by (unfold names, pick_column_names; rewrite pick_length, map_length; reflexivity).
      assert (C1' : tcols join = tcols X ++ [lk] ++ names).
      { rewrite C1. cbn [left_ right_ tcols]. rewrite map_app. cbn [map].
        destruct (pick_snoc draw (map rename (tcols aux)) (rename rk) (tcols X ++ [lk])) as (n & En). rewrite En.
        rewrite other_names_snoc; [rewrite <- app_assoc; reflexivity|exact Nr|exact Ln]. }
      assert (Nn : ~ In lk names).
      { rewrite C1', app_assoc in C2. intros I. apply (NoDup_app_disj _ _ lk C2); [|exact I].
        apply in_or_app. right. left. reflexivity. }
      assert (FX : forall l, ~ In lk l -> filter (fun c => negb (mem c [lk])) l = l).
      { induction l as [|c l IH]; intros N; [reflexivity|]. cbn [filter]. rewrite (proj2 (mem_false c [lk])).
        - cbn [negb]. f_equal. apply IH. intros I. apply N. right. exact I.
        - intros [E|[]]. apply N. left. symmetry. exact E. }
      assert (Co : tcols (drop_columns join [lk]) = tcols X ++ names).
      { unfold drop_columns. cbn [tcols]. rewrite C1', !filter_app, (FX (tcols X) Nl), (FX names Nn).
        cbn [filter]. rewrite (proj2 (mem_true lk [lk]) (or_introl eq_refl)). reflexivity. }
      split; [exact Co|]. split.
      { rewrite Co. rewrite C1' in C2. apply NoDup_remove_1 in C2. exact C2. }
      split; [exact Ln|].
      assert (Lleft : length (trows left_) = length (trows X)) by (apply add_cells_length; rewrite map_length; exact Li).
      split.
      { unfold drop_columns. cbn [trows]. rewrite map_length. rewrite <- Lleft. symmetry. apply (Forall2_len _ _ _ C3). }
      intros i x z Ex Ez.
      assert (El : nth_error (trows left_) i = Some (x ++ [of_int z])).
      { apply add_cells_nth; [exact Ex|]. rewrite nth_error_map, Ez. reflexivity. }
      assert (Eo : exists o, nth_error (trows join) i = Some o).
      { destruct (nth_error (trows join) i) as [o|] eqn:Eo; [eauto|]. apply nth_error_None in Eo.
        rewrite <- (Forall2_len _ _ _ C3) in Eo. assert (i < length (trows left_)) by (apply nth_error_Some; congruence). lia. }
      destruct Eo as (o & Eo).
      assert (Hx : length x = length (tcols X)) by (apply WX; eapply nth_error_In; exact Ex).
      assert (HC : exists vals, o = (x ++ [of_int z]) ++ vals /\
                     Completion null (keq isnull lib) left_ right_ [lk] [rk] (x ++ [of_int z]) vals).
      { clear -C3 El Eo. revert i El Eo. induction C3 as [|l o' ls os H C3 IH]; intros i El Eo; [destruct i; discriminate|].
        destruct i as [|i]; simpl in *; [injection El as <-; injection Eo as <-; exact H|]. eauto. }
      destruct HC as (vals & -> & HC). exists vals.
      assert (OC : other_columns (tcols right_) [rk] = tcols aux) by (apply other_columns_snoc; exact Nr).
      assert (Lv : length vals = length (tcols aux)).
      { destruct HC as [[_ ->]|(r & _ & _ & HV)].
        - rewrite repeat_length, OC. reflexivity.
        - rewrite <- (Forall2_len _ _ _ HV), OC. reflexivity. }
      split.
      { unfold drop_columns. cbn [trows]. rewrite nth_error_map, Eo. cbn [option_map]. f_equal. rewrite C1', <- app_assoc.
        rewrite drop_cells_keep; [|exact Hx|intros c Ic [E|[]]; subst c; exact (Nl Ic)].
        cbn [app drop_cells]. rewrite (proj2 (mem_true lk [lk]) (or_introl eq_refl)).
        rewrite <- (app_nil_r vals), <- (app_nil_r names).
        rewrite drop_cells_keep; [reflexivity|congruence|intros c Ic [E|[]]; subst c; exact (Nn Ic)]. }
      rewrite <- OC. destruct HC as [[HN ->]|(r & Ir & HMr & HV)].
      + destruct (z <? 0)%Z eqn:Ez0; [reflexivity|].
        destruct (nth_error (trows aux) (Z.to_nat z)) as [a|] eqn:Ea; [|reflexivity]. exfalso.
        apply Z.ltb_ge in Ez0. apply (HN (a ++ [of_int (Z.of_nat (Z.to_nat z))])).
        * eapply nth_error_In. apply (add_cells_nth (trows aux) ints (Z.to_nat z)); [exact Ea|].
          unfold ints. rewrite nth_error_map.
          assert (Lz : Z.to_nat z < length (trows aux)) by (apply nth_error_Some; congruence).
          rewrite (nth_error_nth' _ 0) by (rewrite seq_length; exact Lz). rewrite seq_nth by exact Lz. reflexivity.
        * apply (HM x z (Z.to_nat z) a Hx Ea). lia.
      + apply In_nth_error in Ir. destruct Ir as (j & Ej). destruct (Hr j r Ej) as (a & Ea & ->).
        apply (HM x z j a Hx Ea) in HMr. subst z.
        assert (E0 : (Z.of_nat j <? 0)%Z = false) by (apply Z.ltb_ge; lia). rewrite E0, Nat2Z.id, Ea.
        rewrite OC in HV. cbn [right_ tcols] in HV.
        assert (La : length a = length (tcols aux)) by (apply WA; eapply nth_error_In; exact Ea).
        destruct (ValuesAt_split (tcols aux) [rk] a [of_int (Z.of_nat j)] La eq_refl) as [HA _].
        eapply ValuesAt_det; [exact NR|exact HV|exact HA].
  Qed.
End Join.

(** ** Replacing columns *)
Section Replace.
  Context {V : Type}.
  Lemma set_cell_cols : forall cols (row : list V) c v, length row = length cols ->
    fst (set_cell cols row c v) = (if mem c cols then cols else cols ++ [c]) /\
    length (snd (set_cell cols row c v)) = length (fst (set_cell cols row c v)) /\
    ValueAt (fst (set_cell cols row c v)) (snd (set_cell cols row c v)) c v /\
    forall c' v', c' <> c -> ValueAt cols row c' v' -> ValueAt (fst (set_cell cols row c v)) (snd (set_cell cols row c v)) c' v'.
  Proof.
    induction cols as [|k cols IH]; intros row c v L; destruct row as [|x row]; try discriminate.
    - simpl. repeat split; [exists 0; split; reflexivity|]. intros c' v' _ (i & E & _). destruct i; discriminate.
    - simpl in L. specialize (IH row c v ltac:(congruence)). simpl. destruct (eqd c k) as [->|Nk].
      + rewrite (proj2 (mem_true k (k :: cols)) (or_introl eq_refl)). cbn [fst snd length].
        repeat split; [congruence|exists 0; split; reflexivity|].
        intros c' v' N (i & E1 & E2). exists i. split; [exact E1|]. destruct i as [|i]; [|exact E2].
        simpl in E1. congruence.
      + destruct (set_cell cols row c v) as [cs r]. cbn [fst snd] in *. destruct IH as (I1 & I2 & I3 & I4).
        assert (M : mem c (k :: cols) = mem c cols).
        { destruct (mem c cols) eqn:Em.
          - apply mem_true. right. apply mem_true. exact Em.
          - apply mem_false. intros [E|E]; [congruence|]. apply (proj1 (mem_false _ _) Em E). }
        rewrite M. repeat split.
        * rewrite I1. destruct (mem c cols); reflexivity.
        * simpl. congruence.
        * destruct I3 as (i & E1 & E2). exists (S i). split; assumption.
        * intros c' v' N (i & E1 & E2). destruct i as [|i]; [exists 0; split; assumption|].
          destruct (I4 c' v' N) as (j & F1 & F2); [exists i; split; assumption|]. exists (S j). split; assumption.
  Qed.

  Lemma with_column_inv : forall (t t' : table V) name vals,
    (forall r, In r (trows t) -> length r = length (tcols t)) ->
    with_column t (name, vals) = Ok t' ->
    length (trows t') = length (trows t) /\ length vals = length (trows t) /\
    (forall r, In r (trows t') -> length r = length (tcols t')) /\
    (forall c, In c (tcols t) -> In c (tcols t')) /\
    forall i r, nth_error (trows t) i = Some r ->
      exists r' v, nth_error (trows t') i = Some r' /\ nth_error vals i = Some v /\ ValueAt (tcols t') r' name v /\
        forall c x, c <> name -> ValueAt (tcols t) r c x -> ValueAt (tcols t') r' c x.
  Proof.
    intros t t' name vals W E. unfold with_column in E. cbn [fst snd] in E.
    destruct (length vals =? length (trows t)) eqn:L; [|discriminate]. apply Nat.eqb_eq in L. cbn [negb] in E.
    injection E as <-. cbn [tcols trows].
    split; [rewrite map_length, combine_length; lia|]. split; [exact L|]. split.
    { intros r I. apply in_map_iff in I. destruct I as ([r0 v] & <- & I). cbn [fst snd].
      apply in_combine_l in I. destruct (set_cell_cols (tcols t) r0 name v (W r0 I)) as (E1 & E2 & _). rewrite <- E1. exact E2. }
    split; [intros c I; destruct (mem name (tcols t)); [exact I|apply in_or_app; left; exact I]|].
    intros i r Er. assert (Li : i < length vals) by (rewrite L; apply nth_error_Some; congruence).
    destruct (nth_error vals i) as [v|] eqn:Ev; [|apply nth_error_None in Ev; lia].
    assert (Ec : nth_error (combine (trows t) vals) i = Some (r, v)).
    { clear -Er Ev. revert vals i Er Ev. induction (trows t) as [|r0 rs IH]; intros vals i Er Ev; [destruct i; discriminate|].
      destruct vals as [|v0 vals]; [destruct i; discriminate|]. destruct i as [|i]; simpl in *; [congruence|]. auto. }
    exists (snd (set_cell (tcols t) r name v)), v. rewrite nth_error_map, Ec. cbn [option_map fst snd].
    split; [reflexivity|]. split; [reflexivity|].
    destruct (set_cell_cols (tcols t) r name v) as (E1 & _ & E3 & E4); [apply W; eapply nth_error_In; exact Er|].
    rewrite E1 in *. split; [exact E3|exact E4].
  Qed.
End Replace.

(** ** Joiner *)
Section JoinerSpec.
  Context {V : Type} {EV : EqD V}.
  Variable null : V.
  Variable isnull : V -> bool.
  Variable lib : library.
  Variable of_int : Z -> V.
  Variable of_dist : Q -> V.
  Variable of_ext : ext -> V.
  Variable of_bool : bool -> V.
  Variable is_true : V -> bool.
  Context {P VS : Type}.
  Variable vec_fit : bool -> list (list V) -> res (VS * list P).
  Variable vec_transform : VS -> list (list V) -> res (list P).
  Variable dist : P -> P -> Q.
  Variable order : list P -> nat -> P -> list nat.
  Variable draws : list (list (nat * nat)).

  (** What is assumed of the cells and of the libraries. *)
  Definition Environment : Prop :=
    (forall a b, of_int a = of_int b -> a = b) /\ (forall a, isnull (of_int a) = false) /\
    (forall b, is_true (of_bool b) = b) /\
    is_order dist order /\
    (forall b keys vs vectors, vec_fit b keys = Ok (vs, vectors) -> length vectors = length keys) /\
    (forall vs keys vectors, vec_transform vs keys = Ok vectors -> length vectors = length keys).

  Definition left_key (token : string) : string := ("skrub_left_key_" ++ token)%string.
  Definition right_key (token : string) : string := ("skrub_right_key_" ++ token)%string.
  Definition suffixed (suffix c : string) : string := (c ++ suffix)%string.

  (** [o] is the row [x] followed by the values of the matched row, or nulls. *)
  Definition RowJoined (aux : table V) (add_info : bool) (x : list V) (m : match_row) (o : list V) : Prop :=
    exists vals,
      o = x ++ vals ++ (if add_info then [of_dist (r_distance m); of_ext (r_rescaled m); of_bool (r_accepted m)] else []) /\
      (r_accepted m = true -> nth_error (trows aux) (r_index m) = Some vals) /\
      (r_accepted m = false -> vals = repeat null (length (tcols aux))).

  (** The rows [xs], [ms] and [os] are in relation, in order. *)
  Definition Rows3 (R : list V -> match_row -> list V -> Prop) (xs : list (list V)) (ms : list match_row) (os : list (list V)) : Prop :=
    length os = length xs /\ length ms = length xs /\
    forall i x m o, nth_error xs i = Some x -> nth_error ms i = Some m -> nth_error os i = Some o -> R x m o.

  (** The rows [ms] describe the matches of the rows [keys] in [aux_keys]: the nearest row, its
      distance, its rescaled distance, and whether the latter is at most [max_dist]. *)
  Definition MatchesAre (matching : @matcher P) (max_dist : ext) (main : list P) (ms : list match_row) : Prop :=
    Forall2 (RowMatched dist matching max_dist) main ms.

  Let transform_' := transform_ null isnull lib of_int of_dist of_ext of_bool vec_transform dist order.

  Definition names_of (draw : nat -> string) (token suffix : string) (X aux : table V) : list string :=
    pick_column_names draw (map (suffixed suffix) (tcols aux)) (tcols X ++ [left_key token]).

  Definition FreshNames (draw : nat -> string) (token suffix : string) (X aux : table V) : Prop :=
    ~ In (left_key token) (tcols X) /\ ~ In (right_key token) (tcols aux) /\
    Fresh draw (length (tcols aux) + 1) (map (suffixed suffix) (tcols aux ++ [right_key token]))
      (tcols X ++ [left_key token]).

  Lemma names_identity : forall draw token suffix (X aux : table V), WFTable aux ->
    (forall c, In c (tcols aux) -> untagged (suffixed suffix c) /\ ~ In (suffixed suffix c) (tcols X) /\
       suffixed suffix c <> left_key token) ->
    names_of draw token suffix X aux = map (suffixed suffix) (tcols aux).
  Proof.
    intros draw token suffix X aux [ND _] U. apply pick_identity.
    - intros s I. apply in_map_iff in I. destruct I as (c & <- & I). destruct (U c I) as (U1 & U2 & U3).
      split; [exact U1|]. intros J. apply in_app_or in J. destruct J as [J|[J|[]]]; [exact (U2 J)|]. symmetry in J. exact (U3 J).
    - clear U. induction (tcols aux) as [|c l IH]; [constructor|]. inversion ND as [|? ? N1 N2]; subst. simpl. constructor; [|apply IH; exact N2].
      intros I. apply in_map_iff in I. destruct I as (c' & E & I). apply N1. unfold suffixed in E.
      apply sapp_inj_r in E. subst. exact I.
  Qed.

  Lemma transform__spec : forall token draw f X out, Environment ->
    WFTable X -> WFTable (jf_aux f) -> m_aux (jf_matching f) <> [] ->
    length (m_aux (jf_matching f)) = length (trows (jf_aux f)) ->
    FreshNames draw token (jf_suffix f) X (jf_aux f) ->
    transform_' token draw f X = Ok out ->
    let aux := jf_aux f in
    let names := names_of draw token (jf_suffix f) X aux in
    exists keys main ms,
      Forall2 (fun r k => ValuesAt (tcols X) r (jf_main_key f) k) (trows X) keys /\
      vec_transform (jf_vectorizer f) keys = Ok main /\
      MatchesAre (jf_matching f) (jf_max_dist f) main ms /\
      length names = length (tcols aux) /\
      Rows3 (fun x m o =>
               (jf_add_match_info f = true ->
                ValueAt (tcols out) o "skrub_Joiner_match_accepted" (of_bool (r_accepted m))) /\
               forall c v, ValueAt (tcols X) x c v -> (jf_add_match_info f = true -> ~ In c match_info_columns) ->
                 ValueAt (tcols out) o c v) (trows X) ms (trows out) /\
      ((jf_add_match_info f = true -> forall c, In c match_info_columns -> ~ In c (tcols X) /\ ~ In c names) ->
       tcols out = tcols X ++ names ++ (if jf_add_match_info f then match_info_columns else []) /\
       NoDup (tcols out) /\
       Rows3 (RowJoined aux (jf_add_match_info f)) (trows X) ms (trows out)).
  Proof.
    intros token draw f X out (Inj & NN & _ & Ord & _ & VT) WX WA Ha La (Fl & Fr & F) E aux names.
    unfold transform_', transform_ in E. fold (left_key token) (right_key token) in E.
    apply bindI in E. destruct E as (keys & Ek & E). apply bindI in E. destruct E as (main & Em & E).
    apply bindI in E. destruct E as (ms & Es & E).
    destruct (match_ok dist order Ord _ _ _ _ Ha Es) as [Hm HF].
    apply mapM_Forall2 in Ek. pose proof (Forall2_len _ _ _ Ek) as Lk. pose proof (VT _ _ _ Em) as Lm.
    pose proof (Forall2_len _ _ _ HF) as Ls.
    exists keys, main, ms. split.
    { apply (fun Hh => Forall2_impl_in _ _ _ _ Hh Ek). intros r k _ _ Er. apply rk_spec; [exact (proj1 WX)|exact Er]. }
    split; [exact Em|]. split; [exact HF|].
    set (idx := map (fun m => if r_accepted m then Z.of_nat (r_index m) else (-1)%Z) ms) in *.
    assert (Ei : map (fun m => of_int (if r_accepted m then Z.of_nat (r_index m) else (-1)%Z)) ms = map of_int idx).
    { unfold idx. rewrite map_map. reflexivity. }
    rewrite Ei in E.
    destruct (index_join null isnull lib of_int Inj NN draw X aux idx
                (left_key token) (right_key token) (suffixed (jf_suffix f)) WX WA Fl Fr)
      as (left_ & right_ & join & E1 & E2 & E3 & C1 & C2 & C3 & C4 & C5).
    { unfold idx. rewrite map_length. lia. }
    { exact F. }
    fold aux in E. unfold suffixed in E3. rewrite E1 in E. cbn [bind] in E. rewrite E2 in E. cbn [bind] in E. rewrite E3 in E. cbn [bind] in E.
    set (join' := drop_columns join [left_key token]) in *.
    fold (names_of draw token (jf_suffix f) X aux) in C1, C3, C5. fold names in C1, C3, C5.
    clearbody join'. split; [exact C3|].
    assert (Base : Rows3 (RowJoined aux false) (trows X) ms (trows join')).
    { split; [exact C4|]. split; [lia|]. intros i x m o Ex Emi Eo.
      assert (Ez : nth_error idx i = Some (if r_accepted m then Z.of_nat (r_index m) else (-1)%Z)).
      { unfold idx. rewrite nth_error_map, Emi. reflexivity. }
      destruct (C5 i x _ Ex Ez) as (vals & Ev & Hv). exists vals. rewrite app_nil_r. split; [congruence|].
      destruct (r_accepted m) eqn:Ea.
      - split; [intros _|discriminate].
        assert (E0 : (Z.of_nat (r_index m) <? 0)%Z = false) by (apply Z.ltb_ge; lia). rewrite E0, Nat2Z.id in Hv.
        destruct (nth_error (trows aux) (r_index m)) as [a|] eqn:Ena; [congruence|]. exfalso.
        destruct (Forall2_in_r _ _ _ _ HF (nth_error_In _ _ Emi)) as (y & _ & (a & Eb & _) & _).
        apply nth_error_None in Ena. assert (r_index m < length (m_aux (jf_matching f))) by (apply nth_error_Some; congruence).
        unfold aux in Ena. lia.
      - split; [discriminate|intros _]. exact Hv. }
    assert (Wj : forall r, In r (trows join') -> length r = length (tcols join')).
    { intros r I. apply In_nth_error in I. destruct I as (i & Ei').
      destruct Base as (B1 & B2 & B3). assert (Li : i < length (trows join')) by (apply nth_error_Some; congruence).
      destruct (nth_error (trows X) i) as [x|] eqn:Ex; [|apply nth_error_None in Ex; lia].
      destruct (nth_error ms i) as [m|] eqn:Emi; [|apply nth_error_None in Emi; lia].
      destruct (B3 i x m r Ex Emi Ei') as (vals & -> & V1 & V2). rewrite app_nil_r, C1, !app_length.
      rewrite (proj2 WX x (nth_error_In _ _ Ex)). f_equal. destruct (r_accepted m).
      - rewrite (proj2 WA vals (nth_error_In _ _ (V1 eq_refl))). symmetry. exact C3.
      - rewrite (V2 eq_refl), repeat_length. symmetry. exact C3. }
    assert (Keep : forall x m o, In x (trows X) -> RowJoined aux false x m o -> forall c v, ValueAt (tcols X) x c v -> ValueAt (tcols join') o c v).
    { intros x m o Ix (vals & -> & _) c v (k & K1 & K2). exists k. rewrite C1.
      assert (Lk1 : k < length (tcols X)) by (apply nth_error_Some; congruence).
      rewrite nth_error_app1 by exact Lk1. split; [exact K1|].
      rewrite nth_error_app1; [exact K2|]. rewrite (proj2 WX x Ix). exact Lk1. }
    destruct (jf_add_match_info f).
    - unfold with_columns in E. cbn [foldM] in E.
      apply bindI in E. destruct E as (t1 & T1 & E). apply bindI in E. destruct E as (t2 & T2 & E).
      apply bindI in E. destruct E as (t3 & T3 & E). injection E as <-.
      destruct (with_column_inv _ _ _ _ Wj T1) as (A1 & A2 & A3 & A4 & A5).
      destruct (with_column_inv _ _ _ _ A3 T2) as (B1 & B2 & B3 & B4 & B5).
      destruct (with_column_inv _ _ _ _ B3 T3) as (D1 & D2 & D3 & D4 & D5).
      destruct Base as (Ba & Bb & Bc).
      split.
      + split; [lia|]. split; [lia|]. intros i x m o Ex Emi Eo.
        assert (Li : i < length (trows join')) by (rewrite Ba; apply nth_error_Some; congruence).
        destruct (nth_error (trows join') i) as [r0|] eqn:R0; [|apply nth_error_None in R0; lia].
        destruct (A5 i r0 R0) as (r1 & v1 & R1 & _ & _ & K1).
        destruct (B5 i r1 R1) as (r2 & v2 & R2 & _ & _ & K2).
        destruct (D5 i r2 R2) as (r3 & v3 & R3 & W3 & V3 & K3).
        rewrite Eo in R3. injection R3 as <-. rewrite nth_error_map, Emi in W3. injection W3 as <-. split; [intros _; exact V3|].
        intros c v Hc N. specialize (N eq_refl).
        assert (Nc : forall s, In s match_info_columns -> c <> s) by (intros s Is ->; exact (N Is)).
        apply K3; [apply Nc; simpl; tauto|]. apply K2; [apply Nc; simpl; tauto|]. apply K1; [apply Nc; simpl; tauto|].
        apply (Keep x m r0); [eapply nth_error_In; exact Ex|eapply Bc; eassumption|exact Hc].
      + intros HI. specialize (HI eq_refl).
        assert (I1 : ~ In "skrub_Joiner_distance" (tcols join')).
        { rewrite C1. intros I. apply in_app_or in I. destruct (HI "skrub_Joiner_distance"); [simpl; tauto|]. tauto. }
        rewrite with_column_new in T1; [|exact Wj|exact I1|rewrite A2; reflexivity]. injection T1 as <-. cbn [tcols trows] in *.
        assert (I2 : ~ In "skrub_Joiner_rescaled_distance" (tcols join' ++ ["skrub_Joiner_distance"])).
        { rewrite C1. intros I. apply in_app_or in I. destruct I as [I|[I|[]]]; [|discriminate I]. apply in_app_or in I.
          destruct (HI "skrub_Joiner_rescaled_distance"); [simpl; tauto|]. tauto. }
        rewrite with_column_new in T2; [|exact A3|exact I2|exact B2]. injection T2 as <-. cbn [tcols trows] in *.
        assert (I3 : ~ In "skrub_Joiner_match_accepted" ((tcols join' ++ ["skrub_Joiner_distance"]) ++ ["skrub_Joiner_rescaled_distance"])).
        { rewrite C1. intros I. apply in_app_or in I. destruct I as [I|[I|[]]]; [|discriminate I].
          apply in_app_or in I. destruct I as [I|[I|[]]]; [|discriminate I]. apply in_app_or in I.
          destruct (HI "skrub_Joiner_match_accepted"); [simpl; tauto|]. tauto. }
        rewrite with_column_new in T3; [|exact B3|exact I3|exact D2]. injection T3 as <-. cbn [tcols trows] in *.
        split; [rewrite C1, <- !app_assoc; reflexivity|].
        split; [apply NoDup_snoc; [apply NoDup_snoc; [apply NoDup_snoc; [exact C2|exact I1]|exact I2]|exact I3]|].
        split; [lia|]. split; [lia|]. intros i x m o Ex Emi Eo.
        assert (Li : i < length (trows join')) by (rewrite Ba; apply nth_error_Some; congruence).
        destruct (nth_error (trows join') i) as [r0|] eqn:R0; [|apply nth_error_None in R0; lia].
        destruct (Bc i x m r0 Ex Emi R0) as (vals & E0 & V1 & V2). exists vals. split; [|split; assumption].
        erewrite add_cells_nth in Eo.
        2:{ apply add_cells_nth; [apply add_cells_nth; [exact R0|]|]; rewrite nth_error_map, Emi; reflexivity. }
        2:{ rewrite nth_error_map, Emi. reflexivity. }
        injection Eo as <-. rewrite E0, app_nil_r, <- !app_assoc. reflexivity.
    - injection E as <-. split.
      + destruct Base as (Ba & Bb & Bc). split; [exact Ba|]. split; [exact Bb|]. intros i x m o Ex Emi Eo.
        split; [discriminate|]. intros c v Hc _. apply (Keep x m o); [eapply nth_error_In; exact Ex|eapply Bc; eassumption|exact Hc].
      + intros _. rewrite app_nil_r. split; [exact C1|]. split; [exact C2|]. exact Base.
  Qed.

  (** The result of the join of [X] with [aux], except for its column names. *)
  Definition JoinResult (mk : list string) (vs : VS) (m : @matcher P) (max_dist : ext) (aux : table V) (X : table V)
    (rows : list match_row -> Prop) : Prop :=
    exists keys main ms,
      Forall2 (fun r k => ValuesAt (tcols X) r mk k) (trows X) keys /\
      vec_transform vs keys = Ok main /\ MatchesAre m max_dist main ms /\ rows ms.

  (** The key columns, and the matcher fitted on those of [aux]. *)
  Definition KeysFor (p : joiner_params (V := V)) (mk ak : list string) : Prop :=
    (j_key p <> KNone /\ j_main_key p = KNone /\ j_aux_key p = KNone /\
     mk = atleast_1d_or_none (j_key p) /\ ak = atleast_1d_or_none (j_key p)) \/
    (j_key p = KNone /\ j_main_key p <> KNone /\ j_aux_key p <> KNone /\ length mk = length ak /\
     mk = atleast_1d_or_none (j_main_key p) /\ ak = atleast_1d_or_none (j_aux_key p)).
  Definition StrategyFor (p : joiner_params (V := V)) (s : strategy) : Prop :=
    (j_ref_dist p = "random_pairs" /\ s = RandomPairs 25 500) \/
    (j_ref_dist p = "second_neighbor" /\ s = OtherNeighbor 1) \/
    (j_ref_dist p = "self_join_neighbor" /\ s = SelfJoinNeighbor 1) \/
    (j_ref_dist p = "no_rescaling" /\ s = NoRescaling).
  Definition MaxDist (p : joiner_params (V := V)) (d : ext) : Prop :=
    (j_max_dist p = MaxNone /\ d = Inf) \/ (j_max_dist p = MaxStr "inf" /\ d = Inf) \/ j_max_dist p = MaxNum d.
  Definition FittedOn (p : joiner_params) (ak : list string) (vs : VS) (m : @matcher P) : Prop :=
    exists s aux_keys aux_vectors,
      StrategyFor p s /\
      Forall2 (fun r k => ValuesAt (tcols (j_aux_table p)) r ak k) (trows (j_aux_table p)) aux_keys /\
      vec_fit (negb (eqb_of (j_ref_dist p) "no_rescaling")) aux_keys = Ok (vs, aux_vectors) /\
      fit dist s draws aux_vectors = Ok (Some m).

  Let jfit := joiner_fit_transform null isnull lib of_int of_dist of_ext of_bool vec_fit vec_transform dist order draws.
  Let jtransform := joiner_transform null isnull lib of_int of_dist of_ext of_bool vec_transform dist order.

  Lemma matchers_spec : forall p s, matchers (j_ref_dist p) = Some s <-> StrategyFor p s.
  Proof.
    intros p s. unfold matchers, StrategyFor.
    destruct (eqd (j_ref_dist p) "random_pairs") as [E1|N1];
      [rewrite E1; intuition congruence|].
    destruct (eqd (j_ref_dist p) "second_neighbor") as [E2|N2];
      [rewrite E2; intuition congruence|].
    destruct (eqd (j_ref_dist p) "self_join_neighbor") as [E3|N3];
      [rewrite E3; intuition congruence|].
    destruct (eqd (j_ref_dist p) "no_rescaling") as [E4|N4];
      [rewrite E4; intuition congruence|].
    intuition congruence.
  Qed.

  Lemma max_dist_spec : forall p d, check_max_dist (j_max_dist p) = Ok d <-> MaxDist p d.
  Proof.
    intros p d. unfold check_max_dist, MaxDist. destruct (j_max_dist p) as [|s|m].
    - intuition congruence.
    - destruct (eqd s "inf") as [->|N]; [intuition congruence|]. intuition congruence.
    - intuition congruence.
  Qed.

  Lemma jfit_inv : forall token draw p X f out, WFTable (j_aux_table p) -> jfit token draw p X = Ok (f, out) ->
    exists mk ak max_dist vs m,
      KeysFor p mk ak /\ (forall c, In c mk -> In c (tcols X)) /\ (forall c, In c ak -> In c (tcols (j_aux_table p))) /\
      MaxDist p max_dist /\ FittedOn p ak vs m /\
      f = mk_joiner_fitted (tcols X) (j_aux_table p) mk ak (j_suffix p) max_dist (j_add_match_info p) vs m (tcols out) /\
      transform_' token draw f X = Ok out.
  Proof.
    intros token draw p X f out WA E. unfold jfit, joiner_fit_transform in E.
    apply bindI in E. destruct E as (s & Es & E). apply bindI in E. destruct E as (d & Ed & E).
    apply bindI in E. destruct E as ([mk ak] & Ek & E). apply bindI in E. destruct E as ([] & Em1 & E).
    apply bindI in E. destruct E as ([] & Em2 & E). apply bindI in E. destruct E as (keys & Ekr & E).
    apply bindI in E. destruct E as ([vs vectors] & Ev & E). apply bindI in E. destruct E as ([m|] & Ef & E); [|discriminate].
    cbn [bind] in E. apply bindI in E. destruct E as (out' & Et & E). injection E as <- <-.
    exists mk, ak, d, vs, m. split; [apply check_key_spec in Ek; exact Ek|].
    split; [exact (proj1 (proj1 (check_missing_spec _ _)) Em1)|].
    split; [exact (proj1 (proj1 (check_missing_spec _ _)) Em2)|].
    split; [apply max_dist_spec; exact Ed|]. split.
    - exists s, keys, vectors. split.
      + apply matchers_spec. destruct (matchers (j_ref_dist p)); [congruence|discriminate].
      + split; [|split; assumption]. apply mapM_Forall2 in Ekr.
        apply (fun Hh => Forall2_impl_in _ _ _ _ Hh Ekr). intros r k _ _ Er. apply rk_spec; [exact (proj1 WA)|exact Er].
    - split; [reflexivity|]. exact Et.
  Qed.

  Lemma FittedOn_aux : forall p ak vs m, Environment -> FittedOn p ak vs m ->
    m_aux m <> [] /\ length (m_aux m) = length (trows (j_aux_table p)).
  Proof.
    intros p ak vs m (_ & _ & _ & _ & VF & _) (s & keys & vectors & _ & HK & Ev & Ef).
    destruct (L_matching.fit_spec dist s draws vectors m Ef) as (-> & N & _). split; [exact N|].
    rewrite (VF _ _ _ _ Ev). symmetry. apply (Forall2_len _ _ _ HK).
  Qed.

  Definition InfoFree (p : joiner_params (V := V)) (X : table V) (names : list string) : Prop :=
    j_add_match_info p = true -> forall c, In c match_info_columns -> ~ In c (tcols X) /\ ~ In c names.

  Theorem jfit_spec : forall token draw p X f out, Environment -> WFTable X -> WFTable (j_aux_table p) ->
    FreshNames draw token (j_suffix p) X (j_aux_table p) ->
    jfit token draw p X = Ok (f, out) ->
    let aux := j_aux_table p in
    let names := names_of draw token (j_suffix p) X aux in
    exists mk ak max_dist vs m,
      KeysFor p mk ak /\ (forall c, In c mk -> In c (tcols X)) /\ (forall c, In c ak -> In c (tcols aux)) /\
      MaxDist p max_dist /\ FittedOn p ak vs m /\ length names = length (tcols aux) /\
      JoinResult mk vs m max_dist aux X (fun ms =>
        (* in any case *)
        Rows3 (fun x m o => forall c v, ValueAt (tcols X) x c v -> (j_add_match_info p = true -> ~ In c match_info_columns) ->
                 ValueAt (tcols out) o c v) (trows X) ms (trows out) /\
        (InfoFree p X names ->
         tcols out = tcols X ++ names ++ (if j_add_match_info p then match_info_columns else []) /\
         NoDup (tcols out) /\ Rows3 (RowJoined aux (j_add_match_info p)) (trows X) ms (trows out))).
  Proof.
    intros token draw p X f out HE WX WA F E aux names.
    destruct (jfit_inv token draw p X f out WA E) as (mk & ak & d & vs & m & H1 & H2 & H3 & H4 & H5 & Ef & Et).
    destruct (FittedOn_aux p ak vs m HE H5) as [A1 A2].
    exists mk, ak, d, vs, m. do 5 (split; [assumption|]).
    destruct (transform__spec token draw f X out HE WX) as (keys & main & ms & T1 & T2 & T3 & T4 & T5 & T6);
      try (subst f; assumption).
    subst f. cbn [jf_aux jf_suffix jf_main_key jf_vectorizer jf_matching jf_max_dist jf_add_match_info] in *.
    split; [exact T4|]. exists keys, main, ms. split; [exact T1|]. split; [exact T2|]. split; [exact T3|].
    split; [|exact T6]. destruct T5 as (R1 & R2 & R3). split; [exact R1|]. split; [exact R2|].
    intros i x m' o Ex Em Eo. exact (proj2 (R3 i x m' o Ex Em Eo)).
  Qed.

  Theorem jtransform_spec : forall token draw token' draw' p X X' f out out', Environment ->
    WFTable X -> WFTable (j_aux_table p) -> WFTable X' ->
    FreshNames draw token (j_suffix p) X (j_aux_table p) ->
    FreshNames draw' token' (j_suffix p) X' (j_aux_table p) ->
    InfoFree p X (names_of draw token (j_suffix p) X (j_aux_table p)) ->
    InfoFree p X' (names_of draw' token' (j_suffix p) X' (j_aux_table p)) ->
    jfit token draw p X = Ok (f, out) ->
    jtransform token' draw' f X' = Ok out' ->
    tcols X' = tcols X /\ tcols out' = tcols out /\
    exists mk ak max_dist vs m,
      KeysFor p mk ak /\ MaxDist p max_dist /\ FittedOn p ak vs m /\
      JoinResult mk vs m max_dist (j_aux_table p) X' (fun ms =>
        Rows3 (RowJoined (j_aux_table p) (j_add_match_info p)) (trows X') ms (trows out')).
  Proof.
    intros token draw token' draw' p X X' f out out' HE WX WA WX' F F' I1 I2 E E'.
    destruct (jfit_inv token draw p X f out WA E) as (mk & ak & d & vs & m & H1 & H2 & H3 & H4 & H5 & Ef & Et).
    destruct (FittedOn_aux p ak vs m HE H5) as [A1 A2].
    unfold jtransform, joiner_transform in E'.
    assert (Ec : tcols X' = tcols X).
    { destruct (eqb_of (tcols X') (jf_features_in f)) eqn:Ee; [|discriminate]. pose proof (proj1 (eqb_of_true _ _) Ee) as Ee2. subst f. exact Ee2. }
    destruct (eqb_of (tcols X') (jf_features_in f)); [|discriminate]. cbn [negb] in E'.
    apply bindI in E'. destruct E' as (r & Er & E').
    destruct (transform__spec token' draw' f X' r HE WX') as (keys & main & ms & T1 & T2 & T3 & T4 & T5 & T6);
      try (subst f; assumption).
    unfold rename_all in E'. destruct (length (jf_outputs f) =? length (tcols r)); [|discriminate]. injection E' as <-.
    cbn [tcols trows]. split; [exact Ec|]. split; [subst f; reflexivity|].
    subst f. cbn [jf_aux jf_suffix jf_main_key jf_vectorizer jf_matching jf_max_dist jf_add_match_info] in *.
    exists mk, ak, d, vs, m. do 3 (split; [assumption|]). exists keys, main, ms. do 3 (split; [assumption|]).
    exact (proj2 (proj2 (T6 I2))).
  Qed.

  (** A transform that fails: what may be wrong. *)
  Theorem jtransform_renames : forall token draw token' draw' p X X' f out r, Environment ->
    WFTable X -> WFTable (j_aux_table p) -> WFTable X' ->
    FreshNames draw token (j_suffix p) X (j_aux_table p) ->
    FreshNames draw' token' (j_suffix p) X' (j_aux_table p) ->
    InfoFree p X (names_of draw token (j_suffix p) X (j_aux_table p)) ->
    InfoFree p X' (names_of draw' token' (j_suffix p) X' (j_aux_table p)) ->
    jfit token draw p X = Ok (f, out) -> tcols X' = tcols X ->
    transform_' token' draw' f X' = Ok r -> exists out', jtransform token' draw' f X' = Ok out'.
  Proof.
    intros token draw token' draw' p X X' f out r HE WX WA WX' F F' I1 I2 E Ec Er.
    destruct (jfit_inv token draw p X f out WA E) as (mk & ak & d & vs & m & H1 & H2 & H3 & H4 & H5 & Ef & Et).
    destruct (FittedOn_aux p ak vs m HE H5) as [A1 A2].
    destruct (transform__spec token' draw' f X' r HE WX') as (keys & main & ms & T1 & T2 & T3 & T4 & T5 & T6);
      try (subst f; assumption).
    destruct (transform__spec token draw f X out HE WX) as (keys0 & main0 & ms0 & _ & _ & _ & S4 & _ & S6);
      try (subst f; assumption).
    unfold jtransform, joiner_transform. unfold transform_' in Er. rewrite Er.
    subst f. cbn [jf_aux jf_suffix jf_main_key jf_vectorizer jf_matching jf_max_dist jf_add_match_info jf_features_in jf_outputs] in *.
    rewrite Ec, eqb_of_refl. cbn [negb bind]. unfold rename_all.
    rewrite (proj1 (T6 I2)), (proj1 (S6 I1)), !app_length, T4, S4, Ec, Nat.eqb_refl. eauto.
  Qed.

  (** ** fuzzy_join *)
  Let fjoin := fuzzy_join null isnull lib of_int of_dist of_ext of_bool is_true vec_fit vec_transform dist order draws.

  Theorem fjoin_spec : forall token draw left_ right_ left_on right_on on suffix max_dist ref_dist add_info drop_unmatched out,
    Environment -> WFTable left_ -> WFTable right_ -> FreshNames draw token suffix left_ right_ ->
    let names := names_of draw token suffix left_ right_ in
    (forall c, In c match_info_columns -> ~ In c (tcols left_) /\ ~ In c names) ->
    fjoin token draw left_ right_ left_on right_on on suffix max_dist ref_dist add_info drop_unmatched = Ok out ->
    let p := mk_joiner_params right_ on left_on right_on suffix max_dist ref_dist true in
    exists mk ak d vs m,
      KeysFor p mk ak /\ MaxDist p d /\ FittedOn p ak vs m /\ length names = length (tcols right_) /\
      tcols out = tcols left_ ++ names ++ (if add_info then match_info_columns else []) /\ NoDup (tcols out) /\
      JoinResult mk vs m d right_ left_ (fun ms => exists os,
        Rows3 (RowJoined right_ add_info) (trows left_) ms os /\
        trows out = if drop_unmatched then map snd (filter (fun mo => r_accepted (fst mo)) (combine ms os)) else os).
  Proof.
    intros token draw left_ right_ left_on right_on on suffix max_dist ref_dist add_info drop_unmatched out
      HE WX WA F names HI E p.
    unfold fjoin, fuzzy_join in E. apply bindI in E. destruct E as ([lk rk] & _ & E).
    apply bindI in E. destruct E as (_ & _ & E). apply bindI in E. destruct E as (_ & _ & E).
    apply bindI in E. destruct E as ([f join] & Ej & E). fold p in Ej.
    destruct (jfit_inv token draw p left_ f join WA Ej) as (mk & ak & d & vs & m & H1 & H2 & H3 & H4 & H5 & Ef & Et).
    destruct (FittedOn_aux p ak vs m HE H5) as [A1 A2].
    exists mk, ak, d, vs, m. do 3 (split; [assumption|]).
    destruct (transform__spec token draw f left_ join HE WX) as (keys & main & ms & T1 & T2 & T3 & T4 & T5 & T6);
      try (subst f; assumption).
    subst f. cbn [p j_aux_table j_suffix j_add_match_info jf_aux jf_suffix jf_main_key jf_vectorizer jf_matching jf_max_dist jf_add_match_info] in *.
    fold names in T4, T6. destruct T6 as (C1 & C2 & C3); [intros _; exact HI|].
    split; [exact T4|].
    apply bindI in E. destruct E as (join2 & E2 & E).
    (* the rows kept *)
    assert (Acc : tcols join2 = tcols join /\
       trows join2 = if drop_unmatched then map snd (filter (fun mo => r_accepted (fst mo)) (combine ms (trows join))) else trows join).
    { destruct drop_unmatched; [|injection E2 as <-; split; reflexivity].
      apply bindI in E2. destruct E2 as (acc & Ea & E2). injection E2 as <-. cbn [tcols trows]. split; [reflexivity|].
      apply mapM_Forall2 in Ea.
      assert (HA : forall i o m' ra, nth_error (trows join) i = Some o -> nth_error ms i = Some m' -> nth_error acc i = Some ra ->
                ra = (o, r_accepted m')).
      { intros i o m' ra Eo Em Era. destruct T5 as (R1 & R2 & R3).
        assert (Li : i < length (trows join)) by (apply nth_error_Some; congruence).
        destruct (nth_error (trows left_) i) as [x|] eqn:Ex; [|apply nth_error_None in Ex; lia].
        destruct (R3 i x m' o Ex Em Eo) as [HV _]. specialize (HV eq_refl). apply (cell_spec _ _ _ _ C2) in HV.
        assert (HF : forall (A B : Type) (R : A -> B -> Prop) l l', Forall2 R l l' ->
                forall i a b, nth_error l i = Some a -> nth_error l' i = Some b -> R a b).
        { intros A B R l l' FF. induction FF as [|a b l l' Hab FF IH]; intros j a' b' Eaa Ebb; [destruct j; discriminate|].
          destruct j as [|j]; simpl in *; [congruence|]. eapply IH; eassumption. }
        pose proof (HF _ _ _ _ _ Ea i o ra Eo Era) as HR. cbn beta in HR. rewrite HV in HR. injection HR as <-.
        destruct HE as (_ & _ & IB & _). rewrite IB. reflexivity. }
      assert (L1 : length acc = length (trows join)) by (symmetry; apply (Forall2_len _ _ _ Ea)).
      assert (L2 : length ms = length (trows join)) by (destruct C3 as (Q1 & Q2 & _); lia).
      clear -HA L1 L2. revert ms acc HA L1 L2. induction (trows join) as [|o os IH]; intros ms acc HA L1 L2;
        destruct ms as [|m' ms]; destruct acc as [|ra acc]; try discriminate; [reflexivity|].
      rewrite (HA 0 o m' ra eq_refl eq_refl eq_refl). cbn [filter combine fst snd].
      assert (IH' : map fst (filter snd acc) = map snd (filter (fun mo => r_accepted (fst mo)) (combine ms os))).
      { apply IH; [|simpl in L1; congruence|simpl in L2; congruence]. intros i o' m'' ra' Eo Em Era. exact (HA (S i) o' m'' ra' Eo Em Era). }
      destruct (r_accepted m'); cbn [map fst snd]; [f_equal|]; exact IH'. }
    destruct Acc as [Ac1 Ac2].
    destruct add_info.
    - injection E as <-. rewrite Ac1. split; [exact C1|]. split; [exact C2|].
      exists keys, main, ms. do 3 (split; [assumption|]). exists (trows join). split; [exact C3|exact Ac2].
    - injection E as <-. cbn [drop_columns tcols trows]. rewrite Ac1, Ac2, C1.
      assert (Nd : forall c, In c (tcols left_ ++ names) -> ~ In c match_info_columns).
      { intros c I J. destruct (HI c J) as [N1 N2]. apply in_app_or in I. tauto. }
      assert (Dr : forall x m' o, In x (trows left_) -> RowJoined right_ true x m' o ->
                exists o', drop_cells ((tcols left_ ++ names) ++ match_info_columns) match_info_columns o = o' /\ RowJoined right_ false x m' o').
      { intros x m' o Ix (vals & -> & V1 & V2). exists (x ++ vals ++ []). split; [|exists vals; auto].
        rewrite app_assoc, drop_cells_keep; [|rewrite !app_length, (proj2 WX x Ix), T4|exact Nd].
        - replace (drop_cells match_info_columns match_info_columns _) with (@nil V) by reflexivity.
          rewrite <- app_assoc. reflexivity.
        - f_equal. destruct (r_accepted m').
          + apply (proj2 WA). eapply nth_error_In. exact (V1 eq_refl).
          + rewrite (V2 eq_refl), repeat_length. reflexivity. }
      assert (FX : forall l, (forall c, In c l -> ~ In c match_info_columns) -> filter (fun c => negb (mem c match_info_columns)) l = l).
      { induction l as [|c l IH]; intros N; [reflexivity|]. cbn [filter]. rewrite (proj2 (mem_false c match_info_columns)) by (apply N; left; reflexivity).
        cbn [negb]. f_equal. apply IH. intros c' I. apply N. right. exact I. }
      rewrite app_assoc, filter_app, (FX _ Nd). replace (filter _ match_info_columns) with (@nil string) by reflexivity.
      rewrite !app_nil_r. split; [reflexivity|]. split.
      { rewrite C1, app_assoc in C2. apply NoDup_app_l in C2. exact C2. }
      exists keys, main, ms. do 3 (split; [assumption|]).
      exists (map (drop_cells ((tcols left_ ++ names) ++ match_info_columns) match_info_columns) (trows join)). split.
      + destruct C3 as (Q1 & Q2 & Q3). split; [rewrite map_length; exact Q1|]. split; [exact Q2|].
        intros i x m' o Ex Em Eo. rewrite nth_error_map in Eo.
        destruct (nth_error (trows join) i) as [o0|] eqn:Eo0; [|discriminate]. injection Eo as <-.
        destruct (Dr x m' o0) as (o' & -> & HR); [eapply nth_error_In; exact Ex|eapply Q3; eassumption|]. exact HR.
      + destruct drop_unmatched; [|reflexivity].
        clear. revert ms. induction (trows join) as [|o os IH]; intros ms; destruct ms as [|m' ms]; try reflexivity.
        cbn [combine map filter fst]. destruct (r_accepted m'); cbn [map snd]; [f_equal|]; apply IH.
  Qed.
End JoinerSpec.
