(** Rows and indexes of pandas dataframes: lemmas. *)
From Verif Require Import Base L_dict M_index.
From Coq Require Import Lia.
Open Scope list_scope.
Open Scope nat_scope.
Set Default Proof Using "Type".

(** * Specification *)
(** a table whose columns have one value per row *)
Definition rectangular {L K W : Type} (f : frame L K W) : Prop := forall q, In q (f_cols f) -> length (snd q) = length (f_idx f).
(** values followed by nulls, [n] in all *)
Definition padded {W : Type} (n : nat) (v : list (option W)) : list (option W) := v ++ repeat None (n - length v).
Definition padded_cols {K W : Type} (n : nat) (l : list (K * list (option W))) : list (K * list (option W)) := map (fun q => (fst q, padded n (snd q))) l.
(** the columns an input column contributes to *)
Definition contributed {L K V : Type} (keep : bool) (outputs : K -> option (list (K * series L V))) (c : K * list (option V)) : list (K * list (option V)) :=
  match outputs (fst c) with
  | None => [c]
  | Some out => (if keep then [c] else []) ++ map (fun o => (fst o, s_vals (snd o))) out
  end.
(** values where the mask is not null *)
Definition masked {D V : Type} (d : list (option D)) (v : list (option V)) : list (option V) :=
  map (fun r => match fst r with Some _ => snd r | None => None end) (combine d v).
(** the values of a right table for each row on the left *)
Definition fetched {V : Type} (n : nat) (row : nat -> option nat) (v : list (option V)) : list (option V) :=
  map (fun i => match row i with Some j => nth j v None | None => None end) (seq 0 n).

Lemma padded_full : forall W n (v : list (option W)), length v = n -> padded n v = v.
Proof. intros W n v E. unfold padded. rewrite E, Nat.sub_diag. apply app_nil_r. Qed.
Lemma padded_length : forall W n (v : list (option W)), length v <= n -> length (padded n v) = n.
Proof. intros W n v E. unfold padded. rewrite app_length, repeat_length. lia. Qed.
Lemma padded_cols_full : forall K W n (l : list (K * list (option W))), (forall q, In q l -> length (snd q) = n) -> padded_cols n l = l.
Proof.
  intros K W n l H. unfold padded_cols. rewrite <- (map_id l) at 2. apply map_ext_in. intros [k v] I. simpl. rewrite padded_full; [reflexivity|exact (H _ I)].
Qed.
Lemma mapM_ext : forall {A B} (f g : A -> res B) l, (forall x, In x l -> f x = g x) -> mapM f l = mapM g l.
Proof.
  intros A B f g l. induction l as [|x l IH]; intros H; [reflexivity|]. simpl. rewrite (H x (or_introl eq_refl)). rewrite IH; [reflexivity|]. intros y I. apply H. right. exact I.
Qed.
Lemma mapM_pure : forall {A B} (f : A -> B) l, mapM (fun x => Ok (f x)) l = Ok (map f l).
Proof. intros A B f l. induction l as [|x l IH]; [reflexivity|]. simpl. rewrite IH. reflexivity. Qed.
Lemma mapM_map : forall {A B C} (g : A -> B) (f : B -> res C) l, mapM f (map g l) = mapM (fun x => f (g x)) l.
Proof. intros A B C g f l. induction l as [|x l IH]; [reflexivity|]. simpl. rewrite IH. reflexivity. Qed.
Lemma flat_map_map : forall {A B C} (g : A -> B) (f : B -> list C) l, flat_map f (map g l) = flat_map (fun x => f (g x)) l.
Proof. intros A B C g f l. induction l as [|x l IH]; [reflexivity|]. simpl. rewrite IH. reflexivity. Qed.
Lemma flat_map_single : forall {A B} (g : A -> B) l, flat_map (fun x => [g x]) l = map g l.
Proof. intros A B g l. induction l as [|x l IH]; [reflexivity|]. simpl. rewrite IH. reflexivity. Qed.
Lemma flat_map_nil : forall {A B} (l : list A), flat_map (fun _ => @nil B) l = [].
Proof. intros A B l. induction l as [|x l IH]; [reflexivity|exact IH]. Qed.
Lemma map_flat_map : forall {A B C} (g : B -> C) (f : A -> list B) l, map g (flat_map f l) = flat_map (fun x => map g (f x)) l.
Proof. intros A B C g f l. induction l as [|x l IH]; [reflexivity|]. simpl. rewrite map_app, IH. reflexivity. Qed.

Section Dicts.
  Context {K W : Type} {EK : EqD K}.
  Lemma fold_dset_distinct : forall {A} (g : A -> W) (d : list (K * A)) (acc : list (K * W)),
    NoDup (map fst acc ++ map fst d) ->
    fold_left (fun acc q => dset (fst q) (g (snd q)) acc) d acc = acc ++ map (fun q => (fst q, g (snd q))) d.
  Proof.
    intros A g d. induction d as [|[k a] d IH]; intros acc ND; [simpl; symmetry; apply app_nil_r|].
    simpl. assert (N : ~ In k (map fst acc)).
    { simpl in ND. apply NoDup_remove_2 in ND. intros I. apply ND. apply in_or_app. left. exact I. }
    assert (E : dset k (g a) acc = acc ++ [(k, g a)]).
    { clear -N. induction acc as [|[k' w] acc IH]; [reflexivity|]. simpl in *. destruct (eqd k k') as [->|_]; [exfalso; tauto|]. rewrite IH by tauto. reflexivity. }
    rewrite E, IH.
    - rewrite <- app_assoc. reflexivity.
    - rewrite map_app, <- app_assoc. simpl. exact ND.
  Qed.
End Dicts.

Section Index.
  Context {L K V : Type} {EL : EqD L} {EK : EqD K}.
  Notation values := (list (option V)).
  Variable pos : nat -> L.
  Variable union : list (list L) -> list L.
  Notation range := (range pos).

  Lemma range_length : forall n, length (range n) = n.
  Proof. intros n. unfold M_index.range. rewrite map_length, seq_length. reflexivity. Qed.
  Lemma range_eq : forall n m, range n = range m <-> n = m.
  Proof. intros n m. split; [|intros ->; reflexivity]. intros E. apply (f_equal (@length L)) in E. rewrite !range_length in E. exact E. Qed.

  Section Labels.
  Hypothesis pos_inj : forall i j, pos i = pos j -> i = j.
  Hypothesis union_ranges : forall ns, union (map range ns) = range (list_max ns).

  Lemma range_no_dup : forall n, has_dup (range n) = false.
  Proof using pos_inj.
    intros n. unfold M_index.range. generalize 0 as a. induction n as [|n IH]; intros a; [reflexivity|]. simpl.
    rewrite IH, orb_false_r. apply mem_false. intros I. apply in_map_iff in I. destruct I as [j [E I]]. apply pos_inj in E. apply in_seq in I. lia.
  Qed.
  Lemma look_range : forall {W} (v : list (option W)) a i, a <= i -> look (pos i) (map pos (seq a (length v))) v = nth (i - a) v None.
  Proof using pos_inj.
    intros W v. induction v as [|x v IH]; intros a i LE; [simpl; destruct (i - a); reflexivity|].
    simpl. destruct (eqb_of (pos i) (pos a)) eqn:E.
    - apply eqb_of_eq in E. apply pos_inj in E. subst. rewrite Nat.sub_diag. reflexivity.
    - apply (proj1 (eqb_of_false _ _)) in E. assert (i <> a) by congruence. rewrite IH by lia.
      replace (i - a) with (S (i - S a)) by lia. reflexivity.
  Qed.
  Lemma reindex_range : forall {W} (v : list (option W)) n, length v <= n -> reindex (range n) (Series (range (length v)) v) = Ok (padded n v).
  Proof using pos_inj.
    intros W v n LE. unfold reindex. simpl. destruct (eqb_of (range (length v)) (range n)) eqn:E.
    - apply eqb_of_eq, range_eq in E. rewrite padded_full by exact E. reflexivity.
    - rewrite range_no_dup. f_equal. unfold M_index.range at 2. rewrite map_map. clear E.
      rewrite (map_ext_in _ (fun i => nth i v None)).
      2:{ intros i I. unfold M_index.range. rewrite look_range by lia. rewrite Nat.sub_0_r. reflexivity. }
      unfold padded. replace n with (length v + (n - length v)) at 1 by lia. rewrite seq_app, map_app. f_equal.
      + clear LE. assert (G : forall a (u : list (option W)), map (fun i => nth (i - a) u None) (seq a (length u)) = u).
        { intros a u. revert a. induction u as [|x u IH]; intros a; [reflexivity|]. simpl. rewrite Nat.sub_diag. f_equal.
          rewrite <- (IH (S a)) at 2. apply map_ext_in. intros i I. apply in_seq in I. replace (i - a) with (S (i - S a)) by lia. reflexivity. }
        transitivity (map (fun i => nth (i - 0) v None) (seq 0 (length v))); [|exact (G 0 v)]. apply map_ext. intros i. rewrite Nat.sub_0_r. reflexivity.
      + simpl. generalize (n - length v) as k. intros k. assert (G : forall a, length v <= a -> map (fun i => nth i v None) (seq a k) = repeat None k).
        { induction k as [|k IH]; intros a LE'; [reflexivity|]. simpl. rewrite nth_overflow by exact LE'. f_equal. apply IH. lia. }
        apply G. lia.
  Qed.
  Lemma joined_ranges : forall n ns, joined union (map range (n :: ns)) = range (list_max (n :: ns)).
  Proof using union_ranges.
    intros n ns. unfold joined. cbn [map]. match goal with |- (if ?b then _ else _) = _ => destruct b eqn:E end.
    - apply range_eq. rewrite forallb_forall in E. assert (A : forall m, In m ns -> m = n).
      { intros m I. specialize (E (range m) (in_map _ _ _ I)). apply eqb_of_eq, range_eq in E. symmetry. exact E. }
      clear -A. induction ns as [|m ns IH]; [simpl; lia|]. rewrite (A m) in * by (left; reflexivity). simpl in *.
      rewrite Nat.max_assoc, Nat.max_id. apply IH. intros p I. apply A. right. exact I.
    - rewrite <- union_ranges. reflexivity.
  Qed.
  Lemma list_max_in : forall ns n, In n ns -> n <= list_max ns.
  Proof. intros ns n I. pose proof (proj1 (list_max_le ns (list_max ns)) (Nat.le_refl _)) as F. rewrite Forall_forall in F. exact (F n I). Qed.

  (** a dict of series: the longest one decides *)
  Lemma make_series : forall (d : list (K * series L V)), NoDup (map fst d) ->
    make_dataframe_like pos union (map (fun q => (fst q, Ser (snd q))) d)
    = Ok (Frame (range (list_max (map (fun q => length (s_vals (snd q))) d)))
                (padded_cols (list_max (map (fun q => length (s_vals (snd q))) d)) (map (fun q => (fst q, s_vals (snd q))) d))).
  Proof using pos_inj union_ranges.
    intros d ND. unfold make_dataframe_like. rewrite (fold_dset_distinct (reset pos)) by (simpl; rewrite map_map; exact ND). simpl app. rewrite map_map. simpl.
    destruct d as [|q0 d]; [reflexivity|]. set (M := list_max _).
    assert (EI : dict_index pos union (map (fun x : K * series L V => (fst x, Ser (Series (range (length (s_vals (snd x)))) (s_vals (snd x))))) (q0 :: d)) = range M).
    { unfold dict_index. rewrite flat_map_map. cbn [snd s_idx fst]. rewrite (flat_map_single (fun x : K * series L V => range (length (s_vals (snd x))))).
      cbn [map]. pose proof (joined_ranges (length (s_vals (snd q0))) (map (fun q => length (s_vals (snd q))) d)) as J. cbn [map] in J. rewrite map_map in J. exact J. }
    unfold dataframe. rewrite EI, mapM_map. cbn [snd fst].
    rewrite (mapM_ext _ (fun x => Ok (fst x, padded M (s_vals (snd x))))).
    - rewrite mapM_pure. simpl bind. unfold padded_cols. rewrite map_map. reflexivity.
    - intros q I. rewrite reindex_range; [reflexivity|]. apply list_max_in. unfold M. apply (in_map (fun q => length (s_vals (snd q))) _ q I).
  Qed.
  (** a dict of arrays: they must have the same length *)
  Lemma make_arrays : forall (d : list (K * values)) n, NoDup (map fst d) -> (forall q, In q d -> length (snd q) = n) ->
    make_dataframe_like pos union (map (fun q => (fst q, Arr (snd q))) d) = Ok (Frame (match d with [] => [] | _ => range n end) d).
  Proof.
    intros d n ND A. unfold make_dataframe_like. rewrite (fold_dset_distinct (reset pos)) by (simpl; rewrite map_map; exact ND). simpl app. rewrite map_map. simpl.
    unfold dataframe. assert (EI : dict_index pos union (map (fun x : K * values => (fst x, Arr (L:=L) (snd x))) d) = match d with [] => [] | _ => range n end).
    { unfold dict_index. rewrite flat_map_map. cbn [snd]. rewrite flat_map_nil. destruct d as [|q d]; [reflexivity|]. simpl. rewrite (A q (or_introl eq_refl)). reflexivity. }
    rewrite EI, mapM_map. cbn [snd fst]. rewrite (mapM_ext _ (fun x => Ok x)).
    - rewrite mapM_pure, map_id. reflexivity.
    - intros [k v] I. simpl. destruct d as [|q d]; [destruct I|]. pose proof (A _ I) as E. simpl in E. rewrite range_length, E, Nat.eqb_refl. reflexivity.
  Qed.
  Lemma make_arrays_differ : forall (d : list (K * values)) p q, NoDup (map fst d) -> In p d -> In q d -> length (snd p) <> length (snd q) ->
    make_dataframe_like pos union (map (fun q => (fst q, Arr (snd q))) d) = Err ValueError.
  Proof.
    intros d p q ND Ip Iq NE. unfold make_dataframe_like. rewrite (fold_dset_distinct (reset pos)) by (simpl; rewrite map_map; exact ND). simpl app. rewrite map_map. simpl.
    unfold dataframe. set (index := dict_index _ _ _). rewrite mapM_map. cbn [snd fst].
    assert (B : exists r, In r d /\ length (snd r) <> length index).
    { destruct (Nat.eq_dec (length (snd p)) (length index)); [exists q|exists p]; split; auto. congruence. }
    destruct B as [r [I N]]. clearbody index. clear -I N. assert (E : mapM (fun x : K * list (option V) => if length (snd x) =? length index then Ok (fst x, snd x) else Err ValueError) d = Err ValueError).
    { induction d as [|x d IH]; [destruct I|]. simpl. destruct (length (snd x) =? length index) eqn:E; [|reflexivity]. simpl. destruct I as [->|I].
      - apply Nat.eqb_eq in E. contradiction.
      - rewrite (IH I). reflexivity. }
    rewrite E. reflexivity.
  Qed.
  Lemma set_index_ok : forall (f : frame L K V) index, length index = length (f_idx f) -> set_index f index = Ok (Frame index (f_cols f)).
  Proof. intros f index E. unfold set_index. destruct (f_cols f); [reflexivity|]. rewrite E, Nat.eqb_refl. reflexivity. Qed.
  Lemma set_index_bad : forall (f : frame L K V) index, length index <> length (f_idx f) -> f_cols f <> [] -> set_index f index = Err ValueError.
  Proof. intros f index E N. unfold set_index. destruct (f_cols f); [congruence|]. apply Nat.eqb_neq in E. rewrite E. reflexivity. Qed.

  (** [concat_horizontal]: the longest table decides *)
  Lemma concat_lem : forall (f : frame L K V) others, rectangular f -> (forall g, In g others -> rectangular g) ->
    concat_horizontal pos union f others
    = set_index (Frame (range (list_max (map (fun g => length (f_idx g)) (f :: others))))
                       (padded_cols (list_max (map (fun g => length (f_idx g)) (f :: others))) (flat_map f_cols (f :: others)))) (f_idx f).
  Proof using pos_inj union_ranges.
    intros f others R Ro. unfold concat_horizontal. set (M := list_max _).
    assert (EI : joined union (map f_idx (map (reset_frame pos) (f :: others))) = range M).
    { rewrite map_map. simpl. pose proof (joined_ranges (length (f_idx f)) (map (fun g => length (f_idx g)) others)) as J. cbn [map] in J. rewrite map_map in J. exact J. }
    rewrite EI. assert (A : forall g, In g (f :: others) -> rectangular g) by (intros g [<-|I]; auto).
    assert (LE : forall g, In g (f :: others) -> length (f_idx g) <= M) by (intros g I; apply list_max_in, (in_map (fun g => length (f_idx g)) _ _ I)).
    assert (EC : mapM (fun q => let! v := reindex (range M) (snd q) in Ok (fst q, v)) (flat_map columns (map (reset_frame pos) (f :: others)))
                 = Ok (padded_cols M (flat_map f_cols (f :: others)))).
    { clearbody M. clear EI R Ro. revert A LE. generalize (f :: others) as fs. intros fs A LE.
      rewrite flat_map_map. unfold padded_cols. rewrite map_flat_map.
      transitivity (Ok (flat_map (fun g => map (fun q : K * list (option V) => (fst q, padded M (snd q))) (f_cols g)) fs) : res (list (K * list (option V)))); [|reflexivity].
      induction fs as [|g fs IH]; [reflexivity|]. cbn [flat_map].
      assert (G : forall {A B} (h : A -> res B) a b u w, mapM h a = Ok u -> mapM h b = Ok w -> mapM h (a ++ b) = Ok (u ++ w)).
      { clear. intros A B h a. induction a as [|x a IH]; intros b u w Ea Eb; simpl in *; [injection Ea as <-; exact Eb|].
        destruct (h x) as [y|e]; [|discriminate]. simpl in *. destruct (mapM h a) as [u'|e] eqn:E; [|discriminate]. simpl in Ea. injection Ea as <-.
        rewrite (IH b u' w eq_refl Eb). reflexivity. }
      apply G.
      - unfold columns, reset_frame. rewrite mapM_map. cbn [fst snd f_cols f_idx].
        rewrite (mapM_ext _ (fun q => Ok (fst q, padded M (snd q)))); [apply mapM_pure|].
        intros q I. pose proof (A g (or_introl eq_refl) q I) as E. rewrite <- E. rewrite reindex_range; [reflexivity|]. rewrite E. apply LE. left. reflexivity.
      - apply IH; intros h I; [apply A|apply LE]; right; exact I. }
    rewrite EC. reflexivity.
  Qed.

  (** * Transformers *)
  Lemma cols_contributed : forall (keep : bool) (outputs : K -> option (list (K * series L V))) (x : frame L K V),
    map (fun q => (fst q, s_vals (snd q)))
        (flat_map (fun c : K * series L V => match outputs (fst c) with None => [c] | Some out => if keep then c :: out else out end) (columns x))
    = flat_map (contributed keep outputs) (f_cols x).
  Proof.
    intros keep outputs x. unfold columns. rewrite map_flat_map, flat_map_map. apply flat_map_ext. intros [k v]. unfold contributed. cbn [fst].
    destruct (outputs k) as [out|]; [|reflexivity]. destruct keep; reflexivity.
  Qed.
  Lemma on_each_lem : forall keep outputs (x : frame L K V),
    let cols := flat_map (contributed keep outputs) (f_cols x) in
    NoDup (map fst cols) ->
    on_each_column pos union keep outputs x
    = set_index (Frame (range (list_max (map (fun q => length (snd q)) cols))) (padded_cols (list_max (map (fun q => length (snd q)) cols)) cols)) (f_idx x).
  Proof using pos_inj union_ranges.
    intros keep outputs x cols ND. unfold on_each_column. set (all := flat_map _ (columns x)).
    assert (E : map (fun q => (fst q, s_vals (snd q))) all = cols) by apply cols_contributed.
    rewrite make_series.
    - simpl bind. rewrite E. rewrite <- E. rewrite !map_map. reflexivity.
    - rewrite <- E, map_map in ND. exact ND.
  Qed.
  Lemma list_max_const : forall ns n, ns <> [] -> (forall m, In m ns -> m = n) -> list_max ns = n.
  Proof.
    intros ns n N A. destruct ns as [|m ns]; [congruence|]. clear N. revert m A. induction ns as [|p ns IH]; intros m A.
    - simpl. rewrite (A m (or_introl eq_refl)). lia.
    - change (Nat.max m (list_max (p :: ns)) = n). rewrite (IH p) by (intros q I; apply A; right; exact I). rewrite (A m (or_introl eq_refl)). lia.
  Qed.
  Lemma list_max_bound : forall ns n, In n ns -> (forall m, In m ns -> m <= n) -> list_max ns = n.
  Proof.
    intros ns n I A. apply Nat.le_antisymm; [|apply list_max_in; exact I]. apply list_max_le. rewrite Forall_forall. exact A.
  Qed.
  Lemma on_each_same : forall keep outputs (x : frame L K V),
    let cols := flat_map (contributed keep outputs) (f_cols x) in
    NoDup (map fst cols) -> (forall q, In q cols -> length (snd q) = length (f_idx x)) ->
    on_each_column pos union keep outputs x = Ok (Frame (f_idx x) cols).
  Proof using pos_inj union_ranges.
    intros keep outputs x cols ND A. rewrite on_each_lem by exact ND. fold cols. destruct cols as [|q cols'] eqn:EC.
    - unfold set_index. reflexivity.
    - rewrite (list_max_const (map (fun q => length (snd q)) (q :: cols')) (length (f_idx x))).
      + rewrite set_index_ok by (simpl; rewrite range_length; reflexivity). cbn [f_cols]. rewrite padded_cols_full by exact A. reflexivity.
      + discriminate.
      + intros m I. apply in_map_iff in I. destruct I as [r [<- I]]. exact (A r I).
  Qed.
  Lemma on_each_short : forall keep outputs (x : frame L K V) full,
    let cols := flat_map (contributed keep outputs) (f_cols x) in
    NoDup (map fst cols) -> In full cols -> length (snd full) = length (f_idx x) -> (forall q, In q cols -> length (snd q) <= length (f_idx x)) ->
    on_each_column pos union keep outputs x = Ok (Frame (f_idx x) (padded_cols (length (f_idx x)) cols)).
  Proof using pos_inj union_ranges.
    intros keep outputs x full cols ND I E A. rewrite on_each_lem by exact ND. fold cols.
    rewrite (list_max_bound (map (fun q => length (snd q)) cols) (length (f_idx x))).
    - apply set_index_ok. simpl. rewrite range_length. reflexivity.
    - rewrite <- E. apply (in_map (fun q => length (snd q)) _ _ I).
    - intros m J. apply in_map_iff in J. destruct J as [r [<- J]]. exact (A r J).
  Qed.
  Lemma padded_cols_nil : forall {W} n (l : list (K * list (option W))), l <> [] -> padded_cols n l <> [].
  Proof. intros W n l N. destruct l; [congruence|discriminate]. Qed.
  Lemma on_each_refused : forall keep outputs (x : frame L K V),
    let cols := flat_map (contributed keep outputs) (f_cols x) in
    NoDup (map fst cols) -> cols <> [] ->
    ((exists q, In q cols /\ length (f_idx x) < length (snd q)) \/ (forall q, In q cols -> length (snd q) < length (f_idx x))) ->
    on_each_column pos union keep outputs x = Err ValueError.
  Proof using pos_inj union_ranges.
    intros keep outputs x cols ND N A. rewrite on_each_lem by exact ND. fold cols. apply set_index_bad; [|apply padded_cols_nil; exact N].
    simpl. rewrite range_length. destruct A as [[q [I LT]]|A].
    - pose proof (list_max_in _ _ (in_map (fun q => length (snd q)) _ _ I)) as LE. simpl in LE. lia.
    - intros E. assert (B : list_max (map (fun q => length (snd q)) cols) < length (f_idx x)); [|lia].
      apply list_max_lt; [destruct cols; [congruence|discriminate]|]. apply Forall_forall. intros m J. apply in_map_iff in J. destruct J as [r [<- J]]. exact (A r J).
  Qed.

  Definition passed (keep : bool) (selected : list K) (x : frame L K V) : list (K * list (option V)) :=
    filter (fun q => keep || negb (mem (fst q) selected)) (f_cols x).
  Lemma passed_eq : forall (keep : bool) selected (x : frame L K V),
    (if keep then x else Frame (f_idx x) (filter (fun q => negb (mem (fst q) selected)) (f_cols x))) = Frame (f_idx x) (passed keep selected x).
  Proof.
    intros keep selected x. unfold passed. destruct keep; [|reflexivity]. destruct x as [idx cols]. simpl. f_equal.
    induction cols as [|c cols IH]; [reflexivity|]. simpl. rewrite <- IH. reflexivity.
  Qed.
  Lemma on_subframe_lem : forall keep selected (out x : frame L K V), rectangular x -> rectangular out -> length (f_idx out) <= length (f_idx x) ->
    selected <> [] ->
    on_subframe pos union keep selected out x = Ok (Frame (f_idx x) (passed keep selected x ++ padded_cols (length (f_idx x)) (f_cols out))).
  Proof using pos_inj union_ranges.
    intros keep selected out x R Ro LE N. unfold on_subframe. rewrite passed_eq. destruct selected as [|s0 ss]; [congruence|].
    assert (Rp : rectangular (Frame (f_idx x) (passed keep (s0 :: ss) x))).
    { intros q I. simpl in *. apply filter_In in I. exact (R q (proj1 I)). }
    rewrite concat_lem; [|exact Rp|intros g [<-|[]]; exact Ro].
    cbn [map f_idx]. rewrite (list_max_bound [length (f_idx x); length (f_idx out)] (length (f_idx x))).
    - cbn [flat_map f_cols]. rewrite set_index_ok by (simpl; rewrite range_length; reflexivity). simpl bind. cbn [f_cols]. rewrite set_index_ok by reflexivity. simpl.
      rewrite app_nil_r. unfold padded_cols at 1. rewrite map_app. rewrite (padded_cols_full _ _ (length (f_idx x)) (passed keep (s0 :: ss) x)) || idtac.
      f_equal. f_equal. f_equal. apply padded_cols_full. exact Rp.
    - left. reflexivity.
    - intros m [<-|[<-|[]]]; [apply Nat.le_refl|exact LE].
  Qed.
  Lemma on_subframe_long : forall keep selected (out x : frame L K V), rectangular x -> rectangular out -> length (f_idx x) < length (f_idx out) ->
    selected <> [] -> f_cols out <> [] ->
    on_subframe pos union keep selected out x = Err ValueError.
  Proof using pos_inj union_ranges.
    intros keep selected out x R Ro LT N NC. unfold on_subframe. rewrite passed_eq. destruct selected as [|s0 ss]; [congruence|].
    assert (Rp : rectangular (Frame (f_idx x) (passed keep (s0 :: ss) x))).
    { intros q I. simpl in *. apply filter_In in I. exact (R q (proj1 I)). }
    rewrite concat_lem; [|exact Rp|intros g [<-|[]]; exact Ro]. rewrite set_index_bad; [reflexivity| |].
    - simpl. rewrite range_length. lia.
    - apply padded_cols_nil. simpl. rewrite app_nil_r. intros E. apply app_eq_nil in E. tauto.
  Qed.
  Lemma from_arrays_lem : forall x_idx (arrays : list (K * values)), NoDup (map fst arrays) -> (forall q, In q arrays -> length (snd q) = length x_idx) ->
    from_arrays pos union x_idx arrays = Ok (Frame x_idx arrays).
  Proof.
    intros x_idx arrays ND A. unfold from_arrays. rewrite (make_arrays arrays (length x_idx) ND A). simpl bind. destruct arrays; [reflexivity|].
    apply set_index_ok. simpl. rewrite range_length. reflexivity.
  Qed.
  Lemma from_arrays_bad : forall x_idx (arrays : list (K * values)) q, NoDup (map fst arrays) -> In q arrays -> length (snd q) <> length x_idx ->
    from_arrays pos union x_idx arrays = Err ValueError.
  Proof.
    intros x_idx arrays q ND I N. unfold from_arrays.
    destruct (forallb (fun p => length (snd p) =? length (snd q)) arrays) eqn:E.
    - rewrite forallb_forall in E. rewrite (make_arrays arrays (length (snd q)) ND) by (intros p J; apply Nat.eqb_eq, E, J). simpl bind.
      destruct arrays as [|a arrays]; [destruct I|]. apply set_index_bad; [simpl; rewrite range_length; congruence|discriminate].
    - assert (B : exists p, In p arrays /\ length (snd p) <> length (snd q)).
      { clear -E. induction arrays as [|a l IH]; [discriminate|]. simpl in E. destruct (length (snd a) =? length (snd q)) eqn:F; simpl in E.
        - destruct (IH E) as [p [J H]]. exists p. split; [right; exact J|exact H].
        - exists a. split; [left; reflexivity|]. apply Nat.eqb_neq. exact F. }
      destruct B as [p [J NE]]. rewrite (make_arrays_differ arrays p q ND J I NE). reflexivity.
  Qed.
  Lemma interpolation_lem : forall (x : frame L K V) (predictions : list (list (K * values))), rectangular x ->
    (forall p, In p predictions -> p <> [] /\ NoDup (map fst p) /\ exists n, n <= length (f_idx x) /\ forall q, In q p -> length (snd q) = n) ->
    interpolation_join pos union x predictions = Ok (Frame (f_idx x) (f_cols x ++ padded_cols (length (f_idx x)) (concat predictions))).
  Proof using pos_inj union_ranges.
    intros x predictions R A. unfold interpolation_join.
    set (table := fun p : list (K * values) => Frame (match p with [] => [] | q :: _ => range (length (snd q)) end) p).
    assert (T : forall p, In p predictions -> make_dataframe_like pos union (map (fun q => (fst q, Arr (snd q))) p) = Ok (table p)
                                          /\ rectangular (table p) /\ length (f_idx (table p)) <= length (f_idx x)).
    { intros p I. destruct (A p I) as [NE [ND [n [LE H]]]]. unfold table. destruct p as [|q0 p]; [congruence|]. pose proof (H q0 (or_introl eq_refl)) as E0.
      split; [|split].
      - rewrite (make_arrays _ n ND H), E0. reflexivity.
      - intros q J. simpl. rewrite range_length, E0. apply H. exact J.
      - simpl. rewrite range_length, E0. exact LE. }
    rewrite (mapM_ext _ (fun p => Ok (table p))) by (intros p I; apply (T p I)). rewrite mapM_pure. simpl bind.
    rewrite concat_lem; [|exact R|intros g J; apply in_map_iff in J; destruct J as [p [<- J]]; apply (T p J)].
    rewrite (list_max_bound (map (fun g : frame L K V => length (f_idx g)) (x :: map table predictions)) (length (f_idx x))).
    - rewrite set_index_ok by (simpl; rewrite range_length; reflexivity). cbn [f_cols flat_map]. unfold padded_cols at 1. rewrite map_app.
      f_equal. f_equal. f_equal; [apply padded_cols_full; exact R|]. unfold padded_cols. f_equal. rewrite flat_map_map. unfold table. simpl.
      rewrite flat_map_concat_map, map_id. reflexivity.
    - left. reflexivity.
    - intros m [<-|J]; [apply Nat.le_refl|]. rewrite map_map in J. apply in_map_iff in J. destruct J as [p [<- J]]. apply (T p J).
  Qed.
  Lemma datetime_lem : forall D (column : series L D) (extracted : list (K * values)) (periodic : list (frame L K V)),
    length (s_idx column) = length (s_vals column) -> NoDup (map fst extracted) ->
    (forall q, In q extracted -> length (snd q) = length (s_vals column)) ->
    (forall g, In g periodic -> rectangular g /\ length (f_idx g) = length (s_vals column)) ->
    datetime_encode pos union column extracted periodic
    = Ok (Frame (s_idx column) (map (fun q => (fst q, masked (s_vals column) (snd q))) (extracted ++ flat_map f_cols periodic))).
  Proof using pos_inj union_ranges.
    intros D [idx vals] extracted periodic EL' ND A B. cbn [s_idx s_vals] in *. unfold datetime_encode. cbn [s_idx s_vals].
    assert (E1 : (let! f := make_dataframe_like pos union (map (fun q => (fst q, Ser (Series idx (snd q)))) extracted) in set_index f idx) = Ok (Frame idx extracted)).
    { transitivity (let! f := make_dataframe_like pos union (map (fun q => (fst q, Ser (snd q))) (map (fun q : K * values => (fst q, Series idx (snd q))) extracted)) in set_index f idx);
        [rewrite map_map; reflexivity|].
      rewrite make_series by (rewrite map_map; exact ND). simpl bind. rewrite !map_map. cbn [snd s_vals fst]. destruct extracted as [|q0 e]; [reflexivity|].
      rewrite (list_max_const (map (fun x : K * list (option V) => length (snd x)) (q0 :: e)) (length idx)).
      - rewrite set_index_ok by (simpl; rewrite range_length; reflexivity). cbn [f_cols]. f_equal. f_equal.
        rewrite (map_ext _ (fun q => q)) by (intros [k v]; reflexivity). rewrite map_id. apply padded_cols_full. intros q I. rewrite EL'. exact (A q I).
      - discriminate.
      - intros m I. apply in_map_iff in I. destruct I as [r [<- I]]. rewrite EL'. exact (A r I). }
    destruct (make_dataframe_like pos union (map (fun q => (fst q, Ser (Series idx (snd q)))) extracted)) as [f0|e]; [|discriminate]. simpl bind in *. rewrite E1. simpl bind.
    assert (Rx : rectangular (Frame idx extracted)) by (intros q I; simpl; rewrite EL'; exact (A q I)).
    rewrite concat_lem; [|exact Rx|intros g I; apply (B g I)]. cbn [f_idx].
    rewrite (list_max_const (map (fun g : frame L K V => length (f_idx g)) (Frame idx extracted :: periodic)) (length idx)).
    2:{ discriminate. }
    2:{ intros m [<-|I]; [reflexivity|]. apply in_map_iff in I. destruct I as [g [<- I]]. rewrite EL'. apply (B g I). }
    rewrite set_index_ok by (simpl; rewrite range_length; reflexivity). simpl bind. cbn [f_cols].
    assert (Ra : forall q, In q (extracted ++ flat_map f_cols periodic) -> length (snd q) = length idx).
    { intros q I. rewrite EL'. apply in_app_iff in I. destruct I as [I|I]; [exact (A q I)|]. apply in_flat_map in I. destruct I as [g [Ig I]].
      destruct (B g Ig) as [R E]. rewrite <- E. exact (R q I). }
    cbn [flat_map f_cols]. rewrite (padded_cols_full _ _ (length idx)) by exact Ra.
    unfold where_row. cbn [f_cols f_idx]. set (l := extracted ++ flat_map f_cols periodic) in *.
    assert (EQ : eqb_of idx idx = true) by (apply eqb_of_true; reflexivity).
    rewrite (mapM_ext _ (fun q => Ok (fst q, masked vals (snd q)))); [rewrite mapM_pure; reflexivity|].
    intros q I. unfold reindex. cbn [s_idx s_vals]. rewrite EQ. simpl bind. f_equal. f_equal. specialize (Ra q I). rewrite EL' in Ra. unfold masked. clear -Ra.
    destruct q as [k v]. simpl in *. revert v Ra. induction vals as [|d vals IH]; intros v E; destruct v as [|y v]; try discriminate; [reflexivity|].
    simpl. injection E as E. rewrite (IH v E). destruct d; reflexivity.
  Qed.

  (** * Steps *)
  Lemma dset_in : forall {W} (d : list (K * W)) k w q, In q (dset k w d) -> snd q = w \/ In q d.
  Proof.
    intros W d k w q. induction d as [|[k' w'] d IH]; simpl; intros I; [destruct I as [<-|[]]; left; reflexivity|].
    destruct (eqd k k') as [_|_]; destruct I as [<-|I]; simpl; auto. destruct (IH I); auto.
  Qed.
  Lemma make_series_rect : forall (d : list (K * series L V)) f, make_dataframe_like pos union (map (fun q => (fst q, Ser (snd q))) d) = Ok f -> rectangular f.
  Proof.
    intros d f. unfold make_dataframe_like. set (dd := fold_left _ _ _).
    assert (A : forall q, In q dd -> exists v, snd q = Ser (Series (range (length v)) v)).
    { unfold dd. assert (G : forall acc : list (K * datum L V), (forall q, In q acc -> exists v, snd q = Ser (Series (range (length v)) v)) ->
        forall q, In q (fold_left (fun acc q => dset (fst q) (reset pos (snd q)) acc) (map (fun q => (fst q, Ser (snd q))) d) acc) -> exists v, snd q = Ser (Series (range (length v)) v)).
      { induction d as [|[k s] d IH]; intros acc Ha; [exact Ha|]. simpl. apply IH. intros q I. apply dset_in in I. destruct I as [E|I]; [|exact (Ha q I)].
        simpl in E. exists (s_vals s). exact E. }
      apply G. intros q []. }
    clearbody dd. unfold dataframe. set (index := dict_index pos union dd). clearbody index.
    match goal with |- context [mapM ?h dd] => destruct (mapM h dd) as [cols|e] eqn:E end; [|discriminate]. simpl. intros H. injection H as <-.
    apply mapM_Forall2 in E. intros q I. simpl in *. revert A. induction E as [|a b dd cols H1 H2 IH]; intros A; [destruct I|].
    destruct I as [->|I]; [|apply IH; [exact I|intros r Ir; apply A; right; exact Ir]].
    destruct (A a (or_introl eq_refl)) as [v Ev]. rewrite Ev in H1. unfold reindex in H1. cbn [s_idx s_vals] in H1.
    destruct (eqb_of (range (length v)) index) eqn:EQ.
    - simpl in H1. injection H1 as <-. simpl. apply eqb_of_eq in EQ. rewrite <- EQ, range_length. reflexivity.
    - destruct (has_dup (range (length v))); simpl in H1; [discriminate|]. injection H1 as <-. simpl. apply map_length.
  Qed.
  Lemma set_index_result : forall (f g : frame L K V) index, rectangular f -> set_index f index = Ok g -> f_idx g = index /\ rectangular g.
  Proof.
    intros f g index R. unfold set_index. destruct (f_cols f) as [|c cs] eqn:E.
    - intros H. injection H as <-. split; [reflexivity|intros q []].
    - destruct (length index =? length (f_idx f)) eqn:EL'; [|discriminate]. intros H. injection H as <-. split; [reflexivity|].
      apply Nat.eqb_eq in EL'. intros q I. simpl in *. rewrite EL'. apply R. rewrite E. exact I.
  Qed.
  Lemma on_each_result : forall keep outputs (x f : frame L K V), on_each_column pos union keep outputs x = Ok f -> f_idx f = f_idx x /\ rectangular f.
  Proof.
    intros keep outputs x f. unfold on_each_column. match goal with |- context [make_dataframe_like ?a ?b ?c] => destruct (make_dataframe_like a b c) as [g|e] eqn:E end; [|discriminate].
    simpl. apply set_index_result. exact (make_series_rect _ _ E).
  Qed.
  Lemma steps_result : forall steps (x f : frame L K V), rectangular x -> each_column_steps pos union steps x = Ok f -> f_idx f = f_idx x /\ rectangular f.
  Proof.
    intros steps. induction steps as [|[keep outputs] steps IH]; intros x f R; simpl; [intros H; injection H as <-; auto|].
    destruct (on_each_column pos union keep outputs x) as [g|e] eqn:E; [|discriminate]. simpl. intros H.
    destruct (on_each_result _ _ _ _ E) as [E1 R1]. destruct (IH g f R1 H) as [E2 R2]. rewrite E2, E1. auto.
  Qed.

  (** * Joins *)
  Lemma with_columns_lem : forall (f : frame L K V) (news : list (K * datum L V)) n, rectangular f -> length (f_idx f) = n -> f_cols f <> [] ->
    let new_vals := map (fun q : K * datum L V => (fst q, match snd q with Ser s => s_vals s | Arr v => v end)) news in
    NoDup (map fst (f_cols f ++ new_vals)) -> (forall q, In q new_vals -> length (snd q) = n) ->
    with_columns pos union f news = Ok (Frame (range n) (f_cols f ++ new_vals)).
  Proof using pos_inj union_ranges.
    intros f news n R En NE new_vals ND A. unfold with_columns, columns.
    set (all := map (fun q : K * list (option V) => (fst q, Series (f_idx f) (snd q))) (f_cols f)
                ++ map (fun q : K * datum L V => (fst q, match snd q with Ser s => s | Arr v => Series (range (length v)) v end)) news).
    assert (EA : map (fun q => (fst q, s_vals (snd q))) all = f_cols f ++ new_vals).
    { unfold all, new_vals. rewrite map_app, !map_map. cbn [fst snd s_vals]. f_equal.
      - rewrite (map_ext _ (fun q => q)) by (intros [k v]; reflexivity). apply map_id.
      - apply map_ext. intros [k [s|v]]; reflexivity. }
    transitivity (make_dataframe_like pos union (map (fun q => (fst q, Ser (snd q))) all)).
    { unfold all. rewrite map_app, !map_map. reflexivity. }
    rewrite make_series.
    - assert (EM : list_max (map (fun q => length (s_vals (snd q))) all) = n).
      { transitivity (list_max (map (fun q => length (snd q)) (map (fun q => (fst q, s_vals (snd q))) all))); [rewrite map_map; reflexivity|].
        rewrite EA. apply list_max_const.
        - destruct (f_cols f); [congruence|discriminate].
        - intros m I. apply in_map_iff in I. destruct I as [q [<- I]]. apply in_app_iff in I. destruct I as [I|I]; [rewrite (R q I); exact En|exact (A q I)]. }
      rewrite EM, EA. f_equal. f_equal. apply padded_cols_full. intros q I. apply in_app_iff in I. destruct I as [I|I]; [rewrite (R q I); exact En|exact (A q I)].
    - rewrite <- EA, map_map in ND. exact ND.
  Qed.
  Lemma filter_other : forall (l : list (K * list (option V))) k, ~ In k (map fst l) -> filter (fun q => negb (eqb_of (fst q) k)) l = l.
  Proof.
    intros l k N. induction l as [|[k' v] l IH]; [reflexivity|]. simpl in *. replace (eqb_of k' k) with false.
    - simpl. rewrite IH by tauto. reflexivity.
    - symmetry. apply eqb_of_false. tauto.
  Qed.
  Lemma joiner_lem : forall (x : frame L K V) key matching row aux info, rectangular x -> f_cols x <> [] ->
    length matching = length (f_idx x) -> (forall q, In q info -> length (snd q) = length (f_idx x)) ->
    NoDup (map fst (f_cols x ++ aux ++ info)) -> ~ In key (map fst (f_cols x ++ aux ++ info)) ->
    joiner pos union x key matching row aux info
    = Ok (Frame (range (length (f_idx x))) (f_cols x ++ map (fun q => (fst q, fetched (length (f_idx x)) row (snd q))) aux ++ info)).
  Proof using pos_inj union_ranges.
    intros x key matching row aux info R NE Em Ai ND NK. unfold joiner. set (n := length (f_idx x)) in *.
    rewrite !map_app in *. rewrite !in_app_iff in NK.
    rewrite (with_columns_lem x [(key, Arr matching)] n R eq_refl NE).
    2:{ rewrite map_app. simpl. apply NoDup_app_intro; [exact (NoDup_app_l _ _ ND)|constructor; [tauto|constructor]|]. intros k I [<-|[]]. tauto. }
    2:{ intros q [<-|[]]. exact Em. }
    simpl bind. unfold left_join. cbn [f_idx f_cols]. rewrite range_length.
    match goal with |- context [filter ?p ?l] => assert (EF : filter p l = f_cols x ++ map (fun q => (fst q, fetched n row (snd q))) aux) end.
    { simpl. rewrite <- app_assoc. simpl. rewrite !filter_app. simpl. replace (eqb_of key key) with true by (symmetry; apply eqb_of_true; reflexivity). simpl.
      rewrite filter_other by tauto. f_equal. apply filter_other. rewrite map_map. simpl. tauto. }
    rewrite EF. destruct info as [|i0 info]; [rewrite app_nil_r; reflexivity|].
    rewrite (with_columns_lem _ _ n).
    - cbn [f_cols]. f_equal. f_equal. rewrite <- app_assoc, map_map. f_equal. f_equal. cbn [fst snd]. rewrite (map_ext _ (fun q => q)) by (intros [k v]; reflexivity). apply map_id.
    - intros q I. cbn [f_cols f_idx] in *. rewrite range_length. apply in_app_iff in I. destruct I as [I|I]; [exact (R q I)|].
      apply in_map_iff in I. destruct I as [r [<- I]]. simpl. unfold fetched. rewrite map_length. apply seq_length.
    - simpl. apply range_length.
    - cbn [f_cols]. intros E. apply app_eq_nil in E. tauto.
    - cbn [f_cols]. rewrite !map_app, !map_map, <- app_assoc. cbn [fst]. exact ND.
    - intros q I. apply in_map_iff in I. destruct I as [r [<- I]]. apply in_map_iff in I. destruct I as [t [<- I]]. simpl. exact (Ai t I).
  Qed.
  Lemma target_lem : forall (y x : frame L K V) keys key_vals, rectangular y -> rectangular x -> f_cols y <> [] -> length (f_idx y) = length (f_idx x) ->
    Forall2 (fun k q => fst q = k /\ dget k (f_cols x) = Some (snd q)) keys key_vals -> NoDup (map fst (f_cols y) ++ keys) ->
    target_with_keys pos union y x keys = Ok (Frame (range (length (f_idx x))) (f_cols y ++ key_vals)).
  Proof using pos_inj union_ranges.
    intros y x keys key_vals Ry R NE En F ND. unfold target_with_keys. rewrite En, Nat.eqb_refl.
    assert (G : forall k v, dget k (f_cols x) = Some v -> dget k (columns x) = Some (Series (f_idx x) v)).
    { intros k v. unfold columns. generalize (f_cols x) as cs. intros cs. induction cs as [|[k' v'] cs IH]; simpl; [discriminate|]. destruct (eqd k k'); [|exact IH]. intros H. injection H as ->. reflexivity. }
    assert (EM : mapM (fun k => match dget k (columns x) with Some s => Ok (k, Ser s) | None => Err KeyError end) keys = Ok (map (fun q => (fst q, Ser (Series (f_idx x) (snd q)))) key_vals)).
    { clear ND. induction F as [|k [k' v] keys kvs [E1 E2] F IH]; [reflexivity|]. simpl in *. subst k'. rewrite (G k v E2). simpl. rewrite IH. reflexivity. }
    rewrite EM. simpl bind. rewrite (with_columns_lem y _ (length (f_idx x)) Ry En NE).
    - f_equal. f_equal. f_equal. rewrite map_map. simpl. rewrite (map_ext _ (fun q => q)) by (intros [k v]; reflexivity). apply map_id.
    - rewrite map_app, !map_map. simpl. replace (map (fun q : K * list (option V) => fst q) key_vals) with keys; [exact ND|].
      clear -F. induction F as [|k q keys kvs [E1 _] F IH]; [reflexivity|]. simpl. rewrite IH, E1. reflexivity.
    - intros q I. rewrite map_map in I. apply in_map_iff in I. destruct I as [r [<- I]]. simpl.
      clear -F R I. induction F as [|k q keys kvs [_ E2] F IH]; [destruct I|]. destruct I as [->|I]; [|exact (IH I)]. apply dget_In_weak in E2. exact (R _ E2).
  Qed.
  End Labels.
End Index.
