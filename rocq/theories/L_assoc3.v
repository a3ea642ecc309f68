(** Association tables: encodings of the columns and the whole table. *)
From Coq Require Import QArith Permutation Sorted.
From Verif Require Import Base M_names L_names L_leftjoin M_assoc L_assoc L_assoc2.
Open Scope string_scope.
Open Scope list_scope.
Open Scope nat_scope.

(** ** Encodings *)
Section Encode.
  Context {C V : Type}.
  Variable is_duration is_numeric is_any_date : C -> bool.
  Variable total_seconds : C -> C.
  Variable to_float32 to_string : C -> res C.
  Variable n_unique : C -> nat.
  Variable to_numpy : C -> list V.
  Variable floating : C -> bool.
  Variable clip : V -> V.
  Variable isfinite : V -> bool.
  Variable zero_value : V.
  Variable one_hot kbins : nat -> list V -> res (nat * list (list bool)).
  Hypothesis one_hot_ok : OneHotOk one_hot.
  Hypothesis kbins_ok : KBinsOk kbins.

  (** the values that are compared: numbers (dates and durations are converted) or texts *)
  Definition converted (col : C) : res C :=
    let col := if is_duration col then total_seconds col else col in
    if (is_numeric col || is_any_date col)%bool then to_float32 col else to_string col.
  Definition clipped (c : C) (v : V) : V := if floating c then clip v else v.
  (** at most [N_BINS] distinct values *)
  Definition Few (c : C) : Prop := exists u, length u <= N_BINS /\ incl (to_numpy c) u.

  Lemma map_nth_onehot : forall w (f : V -> nat) n vals, w <= n -> (forall v, In v vals -> f v < w) ->
    map (fun b => map (fun row => nth b row false) (map (fun v => map (fun b => f v =? b) (seq 0 w)) vals)) (seq 0 n) = onehot n (map f vals).
  Proof using.
    intros w f n vals L B. unfold onehot. apply map_ext. intros b. rewrite !map_map. apply map_ext_in. intros v I.
    destruct (lt_dec b w) as [Lb|Nb].
    - apply nth_map_seq. exact Lb.
    - rewrite nth_overflow by (rewrite map_length, seq_length; lia). symmetry. apply Nat.eqb_neq. specialize (B v I). lia.
  Qed.

  Lemma categories_spec : forall c n enc, onehot_encode_categories to_numpy floating clip one_hot c n = Ok enc ->
    exists f : V -> nat, (forall v, In v (to_numpy c) -> f (clipped c v) < n) /\
      enc = onehot n (map f (map (clipped c) (to_numpy c))) /\
      ((exists u, length u <= n /\ incl (to_numpy c) u) -> forall v v', In v (map (clipped c) (to_numpy c)) -> In v' (map (clipped c) (to_numpy c)) -> f v = f v' -> v = v').
  Proof using one_hot_ok.
    intros c n enc E0. unfold onehot_encode_categories in E0.
    assert (EV : (if floating c then map clip (to_numpy c) else to_numpy c) = map (clipped c) (to_numpy c)).
    { unfold clipped. destruct (floating c); [reflexivity|]. symmetry. apply map_id. }
    rewrite EV in E0. destruct (one_hot n (map (clipped c) (to_numpy c))) as [[w rows]|] eqn:Eo; [|discriminate]. cbn [bind] in E0.
    destruct (one_hot_ok _ _ _ _ Eo) as (Lw & f & B & -> & Inj). unfold place in E0. destruct (n <? w) eqn:El; [discriminate|].
    injection E0 as <-. exists f. split; [|split].
    - intros v I. assert (f (clipped c v) < w) by (apply B; apply in_map; exact I). lia.
    - apply map_nth_onehot; [exact Lw|exact B].
    - intros (u & Lu & Iu). apply Inj. exists (map (clipped c) u). rewrite map_length. split; [exact Lu|].
      intros v I. apply in_map_iff in I. destruct I as (v' & <- & I). apply in_map. apply Iu. exact I.
  Qed.

  Lemma firstn_map_seq : forall {A} (f : nat -> A) w n, w <= n -> firstn w (map f (seq 0 n)) = map f (seq 0 w).
  Proof using.
    intros A f w n L. rewrite firstn_map. f_equal. replace n with (w + (n - w)) by lia. rewrite seq_app, firstn_app, seq_length.
    replace (w - w) with 0 by lia. rewrite firstn_O, app_nil_r. rewrite <- (seq_length w 0) at 1. apply firstn_all.
  Qed.
  Lemma skipn_map_seq : forall {A} (f : nat -> A) w n, w <= n -> skipn w (map f (seq 0 n)) = map f (seq w (n - w)).
  Proof using.
    intros A f w n L. rewrite skipn_map. f_equal. replace n with (w + (n - w)) at 1 by lia. rewrite seq_app, skipn_app, seq_length.
    replace (w - w) with 0 by lia. cbn [skipn]. rewrite <- (seq_length w 0) at 1. rewrite skipn_all. reflexivity.
  Qed.
  Lemma numbers_spec : forall values n enc, 0 < n -> onehot_encode_numbers isfinite zero_value kbins values n = Ok enc ->
    exists h : V -> nat, (forall v, In v values -> h v < n) /\ enc = onehot n (map h values).
  Proof using kbins_ok.
    intros values n enc Pn E0. unfold onehot_encode_numbers in E0.
    destruct (kbins (n - 1) (map (fun v => if isfinite v then v else zero_value) values)) as [[w rows]|] eqn:Ek; [|discriminate]. cbn [bind] in E0.
    destruct (kbins_ok _ _ _ _ Ek) as (Lw & f & B & ->). unfold place in E0. destruct (n <? w) eqn:El; [discriminate|].
    cbn [bind] in E0. destruct (n <=? w) eqn:El2; [discriminate|]. apply Nat.leb_gt in El2.
    match type of E0 with Ok ?a = Ok ?b => assert (E1 : a = b) by congruence end. rewrite <- E1. clear E0 E1.
    exists (fun v => if isfinite v then f v else w).
    assert (Bf : forall v, In v values -> isfinite v = true -> f v < w).
    { intros v I Ef. apply B. apply in_map_iff. exists v. rewrite Ef. split; [reflexivity|exact I]. }
    split. { intros v I. specialize (Bf v I). destruct (isfinite v); [specialize (Bf eq_refl)|]; lia. }
    set (encoded := map _ (combine _ _)).
    assert (EE : encoded = map (fun v => if isfinite v then map (fun b => f v =? b) (seq 0 w) else map (fun _ => false) (seq 0 w)) values).
    { unfold encoded. clear. induction values as [|v values IH]; [reflexivity|]. cbn [map combine fst snd]. f_equal; [|exact IH].
      destruct (isfinite v); cbn [negb]; [reflexivity|]. rewrite map_map. reflexivity. }
    rewrite EE. rewrite firstn_map_seq by lia. rewrite skipn_map_seq by lia. unfold onehot.
    replace (seq 0 n) with (seq 0 w ++ w :: seq (S w) (n - S w)).
    2:{ transitivity (seq 0 (w + S (n - S w))); [rewrite seq_app; reflexivity|]. f_equal. lia. }
    rewrite map_app. cbn [map]. f_equal; [|f_equal].
    - apply map_ext_in. intros b Ib. apply in_seq in Ib. rewrite !map_map. apply map_ext_in. intros v I.
      destruct (isfinite v); [apply nth_map_seq; lia|]. rewrite nth_map_seq by lia. symmetry. apply Nat.eqb_neq. lia.
    - rewrite map_map. apply map_ext_in. intros v I. specialize (Bf v I). destruct (isfinite v); cbn [negb]; symmetry; [apply Nat.eqb_neq|apply Nat.eqb_eq; reflexivity].
      specialize (Bf eq_refl). lia.
    - apply map_ext_in. intros b Ib. apply in_seq in Ib. rewrite !map_map. apply map_ext_in. intros v I. specialize (Bf v I).
      destruct (isfinite v); rewrite nth_overflow by (rewrite map_length, seq_length; lia); symmetry; apply Nat.eqb_neq; [specialize (Bf eq_refl)|]; lia.
  Qed.

  Hypothesis n_unique_ok : forall c u, incl (to_numpy c) u -> n_unique c <= length u.
  (** rows with the same value have the same bin; when there are few values, only these *)
  Definition BinsOf (col : C) (xs : list nat) : Prop :=
    exists c (h : V -> nat), converted col = Ok c /\ xs = map h (to_numpy c) /\
      (Few c -> exists f : V -> nat, xs = map f (map (clipped c) (to_numpy c)) /\
                  forall v v', In v (map (clipped c) (to_numpy c)) -> In v' (map (clipped c) (to_numpy c)) -> f v = f v' -> v = v').
  Notation onehot_encode_ := (onehot_encode is_duration is_numeric is_any_date total_seconds to_float32 to_string n_unique to_numpy floating clip isfinite zero_value one_hot kbins).
  Theorem encode_spec : forall col enc, onehot_encode_ col = Ok enc ->
    exists xs, BinsOf col xs /\ (forall x, In x xs -> x < N_BINS) /\ enc = onehot N_BINS xs.
  Proof using one_hot_ok kbins_ok n_unique_ok.
    intros col enc E0. unfold onehot_encode in E0. unfold BinsOf, converted. set (col1 := if is_duration col then total_seconds col else col) in *.
    assert (Cat : forall c, onehot_encode_categories to_numpy floating clip one_hot c N_BINS = Ok enc ->
              exists xs, (exists h : V -> nat, xs = map h (to_numpy c) /\
                 (Few c -> exists f : V -> nat, xs = map f (map (clipped c) (to_numpy c)) /\
                  forall v v', In v (map (clipped c) (to_numpy c)) -> In v' (map (clipped c) (to_numpy c)) -> f v = f v' -> v = v')) /\
                (forall x, In x xs -> x < N_BINS) /\ enc = onehot N_BINS xs).
    { intros c Ec. destruct (categories_spec c N_BINS enc Ec) as (f & B & E1 & Inj). exists (map f (map (clipped c) (to_numpy c))).
      split; [|split].
      - exists (fun v => f (clipped c v)). split; [apply map_map|]. intros F. exists f. split; [reflexivity|]. apply Inj. exact F.
      - intros x I. rewrite map_map in I. apply in_map_iff in I. destruct I as (v & <- & I). apply B. exact I.
      - exact E1. }
    destruct (is_numeric col1 || is_any_date col1)%bool.
    - destruct (to_float32 col1) as [c|] eqn:Ec; [|discriminate]. cbn [bind] in E0. destruct (CATEGORICAL_THRESHOLD <=? n_unique c) eqn:Eu.
      + destruct (numbers_spec (to_numpy c) N_BINS enc ltac:(unfold N_BINS; lia) E0) as (h & B & E1). exists (map h (to_numpy c)). split; [|split].
        * exists c, h. split; [reflexivity|]. split; [reflexivity|]. intros (u & Lu & Iu). exfalso.
          apply n_unique_ok in Iu. apply Nat.leb_le in Eu. unfold N_BINS, CATEGORICAL_THRESHOLD in *. lia.
        * intros x I. apply in_map_iff in I. destruct I as (v & <- & I). apply B. exact I.
        * exact E1.
      + destruct (Cat c E0) as (xs & (h & E1 & F) & R0). exists xs. split; [|exact R0]. exists c, h. tauto.
    - destruct (to_string col1) as [c|] eqn:Ec; [|discriminate]. cbn [bind] in E0.
      destruct (Cat c E0) as (xs & (h & E1 & F) & R0). exists xs. split; [|exact R0]. exists c, h. tauto.
  Qed.

  (** the encoding succeeds when the functions of the libraries do *)
  Hypothesis one_hot_total : forall n vals, 0 < n -> vals <> [] -> exists r, one_hot n vals = Ok r.
  Hypothesis kbins_total : forall n vals, 0 < n -> vals <> [] -> exists r, kbins n vals = Ok r.
  Theorem encode_total : forall col c, converted col = Ok c -> to_numpy c <> [] -> exists enc, onehot_encode_ col = Ok enc.
  Proof using one_hot_ok kbins_ok one_hot_total kbins_total.
    intros col c E0 NE. unfold onehot_encode. unfold converted in E0. set (col1 := if is_duration col then total_seconds col else col) in *.
    assert (Cat : exists enc, onehot_encode_categories to_numpy floating clip one_hot c N_BINS = Ok enc).
    { unfold onehot_encode_categories. match goal with |- context [one_hot N_BINS ?v] => destruct (one_hot_total N_BINS v) as ([w rows] & Er) end.
      { unfold N_BINS; lia. } { destruct (floating c), (to_numpy c); cbn; try discriminate; contradiction. }
      rewrite Er. cbn [bind]. apply one_hot_ok in Er. destruct Er as (L & _). unfold place. rewrite (proj2 (Nat.ltb_ge _ _) L). eexists; reflexivity. }
    assert (Num : exists enc, onehot_encode_numbers isfinite zero_value kbins (to_numpy c) N_BINS = Ok enc).
    { unfold onehot_encode_numbers. match goal with |- context [kbins ?n ?v] => destruct (kbins_total n v) as ([w rows] & Er) end.
      { unfold N_BINS; lia. } { destruct (to_numpy c); cbn; [contradiction|discriminate]. }
      rewrite Er. cbn [bind]. apply kbins_ok in Er. destruct Er as (L & _). unfold place. unfold N_BINS in *.
      rewrite (proj2 (Nat.ltb_ge 10 w)) by lia. cbn [bind]. rewrite (proj2 (Nat.leb_gt 10 w)) by lia. eexists; reflexivity. }
    destruct (is_numeric col1 || is_any_date col1)%bool; rewrite E0; cbn [bind]; [|exact Cat].
    destruct (_ <=? _); assumption.
  Qed.
End Encode.

(** ** Pairs of columns *)
Lemma triu_In : forall n i j, In (i, j) (triu n) <-> i < j < n.
Proof.
  intros n i j. unfold triu. rewrite in_concat. split.
  - intros (b & Ib & I). apply in_map_iff in Ib. destruct Ib as (i' & <- & Ii). apply in_map_iff in I. destruct I as (j' & E0 & Ij).
    injection E0 as -> ->. apply in_seq in Ii, Ij. lia.
  - intros L. exists (map (fun j => (i, j)) (seq (S i) (n - S i))). split.
    + apply in_map_iff. exists i. split; [reflexivity|]. apply in_seq. lia.
    + apply in_map. apply in_seq. lia.
Qed.
Lemma NoDup_pairs : forall {A B} (f : A -> list B) u, NoDup u -> (forall a, In a u -> NoDup (f a)) ->
  NoDup (concat (map (fun a => map (fun b => (a, b)) (f a)) u)).
Proof.
  intros A B f. induction u as [|a u IH]; intros ND Hf; [constructor|]. cbn [map concat]. inversion ND as [|? ? N1 N2]; subst. apply NoDup_app_intro.
  - apply FinFun.Injective_map_NoDup; [intros x y E0; congruence|]. apply Hf. left; reflexivity.
  - apply IH; [exact N2|]. intros a' I. apply Hf. right; exact I.
  - intros [a' b'] I I'. apply in_map_iff in I. destruct I as (b0 & E0 & _). injection E0 as <- <-.
    apply in_concat in I'. destruct I' as (blk & Ib & I'). apply in_map_iff in Ib. destruct Ib as (a0 & <- & Ia).
    apply in_map_iff in I'. destruct I' as (b1 & E0 & _). injection E0 as -> _. contradiction.
Qed.
Lemma triu_NoDup : forall n, NoDup (triu n).
Proof. intros n. unfold triu. apply NoDup_pairs; [apply seq_NoDup|]. intros i _. apply seq_NoDup. Qed.

Section Table.
  Context {num : Type} (zero one nan : num) (root : Q -> num) (le : num -> num -> Prop).
  Hypothesis root_eq : forall p q, (p == q)%Q -> root p = root q.
  Hypothesis root_0 : root 0 = zero.
  Hypothesis root_1 : root 1 = one.
  Hypothesis root_le : forall p q, (p <= q)%Q -> le (root p) (root q).
  Context {C : Type}.
  Variable encode : C -> res (list (list bool)).
  Variable str : pyname -> string.
  Variable argsort : list num -> list nat.
  Hypothesis str_str : forall s, str (PStr s) = s.
  (** [np.argsort]: a permutation of the positions, by increasing values *)
  Hypothesis argsort_perm : forall l, Permutation (argsort l) (seq 0 (length l)).
  Hypothesis argsort_sorted : forall l, StronglySorted (fun a b => forall x y, nth_error l a = Some x -> nth_error l b = Some y -> le x y) (argsort l).
  Variable corr_numeric : C -> bool.
  Variable corr : C -> C -> num.
  Variable draw : nat -> string.
  Variable Bins : C -> list nat -> Prop.
  Hypothesis encode_bins : forall c enc, encode c = Ok enc -> exists xs, Bins c xs /\ (forall x, In x xs -> x < N_BINS) /\ enc = onehot N_BINS xs.

  (** Pearson's correlation is given for two columns of numbers *)
  Definition pearson_of (ci cj : C) : acell := if (corr_numeric ci && corr_numeric cj)%bool then ANum (corr ci cj) else ANull.

  (** [v] is Cramer's V of bins of the two columns *)
  Definition Score (n_rows : nat) (ci cj : C) (v : num) : Prop :=
    exists xs ys, Bins ci xs /\ Bins cj ys /\ length xs = n_rows /\ length ys = n_rows /\ v = root (cramer2 (combine xs ys)).
  Definition RowOf (df : list (pyname * C)) (n_rows : nat) (ij : nat * nat) (row : list (@acell num)) : Prop :=
    exists ni ci nj cj v, nth_error df (fst ij) = Some (ni, ci) /\ nth_error df (snd ij) = Some (nj, cj) /\ Score n_rows ci cj v /\
      row = [AName ni; AIdx (fst ij); AName nj; AIdx (snd ij); ANum v; pearson_of ci cj].
  Definition score_cell (row : list (@acell num)) : option num := match nth_error row 4 with Some (ANum v) => Some v | _ => None end.
  Definition Decreasing (r1 r2 : list (@acell num)) : Prop := forall x y, score_cell r1 = Some x -> score_cell r2 = Some y -> le y x.

  Notation column_associations_ := (column_associations zero nan root encode str argsort corr_numeric corr draw).

  Lemma SS_snoc {A} (r : A -> A -> Prop) : forall l a, StronglySorted r l -> (forall x, In x l -> r x a) -> StronglySorted r (l ++ [a]).
  Proof using.
    intros l a S. induction S as [|b l S IH F]; intros H; cbn [app]; [repeat constructor|]. constructor.
    - apply IH. intros x I. apply H. right; exact I.
    - apply Forall_forall. intros x I. apply in_app_iff in I. destruct I as [I|[<-|[]]]; [|apply H; left; reflexivity].
      rewrite Forall_forall in F. apply F. exact I.
  Qed.
  Lemma SS_rev {A} (r : A -> A -> Prop) : forall l, StronglySorted r l -> StronglySorted (fun a b => r b a) (rev l).
  Proof using.
    induction 1 as [|a l S IH F]; [constructor|]. cbn [rev]. apply SS_snoc; [exact IH|]. intros x I. apply in_rev in I.
    rewrite Forall_forall in F. apply F. exact I.
  Qed.
  Lemma SS_Forall2 {A B} (r : A -> A -> Prop) (r' : B -> B -> Prop) (k : A -> B -> Prop) :
    (forall a a' b b', k a b -> k a' b' -> r a a' -> r' b b') ->
    forall l m, Forall2 k l m -> StronglySorted r l -> StronglySorted r' m.
  Proof using.
    intros H. induction 1 as [|a b l m Kab F IH]; intros S; [constructor|]. inversion S as [|? ? S1 S2]; subst. constructor; [apply IH; exact S1|].
    clear - H Kab F S2. induction F as [|a' b' l m K' F IH]; constructor.
    - inversion S2; subst. apply (H a a' b b'); assumption.
    - apply IH. inversion S2; assumption.
  Qed.
  Lemma mapM_exists {A B} (f : A -> res B) : forall l, (forall a, In a l -> exists b, f a = Ok b) -> exists bs, mapM f l = Ok bs.
  Proof using.
    induction l as [|a l IH]; intros H; [exists []; reflexivity|]. destruct (H a (or_introl eq_refl)) as (b & Eb).
    destruct IH as (bs & Ebs); [intros x I; apply H; right; exact I|]. exists (b :: bs). cbn. rewrite Eb, Ebs. reflexivity.
  Qed.
  Lemma map_nth_seq {A} (d : A) : forall l, map (fun o => nth o l d) (seq 0 (length l)) = l.
  Proof using.
    induction l as [|a l IH]; [reflexivity|]. cbn [length seq map nth]. f_equal. rewrite <- seq_shift, map_map. exact IH.
  Qed.
  Lemma Forall2_nth {A B} (k : A -> B -> Prop) : forall l m, Forall2 k l m -> forall i a, nth_error l i = Some a -> exists b, nth_error m i = Some b /\ k a b.
  Proof using.
    induction 1 as [|a b l m K F IH]; intros [|i] x E0; try discriminate; cbn in *; [injection E0 as <-; exists b; tauto|apply IH; exact E0].
  Qed.
  Lemma cell_eqb_true : forall a b : @acell num, cell_eqb a b = true -> exists n, a = AName n /\ b = AName n.
  Proof using.
    intros [n| | |] [m| | |] E0; try discriminate. cbn in E0. apply (proj1 (eqb_of_true _ _)) in E0. subst m. exists n. tauto.
  Qed.

  Section Main.
    Variables (n_rows : nat) (df : list (pyname * C)).
    Hypothesis rows_pos : 0 < n_rows.
    Hypothesis bins_len : forall nc xs, In nc df -> Bins (snd nc) xs -> length xs = n_rows.
    Hypothesis encodable : forall nc, In nc df -> exists enc, encode (snd nc) = Ok enc.

    Lemma matrix_ok : exists m, cramer_v_matrix zero nan root encode n_rows df = Ok m /\
      forall i j ni ci nj cj, nth_error df i = Some (ni, ci) -> nth_error df j = Some (nj, cj) -> exists v, m i j = Ok v /\ Score n_rows ci cj v.
    Proof using root_eq root_0 encode_bins rows_pos bins_len encodable.
      unfold cramer_v_matrix. destruct (mapM_exists encode (map snd df)) as (encs & Ee).
      { intros c I. apply in_map_iff in I. destruct I as (nc & <- & I). apply encodable. exact I. }
      rewrite Ee. cbn [bind]. eexists. split; [reflexivity|]. intros i j ni ci nj cj Ei Ej. cbv beta.
      apply mapM_Forall2 in Ee.
      destruct (Forall2_nth _ _ _ Ee i ci) as (a & Ea & Ka); [rewrite nth_error_map, Ei; reflexivity|].
      destruct (Forall2_nth _ _ _ Ee j cj) as (b & Eb & Kb); [rewrite nth_error_map, Ej; reflexivity|].
      unfold get. rewrite Ea, Eb. cbn [bind]. eexists. split; [reflexivity|].
      destruct (encode_bins _ _ Ka) as (xs & Bx & Lx & ->). destruct (encode_bins _ _ Kb) as (ys & By & Ly & ->).
      pose proof (bins_len _ xs (nth_error_In _ _ Ei) Bx) as Nx. pose proof (bins_len _ ys (nth_error_In _ _ Ej) By) as Ny.
      exists xs, ys. split; [exact Bx|]. split; [exact By|]. split; [exact Nx|]. split; [exact Ny|].
      rewrite <- Nx at 1. apply (compute_cramer_spec zero nan root root_eq root_0); [congruence| |exact Lx|exact Ly].
      intros ->. cbn in Nx. lia.
    Qed.

    Hypothesis names_str : forall nc, In nc df -> exists s, fst nc = PStr s.
    (** the table before the correlations are added *)
    Definition LeftRow (ij : nat * nat) (row : list (@acell num)) : Prop :=
      exists ni ci nj cj v, nth_error df (fst ij) = Some (ni, ci) /\ nth_error df (snd ij) = Some (nj, cj) /\ Score n_rows ci cj v /\
        row = [AName ni; AIdx (fst ij); AName nj; AIdx (snd ij); ANum v].
    Lemma stack_ok : exists m rows ps, cramer_v_matrix zero nan root encode n_rows df = Ok m /\
      stack_symmetric_associations str argsort m df = Ok {| tcols := cramer_cols; trows := rows |} /\
      Permutation ps (triu (length df)) /\ Forall2 LeftRow ps rows /\ StronglySorted Decreasing rows.
    Proof using root_eq root_0 encode_bins rows_pos bins_len encodable str_str argsort_perm argsort_sorted names_str draw corr corr_numeric.
      destruct matrix_ok as (m & Em & Hm). exists m. unfold stack_symmetric_associations. set (T := triu (length df)).
      assert (HT : forall ij, In ij T -> exists ni ci nj cj, nth_error df (fst ij) = Some (ni, ci) /\ nth_error df (snd ij) = Some (nj, cj)).
      { intros [i j] I. apply triu_In in I. cbn [fst snd].
        destruct (nth_error df i) as [[ni ci]|] eqn:Ei; [|apply nth_error_None in Ei; lia].
        destruct (nth_error df j) as [[nj cj]|] eqn:Ej; [|apply nth_error_None in Ej; lia]. exists ni, ci, nj, cj. tauto. }
      destruct (mapM_exists (fun ij => m (fst ij) (snd ij)) T) as (A & EA).
      { intros ij I. destruct (HT ij I) as (ni & ci & nj & cj & Ei & Ej). destruct (Hm _ _ _ _ _ _ Ei Ej) as (v & Ev & _). exists v. exact Ev. }
      rewrite EA. cbn [bind]. apply mapM_Forall2 in EA. pose proof (Forall2_len _ _ _ EA) as LA.
      set (order := rev (argsort A)).
      assert (PO : Permutation order (seq 0 (length T))).
      { unfold order. rewrite <- Permutation_rev, LA. apply argsort_perm. }
      set (ps := map (fun o => nth o T (0, 0)) order).
      assert (PP : Permutation ps T).
      { unfold ps. rewrite (Permutation_map _ PO), map_nth_seq. reflexivity. }
      assert (HN : forall i ni ci, nth_error df i = Some (ni, ci) -> get (map (fun nc => PStr (str (fst nc))) df) i = Ok ni).
      { intros i ni ci Ei. unfold get. rewrite nth_error_map, Ei. cbn. destruct (names_str _ (nth_error_In _ _ Ei)) as (s & Es). cbn in Es.
        rewrite Es, str_str. reflexivity. }
      match goal with |- context [mapM ?f order] => set (F := f) end.
      assert (HF : forall o, In o order -> exists row v, F o = Ok row /\ nth_error A o = Some v /\ score_cell row = Some v /\ LeftRow (nth o T (0, 0)) row).
      { intros o I. assert (Lo : o < length T) by (rewrite PO in I; apply in_seq in I; lia).
        destruct (nth_error T o) as [ij|] eqn:Eo; [|apply nth_error_None in Eo; lia].
        destruct (Forall2_nth _ _ _ EA o ij Eo) as (v & Ev & Kv). destruct (HT ij (nth_error_In _ _ Eo)) as (ni & ci & nj & cj & Ei & Ej).
        destruct (Hm _ _ _ _ _ _ Ei Ej) as (v' & Ev' & Sv). rewrite Kv in Ev'. injection Ev' as <-.
        exists [AName ni; AIdx (fst ij); AName nj; AIdx (snd ij); ANum v], v. split; [|split; [exact Ev|split; [reflexivity|]]].
        - unfold F. unfold get at 1 2. rewrite Eo, Ev. cbn [bind]. rewrite (HN _ _ _ Ei). cbn [bind]. rewrite (HN _ _ _ Ej). reflexivity.
        - rewrite (nth_error_nth T o (0, 0) Eo). exists ni, ci, nj, cj, v. tauto. }
      destruct (mapM_exists F order) as (rows & ER). { intros o I. destruct (HF o I) as (row & v & E0 & _). exists row. exact E0. }
      exists rows, ps. rewrite ER. cbn [bind]. split; [exact Em|]. split; [reflexivity|]. split; [exact PP|].
      apply mapM_Forall2 in ER.
      assert (FR : Forall2 (fun o row => exists v, nth_error A o = Some v /\ score_cell row = Some v /\ LeftRow (nth o T (0, 0)) row) order rows).
      { clear - ER HF. clearbody F order. induction ER as [|o row order rows E0 ER IH]; constructor.
        - destruct (HF o (or_introl eq_refl)) as (row' & v & E1 & E2 & E3 & E4). rewrite E0 in E1. injection E1 as <-. exists v. tauto.
        - apply IH. intros o' I. apply HF. right; exact I. }
      split.
      - unfold ps. clear - FR. induction FR as [|o row order rows (v & _ & _ & K) FR IH]; cbn [map]; constructor; assumption.
      - pose proof (SS_rev _ _ (argsort_sorted A)) as SO. fold order in SO.
        apply (SS_Forall2 _ _ _ ) with (2 := FR) (3 := SO).
        intros a a' b b' (v & Ev & Sv & _) (v' & Ev' & Sv' & _) Hr x y Ex Ey. rewrite Sv in Ex. rewrite Sv' in Ey. injection Ex as <-. injection Ey as <-.
        apply (Hr v' v Ev' Ev).
    Qed.

    Hypothesis names_distinct : NoDup (map fst df).
    Theorem associations_ok : exists t ps, column_associations_ n_rows df = Ok t /\
      tcols t = cramer_cols ++ ["pearson_corr"] /\
      NoDup ps /\ (forall i j, In (i, j) ps <-> i < j < length df) /\
      Forall2 (RowOf df n_rows) ps (trows t) /\ StronglySorted Decreasing (trows t).
    Proof using root_eq root_0 encode_bins rows_pos bins_len encodable str_str argsort_perm argsort_sorted names_str names_distinct draw corr corr_numeric.
      destruct stack_ok as (m & rows & ps & Em & Es & PP & FL & SD). unfold column_associations. rewrite Em. cbn [bind]. rewrite Es. cbn [bind].
      assert (NI : (negb (length (trows (compute_pearson corr_numeric corr df)) =? 0) && forallb (fun nc => is_int (fst nc)) df)%bool = false).
      { clear - names_str. destruct df as [|nc df']; [reflexivity|]. apply andb_false_iff. right. cbn [forallb].
        destruct (names_str nc) as (s & ->); [left; reflexivity|]. reflexivity. }
      rewrite NI. set (on := ["left_column_name"; "right_column_name"]).
      set (kept := filter (fun nc => corr_numeric (snd nc)) df).
      set (right := compute_pearson corr_numeric corr df).
      set (left := {| tcols := cramer_cols; trows := rows |}).
      assert (Kin : forall r, In r (trows right) <-> exists a b, In a kept /\ In b kept /\ r = [AName (fst a); AName (fst b); ANum (corr (snd a) (snd b))]).
      { intros r. unfold right, compute_pearson. cbn [trows]. fold kept. rewrite in_concat. split.
        - intros (blk & Ib & I). apply in_map_iff in Ib. destruct Ib as (b & <- & Ib). apply in_map_iff in I. destruct I as (a & <- & Ia). exists a, b. tauto.
        - intros (a & b & Ia & Ib & ->). eexists. split; [apply in_map_iff; exists b; split; [reflexivity|exact Ib]|]. cbv beta. apply in_map_iff. exists a. tauto. }
      assert (NK : NoDup (map fst kept)).
      { unfold kept. clear - names_distinct. induction df as [|nc d IH]; [constructor|]. cbn [map] in names_distinct. inversion names_distinct as [|? ? N1 N2]; subst.
        cbn [filter]. destruct (corr_numeric (snd nc)); [|apply IH; exact N2]. cbn [map]. constructor; [|apply IH; exact N2].
        intros I. apply N1. apply in_map_iff in I. destruct I as (nc' & E0 & I). apply filter_In in I. apply in_map_iff. exists nc'. tauto. }
      assert (KN : NoDup (map (fun r => (nth_error r 0, nth_error r 1)) (trows right))).
      { unfold right, compute_pearson. cbn [trows]. fold kept. rewrite concat_map, map_map.
        rewrite (map_ext _ (fun r => map (fun l => (Some (@AName num (fst l)), Some (@AName num (fst r)))) kept)) by (intros r; rewrite map_map; reflexivity).
        clear - NK. assert (G : forall k2 : list (pyname * C), NoDup (map fst k2) -> NoDup (concat (map (fun r => map (fun l => (Some (@AName num (fst l)), Some (@AName num (fst r)))) kept) k2))).
        { induction k2 as [|r k2 IH]; intros N2; [constructor|]. cbn [map concat] in *. inversion N2 as [|? ? M1 M2]; subst. apply NoDup_app_intro.
          - clear - NK. induction kept as [|k kp IH]; [constructor|]. cbn [map] in *. inversion NK as [|? ? M1 M2]; subst. constructor; [|apply IH; exact M2].
            intros I. apply M1. apply in_map_iff in I. destruct I as (x & E0 & I). apply in_map_iff. exists x. split; [congruence|exact I].
          - apply IH. exact M2.
          - intros x I1 I2. apply in_map_iff in I1. destruct I1 as (a & <- & Ia). apply in_concat in I2. destruct I2 as (blk & Ib & I2).
            apply in_map_iff in Ib. destruct Ib as (r' & <- & Ir). apply in_map_iff in I2. destruct I2 as (a' & E0 & _). apply M1.
            apply in_map_iff. exists r'. split; [congruence|exact Ir]. }
        apply G. exact NK. }
      (* what it means for rows to match *)
      assert (HM : forall l r, Matches keys_eqb left right on on l r -> In r (trows right) ->
                (nth_error r 0, nth_error r 1) = (nth_error l 0, nth_error l 2)).
      { intros l r (kl & kr & Vl & Vr & Ek) Ir. apply Kin in Ir. destruct Ir as (a & b & _ & _ & ->).
        unfold on in Vl, Vr. inversion Vl as [|? v1 ? k1 Va V1]; subst. inversion V1 as [|? v2 ? k2 Vb V2]; subst. inversion V2; subst.
        inversion Vr as [|? w1 ? k1 Wa W1]; subst. inversion W1 as [|? w2 ? k2 Wb W2]; subst. inversion W2; subst.
        cbn [keys_eqb] in Ek. apply andb_true_iff in Ek. destruct Ek as [E1 Ek]. apply andb_true_iff in Ek. destruct Ek as [E2 _].
        apply cell_eqb_true in E1, E2. destruct E1 as (n1 & -> & ->), E2 as (n2 & -> & ->).
        unfold ValueAt in *. cbn [tcols left right compute_pearson cramer_cols pearson_cols] in *.
        destruct Va as (i1 & C1 & D1), Vb as (i2 & C2 & D2), Wa as (i3 & C3 & D3), Wb as (i4 & C4 & D4).
        assert (i1 = 0) by (destruct i1 as [|[|[|[|[|[|?]]]]]]; cbn in C1; try discriminate; reflexivity).
        assert (i2 = 2) by (destruct i2 as [|[|[|[|[|[|?]]]]]]; cbn in C2; try discriminate; reflexivity).
        assert (i3 = 0) by (destruct i3 as [|[|[|[|?]]]]; cbn in C3; try discriminate; reflexivity).
        assert (i4 = 1) by (destruct i4 as [|[|[|[|?]]]]; cbn in C4; try discriminate; reflexivity).
        subst. rewrite D1, D2, <- D3, <- D4. reflexivity. }
      destruct (left_join_names_ok ANull keys_eqb draw left right on on (fun c => c)) as (t & Et & Ec & _ & Ft).
      - split; [cbn; repeat constructor; cbn; intuition discriminate|]. intros r I. cbn [trows left tcols] in *.
        clear - FL I. induction FL as [|ij row ps rows K F IH]; [destruct I|]. destruct I as [<-|I]; [|apply IH; exact I].
        destruct K as (ni & ci & nj & cj & v & _ & _ & _ & ->). reflexivity.
      - split; [cbn; repeat constructor; cbn; intuition discriminate|]. intros r I. apply Kin in I. destruct I as (a & b & _ & _ & ->). reflexivity.
      - intros c [<-|[<-|[]]]; cbn; tauto.
      - intros c [<-|[<-|[]]]; cbn; tauto.
      - cbn. repeat constructor; cbn; intuition discriminate.
      - cbn. intros x [<-|[<-|[<-|[]]]]; cbn; intuition discriminate.
      - intros l i j ri rj Il Ei Ej Mi Mj. apply HM in Mi; [|apply nth_error_In in Ei; exact Ei]. apply HM in Mj; [|apply nth_error_In in Ej; exact Ej].
        rewrite <- Mj in Mi. apply (proj1 (NoDup_nth_error _) KN); [rewrite map_length; apply nth_error_Some; congruence|].
        rewrite !nth_error_map, Ei, Ej. cbn. f_equal. exact Mi.
      - exists t, ps. split; [exact Et|].
        assert (FR : Forall2 (RowOf df n_rows) ps (trows t)).
        { clear - FL Ft HM Kin names_distinct. assert (EL : tcols left = cramer_cols) by reflexivity. cbn [trows left] in Ft. clearbody left. revert FL.
          generalize (trows t) Ft. clear Ft t. intros out Ft. revert ps. induction Ft as [|l o rows out Kl Ft IH]; intros ps FL; inversion FL as [|ij ? ps' ? Kp Fp]; subst; constructor.
          - destruct Kl as (vals & -> & Cp). destruct Kp as (ni & ci & nj & cj & v & Ei & Ej & Sv & ->). exists ni, ci, nj, cj, v.
            split; [exact Ei|]. split; [exact Ej|]. split; [exact Sv|].
            assert (EV : vals = [pearson_of ci cj]); [|rewrite EV; reflexivity].
            assert (Uniq : forall a i n c, nth_error df i = Some (n, c) -> In a df -> fst a = n -> a = (n, c)).
            { intros a i n c E0 Ia Ea. apply In_nth_error in Ia. destruct Ia as (i' & Ei'). assert (i' = i).
              { apply (proj1 (NoDup_nth_error _) names_distinct); [rewrite map_length; apply nth_error_Some; congruence|].
                rewrite !nth_error_map, E0, Ei'. cbn. f_equal. exact Ea. }
              subst i'. congruence. }
            destruct Cp as [[NM EV]|(r & Ir & Mr & Vr)].
            + rewrite EV. cbn. unfold pearson_of. destruct (corr_numeric ci && corr_numeric cj)%bool eqn:En; [|reflexivity]. exfalso.
              apply andb_true_iff in En. destruct En as [Ni Nj].
              apply (NM [AName ni; AName nj; ANum (corr ci cj)]).
              * apply Kin. exists (ni, ci), (nj, cj). split; [|split; [|reflexivity]]; apply filter_In; cbn; (split; [|assumption]); eapply nth_error_In; eassumption.
              * exists [AName ni; AName nj], [AName ni; AName nj]. split; [|split].
                -- unfold ValuesAt. rewrite EL. repeat constructor; [exists 0|exists 2]; split; reflexivity.
                -- repeat constructor; [exists 0|exists 1]; split; reflexivity.
                -- cbn. rewrite !(proj2 (eqb_of_true _ _)) by reflexivity. reflexivity.
            + apply HM in Mr; [|exact Ir]. apply Kin in Ir. destruct Ir as (a & b & Ia & Ib & ->). cbn in Mr. injection Mr as Ea Eb.
              apply filter_In in Ia, Ib. destruct Ia as [Ia Na], Ib as [Ib Nb].
              rewrite (Uniq a _ _ _ Ei Ia Ea) in *. rewrite (Uniq b _ _ _ Ej Ib Eb) in *. cbn [fst snd] in *.
              unfold pearson_of. rewrite Na, Nb. cbn [andb].
              cbn in Vr. unfold ValuesAt in Vr. inversion Vr as [|? w ? k (i3 & C3 & D3) W1]; subst. inversion W1; subst. f_equal.
              destruct i3 as [|[|[|[|?]]]]; cbn in C3, D3; try discriminate. congruence.
          - apply IH. exact Fp. }
        split; [rewrite Ec; reflexivity|].
        split; [apply (Permutation_NoDup (Permutation_sym PP)), triu_NoDup|].
        split. { intros i j. rewrite <- triu_In. split; intros I; [rewrite <- PP|rewrite PP]; exact I. }
        split; [exact FR|].
        cbn [trows left] in Ft.
        refine (SS_Forall2 _ _ (fun l o => exists vals, o = l ++ vals /\ score_cell o = score_cell l) _ _ _ _ SD).
        + intros a a' b b' (v1 & _ & E1) (v2 & _ & E2) D x y Ex Ey. rewrite E1 in Ex. rewrite E2 in Ey. apply (D x y Ex Ey).
        + clear - Ft FL. clearbody left. revert FL. generalize (trows t) Ft. clear Ft t. intros out Ft. revert ps.
          induction Ft as [|l o rows out Kl Ft IH]; intros ps FL; inversion FL as [|ij ? ps' ? Kp Fp]; subst; constructor.
          * destruct Kl as (vals & -> & _). destruct Kp as (ni & ci & nj & cj & v & _ & _ & _ & ->). exists vals. split; reflexivity.
          * apply (IH ps'). exact Fp.
    Qed.
  End Main.

  (** ** The scores *)
  Theorem score_bounds : forall n_rows ci cj v, Score n_rows ci cj v -> le zero v /\ le v one.
  Proof using root_0 root_1 root_le.
    intros n_rows ci cj v (xs & ys & _ & _ & _ & _ & ->). destruct (cramer2_bounds (combine xs ys)) as [L U].
    rewrite <- root_0, <- root_1. split; apply root_le; assumption.
  Qed.
  Lemma combine_swap : forall {A B} (xs : list A) (ys : list B), combine ys xs = map swap (combine xs ys).
  Proof using. intros A B. induction xs as [|x xs IH]; intros [|y ys]; try reflexivity. cbn. f_equal. apply IH. Qed.
  Theorem score_symmetric : forall n_rows ci cj v, Score n_rows ci cj v -> Score n_rows cj ci v.
  Proof using root_eq.
    intros n_rows ci cj v (xs & ys & Bx & By & Lx & Ly & ->). exists ys, xs. repeat (split; [assumption|]).
    apply root_eq. rewrite combine_swap. apply cramer2_swap.
  Qed.
End Table.

(** ** Columns with few values *)
Section Exact.
  Context {num : Type} (zero one : num) (root : Q -> num).
  Hypothesis root_eq : forall p q, (p == q)%Q -> root p = root q.
  Hypothesis root_0 : root 0 = zero.
  Hypothesis root_1 : root 1 = one.
  Hypothesis root_inj : forall p q, root p = root q -> (p == q)%Q.
  Context {C V : Type} `{EqD V}.
  Variable is_duration is_numeric is_any_date : C -> bool.
  Variable total_seconds : C -> C.
  Variable to_float32 to_string : C -> res C.
  Variable to_numpy : C -> list V.
  Variable floating : C -> bool.
  Variable clip : V -> V.
  Notation converted_ := (converted is_duration is_numeric is_any_date total_seconds to_float32 to_string).
  Notation Bins_ := (BinsOf is_duration is_numeric is_any_date total_seconds to_float32 to_string to_numpy floating clip).
  Notation clipped_ := (clipped floating clip).
  Definition data (ci cj : C) : list (V * V) := combine (map (clipped_ ci) (to_numpy ci)) (map (clipped_ cj) (to_numpy cj)).

  Lemma combine_map2 {A B A' B'} (f : A -> A') (g : B -> B') : forall xs ys, combine (map f xs) (map g ys) = map (relabel f g) (combine xs ys).
  Proof using. induction xs as [|x xs IH]; intros [|y ys]; try reflexivity. cbn. f_equal. apply IH. Qed.

  Theorem exact_score : forall n_rows ci cj v di dj, Score root Bins_ n_rows ci cj v ->
    converted_ ci = Ok di -> converted_ cj = Ok dj -> Few to_numpy di -> Few to_numpy dj -> v = root (cramer2 (data di dj)).
  Proof using root_eq.
    intros n_rows ci cj v di dj (xs & ys & (c & h & Ec & _ & Hf) & (c' & h' & Ec' & _ & Hf') & _ & _ & ->) Ed Ed' F F'.
    rewrite Ed in Ec. injection Ec as <-. rewrite Ed' in Ec'. injection Ec' as <-.
    destruct (Hf F) as (f & -> & If). destruct (Hf' F') as (g & -> & Ig). apply root_eq. unfold data. rewrite combine_map2. apply cramer2_relabel.
    - intros a b Ia Ib. apply If; [apply in_map_iff in Ia; destruct Ia as ([a1 a2] & <- & I)|apply in_map_iff in Ib; destruct Ib as ([a1 a2] & <- & I)];
        apply in_combine_l in I; exact I.
    - intros a b Ia Ib. apply Ig; [apply in_map_iff in Ia; destruct Ia as ([a1 a2] & <- & I)|apply in_map_iff in Ib; destruct Ib as ([a1 a2] & <- & I)];
        apply in_combine_r in I; exact I.
  Qed.
  Theorem exact_zero : forall n_rows ci cj v di dj, Score root Bins_ n_rows ci cj v ->
    converted_ ci = Ok di -> converted_ cj = Ok dj -> Few to_numpy di -> Few to_numpy dj ->
    1 < length (lefts (data di dj)) -> 1 < length (rights (data di dj)) -> (v = zero <-> Independent (data di dj)).
  Proof using root_eq root_0 root_inj.
    intros n_rows ci cj v di dj S Ed Ed' F F' Ll Lr. rewrite (exact_score _ _ _ _ _ _ S Ed Ed' F F').
    rewrite <- (cramer2_zero (data di dj)) by lia. rewrite <- root_0. split; [apply root_inj|apply root_eq].
  Qed.
  Theorem exact_one : forall n_rows ci cj v di dj, Score root Bins_ n_rows ci cj v ->
    converted_ ci = Ok di -> converted_ cj = Ok dj -> Few to_numpy di -> Few to_numpy dj ->
    (v = one <-> 1 < Nat.min (length (lefts (data di dj))) (length (rights (data di dj))) /\
       (length (rights (data di dj)) <= length (lefts (data di dj)) /\ Determines (data di dj) \/
        length (lefts (data di dj)) <= length (rights (data di dj)) /\ Determined (data di dj))).
  Proof using root_eq root_1 root_inj.
    intros n_rows ci cj v di dj S Ed Ed' F F'. rewrite (exact_score _ _ _ _ _ _ S Ed Ed' F F').
    rewrite <- (cramer2_one (data di dj)). rewrite <- root_1. split; [apply root_inj|apply root_eq].
  Qed.
End Exact.
