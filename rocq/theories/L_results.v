(** Specification and lemmas for the tables and plots of search results. *)
From Coq Require Import QArith Qabs Lqa Permutation Sorting.Sorted.
From Verif Require Import Base L_dict M_names L_names M_grid L_grid2 M_results.
Open Scope string_scope.
Open Scope list_scope.
Open Scope nat_scope.

Section Table.
  Context {O : Type}.
  Notation choice := (choice (O := O)).
  Notation cell := (cell (O := O)).
  Notation tcell := (tcell (O := O)).
  Notation table := (table (O := O)).

  (** ** What is displayed for the value of a parameter *)
  Inductive Shown : choice -> param -> cell -> Prop :=
  | Shown_name : forall outs names i s, nth_error names i = Some s -> Shown (Enum outs (Some names)) (PIdx i) (CName s)
  | Shown_outcome : forall outs i o, nth_error outs i = Some o -> Shown (Enum outs None) (PIdx i) (COut o)
  | Shown_number : forall log q, Shown (Numeric log) (PNum q) (CNum q).

  (** a candidate gives a value to some of the choices *)
  Definition WFCand (choices : dict nat choice) (cand : dict nat param) : Prop :=
    NoDup (dkeys cand) /\ forall k p, dget k cand = Some p -> exists c v, dget k choices = Some c /\ Shown c p v.
  (** the names scikit-learn gives to the parameters *)
  Definition named (cand : dict nat param) : list (string * param) := map (fun kp => (param_name (fst kp), snd kp)) cand.

  Lemma shown_value : forall c p v, Shown c p v -> value_of c p = Ok v.
  Proof. intros c p v S. destruct S as [outs names i s E|outs i o E|log q]; cbn; unfold item; try rewrite E; reflexivity. Qed.
  Lemma shown_fun : forall c p v v', Shown c p v -> Shown c p v' -> v = v'.
  Proof. intros c p v v' S S'. apply shown_value in S. apply shown_value in S'. congruence. Qed.

  Lemma add_log_in : forall (c : choice) name logs n, In n (add_log c name logs) <-> In n logs \/ n = name /\ c = Numeric true.
  Proof.
    intros c name logs n. unfold add_log. destruct (is_log c) eqn:L; cbn.
    - assert (E : c = Numeric true) by (destruct c as [|b]; [discriminate|]; cbn in L; rewrite L; reflexivity). destruct (mem name logs) eqn:M; cbn.
      + apply mem_true in M. split; [auto|]. intros [I|[-> _]]; assumption.
      + split; [intros [<-|I]; auto|intros [I|[-> _]]; auto].
    - split; [auto|]. intros [I|[_ ->]]; [exact I|discriminate].
  Qed.

  Section Rows.
    Variable choices : dict nat choice.
    Variable names : dict nat string.
    Hypothesis same_keys : dkeys names = dkeys choices.
    Hypothesis nodup_keys : NoDup (dkeys choices).
    Hypothesis nodup_names : NoDup (map snd names).

    Lemma names_inj : forall k k' n, dget k names = Some n -> dget k' names = Some n -> k = k'.
    Proof using nodup_names.
      clear same_keys. intros k k' n E E'. apply dget_In_weak in E, E'. induction names as [|[k0 n0] ns IH]; [destruct E|]. cbn in nodup_names. inversion nodup_names as [|? ? N0 N1]; subst.
      destruct E as [E|E], E' as [E'|E'].
      - congruence.
      - injection E as -> ->. exfalso. apply N0. apply in_map_iff. exists (k', n). split; [reflexivity|exact E'].
      - injection E' as -> ->. exfalso. apply N0. apply in_map_iff. exists (k, n). split; [reflexivity|exact E].
      - exact (IH N1 E E').
    Qed.

    Lemma fill_row_ok : forall cand row logs, WFCand choices cand ->
      exists row' logs', fill_row choices names (named cand) row logs = Ok (row', logs') /\
        (forall k n, dget k names = Some n ->
           match dget k cand with
           | Some p => exists c v, dget k choices = Some c /\ Shown c p v /\ dget n row' = Some v
           | None => dget n row' = dget n row
           end) /\
        (forall n, In n logs' <-> In n logs \/ exists k, dget k names = Some n /\ In k (dkeys cand) /\ dget k choices = Some (Numeric true)).
    Proof using same_keys nodup_names.
      induction cand as [|[k p] cand IH]; intros row logs [N W].
      - exists row, logs. split; [reflexivity|]. split; [reflexivity|]. intros n. split; [auto|]. intros [I|(k & _ & [] & _)]. exact I.
      - cbn in N. inversion N as [|? ? N0 N1]; subst. destruct (W k p) as (c & v & Ec & S); [cbn; destruct (eqd k k); congruence|].
        assert (In k (dkeys names)) as Ik by (rewrite same_keys; apply dget_in_keys; exists c; exact Ec). apply dget_in_keys in Ik. destruct Ik as (n0 & En).
        destruct (IH (dset n0 v row) (add_log c n0 logs)) as (row' & logs' & E & R & L).
        { split; [exact N1|]. intros k' p' E'. apply W. cbn. destruct (eqd k' k) as [->|D]; [|exact E']. exfalso. apply N0. apply dget_in_keys. exists p'. exact E'. }
        exists row', logs'. split; [|split].
        + cbn [named map fill_row fst snd]. rewrite param_id_name. cbn [bind]. unfold lookup. rewrite Ec, En. cbn [bind]. rewrite (shown_value _ _ _ S). cbn [bind]. exact E.
        + intros k' n E'. cbn [dget]. destruct (eqd k' k) as [->|D].
          * assert (n = n0) by congruence. subst n. exists c, v. split; [exact Ec|]. split; [exact S|]. specialize (R k n0 En).
            assert (dget k cand = None) as Z by (apply dget_None_keys; exact N0). rewrite Z in R. rewrite R, dget_dset_eq. reflexivity.
          * specialize (R k' n E'). destruct (dget k' cand); [exact R|]. rewrite R. apply dget_dset_neq. intros ->. apply D. exact (names_inj _ _ _ E' En).
        + intros n. rewrite L, add_log_in. split.
          * intros [[I|[-> ->]]|(k' & A & B & C)]; [left; exact I| |].
            -- right. exists k. split; [exact En|]. split; [left; reflexivity|exact Ec].
            -- right. exists k'. split; [exact A|]. split; [right; exact B|exact C].
          * intros [I|(k' & A & [B|B] & C)]; [left; left; exact I| |].
            -- cbn in B. subst k'. left. right. split; congruence.
            -- right. exists k'. auto.
    Qed.

    (** the row of a candidate *)
    Definition RowOf (cand : dict nat param) (row : dict string cell) : Prop :=
      forall k n, dget k names = Some n ->
        match dget k cand with
        | Some p => exists c v, dget k choices = Some c /\ Shown c p v /\ dget n row = Some v
        | None => dget n row = None
        end.
    Lemma fill_rows_ok : forall cands logs, (forall cand, In cand cands -> WFCand choices cand) ->
      exists rows logs', fill_rows choices names (map named cands) logs = Ok (rows, logs') /\ Forall2 RowOf cands rows /\
        (forall n, In n logs' <-> In n logs \/ exists k cand, In cand cands /\ dget k names = Some n /\ In k (dkeys cand) /\ dget k choices = Some (Numeric true)).
    Proof using same_keys nodup_names.
      induction cands as [|cand cands IH]; intros logs W.
      - exists [], logs. split; [reflexivity|]. split; [constructor|]. intros n. split; [auto|]. intros [I|(k & c & [] & _)]. exact I.
      - destruct (fill_row_ok cand [] logs (W cand (or_introl eq_refl))) as (row & logs1 & E & R & L). destruct (IH logs1 (fun c I => W c (or_intror I))) as (rows & logs2 & E2 & F & L2).
        exists (row :: rows), logs2. split; [|split].
        + cbn [map fill_rows]. rewrite E. cbn [bind]. rewrite E2. reflexivity.
        + constructor; [exact R|exact F].
        + intros n. rewrite L2, L. split.
          * intros [[I|(k & A & B & C)]|(k & c & A & B)]; [left; exact I|right; exists k, cand; split; [left; reflexivity|auto]|right; exists k, c; split; [right; exact A|exact B]].
          * intros [I|(k & c & [A|A] & B)]; [left; left; exact I|subst c; left; right; exists k; exact B|right; exists k, c; auto].
    Qed.
  End Rows.

  (** ** Names of the columns *)
  Lemma prefixed_nodup : forall p ms, NoDup ms -> NoDup (prefixed p ms).
  Proof.
    intros p ms N. unfold prefixed. induction N as [|m ms N0 N IH]; cbn; [constructor|]. constructor; [|exact IH]. intros I. apply in_map_iff in I. destruct I as (m' & E & I). apply N0.
    replace m with m'; [exact I|]. clear - E. induction p as [|c p IH]; cbn in E; [exact E|]. injection E as E. exact (IH E).
  Qed.
  Lemma nodup_app : forall (A : Type) (l l' : list A), NoDup l -> NoDup l' -> (forall a, In a l -> ~ In a l') -> NoDup (l ++ l').
  Proof.
    intros A l l' N N' D. induction N as [|a l N0 N IH]; [exact N'|]. cbn. constructor.
    - rewrite in_app_iff. intros [I|I]; [exact (N0 I)|exact (D a (or_introl eq_refl) I)].
    - apply IH. intros b I. apply D. right. exact I.
  Qed.
  Lemma nodup_app_l : forall (A : Type) (l l' : list A), NoDup (l ++ l') -> NoDup l.
  Proof. intros A l l' N. induction l as [|a l IH]; [constructor|]. cbn in N. inversion N as [|? ? A1 A2]; subst. constructor; [|exact (IH A2)]. intros I. apply A1. apply in_app_iff. left. exact I. Qed.
  Lemma nodup_app_r : forall (A : Type) (l l' : list A), NoDup (l ++ l') -> NoDup l'.
  Proof. intros A l l' N. induction l as [|a l IH]; [exact N|]. cbn in N. inversion N; subst. auto. Qed.
  Lemma keys_nodup : forall ms, NoDup ms -> NoDup (result_keys ms).
  Proof.
    intros ms N. unfold result_keys, other_keys. repeat apply nodup_app; try (apply prefixed_nodup; exact N).
    - repeat (constructor; [cbn; intuition discriminate|]). constructor.
    - intros a I J. apply in_map_iff in I. destruct I as (m & <- & _). apply in_map_iff in J. destruct J as (m' & E & _). discriminate.
    - intros a I J. apply in_app_iff in J. destruct J as [J|J]; apply in_map_iff in J; destruct J as (m' & <- & _); cbn in I; intuition discriminate.
    - intros a I J. apply in_map_iff in I. destruct I as (m & <- & _). apply in_app_iff in J. destruct J as [J|J]; [cbn in J; intuition discriminate|].
      apply in_app_iff in J. destruct J as [J|J]; apply in_map_iff in J; destruct J as (m' & E & _); [discriminate|]. cbn in E. discriminate.
    - intros a I J. apply in_map_iff in I. destruct I as (m & <- & _). apply in_app_iff in J. destruct J as [J|J]; [apply in_map_iff in J; destruct J as (m' & E & _); discriminate|].
      apply in_app_iff in J. destruct J as [J|J]; [cbn in J; intuition discriminate|].
      apply in_app_iff in J. destruct J as [J|J]; apply in_map_iff in J; destruct J as (m' & E & _); discriminate.
  Qed.

  Definition scores (cv : cv_dict) (k : string) : list (option Q) := match dget k cv with Some xs => xs | None => [] end.
  Definition score_column (cv : cv_dict) (k : string) : string * list tcell := (k, map TScore (scores cv k)).
  Lemma score_names : forall cv keys, map fst (map (score_column cv) keys) = keys.
  Proof. intros cv keys. rewrite map_map. cbn. apply map_id. Qed.
  Lemma insert_front_ok : forall n cv keys (t : table), NoDup keys -> (forall k, In k keys -> exists xs, dget k cv = Some xs /\ length xs = n) -> (forall k, In k keys -> ~ In k (map fst t)) ->
    insert_front n cv keys t = Ok (map (score_column cv) keys ++ t).
  Proof.
    intros n cv keys t N. induction N as [|k keys N0 N IH]; intros P D; [reflexivity|]. cbn [insert_front]. rewrite IH; [|intros k' I; apply P; right; exact I|intros k' I; apply D; right; exact I].
    cbn [bind]. destruct (P k (or_introl eq_refl)) as (xs & E & L). unfold lookup. rewrite E. cbn [bind]. unfold check_insert.
    replace (mem k (map fst (map (score_column cv) keys ++ t))) with false.
    - rewrite map_length, L, Nat.eqb_refl. cbn [bind map app]. unfold score_column at 2. unfold scores. rewrite E. reflexivity.
    - symmetry. apply mem_false. rewrite map_app, score_names, in_app_iff. intros [I|I]; [exact (N0 I)|exact (D k (or_introl eq_refl) I)].
  Qed.
  Definition present (cv : cv_dict) (k : string) : bool := match dget k cv with Some _ => true | None => false end.
  Lemma insert_back_ok : forall n cv keys (t : table), NoDup keys -> (forall k xs, In k keys -> dget k cv = Some xs -> length xs = n) -> (forall k, In k keys -> ~ In k (map fst t)) ->
    insert_back n cv keys t = Ok (t ++ map (score_column cv) (filter (present cv) keys)).
  Proof.
    intros n cv keys t N. revert t. induction N as [|k keys N0 N IH]; intros t P D; [cbn; rewrite app_nil_r; reflexivity|]. cbn [insert_back filter]. unfold present at 1. destruct (dget k cv) as [xs|] eqn:E.
    - unfold check_insert. rewrite (proj2 (mem_false _ _) (D k (or_introl eq_refl))), map_length, (P k xs (or_introl eq_refl) E), Nat.eqb_refl. cbn [bind].
      rewrite IH.
      + rewrite <- app_assoc. cbn. unfold score_column at 2. unfold scores. rewrite E. reflexivity.
      + intros k' ys I. apply P. right. exact I.
      + intros k' I. rewrite map_app, in_app_iff. intros [J|[J|[]]]; [exact (D k' (or_intror I) J)|]. cbn in J. subst k'. exact (N0 I).
    - apply IH; [intros k' ys I; apply P; right; exact I|intros k' I; apply D; right; exact I].
  Qed.

  (** ** The order of the rows *)
  Lemma Qle_bool_false : forall a b, Qle_bool a b = false <-> (b < a)%Q.
  Proof.
    intros a b. split; intros E.
    - apply Qnot_le_lt. intros L. apply Qle_bool_iff in L. congruence.
    - destruct (Qle_bool a b) eqn:B; [|reflexivity]. apply Qle_bool_iff in B. exfalso. exact (Qlt_not_le _ _ E B).
  Qed.
  Lemma precedes_some : forall x y, precedes (Some x) (Some y) = true <-> (y < x)%Q.
  Proof. intros x y. cbn. rewrite Bool.negb_true_iff. apply Qle_bool_false. Qed.
  Lemma precedes_trans : forall a b c, precedes a b = true -> precedes b c = true -> precedes a c = true.
  Proof.
    intros [x|] [y|] [z|]; try discriminate; try reflexivity; intros A B. apply precedes_some in A, B. apply precedes_some. exact (Qlt_trans _ _ _ B A).
  Qed.
  Lemma precedes_split : forall a b c, precedes a c = true -> precedes a b = true \/ precedes b c = true.
  Proof.
    intros [x|] [y|] [z|] A; try discriminate; auto. apply precedes_some in A. destruct (Qlt_le_dec y x) as [L|L]; [left; apply precedes_some; exact L|].
    right. apply precedes_some. exact (Qlt_le_trans _ _ _ A L).
  Qed.
  (** row [i] comes before row [j]: a better score, or the same and an earlier candidate *)
  Definition Before (s : nat -> option Q) (i j : nat) : Prop := precedes (s i) (s j) = true \/ precedes (s j) (s i) = false /\ i < j.
  Lemma insert_row_perm : forall (col : list tcell) i l, Permutation (insert_row col i l) (i :: l).
  Proof. induction l as [|j l IH]; cbn; [reflexivity|]. destruct (precedes _ _); [|reflexivity]. rewrite IH. apply perm_swap. Qed.
  Lemma insert_row_sorted : forall (col : list tcell) i l, (forall j, In j l -> i < j) -> StronglySorted (Before (score_at col)) l -> StronglySorted (Before (score_at col)) (insert_row col i l).
  Proof.
    intros col i l. induction l as [|j l IH]; intros Lt S; [cbn; constructor; constructor|]. cbn. apply StronglySorted_inv in S. destruct S as [S F]. rewrite Forall_forall in F.
    destruct (precedes (score_at col j) (score_at col i)) eqn:P.
    - constructor; [apply IH; [intros k I; apply Lt; right; exact I|exact S]|]. apply Forall_forall. intros k I. apply (Permutation_in _ (insert_row_perm col i l)) in I. destruct I as [<-|I]; [left; exact P|exact (F k I)].
    - constructor; [constructor; [exact S|apply Forall_forall; exact F]|]. apply Forall_forall. intros k [<-|I]; [right; split; [exact P|apply Lt; left; reflexivity]|].
      right. split; [|apply Lt; right; exact I]. destruct (precedes (score_at col k) (score_at col i)) eqn:Q; [|reflexivity]. exfalso. destruct (F k I) as [B|[B _]].
      + rewrite (precedes_trans _ _ _ B Q) in P. discriminate.
      + destruct (precedes_split _ (score_at col j) _ Q) as [X|X]; congruence.
  Qed.
  Lemma rows_sorted : forall (col : list tcell) n a, Permutation (fold_right (insert_row col) [] (seq a n)) (seq a n) /\ StronglySorted (Before (score_at col)) (fold_right (insert_row col) [] (seq a n)).
  Proof.
    intros col n. induction n as [|n IH]; intros a; cbn; [split; constructor|]. destruct (IH (S a)) as [P S]. split; [rewrite insert_row_perm; constructor; exact P|].
    apply insert_row_sorted; [|exact S]. intros j I. apply (Permutation_in _ P) in I. apply in_seq in I. lia.
  Qed.

  (** ** The whole table *)
  Lemma combine_map_fst : forall (A B : Type) (l : list A) (l' : list B), length l = length l' -> map fst (combine l l') = l.
  Proof. induction l as [|a l IH]; intros [|b l'] E; try discriminate; [reflexivity|]. cbn. f_equal. apply IH. cbn in E. lia. Qed.
  Lemma combine_map_snd : forall (A B : Type) (l : list A) (l' : list B), length l = length l' -> map snd (combine l l') = l'.
  Proof. induction l as [|a l IH]; intros [|b l'] E; try discriminate; [reflexivity|]. cbn. f_equal. apply IH. cbn in E. lia. Qed.

  Definition choice_columns (names : dict nat string) (new_names : list string) (rows : list (dict string cell)) : table :=
    map (fun on => (snd on, map (fun row => TChoice (dget (fst on) row)) rows)) (combine (map snd names) new_names).

  (** what is required of a search that was fitted *)
  Record Fitted (choices : dict nat choice) (names : dict nat string) (scorers : option (list string)) (refit : option string) (ms : list string) (cands : list (dict nat param)) (cv : cv_dict) : Prop := {
    f_keys : dkeys names = dkeys choices;
    f_nodup : NoDup (dkeys choices);
    f_names : NoDup (map snd names);
    f_cands : forall cand, In cand cands -> WFCand choices cand;
    f_scorers : match scorers with
                | None => ms = ["score"]
                | Some l => NoDup l /\ l <> [] /\ match refit with Some r => exists l1 l2, l = l1 ++ r :: l2 /\ ms = r :: l1 ++ l2 | None => ms = l end
                end;
    f_mean : forall k, In k (prefixed "mean_test_" ms) -> exists xs, dget k cv = Some xs /\ length xs = length cands;
    f_other : forall k xs, In k (other_keys ms) -> dget k cv = Some xs -> length xs = length cands
  }.
  Lemma fitted_perm : forall choices names l refit ms cands cv, Fitted choices names (Some l) refit ms cands cv -> Permutation ms l.
  Proof.
    intros choices names l refit ms cands cv F. destruct (f_scorers _ _ _ _ _ _ _ F) as (_ & _ & S). destruct refit as [r|]; [|rewrite S; reflexivity]. destruct S as (l1 & l2 & -> & ->). apply Permutation_middle.
  Qed.
  Lemma pop_item_ok : forall r l1 l2, ~ In r l1 -> pop_item r (l1 ++ r :: l2) = Some (l1 ++ l2).
  Proof.
    intros r l1 l2 N. induction l1 as [|s l1 IH]; cbn; [rewrite eqb_of_refl; reflexivity|]. destruct (eqb_of s r) eqn:E; [apply (proj1 (eqb_of_true _ _)) in E; exfalso; apply N; left; exact E|]. rewrite IH; [reflexivity|]. intros I. apply N. right. exact I.
  Qed.
  Lemma f_ms : forall choices names scorers refit ms cands cv, Fitted choices names scorers refit ms cands cv -> metric_names scorers refit = Ok ms.
  Proof.
    intros choices names scorers refit ms cands cv F. pose proof (f_scorers _ _ _ _ _ _ _ F) as S. destruct scorers as [l|]; [|rewrite S; reflexivity]. destruct S as (N & _ & S). cbn. destruct refit as [r|]; [|rewrite S; reflexivity].
    destruct S as (l1 & l2 & -> & ->). rewrite pop_item_ok; [reflexivity|]. apply NoDup_remove_2 in N. intros I. apply N. apply in_app_iff. left. exact I.
  Qed.
  Lemma fitted_ms_nodup : forall choices names scorers refit ms cands cv, Fitted choices names scorers refit ms cands cv -> NoDup ms.
  Proof.
    intros choices names scorers refit ms cands cv F. pose proof (f_scorers _ _ _ _ _ _ _ F) as S. destruct scorers as [l|].
    - destruct S as (N & _). exact (Permutation_NoDup (Permutation_sym (fitted_perm _ _ _ _ _ _ _ F)) N).
    - rewrite S. repeat constructor. intros [].
  Qed.
  Lemma fitted_ms_nonempty : forall choices names scorers refit ms cands cv, Fitted choices names scorers refit ms cands cv -> exists m ms', ms = m :: ms'.
  Proof.
    intros choices names scorers refit ms cands cv F. pose proof (f_scorers _ _ _ _ _ _ _ F) as S. destruct scorers as [l|].
    - pose proof (fitted_perm _ _ _ _ _ _ _ F) as P. destruct S as (_ & N & _). destruct ms as [|m ms']; [|exists m, ms'; reflexivity]. apply Permutation_nil in P. contradiction.
    - rewrite S. exists "score", []. reflexivity.
  Qed.

  Lemma table_shape : forall draw (choices : dict nat choice) (names : dict nat string) scorers refit ms cands cv (detailed : bool),
    Fitted choices names scorers refit ms cands cv -> Fresh draw (length names) (map snd names) (result_keys ms) ->
    exists rows logs logs',
      let new_names := pick_column_names draw (map snd names) (result_keys ms) in
      let t : table := map (score_column cv) (prefixed "mean_test_" ms) ++ choice_columns names new_names rows ++ (if detailed then map (score_column cv) (filter (present cv) (other_keys ms)) else []) in
      cv_table draw choices names scorers refit (map named cands) cv detailed = Ok (take_rows (sorted_rows (length cands) t) t, logs) /\
      Forall2 (RowOf choices names) cands rows /\ NoDup (map fst t) /\ length new_names = length names /\
      mapM (fun c => lookup c (combine (map snd names) new_names)) logs' = Ok logs /\
      (forall n, In n logs' <-> exists k cand, In cand cands /\ dget k names = Some n /\ In k (dkeys cand) /\ dget k choices = Some (Numeric true)).
  Proof.
    intros draw choices names scorers refit ms cands cv detailed F Fr. pose proof (fitted_ms_nodup _ _ _ _ _ _ _ F) as N. pose proof (f_ms _ _ _ _ _ _ _ F) as Fms. destruct F as [Fk Fn Fnames Fc _ Fmean Fother].
    destruct (fill_rows_ok choices names Fk Fnames cands [] Fc) as (rows & logs' & E & R & L).
    assert (length (map snd names) = length names) as Ln by apply map_length.
    rewrite <- Ln in Fr. destruct (pick_distinct draw (map snd names) (result_keys ms) Fr) as (Lp & Np & Dp). rewrite Ln in Lp. set (new_names := pick_column_names draw (map snd names) (result_keys ms)) in *.
    assert (exists logs, mapM (fun c => lookup c (combine (map snd names) new_names)) logs' = Ok logs) as (logs & EL).
    { assert (X : forall n, In n logs' -> exists s, lookup n (combine (map snd names) new_names) = Ok s).
      { intros n I. apply L in I. destruct I as [[]|(k & c & _ & Ek & _)]. assert (In n (dkeys (combine (map snd names) new_names))) as I.
        { unfold dkeys. rewrite combine_map_fst by lia. apply in_map_iff. exists (k, n). split; [reflexivity|]. exact (dget_In_weak _ _ _ Ek). }
        apply dget_in_keys in I. destruct I as (s & Es). exists s. unfold lookup. rewrite Es. reflexivity. }
      clear - X. induction logs' as [|n l IH]; [exists []; reflexivity|]. destruct (X n (or_introl eq_refl)) as (s & Es). destruct IH as (ls & El); [intros m I; apply X; right; exact I|]. exists (s :: ls). cbn. rewrite Es. cbn [bind]. rewrite El. reflexivity. }
    assert (Lc : length (map snd names) = length new_names) by lia.
    assert (Cn : map fst (choice_columns names new_names rows) = new_names) by (unfold choice_columns; rewrite map_map; cbn; apply combine_map_snd; exact Lc).
    pose proof (keys_nodup ms N) as Nk. unfold result_keys in Nk. pose proof (nodup_app_l _ _ _ Nk) as N1. pose proof (nodup_app_r _ _ _ Nk) as N2.
    assert (D12 : forall k, In k (other_keys ms) -> ~ In k (prefixed "mean_test_" ms)).
    { intros k I J. clear - Nk I J. induction (prefixed "mean_test_" ms) as [|a l IH]; [destruct J|]. cbn in Nk. inversion Nk as [|? ? A B]; subst. destruct J as [->|J]; [apply A; apply in_app_iff; right; exact I|exact (IH B J)]. }
    exists rows, logs, logs'. cbv zeta. split; [|split; [exact R|split; [|split; [lia|split; [exact EL|]]]]].
    - unfold cv_table. rewrite E, map_length. cbn [bind]. rewrite Fms. cbn [bind]. fold new_names. rewrite EL. cbn [bind]. fold (choice_columns names new_names rows).
      rewrite insert_front_ok; [|exact N1|exact Fmean|]; [|intros k I J; rewrite Cn in J; apply (Dp k J); unfold result_keys; apply in_app_iff; left; exact I].
      cbn [bind]. destruct detailed.
      + rewrite insert_back_ok; [|exact N2|exact Fother|].
        * cbn [bind]. rewrite <- app_assoc. reflexivity.
        * intros k I J. rewrite map_app, score_names, Cn in J. apply in_app_iff in J. destruct J as [J|J]; [exact (D12 k I J)|]. apply (Dp k J). unfold result_keys. apply in_app_iff. right. exact I.
      + cbn [bind]. rewrite app_nil_r. reflexivity.
    - rewrite !map_app, score_names, Cn. apply nodup_app; [exact N1| |].
      + destruct detailed; [|cbn; rewrite app_nil_r; exact Np]. rewrite score_names. apply nodup_app; [exact Np|apply NoDup_filter; exact N2|]. intros k I J. apply filter_In in J. apply (Dp k I). unfold result_keys. apply in_app_iff. right. apply J.
      + intros k I J. apply in_app_iff in J. destruct J as [J|J]; [apply (Dp k J); unfold result_keys; apply in_app_iff; left; exact I|]. destruct detailed; [|destruct J]. rewrite score_names in J. apply filter_In in J. exact (D12 k (proj1 J) I).
    - intros n. rewrite L. split; [intros [[]|X]; exact X|auto].
  Qed.

  Lemma picked_names : forall draw l i f x, (forall s, In s l -> ~ SubString "__skrub_" s) -> In x (pick_from draw i l f) -> In x l \/ SubString "__skrub_" x.
  Proof.
    intros draw l. induction l as [|s l IH]; intros i f x U I; [destruct I|]. cbn in I. destruct I as [<-|I].
    - rewrite (get_new_name_spec _ s s [] f (no_tag_Untag s (U s (or_introl eq_refl)))). cbn [wanted]. destruct (in_dec eqd s f); [right|left; left; reflexivity].
      exists s, (draw i ++ "__")%string. reflexivity.
    - destruct (IH _ _ _ (fun s' I' => U s' (or_intror I')) I) as [J|J]; [left; right; exact J|right; exact J].
  Qed.
  Lemma take_nth : forall (col : list tcell) rows r, (forall i, In i rows -> i < length col) ->
    nth_error (flat_map (fun i => match nth_error col i with Some x => [x] | None => [] end) rows) r = match nth_error rows r with Some i => nth_error col i | None => None end.
  Proof.
    intros col rows. induction rows as [|i rows IH]; intros r B; [destruct r; reflexivity|]. cbn [flat_map]. destruct (nth_error col i) as [x|] eqn:E; [|apply nth_error_None in E; specialize (B i (or_introl eq_refl)); lia].
    destruct r as [|r]; cbn; [symmetry; exact E|]. apply IH. intros j I. apply B. right. exact I.
  Qed.
  Lemma take_length : forall (col : list tcell) rows, (forall i, In i rows -> i < length col) ->
    length (flat_map (fun i => match nth_error col i with Some x => [x] | None => [] end) rows) = length rows.
  Proof.
    intros col rows. induction rows as [|i rows IH]; intros B; [reflexivity|]. cbn [flat_map]. destruct (nth_error col i) as [x|] eqn:E; [|apply nth_error_None in E; specialize (B i (or_introl eq_refl)); lia].
    cbn. f_equal. apply IH. intros j I. apply B. right. exact I.
  Qed.
  Lemma combine_nth_error : forall (A B : Type) (l : list A) (l' : list B) j a b, nth_error l j = Some a -> nth_error l' j = Some b -> nth_error (combine l l') j = Some (a, b).
  Proof. induction l as [|x l IH]; intros [|y l'] [|j] a b E E'; try discriminate; cbn in *; [congruence|]. apply IH; assumption. Qed.
  Lemma dget_combine : forall (l l' : list string) j a b, NoDup l -> nth_error l j = Some a -> nth_error l' j = Some b -> dget a (combine l l') = Some b.
  Proof.
    induction l as [|x l IH]; intros [|y l'] [|j] a b N E E'; try discriminate; cbn in *.
    - injection E as ->. injection E' as ->. destruct (eqd a a); congruence.
    - inversion N as [|? ? N0 N1]; subst. destruct (eqd a x) as [->|D]; [exfalso; apply N0; exact (nth_error_In _ _ E)|]. exact (IH _ _ _ _ N1 E E').
  Qed.
  Lemma mapM_in : forall (A B : Type) (f : A -> res B) l bs b, mapM f l = Ok bs -> (In b bs <-> exists a, In a l /\ f a = Ok b).
  Proof.
    intros A B f l bs b E. apply mapM_Forall2 in E. induction E as [|a c l bs Ea E IH]; [split; [intros []|intros (a & [] & _)]|]. cbn. rewrite IH. split.
    - intros [<-|(x & I & Ex)]; [exists a; auto|exists x; auto].
    - intros (x & [<-|I] & Ex); [left; congruence|right; exists x; auto].
  Qed.
  Lemma forall2_nth : forall (A B : Type) (R : A -> B -> Prop) l l' i a, Forall2 R l l' -> nth_error l i = Some a -> exists b, nth_error l' i = Some b /\ R a b.
  Proof. intros A B R l l' i a F. revert i. induction F as [|x y l l' Rxy F IH]; intros [|i] E; try discriminate; [injection E as ->; exists y; auto|exact (IH i E)]. Qed.

  Lemma table_rows : forall draw (choices : dict nat choice) (names : dict nat string) scorers refit ms cands cv (detailed : bool),
    Fitted choices names scorers refit ms cands cv -> Fresh draw (length names) (map snd names) (result_keys ms) ->
    exists t logs order, cv_table draw choices names scorers refit (map named cands) cv detailed = Ok (t, logs) /\
      Permutation order (seq 0 (length cands)) /\ NoDup (map fst t) /\ (detailed = false -> length t = length ms + length names) /\
      (forall j m, nth_error ms j = Some m -> exists xs col, dget ("mean_test_" ++ m)%string cv = Some xs /\ nth_error t j = Some (("mean_test_" ++ m)%string, col) /\ length col = length cands /\
         forall r i, nth_error order r = Some i -> exists x, nth_error xs i = Some x /\ nth_error col r = Some (TScore x)) /\
      (forall j k n, nth_error names j = Some (k, n) -> exists n' col, nth_error t (length ms + j) = Some (n', col) /\ length col = length cands /\
         ((forall s, In s (map snd names) -> ~ SubString "__skrub_" s) -> ~ In n (result_keys ms) -> n' = n) /\
         (In n' logs <-> dget k choices = Some (Numeric true) /\ exists cand, In cand cands /\ In k (dkeys cand)) /\
         forall r i cand, nth_error order r = Some i -> nth_error cands i = Some cand ->
           exists x, nth_error col r = Some (TChoice x) /\
             match dget k cand with Some p => exists c v, dget k choices = Some c /\ Shown c p v /\ x = Some v | None => x = None end) /\
      (exists m xs, hd_error ms = Some m /\ dget ("mean_test_" ++ m)%string cv = Some xs /\ StronglySorted (Before (fun i => nth i xs None)) order) /\
      (forall k xs, detailed = true -> In k (other_keys ms) -> dget k cv = Some xs -> exists col, In (k, col) t /\ length col = length cands /\
         forall r i, nth_error order r = Some i -> exists x, nth_error xs i = Some x /\ nth_error col r = Some (TScore x)).
  Proof.
    intros draw choices names scorers refit ms cands cv detailed F Fr. destruct (table_shape draw choices names scorers refit ms cands cv detailed F Fr) as (rows & logs & logs' & X).
    set (new_names := pick_column_names draw (map snd names) (result_keys ms)) in *. cbv zeta in X.
    set (extra := if detailed then map (score_column cv) (filter (present cv) (other_keys ms)) else []) in *. set (t0 := map (score_column cv) (prefixed "mean_test_" ms) ++ choice_columns names new_names rows ++ extra) in *.
    destruct X as (E & R & Nt & Ln & EL & L). pose proof (Forall2_len _ _ _ R) as LR. destruct (fitted_ms_nonempty _ _ _ _ _ _ _ F) as (m0 & ms' & Ems).
    assert (Nnew : NoDup new_names).
    { unfold t0 in Nt. rewrite !map_app in Nt. apply nodup_app_r in Nt. apply nodup_app_l in Nt. unfold choice_columns in Nt. rewrite map_map in Nt. cbn in Nt. rewrite combine_map_snd in Nt by (rewrite map_length; lia). exact Nt. }
    destruct (f_mean _ _ _ _ _ _ _ F ("mean_test_" ++ m0)%string) as (xs0 & Exs0 & Lxs0); [rewrite Ems; left; reflexivity|].
    assert (Et0 : exists t1, t0 = (("mean_test_" ++ m0)%string, map TScore xs0) :: t1).
    { unfold t0. rewrite Ems. cbn [prefixed map app]. unfold score_column at 1, scores. rewrite Exs0. eexists. reflexivity. }
    destruct Et0 as (t1 & Et0). assert (Hs : sorted_rows (length cands) t0 = fold_right (insert_row (map TScore xs0 : list tcell)) [] (seq 0 (length cands))) by (rewrite Et0; reflexivity).
    destruct (rows_sorted (map TScore xs0) (length cands) 0) as [P S]. rewrite <- Hs in P, S. set (order := sorted_rows (length cands) t0) in *.
    assert (B : forall i, In i order -> i < length cands) by (intros i I; apply (Permutation_in _ P) in I; apply in_seq in I; lia).
    assert (Lo : length order = length cands) by (rewrite (Permutation_length P), seq_length; reflexivity).
    assert (At : forall j name col, nth_error t0 j = Some (name, col) -> length col = length cands ->
      exists col', nth_error (take_rows order t0) j = Some (name, col') /\ length col' = length cands /\ forall r i, nth_error order r = Some i -> nth_error col' r = nth_error col i).
    { intros j name col Ej Lc. eexists. split; [unfold take_rows; rewrite nth_error_map, Ej; reflexivity|]. cbn [fst snd]. split; [rewrite take_length; [exact Lo|intros i I; rewrite Lc; exact (B i I)]|].
      intros r i Er. rewrite take_nth by (intros i' I; rewrite Lc; exact (B i' I)). rewrite Er. reflexivity. }
    exists (take_rows order t0), logs, order. split; [exact E|]. split; [exact P|]. split; [unfold take_rows; rewrite map_map; exact Nt|]. split; [|split; [|split; [|split]]].
    - intros ->. unfold take_rows. rewrite map_length. unfold t0, extra, choice_columns, prefixed. rewrite !app_length, !map_length, combine_length, map_length. cbn. lia.
    - intros j m Ej. assert (I : In ("mean_test_" ++ m)%string (prefixed "mean_test_" ms)) by (apply in_map_iff; exists m; split; [reflexivity|exact (nth_error_In _ _ Ej)]).
      destruct (f_mean _ _ _ _ _ _ _ F _ I) as (xs & Exs & Lxs). destruct (At j ("mean_test_" ++ m)%string (map TScore xs)) as (col & Ec & Lc & Hc).
      + unfold t0. rewrite nth_error_app1 by (unfold prefixed; rewrite !map_length; apply nth_error_Some; congruence). unfold prefixed. rewrite !nth_error_map, Ej. cbn [option_map]. unfold score_column, scores. rewrite Exs. reflexivity.
      + rewrite map_length. exact Lxs.
      + exists xs, col. split; [exact Exs|]. split; [exact Ec|]. split; [exact Lc|]. intros r i Er. rewrite (Hc r i Er), nth_error_map. destruct (nth_error xs i) as [x|] eqn:Ex; [exists x; split; reflexivity|].
        apply nth_error_None in Ex. specialize (B i (nth_error_In _ _ Er)). lia.
    - intros j k n Ej. assert (Esn : nth_error (map snd names) j = Some n) by (rewrite nth_error_map, Ej; reflexivity).
      assert (exists n', nth_error new_names j = Some n') as (n' & En').
      { destruct (nth_error new_names j) as [n'|] eqn:Z; [exists n'; reflexivity|]. apply nth_error_None in Z. assert (j < length names) by (apply nth_error_Some; congruence). lia. }
      destruct (At (length ms + j) n' (map (fun row => TChoice (dget n row)) rows)) as (col & Ec & Lc & Hc).
      + unfold t0. rewrite nth_error_app2 by (unfold prefixed; rewrite !map_length; lia). unfold prefixed. rewrite !map_length. replace (length ms + j - length ms) with j by lia.
        rewrite nth_error_app1 by (unfold choice_columns; rewrite map_length, combine_length, map_length; apply Nat.min_glb_lt; apply nth_error_Some; congruence).
        unfold choice_columns. rewrite nth_error_map, (combine_nth_error _ _ _ _ _ _ _ Esn En'). reflexivity.
      + rewrite map_length. lia.
      + exists n', col. split; [exact Ec|]. split; [exact Lc|]. split; [|split].
        * intros U Nr. assert (SP : exists l1 l2, map snd names = l1 ++ n :: l2 /\ length l1 = j) by (apply nth_error_split; exact Esn). destruct SP as (l1 & l2 & El & Ll).
          destruct (pick_each_untagged draw l1 n l2 (result_keys ms)) as (p1 & pn & p2 & Ep & Lp & K & _); [apply U; rewrite El; apply in_app_iff; right; left; reflexivity|].
          assert (Enew : new_names = p1 ++ pn :: p2) by (unfold new_names; rewrite El; exact Ep). assert (pn = n').
          { rewrite Enew, nth_error_app2, Lp, Ll in En' by lia. rewrite Nat.sub_diag in En'. cbn in En'. congruence. }
          subst pn. apply K; [exact Nr|]. intros I. assert (Ip : In n (pick_from draw 0 l1 (result_keys ms))).
          { unfold pick_column_names in Ep. rewrite pick_app in Ep. assert (p1 = pick_from draw 0 l1 (result_keys ms)) as <-; [|exact I]. symmetry.
            assert (Z : forall (A : Type) (a a' b b' : list A), length a = length a' -> a ++ b = a' ++ b' -> a = a').
            { clear. intros A a. induction a as [|x a IH]; intros [|y a'] b b' Le Ee; try discriminate; [reflexivity|]. cbn in *. injection Ee as -> Ee. f_equal. apply (IH a' b b'); [lia|exact Ee]. }
            apply (Z _ _ _ _ _ (eq_trans (pick_length _ _ _ _) (eq_sym Lp)) Ep). }
          apply picked_names in Ip; [|intros s I'; apply U; rewrite El; apply in_app_iff; left; exact I']. destruct Ip as [Ip|Ip].
          -- pose proof (f_names _ _ _ _ _ _ _ F) as Nn. rewrite El in Nn. apply NoDup_remove_2 in Nn. apply Nn. apply in_app_iff. left. exact Ip.
          -- apply (U n); [rewrite El; apply in_app_iff; right; left; reflexivity|exact Ip].
        * rewrite (mapM_in _ _ _ _ _ n' EL). assert (G : forall a, lookup a (combine (map snd names) new_names) = Ok n' -> a = n).
          { intros a Ea. unfold lookup in Ea. destruct (dget a (combine (map snd names) new_names)) as [n''|] eqn:Da; [|discriminate]. injection Ea as ->.
            assert (exists j', nth_error (map snd names) j' = Some a /\ nth_error new_names j' = Some n') as (j' & A1 & A2).
            { apply dget_In_weak in Da. apply In_nth_error in Da. destruct Da as (j' & Da). exists j'. clear - Da. revert Da. generalize (map snd names). revert j'. induction new_names as [|y l' IH]; intros [|j'] [|x l] Da; cbn in *; try discriminate; [injection Da as -> ->; auto|exact (IH j' l Da)]. }
            assert (j' = j). { apply (proj1 (NoDup_nth_error new_names) Nnew); [apply nth_error_Some; congruence|congruence]. }
            subst j'. congruence. }
          assert (Lk : lookup n (combine (map snd names) new_names) = Ok n') by (unfold lookup; rewrite (dget_combine _ _ _ _ _ (f_names _ _ _ _ _ _ _ F) Esn En'); reflexivity).
          assert (Dk : dget k names = Some n). { apply dget_In_iff; [rewrite (f_keys _ _ _ _ _ _ _ F); exact (f_nodup _ _ _ _ _ _ _ F)|exact (nth_error_In _ _ Ej)]. }
          split.
          -- intros (a & Ia & Ea). rewrite (G a Ea) in Ia. apply L in Ia. destruct Ia as (k' & cand & Ic & Ek & Ik & Ch). assert (k' = k) as -> by exact (names_inj names (f_names _ _ _ _ _ _ _ F) _ _ _ Ek Dk). split; [exact Ch|]. exists cand. auto.
          -- intros (Ch & cand & Ic & Ik). exists n. split; [|exact Lk]. apply L. exists k, cand. auto.
        * intros r i cand Er Ei. rewrite (Hc r i Er), nth_error_map. destruct (forall2_nth _ _ _ _ _ _ _ R Ei) as (row & Erow & Ro). rewrite Erow. cbn. exists (dget n row). split; [reflexivity|].
          assert (Dk : dget k names = Some n). { apply dget_In_iff; [rewrite (f_keys _ _ _ _ _ _ _ F); exact (f_nodup _ _ _ _ _ _ _ F)|exact (nth_error_In _ _ Ej)]. }
          exact (Ro k n Dk).
    - exists m0, xs0. split; [rewrite Ems; reflexivity|]. split; [exact Exs0|].
      assert (Z : forall i, score_at (map TScore xs0 : list tcell) i = nth i xs0 None).
      { intros i. unfold score_at. rewrite nth_error_map. destruct (nth_error xs0 i) as [x|] eqn:Ex; cbn; [symmetry; apply nth_error_nth; exact Ex|]. symmetry. apply nth_overflow. apply nth_error_None. exact Ex. }
      clear - S Z. induction S as [|i l S IH Fa]; constructor; [exact IH|]. eapply Forall_impl; [|exact Fa]. intros j. unfold Before. rewrite !Z. auto.
    - intros k xs Hd Ik Exs. pose proof (f_other _ _ _ _ _ _ _ F k xs Ik Exs) as Lxs.
      assert (I0 : In (k, map TScore xs) t0).
      { unfold t0. apply in_app_iff. right. apply in_app_iff. right. unfold extra. rewrite Hd. apply in_map_iff. exists k. unfold score_column, scores. rewrite Exs. split; [reflexivity|]. apply filter_In. split; [exact Ik|]. unfold present. rewrite Exs. reflexivity. }
      apply In_nth_error in I0. destruct I0 as (j & Ej). destruct (At j k (map TScore xs) Ej) as (col & Ec & Lc & Hc); [rewrite map_length; exact Lxs|]. exists col. split; [exact (nth_error_In _ _ Ec)|]. split; [exact Lc|].
      intros r i Er. rewrite (Hc r i Er), nth_error_map. destruct (nth_error xs i) as [x|] eqn:Ex; [exists x; split; reflexivity|]. apply nth_error_None in Ex. specialize (B i (nth_error_In _ _ Er)). lia.
  Qed.
End Table.
