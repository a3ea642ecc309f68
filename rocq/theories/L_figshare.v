(** Fetching a figshare table: specification and lemmas. *)
From Verif Require Import Base M_str M_figshare L_dict L_str L_grid2.
From Coq Require Import Permutation.
Open Scope string_scope.
Open Scope list_scope.
Open Scope nat_scope.

(** ** Names *)
Fixpoint Digits (s : string) : Prop :=
  match s with EmptyString => True | String c s' => 48 <= nat_of_ascii c <= 57 /\ Digits s' end.

Lemma prefix_app : forall p q r, String.prefix (p ++ q) (p ++ r) = String.prefix q r.
Proof. induction p as [|a p IH]; intros q r; simpl; [reflexivity|]. destruct (ascii_dec a a); [apply IH|congruence]. Qed.
Lemma prefix_app_r : forall p s, String.prefix p (p ++ s) = true.
Proof. induction p as [|a p IH]; intros s; simpl; [destruct s; reflexivity|]. destruct (ascii_dec a a); [apply IH|congruence]. Qed.
Lemma prefix_digits : forall p q c s, Digits p -> ~ (48 <= nat_of_ascii c <= 57) -> String.prefix p (q ++ String c s) = true -> String.prefix p q = true.
Proof.
  induction p as [|a p IH]; intros q c s D Nc E; [destruct q; reflexivity|]. destruct D as [Da D]. destruct q as [|b q]; simpl in *.
  - destruct (ascii_dec a c) as [->|]; [contradiction|discriminate].
  - destruct (ascii_dec a b); [|discriminate]. exact (IH _ _ _ D Nc E).
Qed.
Lemma prefix_length : forall p q, String.prefix p q = true -> String.length p = String.length q -> p = q.
Proof.
  induction p as [|a p IH]; intros [|b q] E L; simpl in *; try discriminate; [reflexivity|].
  destruct (ascii_dec a b) as [->|]; [|discriminate]. f_equal. apply IH; congruence.
Qed.
Lemma app_inj_r : forall s t u : string, (s ++ u)%string = (t ++ u)%string -> s = t.
Proof.
  assert (L : forall x y, String.length (x ++ y) = String.length x + String.length y).
  { induction x; intros; simpl; auto. }
  induction s as [|a s IH]; intros [|b t] u E; simpl in E.
  - reflexivity.
  - apply (f_equal String.length) in E. simpl in E. rewrite L in E. lia.
  - apply (f_equal String.length) in E. simpl in E. rewrite L in E. lia.
  - injection E as -> E. f_equal. exact (IH _ _ E).
Qed.

Lemma base_prefix : forall id id' k, Digits id -> String.prefix (base id) (batch_name id' k) = String.prefix id id'.
Proof.
  intros id id' k D. unfold batch_name, base. rewrite (sapp_assoc "figshare_" id'), prefix_app.
  destruct (String.prefix id id') eqn:E.
  - clear D. revert id' E. induction id as [|a id IH]; intros [|b id'] E; simpl in *; try discriminate; try reflexivity.
    destruct (ascii_dec a b); [|discriminate]. apply IH, E.
  - destruct (String.prefix id (id' ++ "_" ++ str_nat k ++ ".parquet")) eqn:E2; [|reflexivity].
    apply (prefix_digits id id' "_"%char (str_nat k ++ ".parquet")%string D) in E2; [congruence|]. vm_compute. lia.
Qed.
Lemma batch_name_inj : forall id k k', batch_name id k = batch_name id k' -> k = k'.
Proof.
  intros id k k' E. unfold batch_name in E. apply sapp_inj_l in E. apply sapp_inj_l in E. apply app_inj_r in E. apply str_nat_inj, E.
Qed.

Section Figshare.
  Context {row : Type}.
  Variable size : nat.
  Hypothesis size_pos : size > 0.

  (** ** Specification *)
  (** The rows are those of the batches of the table, in some order of the batches. *)
  Definition SameBatches (table rows : list row) : Prop :=
    exists parts parts', concat parts = table /\ Forall (fun b => 0 < length b <= size) parts /\ Permutation parts parts' /\ rows = concat parts'.

  Lemma SameBatches_Permutation : forall table rows, SameBatches table rows -> Permutation rows table.
  Proof.
    intros table rows (ps & ps' & <- & _ & P & ->). symmetry. clear size_pos. induction P; simpl; auto.
    - apply Permutation_app_head, IHP.
    - rewrite !app_assoc. apply Permutation_app_tail, Permutation_app_comm.
    - etransitivity; eassumption.
  Qed.

  (** ** Batches *)
  Lemma concat_batches : forall (rows : list row) m, concat (map (fun i => firstn size (skipn (i * size) rows)) (seq 0 m)) = firstn (m * size) rows.
  Proof.
    intros rows. induction m as [|m IH]; [reflexivity|]. rewrite seq_S, map_app, concat_app, IH. simpl. rewrite app_nil_r.
    clear IH size_pos. generalize (m * size) as a. intros a. revert rows. induction a as [|a IH]; intros rows; [rewrite Nat.add_0_r; reflexivity|].
    destruct rows as [|r rows]; [rewrite !firstn_nil; reflexivity|]. rewrite (Nat.add_comm size (S a)). simpl. f_equal. rewrite IH. f_equal. lia.
  Qed.
  Lemma n_batches_enough : forall n, n <= n_batches size n * size.
  Proof.
    intros n. unfold n_batches. pose proof (Nat.div_mod (n + size - 1) size ltac:(lia)) as D. pose proof (Nat.mod_upper_bound (n + size - 1) size ltac:(lia)).
    rewrite Nat.mul_comm. lia.
  Qed.
  Lemma n_batches_tight : forall n i, i < n_batches size n -> i * size < n.
  Proof.
    intros n i L. unfold n_batches in L. pose proof (Nat.div_mod (n + size - 1) size ltac:(lia)) as D.
    assert (size * S i <= size * ((n + size - 1) / size)) by (apply Nat.mul_le_mono_l; lia). rewrite Nat.mul_comm. nia.
  Qed.
  Lemma batches_concat : forall rows : list row, concat (batches size rows) = rows.
  Proof. intros rows. unfold batches. rewrite concat_batches. apply firstn_all2, n_batches_enough. Qed.
  Lemma batches_size : forall rows : list row, Forall (fun b => 0 < length b <= size) (batches size rows).
  Proof.
    intros rows. apply Forall_forall. intros b I. apply in_map_iff in I. destruct I as (i & <- & Ii). apply in_seq in Ii.
    rewrite firstn_length, skipn_length. pose proof (n_batches_tight (length rows) i ltac:(lia)). lia.
  Qed.
  Lemma batches_length : forall rows : list row, length (batches size rows) = n_batches size (length rows).
  Proof. intros rows. unfold batches. rewrite map_length, seq_length. reflexivity. Qed.

  Lemma idx_tl_length : forall n, length (tl (idx size n)) = n_batches size n.
  Proof.
    clear size_pos. intros n. unfold idx. destruct (n_batches size n) as [|m]; [reflexivity|]. simpl. rewrite app_length, map_length, seq_length. simpl. lia.
  Qed.
  Lemma idx_tl_NoDup : forall n, NoDup (tl (idx size n)).
  Proof.
    intros n. assert (N : NoDup (idx size n)).
    { unfold idx. apply NoDup_app_intro.
      - apply FinFun.Injective_map_NoDup; [intros i j E; nia|apply seq_NoDup].
      - repeat constructor. intros [].
      - intros x I [<-|[]]. apply in_map_iff in I. destruct I as (i & E & Ii). apply in_seq in Ii. pose proof (n_batches_tight n i ltac:(lia)). lia. }
    destruct (idx size n); [constructor|]. inversion N; assumption.
  Qed.

  (** ** The files of a table *)
  Definition files (id : string) (rows : list row) : list (string * list row) :=
    combine (map (batch_name id) (tl (idx size (length rows)))) (batches size rows).
  Definition two (f : string * list row) : list (string * content row) := [(fst f, Broken); (fst f, Table (snd f))].

  Lemma files_names : forall id rows, map fst (files id rows) = map (batch_name id) (tl (idx size (length rows))).
  Proof.
    intros id rows. unfold files. assert (L : length (map (batch_name id) (tl (idx size (length rows)))) = length (batches size rows)).
    { rewrite map_length, idx_tl_length, batches_length. reflexivity. }
    revert L. generalize (batches size rows). generalize (map (batch_name id) (tl (idx size (length rows)))). clear.
    induction l as [|a l IH]; intros [|b bs] L; simpl in *; try discriminate; [reflexivity|]. f_equal. apply IH. congruence.
  Qed.
  Lemma files_data : forall id rows, map snd (files id rows) = batches size rows.
  Proof.
    intros id rows. unfold files. assert (L : length (map (batch_name id) (tl (idx size (length rows)))) = length (batches size rows)).
    { rewrite map_length, idx_tl_length, batches_length. reflexivity. }
    revert L. generalize (batches size rows). generalize (map (batch_name id) (tl (idx size (length rows)))). clear.
    induction l as [|a l IH]; intros [|b bs] L; simpl in *; try discriminate; [reflexivity|]. f_equal. apply IH. congruence.
  Qed.
  Lemma files_NoDup : forall id rows, NoDup (map fst (files id rows)).
  Proof.
    intros id rows. rewrite files_names. apply FinFun.Injective_map_NoDup; [intros k k'; apply batch_name_inj|apply idx_tl_NoDup].
  Qed.
  Lemma files_own : forall id rows n, In n (map fst (files id rows)) -> exists k, n = batch_name id k.
  Proof. intros id rows n I. rewrite files_names in I. apply in_map_iff in I. destruct I as (k & <- & _). eauto. Qed.

  Lemma writes_files : forall id rows, writes id (tl (idx size (length rows))) (batches size rows) = Ok (concat (map two (files id rows))).
  Proof.
    intros id rows. unfold files. assert (L : length (tl (idx size (length rows))) = length (batches size rows)) by (rewrite idx_tl_length, batches_length; reflexivity).
    revert L. generalize (batches size rows). generalize (tl (idx size (length rows))). clear.
    induction l as [|a l IH]; intros [|b bs] L; simpl in *; try discriminate; [reflexivity|]. rewrite IH by congruence. reflexivity.
  Qed.

  Lemma dget_writes : forall ws (c : cache row) n, dget n (apply_writes c ws) =
    match find (fun w => eqb_of (fst w) n) (rev ws) with Some w => Some (snd w) | None => dget n c end.
  Proof.
    intros ws c n. unfold apply_writes. rewrite <- (rev_involutive ws) at 1. induction (rev ws) as [|w l IH]; [reflexivity|].
    simpl. rewrite fold_left_app. simpl. destruct (eqb_of (fst w) n) eqn:E.
    - apply (proj1 (eqb_of_true _ _)) in E. rewrite <- E. rewrite dget_dset_eq. reflexivity.
    - apply (proj1 (eqb_of_false _ _)) in E. rewrite dget_dset_neq by congruence. exact IH.
  Qed.
  Lemma dkeys_writes : forall ws (c : cache row) n, In n (dkeys (apply_writes c ws)) <-> In n (map fst ws) \/ In n (dkeys c).
  Proof.
    unfold apply_writes. induction ws as [|w ws IH]; intros c n; simpl; [tauto|]. rewrite IH, dkeys_dset_iff. intuition congruence.
  Qed.
  Lemma NoDup_writes : forall ws (c : cache row), NoDup (dkeys c) -> NoDup (dkeys (apply_writes c ws)).
  Proof. unfold apply_writes. induction ws as [|w ws IH]; intros c N; simpl; [exact N|]. apply IH, dset_NoDup, N. Qed.

  Lemma two_names : forall (fs : list (string * list row)) n, In n (map fst (concat (map two fs))) <-> In n (map fst fs).
  Proof. induction fs as [|f fs IH]; intros n; simpl; [tauto|]. rewrite IH. tauto. Qed.

  Lemma dget_all : forall (fs : list (string * list row)) (c : cache row) n rows, NoDup (map fst fs) -> In (n, rows) fs ->
    dget n (apply_writes c (concat (map two fs))) = Some (Table rows).
  Proof.
    intros fs. induction fs as [|[m r] fs IH]; intros c n rows N I; [destruct I|]. simpl in N. inversion N as [|? ? N1 N2]; subst.
    change (dget n (apply_writes (dset m (Table r) (dset m Broken c)) (concat (map two fs))) = Some (Table rows)).
    destruct I as [E|I]; [|exact (IH _ n rows N2 I)]. injection E as -> ->. rewrite dget_writes.
    destruct (find _ (rev (concat (map two fs)))) as [w|] eqn:F; [|apply dget_dset_eq]. exfalso. apply N1. apply find_some in F. destruct F as [F1 F2].
    apply (proj1 (eqb_of_true _ _)) in F2. rewrite <- F2. apply two_names. apply in_map. rewrite in_rev. exact F1.
  Qed.
  Lemma dget_others : forall ws (c : cache row) n, ~ In n (map fst ws) -> dget n (apply_writes c ws) = dget n c.
  Proof.
    intros ws c n Nn. rewrite dget_writes. destruct (find _ (rev ws)) as [w|] eqn:F; [|reflexivity]. exfalso. apply Nn. apply find_some in F. destruct F as [F1 F2].
    apply (proj1 (eqb_of_true _ _)) in F2. rewrite <- F2. apply in_map. rewrite in_rev. exact F1.
  Qed.

  (** ** Reading *)
  Lemma read_files : forall (c : cache row) (fs : list (string * list row)), (forall n r, In (n, r) fs -> dget n c = Some (Table r)) -> fs <> [] ->
    read c (map fst fs) = Ok (concat (map snd fs)).
  Proof.
    intros c fs Hf Ne. unfold read. assert (E : mapM (read1 c) (map fst fs) = Ok (map snd fs)).
    { clear Ne. induction fs as [|[n r] fs IH]; [reflexivity|]. simpl. unfold read1 at 1. rewrite (Hf n r (or_introl eq_refl)). cbn [bind].
      rewrite IH by (intros; apply Hf; right; assumption). reflexivity. }
    destruct fs as [|f fs]; [congruence|]. cbn [map]. cbn [map] in E. rewrite E. reflexivity.
  Qed.
  Lemma read_broken : forall (c : cache row) paths n, In n paths -> dget n c = Some Broken -> exists e, read c paths = Err e.
  Proof.
    intros c paths n I E. unfold read. assert (G : exists e, mapM (read1 c) paths = Err e).
    { induction paths as [|p paths IH]; [destruct I|]. simpl. destruct I as [->|I].
      - unfold read1 at 1. rewrite E. eexists; reflexivity.
      - destruct (IH I) as (e & Ee). rewrite Ee. destruct (read1 c p); eexists; reflexivity. }
    destruct G as (e & Ee). destruct paths; [destruct I|]. rewrite Ee. eexists; reflexivity.
  Qed.

  Variable listing : cache row -> list string.
  Hypothesis listing_perm : forall c, Permutation (listing c) (dkeys c).

  Definition Clear (id : string) (c : cache row) : Prop := forall n, In n (dkeys c) -> String.prefix (base id) n = false.
  Definition Holds (id : string) (c : cache row) (fs : list (string * list row)) : Prop :=
    (forall n, In n (dkeys c) -> String.prefix (base id) n = true -> In n (map fst fs)) /\
    (forall n r, In (n, r) fs -> String.prefix (base id) n = true /\ dget n c = Some (Table r)).

  Lemma found_clear : forall id c, Clear id c <-> found listing id c = [].
  Proof.
    intros id c. unfold found. split.
    - intros HC. assert (F : forall n, In n (listing c) -> String.prefix (base id) n = false).
      { intros n I. apply HC. apply (Permutation_in _ (listing_perm c)), I. }
      induction (listing c) as [|a l IH]; [reflexivity|]. simpl. rewrite (F a (or_introl eq_refl)). apply IH. intros n I. apply F. right. exact I.
    - intros E n I. destruct (String.prefix (base id) n) eqn:P; [|reflexivity]. exfalso.
      assert (X : In n (filter (String.prefix (base id)) (listing c))).
      { apply filter_In. split; [|exact P]. apply (Permutation_in _ (Permutation_sym (listing_perm c))), I. }
      rewrite E in X. destruct X.
  Qed.
  Lemma found_holds : forall id c fs, NoDup (dkeys c) -> NoDup (map fst fs) -> Holds id c fs ->
    exists fs', Permutation fs fs' /\ found listing id c = map fst fs'.
  Proof.
    intros id c fs Nc Nf (H1 & H2). assert (P : Permutation (found listing id c) (map fst fs)).
    { apply NoDup_Permutation; [|exact Nf|].
      - unfold found. apply NoDup_filter. apply (Permutation_NoDup (Permutation_sym (listing_perm c))), Nc.
      - intros n. unfold found. rewrite filter_In. split.
        + intros (I & Pn). apply H1; [|exact Pn]. apply (Permutation_in _ (listing_perm c)), I.
        + intros I. apply in_map_iff in I. destruct I as ((m & r) & <- & I). destruct (H2 m r I) as (Pm & Em). split; [|exact Pm].
          apply (Permutation_in _ (Permutation_sym (listing_perm c))). apply dget_in_keys. exists (Table r). exact Em. }
    apply Permutation_map_inv in P. destruct P as (fs' & E & P). exists fs'. split; [exact P|exact E].
  Qed.

  Variable verify : string -> list row -> bool.
  Variable table : string -> list row.
  (** Identifiers in use. *)
  Variable ids : list string.
  Hypothesis verified : forall id rows, In id ids -> verify id rows = true -> rows = table id.
  Hypothesis ids_digits : forall id, In id ids -> Digits id.
  Hypothesis ids_prefix : forall id id', In id ids -> In id' ids -> String.prefix id id' = true -> id = id'.

  Definition Ok_for (c : cache row) (id : string) : Prop := Clear id c \/ Holds id c (files id (table id)).
  Definition Inv (c : cache row) : Prop := NoDup (dkeys c) /\ forall id, In id ids -> Ok_for c id.

  Lemma other_prefix : forall id id' k, In id ids -> In id' ids -> id <> id' -> String.prefix (base id) (batch_name id' k) = false.
  Proof.
    intros id id' k I I' Ne. rewrite base_prefix by (apply ids_digits, I). destruct (String.prefix id id') eqn:E; [|reflexivity].
    exfalso. apply Ne. exact (ids_prefix _ _ I I' E).
  Qed.
  Lemma own_prefix : forall id k, In id ids -> String.prefix (base id) (batch_name id k) = true.
  Proof. intros id k _. unfold batch_name. apply prefix_app_r. Qed.

  Lemma written_other : forall c id id' ws, In id ids -> In id' ids -> id <> id' ->
    (forall n, In n (map fst ws) -> exists k, n = batch_name id' k) -> Ok_for c id -> Ok_for (apply_writes c ws) id.
  Proof.
    intros c id id' ws I I' Ne Hw [HC|(H1 & H2)].
    - left. intros n In_. apply dkeys_writes in In_. destruct In_ as [In_|In_]; [|exact (HC n In_)]. destruct (Hw n In_) as (k & ->). apply other_prefix; assumption.
    - right. split.
      + intros n In_ P. apply dkeys_writes in In_. destruct In_ as [In_|In_]; [|exact (H1 n In_ P)].
        destruct (Hw n In_) as (k & ->). rewrite other_prefix in P by assumption. discriminate.
      + intros n r Ir. destruct (H2 n r Ir) as (P & E). split; [exact P|]. rewrite dget_others; [exact E|].
        intros In_. destruct (Hw n In_) as (k & ->). rewrite other_prefix in P by assumption. discriminate.
  Qed.
  Lemma written_own : forall c id fs, Clear id c -> NoDup (map fst fs) -> (forall n, In n (map fst fs) -> String.prefix (base id) n = true) ->
    Holds id (apply_writes c (concat (map two fs))) fs.
  Proof.
    intros c id fs HC N Hp. split.
    - intros n I P. apply dkeys_writes in I. destruct I as [I|I]; [apply two_names, I|]. rewrite (HC n I) in P. discriminate.
    - intros n r I. split; [apply Hp; change n with (fst (n, r)); apply in_map, I|]. apply dget_all; assumption.
  Qed.

  (** *** One fetch *)
  Lemma fetch_inv : forall c id served killed c' r, Inv c -> In id ids -> (killed = None \/ killed = Some 0) ->
    load size listing verify c id served killed = (c', r) ->
    Inv c' /\ match r with
              | Ok rows => SameBatches (table id) rows
              | Err _ => killed = Some 0 \/ served = None \/ (exists s, served = Some s /\ verify id s = false) \/ table id = []
              end.
  Proof.
    intros c id served killed c' r (Nc & HI) Iid Hk E. unfold load, fetch in E. destruct (found listing id c) as [|f0 fs0] eqn:Ef.
    - assert (HC : Clear id c) by (apply found_clear, Ef).
      destruct served as [rows|]; [|injection E as <- <-; split; [split; assumption|right; left; reflexivity]].
      destruct (verify id rows) eqn:Ev; [|injection E as <- <-; split; [split; assumption|right; right; left; eauto]].
      rewrite writes_files in E. pose proof (verified id rows Iid Ev). subst rows.
      destruct killed as [k|]; [destruct Hk as [X|X]; [discriminate|injection X as ->]|]; injection E as <- <-; [split; [split; assumption|left; reflexivity]|].
      cbn [bind]. rewrite <- files_names.
      assert (Hown : forall n, In n (map fst (files id (table id))) -> String.prefix (base id) n = true).
      { intros n I. destruct (files_own _ _ _ I) as (k & ->). apply own_prefix, Iid. }
      pose proof (written_own c id (files id (table id)) HC (files_NoDup id (table id)) Hown) as HH. split.
      + split; [apply NoDup_writes, Nc|]. intros id' I'. destruct (string_dec id' id) as [->|Ne]; [right; exact HH|].
        apply (written_other c id' id); auto. intros n In_. apply two_names in In_. apply (files_own _ _ _ In_).
      + assert (D : files id (table id) = [] \/ files id (table id) <> []) by (destruct (files id (table id)); [left; reflexivity|right; discriminate]).
        destruct D as [Efs|Nfs].
        * rewrite Efs. simpl. right. right. right. rewrite <- (batches_concat (table id)). rewrite <- (files_data id), Efs. reflexivity.
        * rewrite read_files; [|intros n r Ir; apply HH, Ir|exact Nfs]. rewrite files_data.
          exists (batches size (table id)), (batches size (table id)). repeat split; [apply batches_concat|apply batches_size|reflexivity].
    - apply pair_equal_spec in E. destruct E as [<- <-]. split; [split; assumption|]. cbn [bind]. destruct (HI id Iid) as [HC|HH].
      { apply found_clear in HC. rewrite HC in Ef. discriminate. }
      destruct (found_holds id c _ Nc (files_NoDup id (table id)) HH) as (fs' & P & Efs'). rewrite <- Ef, Efs'.
      rewrite read_files.
      + exists (batches size (table id)), (map snd fs'). rewrite <- (files_data id (table id)) at 1.
        repeat split; [rewrite files_data; apply batches_concat|apply batches_size| ]. rewrite <- (files_data id (table id)). apply Permutation_map, P.
      + intros n r Ir. apply HH. apply (Permutation_in _ (Permutation_sym P)), Ir.
      + intros X. rewrite X in Efs'. rewrite Efs' in Ef. discriminate.
  Qed.

  Theorem loads_inv : forall evs c c' rs, Inv c -> (forall id s k, In (id, s, k) evs -> In id ids /\ (k = None \/ k = Some 0)) ->
    loads size listing verify c evs = (c', rs) ->
    Inv c' /\ Forall2 (fun ev r => match r with Ok rows => SameBatches (table (fst (fst ev))) rows | Err _ => True end) evs rs.
  Proof.
    induction evs as [|[[id s] k] evs IH]; intros c c' rs HI Hev E; simpl in E.
    - injection E as <- <-. split; [exact HI|constructor].
    - destruct (load size listing verify c id s k) as [c1 r] eqn:E1. destruct (loads size listing verify c1 evs) as [c2 rs2] eqn:E2.
      injection E as <- <-. destruct (Hev id s k (or_introl eq_refl)) as (Iid & Hk).
      destruct (fetch_inv c id s k c1 r HI Iid Hk E1) as (HI1 & Hr).
      destruct (IH c1 c2 rs2 HI1 (fun a b d I => Hev a b d (or_intror I)) E2) as (HI2 & F). split; [exact HI2|].
      constructor; [|exact F]. simpl. destruct r; [exact Hr|exact I].
  Qed.

  (** *** A fetch that works *)
  Theorem fetch_works : forall c id, Inv c -> In id ids -> verify id (table id) = true -> table id <> [] ->
    exists c' rows, load size listing verify c id (Some (table id)) None = (c', Ok rows) /\ SameBatches (table id) rows.
  Proof.
    intros c id HI Iid Ev Ne. destruct (load size listing verify c id (Some (table id)) None) as [c' r] eqn:E.
    destruct (fetch_inv c id _ _ c' r HI Iid (or_introl eq_refl) E) as (_ & Hr). destruct r as [rows|e]; [eauto|].
    exfalso. destruct Hr as [X|[X|[(s & X & Y)|X]]]; try discriminate; [|contradiction]. injection X as <-. congruence.
  Qed.
End Figshare.

(** *** Crashes *)
Section Crash.
  Context {row : Type}.
  Variable size : nat.
  Hypothesis size_pos : size > 0.
  Variable listing : cache row -> list string.
  Hypothesis listing_perm : forall c, Permutation (listing c) (dkeys c).
  Variable verify : string -> list row -> bool.

  Lemma firstn_two : forall (fs : list (string * list row)) j, firstn (2 * j) (concat (map two fs)) = concat (map two (firstn j fs)).
  Proof.
    induction fs as [|f fs IH]; intros [|j]; try reflexivity.
    replace (2 * S j) with (S (S (2 * j))) by lia. cbn [map concat two app firstn]. rewrite IH. reflexivity.
  Qed.
  Lemma firstn_two_odd : forall (fs : list (string * list row)) j f, nth_error fs j = Some f ->
    firstn (2 * j + 1) (concat (map two fs)) = concat (map two (firstn j fs)) ++ [(fst f, Broken)].
  Proof.
    induction fs as [|g fs IH]; intros [|j] f E; simpl in E; try discriminate.
    - injection E as ->. reflexivity.
    - replace (2 * S j + 1) with (S (S (2 * j + 1))) by lia. cbn [map concat two app firstn]. rewrite (IH j f E). reflexivity.
  Qed.
  Lemma NoDup_firstn_names : forall j (fs : list (string * list row)), NoDup (map fst fs) -> NoDup (map fst (firstn j fs)).
  Proof. intros j fs N. rewrite <- (firstn_skipn j fs), map_app in N. apply NoDup_app_l in N. exact N. Qed.

  Lemma concat_firstn_le : forall (l : list (list row)) j, Forall (fun b => 0 < length b <= size) l -> concat (firstn j l) = concat l -> firstn j l = l.
  Proof.
    induction l as [|b l IH]; intros [|j] F E; simpl in *; try reflexivity.
    - inversion F as [|? ? L F']; subst. destruct b; [simpl in L; lia|discriminate].
    - inversion F; subst. apply app_inv_head in E. rewrite IH by assumption. reflexivity.
  Qed.

  Theorem crash_result : forall c id rows k served killed, NoDup (dkeys c) -> Digits id -> Clear id c -> verify id rows = true ->
    let c' := fst (fetch size listing verify c id (Some rows) (Some k)) in
    k < 2 * n_batches size (length rows) ->
    match k with
    | 0 => c' = c
    | _ => if Nat.even k
           then exists part got, snd (load size listing verify c' id served killed) = Ok got /\ part = firstn (k / 2) (batches size rows) /\
                  (exists part', Permutation part part' /\ got = concat part') /\ length got < length rows
           else exists e, snd (load size listing verify c' id served killed) = Err e
    end.
  Proof.
    intros c id rows k served killed Nc Did HC Ev c' Lk. assert (Ef : found listing id c = []) by (apply (found_clear listing listing_perm id c), HC).
    assert (Ec' : c' = apply_writes c (firstn k (concat (map two (files size id rows))))).
    { unfold c', fetch. rewrite Ef, Ev, (writes_files size id rows). reflexivity. }
    clearbody c'. assert (Hown : forall n, In n (map fst (files size id rows)) -> String.prefix (base id) n = true).
    { intros n I. destruct (files_own size id rows n I) as (i & ->). rewrite base_prefix by exact Did.
      pose proof (prefix_app_r id "") as X. rewrite sapp_nil_r in X. exact X. }
    assert (Lf : length (files size id rows) = n_batches size (length rows)).
    { rewrite <- (map_length snd), (files_data size id rows), (batches_length size rows). reflexivity. }
    assert (Nf := files_NoDup size size_pos id rows).
    destruct k as [|k0]; [rewrite Ec'; reflexivity|]. set (k := S k0) in *. assert (k > 0) by (unfold k; lia). clearbody k. clear k0.
    destruct (Nat.even k) eqn:Ek.
    - apply Nat.even_spec in Ek. destruct Ek as (j & ->). rewrite firstn_two in Ec'.
      replace (2 * j / 2) with j by (rewrite Nat.mul_comm; symmetry; apply Nat.div_mul; lia).
      set (fs := firstn j (files size id rows)) in *.
      assert (N : NoDup (map fst fs)) by (apply NoDup_firstn_names, Nf).
      assert (Hp : forall n, In n (map fst fs) -> String.prefix (base id) n = true).
      { intros n I. apply Hown. rewrite <- (firstn_skipn j (files size id rows)), map_app, in_app_iff. left. exact I. }
      pose proof (written_own c id fs HC N Hp) as HH. rewrite <- Ec' in HH.
      assert (Nc' : NoDup (dkeys c')) by (rewrite Ec'; apply NoDup_writes, Nc).
      destruct (found_holds listing listing_perm id c' fs Nc' N HH) as (fs' & P & Efs').
      assert (Ne : fs' <> []). { intros ->. apply Permutation_sym, Permutation_nil in P. apply (f_equal (@length _)) in P. unfold fs in P. rewrite firstn_length in P. simpl in P. lia. }
      assert (El : snd (load size listing verify c' id served killed) = Ok (concat (map snd fs'))).
      { unfold load, fetch. rewrite Efs'. destruct fs' as [|f1 fs1]; [congruence|]. cbn [map]. cbn [snd bind].
        apply (read_files c' (f1 :: fs1)); [|discriminate]. intros n r I. apply HH. apply (Permutation_in _ (Permutation_sym P)), I. }
      exists (firstn j (batches size rows)), (concat (map snd fs')). split; [exact El|]. split; [reflexivity|].
      assert (Pb : Permutation (firstn j (batches size rows)) (map snd fs')).
      { rewrite <- (files_data size id rows), firstn_map. fold fs. apply Permutation_map, P. }
      split; [eexists; split; [exact Pb|reflexivity]|].
      assert (Lg : length (concat (map snd fs')) = length (concat (firstn j (batches size rows)))).
      { clear -Pb. symmetry. induction Pb; simpl; rewrite ?app_length; try lia. }
      rewrite Lg. pose proof (batches_concat size size_pos rows) as Bc. pose proof (batches_size size size_pos rows) as Bs.
      rewrite <- Bc at 2. rewrite <- (firstn_skipn j (batches size rows)) at 2. rewrite concat_app, app_length.
      destruct (skipn j (batches size rows)) as [|b bs] eqn:Es.
      + exfalso. apply (f_equal (@length _)) in Es. rewrite skipn_length, (batches_length size rows) in Es. simpl in Es. lia.
      + assert (Ib : In b (batches size rows)) by (rewrite <- (firstn_skipn j (batches size rows)), in_app_iff, Es; right; left; reflexivity).
        rewrite Forall_forall in Bs. specialize (Bs b Ib). simpl. rewrite app_length. lia.
    - assert (Eo : Nat.odd k = true) by (rewrite <- Nat.negb_even, Ek; reflexivity). apply Nat.odd_spec in Eo. destruct Eo as (j & ->).
      destruct (nth_error (files size id rows) j) as [f|] eqn:Enf.
      2:{ apply nth_error_None in Enf. lia. }
      rewrite (firstn_two_odd _ j f Enf) in Ec'.
      assert (Eb : dget (fst f) c' = Some Broken).
      { rewrite Ec'. unfold apply_writes. rewrite fold_left_app. simpl. apply dget_dset_eq. }
      assert (If : In (fst f) (found listing id c')).
      { unfold found. apply filter_In. split.
        - apply (Permutation_in _ (Permutation_sym (listing_perm c'))). apply dget_in_keys. exists Broken. exact Eb.
        - apply Hown. apply in_map. eapply nth_error_In, Enf. }
      unfold load, fetch. destruct (found listing id c') as [|p ps] eqn:Ep; [destruct If|]. cbn [snd bind].
      apply (read_broken c' (p :: ps) (fst f)); assumption.
  Qed.
End Crash.
