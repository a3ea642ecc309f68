(** What concatenating tables in a pipeline is to do, and proofs about the model. *)
From Verif Require Import Base L_dict M_names L_names M_concatstep.
From Coq Require Import Lia.
Open Scope string_scope.
Open Scope list_scope.
Open Scope nat_scope.
Set Default Proof Using "Type".

Lemma mapM_fails {X Y} (f : X -> res Y) : forall l, (exists x e, In x l /\ f x = Err e) -> exists e, mapM f l = Err e.
Proof.
  induction l as [|y l IH]; intros (x & e & I & E); [destruct I|]. cbn. destruct I as [->|I]; [rewrite E; exists e; reflexivity|].
  destruct (f y) as [b|e']; [|exists e'; reflexivity]. cbn. destruct (IH (ex_intro _ x (ex_intro _ e (conj I E)))) as (e' & ->). exists e'. reflexivity.
Qed.

Section Proofs.
  Variable A : Type.
  Notation table := (table A).
  Notation value := (value A).

  (** * Specification *)
  Definition Columns (t : table) : list (list (option A)) := map snd (cols t).
  Definition Names (t : table) : list string := map fst (cols t).
  (** tables of one library, with the same number of rows, that all columns have *)
  Definition Fits (l : lib) (n : nat) (t : table) : Prop :=
    tlib t = l /\ nrows t = n /\ forall c, In c (Columns t) -> length c = n.
  (** the columns of all tables, in order *)
  Definition AllColumns (ts : list table) : list (list (option A)) := flat_map Columns ts.
  (** methods of estimators that compute previews or fit *)
  Definition fitting : list string := ["preview"; "fit"; "fit_transform"; "fit_predict"].
  Definition answering : list string := ["transform"; "predict"; "predict_proba"; "decision_function"; "score"].
  (** a call of the step on tables *)
  Definition on (m : string) (d : nat -> string) (t : table) (ts : list table) : call A :=
    {| c_draw := d; c_mode := m; c_first := VTable t; c_others := OItems (map VTable ts) |}.

  (** * Lemmas *)
  Lemma modes : (forall m, In m fitting -> stores m = true) /\ (forall m, In m answering -> stores m = false).
  Proof. split; intros m I; cbn in I; repeat (destruct I as [<-|I]; [vm_compute; reflexivity|]); destruct I. Qed.

  Lemma find_tables : forall ts : list table, find (fun v => negb (is_table A v)) (map VTable ts) = None.
  Proof. induction ts as [|t ts IH]; [reflexivity|exact IH]. Qed.
  Lemma options_tables : forall ts : list table, map (to_option A) (map VTable ts) = map Some ts.
  Proof. intros ts. rewrite map_map. reflexivity. Qed.

  Lemma most_rows_same : forall n (ts : list table), ts <> [] -> (forall t, In t ts -> nrows t = n) -> most_rows A ts = n.
  Proof.
    intros n ts. unfold most_rows. induction ts as [|t ts IH]; intros N H; [congruence|]. cbn. rewrite (H t (or_introl eq_refl)).
    destruct ts as [|t' ts]; [cbn; lia|]. rewrite IH; [lia|discriminate|]. intros x I. apply H. right. exact I.
  Qed.
  Lemma mapM_libs : forall l e (ts : list table), (forall t, In t ts -> tlib t = l) ->
    mapM (fun o => match o with Some t => if eqb_lib (tlib t) l then Ok t else Err e | None => Err e end) (map Some ts) = Ok ts.
  Proof.
    intros l e. induction ts as [|t ts IH]; intros H; [reflexivity|]. cbn. rewrite (H t (or_introl eq_refl)).
    replace (eqb_lib l l) with true by (destruct l; reflexivity). cbn. rewrite IH; [reflexivity|]. intros x I. apply H. right. exact I.
  Qed.
  Lemma concat_tables_fits : forall d l n t ts, (forall x, In x (t :: ts) -> Fits l n x) ->
    concat_tables A d t (map Some ts) = Ok {| tlib := l; nrows := n; cols := side_by_side A d n (t :: ts) |}.
  Proof.
    intros d l n t ts H. unfold concat_tables. destruct (H t (or_introl eq_refl)) as (L & R & _).
    assert (Lt : forall x, In x ts -> tlib x = l) by (intros x I; exact (proj1 (H x (or_intror I)))).
    assert (M : most_rows A (t :: ts) = n) by (apply most_rows_same; [discriminate|intros x I; exact (proj1 (proj2 (H x I)))]).
    rewrite L. destruct l; rewrite (mapM_libs _ _ ts Lt); cbn [bind]; rewrite M; [|reflexivity].
    rewrite R, Nat.eqb_refl. reflexivity.
  Qed.
  Lemma pad_same : forall n c, length c = n -> pad A n c = c.
  Proof. intros n c <-. unfold pad. rewrite Nat.sub_diag. apply app_nil_r. Qed.
  Lemma side_names : forall d n ts, map fst (side_by_side A d n ts) = pick_column_names d (flat_map Names ts) [].
  Proof.
    intros d n ts. unfold side_by_side. rewrite map_map. rewrite map_ext with (g := fst) by (intros [a c]; reflexivity).
    pose proof (make_unique_names d (map cols ts) 0 []) as E. unfold make_column_names_unique, column_names in *. etransitivity; [exact E|].
    unfold pick_column_names. f_equal. clear. induction ts as [|t ts IH]; [reflexivity|]. cbn. rewrite map_app. f_equal. exact IH.
  Qed.
  Lemma side_data : forall d n ts, (forall x c, In x ts -> In c (Columns x) -> length c = n) ->
    map snd (side_by_side A d n ts) = AllColumns ts.
  Proof.
    intros d n ts H. unfold side_by_side. rewrite map_map. rewrite map_ext with (g := fun x => pad A n (snd x)) by (intros [a c]; reflexivity).
    pose proof (make_unique_data d (map cols ts) 0 []) as E. unfold make_column_names_unique, column_data in *.
    rewrite <- (map_map snd (pad A n)). etransitivity; [exact (f_equal (map (pad A n)) E)|].
    unfold AllColumns, Columns in *. clear E. induction ts as [|t ts IH]; [reflexivity|]. cbn. rewrite !map_app. f_equal.
    - rewrite <- (map_id (map snd (cols t))) at 2. apply map_ext_in. intros c I. apply pad_same. exact (H t c (or_introl eq_refl) I).
    - apply IH. intros x c I. apply H. right. exact I.
  Qed.

  (** * Theorems *)
  (** fitting *)
  Theorem fit_ok : forall d m st l n t ts, In m fitting -> (forall x, In x (t :: ts) -> Fits l n x) ->
    exists out, concat_step d m st (VTable t) (OItems (map VTable ts)) = (Ok out, Some (Names out)) /\
      Fits l n out /\ Columns out = AllColumns (t :: ts) /\
      (Fresh d (length (flat_map Names (t :: ts))) (flat_map Names (t :: ts)) [] -> NoDup (Names out)) /\
      ((forall s, In s (flat_map Names (t :: ts)) -> ~ SubString "__skrub_" s) -> NoDup (flat_map Names (t :: ts)) -> Names out = flat_map Names (t :: ts)).
  Proof.
    intros d m st l n t ts M H. unfold concat_step. rewrite find_tables, options_tables, (concat_tables_fits d l n t ts H), (proj1 modes m M).
    eexists. split; [reflexivity|].
    assert (D : map snd (side_by_side A d n (t :: ts)) = AllColumns (t :: ts)) by (apply side_data; intros x c I; exact (proj2 (proj2 (H x I)) c)).
    split; [|split; [exact D|split]].
    - split; [reflexivity|]. split; [reflexivity|]. unfold Columns. cbn [cols]. rewrite D. unfold AllColumns. intros c I. apply in_flat_map in I.
      destruct I as (x & Ix & Ic). exact (proj2 (proj2 (H x Ix)) c Ic).
    - intros F. unfold Names at 1. cbn [cols]. rewrite side_names. apply pick_distinct. exact F.
    - intros S N. unfold Names at 1. cbn [cols]. rewrite side_names. unfold pick_column_names. apply pick_identity; [|exact N].
      intros s I. split; [exact (S s I)|intros []].
  Qed.
  (** later calls: the stored names on the columns, in order *)
  Lemma rename_all : forall names (f : frame (list (option A))), length names = length f -> rename_first A names f = combine names (map snd f).
  Proof.
    induction names as [|n names IH]; intros [|[a c] f] L; try discriminate L; [reflexivity|]. cbn. f_equal. apply IH. injection L as L. exact L.
  Qed.
  Lemma map_fst_combine : forall X Y (a : list X) (b : list Y), length a = length b -> map fst (combine a b) = a.
  Proof. induction a as [|x a IH]; intros [|y b] L; try discriminate L; [reflexivity|]. cbn. f_equal. apply IH. injection L as L. exact L. Qed.
  Lemma map_snd_combine : forall X Y (a : list X) (b : list Y), length a = length b -> map snd (combine a b) = b.
  Proof. induction a as [|x a IH]; intros [|y b] L; try discriminate L; [reflexivity|]. cbn. f_equal. apply IH. injection L as L. exact L. Qed.
  Lemma distinct_spec : forall l, distinct l = true <-> NoDup l.
  Proof.
    induction l as [|x l IH]; cbn; [split; [constructor|reflexivity]|]. rewrite Bool.andb_true_iff, Bool.negb_true_iff, IH, mem_false.
    split; [intros [X Y]; constructor; assumption|intros N; inversion N; split; assumption].
  Qed.
  Theorem later_ok : forall d m names l n t ts, In m answering -> (forall x, In x (t :: ts) -> Fits l n x) ->
    length names = length (AllColumns (t :: ts)) -> NoDup names ->
    exists out, concat_step d m (Some names) (VTable t) (OItems (map VTable ts)) = (Ok out, Some names) /\
      Fits l n out /\ Names out = names /\ Columns out = AllColumns (t :: ts).
  Proof.
    intros d m names l n t ts M H L N. unfold concat_step. rewrite find_tables, options_tables, (concat_tables_fits d l n t ts H), (proj2 modes m M).
    assert (D : map snd (side_by_side A d n (t :: ts)) = AllColumns (t :: ts)) by (apply side_data; intros x c I; exact (proj2 (proj2 (H x I)) c)).
    assert (L' : length names = length (side_by_side A d n (t :: ts))) by (rewrite L, <- D, map_length; reflexivity).
    assert (L2 : length names = length (map snd (side_by_side A d n (t :: ts)))) by (rewrite map_length; exact L').
    assert (R : exists f, relabel A {| tlib := l; nrows := n; cols := side_by_side A d n (t :: ts) |} names = Ok {| tlib := l; nrows := n; cols := f |} /\
                          map fst f = names /\ map snd f = AllColumns (t :: ts)).
    { unfold relabel. cbn [tlib nrows cols]. exists (combine names (map snd (side_by_side A d n (t :: ts)))).
      rewrite (map_fst_combine _ _ _ _ L2), (map_snd_combine _ _ _ _ L2). split; [|split; [reflexivity|exact D]]. destruct l.
      - rewrite L', Nat.eqb_refl. reflexivity.
      - rewrite (rename_all _ _ L'). unfold column_names. rewrite (map_fst_combine _ _ _ _ L2), (proj2 (distinct_spec names) N). reflexivity. }
    destruct R as (f & -> & F1 & F2). eexists. split; [reflexivity|]. split; [|split; [exact F1|exact F2]].
    split; [reflexivity|]. split; [reflexivity|]. unfold Columns. cbn [cols]. rewrite F2. intros c I. apply in_flat_map in I.
    destruct I as (x & Ix & Ic). exact (proj2 (proj2 (H x Ix)) c Ic).
  Qed.
  (** fit, then any number of calls that store nothing, then a call on tables with as many columns *)
  Lemma calls_keep : forall l st, (forall c, In c l -> stores (c_mode c) = false) -> snd (calls (A := A) st l) = st.
  Proof.
    induction l as [|c l IH]; intros st H; [reflexivity|]. cbn [calls].
    assert (E : snd (concat_step (c_draw c) (c_mode c) st (c_first c) (c_others c)) = st).
    { unfold concat_step. rewrite (H c (or_introl eq_refl)). destruct (c_first c); try reflexivity. destruct (c_others c); try reflexivity.
      destruct (find _ _) as [[]|]; try reflexivity; destruct (concat_tables _ _ _ _); try reflexivity; destruct st; reflexivity. }
    destruct (concat_step _ _ _ _ _) as [r st'] eqn:Ec. cbn in E. subst st'.
    pose proof (IH st (fun x I => H x (or_intror I))) as E. destruct (calls st l) as [rs st'']. exact E.
  Qed.
  Lemma calls_app : forall l1 l2 st, calls (A := A) st (l1 ++ l2) =
    (fst (calls st l1) ++ fst (calls (snd (calls st l1)) l2), snd (calls (snd (calls st l1)) l2)).
  Proof.
    induction l1 as [|c l1 IH]; intros l2 st; [cbn; destruct (calls st l2); reflexivity|]. cbn [app calls].
    destruct (concat_step _ _ _ _ _) as [r st']. rewrite IH. destruct (calls st' l1) as [rs st'']. reflexivity.
  Qed.
  (** an error stores nothing *)
  Theorem error_keeps : forall d m st first others e st', concat_step (A := A) d m st first others = (Err e, st') -> st' = st.
  Proof.
    intros d m st first others e st'. unfold concat_step. destruct first; try congruence. destruct others; try congruence.
    destruct (find _ _) as [[]|]; try congruence; destruct (concat_tables _ _ _ _); try congruence; destruct (stores m); try congruence; destruct st; congruence.
  Qed.
  (** after any history, the state is what the last successful call that stores gave, if there is one *)
  Theorem names_of_last_fit : forall before after d m l n t ts d' m' l' n' t' ts',
    In m fitting -> In m' answering -> (forall c, In c after -> stores (c_mode c) = false) ->
    (forall x, In x (t :: ts) -> Fits l n x) -> (forall x, In x (t' :: ts') -> Fits l' n' x) ->
    map Names (t' :: ts') = map Names (t :: ts) -> Fresh d (length (flat_map Names (t :: ts))) (flat_map Names (t :: ts)) [] ->
    exists rs1 out rs2 out', fst (calls (A := A) None (before ++ on m d t ts :: after ++ [on m' d' t' ts'])) = rs1 ++ Ok out :: rs2 ++ [Ok out'] /\
      length rs1 = length before /\ Names out' = Names out /\ Columns out = AllColumns (t :: ts) /\ Columns out' = AllColumns (t' :: ts').
  Proof.
    intros before after d m l n t ts d' m' l' n' t' ts' M M' Ha H H' EN F.
    rewrite calls_app. cbn [fst]. set (st0 := snd (calls None before)).
    destruct (fit_ok d m st0 l n t ts M H) as (out & E & Fo & Co & No & _).
    cbn [calls on c_draw c_mode c_first c_others]. rewrite E. rewrite calls_app, (calls_keep after _ Ha). cbn [calls].
    destruct (later_ok d' m' (Names out) l' n' t' ts' M' H') as (out' & E' & Fo' & No' & Co').
    - unfold Names. rewrite map_length, <- (map_length snd). change (map snd (cols out)) with (Columns out). rewrite Co.
      unfold AllColumns. clear - EN. revert EN. generalize (t :: ts) (t' :: ts'). intros a b. revert a. induction b as [|y b IH]; intros [|x a] EN; try discriminate EN; [reflexivity|].
      cbn in *. injection EN as E EN. rewrite !app_length, (IH a EN). f_equal. unfold Names, Columns in *. rewrite !map_length.
      apply (f_equal (@length string)) in E. rewrite !map_length in E. congruence.
    - exact (No F).
    - cbn [on c_draw c_mode c_first c_others]. rewrite E'.
      exists (fst (calls None before)), out, (fst (calls (Some (Names out)) after)), out'.
      split; [reflexivity|]. split; [|split; [exact No'|split; [exact Co|exact Co']]].
      clear. generalize (@None (list string)). induction before as [|c b IH]; intros st; [reflexivity|]. cbn [calls].
      destruct (concat_step _ _ _ _ _) as [r st']. specialize (IH st'). destruct (calls st' b). cbn. rewrite <- IH. reflexivity.
  Qed.
  (** refusals *)
  Theorem refused : forall d m st first others,
    (forall t ts, first = VTable t -> others <> OItems (map VTable ts)) ->
    exists e, concat_step (A := A) d m st first others = (Err e, st) /\
      ((forall l, others = OItems l -> ~ In VNone l) -> e = TypeError).
  Proof.
    intros d m st first others H. unfold concat_step. destruct first as [t| |]; [|eexists; split; [reflexivity|reflexivity]..].
    destruct others as [u|l|]; [eexists; split; [reflexivity|reflexivity]| |eexists; split; [reflexivity|reflexivity]].
    destruct (find (fun v => negb (is_table A v)) l) as [v|] eqn:E.
    - destruct (find_some _ _ E) as [I T]. destruct v as [u| |]; [discriminate T| |eexists; split; reflexivity].
      assert (B : exists e, concat_tables A d t (map (to_option A) l) = Err e).
      { unfold concat_tables. destruct (tlib t).
        - destruct (mapM_fails (fun o : option table => match o with Some t0 => if eqb_lib (tlib t0) Pandas then Ok t0 else Err AttributeError | None => Err AttributeError end) (map (to_option A) l)) as (e & ->);
            [exists (@None table), AttributeError; split; [apply in_map_iff; exists VNone; split; [reflexivity|exact I]|reflexivity]|]. exists e. reflexivity.
        - destruct (mapM_fails (fun o : option table => match o with Some t0 => if eqb_lib (tlib t0) Polars then Ok t0 else Err TypeError | None => Err TypeError end) (map (to_option A) l)) as (e & ->);
            [exists (@None table), TypeError; split; [apply in_map_iff; exists VNone; split; [reflexivity|exact I]|reflexivity]|]. exists e. reflexivity. }
      destruct B as (e & ->). exists e. split; [reflexivity|]. intros Hn. destruct (Hn l eq_refl I).
    - exfalso. assert (X : exists ts, l = map VTable ts).
      { clear - E. induction l as [|v l IH]; [exists []; reflexivity|]. cbn in E. destruct v as [t| |]; try discriminate E. cbn in E.
        destruct (IH E) as (ts & ->). exists (t :: ts). reflexivity. }
      destruct X as (ts & ->). exact (H t ts eq_refl eq_refl).
  Qed.
  (** other numbers of columns: an error with pandas *)
  Theorem pandas_columns : forall d m names n t ts, In m answering -> (forall x, In x (t :: ts) -> Fits Pandas n x) ->
    length names <> length (AllColumns (t :: ts)) ->
    concat_step d m (Some names) (VTable t) (OItems (map VTable ts)) = (Err ValueError, Some names).
  Proof.
    intros d m names n t ts M H L. unfold concat_step. rewrite find_tables, options_tables, (concat_tables_fits d Pandas n t ts H), (proj2 modes m M).
    assert (D : map snd (side_by_side A d n (t :: ts)) = AllColumns (t :: ts)) by (apply side_data; intros x c I; exact (proj2 (proj2 (H x I)) c)).
    unfold relabel. cbn [tlib nrows cols]. rewrite <- D, map_length in L. apply Nat.eqb_neq in L. rewrite L. reflexivity.
  Qed.
  (** other numbers of rows: an error with pandas if a table has more rows than the first *)
  Theorem pandas_rows : forall d m st (t : table) (ts : list table) x, tlib t = Pandas -> (forall u, In u ts -> tlib u = Pandas) -> In x ts -> nrows t < nrows x ->
    concat_step d m st (VTable t) (OItems (map VTable ts)) = (Err ValueError, st).
  Proof.
    intros d m st t ts x L H I R. unfold concat_step. rewrite find_tables, options_tables. unfold concat_tables. rewrite L, (mapM_libs _ _ ts H). cbn [bind].
    assert (B : nrows x <= most_rows A (t :: ts)).
    { unfold most_rows. cbn. clear - I. assert (nrows x <= fold_right Nat.max 0 (map nrows ts)); [|lia].
      induction ts as [|u ts IH]; [destruct I|]. cbn. destruct I as [->|I]; [lia|]. specialize (IH I). lia. }
    destruct (most_rows A (t :: ts) =? nrows t) eqn:E; [apply Nat.eqb_eq in E; lia|reflexivity].
  Qed.
End Proofs.
