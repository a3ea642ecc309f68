(** Specification and lemmas for C57. *)
From Verif Require Import Base M_nullstr.
Open Scope string_scope.
Open Scope list_scope.
Open Scope nat_scope.

(** The markers: spellings of "not available", of null, of NaN (also of Windows), a question mark, an ellipsis, nothing. *)
Definition Marker (s : text) : Prop :=
  (exists m, In m ["NA"; "N/A"; "n/a"; "#NA"; "#N/A"; "#N/A N/A"; "<NA>"] /\ s = text_of m) \/
  (exists m, In m ["null"; "NULL"] /\ s = text_of m) \/
  (exists m, In m ["nan"; "NaN"; "-nan"; "-NaN"; "1.#QNAN"; "-1.#QNAN"; "1.#IND"; "-1.#IND"] /\ s = text_of m) \/
  s = text_of "?" \/ s = text_of "..." \/ s = [].

Section Lemmas.
  Context {O : Type} (is_space : nat -> bool).
  Hypothesis newline_space : is_space newline = true.

  Definition Blank (s : text) : Prop := Forall (fun c => is_space c = true) s.
  (** the strings that become null *)
  Definition NullString (s : text) : Prop := Blank s \/ Marker s.
  (** one value before and after *)
  Inductive Cleaned (new : null) : value O -> value O -> Prop :=
  | Cleaned_null : forall s, NullString s -> Cleaned new (VStr s) (VNull new)
  | Cleaned_str : forall s, ~ NullString s -> Cleaned new (VStr s) (VStr s)
  | Cleaned_old : forall n, Cleaned new (VNull n) (VNull n)
  | Cleaned_other : forall o, Cleaned new (VOther o) (VOther o).
  (** columns that are cleaned, and their null value *)
  Inductive Handled : lib -> kind -> null -> Prop :=
  | Handled_object : Handled Pandas KObject PyNone
  | Handled_string : Handled Pandas KString PdNA
  | Handled_polars : Handled Polars KString PyNone.

  Lemma marker_iff : forall s, Marker s <-> In s STR_NA_VALUES.
  Proof.
    clear. intros s. unfold Marker, STR_NA_VALUES. split.
    - intros [(m & I & ->)|[(m & I & ->)|[(m & I & ->)|[->|[->| ->]]]]]; try (apply in_map; cbn in *; tauto). apply (in_map text_of _ ""). cbn. tauto.
    - rewrite in_map_iff. intros (m & <- & I). cbn in I.
      repeat (destruct I as [<-|I];
        [first [left; eexists; split; [|reflexivity]; cbn; tauto | right; left; eexists; split; [|reflexivity]; cbn; tauto | right; right; left; eexists; split; [|reflexivity]; cbn; tauto
               | right; right; right; left; reflexivity | right; right; right; right; left; reflexivity | right; right; right; right; right; reflexivity]|]).
      destruct I.
  Qed.

  Lemma spaces_le : forall s, spaces is_space s <= length s.
  Proof. clear. induction s as [|c s IH]; [reflexivity|]. cbn. destruct (is_space c); lia. Qed.
  Lemma spaces_all : forall s, Blank s -> spaces is_space s = length s.
  Proof. clear. induction 1 as [|c s H F IH]; [reflexivity|]. cbn. rewrite H, IH. reflexivity. Qed.
  Lemma spaces_firstn : forall s k, k <= spaces is_space s -> Blank (firstn k s).
  Proof.
    clear. induction s as [|c s IH]; intros k L; [rewrite firstn_nil; constructor|]. destruct k as [|k]; [constructor|]. cbn in *.
    destruct (is_space c) eqn:E; [|lia]. constructor; [exact E|]. apply IH. lia.
  Qed.

  Lemma sub_blank_yes : forall l s, Blank s -> sub_blank is_space l s = [].
  Proof.
    clear. intros l s B. unfold sub_blank, match_blank. rewrite (spaces_all s B). rewrite seq_S, rev_app_distr. cbn [rev app find Nat.add].
    rewrite skipn_all. cbn. apply skipn_all.
  Qed.
  Lemma sub_blank_no : forall l s, ~ Blank s -> sub_blank is_space l s = s.
  Proof.
    intros l s NB. unfold sub_blank. destruct (match_blank is_space l s) as [k|] eqn:E; [|reflexivity]. exfalso.
    unfold match_blank in E. apply find_some in E. destruct E as [I A]. rewrite <- in_rev, in_seq in I. apply NB.
    unfold Blank. rewrite <- (firstn_skipn k s). apply Forall_app. split; [apply spaces_firstn; lia|].
    destruct (skipn k s) as [|c [|c' r]]; cbn in A; [constructor| |destruct l; discriminate].
    destruct l; [|discriminate]. apply Nat.eqb_eq in A. subst c. repeat constructor. exact newline_space.
  Qed.
  Lemma blank_dec : forall s, {Blank s} + {~ Blank s}.
  Proof. clear. intros s. apply Forall_dec. intros c. apply bool_dec. Qed.

  Definition new_null (l : lib) (k : kind) : null := match l, k with Pandas, KString => PdNA | _, _ => PyNone end.
  Definition clean_value (l : lib) (k : kind) (v : value O) : value O :=
    match v with VStr s => if mem (sub_blank is_space l s) STR_NA_VALUES then VNull (new_null l k) else VStr (sub_blank is_space l s) | _ => v end.
  Lemma transform_values : forall c : column O, accepted c = true ->
    transform is_space c = {| col_lib := col_lib c; col_kind := col_kind c; col_values := map (clean_value (col_lib c) (col_kind c)) (col_values c) |}.
  Proof.
    clear. intros [l k vs] A. unfold transform. rewrite A. cbn [negb]. unfold replace, trim_whitespace_only, null_value_for. cbn [col_lib col_kind col_values].
    rewrite map_map. f_equal. apply map_ext. intros [n|s|o]; reflexivity.
  Qed.
  Lemma clean_value_ok : forall l k v, Cleaned (new_null l k) v (clean_value l k v).
  Proof.
    intros l k [n|s|o]; [constructor| |constructor]. cbn [clean_value]. destruct (blank_dec s) as [B|NB].
    - rewrite (sub_blank_yes l s B). cbn. apply Cleaned_null. left. exact B.
    - rewrite (sub_blank_no l s NB). destruct (mem s STR_NA_VALUES) eqn:E.
      + apply mem_true in E. constructor. right. apply marker_iff. exact E.
      + apply mem_false in E. constructor. intros [B|M]; [exact (NB B)|]. apply E. apply marker_iff. exact M.
  Qed.
  Lemma handled_iff : forall c : column O, accepted c = true <-> Handled (col_lib c) (col_kind c) (new_null (col_lib c) (col_kind c)).
  Proof. clear. intros [[] [] vs]; cbn; split; intros H; try discriminate; try constructor; try inversion H; reflexivity. Qed.

  Lemma transform_ok : forall (c : column O) new, Handled (col_lib c) (col_kind c) new ->
    let c' := transform is_space c in col_lib c' = col_lib c /\ col_kind c' = col_kind c /\ Forall2 (Cleaned new) (col_values c) (col_values c').
  Proof.
    intros c new H. assert (En : new = new_null (col_lib c) (col_kind c)) by (inversion H; reflexivity). subst new. apply handled_iff in H.
    cbn zeta. rewrite (transform_values c H). cbn. repeat split. induction (col_values c) as [|v vs IH]; cbn; constructor; [apply clean_value_ok|exact IH].
  Qed.
  Lemma transform_other : forall c : column O, (forall n, ~ Handled (col_lib c) (col_kind c) n) -> transform is_space c = c /\ fit_transform is_space c = Err RejectColumn.
  Proof.
    clear. intros c N. unfold transform, fit_transform. destruct (accepted c) eqn:A; [|split; reflexivity]. apply handled_iff in A. exfalso. exact (N _ A).
  Qed.
  Lemma fit_transform_ok : forall (c : column O) n, Handled (col_lib c) (col_kind c) n -> fit_transform is_space c = Ok (transform is_space c).
  Proof.
    clear. intros c n H. unfold fit_transform. assert (A : accepted c = true). { apply handled_iff. inversion H; constructor. } rewrite A. reflexivity.
  Qed.

  Lemma cleaned_twice : forall new v v' v'', Cleaned new v v' -> Cleaned new v' v'' -> v'' = v'.
  Proof. clear. intros new v v' v'' H1 H2. inversion H1; subst; inversion H2; subst; try reflexivity; contradiction. Qed.
  Lemma transform_twice : forall c : column O, transform is_space (transform is_space c) = transform is_space c.
  Proof.
    intros c. destruct (accepted c) eqn:A.
    - pose proof A as H. apply handled_iff in H. destruct (transform_ok c _ H) as (E1 & E2 & F).
      assert (H' : Handled (col_lib (transform is_space c)) (col_kind (transform is_space c)) (new_null (col_lib c) (col_kind c))) by (rewrite E1, E2; exact H).
      destruct (transform_ok (transform is_space c) _ H') as (E3 & E4 & F').
      destruct (transform is_space (transform is_space c)) as [l2 k2 v2]. destruct (transform is_space c) as [l1 k1 v1]. cbn in *. subst l2 k2. f_equal.
      clear - F F'. revert v2 F'. induction F as [|v v' vs vs' H F IH]; intros v2 F'; inversion F'; subst; [reflexivity|].
      f_equal; [eapply cleaned_twice; eassumption|apply IH; assumption].
    - assert (E : transform is_space c = c) by (unfold transform; rewrite A; reflexivity). rewrite !E. reflexivity.
  Qed.
End Lemmas.
