(** Successive fits of StringEncoder and TextEncoder: independent specification and lemmas. *)
From Verif Require Import Base M_names M_str M_numnames M_refit L_numnames.
Open Scope string_scope.
Open Scope list_scope.
Open Scope nat_scope.

(** A matrix is rectangular. *)
Definition Rect {F} (m : matrix F) : Prop := Forall (fun c => length c = nrows m) (mcols m).

Lemma bindR : forall {A B} (e : res A) (f : A -> res B) b, bind e f = Ok b -> exists a, e = Ok a /\ f a = Ok b.
Proof. intros A B [a|e] f b E; simpl in E; [eauto|discriminate]. Qed.

Lemma combine_fst : forall {A B} (a : list A) (b : list B), length a <= length b -> map fst (combine a b) = a.
Proof. intros A B a. induction a as [|x a IH]; intros [|y b] L; simpl in *; try lia; [reflexivity|reflexivity|]. f_equal. apply IH. lia. Qed.

Section StringEncoder.
  Context {F X P V S : Type}.
  Variable vec_fit : P -> X -> res V.
  Variable vec_transform : V -> X -> matrix F.
  Variable svd_fit : nat -> matrix F -> S * matrix F.
  Variable svd_transform : S -> matrix F -> res (matrix F).
  Notation fit_transform := (s_fit_transform vec_fit vec_transform svd_fit).
  Notation transform := (s_transform vec_transform svd_transform).

  (** What is assumed of scikit-learn: the vectorizer always gives the same columns; the decomposition gives as many columns
      as asked, refuses other widths, and transforms the matrix it was fitted on as when it was fitted. *)
  Record SLib : Prop := {
    vec_width : forall v x x', width (vec_transform v x) = width (vec_transform v x');
    svd_width : forall n m s r, svd_fit n m = (s, r) -> width r = n;
    svd_again : forall n m s r, svd_fit n m = (s, r) -> svd_transform s m = Ok r;
    svd_other : forall n m s r m', svd_fit n m = (s, r) ->
      match svd_transform s m' with Ok r' => width m' = width m /\ width r' = n | Err e => width m' <> width m /\ e = ValueError end }.

  (** A successful fit: parameters, number of components, name and data. *)
  Record sfit := { fp : P; fn : nat; fname : option string; fx : X }.
  Definition run_fit (st : sstate) (f : sfit) : res (sstate * frame (list F)) := fit_transform st (fp f) (fn f) (fname f) (fx f).
  (** The attributes after some fits. *)
  Inductive SHistory : list sfit -> sstate (V := V) (S := S) -> Prop :=
  | SH_nil : SHistory [] s_fresh
  | SH_snoc : forall h st f st' out, SHistory h st -> run_fit st f = Ok (st', out) -> SHistory (h ++ [f]) st'.
  (** The fit computes a decomposition. *)
  Definition Decomposes (f : sfit) : Prop := exists v, vec_fit (fp f) (fx f) = Ok v /\ fn f < min_shape (vec_transform v (fx f)).

  Lemma decomposes_dec : forall f, Decomposes f \/ ~ Decomposes f.
  Proof.
    intros f. unfold Decomposes. destruct (vec_fit (fp f) (fx f)) as [v|e].
    - destruct (le_lt_dec (min_shape (vec_transform v (fx f))) (fn f)); [right|left; eauto]. intros (v' & E & L). injection E as <-. lia.
    - right. intros (v & E & _). discriminate.
  Qed.

  Lemma fit_inv : forall st f st' out, run_fit st f = Ok (st', out) ->
    exists v, vec_fit (fp f) (fx f) = Ok v /\ vectorizer_ st' = Some v /\
      (Decomposes f -> exists s r, svd_fit (fn f) (vec_transform v (fx f)) = (s, r) /\ tsvd_ st' = Some s /\ n_components_ st' = width r /\ out = post_process (all_outputs_ st') r) /\
      (~ Decomposes f -> tsvd_ st' = tsvd_ st /\ n_components_ st' = Nat.min (fn f) (width (vec_transform v (fx f))) /\
          out = post_process (all_outputs_ st') (truncate (fn f) (vec_transform v (fx f)))) /\
      length (all_outputs_ st') = n_components_ st'.
  Proof.
    intros st f st' out E. unfold run_fit, s_fit_transform in E. apply bindR in E. destruct E as (v & EV & E).
    exists v. split; [exact EV|]. unfold Decomposes. rewrite EV. set (m := vec_transform v (fx f)) in *.
    destruct (fn f <? min_shape m) eqn:C.
    - apply Nat.ltb_lt in C. destruct (svd_fit (fn f) m) as [s r] eqn:SV. injection E as <- <-. cbn [vectorizer_ tsvd_ n_components_ all_outputs_].
      split; [reflexivity|]. split; [intros _; exists s, r; auto|]. split; [|rewrite map_length; apply seq_length]. intros N. destruct N. exists v. auto.
    - apply Nat.ltb_ge in C.
      assert (T : (if width m =? fn f then (tsvd_ st, m) else (tsvd_ st, truncate (fn f) m)) = (tsvd_ st, truncate (fn f) m)).
      { destruct (width m =? fn f) eqn:W; [|reflexivity]. apply Nat.eqb_eq in W. unfold truncate. rewrite <- W. unfold width. rewrite firstn_all. destruct m. reflexivity. }
      rewrite T in E. injection E as <- <-. cbn [vectorizer_ tsvd_ n_components_ all_outputs_].
      split; [reflexivity|]. split; [intros (v' & E & L); injection E as <-; fold m in L; lia|]. split; [|rewrite map_length; apply seq_length].
      intros _. split; [reflexivity|]. split; [|reflexivity]. unfold width at 1, truncate. cbn [mcols]. rewrite firstn_length. reflexivity.
  Qed.

  Lemma history_tsvd : forall h st, SHistory h st -> tsvd_ st <> None -> Exists Decomposes h.
  Proof.
    intros h st H. induction H as [|h st f st' out H IH E]; intros N; [simpl in N; congruence|]. apply Exists_app.
    destruct (decomposes_dec f) as [D|D]; [right; constructor; exact D|]. left. apply IH.
    destruct (fit_inv _ _ _ _ E) as (v & _ & _ & _ & T & _). destruct (T D) as (E1 & _). congruence.
  Qed.

  (** The last fit decides alone if it computes a decomposition, or no earlier one did. *)
  Lemma s_forgets : forall h f st, SHistory (h ++ [f]) st -> (Decomposes f \/ Forall (fun g => ~ Decomposes g) h) -> SHistory [f] st.
  Proof.
    intros h f st H C. inversion H as [E|h0 st0 f0 st' out H0 E1 E2 E3]; [destruct h; discriminate|]. subst st'.
    apply app_inj_tail in E2. destruct E2 as (-> & ->).
    assert (R : exists out', run_fit s_fresh f = Ok (st, out')).
    { assert (C' : Decomposes f \/ tsvd_ st0 = None).
      { destruct C as [C|C]; [left; exact C|right]. destruct (tsvd_ st0) eqn:T; [|reflexivity]. exfalso.
        assert (X0 : Exists Decomposes h) by (apply (history_tsvd _ _ H0); congruence). apply Exists_exists in X0. destruct X0 as (g & I & D).
        exact (proj1 (Forall_forall _ _) C g I D). }
      exists out. rewrite <- E1. unfold run_fit, s_fit_transform. destruct (vec_fit (fp f) (fx f)) as [v|e] eqn:EV; [|reflexivity]. cbn [bind].
      destruct (fn f <? min_shape (vec_transform v (fx f))) eqn:L; [reflexivity|]. destruct C' as [(v' & E & L')|T].
      - rewrite EV in E. injection E as <-. apply Nat.ltb_ge in L. lia.
      - rewrite T. reflexivity. }
    destruct R as (out' & R). apply (SH_snoc [] s_fresh f st out' SH_nil R).
  Qed.

  Lemma once_inv : forall f st, SHistory [f] st -> exists out, run_fit s_fresh f = Ok (st, out).
  Proof.
    intros f st H. inversion H as [|h0 st0 f0 st' out H0 E1 E2 E3]. subst st'. destruct h0 as [|g [|g' h0]]; try discriminate.
    injection E2 as ->. inversion H0 as [E|h1 st1 f1 st1' o1 H1 E4 E5]; [|destruct h1; discriminate]. subst st0. eauto.
  Qed.

  (** A new encoder outputs the columns it advertises, on all data, and at transform what it output at fit. *)
  Lemma s_fresh_ok : SLib -> forall f st out, run_fit s_fresh f = Ok (st, out) ->
    column_names out = all_outputs_ st /\ transform st (fn f) (fx f) = Ok out /\
    forall x, exists out', transform st (fn f) x = Ok out' /\ column_names out' = all_outputs_ st.
  Proof.
    intros LB f st out E. destruct (fit_inv _ _ _ _ E) as (v & EV & Ev & D & ND & LN). unfold s_transform. rewrite Ev.
    destruct (decomposes_dec f) as [C|C].
    - destruct (D C) as (s & r & SV & TS & NC & ->). rewrite TS. clear D ND.
      pose proof (svd_width LB _ _ _ _ SV) as W. split; [|split].
      + unfold column_names, post_process. apply combine_fst. rewrite LN, NC. apply le_n.
      + rewrite (svd_again LB _ _ _ _ SV). reflexivity.
      + intros x. pose proof (svd_other LB _ _ _ _ (vec_transform v x) SV) as O. destruct (svd_transform s (vec_transform v x)) as [r'|e].
        * eexists. split; [reflexivity|]. unfold column_names, post_process. apply combine_fst. unfold width in *. lia.
        * exfalso. apply (proj1 O). apply (vec_width LB).
    - destruct (ND C) as (TS & NC & ->). rewrite TS. cbn [s_fresh tsvd_ bind].
      assert (W : forall x, column_names (post_process (all_outputs_ st) (truncate (fn f) (vec_transform v x))) = all_outputs_ st).
      { intros x. unfold column_names, post_process. apply combine_fst. unfold truncate. cbn [mcols]. rewrite firstn_length, LN, NC.
        pose proof (vec_width LB v x (fx f)). unfold width in *. lia. }
      split; [apply W|]. split; [reflexivity|]. intros x. eexists. split; [reflexivity|apply W].
  Qed.

  (** If an earlier fit computed a decomposition and the last does not, with another number of n-grams, [transform] fails. *)
  Lemma s_stale : SLib -> forall f1 f2 st1 st2 out1 out2, run_fit s_fresh f1 = Ok (st1, out1) -> Decomposes f1 ->
    run_fit st1 f2 = Ok (st2, out2) -> ~ Decomposes f2 ->
    (forall v1 v2, vec_fit (fp f1) (fx f1) = Ok v1 -> vec_fit (fp f2) (fx f2) = Ok v2 -> width (vec_transform v1 (fx f1)) <> width (vec_transform v2 (fx f2))) ->
    forall x, transform st2 (fn f2) x = Err ValueError.
  Proof.
    intros LB f1 f2 st1 st2 out1 out2 E1 D1 E2 D2 DW x.
    destruct (fit_inv _ _ _ _ E1) as (v1 & EV1 & _ & D & _). destruct (D D1) as (s & r & SV & TS & _).
    destruct (fit_inv _ _ _ _ E2) as (v2 & EV2 & Ev & _ & ND & _). destruct (ND D2) as (TS2 & _).
    unfold s_transform. rewrite Ev, TS2, TS.
    pose proof (svd_other LB _ _ _ _ (vec_transform v2 x) SV) as O. destruct (svd_transform s (vec_transform v2 x)) as [r'|e].
    - exfalso. apply (DW v1 v2 EV1 EV2). rewrite <- (proj1 O). symmetry. apply (vec_width LB).
    - destruct O as (_ & ->). reflexivity.
  Qed.
End StringEncoder.

Section TextEncoder.
  Context {F X N M S : Type}.
  Variable load : N -> res M.
  Variable encode : M -> X -> matrix F.
  Variable pca_fit : nat -> matrix F -> S * matrix F.
  Variable pca_transform : S -> matrix F -> res (matrix F).
  Notation fit_transform := (t_fit_transform load encode pca_fit).
  Notation transform := (t_transform encode pca_transform).

  (** The embeddings of a model have always the same number of dimensions; the decomposition as above. *)
  Record TLib : Prop := {
    enc_width : forall m x x', width (encode m x) = width (encode m x');
    pca_width : forall n m s r, pca_fit n m = (s, r) -> width r = n;
    pca_again : forall n m s r, pca_fit n m = (s, r) -> pca_transform s m = Ok r;
    pca_other : forall n m s r m', pca_fit n m = (s, r) ->
      match pca_transform s m' with Ok r' => width m' = width m /\ width r' = n | Err e => width m' <> width m /\ e = ValueError end }.

  Record tfit := { tm : N; tn : option nat; tname : string; tx : X }.
  Definition run_tfit (st : tstate) (f : tfit) : res (tstate * frame (list F)) := fit_transform st (tm f) (tn f) (tname f) (tx f).
  Inductive THistory : list tfit -> tstate (M := M) (S := S) -> Prop :=
  | TH_nil : THistory [] t_fresh
  | TH_snoc : forall h st f st' out, THistory h st -> run_tfit st f = Ok (st', out) -> THistory (h ++ [f]) st'.
  Definition TDecomposes (f : tfit) : Prop := exists n m, tn f = Some n /\ load (tm f) = Ok m /\ n <= min_shape (encode m (tx f)).

  Lemma t_model : forall h st nm, THistory h st -> Forall (fun f => tm f = nm) h -> h <> [] -> exists m, load nm = Ok m /\ estimator st = Some m.
  Proof.
    intros h st nm H. induction H as [|h st f st' out H IH E]; intros A N0; [congruence|]. apply Forall_app in A. destruct A as (A & Af). inversion Af as [|? ? Ef _]; subst.
    unfold run_tfit, t_fit_transform in E. apply bindR in E. destruct E as (m & EM & E).
    exists m. split.
    - destruct h as [|g h].
      + inversion H as [E0|h1 ? ? ? ? ? ? E5]; [|destruct h1; discriminate]. subst st. exact EM.
      + destruct (IH A ltac:(discriminate)) as (m' & L & ES). rewrite ES in EM. congruence.
    - destruct (match tn f with | Some n => if n <=? min_shape (encode m (tx f)) then let '(s, r) := pca_fit n (encode m (tx f)) in (Some s, r) else (pca_ st, truncate n (encode m (tx f)))
                            | None => (pca_ st, encode m (tx f)) end) as [pca result]. injection E as <- _. reflexivity.
  Qed.

  Lemma t_pca : forall h st nm, THistory h st -> Forall (fun f => tm f = nm) h -> pca_ st <> None -> Exists TDecomposes h.
  Proof.
    intros h st nm H. induction H as [|h st f st' out H IH E]; intros A N0; [simpl in N0; congruence|].
    assert (H' : THistory (h ++ [f]) st') by (econstructor; eassumption).
    apply Forall_app in A. destruct A as (A & Af). inversion Af as [|? ? Ef _]; subst. apply Exists_app.
    unfold run_tfit, t_fit_transform in E. apply bindR in E. destruct E as (m & EM & E).
    assert (LM : load (tm f) = Ok m).
    { destruct h as [|g h].
      - inversion H as [E0|h1 ? ? ? ? ? ? E5]; [|destruct h1; discriminate]. subst st. exact EM.
      - destruct (t_model _ _ _ H A ltac:(discriminate)) as (m' & L & ES). rewrite ES in EM. congruence. }
    destruct (tn f) as [n|] eqn:TN.
    - destruct (n <=? min_shape (encode m (tx f))) eqn:C.
      + right. constructor. exists n, m. apply Nat.leb_le in C. auto.
      + left. apply IH; [exact A|]. injection E as <- _. exact N0.
    - left. apply IH; [exact A|]. injection E as <- _. exact N0.
  Qed.

  Lemma t_forgets : forall h f st, THistory (h ++ [f]) st -> Forall (fun g => tm g = tm f) h ->
    (TDecomposes f \/ Forall (fun g => ~ TDecomposes g) h) -> THistory [f] st.
  Proof.
    intros h f st H AM C. inversion H as [E|h0 st0 f0 st' out H0 E1 E2 E3]; [destruct h; discriminate|]. subst st'.
    apply app_inj_tail in E2. destruct E2 as (-> & ->).
    assert (LM : match estimator st0 with Some m => Ok m | None => load (tm f) end = load (tm f)).
    { destruct h as [|g h].
      - inversion H0 as [E0|h1 ? ? ? ? ? ? E5]; [|destruct h1; discriminate]. reflexivity.
      - destruct (t_model _ _ _ H0 AM ltac:(discriminate)) as (m' & L & ES). rewrite ES. congruence. }
    assert (C' : TDecomposes f \/ pca_ st0 = None).
    { destruct C as [C|C]; [left; exact C|right]. destruct (pca_ st0) eqn:T; [|reflexivity]. exfalso.
      assert (X0 : Exists TDecomposes h) by (apply (t_pca _ _ _ H0 AM); congruence). apply Exists_exists in X0. destruct X0 as (g & I & D).
      exact (proj1 (Forall_forall _ _) C g I D). }
    assert (R : run_tfit t_fresh f = Ok (st, out)).
    { rewrite <- E1. unfold run_tfit, t_fit_transform. rewrite LM. cbn [t_fresh estimator pca_].
      destruct (load (tm f)) as [m|e] eqn:EL; [|reflexivity]. cbn [bind].
      destruct C' as [(n & m' & TN & L & C')|T].
      - rewrite EL in L. injection L as <-. rewrite TN. rewrite (proj2 (Nat.leb_le _ _) C'). reflexivity.
      - rewrite T. reflexivity. }
    apply (TH_snoc [] t_fresh f st out TH_nil R).
  Qed.

  Lemma t_fresh_ok : TLib -> forall f st out, run_tfit t_fresh f = Ok (st, out) ->
    column_names out = text_names (input_name_ st) (tn_components_ st) /\ transform st (tn f) (tx f) = Ok out /\
    forall x, exists out', transform st (tn f) x = Ok out' /\ column_names out' = text_names (input_name_ st) (tn_components_ st).
  Proof.
    intros LB f st out E. unfold run_tfit, t_fit_transform in E. cbn [t_fresh estimator pca_] in E.
    apply bindR in E. destruct E as (m & _ & E). unfold t_transform.
    assert (LT : forall nm n, length (text_names nm n) = n) by (intros; apply text_ordered).
    destruct (tn f) as [n|]; [destruct (n <=? min_shape (encode m (tx f))) eqn:C|].
    - destruct (pca_fit n (encode m (tx f))) as [s r] eqn:SV. injection E as <- <-. cbn [estimator pca_ tn_components_ input_name_].
      pose proof (pca_width LB _ _ _ _ SV) as W. split; [|split].
      + unfold column_names, post_process. apply combine_fst. rewrite LT. apply le_n.
      + rewrite (pca_again LB _ _ _ _ SV). reflexivity.
      + intros x. pose proof (pca_other LB _ _ _ _ (encode m x) SV) as O. destruct (pca_transform s (encode m x)) as [r'|e].
        * eexists. split; [reflexivity|]. unfold column_names, post_process. apply combine_fst. rewrite LT. unfold width in *. lia.
        * exfalso. apply (proj1 O). apply (enc_width LB).
    - injection E as <- <-. cbn [estimator pca_ tn_components_ input_name_ bind].
      assert (W : forall x, column_names (post_process (text_names (tname f) (width (truncate n (encode m (tx f))))) (truncate n (encode m x))) = text_names (tname f) (width (truncate n (encode m (tx f))))).
      { intros x. unfold column_names, post_process. apply combine_fst. rewrite LT. pose proof (enc_width LB m x (tx f)) as EW.
        unfold width, truncate in *. cbn [mcols]. rewrite !firstn_length. lia. }
      split; [apply W|]. split; [reflexivity|]. intros x. eexists. split; [reflexivity|apply W].
    - injection E as <- <-. cbn [estimator pca_ tn_components_ input_name_ bind].
      assert (W : forall x, column_names (post_process (text_names (tname f) (width (encode m (tx f)))) (encode m x)) = text_names (tname f) (width (encode m (tx f)))).
      { intros x. unfold column_names, post_process. apply combine_fst. rewrite LT. pose proof (enc_width LB m x (tx f)) as EW. unfold width in *. lia. }
      split; [apply W|]. split; [reflexivity|]. intros x. eexists. split; [reflexivity|apply W].
  Qed.

  (** If the last fit keeps all the dimensions and an earlier one computed a decomposition with fewer, transform outputs
      fewer columns than advertised. *)
  Lemma t_stale : TLib -> forall f1 f2 st1 st2 out1 out2 n m, run_tfit t_fresh f1 = Ok (st1, out1) -> tn f1 = Some n -> load (tm f1) = Ok m ->
    n <= min_shape (encode m (tx f1)) -> n < width (encode m (tx f1)) ->
    run_tfit st1 f2 = Ok (st2, out2) -> tn f2 = None ->
    forall x, exists out, transform st2 None x = Ok out /\ length out = n /\ n < length (text_names (input_name_ st2) (tn_components_ st2)).
  Proof.
    intros LB f1 f2 st1 st2 out1 out2 n m E1 TN1 LM L1 LW E2 TN2 x.
    unfold run_tfit, t_fit_transform in E1. cbn [t_fresh estimator] in E1. rewrite LM in E1. cbn [bind] in E1. rewrite TN1 in E1.
    rewrite (proj2 (Nat.leb_le _ _) L1) in E1. destruct (pca_fit n (encode m (tx f1))) as [s r] eqn:SV. injection E1 as <- _.
    unfold run_tfit, t_fit_transform in E2. cbn [estimator pca_ bind] in E2. rewrite TN2 in E2. injection E2 as <- _.
    unfold t_transform. cbn [estimator pca_ tn_components_ input_name_].
    pose proof (pca_other LB _ _ _ _ (encode m x) SV) as O. destruct (pca_transform s (encode m x)) as [r'|e].
    - eexists. split; [reflexivity|]. rewrite (proj1 (text_ordered _ _)). pose proof (enc_width LB m (tx f2) (tx f1)) as EW.
      unfold post_process. rewrite combine_length, (proj1 (text_ordered _ _)). unfold width in *. lia.
    - exfalso. apply (proj1 O). apply (enc_width LB).
  Qed.

  (** The model loaded by the first fit is kept. *)
  Lemma t_stale_model : forall f1 f2 st1 st2 out1 out2, run_tfit t_fresh f1 = Ok (st1, out1) -> run_tfit st1 f2 = Ok (st2, out2) ->
    exists m, load (tm f1) = Ok m /\ estimator st2 = Some m.
  Proof.
    intros f1 f2 st1 st2 out1 out2 E1 E2. unfold run_tfit, t_fit_transform in E1. cbn [t_fresh estimator] in E1.
    apply bindR in E1. destruct E1 as (m & LM & E1). exists m. split; [exact LM|].
    assert (ES : estimator st1 = Some m).
    { destruct (match tn f1 with | Some n => if n <=? min_shape (encode m (tx f1)) then let '(s, r) := pca_fit n (encode m (tx f1)) in (Some s, r) else (pca_ t_fresh, truncate n (encode m (tx f1)))
                            | None => (pca_ t_fresh, encode m (tx f1)) end) as [pca result]. injection E1 as <- _. reflexivity. }
    unfold run_tfit, t_fit_transform in E2. rewrite ES in E2. cbn [bind] in E2.
    destruct (match tn f2 with | Some n => if n <=? min_shape (encode m (tx f2)) then let '(s, r) := pca_fit n (encode m (tx f2)) in (Some s, r) else (pca_ st1, truncate n (encode m (tx f2)))
                            | None => (pca_ st1, encode m (tx f2)) end) as [pca result]. injection E2 as <- _. reflexivity.
  Qed.
End TextEncoder.
