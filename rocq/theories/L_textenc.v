(** Text encoders that were saved and loaded. *)
From Coq Require Import ZArith Lia.
From Verif Require Import Base M_names M_str M_numnames M_refit M_textenc.
Open Scope string_scope.
Open Scope list_scope.
Open Scope nat_scope.
Set Default Proof Using "Type".

Section Saved.
  Context {F X L M S : Type}.
  Variable is_string : X -> bool.
  Variable encode : M -> X -> matrix F.
  Variable pca_fit : Z -> matrix F -> res (S * matrix F).
  Variable pca_transform : S -> matrix F -> res (matrix F).
  Notation enc := (enc L M S).
  Notation op := (op X L).
  Notation run load := (run is_string load encode pca_fit pca_transform).
  Notation do_op load := (do_op is_string load encode pca_fit pca_transform).
  Notation transform load := (transform is_string load encode pca_transform).
  Notation fit_transform load := (fit_transform is_string load encode pca_fit).

  (** ** Specification *)

  (** The tables that were asked for. *)
  Definition tables (l : list (answer F)) : list (res (frame (list F))) :=
    flat_map (fun a => match a with Done => [] | Table r => [r] end) l.
  (** The same operations, on an encoder that is never saved. *)
  Definition never_saved (ops : list op) : list op :=
    filter (fun o => match o with SaveLoad => false | _ => true end) ops.
  (** The parameters a model is loaded with stay those. *)
  Definition same_model (l0 : L) (ops : list op) : Prop :=
    forall p, In (SetParams p) ops -> p_load p = l0.
  Definition keeps_weights (ops : list op) : Prop :=
    forall p, In (SetParams p) ops -> p_store_weights p = true.

  (** ** Lemmas *)
  Definition alike (load : L -> res M) (l0 : L) (e1 e2 : enc) : Prop :=
    e_params e1 = e_params e2 /\ e_input_name e1 = e_input_name e2 /\ e_pca e1 = e_pca e2 /\
    e_n_components e1 = e_n_components e2 /\ p_load (e_params e1) = l0 /\
    (forall m, e_estimator e1 = Some m -> load l0 = Ok m) /\ (forall m, e_estimator e2 = Some m -> load l0 = Ok m).

  Lemma get_alike load l0 e1 e2 : alike load l0 e1 e2 ->
    alike load l0 (fst (get_model load e1)) (fst (get_model load e2)) /\ snd (get_model load e1) = snd (get_model load e2).
  Proof.
    intros (H1 & H2 & H3 & H4 & H5 & H6 & H7). unfold get_model.
    assert (Hsplit : forall e : enc, p_load (e_params e) = l0 -> (forall m, e_estimator e = Some m -> load l0 = Ok m) ->
       e_params (fst (get_model load e)) = e_params e /\ e_input_name (fst (get_model load e)) = e_input_name e /\
       e_pca (fst (get_model load e)) = e_pca e /\ e_n_components (fst (get_model load e)) = e_n_components e /\
       (forall m, e_estimator (fst (get_model load e)) = Some m -> load l0 = Ok m) /\ snd (get_model load e) = load l0).
    { intros e He Hm. unfold get_model. destruct (e_estimator e) as [m|] eqn:Ee; cbn.
      - repeat split; auto. intros m0 Em. rewrite Ee in Em. apply Hm. exact Em. symmetry. auto.
      - rewrite He. destruct (load l0) as [m|ex] eqn:El; cbn; repeat split; auto; congruence. }
    destruct (Hsplit e1 H5 H6) as (A1 & A2 & A3 & A4 & A5 & A6).
    destruct (Hsplit e2 (eq_trans (f_equal (@p_load L) (eq_sym H1)) H5) H7) as (B1 & B2 & B3 & B4 & B5 & B6).
    unfold get_model in *. split; [|congruence]. unfold alike. repeat split; try congruence; auto.
  Qed.

  Lemma names_alike load l0 e1 e2 : alike load l0 e1 e2 -> feature_names e1 = feature_names e2.
  Proof. intros (_ & H2 & H3 & H4 & _). unfold feature_names. rewrite H2, H3, H4. reflexivity. Qed.

  Lemma transform_alike load l0 x e1 e2 : alike load l0 e1 e2 ->
    alike load l0 (fst (transform load x e1)) (fst (transform load x e2)) /\ snd (transform load x e1) = snd (transform load x e2).
  Proof.
    intros Ha. destruct (get_alike _ _ _ _ Ha) as [Hb Hr]. unfold M_textenc.transform.
    destruct (get_model load e1) as [f1 r1], (get_model load e2) as [f2 r2]. cbn [fst snd] in *. subst r2.
    destruct r1 as [m|ex]; [|destruct ex; cbn; auto]. destruct (negb (is_string x)); [auto|]. cbn [fst snd]. split; [exact Hb|].
    rewrite (names_alike _ _ _ _ Hb). destruct Hb as (H1 & _ & H3 & _). rewrite H1, H3. reflexivity.
  Qed.

  Lemma fit_alike load l0 name x e1 e2 : alike load l0 e1 e2 ->
    alike load l0 (fst (fit_transform load name x e1)) (fst (fit_transform load name x e2)) /\
    snd (fit_transform load name x e1) = snd (fit_transform load name x e2).
  Proof.
    intros Ha. unfold M_textenc.fit_transform. destruct (negb (is_string x)); [auto|].
    pose proof Ha as (H1 & _). rewrite <- H1. destruct (check_params (e_params e1)) as [[]|ex]; [|auto].
    set (f1 := mk_enc (e_params e1) (e_cache_folder e1) (e_estimator e1) (Some name) (e_pca e1) (e_n_components e1)).
    set (f2 := mk_enc (e_params e1) (e_cache_folder e2) (e_estimator e2) (Some name) (e_pca e2) (e_n_components e2)).
    assert (Hf : alike load l0 f1 f2) by (unfold alike in *; cbn; intuition auto).
    destruct (get_alike _ _ _ _ Hf) as [Hb Hr].
    destruct (get_model load f1) as [g1 r1], (get_model load f2) as [g2 r2]. cbn [fst snd] in *. subst r2.
    destruct r1 as [m|ex]; [|auto].
    assert (Hpca : forall pca, alike load l0 (mk_enc (e_params g1) (e_cache_folder g1) (e_estimator g1) (e_input_name g1) pca (e_n_components g1))
       (mk_enc (e_params g2) (e_cache_folder g2) (e_estimator g2) (e_input_name g2) pca (e_n_components g2))).
    { intros pca. unfold alike in *; cbn; intuition auto. }
    assert (Hn : forall a b n, alike load l0 a b -> alike load l0 (mk_enc (e_params a) (e_cache_folder a) (e_estimator a) (e_input_name a) (e_pca a) n)
       (mk_enc (e_params b) (e_cache_folder b) (e_estimator b) (e_input_name b) (e_pca b) n)).
    { intros a b n. unfold alike; cbn; intuition auto. }
    destruct (p_n_components (e_params e1)) as [n|].
    - destruct (n <=? Z.of_nat (min_shape (encode m x)))%Z.
      + destruct (pca_fit n (encode m x)) as [[s out]|ex]; cbn [fst snd]; [|auto].
        split; [apply Hn; apply Hpca|]. erewrite names_alike; [reflexivity|]. apply Hn. apply Hpca.
      + cbn [fst snd]. split; [apply Hn; exact Hb|]. erewrite names_alike; [reflexivity|]. apply Hn. exact Hb.
    - cbn [fst snd]. split; [apply Hn; exact Hb|]. erewrite names_alike; [reflexivity|]. apply Hn. exact Hb.
  Qed.

  Lemma runs_alike load l0 : forall ops e1 e2, same_model l0 ops -> alike load l0 e1 e2 ->
    tables (snd (run load ops e1)) = tables (snd (run load (never_saved ops) e2)).
  Proof.
    induction ops as [|o ops IH]; intros e1 e2 Hs Ha; [reflexivity|].
    assert (Hs' : same_model l0 ops) by (intros p Hp; apply Hs; right; exact Hp).
    destruct o as [p|name x|x|]; cbn [never_saved filter M_textenc.run M_textenc.do_op].
    - assert (Hb : alike load l0 (set_params p e1) (set_params p e2)).
      { unfold alike in *; cbn. intuition auto. apply Hs. left. reflexivity. }
      specialize (IH _ _ Hs' Hb). fold (never_saved ops). destruct (run load ops (set_params p e1)), (run load (never_saved ops) (set_params p e2)). exact IH.
    - destruct (fit_alike load l0 name x e1 e2 Ha) as [Hb Hr].
      destruct (fit_transform load name x e1) as [f1 r1], (fit_transform load name x e2) as [f2 r2]. cbn [fst snd] in *. subst r2.
      specialize (IH _ _ Hs' Hb). fold (never_saved ops). destruct (run load ops f1), (run load (never_saved ops) f2). cbn. f_equal. exact IH.
    - destruct (transform_alike load l0 x e1 e2 Ha) as [Hb Hr].
      destruct (transform load x e1) as [f1 r1], (transform load x e2) as [f2 r2]. cbn [fst snd] in *. subst r2.
      specialize (IH _ _ Hs' Hb). fold (never_saved ops). destruct (run load ops f1), (run load (never_saved ops) f2). cbn. f_equal. exact IH.
    - assert (Hb : alike load l0 (getstate e1) e2).
      { unfold alike in *; cbn. intuition auto. destruct (p_store_weights (e_params e1)); [auto|discriminate]. }
      specialize (IH _ _ Hs' Hb). fold (never_saved ops). destruct (run load ops (getstate e1)), (run load (never_saved ops) e2). exact IH.
  Qed.

  Theorem saving_is_harmless load p ops : same_model (p_load p) ops ->
    tables (snd (run load ops (new_encoder p))) = tables (snd (run load (never_saved ops) (new_encoder p))).
  Proof. intros Hs. eapply runs_alike; [exact Hs|]. unfold alike; cbn. repeat split; auto; discriminate. Qed.

  (** With the weights, nothing is loaded: neither the process nor the parameters matter. *)
  Definition twins (e1 e2 : enc) : Prop :=
    e_params e1 = e_params e2 /\ e_input_name e1 = e_input_name e2 /\ e_pca e1 = e_pca e2 /\
    e_n_components e1 = e_n_components e2 /\ e_estimator e1 = e_estimator e2 /\ e_estimator e1 <> None /\ p_store_weights (e_params e1) = true.

  Lemma twins_model load1 load2 e1 e2 : twins e1 e2 ->
    exists m, get_model load1 e1 = (e1, Ok m) /\ get_model load2 e2 = (e2, Ok m).
  Proof. intros (_ & _ & _ & _ & H5 & H6 & _). unfold get_model. rewrite <- H5. destruct (e_estimator e1) as [m|]; [eauto|congruence]. Qed.
  Lemma twins_names e1 e2 : twins e1 e2 -> feature_names e1 = feature_names e2.
  Proof. intros (_ & H2 & H3 & H4 & _). unfold feature_names. rewrite H2, H3, H4. reflexivity. Qed.

  Lemma runs_twins load1 load2 : forall ops e1 e2, keeps_weights ops -> twins e1 e2 ->
    tables (snd (run load1 ops e1)) = tables (snd (run load2 (never_saved ops) e2)).
  Proof.
    induction ops as [|o ops IH]; intros e1 e2 Hs Ha; [reflexivity|].
    assert (Hs' : keeps_weights ops) by (intros p Hp; apply Hs; right; exact Hp).
    destruct o as [p|name x|x|]; cbn [never_saved filter M_textenc.run M_textenc.do_op].
    - assert (Hb : twins (set_params p e1) (set_params p e2)).
      { unfold twins in *; cbn. intuition auto. apply Hs. left. reflexivity. }
      specialize (IH _ _ Hs' Hb). fold (never_saved ops). destruct (run load1 ops (set_params p e1)), (run load2 (never_saved ops) (set_params p e2)). exact IH.
    - assert (Hf : twins (fst (fit_transform load1 name x e1)) (fst (fit_transform load2 name x e2)) /\
        snd (fit_transform load1 name x e1) = snd (fit_transform load2 name x e2)).
      { unfold M_textenc.fit_transform. destruct (negb (is_string x)); [auto|].
        pose proof Ha as (H1 & _). rewrite <- H1. destruct (check_params (e_params e1)) as [[]|ex]; [|auto].
        set (f1 := mk_enc (e_params e1) (e_cache_folder e1) (e_estimator e1) (Some name) (e_pca e1) (e_n_components e1)).
        set (f2 := mk_enc (e_params e1) (e_cache_folder e2) (e_estimator e2) (Some name) (e_pca e2) (e_n_components e2)).
        assert (Hf : twins f1 f2) by (unfold twins in *; cbn; intuition auto).
        destruct (twins_model load1 load2 f1 f2 Hf) as (m & -> & ->).
        assert (Hpca : forall pca, twins (mk_enc (e_params f1) (e_cache_folder f1) (e_estimator f1) (e_input_name f1) pca (e_n_components f1))
           (mk_enc (e_params f2) (e_cache_folder f2) (e_estimator f2) (e_input_name f2) pca (e_n_components f2))).
        { intros pca. unfold twins in *; cbn in *; intuition auto. }
        assert (Hn : forall a b n, twins a b -> twins (mk_enc (e_params a) (e_cache_folder a) (e_estimator a) (e_input_name a) (e_pca a) n)
           (mk_enc (e_params b) (e_cache_folder b) (e_estimator b) (e_input_name b) (e_pca b) n)).
        { intros a b n. unfold twins; cbn; intuition auto. }
        clearbody f1 f2.
        destruct (p_n_components (e_params e1)) as [n|].
        - destruct (n <=? Z.of_nat (min_shape (encode m x)))%Z.
          + destruct (pca_fit n (encode m x)) as [[s out]|ex]; cbn [fst snd]; [|auto].
            split; [apply Hn; apply Hpca|]. erewrite twins_names; [reflexivity|]. apply Hn. apply Hpca.
          + cbn [fst snd]. split; [apply Hn; exact Hf|]. erewrite twins_names; [reflexivity|]. apply Hn. exact Hf.
        - cbn [fst snd]. split; [apply Hn; exact Hf|]. erewrite twins_names; [reflexivity|]. apply Hn. exact Hf. }
      destruct Hf as [Hb Hr].
      destruct (fit_transform load1 name x e1) as [f1 r1], (fit_transform load2 name x e2) as [f2 r2]. cbn [fst snd] in *. subst r2.
      specialize (IH _ _ Hs' Hb). fold (never_saved ops). destruct (run load1 ops f1), (run load2 (never_saved ops) f2). cbn. f_equal. exact IH.
    - assert (Hf : fst (transform load1 x e1) = e1 /\ fst (transform load2 x e2) = e2 /\ snd (transform load1 x e1) = snd (transform load2 x e2)).
      { unfold M_textenc.transform. destruct (twins_model load1 load2 e1 e2 Ha) as (m & -> & ->). destruct (negb (is_string x)); [auto|].
        cbn [fst snd]. rewrite (twins_names _ _ Ha). destruct Ha as (H1 & _ & H3 & _). rewrite H1, H3. auto. }
      destruct (transform load1 x e1) as [f1 r1], (transform load2 x e2) as [f2 r2]. cbn [fst snd] in Hf. destruct Hf as (-> & -> & ->).
      specialize (IH _ _ Hs' Ha). fold (never_saved ops). destruct (run load1 ops e1), (run load2 (never_saved ops) e2). cbn. f_equal. exact IH.
    - assert (Hb : twins (getstate e1) e2).
      { unfold twins in *; cbn. destruct Ha as (H1 & H2 & H3 & H4 & H5 & H6 & H7). rewrite H7. repeat split; auto. }
      specialize (IH _ _ Hs' Hb). fold (never_saved ops). destruct (run load1 ops (getstate e1)), (run load2 (never_saved ops) e2). exact IH.
  Qed.

  Theorem weights_suffice load1 load2 ops e : p_store_weights (e_params e) = true -> e_estimator e <> None -> keeps_weights ops ->
    tables (snd (run load1 ops (getstate e))) = tables (snd (run load2 (never_saved ops) e)).
  Proof.
    intros Hw He Hk. apply runs_twins; [exact Hk|]. unfold twins; cbn. rewrite Hw. repeat split; auto.
  Qed.

  (** Without a fit. *)
  Definition blank (e : enc) : Prop := e_input_name e = None /\ e_pca e = None /\ e_n_components e = None.
  Theorem never_fitted (load : L -> res M) (p : params L) : forall ops : list op, (forall name x, ~ In (Fit name x) ops) ->
    forall r, In r (tables (snd (run load ops (new_encoder p)))) -> exists ex, r = Err ex /\
      (ex = NotFittedError \/ ex = ValueError \/ exists l, load l = Err ex).
  Proof.
    intros ops Hno. assert (Hb : blank (new_encoder (M := M) (S := S) p)) by (unfold blank; auto). revert Hb. generalize (new_encoder (M := M) (S := S) p).
    induction ops as [|o ops IH]; intros e Hb r Hr; [destruct Hr|].
    assert (Hno' : forall name x, ~ In (Fit name x) ops) by (intros name x Hin; apply (Hno name x); right; exact Hin).
    specialize (IH Hno'). destruct o as [q|name x|x|]; cbn [M_textenc.run M_textenc.do_op] in Hr.
    - assert (Hb' : blank (set_params q e)) by exact Hb. destruct (run load ops (set_params q e)) as [f l] eqn:Er.
      apply (IH (set_params q e) Hb'). rewrite Er. exact Hr.
    - exfalso. apply (Hno name x). left. reflexivity.
    - assert (Ht : blank (fst (transform load x e)) /\ exists ex, snd (transform load x e) = Err ex /\ (ex = NotFittedError \/ ex = ValueError \/ exists l, load l = Err ex)).
      { unfold M_textenc.transform, get_model. destruct Hb as (B1 & B2 & B3). destruct (e_estimator e) as [m|].
        - destruct (negb (is_string x)); cbn; [split; [unfold blank; auto|eauto]|]. rewrite B2. cbn. unfold feature_names. rewrite ?B1, ?B2, ?B3. cbn.
          split; [unfold blank; auto|eauto].
        - destruct (load (p_load (e_params e))) as [m|ex] eqn:El.
          + destruct (negb (is_string x)); cbn; [split; [unfold blank; auto|eauto]|]. rewrite B2. cbn. unfold feature_names. cbn. rewrite ?B1, ?B2, ?B3. cbn.
            split; [unfold blank; auto|eauto].
          + destruct ex; cbn; (split; [unfold blank; auto|eauto 6]). }
      destruct Ht as [Hb' (ex & Et & Hex)]. destruct (transform load x e) as [f a]. cbn [fst snd] in *. subst a.
      destruct (run load ops f) as [g l] eqn:Er. cbn in Hr. destruct Hr as [<-|Hr]; [eauto|]. apply (IH f Hb'). rewrite Er. exact Hr.
    - assert (Hb' : blank (getstate e)) by exact Hb. destruct (run load ops (getstate e)) as [f l] eqn:Er.
      apply (IH (getstate e) Hb'). rewrite Er. exact Hr.
  Qed.
End Saved.
