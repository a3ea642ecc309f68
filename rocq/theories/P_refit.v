(** C52: successive fits of StringEncoder and TextEncoder. *)
From Verif Require Import Base M_names M_numnames M_refit L_refit.
Open Scope string_scope.
Open Scope list_scope.
Open Scope nat_scope.

(** After any fits, the attributes are those of a new encoder fitted with the last data if the last fit computes a
    decomposition, or no fit before it did. *)
Theorem C52_string_forgets : forall {F X P V S} vec_fit vec_transform svd_fit h f st,
  @SHistory F X P V S vec_fit vec_transform svd_fit (h ++ [f]) st ->
  Decomposes vec_fit vec_transform f \/ Forall (fun g => ~ Decomposes vec_fit vec_transform g) h ->
  SHistory vec_fit vec_transform svd_fit [f] st.
Proof. intros. eapply s_forgets; eassumption. Qed.
Print Assumptions C52_string_forgets.

(** A new encoder outputs the columns it advertises, on all data, and transforms the data of the fit as it did. *)
Theorem C52_string_fresh : forall {F X P V S} vec_fit vec_transform svd_fit svd_transform,
  SLib vec_transform svd_fit svd_transform -> forall f st out, @run_fit F X P V S vec_fit vec_transform svd_fit s_fresh f = Ok (st, out) ->
  column_names out = all_outputs_ st /\ s_transform vec_transform svd_transform st (fn f) (fx f) = Ok out /\
  forall x, exists out', s_transform vec_transform svd_transform st (fn f) x = Ok out' /\ column_names out' = all_outputs_ st.
Proof. intros. eapply s_fresh_ok; eassumption. Qed.
Print Assumptions C52_string_fresh.

(** If the first fit computes a decomposition, and the second does not and finds another number of n-grams, [transform] fails on
    all data, even those of the second fit. *)
Theorem C52_string_refuted : forall {F X P V S} vec_fit vec_transform svd_fit svd_transform,
  SLib vec_transform svd_fit svd_transform -> forall f1 f2 st1 st2 out1 out2,
  @run_fit F X P V S vec_fit vec_transform svd_fit s_fresh f1 = Ok (st1, out1) -> Decomposes vec_fit vec_transform f1 ->
  run_fit vec_fit vec_transform svd_fit st1 f2 = Ok (st2, out2) -> ~ Decomposes vec_fit vec_transform f2 ->
  (forall v1 v2, vec_fit (fp f1) (fx f1) = Ok v1 -> vec_fit (fp f2) (fx f2) = Ok v2 ->
     width (vec_transform v1 (fx f1)) <> width (vec_transform v2 (fx f2))) ->
  forall x, s_transform vec_transform svd_transform st2 (fn f2) x = Err ValueError.
Proof. intros. eapply s_stale; eassumption. Qed.
Print Assumptions C52_string_refuted.

(** The same for TextEncoder, for fits with the same model. *)
Theorem C52_text_forgets : forall {F X N M S} load encode pca_fit h f st,
  @THistory F X N M S load encode pca_fit (h ++ [f]) st -> Forall (fun g => tm g = tm f) h ->
  TDecomposes load encode f \/ Forall (fun g => ~ TDecomposes load encode g) h -> THistory load encode pca_fit [f] st.
Proof. intros. eapply t_forgets; eassumption. Qed.
Print Assumptions C52_text_forgets.
Theorem C52_text_fresh : forall {F X N M S} load encode pca_fit pca_transform,
  TLib encode pca_fit pca_transform -> forall f st out, @run_tfit F X N M S load encode pca_fit t_fresh f = Ok (st, out) ->
  column_names out = text_names (input_name_ st) (tn_components_ st) /\ t_transform encode pca_transform st (tn f) (tx f) = Ok out /\
  forall x, exists out', t_transform encode pca_transform st (tn f) x = Ok out' /\ column_names out' = text_names (input_name_ st) (tn_components_ st).
Proof. intros. eapply t_fresh_ok; eassumption. Qed.
Print Assumptions C52_text_fresh.

(** If the first fit computes a decomposition with fewer dimensions than the model, and the second keeps all dimensions,
    [transform] outputs fewer columns than advertised. *)
Theorem C52_text_refuted : forall {F X N M S} load encode pca_fit pca_transform,
  TLib encode pca_fit pca_transform -> forall f1 f2 st1 st2 out1 out2 n m,
  @run_tfit F X N M S load encode pca_fit t_fresh f1 = Ok (st1, out1) -> tn f1 = Some n -> load (tm f1) = Ok m ->
  n <= min_shape (encode m (tx f1)) -> n < width (encode m (tx f1)) ->
  run_tfit load encode pca_fit st1 f2 = Ok (st2, out2) -> tn f2 = None ->
  forall x, exists out, t_transform encode pca_transform st2 None x = Ok out /\ length out = n /\
    n < length (text_names (input_name_ st2) (tn_components_ st2)).
Proof. intros. eapply t_stale; eassumption. Qed.
Print Assumptions C52_text_refuted.

(** The model of the first fit is kept, even if the second asks for another. *)
Theorem C52_text_model_refuted : forall {F X N M S} load encode pca_fit f1 f2 st1 st2 out1 out2,
  @run_tfit F X N M S load encode pca_fit t_fresh f1 = Ok (st1, out1) -> run_tfit load encode pca_fit st1 f2 = Ok (st2, out2) ->
  exists m, load (tm f1) = Ok m /\ estimator st2 = Some m.
Proof. intros. eapply t_stale_model; eassumption. Qed.
Print Assumptions C52_text_model_refuted.

(** Data are given by their number of rows and of distinct n-grams. The entries of the vectorized data are their coordinates;
    the decomposition gives zeros. *)
Definition table (r w : nat) : matrix (nat * nat) := {| nrows := r; mcols := map (fun j => map (fun i => (i, j)) (seq 0 r)) (seq 0 w) |}.
Definition zeros (r n : nat) : matrix (nat * nat) := {| nrows := r; mcols := repeat (repeat (0, 0) r) n |}.
Definition ex_vec_fit (_ : unit) (x : nat * nat) : res nat := if snd x =? 0 then Err ValueError else Ok (snd x).
Definition ex_vec_transform (v : nat) (x : nat * nat) := table (fst x) v.
Definition ex_svd_fit (n : nat) (m : matrix (nat * nat)) := ((n, width m), zeros (nrows m) n).
Definition ex_svd_transform (s : nat * nat) (m : matrix (nat * nat)) := if width m =? snd s then Ok (zeros (nrows m) (fst s)) else Err ValueError.
Lemma ex_lib : SLib ex_vec_transform ex_svd_fit ex_svd_transform.
Proof.
  split.
  - intros v x x'. unfold width, ex_vec_transform, table. simpl. rewrite !map_length. reflexivity.
  - intros n m s r E. injection E as <- <-. unfold width, zeros. simpl. apply repeat_length.
  - intros n m s r E. injection E as <- <-. unfold ex_svd_transform. simpl. rewrite Nat.eqb_refl. reflexivity.
  - intros n m s r m' E. injection E as <- <-. unfold ex_svd_transform. simpl. destruct (width m' =? width m) eqn:W.
    + apply Nat.eqb_eq in W. split; [exact W|]. unfold width, zeros. simpl. apply repeat_length.
    + apply Nat.eqb_neq in W. auto.
Qed.
Definition big : sfit := {| fp := tt; fn := 2; fname := Some "a"; fx := (3, 5) |}.
Definition small : sfit := {| fp := tt; fn := 2; fname := Some "a"; fx := (2, 3) |}.
Example ex_string_stale : exists st1 out1 st2 out2,
  run_fit ex_vec_fit ex_vec_transform ex_svd_fit s_fresh big = Ok (st1, out1) /\ Decomposes ex_vec_fit ex_vec_transform big /\
  run_fit ex_vec_fit ex_vec_transform ex_svd_fit st1 small = Ok (st2, out2) /\ ~ Decomposes ex_vec_fit ex_vec_transform small /\
  s_transform ex_vec_transform ex_svd_transform st2 2 (2, 3) = Err ValueError.
Proof.
  eexists _, _, _, _. split; [reflexivity|]. split; [exists 5; split; [reflexivity|vm_compute; lia]|]. split; [reflexivity|].
  split; [intros (v & E & L); injection E as <-; vm_compute in L; lia|reflexivity].
Qed.
(** In the other order it is forgotten. *)
Example ex_string_forgets : exists st, SHistory ex_vec_fit ex_vec_transform ex_svd_fit ([small] ++ [big]) st /\
  SHistory ex_vec_fit ex_vec_transform ex_svd_fit [big] st.
Proof.
  assert (H : exists st, SHistory ex_vec_fit ex_vec_transform ex_svd_fit ([small] ++ [big]) st).
  { eexists. eapply SH_snoc; [eapply (SH_snoc _ _ _ []); [constructor|reflexivity]|reflexivity]. }
  destruct H as (st & H). exists st. split; [exact H|]. eapply C52_string_forgets; [exact H|]. left. exists 5. split; [reflexivity|vm_compute; lia].
Qed.
(** The same libraries for TextEncoder; a model is its number of dimensions. *)
Definition ex_load (n : nat) : res nat := Ok n.
Definition pca2 : tfit := {| tm := 4; tn := Some 2; tname := "a"; tx := (3, 0) |}.
Definition all_dims : tfit := {| tm := 4; tn := None; tname := "a"; tx := (3, 0) |}.
Example ex_text_stale : exists st1 out1 st2 out2 out,
  run_tfit ex_load ex_vec_transform ex_svd_fit t_fresh pca2 = Ok (st1, out1) /\
  run_tfit ex_load ex_vec_transform ex_svd_fit st1 all_dims = Ok (st2, out2) /\
  t_transform ex_vec_transform ex_svd_transform st2 None (3, 0) = Ok out /\
  column_names out = ["a_1"; "a_2"] /\ text_names (input_name_ st2) (tn_components_ st2) = ["a_1"; "a_2"; "a_3"; "a_4"].
Proof. eexists _, _, _, _, _. repeat split; reflexivity. Qed.
(** A refit with too few rows: as many columns as advertised, but not those of the fit. *)
Definition few_rows : tfit := {| tm := 4; tn := Some 2; tname := "a"; tx := (1, 0) |}.
Example ex_text_values : exists st1 out1 st2 out2 out,
  run_tfit ex_load ex_vec_transform ex_svd_fit t_fresh pca2 = Ok (st1, out1) /\
  run_tfit ex_load ex_vec_transform ex_svd_fit st1 few_rows = Ok (st2, out2) /\
  t_transform ex_vec_transform ex_svd_transform st2 (Some 2) (1, 0) = Ok out /\
  out2 = [("a_1", [(0, 0)]); ("a_2", [(0, 1)])] /\ out = [("a_1", [(0, 0)]); ("a_2", [(0, 0)])].
Proof. eexists _, _, _, _, _. repeat split; reflexivity. Qed.
