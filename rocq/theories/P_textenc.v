(** Text encoders that are saved and loaded (C146), or not fitted (C147). *)
From Coq Require Import ZArith.
From Verif Require Import Base M_names M_str M_numnames M_refit M_textenc L_textenc.
Open Scope string_scope.
Open Scope list_scope.
Open Scope nat_scope.

(** C146: in any history where the model asked for stays the same, saving and loading the encoder at any time, any number
    of times, with or without its weights, changes no answer. The full property is without [same_model], and in any
    process; both are refuted below. *)
Theorem C146_saving_changes_nothing_partial : forall {F X L M S} is_string (load : L -> res M) (encode : M -> X -> matrix F)
    (pca_fit : Z -> matrix F -> res (S * matrix F)) pca_transform p ops,
  same_model (p_load p) ops ->
  tables (snd (run is_string load encode pca_fit pca_transform ops (new_encoder p)))
  = tables (snd (run is_string load encode pca_fit pca_transform (never_saved ops) (new_encoder p))).
Proof. intros. apply saving_is_harmless. assumption. Qed.
Print Assumptions C146_saving_changes_nothing_partial.

(** With its weights, an encoder answers the same in every process, whether or not the model can be found there, and
    whatever model is asked for later. *)
Theorem C146_weights_suffice : forall {F X L M S} is_string (load1 load2 : L -> res M) (encode : M -> X -> matrix F)
    (pca_fit : Z -> matrix F -> res (S * matrix F)) pca_transform ops e,
  p_store_weights (e_params e) = true -> e_estimator e <> None -> keeps_weights ops ->
  tables (snd (run is_string load1 encode pca_fit pca_transform ops (getstate e)))
  = tables (snd (run is_string load2 encode pca_fit pca_transform (never_saved ops) e)).
Proof. intros. apply weights_suffice; assumption. Qed.
Print Assumptions C146_weights_suffice.

(** C147: an encoder that no one tried to fit gives no table. The full property is about encoders that no fit succeeded
    for, and says NotFittedError; it is refuted below. *)
Theorem C147_not_fitted_partial : forall {F X L M S} is_string (load : L -> res M) (encode : M -> X -> matrix F)
    (pca_fit : Z -> matrix F -> res (S * matrix F)) pca_transform p (ops : list (op X L)),
  (forall name x, ~ In (Fit name x) ops) ->
  forall r, In r (tables (snd (run is_string load encode pca_fit pca_transform ops (new_encoder p)))) ->
    exists ex, r = Err ex /\ (ex = NotFittedError \/ ex = ValueError \/ exists l, load l = Err ex).
Proof. intros. eapply never_fitted; eassumption. Qed.
Print Assumptions C147_not_fitted_partial.

(** ** Examples: models are numbers, 9 cannot be found; a column is a list of numbers, empty if it has no strings. *)
Definition ext_load (l : nat) : res nat := if l =? 9 then Err OSError else Ok l.
Definition ext_string (x : list nat) : bool := match x with [] => false | _ => true end.
Definition ext_encode (m : nat) (x : list nat) : matrix nat :=
  {| nrows := length x; mcols := [map (plus m) x; map (mult m) x; x] |}.
Definition ext_pca (n : Z) (m : matrix nat) : res (nat * matrix nat) :=
  if (n <? 0)%Z then Err ValueError else Ok (7, {| nrows := nrows m; mcols := map (map (plus 7)) (firstn (Z.to_nat n) (mcols m)) |}).
Definition ext_apply (s : nat) (m : matrix nat) : res (matrix nat) := Ok {| nrows := nrows m; mcols := map (map (plus s)) (firstn 2 (mcols m)) |}.
Definition ext_run := run ext_string ext_load ext_encode ext_pca ext_apply.
Definition ext_p (l : nat) (n : option Z) (store : bool) : params nat := mk_params l n true true true true store.

Example ex_saved :
  let ops := [Transform [1]; SaveLoad; Fit "t" [1; 2]; SaveLoad; Transform [3]; SetParams (ext_p 5 None true); SaveLoad; Fit "u" [4; 5]; Transform []] in
  same_model 5 ops /\
  tables (snd (ext_run ops (new_encoder (ext_p 5 (Some 2%Z) false)))) =
    [Err NotFittedError; Ok [("t_1", [13; 14]); ("t_2", [12; 17])]; Ok [("t_1", [15]); ("t_2", [22])];
     Ok [("u_1", [9; 10]); ("u_2", [20; 25]); ("u_3", [4; 5])]; Err ValueError] /\
  e_estimator (fst (ext_run [Fit "t" [1; 2]; SaveLoad] (new_encoder (ext_p 5 None false)))) = None.
Proof.
  split; [|vm_compute; repeat split].
  intros p Hp. cbn in Hp. repeat (destruct Hp as [Hp|Hp]; [try discriminate; injection Hp as <-; reflexivity|]). destruct Hp.
Qed.
Example ex_weights :
  let e := fst (ext_run [Fit "t" [1; 2]] (new_encoder (ext_p 5 None true))) in
  p_store_weights (e_params e) = true /\ e_estimator e = Some 5 /\
  tables (snd (run ext_string (fun _ => Err OSError) ext_encode ext_pca ext_apply [SaveLoad; SetParams (ext_p 6 None true); Transform [1]] (getstate e)))
    = [Ok [("t_1", [6]); ("t_2", [5]); ("t_3", [1])]].
Proof. vm_compute. repeat split. Qed.

(** Another model was asked for after the fit: without its weights, the loaded encoder uses that one. *)
Theorem C146_other_model_refuted :
  let ops := [Fit "t" [1]; SetParams (ext_p 6 None false); SaveLoad; Transform [1]] in
  tables (snd (ext_run ops (new_encoder (ext_p 5 None false))))
  <> tables (snd (ext_run (never_saved ops) (new_encoder (ext_p 5 None false)))).
Proof. vm_compute. discriminate. Qed.
Print Assumptions C146_other_model_refuted.

(** The model cannot be found where the encoder is loaded: the table that the encoder gave cannot be had. *)
Theorem C146_other_process_refuted :
  let e := fst (ext_run [Fit "t" [1]] (new_encoder (ext_p 5 None false))) in
  snd (transform ext_string ext_load ext_encode ext_apply [1] e) = Ok [("t_1", [6]); ("t_2", [5]); ("t_3", [1])] /\
  snd (transform ext_string (fun _ => Err OSError) ext_encode ext_apply [1] (getstate e)) = Err OSError.
Proof. vm_compute. auto. Qed.
Print Assumptions C146_other_process_refuted.

(** The model could not be found at the fit; then it can: the encoder counts as fitted and an attribute is missing. *)
Theorem C147_failed_fit_refuted :
  tables (snd (ext_run [Fit "t" [1]; SetParams (ext_p 5 None false); Transform [1]] (new_encoder (ext_p 9 None false))))
  = [Err OSError; Err AttributeError].
Proof. vm_compute. reflexivity. Qed.
Print Assumptions C147_failed_fit_refuted.

(** Asking an encoder that was not fitted to transform loads the model, or fails to. *)
Theorem C147_loads_first_refuted :
  e_estimator (fst (transform ext_string ext_load ext_encode ext_apply [1] (new_encoder (S := nat) (ext_p 5 None false)))) = Some 5 /\
  snd (transform ext_string ext_load ext_encode ext_apply [1] (new_encoder (S := nat) (ext_p 9 None false))) = Err OSError.
Proof. vm_compute. auto. Qed.
Print Assumptions C147_loads_first_refuted.
