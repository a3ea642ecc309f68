(** Theorems about the generation of misspelled duplicates (C58). *)
From Coq Require Import QArith.
From Verif Require Import Base M_gendup L_gendup.
Open Scope list_scope.
Open Scope nat_scope.

Section Theorems.
  Context {R : Type} (random : R -> nat -> list Q * R) (choice : R -> nat -> list nat * R).
  Hypothesis ok : GenOk random choice.
  Notation make := (make_deduplication_data random choice).

  (** C58, what holds: the right number of entries for each example, with the right length; the first [n_ex] letters of the [n_ex] entries have a draw each,
      and are replaced by a lowercase letter exactly when it is below the probability; all other letters are kept. *)
  Theorem C58_partial : forall p rng examples counts, combine examples counts <> [] -> Forall (fun en => fst en <> [] /\ 0 < snd en) (combine examples counts) ->
    exists out, make p rng examples counts = Ok out /\ AllEntries p (combine examples counts) out.
  Proof using ok. exact (make_ok random choice ok). Qed.
  (** C58: for examples of one letter all letters have a draw. *)
  Theorem C58_one_letter : forall (example : text) n_ex (draws : list Q), length draws = n_ex -> length example = 1 -> AllDrawn (nth_error draws) example n_ex.
  Proof using.
    intros example n draws L E i Li. rewrite E in Li. destruct (nth_error draws i) as [d|] eqn:Ed; [exists d; reflexivity|]. apply nth_error_None in Ed. lia.
  Qed.

  (** C58 is wrong: whatever the draws and the probability, all entries after the first [n_ex / length] ones are the example itself. *)
  Theorem C58_refuted : forall p rng (example : text) n_ex, 2 <= length example -> 2 <= n_ex ->
    exists out, make p rng [example] [n_ex] = Ok out /\ length out = n_ex /\
      forall r e, nth_error out r = Some e -> n_ex <= r * length example -> e = example.
  Proof using ok.
    intros p rng example n L2 Ln. destruct (make_ok random choice ok p rng [example] [n]) as (out & E & A); [discriminate| |].
    { constructor; [|constructor]. cbn. split; [destruct example; [cbn in L2; lia|discriminate]|lia]. }
    exists out. split; [exact E|]. cbn in A. inversion A as [|? ? ? draws entries out' Ld H A' E1]; subst. inversion A'; subst. rewrite app_nil_r.
    split; [apply H|]. exact (entries_clean p draws example _ entries H eq_refl).
  Qed.
  (** C58 is wrong when some example should have no entry. *)
  Theorem C58_zero_refuted : forall p rng examples counts, Exists (fun en => snd en = 0) (combine examples counts) -> Forall (fun en => fst en <> []) (combine examples counts) ->
    make p rng examples counts = Err IndexError.
  Proof using ok. intros p rng examples counts X F. unfold make_deduplication_data.
    pose proof (loop_zero random choice ok p _ rng X F) as E.
    match goal with |- context [loop ?a ?b ?c ?d ?e] => replace (loop a b c d e) with (@Err (list (list text)) IndexError) by (symmetry; exact E) end. reflexivity.
  Qed.
End Theorems.

Print Assumptions C58_partial.
Print Assumptions C58_one_letter.
Print Assumptions C58_refuted.
Print Assumptions C58_zero_refuted.

(** ** Examples: a generator that always draws 0 and the letter "x" *)
Definition ex_random (r : unit) (n : nat) : list Q * unit := (repeat 0%Q n, tt).
Definition ex_choice (r : unit) (n : nat) : list nat * unit := (repeat 23 n, tt).
Lemma ex_ok : GenOk ex_random ex_choice.
Proof. split; [intros; apply repeat_length|intros; apply repeat_length|]. intros r n. apply Forall_forall. intros i I. cbn in I. apply repeat_spec in I. lia. Qed.
(** with the probability 1, three entries of "abc": only the first one is misspelled *)
Example ex_C58_refuted : make_deduplication_data ex_random ex_choice 1%Q tt [[97; 98; 99]] [3] = Ok [[120; 120; 120]; [97; 98; 99]; [97; 98; 99]].
Proof. reflexivity. Qed.
Example ex_C58_partial : exists out, make_deduplication_data ex_random ex_choice (1 # 2) tt [[97]; [97; 98]] [2; 3] = Ok out /\ AllEntries (1 # 2) [([97], 2); ([97; 98], 3)] out.
Proof.
  apply (C58_partial ex_random ex_choice ex_ok (1 # 2) tt [[97]; [97; 98]] [2; 3]); [discriminate|]. repeat constructor; cbn; (discriminate || lia).
Qed.
Example ex_C58_zero : make_deduplication_data ex_random ex_choice (1 # 2) tt [[97]; [97; 98]] [2; 0] = Err IndexError.
Proof. apply (C58_zero_refuted ex_random ex_choice ex_ok); [right; left; reflexivity|]. repeat constructor; discriminate. Qed.
