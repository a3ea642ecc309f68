(** What pipelines tell scikit-learn about themselves (C141, C142). *)
From Verif Require Import Base M_traverse M_expr L_expr1 L_expr2 L_expr4 L_expr5 L_expr6 L_expr7.
From Verif Require Import M_grid M_choicegraph L_conflicts L_choicegraph M_clone M_check L_check.
From Verif Require Import L_estimator1 M_estimator L_estimator3 M_kind L_kind3.
Open Scope string_scope.
Open Scope list_scope.
Open Scope nat_scope.

Section Theorems.
  Context {V K F : Type} `{EqD K}.
  Variable ext : externals V K F.
  Variable hash_obj : oid -> res K.
  Variable is_df : V -> bool.
  Variable kind_of_class : string -> option string.
  Variable kind_of_value : V -> option string.
  Variable classes_of : F -> option V.
  Variable str : string -> V.
  Variable h : heap V K.
  Variable size : nat.
  Variable root : oid.
  Hypothesis Hclosed : closed h size.
  Hypothesis Hroot : root < size.
  Hypothesis Hacyclic : acyclic h root.
  Hypothesis Hstr : forall name, is_df (str name) = false.
  Notation get_classes := (get_classes ext hash_obj is_df classes_of str h size).
  Notation after_asking := (after_asking ext hash_obj is_df classes_of str h size).
  Notation search_classes := (search_classes ext hash_obj is_df classes_of str h size).
  Notation estimator_type := (estimator_type ext hash_obj is_df kind_of_class kind_of_value str h size).

  (** C141: the kind of a pipeline is the kind of its final step. The full property is about all
      [t] with [settles hash_obj h e t] instead of [picks hash_obj h e t]; it is refuted below. *)
  Theorem C141_kind_partial : forall s, L_estimator3.choices_ok h root ->
    (exists a, in_use h root a /\ is_apply h a /\ (is_apply h root -> a = root) /\
       forall e t, applies h a e -> picks hash_obj h e t ->
         (forall cls p, h t = OEstimator cls p ->
            estimator_type root s = (s, Ok (KindIs (match kind_of_class cls with Some k => k | None => "transformer" end)))) /\
         (forall v, h t = OValue v ->
            estimator_type root s = (s, Ok (KindIs (match kind_of_value v with Some k => k | None => "transformer" end))))) \/
    ((forall a, in_use h root a -> ~ is_apply h a) /\ estimator_type root s = (s, Ok (KindIs "transformer"))).
  Proof. exact (kind_answer ext hash_obj is_df kind_of_class kind_of_value str h size root Hclosed Hroot Hacyclic). Qed.

  (** C142: asking for the classes, however often *)
  Theorem C142_classes_partial : forall s, accepted hash_obj is_df h root -> waits_for_data ext h root (fitted s) ->
    (forall o, results s o "preview" = None) ->
    forall k, let s' := after_asking k root s in
    (forall x, fitted s' x = fitted s x) /\
    search_classes (Some root) s' = get_classes root s' /\
    ((exists a, in_use h root a /\ is_apply h a /\ (is_apply h root -> a = root) /\
        (forall g c, fitted s a = Some (FittedWith g) -> classes_of g = Some c -> snd (get_classes root s') = Ok c) /\
        ((forall g c, fitted s a = Some (FittedWith g) -> classes_of g <> Some c) ->
           snd (get_classes root s') = Err AttributeError)) \/
     ((forall a, in_use h root a -> ~ is_apply h a) /\ snd (get_classes root s') = Err AttributeError)).
  Proof. exact (classes_answer ext hash_obj is_df classes_of str h size root Hclosed Hroot Hacyclic Hstr). Qed.
End Theorems.
Print Assumptions C141_kind_partial.
Print Assumptions C142_classes_partial.

(** An outcome of a choice of choices is not looked at: step 8 applies by default a classifier. *)
Theorem C141_kind_nested_refuted :
  exists e t cls p, applies (kx_heap (IVar None)) 8 e /\ settles kx_hash (kx_heap (IVar None)) e t /\
    kx_heap (IVar None) t = OEstimator cls p /\ kx_kind cls = Some "classifier" /\
    snd (kx_type (IVar None) 8 kx_new) = Ok (KindIs "transformer").
Proof.
  exists 12, 6, "LogisticRegression", 4. split; [reflexivity|]. split; [|vm_compute; auto].
  apply (settles_more _ _ 12 10); [discriminate|exists "list", [10; 9]; auto|].
  apply (settles_more _ _ 10 6); [discriminate|exists "list", [6; 9]; auto|].
  apply settles_self. exact I.
Qed.
Print Assumptions C141_kind_nested_refuted.

(** What was chosen is not looked at: step 14 applies a regressor, chosen by a search. *)
Theorem C141_kind_chosen_refuted :
  exists outs i items t cls p,
    kx_heap (IVar None) 15 = OChoice (Some "chosen") outs (Some i) /\ applies (kx_heap (IVar None)) 14 15 /\
    kx_heap (IVar None) outs = OSeq "list" items /\ nth_error items i = Some t /\
    kx_heap (IVar None) t = OEstimator cls p /\ kx_kind cls = Some "regressor" /\
    snd (kx_type (IVar None) 14 kx_new) = Ok (KindIs "classifier").
Proof. exists 11, 1, [6; 9], 9, "Ridge", 4. vm_compute. intuition. Qed.
Print Assumptions C141_kind_chosen_refuted.

(** A pipeline fitted on 3 that gets its data from a value of the expression (5) and has no
    variables: no classes, and the final step is fitted again, on 5. *)
Theorem C142_classes_no_variable_refuted :
  let s := kx_fitted (IValue 0) 16 3 in
  fitted s 16 = Some (FittedWith 3) /\ kx_classes 3 = Some 4 /\
  snd (kx_ask (IValue 0) 16 s) = Err RuntimeError /\
  fitted (fst (kx_ask (IValue 0) 16 s)) 16 = Some (FittedWith 5).
Proof. vm_compute. auto. Qed.
Print Assumptions C142_classes_no_variable_refuted.

(** The same with a target that is a variable: the classes are given, and the vectorizer is
    fitted again, so that predictions change. *)
Theorem C142_classes_silent_refuted :
  let s := kx_fitted (IValue 0) 7 3 in
  let s' := fst (kx_ask (IValue 0) 7 s) in
  snd (kx_ask (IValue 0) 7 s) = Ok 4 /\
  fitted s 5 = Some (FittedWith 3) /\ fitted s' 5 = Some (FittedWith 5) /\
  snd (kx_eval (IValue 0) 7 "predict" [("_skrub_X", 4)] true s) = Ok (TheValue 10) /\
  snd (kx_eval (IValue 0) 7 "predict" [("_skrub_X", 4)] true s') = Ok (TheValue 12).
Proof. vm_compute. auto. Qed.
Print Assumptions C142_classes_silent_refuted.

(** *** Examples *)
Definition kx_var : heap nat nat := kx_heap (IVar None).
Example ex_kind_closed : closed kx_var kx_size.
Proof. apply closed_by_check. reflexivity. Qed.
Example ex_kind_acyclic : acyclic kx_var 7.
Proof. eapply acyclic_by_nodes; [apply ex_kind_closed|unfold kx_size; lia|vm_compute; reflexivity]. Qed.
Lemma kx_choice c n outs ch : kx_var c = OChoice n outs ch ->
  exists a b, (outs = 11 \/ outs = 13) /\ kx_var outs = OSeq "list" [a; b] /\ (ch = None \/ ch = Some 1).
Proof.
  intros E. do 17 (destruct c as [|c]; [try discriminate E; injection E as <- <- <-; cbn; eauto 10|]). discriminate E.
Qed.
Example ex_kind_choices : L_estimator3.choices_ok kx_var 7.
Proof.
  intros o n outs ch _ E. destruct (kx_choice _ _ _ _ E) as (a & b & _ & Eo & [->| ->]).
  - exists "list", [a; b], a. auto.
  - exists "list", [a; b], b. auto.
Qed.
Example ex_kind_accepted : accepted kx_hash kx_df kx_var 7.
Proof.
  assert (L : 7 < kx_size) by (unfold kx_size; lia).
  split; [|split; [|split; [|exact ex_kind_choices]]].
  - destruct (conflicts_found kx_var kx_size 7 ex_kind_closed L ex_kind_acyclic) as (c & Ec & Hc).
    apply Hc. vm_compute in Ec. injection Ec as <-. reflexivity.
  - intros d [_ (v & _ & Hv)]. discriminate Hv.
  - assert (Hm : forall x c m, kx_var x = OChoiceMatch c m -> False).
    { intros x c m E. do 17 (destruct x as [|x]; [discriminate E|]). discriminate E. }
    split.
    + intros c name outs ch _ E. destruct (kx_choice _ _ _ _ E) as (a & b & _ & Eo & _). exists [a; b].
      exists name, outs, ch, "list". auto.
    + intros x c m _ E. destruct (Hm _ _ _ E).
    + intros x c m t _ E. destruct (Hm _ _ _ E).
Qed.
Example ex_kind_waits : waits_for_data kx_ext kx_var 7 (fitted (kx_fitted (IVar None) 7 3)).
Proof.
  split.
  - intros o Ho Hst.
    assert (H5 : needed kx_ext kx_var [] "preview" (fitted (kx_fitted (IVar None) 7 3)) 5 1).
    { eapply needed_more; [constructor|]. split; [reflexivity|]. cbn. auto. }
    assert (H57 : forall r, (r = 7 \/ r = 8 \/ r = 14 \/ r = 16) -> needed kx_ext kx_var [] "preview" (fitted (kx_fitted (IVar None) 7 3)) r 1).
    { intros r Hr. apply (needed_trans _ _ _ _ _ r 5 1); [|exact H5].
      eapply needed_more; [constructor|]. destruct Hr as [->|[->|[->| ->]]]; (split; [reflexivity|cbn; auto]). }
    exists 1. unfold stateful in Hst. unfold kx_var in Hst at 1.
    do 17 (destruct o as [|o]; [cbn in Hst; first [destruct Hst; fail|split; [discriminate|split; [auto|exact I]]]|]). cbn in Hst. destruct Hst.
  - exists 10. vm_compute. reflexivity.
Qed.
Example ex_kind_is : snd (kx_type (IVar None) 7 kx_new) = Ok (KindIs "classifier").
Proof. vm_compute. reflexivity. Qed.
Example ex_classes : snd (kx_ask (IVar None) 7 (kx_fitted (IVar None) 7 3)) = Ok 4.
Proof. vm_compute. reflexivity. Qed.
