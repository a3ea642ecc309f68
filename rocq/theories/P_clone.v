(** C30: cloning an expression. *)
From Verif Require Import Base M_traverse M_expr L_expr1 L_expr5 L_expr6 L_expr7 M_clone L_clone L_clone2.
Open Scope string_scope.
Open Scope list_scope.
Open Scope nat_scope.

Theorem C30_clone_is_a_copy :
  forall (V K : Type) (HK : EqD K) (copy : V -> res V)
         (new_seq new_map new_estimator : string -> res unit) (h : heap V K) (size : nat)
         (drop : bool) (root : oid) (h' : heap V K) (size' : nat) (root' : oid),
    closed h size -> root < size ->
    clone copy new_seq new_map new_estimator h size root drop = Ok (h', size', root') ->
    exists f, is_clone copy drop h size root h' size' root' f.
Proof. intros. eapply clone_is_clone; eassumption. Qed.
Print Assumptions C30_clone_is_a_copy.

Theorem C30_clone_succeeds :
  forall (V K : Type) (HK : EqD K) (copy : V -> res V)
         (new_seq new_map new_estimator : string -> res unit) (h : heap V K) (size : nat)
         (drop : bool) (root : oid),
    closed h size -> root < size -> acyclic h root ->
    (forall o, part_of h root o -> copyable copy new_seq new_map new_estimator h o) ->
    exists x, clone copy new_seq new_map new_estimator h size root drop = Ok x.
Proof. intros. apply clone_succeeds; assumption. Qed.
Print Assumptions C30_clone_succeeds.

Theorem C30_clone_evaluates_like_the_original :
  forall (V K F : Type) (HK : EqD K) (ext : externals V K F) (copy : V -> res V)
         (new_seq new_map new_estimator : string -> res unit) (h : heap V K) (size : nat)
         (root : oid) (drop : bool) (h' : heap V K) (size' : nat) (root' : oid)
         (e : env V) (requested : string) (s s' : st V F),
    (forall v v', copy v = Ok v' -> v' = v) ->
    closed h size -> root < size -> acyclic h root ->
    clone copy new_seq new_map new_estimator h size root drop = Ok (h', size', root') ->
    values_unused drop h root e (real_mode requested) ->
    (forall o, part_of h root o -> fitted s o = None) ->
    (forall n, part_of h' root' n -> fitted s' n = None) ->
    snd (evaluate ext h' size' root' requested e true s')
    = snd (evaluate ext h size root requested e true s).
Proof. intros. eapply clone_evaluates; eassumption. Qed.
Print Assumptions C30_clone_evaluates_like_the_original.

Theorem C30_clone_is_independent :
  forall (V K F : Type) (HK : EqD K) (ext : externals V K F) (copy : V -> res V)
         (new_seq new_map new_estimator : string -> res unit) (h : heap V K) (size : nat)
         (root : oid) (drop : bool) (h' : heap V K) (size' : nat) (root' : oid)
         (e : env V) (requested : string) (s : st V F),
    closed h size -> root < size ->
    clone copy new_seq new_map new_estimator h size root drop = Ok (h', size', root') ->
    let s2 := fst (evaluate ext h' size' root' requested e true s) in
    (forall o, o < size -> h' o = h o) /\
    forall o, o < size -> fitted s2 o = fitted s o /\
      forall m, results s2 o m = results s o m /\ errors s2 o m = errors s o m.
Proof. intros. eapply clone_independent; eassumption. Qed.
Print Assumptions C30_clone_is_independent.

Definition ex_clone drop :=
  clone (fun v => Ok v) (fun _ => Ok tt) (fun _ => Ok tt) (fun _ => Ok tt)
    ex_heap ex_size ex_root drop.
Example C30_example :
  match ex_clone true with
  | Ok (h', size', root') =>
      (* 46 objects are created, some of them for nothing; nodes are copied once *)
      size' = ex_size + 46 /\
      map children [h' root'; h' 55; h' 34] = [[55; 56]; [34; 34; 54]; [24; 24]] /\
      length (filter is_expr (map h' (seq ex_size 46))) = 9 /\
      snd (evaluate ex_ext h' size' root' "fit_transform" ex_env true ex_st) = Ok (TheValue 1035) /\
      fitted (fst (evaluate ex_ext h' size' root' "fit_transform" ex_env true ex_st)) 6 = None
  | Err _ => False
  end /\
  values_unused true ex_heap ex_root ex_env "fit_transform" /\
  (forall o, copyable (fun v => Ok v) (fun _ => Ok tt) (fun _ => Ok tt) (fun _ => Ok tt) ex_heap o).
Proof.
  split; [vm_compute; repeat split|]. split.
  - intros _. split; [discriminate|]. split; [reflexivity|].
    intros o c name isX isY _ E.
    do 12 (destruct o as [|o]; [simpl in E; first [discriminate
        | injection E as <- _ _ _; eexists; reflexivity]|]).
    discriminate.
  - intros o. unfold copyable. destruct (ex_heap o); eauto.
Qed.
