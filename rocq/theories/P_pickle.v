(** Saved pipelines: C148, C149. *)
From Verif Require Import Base M_traverse M_expr L_expr1 L_expr2 L_expr3 L_expr4 L_expr5 L_expr6 L_expr7 M_clone M_estimator M_pickle L_pickle2 L_pickle3 L_pickle4.
Open Scope string_scope.
Open Scope list_scope.
Open Scope nat_scope.

(** C148: whatever has been done before saving (any state [s] of the nodes, any mark [flag]) and
    whatever is asked afterwards, in any order, the loaded pipeline replies as the saved one would
    have. [declares] tells which methods an estimator that is not fitted yet offers. *)
Theorem C148_answers {V K F : Type} {HK : EqD K} (ext : externals V K F)
  (picklable : V -> bool) (picklable_fit : F -> bool) (reload : V -> V) (reload_fit : F -> F) has_method
  levels (h : heap V K) size (s : st V F) root flag L declares declares' :
  (forall v, reload v = v) -> (forall a, reload_fit a = a) ->
  closed h size -> root < size ->
  save_and_load picklable picklable_fit reload reload_fit levels h size s root flag = Ok L ->
  (forall n o m, loaded_from size (l_memo L) n = Some o -> declares' n m = declares o m) ->
  forall ops, talk ext (l_heap L) (l_size L) has_method declares' ops (mk_world (l_st L) [l_est L])
            = talk ext h size has_method declares ops (mk_world s [(root, flag)]).
Proof. exact (loaded_answers ext picklable picklable_fit reload reload_fit has_method levels h size s root flag L declares declares'). Qed.
Print Assumptions C148_answers.

(** The loaded pipeline is made of new objects, one for each object of the saved one. *)
Theorem C148_structure {V K F : Type} {HK : EqD K}
  (picklable : V -> bool) (picklable_fit : F -> bool) (reload : V -> V) (reload_fit : F -> F)
  levels (h : heap V K) size (s : st V F) root flag L :
  closed h size -> root < size -> acyclic h root ->
  save_and_load picklable picklable_fit reload reload_fit levels h size s root flag = Ok L ->
  closed (l_heap L) (l_size L) /\ fst (l_est L) < l_size L /\ acyclic (l_heap L) (fst (l_est L)) /\
  snd (l_est L) = flag /\ (forall o, o < size -> l_heap L o = h o) /\
  (forall n, part_of (l_heap L) (fst (l_est L)) n -> size <= n) /\
  (forall o, part_of h root o -> exists n, part_of (l_heap L) (fst (l_est L)) n /\ loaded_from size (l_memo L) n = Some o).
Proof. exact (loaded_structure picklable picklable_fit reload reload_fit levels h size s root flag L). Qed.
Print Assumptions C148_structure.

(** Fitting or using it changes nothing of the objects there were before. *)
Theorem C148_apart {V K F : Type} {HK : EqD K} (ext : externals V K F)
  (picklable : V -> bool) (picklable_fit : F -> bool) (reload : V -> V) (reload_fit : F -> F)
  levels (h : heap V K) size (s : st V F) root flag L requested e s0 :
  closed h size -> root < size -> acyclic h root ->
  save_and_load picklable picklable_fit reload reload_fit levels h size s root flag = Ok L ->
  let s2 := fst (evaluate ext (l_heap L) (l_size L) (fst (l_est L)) requested e true s0) in
  (forall o, o < size -> l_heap L o = h o) /\
  forall o, o < size -> fitted s2 o = fitted s0 o /\
    forall m, results s2 o m = results s0 o m /\ errors s2 o m = errors s0 o m.
Proof. exact (loaded_apart ext picklable picklable_fit reload reload_fit levels h size s root flag L requested e s0). Qed.
Print Assumptions C148_apart.

(** C149. *)
Theorem C149_can_save_partial {V K F : Type} {HK : EqD K}
  (picklable : V -> bool) (picklable_fit : F -> bool) (reload : V -> V) (reload_fit : F -> F)
  levels (h : heap V K) size (s : st V F) root flag :
  nested_below h levels root ->
  (forall x v, part_of h root x -> holds (h x) v -> picklable v = true) ->
  (forall x v, part_of h root x -> fitted s x = Some (Frozen v) -> picklable v = true) ->
  (forall x a, part_of h root x -> fitted s x = Some (FittedWith a) -> picklable_fit a = true) ->
  exists L, save_and_load picklable picklable_fit reload reload_fit levels h size s root flag = Ok L.
Proof. exact (can_save picklable picklable_fit reload reload_fit levels h size s root flag). Qed.
Print Assumptions C149_can_save_partial.

Theorem C149_saved_values {V K F : Type} {HK : EqD K}
  (picklable : V -> bool) (picklable_fit : F -> bool) (reload : V -> V) (reload_fit : F -> F)
  levels (h : heap V K) size (s : st V F) root flag L :
  save_and_load picklable picklable_fit reload reload_fit levels h size s root flag = Ok L ->
  (forall x v, part_of h root x -> holds (h x) v -> picklable v = true) /\
  (forall x v, part_of h root x -> fitted s x = Some (Frozen v) -> picklable v = true) /\
  (forall x a, part_of h root x -> fitted s x = Some (FittedWith a) -> picklable_fit a = true).
Proof. exact (saved_parts picklable picklable_fit reload reload_fit levels h size s root flag L). Qed.
Print Assumptions C149_saved_values.

Theorem C149_can_make_partial {V K F : Type} {HK : EqD K}
  (picklable : V -> bool) (picklable_fit : F -> bool) (reload : V -> V) (reload_fit : F -> F)
  copy new_seq new_map new_estimator levels (h : heap V K) size root h1 size1 root1 :
  closed h size -> root < size -> nested_below h levels root ->
  clone copy new_seq new_map new_estimator h size root true = Ok (h1, size1, root1) ->
  (forall x v, part_of h1 root1 x -> holds (h1 x) v -> picklable v = true) ->
  get_estimator (F := F) picklable picklable_fit reload reload_fit copy new_seq new_map new_estimator levels h size root
  = Ok (h1, size1, fresh root1).
Proof. exact (can_make picklable picklable_fit reload reload_fit copy new_seq new_map new_estimator levels h size root h1 size1 root1). Qed.
Print Assumptions C149_can_make_partial.

(** Whatever the number of levels of recursion, there is a pipeline (of plain additions, with values
    that can all be saved) whose predictions can be computed but which no estimator is given for. *)
Theorem C149_deep_refuted (reload reload_fit : nat -> nat) levels :
  exists (ext : externals nat nat nat) h size root e,
    closed h size /\ root < size /\ acyclic h root /\
    snd (evaluate ext h size root "predict" e true ex_st) = Ok (TheValue 7) /\
    get_estimator (F := nat) (fun _ => true) (fun _ => true) reload reload_fit Ok (fun _ => Ok tt) (fun _ => Ok tt) (fun _ => Ok tt)
      levels h size root = Err PicklingError.
Proof. exact (deep_refused reload reload_fit levels). Qed.
Print Assumptions C149_deep_refuted.

(** Examples. A pipeline is made, fitted with d = 3 and saved. *)
Definition ex148_id (n : nat) : nat := n.
Definition ex148_made (can : nat -> bool) levels :=
  get_estimator (F := nat) (fun _ => true) can ex148_id ex148_id Ok (fun _ => Ok tt) (fun _ => Ok tt) (fun _ => Ok tt)
    levels ex_heap ex_size ex_root.
Definition ex148_saved (can : nat -> bool) levels : option (list (res (reply nat)) * list (res (reply nat)) * res (nat * nat * bool)) :=
  match ex148_made can levels with
  | Ok (h1, size1, w) =>
      let no := fun (_ : oid) (_ : string) => false in
      let yes := fun (_ : nat) (_ : string) => true in
      let (w1, r) := step ex_ext h1 size1 yes no w (Method 0 "fit" ex_env) in
      let later := [Method 0 "predict" [("d", 4); ("k", 1)]; Method 0 "predict" [("d", 0)]; Method 0 "fit_transform" ex_env;
                    Method 0 "predict" [("d", 4); ("k", 1)]] in
      match save_and_load (fun _ => true) can ex148_id ex148_id levels h1 size1 (w_st w1)
              (match w_estimators w1 with (o, _) :: _ => o | [] => 0 end) (match w_estimators w1 with (_, b) :: _ => b | [] => false end) with
      | Ok L => Some (r :: talk ex_ext h1 size1 yes no later w1,
                      r :: talk ex_ext (l_heap L) (l_size L) yes no later (mk_world (l_st L) [l_est L]),
                      Ok (size1, fst (l_est L), snd (l_est L)))
      | Err ex => Some (r :: talk ex_ext h1 size1 yes no later w1, [], Err ex)
      end
  | Err _ => None
  end.

Definition ex148_check (x : option (list (res (reply nat)) * list (res (reply nat)) * res (nat * nat * bool))) : option (bool * nat * bool) :=
  match x with
  | Some (a, b, c) => Some (match c with Ok (_, _, f) => f | Err _ => false end, List.length b,
                            match a with Ok _ :: Ok _ :: Err _ :: Ok _ :: Ok _ :: [] => true | _ => false end)
  | None => None
  end.
Example C148_example : ex148_check (ex148_saved (fun _ => true) 9) = Some (true, 5, true) /\
  match ex148_saved (fun _ => true) 9 with Some (a, b, _) => a = b | None => False end.
Proof. split; vm_compute; reflexivity. Qed.

(** Once it is fitted it may be impossible to save: nothing of that is checked when the estimator is
    made. *)
Theorem C149_fitted_refuted :
  exists (can : nat -> bool) levels h1 size1 w,
    ex148_made can levels = Ok (h1, size1, w) /\
    match step ex_ext h1 size1 (fun _ _ => true) (fun _ _ => false) w (Method 0 "fit" ex_env) with
    | (w1, r) => (exists a, r = Ok a) /\
        match w_estimators w1 with
        | [(o, b)] => match save_and_load (fun _ => true) can ex148_id ex148_id levels h1 size1 (w_st w1) o b with
                      | Err ex => ex = PicklingError
                      | Ok _ => False
                      end
        | _ => False
        end
    end.
Proof.
  exists (fun _ => false), 9. destruct (ex148_made (fun _ => false) 9) as [[[h1 size1] w]|] eqn:E; [|vm_compute in E; discriminate].
  exists h1, size1, w. split; [reflexivity|].
  unfold ex148_made, get_estimator in E.
  destruct (clone Ok (fun _ => Ok tt) (fun _ => Ok tt) (fun _ => Ok tt) ex_heap ex_size ex_root true) as [[[h2 size2] root2]|] eqn:Ec; [|discriminate].
  vm_compute in Ec. injection Ec as <- <- <-. vm_compute in E. injection E as <- <- <-.
  vm_compute. split; [eexists; reflexivity|reflexivity].
Qed.
Print Assumptions C149_fitted_refuted.

(** The hypotheses are met by the example: seven levels are enough for it, five are not. *)
Example C149_example :
  nested_below ex_heap 7 ex_root /\
  match ex148_made (fun _ => true) 7 with Ok (_, size1, w) => (size1, w_estimators w) = (58, [(57, false)]) | Err _ => False end /\
  match ex148_made (fun _ => true) 5 with Ok _ => False | Err ex => ex = PicklingError end.
Proof.
  split; [|split; vm_compute; reflexivity].
  apply nested_by_check. reflexivity.
Qed.
