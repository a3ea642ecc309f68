(** C113: evaluating on the example data reproduces the preview.
    C114: an environment given for evaluation replaces the example data.
    C115: naming, describing or marking a step does not change it.
    C116: operators and calls on expressions apply to their values. *)
From Verif Require Import Base L_dict M_traverse L_traverse M_expr L_expr1 L_expr2 L_expr3 L_expr4 L_expr5 L_expr6 L_expr7.
From Verif Require Import M_grid M_choicegraph L_conflicts M_clone M_check L_check M_namespace L_estimator1 L_estimator2 L_namespace L_namespace2 L_namespace3.
Open Scope string_scope.
Open Scope list_scope.
Open Scope nat_scope.

(** ** The examples *)
(** Values are numbers; an attribute of an object and what a function gives are sums. *)
Definition nm_sem (op mode : string) (a : list (string * nat)) : res nat :=
  match op, a with
  | "BinOp sub", [(_, x); (_, y)] => Ok (x - y)
  | "BinOp lt", [(_, x); (_, y)] => Ok (if x <? y then 1 else 0)
  | "BinOp gt", [(_, x); (_, y)] => Ok (if y <? x then 1 else 0)
  | "fail", _ => Err ZeroDivisionError
  | _, _ => Ok (ex_sum a)
  end.
Definition nm_ext : externals nat nat nat := {|
  truthy v := Ok (negb (v =? 0)); key_of v := Ok v;
  mk_seq _ vs := Ok (fold_right plus 0 vs);
  mk_map _ kvs := Ok (fold_right (fun a b => snd a + b) 0 kvs);
  mk_slice a b c := a + b + c; mk_estimator cls p := Ok p; op_sem := nm_sem;
  apply_fit args _ := Ok (ex_sum args, ex_sum args); apply_failed _ _ f := f;
  apply_use _ f args := match f with Some n => Ok (n + ex_sum args) | None => Err NotFittedError end;
  concat_fit args := Ok (ex_sum args, 0); concat_use _ args := Ok (ex_sum args);
  applied f := f; has_add_note := true |}.
Definition nm_bool (b : bool) : nat := if b then 1 else 0.

(** [d = var("d", v)], [d - 2], [(d - 2).skb.apply(5)]; a variable [k] without value; an
    attribute of [d], which has a name if [g] is one. *)
Definition nm_heap' (v : nat) (g : option string) : heap nat nat := fun o =>
  match o with
  | 0 => OValue 2
  | 1 => OExpr (IVar (Some 7)) (Some "d") false false
  | 2 => OExpr (bin_op "sub" 1 0) None false false
  | 3 => OValue 5
  | 4 => OExpr (IApply 2 3 0 0 0 0 false) None false false
  | 5 => OExpr (IVar None) (Some "k") false false
  | 6 => OExpr (IOp "GetAttr" [("source_object", 1); ("attr_name", 3)]) g false false
  | 7 => OValue v
  | _ => OValue 0
  end.
Definition nm_heap := nm_heap' 9 None.
Definition nm_raw (h : heap nat nat) (o : oid) : nat := match h o with OValue v => v | _ => 0 end.

Lemma nm_closed v g : closed (nm_heap' v g) 8.
Proof. apply closed_by_check. reflexivity. Qed.
Lemma nm_valid v g o : o < 8 -> valid (nm_heap' v g) 8 o.
Proof.
  intros Ho. split; [apply nm_closed|]. split; [exact Ho|].
  do 8 (destruct o as [|o]; [eapply acyclic_by_nodes; [apply nm_closed|lia|vm_compute; reflexivity]|]). lia.
Qed.
Lemma nm_part v g root o : root < 8 -> part_of (nm_heap' v g) root o -> o < 8.
Proof. intros Hr Ho. eapply closed_part; [apply nm_closed|exact Hr|exact Ho]. Qed.
Lemma nm_below o : o < 8 -> o = 0 \/ o = 1 \/ o = 2 \/ o = 3 \/ o = 4 \/ o = 5 \/ o = 6 \/ o = 7.
Proof. lia. Qed.
Ltac nm_cases o Ho := destruct (nm_below o Ho) as [->|[->|[->|[->|[->|[->|[->| ->]]]]]]]; cbn in *; try discriminate.

Lemma nm_plain v root : root < 8 -> plain_data nm_ext (nm_heap' v None) root (nm_raw (nm_heap' v None)).
Proof.
  intros Hr o c name isX isY Ho Eo e mode f. apply nm_part in Ho; [|exact Hr].
  assert (c = 7) as ->. { nm_cases o Ho; injection Eo as <- _ _ _; reflexivity. }
  exists 1. reflexivity.
Qed.
Lemma nm_names v root : root < 8 -> user_names (nm_heap' v None) root.
Proof.
  intros Hr o n Ho Hca. apply nm_part in Ho; [|exact Hr]. unfold carries in Hca.
  nm_cases o Ho; try contradiction; injection Hca as <-; intros Hin; cbn in Hin; intuition discriminate.
Qed.
Lemma nm_named v root : root < 8 -> vars_named (nm_heap' v None) root.
Proof.
  intros Hr o value name isX isY Ho Eo. apply nm_part in Ho; [|exact Hr]. nm_cases o Ho; injection Eo as <- <- _ _; eauto.
Qed.
Lemma nm_blind v root : root < 8 -> mode_blind nm_ext (nm_heap' v None) root.
Proof.
  intros Hr o Ho. apply nm_part in Ho; [|exact Hr]. nm_cases o Ho; try exact I; intros a; reflexivity.
Qed.
Lemma nm_noconf : no_conflict nm_heap 4.
Proof.
  pose proof (find_conflicts_spec nm_heap 8 4 (nm_closed _ _) ltac:(lia)) as Hs.
  assert (E : find_conflicts nm_heap 8 4 = Ok None) by (vm_compute; reflexivity). rewrite E in Hs. exact Hs.
Qed.
Lemma nm_truthy b : truthy nm_ext (nm_bool b) = Ok b.
Proof. destruct b; reflexivity. Qed.

(** ** C113 *)

(** [expr.skb.get_data()] has exactly the values of the variables, and evaluating the
    expression on it gives what [expr.skb.eval()] gives. *)
Theorem C113_on_example_data : forall (V K F : Type) (H : EqD K) (ext : externals V K F) (of_bool : bool -> V),
  (forall b, truthy ext (of_bool b) = Ok b) ->
  forall (h : heap V K) size root raw f0 (s1 s2 : st V F),
  valid h size root -> no_conflict h root -> user_names h root -> vars_named h root ->
  plain_data ext h root raw -> mode_blind ext h root -> Inv ext h [] "preview" f0 root s1 ->
  exists data, get_data raw h size root = Ok data /\
    (forall n v, dget n data = Some v <-> exists c, variable h root n (Some c) /\ v = raw c) /\
    same_outcome ext (snd (eval ext of_bool h size root None s1))
                     (snd (eval ext of_bool h size root (Some data) s2)).
Proof. exact @eval_on_data. Qed.
Print Assumptions C113_on_example_data.
Example ex_C113 :
  (valid nm_heap 8 4 /\ no_conflict nm_heap 4 /\ user_names nm_heap 4 /\ vars_named nm_heap 4 /\
   plain_data nm_ext nm_heap 4 (nm_raw nm_heap) /\ mode_blind nm_ext nm_heap 4 /\
   Inv nm_ext nm_heap [] "preview" (fitted ex_st) 4 ex_st) /\
  get_data (nm_raw nm_heap) nm_heap 8 4 = Ok [("d", 9)] /\
  snd (eval nm_ext nm_bool nm_heap 8 4 None ex_st) = Ok (TheValue 20) /\
  snd (eval nm_ext nm_bool nm_heap 8 4 (Some [("d", 9)]) ex_stale) = Ok (TheValue 20).
Proof.
  split; [|vm_compute; auto].
  split; [apply nm_valid; lia|]. split; [exact nm_noconf|]. split; [apply nm_names; lia|].
  split; [apply nm_named; lia|]. split; [apply nm_plain; lia|]. split; [apply nm_blind; lia|].
  apply (fresh_inv nm_ext nm_heap 4 ex_st). reflexivity.
Qed.

(** ** C114 *)

(** If the environment has the name of a variable, the example values are not used. *)
Theorem C114_values_not_used : forall (V K F : Type) (H : EqD K) (ext : externals V K F) (of_bool : bool -> V),
  (forall b, truthy ext (of_bool b) = Ok b) ->
  forall (h1 h2 : heap V K) size root raw1 raw2 e (s1 s2 : st V F),
  valid h1 size root -> valid h2 size root -> same_but_values h1 h2 ->
  plain_data ext h1 root raw1 -> plain_data ext h2 root raw2 ->
  names_variable h1 root e -> names_variable h2 root e -> (forall o, fitted s1 o = fitted s2 o) ->
  snd (eval ext of_bool h1 size root (Some e) s1) = snd (eval ext of_bool h2 size root (Some e) s2).
Proof. exact @eval_ignores_values. Qed.
Print Assumptions C114_values_not_used.

(** Otherwise, the example values are used, as if they were in the environment. *)
Theorem C114_values_used_partial : forall (V K F : Type) (H : EqD K) (ext : externals V K F) (of_bool : bool -> V),
  (forall b, truthy ext (of_bool b) = Ok b) ->
  forall (h : heap V K) size root raw e data (s1 s2 : st V F),
  valid h size root -> no_conflict h root -> user_names h root -> vars_named h root ->
  plain_data ext h root raw -> ~ names_variable h root e -> (forall o, fitted s1 o = fitted s2 o) ->
  get_data raw h size root = Ok data ->
  snd (eval ext of_bool h size root (Some e) s1)
  = snd (eval ext of_bool h size root (Some (data ++ e : env V)) s2).
Proof. exact @eval_uses_values. Qed.
Print Assumptions C114_values_used_partial.

(** The full report evaluates what [eval] does if the environment has the name of a
    variable. *)
Theorem C114_report_partial : forall (V K F : Type) (H : EqD K) (ext : externals V K F) (of_bool : bool -> V),
  (forall b, truthy ext (of_bool b) = Ok b) ->
  forall (h : heap V K) size root raw e (s1 s2 : st V F),
  valid h size root -> user_names h root -> plain_data ext h root raw ->
  names_variable h root e -> dget "_skrub_use_var_values" e = None -> (forall o, fitted s1 o = fitted s2 o) ->
  snd (report_value ext h size root (Some e) s1) = snd (eval ext of_bool h size root (Some e) s2).
Proof. exact @report_same. Qed.
Print Assumptions C114_report_partial.

Lemma nm_names_d v : names_variable (nm_heap' v None) 4 [("d", 20)].
Proof.
  exists "d", (Some 7). split; [|discriminate]. exists 1, false, false. split; [|reflexivity].
  econstructor; [intros []|left; reflexivity|]. econstructor; [intros []|left; reflexivity|constructor].
Qed.
Lemma nm_no_names e v : dget "d" e = None -> ~ names_variable (nm_heap' v None) 4 e.
Proof.
  intros Ed (n & c & (o & x & y & Ho & Eo) & Hne).
  assert (Hin : In o [0; 1; 2; 3; 4; 7]).
  { clear -Ho. assert (Hr : exists r, 4 = r /\ In r [0; 1; 2; 3; 4; 7]) by (eexists; split; [reflexivity|simpl; auto 10]).
    destruct Hr as (r & Er & Hr). rewrite Er in Ho. remember [0; 1; 2; 3; 4; 7] as L eqn:EL. clear Er.
    induction Ho as [o|o c x _ Hch _ IH]; [auto|]. apply IH. clear -Hr Hch EL. subst L.
    cbn in Hr. destruct Hr as [<-|[<-|[<-|[<-|[<-|[<-|[]]]]]]]; cbn in Hch; intuition (subst; simpl; auto 10). }
  cbn in Hin. destruct Hin as [<-|[<-|[<-|[<-|[<-|[<-|[]]]]]]]; cbn in Eo; try discriminate.
  injection Eo as _ <- _ _. apply Hne. exact Ed.
Qed.
(** Two expressions that differ by the value given when the variable was created. *)
Definition nm_other : heap nat nat := fun o =>
  match o with 1 => OExpr (IVar (Some 3)) (Some "d") false false | _ => nm_heap o end.
Lemma nm_other_valid : valid nm_other 8 4.
Proof.
  assert (Hc : closed nm_other 8) by (apply closed_by_check; reflexivity).
  split; [exact Hc|]. split; [lia|]. eapply acyclic_by_nodes; [exact Hc|lia|vm_compute; reflexivity].
Qed.
Lemma nm_other_plain : plain_data nm_ext nm_other 4 (nm_raw nm_other).
Proof.
  intros o c name isX isY Ho Eo e mode f. apply (closed_part nm_other 8 4 o (proj1 nm_other_valid) ltac:(lia)) in Ho.
  assert (c = 3) as ->. { nm_cases o Ho; injection Eo as <- _ _ _; reflexivity. }
  exists 1. reflexivity.
Qed.
Example ex_C114 :
  (valid nm_heap 8 4 /\ valid nm_other 8 4 /\ same_but_values nm_heap nm_other /\
   plain_data nm_ext nm_heap 4 (nm_raw nm_heap) /\ plain_data nm_ext nm_other 4 (nm_raw nm_other) /\
   names_variable nm_heap 4 [("d", 20)] /\ names_variable nm_other 4 [("d", 20)] /\
   ~ names_variable nm_heap 4 [("D", 20)]) /\
  snd (eval nm_ext nm_bool nm_heap 8 4 (Some [("d", 20)]) ex_st) = Ok (TheValue 31) /\
  snd (eval nm_ext nm_bool nm_other 8 4 (Some [("d", 20)]) ex_st) = Ok (TheValue 31) /\
  snd (report_value nm_ext nm_heap 8 4 (Some [("d", 20)]) ex_st) = Ok (TheValue 31) /\
  snd (eval nm_ext nm_bool nm_heap 8 4 (Some [("D", 20)]) ex_st) = Ok (TheValue 20) /\
  snd (eval nm_ext nm_bool nm_other 8 4 (Some [("D", 20)]) ex_st) = Ok (TheValue 16).
Proof.
  split; [|vm_compute; auto 10]. split; [apply nm_valid; lia|]. split; [exact nm_other_valid|].
  split; [intros o; do 8 (destruct o as [|o]; [cbn; eauto|]); reflexivity|].
  split; [apply nm_plain; lia|]. split; [exact nm_other_plain|]. split; [apply nm_names_d|].
  split; [|apply nm_no_names; reflexivity].
  exists "d", (Some 3). split; [|discriminate]. exists 1, false, false. split; [|reflexivity].
  econstructor; [intros []|left; reflexivity|]. econstructor; [intros []|left; reflexivity|constructor].
Qed.

(** A non-empty environment with a misspelled name does not replace the example data: the
    evaluation succeeds and gives what it gives on them. *)
Theorem C114_replaces_refuted : exists (h : heap nat nat) size root e s,
  valid h size root /\ e <> [] /\ ~ names_variable h root e /\
  snd (eval nm_ext nm_bool h size root (Some e) s) = snd (eval nm_ext nm_bool h size root None s) /\
  exists v, snd (eval nm_ext nm_bool h size root (Some e) s) = Ok v.
Proof.
  exists nm_heap, 8, 4, [("D", 20)], ex_st. split; [apply nm_valid; lia|]. split; [discriminate|].
  split; [apply nm_no_names; reflexivity|]. split; [vm_compute; reflexivity|]. eexists. vm_compute. reflexivity.
Qed.
Print Assumptions C114_replaces_refuted.
(** There the report fails. *)
Theorem C114_report_refuted : exists (h : heap nat nat) size root e s v ex,
  valid h size root /\
  snd (eval nm_ext nm_bool h size root (Some e) s) = Ok v /\
  snd (report_value nm_ext h size root (Some e) s) = Err ex.
Proof.
  exists nm_heap, 8, 4, [("D", 20)], ex_st. do 2 eexists. split; [apply nm_valid; lia|].
  split; vm_compute; reflexivity.
Qed.
Print Assumptions C114_report_refuted.

(** ** C115 *)

(** The new expression is evaluated like the step, in all modes that fit or, after the same
    fit, in the others. *)
Theorem C115_same_value : forall (V K F : Type) (H : EqD K) (ext : externals V K F)
  c (h : heap V K) size o ob requested e (s s' : st V F),
  valid h size o -> changed c (h o) = Ok ob ->
  (forall x, x < size -> fitted s' x = fitted s x) ->
  (fit_mode (real_mode requested) = true \/ fitted s' size = fitted s o) ->
  indifferent c (h o) e ->
  snd (evaluate ext (extend h size [ob]) (S size) size requested e true s')
  = snd (evaluate ext h size o requested e true s).
Proof. exact @copy_evaluates. Qed.
Print Assumptions C115_same_value.

(** A value given under the new name or mark replaces it. *)
Theorem C115_given : forall (V K F : Type) (H : EqD K) (ext : externals V K F)
  c (h : heap V K) size o ob requested e k v (s : st V F),
  valid h size o -> changed c (h o) = Ok ob -> key_of_change c = Some k -> dget k e = Some v ->
  replaceable c (h o) e ->
  snd (evaluate ext (extend h size [ob]) (S size) size requested e true s)
  = Ok (if eqb_of requested "fit" then TheExpr else TheValue v).
Proof. exact @copy_given. Qed.
Print Assumptions C115_given.

(** If the step has a preview, making the copy computes nothing, the copy has the preview, and
    the step and all others are left as they were. *)
Theorem C115_preview_partial : forall (V K F : Type) (H : EqD K) (ext : externals V K F) hash_obj is_df
  (h h' : heap V K) size o c (s s2 : st V F) v,
  o < size -> results s o "preview" = Some v -> modify ext hash_obj is_df h size o c s = (s2, Ok h') ->
  (exists ob, changed c (h o) = Ok ob /\ h' = extend h size [ob]) /\
  results s2 size = results s o /\ errors s2 size = errors s o /\ fitted s2 size = None /\ trace s2 = trace s /\
  (forall x, x < size -> results s2 x = results s x /\ errors s2 x = errors s x /\ fitted s2 x = fitted s x).
Proof. exact @modify_kept. Qed.
Print Assumptions C115_preview_partial.

Definition nm_hash (o : oid) : res nat := Ok o.
(** The state when the expression has been created. *)
Definition nm_created : st nat nat := fst (check_expr nm_ext nm_hash (fun _ => false) nm_heap 8 4 ex_st).
Definition nm_named4 : obj nat nat := OExpr (IApply 2 3 0 0 0 0 false) (Some "m") false false.
Definition nm_copied := modify nm_ext nm_hash (fun _ => false) nm_heap 8 4 (Rename (Some "m")) nm_created.
Lemma nm_copied_heap : snd nm_copied = Ok (extend nm_heap 8 [nm_named4]).
Proof.
  unfold nm_copied, modify.
  change (changed (Rename (Some "m")) (nm_heap 4)) with (Ok nm_named4). cbv zeta iota.
  destruct (check_expr nm_ext nm_hash (fun _ => false) (extend nm_heap 8 [nm_named4]) 9 8 (copy_attributes nm_created 4 8)) as [s r] eqn:E.
  assert (Er : r = Ok tt) by (apply (f_equal snd) in E; vm_compute in E; symmetry; exact E).
  rewrite Er. reflexivity.
Qed.
Example ex_C115 :
  (valid nm_heap 8 4 /\ changed (Rename (Some "m")) (nm_heap 4) = Ok nm_named4 /\
   indifferent (Rename (Some "m")) (nm_heap 4) [("d", 20)] /\ replaceable (Rename (Some "m")) (nm_heap 4) [("d", 20); ("m", 3)] /\
   results nm_created 4 "preview" = Some 20) /\
  snd nm_copied = Ok (extend nm_heap 8 [nm_named4]) /\
  results (fst nm_copied) 8 "preview" = Some 20 /\
  snd (evaluate nm_ext (extend nm_heap 8 [nm_named4]) 9 8 "fit_transform" [("d", 20)] true (fst nm_copied)) = Ok (TheValue 31) /\
  snd (evaluate nm_ext (extend nm_heap 8 [nm_named4]) 9 8 "fit_transform" [("d", 20); ("m", 3)] true (fst nm_copied)) = Ok (TheValue 3) /\
  snd (evaluate nm_ext nm_heap 8 4 "fit_transform" [("d", 20)] true nm_created) = Ok (TheValue 31) /\
  snd (modify nm_ext nm_hash (fun _ => false) nm_heap 8 4 (Rename (Some "d")) nm_created) = Err ValueError /\
  snd (modify nm_ext nm_hash (fun _ => false) nm_heap 8 1 (Rename None) nm_created) = Err TypeError.
Proof.
  split; [|split].
  - split; [apply nm_valid; lia|]. split; [reflexivity|]. split; [intros k [E|E]; [discriminate|injection E as <-; reflexivity]|].
    split; [cbn; repeat split; discriminate|vm_compute; reflexivity].
  - exact nm_copied_heap.
  - vm_compute. auto 10.
Qed.

(** The estimator fitted for the preview is lost: [applied_estimator] works on the step but
    raises on its copy. *)
Theorem C115_applied_estimator_refuted : exists (h h' : heap nat nat) size o s s2 n,
  valid h size o /\ modify nm_ext nm_hash (fun _ => false) h size o (Rename (Some n)) s = (s2, Ok h') /\
  (exists h2, snd (applied_estimator nm_ext nm_hash (fun _ => false) h size o s) = Ok h2) /\
  snd (applied_estimator nm_ext nm_hash (fun _ => false) h' (S size) size s2) = Err RuntimeError.
Proof.
  exists nm_heap, (extend nm_heap 8 [nm_named4]), 8, 4, nm_created, (fst nm_copied), "m". split; [apply nm_valid; lia|].
  split; [rewrite <- nm_copied_heap; apply surjective_pairing|].
  split; [eexists; vm_compute; reflexivity|]. vm_compute. reflexivity.
Qed.
Print Assumptions C115_applied_estimator_refuted.

(** ** C116 *)

(** An operator gives an expression exactly when it is one of the operators of expressions and
    the left operand is an expression or leaves it to the right one. *)
Theorem C116_gives_expression_partial : forall (V K : Type) own (h : heap V K) op left right,
  (exists i, binary own h op left right = Node i) <->
  In op ["add"; "and"; "eq"; "floordiv"; "ge"; "gt"; "le"; "lshift"; "lt"; "matmul"; "mod"; "mul"; "ne"; "pow"; "rshift"; "sub"; "truediv"; "xor"; "or"] /\ (is_expr (h left) = true \/ own op left right = None).
Proof. exact @binary_node. Qed.
Print Assumptions C116_gives_expression_partial.

(** Its value is that of the operator on the values of the operands, in this order. *)
Theorem C116_value : forall (V K F : Type) (H : EqD K) (ext : externals V K F) own
  (h : heap V K) size op left right i requested e (s : st V F) va vb,
  closed h size -> left < size -> right < size -> acyclic h left -> acyclic h right ->
  mirrored ext (real_mode requested) -> binary own h op left right = Node i ->
  DenV ext h e (real_mode requested) (fitted s) left (Ok va) ->
  DenV ext h e (real_mode requested) (fitted s) right (Ok vb) ->
  snd (evaluate ext (extend h size [OExpr i None false false]) (S size) size requested e true s)
  = match shown ext (real_mode requested) (op_sem ext ("BinOp " ++ op) (real_mode requested) [("left", va); ("right", vb)]) with
    | Ok v => Ok (if eqb_of requested "fit" then TheExpr else TheValue v)
    | Err ex => Err ex
    end.
Proof. exact @binary_value. Qed.
Print Assumptions C116_value.

(** The value of a call is that of calling the value of the step. *)
Theorem C116_call_partial : forall (V K F : Type) (H : EqD K) (ext : externals V K F)
  (h : heap V K) size o args kwargs requested e (s : st V F) va vk fv,
  closed h size -> o < size -> args < size -> kwargs < size -> acyclic h o -> acyclic h args -> acyclic h kwargs ->
  method_is_call ext (real_mode requested) ->
  (forall src name n x y, h o = OExpr (IOp "GetAttr" [("source_object", src); ("attr_name", name)]) n x y ->
     given h e o = None /\ exists vs vn,
     DenV ext h e (real_mode requested) (fitted s) src (Ok vs) /\ DenV ext h e (real_mode requested) (fitted s) name (Ok vn)) ->
  (forall fs n x y, h o = OExpr (IOp "GetAttr" fs) n x y -> exists src name, fs = [("source_object", src); ("attr_name", name)]) ->
  DenV ext h e (real_mode requested) (fitted s) o (Ok fv) ->
  DenV ext h e (real_mode requested) (fitted s) args (Ok va) ->
  DenV ext h e (real_mode requested) (fitted s) kwargs (Ok vk) ->
  snd (evaluate ext (extend h size [OExpr (call_node h o args kwargs) None false false]) (S size) size requested e true s)
  = match shown ext (real_mode requested) (op_sem ext "Call" (real_mode requested) [("func", fv); ("args", va); ("kwargs", vk)]) with
    | Ok v => Ok (if eqb_of requested "fit" then TheExpr else TheValue v)
    | Err ex => Err ex
    end.
Proof. exact @call_value. Qed.
Print Assumptions C116_call_partial.

(** [3 - d], [5 < d] and [d.five(2)] where [d] is 20; the number 5 is the object 3. *)
Lemma nm_mirrored mode : mirrored nm_ext mode.
Proof.
  intros op op' a b Hin. cbn in Hin. destruct Hin as [E|[E|[E|[E|[E|[E|[]]]]]]]; injection E as <- <-; cbn; try reflexivity;
    unfold ex_sum; cbn; rewrite !Nat.add_0_r; f_equal; apply Nat.add_comm.
Qed.
Lemma nm_method mode : method_is_call nm_ext mode.
Proof. intros a b c d. cbn. unfold ex_sum. cbn. f_equal. lia. Qed.
Definition nm_own (op : string) (l r : oid) : option (res nat) := None.
Example ex_C116 :
  (mirrored nm_ext "fit_transform" /\ method_is_call nm_ext "fit_transform") /\
  binary nm_own nm_heap "sub" 3 1 = Node (bin_op "sub" 3 1) /\
  binary nm_own nm_heap "lt" 3 1 = Node (bin_op "gt" 1 3) /\
  call_node nm_heap 6 0 0 = IOp "CallMethod" [("obj", 1); ("method_name", 3); ("args", 0); ("kwargs", 0)] /\
  DenV nm_ext nm_heap [("d", 20)] "fit_transform" (fitted ex_st) 1 (Ok 20) /\
  DenV nm_ext nm_heap [("d", 20)] "fit_transform" (fitted ex_st) 6 (Ok 25) /\
  snd (evaluate nm_ext (extend nm_heap 8 [OExpr (bin_op "gt" 1 3) None false false]) 9 8 "fit_transform" [("d", 20)] true ex_st) = Ok (TheValue 1) /\
  snd (evaluate nm_ext (extend nm_heap 8 [OExpr (call_node nm_heap 6 0 0) None false false]) 9 8 "fit_transform" [("d", 20)] true ex_st) = Ok (TheValue 29).
Proof.
  split; [split; [apply nm_mirrored|apply nm_method]|]. split; [reflexivity|]. split; [reflexivity|]. split; [reflexivity|].
  split; [exists 2; vm_compute; reflexivity|]. split; [exists 3; vm_compute; reflexivity|]. split; vm_compute; reflexivity.
Qed.

(** If the left operand accepts any object (a numpy array, a string on the left of %), the
    result is not an expression. *)
Theorem C116_gives_expression_refuted : exists own (h : heap nat nat) op left right v,
  In op bin_ops /\ is_expr (h right) = true /\ binary own h op left right = Other (Ok v).
Proof.
  exists (fun _ _ _ => Some (Ok 0)), nm_heap, "mod", 0, 1, 0. split; [simpl; auto 20|]. split; reflexivity.
Qed.
Print Assumptions C116_gives_expression_refuted.

(** Calling an attribute with a name ignores the value given for it: the function given is 100,
    the call uses the attribute. *)
Theorem C116_call_refuted : exists (h : heap nat nat) size o args kwargs e (s : st nat nat) fv va vk v,
  valid h size o /\ method_is_call nm_ext "fit_transform" /\
  DenV nm_ext h e "fit_transform" (fitted s) o (Ok fv) /\
  DenV nm_ext h e "fit_transform" (fitted s) args (Ok va) /\
  DenV nm_ext h e "fit_transform" (fitted s) kwargs (Ok vk) /\
  snd (evaluate nm_ext (extend h size [OExpr (call_node h o args kwargs) None false false]) (S size) size "fit_transform" e true s)
  = Ok (TheValue v) /\
  op_sem nm_ext "Call" "fit_transform" [("func", fv); ("args", va); ("kwargs", vk)] <> Ok v.
Proof.
  exists (nm_heap' 9 (Some "f")), 8, 6, 0, 0, [("d", 20); ("f", 100)], ex_st, 100, 2, 2, 29.
  split; [apply nm_valid; lia|]. split; [apply nm_method|].
  split; [exists 2; vm_compute; reflexivity|]. split; [exists 2; vm_compute; reflexivity|].
  split; [exists 2; vm_compute; reflexivity|]. split; [vm_compute; reflexivity|]. vm_compute. discriminate.
Qed.
Print Assumptions C116_call_refuted.
