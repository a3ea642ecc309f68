(** Properties C36 and C63: what happens when an expression is created by a call. *)
From Verif Require Import Base L_dict M_traverse M_expr L_expr1 L_expr2 L_expr3 L_expr4 L_expr5 L_expr7.
From Verif Require Import M_grid M_choicegraph L_conflicts L_choicegraph M_check L_check.
Open Scope string_scope.
Open Scope list_scope.
Open Scope nat_scope.

(** The hypotheses of the theorems: a well-formed acyclic expression [root] without conflict, whose
    dataframes are held by variables or values, and kept previews that are right (none is kept at
    first; the theorem shows that they stay right). [trace] is not in the program. *)
Definition checked_input {V K F} `{EqD K} (ext : externals V K F) hash_obj (is_df : V -> bool) (h : heap V K) size root f0 s : Prop :=
  closed h size /\ root < size /\ acyclic h root /\ is_expr_at h root /\ trace s = [] /\
  Inv ext h [] "preview" f0 root s /\ no_conflict h root /\ (forall d, ~ bare_dataframe is_df h root d) /\
  choices_ok hash_obj h root.

(** A call may return [None] instead of an expression. *)
Definition exk_heap (op : string) : heap nat nat := fun o =>
  match o with
  | 0 => OExpr (IOp op [("left", 1); ("right", 2)]) None false false
  | 1 => OExpr (IVar (Some 2)) (Some "d") false false
  | 3 => OExpr (IOp op [("left", 4)]) None false false
  | 4 => OExpr (IVar None) (Some "d") false false
  | 5 => OExpr (IOp op [("left", 6)]) None false false
  | 6 => OValue 50
  | _ => OValue 7
  end.
Definition exk_hash (o : oid) : res nat := Ok o.
Definition exk_df (n : nat) : bool := n =? 50.

Lemma exk_input op root : root = 0 \/ root = 3 ->
  checked_input ex_ext exk_hash exk_df (exk_heap op) 7 root (fun _ => None) ex_st.
Proof.
  intros Hr.
  assert (Hc : closed (exk_heap op) 7) by (apply closed_by_check; reflexivity).
  assert (Hp : forall x, part_of (exk_heap op) root x -> In x [0; 1; 2; 3; 4]).
  { intros x Hx. assert (Hin : In root [0; 1; 2; 3; 4]) by (destruct Hr; subst root; cbn; auto). clear Hr.
    induction Hx as [o|o c x _ Hch _ IH]; [exact Hin|]. apply IH.
    cbn in Hin. unfold child in Hch. destruct Hin as [<-|[<-|[<-|[<-|[<-|[]]]]]]; cbn in Hch; intuition (subst; cbn; auto 6). }
  assert (Hlt : root < 7) by (destruct Hr; lia).
  split; [exact Hc|]. split; [exact Hlt|].
  split; [destruct Hr; subst root; (eapply acyclic_by_nodes; [exact Hc|lia|vm_compute; reflexivity])|].
  split; [destruct Hr; subst root; reflexivity|]. split; [reflexivity|].
  split; [apply (fresh_inv ex_ext (exk_heap op) root ex_st); reflexivity|].
  split; [|split].
  - pose proof (find_conflicts_spec (exk_heap op) 7 root Hc Hlt) as Hs.
    assert (E : find_conflicts (exk_heap op) 7 root = Ok None) by (destruct Hr; subst root; vm_compute; reflexivity).
    rewrite E in Hs. exact Hs.
  - intros d [Hd (v & Ev & Hv)].
    assert (Hpd : part_of (exk_heap op) root d).
    { clear -Hd. induction Hd as [|o c x Hns Hc _ IH]; [constructor|]. econstructor; [intros []|exact Hc|exact IH]. }
    apply Hp in Hpd. cbn in Hpd. destruct Hpd as [<-|[<-|[<-|[<-|[<-|[]]]]]]; cbn in Ev; try discriminate.
    injection Ev as <-. discriminate.
  - split.
    + intros c n o ch Hx Ec. apply Hp in Hx. cbn in Hx. destruct Hx as [<-|[<-|[<-|[<-|[<-|[]]]]]]; discriminate.
    + intros c n o Hx Ec. apply Hp in Hx. cbn in Hx. destruct Hx as [<-|[<-|[<-|[<-|[<-|[]]]]]]; discriminate.
    + intros c n o ch Hx Ec. apply Hp in Hx. cbn in Hx. destruct Hx as [<-|[<-|[<-|[<-|[<-|[]]]]]]; discriminate.
Qed.

(** Here the function adds its arguments, and 14 stands for [None]. *)
Theorem C36_calls_return_expressions_refuted :
  exists (h : heap nat nat) (is_none : nat -> bool) root s',
    checked_input ex_ext exk_hash exk_df h 7 root (fun _ => None) ex_st /\
    call ex_ext exk_hash exk_df is_none h 7 root ex_st = (s', Ok ReturnsNone).
Proof.
  exists (exk_heap "add"), (fun n => n =? 14), 0. eexists. split; [apply exk_input; auto|]. vm_compute. reflexivity.
Qed.
Print Assumptions C36_calls_return_expressions_refuted.

(** A call returns the expression if there is no preview, or if the preview is not [None]. *)
Theorem C36_returned_partial : forall (V K F : Type) (H : EqD K) (ext : externals V K F) hash_obj is_df is_none
  (h : heap V K) size root f0 s,
  checked_input ext hash_obj is_df h size root f0 s ->
  exists r, Den ext h [] "preview" f0 root r /\
    snd (call ext hash_obj is_df is_none h size root s)
    = match r with
      | Ok (v, _) => Ok (if is_none v then ReturnsNone else ReturnsExpr root)
      | Err (UserError 2) => Ok (ReturnsExpr root)   (* a variable has no value *)
      | Err _ => Err RuntimeError
      end.
Proof.
  intros V K F H ext hash_obj is_df is_none h size root f0 s (Hc & Hr & Ha & He & Ht & Hi & Hn & Hd & Hok).
  destruct (call_spec ext hash_obj is_df is_none h size root Hc Hr Ha He f0 s Ht Hi) as (_ & _ & Hs).
  destruct (Hs Hn Hd Hok) as (r & H1 & H2 & _). exists r. auto.
Qed.
Print Assumptions C36_returned_partial.

Example C36_example :
  checked_input ex_ext exk_hash exk_df (exk_heap "add") 7 0 (fun _ => None) ex_st /\
  checked_input ex_ext exk_hash exk_df (exk_heap "add") 7 3 (fun _ => None) ex_st /\
  snd (call ex_ext exk_hash exk_df (fun n => n =? 15) (exk_heap "add") 7 0 ex_st) = Ok (ReturnsExpr 0) /\
  snd (call ex_ext exk_hash exk_df (fun n => n =? 14) (exk_heap "add") 7 0 ex_st) = Ok ReturnsNone /\
  snd (call ex_ext exk_hash exk_df (fun n => n =? 14) (exk_heap "add") 7 3 ex_st) = Ok (ReturnsExpr 3) /\
  snd (call ex_ext exk_hash exk_df (fun n => n =? 14) (exk_heap "fail") 7 0 ex_st) = Err RuntimeError.
Proof. split; [apply exk_input; auto|]. split; [apply exk_input; auto|]. repeat split; vm_compute; reflexivity. Qed.

(** ** C63 *)

(** Conflicts are rejected, and the state is as before. *)
Theorem C63_conflicts_rejected : forall (V K F : Type) (H : EqD K) (ext : externals V K F) hash_obj is_df is_none
  (h : heap V K) size root f0 s,
  closed h size -> root < size -> acyclic h root -> is_expr_at h root -> trace s = [] -> Inv ext h [] "preview" f0 root s ->
  no_conflict h root \/ call ext hash_obj is_df is_none h size root s = (s, Err ValueError).
Proof.
  intros. eapply call_spec; eassumption.
Qed.
Print Assumptions C63_conflicts_rejected.

(** So are dataframes that are not held by a variable or a value. *)
Theorem C63_dataframes_rejected : forall (V K F : Type) (H : EqD K) (ext : externals V K F) hash_obj is_df is_none
  (h : heap V K) size root f0 s,
  closed h size -> root < size -> acyclic h root -> is_expr_at h root -> trace s = [] -> Inv ext h [] "preview" f0 root s ->
  no_conflict h root -> (exists d, bare_dataframe is_df h root d) ->
  call ext hash_obj is_df is_none h size root s = (s, Err TypeError).
Proof.
  intros V K F H ext hash_obj is_df is_none h size root f0 s Hc Hr Ha He Ht Hi Hn Hd.
  apply (call_spec ext hash_obj is_df is_none h size root Hc Hr Ha He f0 s Ht Hi); assumption.
Qed.
Print Assumptions C63_dataframes_rejected.

(** Otherwise the preview is computed and kept; it is the value of the expression in the mode
    "preview"; nothing is kept for the expression if it fails; other modes and nodes that are
    not in the expression are as before. *)
Theorem C63_preview_kept : forall (V K F : Type) (H : EqD K) (ext : externals V K F) hash_obj is_df is_none
  (h : heap V K) size root f0 s,
  checked_input ext hash_obj is_df h size root f0 s ->
  let s' := fst (call ext hash_obj is_df is_none h size root s) in
  exists r, Den ext h [] "preview" f0 root r /\ outside h root "preview" s s' /\
    match r with
    | Ok (v, _) => results s' root "preview" = Some v /\ Inv ext h [] "preview" f0 root s'
    | Err _ => results s' root "preview" = None
    end.
Proof.
  intros V K F H ext hash_obj is_df is_none h size root f0 s (Hc & Hr & Ha & He & Ht & Hi & Hn & Hd & Hok).
  destruct (call_spec ext hash_obj is_df is_none h size root Hc Hr Ha He f0 s Ht Hi) as (_ & _ & Hs).
  destruct (Hs Hn Hd Hok) as (r & H1 & _ & H3 & H4 & H5). exists r. split; [exact H1|]. split; [exact H3|].
  destruct r as [[v f]|ex]; eauto.
Qed.
Print Assumptions C63_preview_kept.

Example C63_example :
  call ex_ext exk_hash exk_df (fun _ => false) (exk_heap "add") 7 5 ex_st = (ex_st, Err TypeError) /\
  bare_dataframe exk_df (exk_heap "add") 5 6 /\
  results (fst (call ex_ext exk_hash exk_df (fun _ => false) (exk_heap "add") 7 0 ex_st)) 0 "preview" = Some 14 /\
  results (fst (call ex_ext exk_hash exk_df (fun _ => false) (exk_heap "add") 7 3 ex_st)) 3 "preview" = None.
Proof.
  split; [vm_compute; reflexivity|]. split; [|split; vm_compute; reflexivity]. split.
  - econstructor; [intros []|left; reflexivity|]. constructor.
  - exists 50. split; reflexivity.
Qed.
