(** Statements about [evaluate], and an example. *)
From Verif Require Import Base M_traverse L_traverse M_expr L_expr1 L_expr2 L_expr3 L_expr4 L_expr5 L_expr6.
Open Scope string_scope.
Open Scope list_scope.
Open Scope nat_scope.

Section Corollaries.
  Context {V K F : Type} `{EqD K}.
  Notation heap := (heap V K).
  Notation st := (st V F).
  Variable ext : externals V K F.
  Variable h : heap.
  Variable size : nat.
  Variable root : oid.
  Variable e : env V.
  Variable requested : string.

  Lemma value_only_depends_on_fitted (s1 s2 : st) :
    closed h size -> root < size -> acyclic h root -> fitted s1 = fitted s2 ->
    snd (evaluate ext h size root requested e true s1)
    = snd (evaluate ext h size root requested e true s2).
  Proof.
    intros Hc Hr Ha Hf.
    destruct (evaluate_value ext h size root e requested s1 Hc Hr Ha) as (r1 & D1 & ->).
    destruct (evaluate_value ext h size root e requested s2 Hc Hr Ha) as (r2 & D2 & ->).
    rewrite Hf in D1. f_equal. eapply Den_det; eauto.
  Qed.

  Lemma fitted_after (s : st) v :
    closed h size -> root < size -> acyclic h root -> trace s = [] ->
    snd (evaluate ext h size root requested e true s) = Ok v ->
    forall x, fitted (fst (evaluate ext h size root requested e true s)) x = fitted s x \/
      exists w, Den ext h e (real_mode requested) (fitted s) x
        (Ok (w, fitted (fst (evaluate ext h size root requested e true s)) x)).
  Proof.
    intros Hc Hr Ha Ht E.
    destruct (evaluate_clear ext h size root Hc Hr Ha e requested s Ht) as (r & D & Ea & _ & _ & Hok & _).
    rewrite E in Ea. destruct r as [vf|ex]; [|discriminate].
    apply Hok. exists vf. reflexivity.
  Qed.

  Lemma keep_value f0 (s : st) :
    closed h size -> root < size -> acyclic h root ->
    Inv ext h e (real_mode requested) f0 root s ->
    let out := evaluate ext h size root requested e false s in
    exists r, Den ext h e (real_mode requested) f0 root r /\ snd out = answer requested r.
  Proof.
    intros Hc Hr Ha Hi out. unfold out, evaluate. fold (real_mode requested).
    set (mode := real_mode requested) in *.
    set (cb := fun s : st => (s, TOk tt)).
    pose proof (visit_good ext h e mode f0 root cb
      (Hcb_sim h root mode cb (none_cb h root mode)) size [] root s (reach_refl _ _ _) Hi) as Hg.
    destruct (visit (eval_handler ext h e mode cb) size [] root s) as [s2 r] eqn:Ev.
    pose proof (eval_no_circ_no_fuel ext h size root Hc Hr Ha e mode cb s s2 r Ev) as [[v ->]|[ex ->]];
      cbn [Good] in Hg.
    - destruct Hg as (f & Hd & _). exists (Ok (v, f)). auto.
    - exists (Err ex). auto.
  Qed.

  Lemma computed_once (s : st) clear :
    closed h size -> root < size -> acyclic h root -> trace s = [] ->
    clear = true \/ Inv ext h e (real_mode requested) (fitted s) root s ->
    NoDup (trace (fst (evaluate ext h size root requested e clear s))).
  Proof.
    intros Hc Hr Ha Ht Hcl. destruct clear.
    - destruct (evaluate_clear ext h size root Hc Hr Ha e requested s Ht) as (r & _ & _ & Hnd & _).
      exact Hnd.
    - destruct Hcl as [Hcl|Hi]; [discriminate|].
      destruct (evaluate_keep ext h size root Hc Hr Ha e requested (fitted s) s Ht Hi) as (r & _ & _ & Hnd & _).
      exact Hnd.
  Qed.

  Lemma kept_not_recomputed f0 (s : st) :
    closed h size -> root < size -> acyclic h root -> trace s = [] ->
    Inv ext h e (real_mode requested) f0 root s ->
    let out := evaluate ext h size root requested e false s in
    (forall x, In x (trace (fst out)) -> results s x (real_mode requested) = None) /\
    forall v, snd out = Ok (TheValue v) -> to_compute h e root ->
      results (fst out) root (real_mode requested) = Some v /\
      evaluate ext h size root requested e false
        (mk_st (results (fst out)) (errors (fst out)) (fitted (fst out)) [])
      = (mk_st (results (fst out)) (errors (fst out)) (fitted (fst out)) [], Ok (TheValue v)).
  Proof.
    intros Hc Hr Ha Ht Hi.
    destruct (evaluate_keep ext h size root Hc Hr Ha e requested f0 s Ht Hi)
      as (r & D & Ea & _ & Hn & _ & Hok).
    cbn zeta in *. set (out := evaluate ext h size root requested e false s) in *.
    split; [intros x Hx; apply (Hn x Hx)|].
    intros v Ev Htc. rewrite Ev in Ea. destruct r as [[w f]|ex]; [|discriminate].
    destruct (eqb_of requested "fit") eqn:Ef; [cbn [answer] in Ea; rewrite Ef in Ea; discriminate|].
    cbn [answer] in Ea. rewrite Ef in Ea. injection Ea as <-.
    destruct (Hok v f eq_refl) as [Hi2 Hres]. specialize (Hres Htc). split; [exact Hres|].
    unfold evaluate. fold (real_mode requested). rewrite Ef.
    destruct size as [|n]; [lia|]. cbn [visit]. unfold eval_handler at 2.
    unfold to_compute in Htc. destruct (h root) as [i name isX isY| | | | | | | |]; try contradiction.
    cbn [run_gen]. unfold fetch. rewrite fetch_env_provided, Htc. cbn [results]. rewrite Hres.
    reflexivity.
  Qed.

  Lemma computed_exactly_needed (s : st) :
    closed h size -> root < size -> acyclic h root -> trace s = [] ->
    let out := evaluate ext h size root requested e true s in
    (forall x, In x (trace (fst out)) ->
       needed ext h e (real_mode requested) (fitted s) root x /\ to_compute h e x) /\
    (forall v, snd out = Ok v ->
       forall x, needed ext h e (real_mode requested) (fitted s) root x -> to_compute h e x ->
         In x (trace (fst out))).
  Proof.
    intros Hc Hr Ha Ht out.
    destruct (evaluate_clear ext h size root Hc Hr Ha e requested s Ht) as (r & D & Ea & _ & Hn & Hok & _).
    fold out in Ea, Hn, Hok. split; [exact Hn|]. intros v Ev. rewrite Ev in Ea.
    destruct r as [vf|ex]; [|discriminate]. apply Hok. exists vf. reflexivity.
  Qed.

  Lemma nothing_left (s : st) :
    closed h size -> root < size -> acyclic h root ->
    let out := fst (evaluate ext h size root requested e true s) in
    (forall x, part_of h root x -> is_expr_at h x ->
       results out x (real_mode requested) = None /\ errors out x (real_mode requested) = None) /\
    (forall x m, m <> real_mode requested \/ ~ (part_of h root x /\ is_expr_at h x) ->
       results out x m = results s x m /\ errors out x m = errors s x m) /\
    (forall x, ~ (part_of h root x /\ is_expr_at h x) -> fitted out x = fitted s x).
  Proof.
    intros Hc Hr Ha out.
    set (s0 := mk_st (results s) (errors s) (fitted s) []).
    (* the recorded trace has no influence *)
    destruct (acyclic_nodes h size root Hc Hr Ha) as (ns & En & Hnd & Hns).
    unfold out, evaluate. fold (real_mode requested). set (mode := real_mode requested). rewrite En.
    destruct (clear_spec mode ns s) as (C1 & C2 & C3 & C4).
    set (s1 := clear_nodes ns mode s) in *.
    pose proof (prune_cb h size root Hc Hr Ha (V := V) (F := F) ns mode Hns) as Hcb.
    assert (Hi : Inv ext h e mode (fitted s) root s1).
    { split.
      - intros o v Ho Hex _ Er. rewrite C3, eqb_of_refl in Er.
        assert (Hin : In o ns) by (apply Hns; auto).
        apply mem_true in Hin. rewrite Hin in Er. discriminate.
      - intros o. left. rewrite C1. reflexivity. }
    assert (Hos : outside h root mode s s1).
    { intros x m. rewrite C3, C4, C1. split; [|reflexivity].
      intros Hx. destruct (mem x ns) eqn:Ex; [|auto]. destruct (eqb_of m mode) eqn:Em; [|auto].
      apply mem_true in Ex. apply Hns in Ex. apply eqb_of_eq in Em.
      exfalso. destruct Hx; [congruence|contradiction]. }
    pose proof (visit_outside ext h root e mode (fitted s) (prune h size root mode ns) Hcb s size s1 Hi Hos) as Hout.
    destruct (visit (eval_handler ext h e mode (prune h size root mode ns)) size [] root s1) as [s2 r] eqn:Ev.
    destruct (clear_spec mode ns s2) as (D1 & D2 & D3 & D4).
    cbn [fst snd] in *.
    split; [|split].
    - intros x Hx Hex. assert (Hin : In x ns) by (apply Hns; auto).
      apply mem_true in Hin. rewrite D3, D4, Hin, eqb_of_refl. auto.
    - intros x m Hx. rewrite D3, D4. destruct (Hout x m) as [Hb _].
      destruct (mem x ns) eqn:Ex; [|auto]. destruct (eqb_of m mode) eqn:Em; [|auto].
      apply mem_true in Ex. apply Hns in Ex. apply eqb_of_eq in Em.
      exfalso. destruct Hx; [congruence|contradiction].
    - intros x Hx. rewrite D1. apply (Hout x mode). exact Hx.
  Qed.

  Lemma never_computes_split_data (s : st) :
    closed h size -> root < size -> acyclic h root -> trace s = [] ->
    forall x, In x (trace (fst (evaluate ext h size root requested e true s))) ->
      used_besides h e root x /\ ~ split_node h e x.
  Proof.
    intros Hc Hr Ha Ht x Hx.
    destruct (computed_exactly_needed s Hc Hr Ha Ht) as [Hn _].
    destruct (Hn x Hx) as [Hnx Htc]. split; [eapply needed_used_besides; eauto|].
    intros Hs. destruct (split_given h e x Hs) as (v & Hg & _).
    unfold given in Hg. unfold to_compute in Htc. destruct (h x); try contradiction. congruence.
  Qed.
End Corollaries.

Lemma acyclic_by_nodes {V K} `{EqD K} (h : heap V K) size root ns :
  closed h size -> root < size -> nodes h size root = Ok ns -> acyclic h root.
Proof.
  intros Hc Hr En. destruct (nodes_spec h size root Hc Hr) as [(ns' & _ & _ & _ & Hw)|(E & _)]; [|congruence].
  intros x Hx. eapply wf_no_cycle; eauto.
Qed.
Lemma closed_by_check {V K} `{EqD K} (h : heap V K) size :
  forallb (fun o => forallb (fun c => c <? size) (children (h o))) (seq 0 size) = true -> closed h size.
Proof.
  intros E o c Ho Hc. rewrite forallb_forall in E.
  assert (Hin : In o (seq 0 size)) by (apply in_seq; lia). specialize (E o Hin).
  rewrite forallb_forall in E. apply Nat.ltb_lt. apply E. exact Hc.
Qed.

(** An example: values are numbers, 0 is false, "fail" raises. *)
Definition ex_sum (l : list (string * nat)) : nat := fold_right (fun a b => snd a + b) 0 l.
Definition ex_ext : externals nat nat nat := {|
  truthy v := Ok (negb (v =? 0));
  key_of v := if v =? 99 then Err TypeError else Ok v;
  mk_seq _ vs := Ok (fold_right plus 0 vs);
  mk_map _ kvs := Ok (fold_right (fun a b => snd a + b) 0 kvs);
  mk_slice a b c := a + b + c;
  mk_estimator cls p := Ok (100 * String.length cls + p);
  op_sem op mode args :=
    if eqb_of op "fail" then Err ZeroDivisionError
    else if eqb_of op "add" then Ok (ex_sum args) else Ok 1;
  apply_fit args _ := Ok (ex_sum args, ex_sum args);
  apply_failed _ _ f := f;
  apply_use _ f args := match f with Some n => Ok (n + ex_sum args) | None => Err NotFittedError end;
  concat_fit args := Ok (ex_sum args, 0);
  concat_use _ args := Ok (ex_sum args);
  applied f := f;
  has_add_note := true |}.

(** Data [d] is a variable; X = d + d is marked as X; y = d + 1 as y; the result of fitting
    an estimator on (X, y) is added to itself and the sum decides between that sum and a
    failing computation; [k] is another variable. *)
Definition ex_heap : heap nat nat := fun o =>
  match o with
  | 0 => OValue 2
  | 1 => OExpr (IVar (Some 0)) (Some "d") false false
  | 2 => OExpr (IOp "add" [("left", 1); ("right", 1)]) None true false
  | 3 => OExpr (IOp "add" [("left", 1); ("right", 0)]) None false true
  | 4 => OMap "dict" []
  | 5 => OEstimator "Ridge" 4
  | 6 => OExpr (IApply 2 5 3 0 0 0 false) None false false
  | 7 => OExpr (IOp "add" [("left", 6); ("right", 6)]) None false false
  | 8 => OExpr (IOp "fail" [("arg", 1)]) None false false
  | 9 => OExpr (IIfElse 7 7 8) None false false
  | 10 => OExpr (IVar None) (Some "k") false false
  | 11 => OExpr (IOp "add" [("left", 9); ("right", 10)]) (Some "out") false false
  | _ => OValue 0
  end.
Definition ex_size := 12.
Definition ex_root := 11.
Definition ex_st : st nat nat := mk_st (fun _ _ => None) (fun _ _ => None) (fun _ => None) [].
(** A state full of stale results. *)
Definition ex_stale : st nat nat :=
  mk_st (fun _ _ => Some 77) (fun _ _ => Some KeyError) (fun _ => None) [].
Definition ex_env : env nat := [("d", 3); ("k", 1)].
Definition ex_fold : env nat := [("_skrub_X", 5); ("_skrub_y", 7); ("d", 3); ("k", 1)].
Definition ex_fold' : env nat := [("_skrub_X", 5); ("_skrub_y", 7); ("d", 4); ("k", 1)].

Lemma ex_closed : closed ex_heap ex_size.
Proof. apply closed_by_check. reflexivity. Qed.
Lemma ex_root_lt : ex_root < ex_size.
Proof. unfold ex_root, ex_size. lia. Qed.
Lemma ex_acyclic : acyclic ex_heap ex_root.
Proof. eapply acyclic_by_nodes; [apply ex_closed|apply ex_root_lt|vm_compute; reflexivity]. Qed.

(** A cyclic one: 1 = f(2), 2 = f(1). *)
Definition ex_cycle : heap nat nat := fun o =>
  match o with
  | 0 => OExpr (IOp "add" [("left", 1)]) None false false
  | 1 => OExpr (IOp "add" [("left", 2)]) None false false
  | 2 => OSeq "list" [1]
  | _ => OValue 0
  end.
Lemma ex_cycle_closed : closed ex_cycle 3.
Proof. apply closed_by_check. reflexivity. Qed.
