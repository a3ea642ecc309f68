(** When a pipeline can be made into an estimator and saved. *)
From Verif Require Import Base L_dict M_traverse L_traverse M_expr L_expr1 L_expr2 L_expr3 L_expr4 L_expr5 L_expr6 L_expr7 M_clone L_clone L_clone2 M_estimator L_estimator3 M_pickle L_pickle1 L_pickle2 L_pickle3.
Open Scope string_scope.
Open Scope list_scope.
Open Scope nat_scope.
Set Default Proof Using "Type".

(** The plain values that an object itself holds. *)
Inductive holds {V K : Type} : obj V K -> V -> Prop :=
| holds_value v : holds (OValue v) v
| holds_default name d chosen : holds (ONumChoice name d chosen) d
| holds_chosen name d c : holds (ONumChoice name d (Some c)) c.
Lemma holds_iff {V K} (ob : obj V K) v : In v (obj_values ob) <-> holds ob v.
Proof.
  split.
  - destruct ob as [i name isX isY|ty items|ty items|a b c|name outs ch|name df ch|c m|cls p|w]; cbn; try (intros []; fail).
    + destruct ch; cbn; intros [<-|Hin]; try constructor; [destruct Hin as [<-|[]]; constructor|destruct Hin].
    + intros [<-|[]]. constructor.
  - intros [w|name d [c|]|name d c]; cbn; auto.
Qed.

Section Can.
  Context {V K F : Type} {HK : EqD K}.
  Variables (picklable : V -> bool) (picklable_fit : F -> bool) (reload : V -> V) (reload_fit : F -> F).
  Variable copy : V -> res V.
  Variables new_seq new_map new_estimator : string -> res unit.

  Theorem can_save levels (h : heap V K) size (s : st V F) root flag :
    nested_below h levels root ->
    (forall x v, part_of h root x -> holds (h x) v -> picklable v = true) ->
    (forall x v, part_of h root x -> fitted s x = Some (Frozen v) -> picklable v = true) ->
    (forall x a, part_of h root x -> fitted s x = Some (FittedWith a) -> picklable_fit a = true) ->
    exists L, save_and_load picklable picklable_fit reload reload_fit levels h size s root flag = Ok L.
  Proof.
    intros Hn H1 H2 H3. unfold save_and_load.
    destruct (save_enough picklable picklable_fit h s levels root [] Hn) as (memo & ->); [|cbn [bind]; eauto].
    intros x Hx. unfold writable. apply andb_true_iff. split.
    - apply forallb_forall. intros v Hv. apply holds_iff in Hv. eapply H1; eauto.
    - destruct (fitted s x) as [[v|a]|] eqn:E; eauto.
  Qed.

  (** What is saved can be written. *)
  Theorem saved_parts levels (h : heap V K) size (s : st V F) root flag L :
    save_and_load picklable picklable_fit reload reload_fit levels h size s root flag = Ok L ->
    (forall x v, part_of h root x -> holds (h x) v -> picklable v = true) /\
    (forall x v, part_of h root x -> fitted s x = Some (Frozen v) -> picklable v = true) /\
    (forall x a, part_of h root x -> fitted s x = Some (FittedWith a) -> picklable_fit a = true).
  Proof.
    unfold save_and_load. intros E. destruct (save picklable picklable_fit h s levels root []) as [memo|] eqn:Es; [|discriminate].
    destruct (saved_is picklable picklable_fit h s levels root memo Es) as (_ & _ & Hw). unfold writable in Hw.
    split; [|split]; intros x v Hx Hv; specialize (Hw x Hx); apply andb_true_iff in Hw; destruct Hw as [W1 W2].
    - apply holds_iff in Hv. exact (proj1 (forallb_forall _ _) W1 v Hv).
    - rewrite Hv in W2. exact W2.
    - rewrite Hv in W2. exact W2.
  Qed.

  Lemma clone_nested (h : heap V K) size root drop h1 size1 root1 f : is_clone copy drop h size root h1 size1 root1 f ->
    forall d n, part_of h1 root1 n -> nested_below h d (f n) -> nested_below h1 d n.
  Proof.
    intros Hcl. induction d as [|d IH]; intros n Hn Hd; [exact Hd|]. intros c Hc.
    destruct (like_children_l copy drop _ _ _ (clone_like _ _ _ _ _ _ _ _ _ Hcl n Hn) c Hc) as (o & Ho & <-).
    apply IH; [|apply Hd; exact Ho]. eapply reach_trans; [exact Hn|apply part_child; exact Hc].
  Qed.

  Theorem can_make levels (h : heap V K) size root h1 size1 root1 :
    closed h size -> root < size -> nested_below h levels root ->
    clone copy new_seq new_map new_estimator h size root true = Ok (h1, size1, root1) ->
    (forall x v, part_of h1 root1 x -> holds (h1 x) v -> picklable v = true) ->
    get_estimator (F := F) picklable picklable_fit reload reload_fit copy new_seq new_map new_estimator levels h size root
    = Ok (h1, size1, fresh root1).
  Proof.
    intros Hc Hr Hn E Hv. unfold get_estimator. rewrite E. cbn [bind].
    destruct (clone_is_clone copy new_seq new_map new_estimator h size true root h1 size1 root1 Hc Hr E) as (f & Hcl).
    destruct (can_save levels h1 size1 (w_st (fresh root1)) root1 false) as (L & ->); auto.
    - eapply clone_nested; [exact Hcl|constructor|]. rewrite (clone_root _ _ _ _ _ _ _ _ _ Hcl). exact Hn.
    - discriminate.
    - discriminate.
  Qed.
End Can.

(** ** A long pipeline: x, then x + 0 + 0 ... *)
Definition chain_heap : heap nat nat := fun o =>
  match o with
  | 0 => OExpr (IVar None) (Some "x") false false
  | S k => OExpr (IOp "add" [("left", k)]) None false false
  end.

Lemma chain_child n c : In c (children (chain_heap n)) -> n = S c.
Proof. destruct n as [|n]; cbn; [intros []|]. intros [->|[]]. reflexivity. Qed.
Lemma chain_closed n : closed chain_heap (S n).
Proof. intros o c Ho Hc. apply chain_child in Hc. lia. Qed.
Lemma chain_part_le a b : part_of chain_heap a b -> b <= a.
Proof. intros Hp. induction Hp as [o|o c x _ Hc Hp IH]; [lia|]. apply chain_child in Hc. lia. Qed.
Lemma chain_acyclic n : acyclic chain_heap n.
Proof.
  intros o Ho Hcy. destruct Hcy as (c & Hc & Hp). apply chain_child in Hc. apply chain_part_le in Hp. lia.
Qed.

Lemma chain_den k : exists fv, Den ex_ext chain_heap [("x", 7)] "predict" (fun _ => None) k (Ok (7, fv)).
Proof.
  exists None. exists (S k). induction k as [|k IH]; [reflexivity|].
  change (den ex_ext chain_heap [("x", 7)] "predict" (fun _ => None) (S (S k)) (S k))
    with (dbind (dmapM (fun nc : string * oid => dbind (dbind (den ex_ext chain_heap [("x", 7)] "predict" (fun _ => None) (S k) (snd nc)) (fun vf => Some (Ok (fst vf)))) (fun v => Some (Ok (fst nc, v)))) [("left", k)])
           (fun a => Some (shown ex_ext "predict" (with_slot (fun _ => @None (fit_attr nat nat)) (S k) (op_sem ex_ext "add" "predict" a))))).
  cbn [dmapM snd]. rewrite IH. reflexivity.
Qed.

Lemma chain_value k : snd (evaluate ex_ext chain_heap (S k) k "predict" [("x", 7)] true ex_st) = Ok (TheValue 7).
Proof.
  destruct (evaluate_value ex_ext chain_heap (S k) k [("x", 7)] "predict" ex_st (chain_closed k) ltac:(lia) (chain_acyclic k)) as (r & D & ->).
  destruct (chain_den k) as (fv & D'). change (fitted ex_st) with (fun _ : oid => @None (fit_attr nat nat)) in D.
  change (real_mode "predict") with "predict" in D.
  rewrite (Den_det _ _ _ _ _ _ _ _ D D'). reflexivity.
Qed.

Section Deep.
  Variables (picklable : nat -> bool) (picklable_fit : nat -> bool).
  Variables (h1 : heap nat nat) (root1 size size1 : nat) (root : nat) (f : oid -> oid) (copy : nat -> res nat).
  Hypothesis Hcl : is_clone copy true chain_heap size root h1 size1 root1 f.
  Variable s : st nat nat.

  Lemma deep_fails : forall k d n memo, part_of h1 root1 n -> f n = k -> (forall x, In x memo -> k < f x) -> d <= k ->
    exists ex, save picklable picklable_fit h1 s d n memo = Err ex.
  Proof using Hcl.
    induction k as [|k IH]; intros d n memo Hp Hf Hm Hd.
    - replace d with 0 by lia. cbn. eauto.
    - destruct d as [|d]; [cbn; eauto|]. cbn [save].
      destruct (mem n memo) eqn:Em; [apply mem_true in Em; apply Hm in Em; lia|].
      destruct (writable picklable picklable_fit h1 s n); [|eauto].
      pose proof (clone_like _ _ _ _ _ _ _ _ _ Hcl n Hp) as Hl. rewrite Hf in Hl. cbn [chain_heap] in Hl.
      inversion Hl as [i' i name isX isY Hi E1 E2| | | | | | | |]; subst.
      assert (exists c, children (h1 n) = [c] /\ f c = k) as (c & Hc & Hfc).
      { rewrite <- E1. inversion Hi as [| | | | | | | | | | |op fs' fs HF]; subst.
        inversion HF as [|x y l l' [Hx1 Hx2] HF']; subst. inversion HF'; subst. exists (snd x). split; [reflexivity|exact Hx2]. }
      rewrite ?E1, Hc. cbn [save_list].
      destruct (IH d c (memo ++ [n])) as (ex & ->); [| exact Hfc| |lia|cbn; eauto].
      + eapply reach_trans; [exact Hp|]. apply part_child. rewrite Hc. left. reflexivity.
      + intros x Hx. apply in_app_or in Hx. destruct Hx as [Hx|[<-|[]]]; [apply Hm in Hx; lia|lia].
  Qed.
End Deep.

Section Refuted.
  Variable reload : nat -> nat.
  Variable reload_fit : nat -> nat.
  Theorem deep_refused levels :
    exists (ext : externals nat nat nat) h size root e,
      closed h size /\ root < size /\ acyclic h root /\
      snd (evaluate ext h size root "predict" e true ex_st) = Ok (TheValue 7) /\
      get_estimator (F := nat) (fun _ => true) (fun _ => true) reload reload_fit Ok (fun _ => Ok tt) (fun _ => Ok tt) (fun _ => Ok tt)
        levels h size root = Err PicklingError.
  Proof.
    exists ex_ext, chain_heap, (S levels), levels, [("x", 7)].
    split; [apply chain_closed|]. split; [lia|]. split; [apply chain_acyclic|]. split; [apply chain_value|].
    destruct (clone_succeeds (Ok (A := nat)) (fun _ => Ok tt) (fun _ => Ok tt) (fun _ => Ok tt) chain_heap (S levels) true levels
                (chain_closed levels) ltac:(lia) (chain_acyclic levels)) as ([[h1 size1] root1] & E).
    { intros o _. unfold copyable. destruct o as [|o]; exact I. }
    unfold get_estimator. rewrite E. cbn [bind].
    destruct (clone_is_clone _ _ _ _ _ _ _ _ _ _ _ (chain_closed levels) (Nat.lt_succ_diag_r levels) E) as (f & Hcl).
    unfold save_and_load.
    destruct (deep_fails (fun _ => true) (fun _ => true) h1 root1 (S levels) size1 levels f _ Hcl (w_st (fresh root1)) levels levels root1 [])
      as (ex & ->); [constructor|apply (clone_root _ _ _ _ _ _ _ _ _ Hcl)|intros x []|lia|]. reflexivity.
  Qed.
End Refuted.

(** ** Using what was loaded leaves what was saved as it is *)
Section Apart.
  Context {V K F : Type} {HK : EqD K}.
  Variable ext : externals V K F.
  Variables (picklable : V -> bool) (picklable_fit : F -> bool) (reload : V -> V) (reload_fit : F -> F).

  Lemma loaded_structure levels (h : heap V K) size (s : st V F) root flag L :
    closed h size -> root < size -> acyclic h root ->
    save_and_load picklable picklable_fit reload reload_fit levels h size s root flag = Ok L ->
    closed (l_heap L) (l_size L) /\ fst (l_est L) < l_size L /\ acyclic (l_heap L) (fst (l_est L)) /\
    snd (l_est L) = flag /\ (forall o, o < size -> l_heap L o = h o) /\
    (forall n, part_of (l_heap L) (fst (l_est L)) n -> size <= n) /\
    (forall o, part_of h root o -> exists n, part_of (l_heap L) (fst (l_est L)) n /\ loaded_from size (l_memo L) n = Some o).
  Proof.
    intros Hc Hr Ha E. unfold save_and_load in E.
    destruct (save picklable picklable_fit h s levels root []) as [memo|] eqn:Es; [|discriminate]. cbn [bind] in E. injection E as <-.
    cbn [l_heap l_size l_est l_memo fst snd].
    destruct (saved_is picklable picklable_fit h s levels root memo Es) as (Hn & Hm & _).
    assert (Hroot : In root memo) by (apply Hm; constructor).
    set (h' := load_heap reload h size memo).
    assert (Hold : forall o, o < size -> h' o = h o).
    { intros o Ho. unfold h', load_heap, extend. apply Nat.ltb_lt in Ho. rewrite Ho. reflexivity. }
    assert (Hchild : forall n c, is_new size memo n -> In c (children (h' n)) -> is_new size memo c /\ In (orig size memo c) (children (h (orig size memo n)))).
    { intros n c Hnew Hin. unfold h' in Hin. rewrite (loaded_obj reload h size memo n Hnew), children_map in Hin.
      apply in_map_iff in Hin. destruct Hin as (x & <- & Hx).
      assert (Hxm : In x memo) by (eapply (memo_child h memo root Hm); [apply orig_in; exact Hnew|exact Hx]).
      split; [apply new_id_new; exact Hxm|]. rewrite orig_new_id by exact Hxm. exact Hx. }
    assert (Hpart : forall n m, part_of h' n m -> is_new size memo n -> is_new size memo m /\ part_of h (orig size memo n) (orig size memo m)).
    { intros n m Hp. induction Hp as [n|n c m _ Hin Hp IH]; intros Hnew; [split; [exact Hnew|constructor]|].
      destruct (Hchild n c Hnew Hin) as [Hcn Hco]. destruct (IH Hcn) as [Hmn Hmp]. split; [exact Hmn|].
      econstructor; [intros []|exact Hco|exact Hmp]. }
    pose proof (new_id_new size memo root Hroot) as Hnr.
    pose proof (orig_new_id size memo root Hroot) as Hor. cbn beta in Hnr, Hor.
    split; [|split; [|split; [|split; [|split; [|split]]]]].
    - intros n c Hn' Hin. destruct (Nat.lt_ge_cases n size) as [Hlt|Hge].
      + rewrite Hold in Hin by exact Hlt. specialize (Hc n c Hlt Hin). lia.
      + destruct (Hchild n c) as [Hcn _]; [unfold is_new; lia|exact Hin|]. unfold is_new in Hcn. lia.
    - unfold is_new in Hnr. lia.
    - intros n Hp (c & Hin & Hpc). destruct (Hpart _ _ Hp Hnr) as [Hnn Hpn]. rewrite Hor in Hpn.
      destruct (Hchild n c Hnn Hin) as [Hcn Hco]. destruct (Hpart _ _ Hpc Hcn) as [_ Hpp].
      apply (Ha _ Hpn). exists (orig size memo c). split; assumption.
    - reflexivity.
    - exact Hold.
    - intros n Hp. destruct (Hpart _ _ Hp Hnr) as [Hnn _]. unfold is_new in Hnn. lia.
    - intros o Ho. exists (size + position o memo). split.
      + assert (Hgen : forall a b, part_of h a b -> part_of h root a -> part_of h' (size + position a memo) (size + position b memo)).
        { intros a b Hp. induction Hp as [a|a c b _ Hin Hp IH]; intros Hra; [constructor|].
          assert (Hrc : part_of h root c) by (eapply reach_trans; [exact Hra|apply part_child; exact Hin]).
          econstructor; [intros []| |exact (IH Hrc)].
          assert (Ham : In a memo) by (apply Hm; exact Hra).
          unfold h'. rewrite (loaded_obj reload h size memo _ (new_id_new size memo a Ham)), children_map, orig_new_id by exact Ham.
          apply in_map_iff. exists c. split; [reflexivity|exact Hin]. }
        apply Hgen; [exact Ho|constructor].
      + unfold loaded_from. assert (El : size + position o memo <? size = false) by (apply Nat.ltb_ge; lia). rewrite El.
        replace (size + position o memo - size) with (position o memo) by lia. apply position_nth. apply Hm. exact Ho.
  Qed.

  Theorem loaded_apart levels (h : heap V K) size (s : st V F) root flag L requested e s0 :
    closed h size -> root < size -> acyclic h root ->
    save_and_load picklable picklable_fit reload reload_fit levels h size s root flag = Ok L ->
    let s2 := fst (evaluate ext (l_heap L) (l_size L) (fst (l_est L)) requested e true s0) in
    (forall o, o < size -> l_heap L o = h o) /\
    forall o, o < size -> fitted s2 o = fitted s0 o /\
      forall m, results s2 o m = results s0 o m /\ errors s2 o m = errors s0 o m.
  Proof.
    intros Hc Hr Ha E. destruct (loaded_structure levels h size s root flag L Hc Hr Ha E) as (H1 & H2 & H3 & _ & H4 & H5 & _).
    cbn zeta. split; [exact H4|]. intros o Ho.
    assert (Hno : ~ (part_of (l_heap L) (fst (l_est L)) o /\ is_expr_at (l_heap L) o)).
    { intros [Hp _]. apply H5 in Hp. lia. }
    destruct (nothing_left ext (l_heap L) (l_size L) (fst (l_est L)) e requested s0 H1 H2 H3) as (_ & N2 & N3).
    split; [apply N3; exact Hno|]. intros m. apply N2. right. exact Hno.
  Qed.
End Apart.
