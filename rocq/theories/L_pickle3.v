(** What is saved and what is loaded. *)
From Verif Require Import Base L_dict M_traverse L_traverse M_expr L_expr1 L_expr2 L_expr3 L_expr4 L_expr5 L_expr6 L_expr7 M_clone L_clone L_clone2 M_estimator L_estimator3 M_pickle L_pickle1 L_pickle2.
Open Scope string_scope.
Open Scope list_scope.
Open Scope nat_scope.
Set Default Proof Using "Type".

Lemma NoDup_app_snoc (l : list oid) o : NoDup l -> ~ In o l -> NoDup (l ++ [o]).
Proof.
  intros N Ho. apply (Permutation.Permutation_NoDup (l := o :: l)); [apply Permutation.Permutation_cons_append|constructor; assumption].
Qed.

Section File.
  Context {V K F : Type} {HK : EqD K}.
  Notation heap := (heap V K).
  Notation obj := (obj V K).
  Notation st := (st V F).
  Variable picklable : V -> bool.
  Variable picklable_fit : F -> bool.
  Variable h : heap.
  Variable s : st.
  Notation save := (save picklable picklable_fit h s).
  Notation writable := (writable picklable picklable_fit h s).

  (** [new]: what a call of [save] adds to the file. *)
  Definition Added (o : list oid) (memo new : list oid) : Prop :=
    (NoDup memo -> NoDup (memo ++ new)) /\
    (forall x, In x new -> exists r, In r o /\ part_of h r x) /\
    (forall x c, In x new -> In c (children (h x)) -> In c (memo ++ new)) /\
    (forall r, In r o -> In r (memo ++ new)) /\
    (forall x, In x new -> writable x = true).

  Lemma save_list_added d : (forall o memo memo', save d o memo = Ok memo' -> exists new, memo' = memo ++ new /\ Added [o] memo new) ->
    forall cs memo memo', save_list (save d) cs memo = Ok memo' -> exists new, memo' = memo ++ new /\ Added cs memo new.
  Proof.
    intros IH. induction cs as [|c cs IHc]; intros memo memo' E; cbn [save_list] in E.
    - injection E as <-. exists []. split; [rewrite app_nil_r; reflexivity|].
      split; [rewrite app_nil_r; auto|]. split; [intros x []|]. split; [intros x c []|]. split; [intros r []|intros x []].
    - destruct (save d c memo) as [memo1|] eqn:E1; [|discriminate]. cbn [bind] in E.
      destruct (IH _ _ _ E1) as (n1 & -> & A1 & A2 & A3 & A4 & A5).
      destruct (IHc _ _ E) as (n2 & -> & B1 & B2 & B3 & B4 & B5).
      exists (n1 ++ n2). rewrite app_assoc. split; [reflexivity|]. unfold Added. rewrite !app_assoc.
      split; [auto|]. split; [|split; [|split]].
      + intros x Hx. apply in_app_or in Hx. destruct Hx as [Hx|Hx].
        * destruct (A2 x Hx) as (r & [<-|[]] & Hp). exists c. split; [left; reflexivity|exact Hp].
        * destruct (B2 x Hx) as (r & Hr & Hp). exists r. split; [right; exact Hr|exact Hp].
      + intros x c0 Hx Hc. apply in_app_or in Hx. destruct Hx as [Hx|Hx].
        * apply in_or_app. left. eapply A3; eauto.
        * eapply B3; eauto.
      + intros r [<-|Hr]; [|apply B4; exact Hr]. apply in_or_app. left. apply A4. left. reflexivity.
      + intros x Hx. apply in_app_or in Hx. destruct Hx as [Hx|Hx]; auto.
  Qed.

  Lemma save_added : forall d o memo memo', save d o memo = Ok memo' -> exists new, memo' = memo ++ new /\ Added [o] memo new.
  Proof.
    induction d as [|d IH]; intros o memo memo' E; cbn [M_pickle.save] in E; [discriminate|].
    destruct (mem o memo) eqn:Em.
    - injection E as <-. apply mem_true in Em. exists []. split; [rewrite app_nil_r; reflexivity|].
      split; [rewrite app_nil_r; auto|]. split; [intros x []|]. split; [intros x c []|]. split; [|intros x []].
      intros r [<-|[]]. rewrite app_nil_r. exact Em.
    - apply mem_false in Em. destruct (writable o) eqn:Ew; [|discriminate].
      destruct (save_list_added d IH _ _ _ E) as (n1 & -> & A1 & A2 & A3 & A4 & A5).
      exists (o :: n1). change (o :: n1) with ([o] ++ n1). rewrite app_assoc. split; [reflexivity|].
      unfold Added. rewrite app_assoc. split; [|split; [|split; [|split]]].
      + intros Hn. apply A1. apply NoDup_app_snoc; assumption.
      + intros x [<-|Hx]; [exists o; split; [left; reflexivity|constructor]|].
        destruct (A2 x Hx) as (r & Hr & Hp). exists o. split; [left; reflexivity|].
        econstructor; [intros []|exact Hr|exact Hp].
      + intros x c [<-|Hx] Hc; [apply A4; exact Hc|eapply A3; eauto].
      + intros r [<-|[]]. apply in_or_app. left. apply in_or_app. right. left. reflexivity.
      + intros x [<-|Hx]; auto.
  Qed.

  Theorem saved_is d root memo : save d root [] = Ok memo ->
    NoDup memo /\ (forall x, In x memo <-> part_of h root x) /\ (forall x, part_of h root x -> writable x = true).
  Proof.
    intros E. destruct (save_added _ _ _ _ E) as (new & -> & A1 & A2 & A3 & A4 & A5). cbn [app] in *.
    assert (Hin : forall x, In x new <-> part_of h root x).
    { intros x. split.
      - intros Hx. destruct (A2 x Hx) as (r & [<-|[]] & Hp). exact Hp.
      - intros Hp. assert (Hr : In root new) by (apply A4; left; reflexivity). clear A4.
        clear A2 E. induction Hp as [o|o c x _ Hc Hp IH]; [exact Hr|]. apply IH. eapply A3; eauto. }
    split; [apply A1; constructor|]. split; [exact Hin|]. intros x Hp. apply A5. apply Hin. exact Hp.
  Qed.

  (** ** Saving succeeds *)
  (** Objects are nested in [o] less than [d] deep. *)
  Fixpoint nested_below (d : nat) (o : oid) : Prop :=
    match d with
    | 0 => False
    | S d' => forall c, In c (children (h o)) -> nested_below d' c
    end.

  Fixpoint nested_check (d : nat) (o : oid) : bool :=
    match d with 0 => false | S d' => forallb (nested_check d') (children (h o)) end.
  Lemma nested_by_check : forall d o, nested_check d o = true -> nested_below d o.
  Proof.
    induction d as [|d IH]; intros o E; [discriminate|]. cbn [nested_check] in E. intros c Hc. apply IH.
    exact (proj1 (forallb_forall _ _) E c Hc).
  Qed.

  Lemma save_enough : forall d o memo, nested_below d o -> (forall x, part_of h o x -> writable x = true) ->
    exists memo', save d o memo = Ok memo'.
  Proof.
    induction d as [|d IH]; intros o memo Hd Hw; [destruct Hd|].
    cbn [M_pickle.save]. destruct (mem o memo); [eauto|]. rewrite (Hw o) by constructor.
    assert (G : forall cs m, (forall c, In c cs -> In c (children (h o))) -> exists memo', save_list (save d) cs m = Ok memo').
    { induction cs as [|c cs IHc]; intros m Hcs; cbn [save_list]; [eauto|].
      assert (Hc : In c (children (h o))) by (apply Hcs; left; reflexivity).
      destruct (IH c m) as (m1 & ->); [apply Hd; exact Hc| |].
      - intros x Hx. apply Hw. econstructor; [intros []|exact Hc|exact Hx].
      - cbn [bind]. apply IHc. intros c' Hc'. apply Hcs. right. exact Hc'. }
    apply G. auto.
  Qed.
End File.

(** ** Loading *)
Section Load.
  Context {V K F : Type} {HK : EqD K}.
  Notation heap := (heap V K).
  Notation obj := (obj V K).
  Notation st := (st V F).
  Variable ext : externals V K F.
  Variable picklable : V -> bool.
  Variable picklable_fit : F -> bool.
  Variable reload : V -> V.
  Variable reload_fit : F -> F.
  Hypothesis Hreload : forall v, reload v = v.
  Hypothesis Hreload_fit : forall a, reload_fit a = a.

  Lemma position_nth o memo : In o memo -> nth_error memo (position o memo) = Some o.
  Proof.
    induction memo as [|x memo IH]; intros Hin; [destruct Hin|]. cbn [position].
    destruct (eqd o x) as [->|Hne]; [reflexivity|]. destruct Hin as [->|Hin]; [congruence|]. exact (IH Hin).
  Qed.
  Lemma position_lt o memo : In o memo -> position o memo < length memo.
  Proof. intros Hin. apply nth_error_Some. rewrite position_nth by exact Hin. discriminate. Qed.

  Lemma impl_map_id g i : (forall c, In c (map snd (fields i)) -> g c = c) -> impl_map g i = i.
  Proof.
    intros Hg. destruct i as [[|]| | |? ? [|]| | | | |op fs]; cbn in *; rewrite ?Hg by auto 10; try reflexivity.
    f_equal. rewrite <- (map_id fs) at 2. apply map_ext_in. intros [nm c] Hin. cbn. rewrite Hg; [reflexivity|].
    change c with (snd (nm, c)). apply in_map. exact Hin.
  Qed.
  Lemma obj_map_id g r (ob : obj) : (forall c, In c (children ob) -> g c = c) -> (forall v, r v = v) -> obj_map g r ob = ob.
  Proof.
    intros Hg Hr. destruct ob as [i name isX isY|ty items|ty items|a b c|name outs ch|name df ch|c m|cls p|v]; cbn [obj_map children] in *.
    - rewrite impl_map_id by exact Hg. reflexivity.
    - f_equal. rewrite <- (map_id items) at 2. apply map_ext_in. intros [k c] Hin. cbn. rewrite Hg; [reflexivity|].
      change c with (snd (k, c)). apply in_map. exact Hin.
    - f_equal. rewrite <- (map_id items) at 2. apply map_ext_in. auto.
    - rewrite !Hg by (cbn; auto). reflexivity.
    - rewrite !Hg by (cbn; auto). reflexivity.
    - rewrite Hr. destruct ch; cbn; rewrite ?Hr; reflexivity.
    - rewrite !Hg by (cbn; auto). reflexivity.
    - rewrite !Hg by (cbn; auto). reflexivity.
    - rewrite Hr. reflexivity.
  Qed.
  Lemma impl_map_comp g1 g2 i : impl_map g1 (impl_map g2 i) = impl_map (fun c => g1 (g2 c)) i.
  Proof. destruct i as [[|]| | |? ? [|]| | | | |op fs]; cbn; auto. rewrite map_map. reflexivity. Qed.
  Lemma obj_map_comp g1 g2 r1 r2 (ob : obj) : obj_map g1 r1 (obj_map g2 r2 ob) = obj_map (fun c => g1 (g2 c)) (fun v => r1 (r2 v)) ob.
  Proof.
    destruct ob as [i name isX isY|ty items|ty items|a b c|name outs ch|name df ch|c m|cls p|v]; cbn [obj_map]; auto.
    - rewrite impl_map_comp. reflexivity.
    - rewrite map_map. reflexivity.
    - rewrite map_map. reflexivity.
    - destruct ch; reflexivity.
  Qed.

  Variable h : heap.
  Variable size : nat.
  Variable memo : list oid.
  Variable root : oid.
  Hypothesis Hnodup : NoDup memo.
  Hypothesis Hmemo : forall x, In x memo <-> part_of h root x.

  Definition is_new (n : oid) : Prop := size <= n < size + length memo.
  Definition orig (n : oid) : oid := nth (n - size) memo 0.

  Lemma orig_nth n : is_new n -> nth_error memo (n - size) = Some (orig n).
  Proof. intros Hn. unfold is_new in Hn. apply nth_error_nth'. lia. Qed.
  Lemma orig_in n : is_new n -> In (orig n) memo.
  Proof. intros Hn. eapply nth_error_In. apply orig_nth. exact Hn. Qed.
  Lemma orig_inj n m : is_new n -> is_new m -> orig n = orig m -> n = m.
  Proof using Hnodup.
    intros Hn Hm E. pose proof (orig_nth n Hn) as E1. pose proof (orig_nth m Hm) as E2. rewrite <- E in E2.
    assert (n - size = m - size).
    { apply (proj1 (NoDup_nth_error memo) Hnodup); [|congruence]. apply nth_error_Some. congruence. }
    unfold is_new in *. lia.
  Qed.
  Notation h' := (load_heap reload h size memo).
  Notation new_id := (fun c => size + position c memo).

  Lemma loaded_obj n : is_new n -> h' n = obj_map new_id reload (h (orig n)).
  Proof.
    intros Hn. unfold load_heap, extend. destruct (n <? size) eqn:E; [apply Nat.ltb_lt in E; unfold is_new in Hn; lia|].
    rewrite nth_error_map, (orig_nth n Hn). reflexivity.
  Qed.
  Lemma new_id_new c : In c memo -> is_new (new_id c).
  Proof. intros Hc. pose proof (position_lt c memo Hc). unfold is_new. lia. Qed.
  Lemma orig_new_id c : In c memo -> orig (new_id c) = c.
  Proof.
    intros Hc. unfold orig. replace (size + position c memo - size) with (position c memo) by lia.
    apply nth_error_nth. apply position_nth. exact Hc.
  Qed.
  Lemma memo_child x c : In x memo -> In c (children (h x)) -> In c memo.
  Proof using Hmemo.
    intros Hx Hc. apply Hmemo. apply Hmemo in Hx. eapply reach_trans; [exact Hx|]. apply part_child. exact Hc.
  Qed.

  Lemma loaded_children n c : is_new n -> In c (children (h' n)) -> is_new c.
  Proof using Hmemo.
    intros Hn Hc. rewrite (loaded_obj n Hn), children_map in Hc. apply in_map_iff in Hc. destruct Hc as (x & <- & Hx).
    apply new_id_new. eapply memo_child; [apply orig_in; exact Hn|exact Hx].
  Qed.
  Lemma loaded_like n : is_new n -> h (orig n) = obj_map orig (fun v => v) (h' n).
  Proof using Hmemo Hreload.
    intros Hn. rewrite (loaded_obj n Hn), obj_map_comp. symmetry. apply obj_map_id; [|exact Hreload].
    intros c Hc. apply orig_new_id. eapply memo_child; [apply orig_in; exact Hn|exact Hc].
  Qed.

  Lemma loaded_st (s : st) : sr is_new orig (load_st reload reload_fit s size memo) s.
  Proof using Hreload Hreload_fit.
    intros n Hn. unfold load_st, loaded_from. cbn [results errors fitted].
    assert (E : n <? size = false) by (apply Nat.ltb_ge; unfold is_new in Hn; lia).
    rewrite E, (orig_nth n Hn). split; [|split; [reflexivity|]].
    - intros m. destruct (results s (orig n) m); cbn; rewrite ?Hreload; reflexivity.
    - destruct (fitted s (orig n)) as [[v|a]|]; cbn; rewrite ?Hreload, ?Hreload_fit; reflexivity.
  Qed.
  Hypothesis Hclosed : closed h size.
  Hypothesis Hroot : root < size.
  Lemma part_size x : part_of h root x -> x < size.
  Proof using Hclosed Hroot.
    clear Hmemo Hnodup. intros Hp. revert Hroot. induction Hp as [o|o c x _ Hc Hp IH]; intros Hr; auto. apply IH. eapply Hclosed; eauto.
  Qed.
  Lemma orig_lt n : is_new n -> orig n < size.
  Proof using Hclosed Hroot Hmemo. intros Hn. apply part_size. apply Hmemo. apply orig_in. exact Hn. Qed.
End Load.

Section Main.
  Context {V K F : Type} {HK : EqD K}.
  Variable ext : externals V K F.
  Variables (picklable : V -> bool) (picklable_fit : F -> bool) (reload : V -> V) (reload_fit : F -> F).
  Variable has_method : F -> string -> bool.

  Theorem loaded_answers levels (h : heap V K) size (s : st V F) root flag L declares declares' :
    (forall v, reload v = v) -> (forall a, reload_fit a = a) ->
    closed h size -> root < size ->
    save_and_load picklable picklable_fit reload reload_fit levels h size s root flag = Ok L ->
    (forall n o m, loaded_from size (l_memo L) n = Some o -> declares' n m = declares o m) ->
    forall ops, talk ext (l_heap L) (l_size L) has_method declares' ops (mk_world (l_st L) [l_est L])
              = talk ext h size has_method declares ops (mk_world s [(root, flag)]).
  Proof.
    intros Hr Hf Hc Hlt E Hd ops. unfold save_and_load in E.
    destruct (save picklable picklable_fit h s levels root []) as [memo|] eqn:Es; [|discriminate]. cbn [bind] in E. injection E as <-.
    cbn [l_heap l_size l_st l_memo l_est] in *.
    destruct (saved_is picklable picklable_fit h s levels root memo Es) as (Hn & Hm & _).
    assert (Hroot : In root memo) by (apply Hm; constructor).
    apply (talk_rel ext h (load_heap reload h size memo) (is_new size memo) (orig size memo)); auto.
    - apply orig_inj. exact Hn.
    - intros n c. apply (loaded_children reload h size memo root Hm).
    - apply (loaded_like reload Hr h size memo root Hm).
    - lia.
    - apply (orig_lt h size memo root Hm Hc Hlt).
    - intros n m Hnew. apply Hd. unfold loaded_from. destruct (n <? size) eqn:El; [apply Nat.ltb_lt in El; unfold is_new in Hnew; lia|].
      apply orig_nth. exact Hnew.
    - split; [apply loaded_st; assumption|]. cbn [w_estimators]. constructor; [|constructor].
      split; [apply new_id_new; exact Hroot|]. cbn [fst snd]. split; [|reflexivity].
      symmetry. apply orig_new_id. exact Hroot.
  Qed.
End Main.
