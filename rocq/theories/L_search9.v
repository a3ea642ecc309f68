(** Examples of searches. *)
From Verif Require Import Base L_dict M_traverse L_traverse M_expr L_expr1 L_expr2 L_expr3 L_expr4 L_expr5 L_expr6 L_expr7.
From Verif Require Import M_clone L_clone L_clone2 M_grid L_grid M_choicegraph L_choicegraph L_choicegraph2 L_choicegraph3 L_conflicts M_estimator L_estimator1 L_estimator2 L_estimator3 L_estimator4 L_estimator5 L_search1 M_search L_search2 L_search3 L_search4 L_search5 L_search6 L_search7 L_search8.
Open Scope string_scope.
Open Scope list_scope.
Open Scope nat_scope.

(** *** The methods of an apply step that is not fitted are those of the chosen estimator *)
Section Declares.
  Context {V K : Type} `{EqD K}.
  Variable methods : string -> string -> bool.
  Definition class_at (h : heap V K) (o : oid) : option string :=
    match h o with OEstimator cls _ => Some cls | _ => None end.
  Definition chosen_class (h : heap V K) (o : oid) : option string :=
    match h o with
    | OChoice _ outs ch =>
        match h outs with
        | OSeq _ items => match nth_error items (default_or 0 ch) with Some t => class_at h t | None => None end
        | _ => None
        end
    | _ => class_at h o
    end.
  Definition declares_of (h : heap V K) (o : oid) (m : string) : bool :=
    match h o with
    | OExpr (IApply _ est _ _ _ _ _) _ _ _ => match chosen_class h est with Some cls => methods cls m | None => false end
    | _ => false
    end.
  Lemma declares_of_copies copy (h : heap V K) root : copies_declare copy declares_of h root.
  Proof.
    intros drop hs h' size' root' f _ C n P.
    assert (Dn : forall a c, part_of h' root' a -> In c (children (h' a)) -> part_of h' root' c) by (intros a c Pa Ic; eapply reach_trans; [exact Pa|]; apply part_child; exact Ic).
    assert (CA : forall a, part_of h' root' a -> class_at h' a = class_at hs (f a)) by (intros a Pa; unfold class_at; destruct (co_like _ _ _ _ _ _ _ _ C a Pa); reflexivity).
    pose proof (co_like _ _ _ _ _ _ _ _ C n P) as L. pose proof (Dn n) as D. specialize (fun c => D c P). unfold declares_of.
    destruct L as [i' i name isX isY I| | | | | | | |]; try reflexivity. destruct I; try reflexivity. cbn [children fields map snd] in D.
    match goal with |- (fun m => match chosen_class h' ?e' with _ => _ end) = _ => assert (Pe : part_of h' root' e') by (apply D; simpl; auto); rename e' into est' end.
    match goal with HR : f est' = ?e0 |- _ => subst e0 end.
    assert (E : chosen_class h' est' = chosen_class hs (f est')); [|rewrite E; reflexivity].
    unfold chosen_class. pose proof (co_like _ _ _ _ _ _ _ _ C est' Pe) as L. pose proof (CA est' Pe) as Ce. pose proof (Dn est') as D'. specialize (fun c => D' c Pe).
    destruct L; try exact Ce. subst o. assert (Pn : part_of h' root' n0) by (apply D'; simpl; auto). pose proof (co_like _ _ _ _ _ _ _ _ C n0 Pn) as L0. pose proof (Dn n0) as D0. specialize (fun c => D0 c Pn).
    destruct L0 as [| |ty items' items F2| | | | | |]; try reflexivity. cbn [children] in D0.
    rewrite (f2_nth f items' items _ F2). destruct (nth_error items' (default_or 0 chosen)) as [t|] eqn:En; cbn [option_map]; [|reflexivity]. apply CA. apply D0. eapply nth_error_In. exact En.
  Qed.

  (** Plain values are compared by value, nothing else is hashable. *)
  Definition hash_values (hv : V -> res K) (h : heap V K) (o : oid) : res K :=
    match h o with OValue v => hv v | _ => Err TypeError end.
  Lemma hash_values_copies copy hv (h : heap V K) root : (forall v v', copy v = Ok v' -> v' = v) -> copies_hash copy (hash_values hv) h root.
  Proof. intros Hc drop h' size' root' f C n P. unfold hash_values. destruct (co_like _ _ _ _ _ _ _ _ C n P) as [| | | | | | | |v v' E]; try reflexivity. rewrite (Hc _ _ E). reflexivity. Qed.
End Declares.

(** *** C100: the choices of a copy *)
Section Copies.
  Context {V K F : Type} `{EqD K}.
  Variable copy : V -> res V.
  Variables new_seq new_map new_estimator : string -> res unit.
  Variable hash_obj : heap V K -> oid -> res K.
  Variables (h : heap V K) (size : nat) (root : oid).
  Hypothesis Hcopy : forall v v', copy v = Ok v' -> v' = v.
  Hypothesis Hclosed : closed h size.
  Hypothesis Hroot : root < size.
  Hypothesis Hacyclic : acyclic h root.
  Hypothesis Hplain : variables_plain h root.
  Hypothesis Hhash : copies_hash copy hash_obj h root.
  Variables (drop : bool) (h' : heap V K) (size' : nat) (root' : oid).
  Hypothesis Hclone : clone copy new_seq new_map new_estimator h size root drop = Ok (h', size', root').

  Lemma plain_values_of (g : heap V K) d : variables_plain g root -> plain_values d g root.
  Proof.
    intros Hp _ o v name isX isY x P E Px. destruct (Hp o v name isX isY P E) as [w Ew].
    inversion Px as [|? c ? Hs Hc Hr]; subst; [rewrite Ew; exact Logic.I|]. rewrite Ew in Hc. destruct Hc.
  Qed.

  Theorem copy_choices :
    match choice_graph (hash_obj h) h size root, choice_graph (hash_obj h') h' size' root' with
    | Ok (short, G), Ok (short', G') => G' = G /\
        exists f, short = map f short' /\ forall c, part_of h' root' c ->
          part_of h root (f c) /\ (forall l, carries h' c l <-> carries h (f c) l) /\ (is_choice h' c <-> is_choice h (f c))
    | Err a, Err b => a = b
    | _, _ => False
    end.
  Proof.
    destruct (clone_is_clone _ _ _ _ _ _ _ _ _ _ _ Hclosed Hroot Hclone) as (f & C). apply clone_copy in C.
    rewrite (clone_choice_graph copy drop h h' size size' root root' f C Hclosed Hroot Hacyclic (hash_obj h) (hash_obj h') (Hhash drop h' size' root' f C) (plain_values_of h drop Hplain)).
    destruct (choice_graph (hash_obj h') h' size' root') as [[short' G']|ex]; cbn [bind]; [|reflexivity]. split; [reflexivity|]. exists f. split; [reflexivity|].
    intros c P. split; [apply (co_part _ _ _ _ _ _ _ _ C c P)|]. unfold carries, is_choice. destruct (co_like _ _ _ _ _ _ _ _ C c P); split; try tauto; intros []; tauto.
  Qed.
End Copies.

(** *** A toy search. Estimators are numbers; an estimator remembers itself and the X and y it
    is fitted with. *)
Definition sx_get (n : string) (args : list (string * nat)) : nat := match dget n args with Some x => x | None => 0 end.
Definition sx_ext : externals nat nat (nat * nat) := {|
  truthy v := Ok (negb (v =? 0));
  M_expr.key_of v := Ok v;
  mk_seq _ vs := Ok (fold_right plus 0 vs);
  mk_map _ kvs := Ok (fold_right (fun a b => snd a + b) 0 kvs);
  mk_slice a b c := a + b + c;
  mk_estimator cls p := Ok (if eqb_of cls "Forest" then 20 + p else p);
  op_sem op mode args := Ok (S (sx_get "X" args));
  apply_fit args _ := Ok (sx_get "X" args, (sx_get "estimator" args, sx_get "X" args + sx_get "y" args));
  apply_failed _ _ f := f;
  apply_use mode f args :=
    match f with
    | Some (n, w) => Ok (n + w + sx_get "X" args)
    | None => Err AttributeError
    end;
  concat_fit args := Ok (sx_get "X" args, (0, 0));
  concat_use _ args := Ok (sx_get "X" args);
  applied f := fst f;
  has_add_note := true |}.

(** X is what an operation makes from the variable "data", y is the variable "target". The
    estimator is chosen between "Linear" and "Forest"; both have the parameter 0 or 1 depending
    on a choice between 1 and 2. *)
Definition sx_heap : heap nat nat := fun o =>
  match o with
  | 0 => OValue 0
  | 1 => OExpr (IVar None) (Some "data") false false
  | 2 => OExpr (IOp "load" [("X", 1)]) None true false
  | 3 => OExpr (IVar None) (Some "target") false true
  | 4 => OMap "dict" [(0, 15)]
  | 5 => OEstimator "Linear" 4
  | 6 => OEstimator "Forest" 4
  | 7 => OSeq "list" [5; 6]
  | 8 => OChoice (Some "model") 7 None
  | 9 => OExpr (IApply 2 8 3 0 0 0 false) None false false
  | 10 => OValue 1
  | 11 => OValue 2
  | 12 => OSeq "list" [10; 11]
  | 13 => OChoice (Some "c") 12 None
  | 14 => OMap "dict" [(1, 0); (2, 10)]
  | 15 => OChoiceMatch 13 14
  | _ => OValue 0
  end.
Definition sx_size := 16.
Definition sx_root := 9.
Definition sx_methods (cls m : string) : bool :=
  mem m ["predict"; "score"] || (eqb_of cls "Forest" && eqb_of m "predict_proba").
Definition sx_has (f : nat * nat) (m : string) : bool := sx_methods (if fst f <? 20 then "Linear" else "Forest") m.
Definition sx_declares := declares_of (V := nat) (K := nat) sx_methods.
Definition sx_copy (v : nat) : res nat := Ok v.
Definition sx_new (_ : string) : res unit := Ok tt.
Definition sx_hash := hash_values (V := nat) (K := nat) (fun v => Ok v).
Definition sx_none (v : nat) : bool := v =? 0.
Definition sx_cv (p : option (list (nat * param nat))) (x : nat) (y : option nat) (gs : list (grid nat)) : res (nat * option (list (nat * param nat))) := Ok (x, p).
Definition sx_fit root p := search_fit (R := nat) sx_ext sx_hash sx_has sx_declares sx_copy sx_new sx_new sx_new sx_none sx_heap sx_size root (sx_cv p).
Definition sx_search_call root := search_call (R := nat) sx_ext sx_has sx_declares sx_heap sx_size root.
Definition sx_est root := new_est (F := nat * nat) sx_hash sx_copy sx_new sx_new sx_new sx_heap sx_size root.
Definition sx_call := call sx_ext sx_has sx_declares.
Definition sx_params : list (nat * param nat) := [(1, PIndex 1); (0, PIndex 1)].

Lemma sx_closed : closed sx_heap sx_size.
Proof. apply closed_by_check. reflexivity. Qed.
Lemma sx_root_lt : sx_root < sx_size.
Proof. unfold sx_root, sx_size. lia. Qed.
Lemma sx_acyclic : acyclic sx_heap sx_root.
Proof. eapply acyclic_by_nodes; [apply sx_closed|apply sx_root_lt|vm_compute; reflexivity]. Qed.
Lemma sx_copy_ok v v' : sx_copy v = Ok v' -> v' = v.
Proof. intros E. injection E as <-. reflexivity. Qed.
Lemma sx_lt o : part_of sx_heap sx_root o -> o < 16.
Proof. intros P. exact (closed_part sx_heap sx_size sx_root o sx_closed sx_root_lt P). Qed.
Lemma sx_in o : part_of sx_heap sx_root o -> In o (seq 0 16).
Proof. intros P. apply in_seq. pose proof (sx_lt o P). lia. Qed.
Ltac sx_cases o P := let L := fresh "L" in pose proof (sx_in o P) as L; cbn [seq In] in L; clear P;
  repeat (destruct L as [L|L]; [subst o|]); [..|contradiction].
Lemma sx_no_conflict : no_conflict sx_heap sx_root.
Proof.
  intros a b l Pa Pb Ca Cb. unfold carries in Ca, Cb.
  pose proof (sx_lt a Pa) as La. pose proof (sx_lt b Pb) as Lb. clear Pa Pb.
  do 16 (destruct a as [|a]; [cbn in Ca; destruct l; try contradiction; try discriminate; do 16 (destruct b as [|b]; [cbn in Cb; try contradiction; try discriminate; first [reflexivity|congruence]|]); exfalso; lia|]). exfalso; lia.
Qed.
Lemma sx_names : names_free sx_heap sx_root.
Proof. intros o n P C. unfold carries in C. sx_cases o P; cbn in C; try contradiction; try discriminate; injection C as <-; split; discriminate. Qed.
Lemma sx_plain : variables_plain sx_heap sx_root.
Proof. intros o c name isX isY P E. sx_cases o P; cbn in E; discriminate. Qed.
Lemma sx_hashes : copies_hash sx_copy sx_hash sx_heap sx_root.
Proof. apply hash_values_copies. exact sx_copy_ok. Qed.
Lemma sx_declare : copies_declare sx_copy sx_declares sx_heap sx_root.
Proof. apply declares_of_copies. Qed.
Lemma sx_choices : L_choicegraph.choices_ok (sx_hash sx_heap) sx_heap sx_root.
Proof.
  assert (O1 : has_outcomes sx_heap 13 [10; 11]) by (hnf; do 4 eexists; split; reflexivity).
  assert (M1 : maps (sx_hash sx_heap) sx_heap 14 10 0) by (hnf; do 3 eexists; split; [reflexivity|split; reflexivity]).
  assert (M2 : maps (sx_hash sx_heap) sx_heap 14 11 10) by (hnf; do 3 eexists; split; [reflexivity|split; reflexivity]).
  split.
  - intros c name outs ch P E. sx_cases c P; cbn in E; try discriminate.
    + exists [5; 6]. hnf. do 4 eexists; split; reflexivity.
    + exists [10; 11]. exact O1.
  - intros x c m P E. sx_cases x P; cbn in E; try discriminate. injection E as <- <-.
    exists [10; 11], "dict", [(1, 0); (2, 10)]. split; [exact O1|]. split; [reflexivity|].
    intros w [<-|[<-|[]]]; eauto.
  - intros x c m t P E I. sx_cases x P; cbn in E; try discriminate. injection E as <- <-.
    cbn in I. destruct I as [<-|[<-|[]]]; [exists 0|exists 1]; right; exists 14, [10; 11]; eexists; (split; [reflexivity|]); (split; [exact O1|]); (split; [reflexivity|]); assumption.
Qed.
Lemma sx_upstream o : upstream sx_heap sx_root o -> ~ stateful sx_heap o.
Proof.
  intros (z & Pz & Cz & Po).
  assert (Z : z = 2 \/ z = 3) by (clear Po; sx_cases z Pz; cbn in Cz; intuition discriminate).
  assert (I : In o [1; 2; 3]).
  { clear Pz Cz. assert (G : forall a b, part_of sx_heap a b -> In a [1; 2; 3] -> In b [1; 2; 3]).
    { intros a b P. induction P as [a|a c b _ Hc Hr IH]; [auto|]. intros Ia. apply IH. clear IH Hr. cbn in Ia. destruct Ia as [<-|[<-|[<-|[]]]]; cbn in Hc; intuition subst; simpl; auto. }
    apply (G z); [exact Po|]. cbn. intuition lia. }
  cbn in I. destruct I as [<-|[<-|[<-|[]]]]; intros S; exact S.
Qed.
Lemma sx_grids : exists G, choice_graph (sx_hash sx_heap) sx_heap sx_size sx_root = Ok ([13; 8], G) /\
  param_grid G = Ok [[(1, Indices [0]); (0, Indices [0; 1])]; [(1, Indices [1]); (0, Indices [0; 1])]].
Proof. eexists. split; vm_compute; reflexivity. Qed.
Definition sx_env : env nat := [("data", 3); ("target", 7)].
Definition sx_fitted := fst (sx_fit sx_root (Some sx_params) sx_env new_search).

(** X is computed by an estimator. *)
Definition sy_heap : heap nat nat := fun o =>
  match o with
  | 0 => OValue 0
  | 1 => OExpr (IVar None) (Some "data") false false
  | 2 => OExpr (IApply 1 3 0 0 0 0 true) None true false
  | 3 => OEstimator "Scaler" 4
  | 4 => OMap "dict" []
  | 5 => OExpr (IVar None) (Some "target") false true
  | 6 => OEstimator "Linear" 4
  | 7 => OExpr (IApply 2 6 5 0 0 0 false) None false false
  | _ => OValue 0
  end.
Definition sy_fit := search_fit (R := nat) sx_ext sx_hash sx_has sx_declares sx_copy sx_new sx_new sx_new sx_none sy_heap 8 7 (sx_cv (Some [])).
Definition sy_search_call := search_call (R := nat) sx_ext sx_has sx_declares sy_heap 8 7.
Definition sy_est := new_est (F := nat * nat) sx_hash sx_copy sx_new sx_new sx_new sy_heap 8 7.
Lemma sy_upstream : upstream sy_heap 7 2 /\ stateful sy_heap 2.
Proof.
  split; [|exact Logic.I]. exists 2. split; [|split; [left; reflexivity|apply reach_refl]].
  apply part_child. left. reflexivity.
Qed.

(** An outcome is matched to estimators, which are compared by identity. *)
Definition sz_heap : heap nat nat := fun o =>
  match o with
  | 0 => OValue 0
  | 1 => OMap "dict" []
  | 2 => OEstimator "Linear" 1
  | 3 => OEstimator "Forest" 1
  | 4 => OSeq "list" [2; 3]
  | 5 => OChoice None 4 None
  | 6 => OMap "dict" [(2, 0); (3, 0)]
  | 7 => OChoiceMatch 5 6
  | 8 => OExpr (IValue 7) None false false
  | _ => OValue 0
  end.
Definition sz_hash (h : heap nat nat) (o : oid) : res nat := Ok o.
Definition sx_split1 (x : nat) : res (nat * nat) := Ok (x / 10, x mod 10).
Definition sx_split2 (x y : nat) : res (nat * nat * (nat * nat)) := Ok ((x / 10, x mod 10), (y / 10, y mod 10)).
Definition sx_split := train_test_split sx_ext sx_copy sx_new sx_new sx_new sx_none sx_split1 sx_split2 sx_heap sx_size sx_root.
Definition sx_run := search_run (R := nat) sx_ext sx_hash sx_has sx_declares sx_copy sx_new sx_new sx_new sx_none sx_heap sx_size sx_root.

Lemma sz_choices : L_choicegraph.choices_ok (sz_hash sz_heap) sz_heap 8.
Proof.
  assert (Hcl : closed sz_heap 9) by (apply closed_by_check; reflexivity).
  assert (HI : forall o, part_of sz_heap 8 o -> In o (seq 0 9)).
  { intros o P. apply in_seq. pose proof (closed_part sz_heap 9 8 o Hcl ltac:(lia) P). lia. }
  assert (O1 : has_outcomes sz_heap 5 [2; 3]) by (hnf; do 4 eexists; split; reflexivity).
  assert (M1 : maps (sz_hash sz_heap) sz_heap 6 2 0) by (hnf; do 3 eexists; split; [reflexivity|split; reflexivity]).
  assert (M2 : maps (sz_hash sz_heap) sz_heap 6 3 0) by (hnf; do 3 eexists; split; [reflexivity|split; reflexivity]).
  split.
  - intros c name outs ch P E. pose proof (HI c P) as L. cbn [seq In] in L. repeat (destruct L as [L|L]; [subst c; cbn in E; try discriminate|]); [|contradiction]. exists [2; 3]. exact O1.
  - intros x c m P E. pose proof (HI x P) as L. cbn [seq In] in L. repeat (destruct L as [L|L]; [subst x; cbn in E; try discriminate|]); [|contradiction]. injection E as <- <-.
    exists [2; 3], "dict", [(2, 0); (3, 0)]. split; [exact O1|]. split; [reflexivity|]. intros w [<-|[<-|[]]]; eauto.
  - intros x c m t P E I. pose proof (HI x P) as L. cbn [seq In] in L. repeat (destruct L as [L|L]; [subst x; cbn in E; try discriminate|]); [|contradiction]. injection E as <- <-.
    exists 0. right. exists 6, [2; 3]. cbn in I. exists 2. split; [reflexivity|]. split; [exact O1|]. split; [reflexivity|]. destruct I as [<-|[<-|[]]]; exact M1.
Qed.
Lemma sz_broken : exists h' size' root' short G,
  L_choicegraph.choices_ok (sz_hash sz_heap) sz_heap 8 /\
  choice_graph (sz_hash sz_heap) sz_heap 9 8 = Ok (short, G) /\
  clone sx_copy sx_new sx_new sx_new sz_heap 9 8 true = Ok (h', size', root') /\
  choice_graph (sz_hash h') h' size' root' = Err KeyError.
Proof.
  destruct (clone sx_copy sx_new sx_new sx_new sz_heap 9 8 true) as [[[h' size'] root']|] eqn:E; [|vm_compute in E; discriminate].
  destruct (choice_graph (sz_hash sz_heap) sz_heap 9 8) as [[short G]|] eqn:Eg; [|vm_compute in Eg; discriminate].
  exists h', size', root', short, G. split; [exact sz_choices|]. split; [reflexivity|]. split; [reflexivity|].
  assert (X : (let! (h1, s1, r1) := clone sx_copy sx_new sx_new sx_new sz_heap 9 8 true in choice_graph (sz_hash h1) h1 s1 r1) = Err KeyError) by (vm_compute; reflexivity).
  rewrite E in X. exact X.
Qed.

Lemma sx_not_data (stop : oid -> Prop) (a o : oid) : stop 2 -> reach sx_heap stop a o -> a <> 1 -> o <> 1.
Proof.
  intros S2 R. induction R as [|a c x Hs Hi R IH]; [auto|]. intros _. apply IH. intros ->.
  do 17 (destruct a as [|a]; [cbn in Hi; repeat (destruct Hi as [Hi|Hi]; [discriminate Hi|]); try contradiction; try (apply Hs; exact S2)|]). exact Hi.
Qed.
Lemma sx_no_leak : exists sp1 sp2, sx_split [("data", 23); ("target", 17)] = Ok sp1 /\
  sx_split [("data", 25); ("target", 18)] = Ok sp2 /\
  sp_train sp1 = [("data", 23); ("target", 17); ("_skrub_X", 2); ("_skrub_y", 1)] /\
  sp_test sp1 = [("data", 23); ("target", 17); ("_skrub_X", 4); ("_skrub_y", 7)] /\
  sp_X_train sp1 = sp_X_train sp2 /\ option_map fst (sp_y sp1) = option_map fst (sp_y sp2) /\
  (forall o n, used_besides sx_heap (sp_train sp1) sx_root o -> ~ split_node sx_heap (sp_train sp1) o -> named sx_heap o n ->
    dget n (sp_train sp1) = dget n (sp_train sp2)).
Proof.
  eexists. eexists. split; [vm_compute; reflexivity|]. split; [vm_compute; reflexivity|]. do 4 (split; [reflexivity|]).
  cbn [sp_train]. intros o n U S N.
  assert (O1 : o <> 1) by (refine (sx_not_data _ _ _ _ U _); [left; split; [reflexivity|discriminate]|discriminate]).
  assert (O3 : o <> 3) by (intros ->; apply S; right; split; [reflexivity|discriminate]).
  do 17 (destruct o as [|o]; [try congruence; cbn in N; try contradiction; subst n; reflexivity|]). contradiction.
Qed.
Lemma sx_C103 :
  no_conflict sx_heap sx_root /\ names_free sx_heap sx_root /\ variables_plain sx_heap sx_root /\
  copies_hash sx_copy sx_hash sx_heap sx_root /\ copies_declare sx_copy sx_declares sx_heap sx_root /\
  L_choicegraph.choices_ok (sx_hash sx_heap) sx_heap sx_root /\ (forall o, upstream sx_heap sx_root o -> ~ stateful sx_heap o) /\
  (exists G gs, choice_graph (sx_hash sx_heap) sx_heap sx_size sx_root = Ok ([13; 8], G) /\ param_grid G = Ok gs /\ drawn gs sx_params) /\
  snd (sx_fit sx_root (Some sx_params) sx_env new_search) = Ok tt /\
  snd (sx_search_call sx_root "predict" [("data", 5)] sx_fitted) = Ok (TheValue 38) /\
  match sx_est sx_root sx_params with
  | Ok b0 => snd (sx_call (fst (sx_call b0 "fit" sx_env)) "predict" [("data", 5)]) = Ok (TheValue 38)
  | Err _ => False
  end.
Proof.
  split; [exact sx_no_conflict|]. split; [exact sx_names|]. split; [exact sx_plain|]. split; [exact sx_hashes|]. split; [exact sx_declare|]. split; [exact sx_choices|]. split; [exact sx_upstream|].
  split; [|vm_compute; repeat split].
  destruct sx_grids as (G & E1 & E2). exists G. eexists. split; [exact E1|]. split; [exact E2|]. eexists. split; [right; left; reflexivity|].
  intros k p [E|[E|[]]]; injection E as <- <-; vm_compute; auto.
Qed.
Lemma sy_refuted : exists sr b0,
  sy_fit sx_env new_search = (sr, Ok tt) /\ sy_est [] = Ok b0 /\
  snd (sx_call b0 "fit" sx_env) = Ok TheExpr /\
  snd (sx_call (fst (sx_call b0 "fit" sx_env)) "predict" [("data", 5)]) = Ok (TheValue 18) /\
  snd (sy_search_call "predict" [("data", 5)] sr) = Err AttributeError.
Proof.
  destruct (sy_fit sx_env new_search) as [sr r] eqn:E. destruct (sy_est []) as [b0|] eqn:E0; [|vm_compute in E0; discriminate].
  exists sr, b0.
  assert (X : snd (sy_fit sx_env new_search) = Ok tt) by (vm_compute; reflexivity). rewrite E in X. cbn in X. subst r. split; [reflexivity|]. split; [reflexivity|].
  assert (Y : match sy_est [] with Ok b => snd (sx_call b "fit" sx_env) = Ok TheExpr /\ snd (sx_call (fst (sx_call b "fit" sx_env)) "predict" [("data", 5)]) = Ok (TheValue 18) | Err _ => False end) by (vm_compute; split; reflexivity).
  rewrite E0 in Y. destruct Y as [Y1 Y2]. split; [exact Y1|]. split; [exact Y2|].
  assert (Z : snd (sy_search_call "predict" [("data", 5)] (fst (sy_fit sx_env new_search))) = Err AttributeError) by (vm_compute; reflexivity). rewrite E in Z. exact Z.
Qed.
Lemma sx_methods_refuted : exists sr b,
  sx_fit sx_root (Some sx_params) sx_env new_search = (sr, Ok tt) /\ s_best sr = Some b /\
  snd (sx_call b "predict_proba" [("data", 5)]) = Ok (TheValue 38) /\
  snd (sx_search_call sx_root "predict_proba" [("data", 5)] sr) = Err AttributeError.
Proof.
  assert (X : let out := sx_fit sx_root (Some sx_params) sx_env new_search in snd out = Ok tt /\
    match s_best (fst out) with Some b => snd (sx_call b "predict_proba" [("data", 5)]) = Ok (TheValue 38) | None => False end /\
    snd (sx_search_call sx_root "predict_proba" [("data", 5)] (fst out)) = Err AttributeError) by (vm_compute; repeat split).
  cbn zeta in X. destruct (sx_fit sx_root (Some sx_params) sx_env new_search) as [sr r]. cbn [fst snd] in X. destruct X as (-> & X & Y).
  destruct (s_best sr) as [b|] eqn:Eb; [|contradiction]. exists sr, b. auto.
Qed.
Lemma sx_fit_fails p sr : exists ex, snd (sx_fit sx_root p [] sr) = Err ex.
Proof. eexists. vm_compute. reflexivity. Qed.
Lemma sx_C104 :
  let failing := [SFit (sx_cv (Some sx_params)) []; SCall "predict" sx_env] in
  let later := [SCall "predict" [("data", 1)]; SFit (sx_cv (Some sx_params)) []] in
  Forall (fails sx_ext sx_hash sx_has sx_declares sx_copy sx_new sx_new sx_new sx_none sx_heap sx_size sx_root) failing /\
  snd (sx_search_call sx_root "predict" sx_env (sx_run new_search failing)) = Err NotFittedError /\
  Forall (does_not_refit sx_ext sx_hash sx_has sx_declares sx_copy sx_new sx_new sx_new sx_none sx_heap sx_size sx_root) later /\
  snd (sx_fit sx_root (Some sx_params) sx_env (sx_run new_search failing)) = Ok tt /\
  snd (sx_search_call sx_root "predict" [("data", 5)] (sx_run new_search (failing ++ SFit (sx_cv (Some sx_params)) sx_env :: later))) = Ok (TheValue 38).
Proof.
  cbn zeta. split; [constructor; [exact (fun sr => sx_fit_fails (Some sx_params) sr)|constructor; [exact Logic.I|constructor]]|]. split; [vm_compute; reflexivity|].
  split; [constructor; [cbn; auto|constructor; [left; exact (fun sr => sx_fit_fails (Some sx_params) sr)|constructor]]|]. vm_compute. split; reflexivity.
Qed.
