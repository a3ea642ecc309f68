(** Lemmas about deferred functions. *)
From Verif Require Import Base L_dict M_deferred.
Open Scope string_scope.
Open Scope list_scope.
Open Scope nat_scope.
Set Default Proof Using "Type".

(** Induction on objects. *)
Section Ind.
  Context {V : Type}.
  Variable P : pobj V -> Prop.
  Hypothesis Hatom : forall v, P (PAtom v).
  Hypothesis Hexpr : forall i, P (PExpr i).
  Hypothesis Hseq : forall cls l, Forall P l -> P (PSeq cls l).
  Hypothesis Hmap : forall cls l, Forall (fun kv => P (snd kv)) l -> P (PMap cls l).
  Hypothesis Hest : forall cls l fit, Forall (fun kv => P (snd kv)) l -> P (PEst cls l fit).
  Definition pobj_induction : forall o, P o :=
    fix F o : P o :=
      match o with
      | PAtom v => Hatom v
      | PExpr i => Hexpr i
      | PSeq cls l => Hseq cls l ((fix G l : Forall P l := match l with [] => Forall_nil _ | x :: l' => Forall_cons _ (F x) (G l') end) l)
      | PMap cls l => Hmap cls l ((fix G l : Forall (fun kv => P (snd kv)) l :=
                                     match l with [] => Forall_nil _ | x :: l' => Forall_cons x (F (snd x)) (G l') end) l)
      | PEst cls l fit => Hest cls l fit ((fix G l : Forall (fun kv => P (snd kv)) l :=
                                     match l with [] => Forall_nil _ | x :: l' => Forall_cons x (F (snd x)) (G l') end) l)
      end.
End Ind.

Section Spec.
  Context {V : Type}.
  Notation pobj := (pobj V).
  Variable new_seq : string -> list pobj -> res pobj.
  Variable new_map : string -> list (V * pobj) -> res pobj.
  Variable new_est : string -> list (string * pobj) -> res pobj.
  Variable meaning : nat -> res pobj.
  Variable exec : code -> (string -> option pobj) -> list (option pobj) -> binding V -> res pobj.
  Variable call_other : string -> list pobj -> list (string * pobj) -> res pobj.

  (** The expression [i] occurs in an object. *)
  Inductive occurs (i : nat) : pobj -> Prop :=
  | occ_expr : occurs i (PExpr i)
  | occ_seq cls l o : In o l -> occurs i o -> occurs i (PSeq cls l)
  | occ_map cls l k o : In (k, o) l -> occurs i o -> occurs i (PMap cls l)
  | occ_est cls l k o fit : In (k, o) l -> occurs i o -> occurs i (PEst cls l fit).
  Definition plain (o : pobj) : Prop := forall i, ~ occurs i o.

  (** [v] is the object [o] in which the expressions are replaced with their values. *)
  Inductive replaced : pobj -> pobj -> Prop :=
  | rep_atom v : replaced (PAtom v) (PAtom v)
  | rep_expr i v : meaning i = Ok v -> replaced (PExpr i) v
  | rep_seq cls l l' : Forall2 replaced l l' -> replaced (PSeq cls l) (PSeq cls l')
  | rep_map cls l l' : Forall2 (fun a b => fst a = fst b /\ replaced (snd a) (snd b)) l l' -> replaced (PMap cls l) (PMap cls l')
  | rep_est cls l l' fit : Forall2 (fun a b => fst a = fst b /\ replaced (snd a) (snd b)) l l' -> replaced (PEst cls l fit) (PEst cls l' fit).

  (** Containers are rebuilt with the same items, estimators are not fitted. *)
  Inductive ordinary : pobj -> Prop :=
  | ord_atom v : ordinary (PAtom v)
  | ord_expr i : ordinary (PExpr i)
  | ord_seq cls l : (forall l', new_seq cls l' = Ok (PSeq cls l')) -> Forall ordinary l -> ordinary (PSeq cls l)
  | ord_map cls l : (forall l', new_map cls l' = Ok (PMap cls l')) -> Forall (fun kv => ordinary (snd kv)) l -> ordinary (PMap cls l)
  | ord_est cls l : (forall l', new_est cls l' = Ok (PEst cls l' None)) -> Forall (fun kv => ordinary (snd kv)) l -> ordinary (PEst cls l None).

  Notation ev := (ev new_seq new_map new_est meaning).
  Notation ev_items := (ev_items new_seq new_map new_est meaning).
  Notation search_expr := (search_expr new_seq new_map new_est).
  Notation needs_eval := (needs_eval new_seq new_map new_est).
  Notation any_needs_eval := (any_needs_eval new_seq new_map new_est).

  (** *** Evaluation of objects *)

  Lemma ev_list (l : list pobj) :
    (fix go l := match l with
                 | [] => Ok []
                 | x :: l' => let! x' := ev x in let! r := go l' in Ok (x' :: r)
                 end) l = mapM ev l.
  Proof. induction l as [|x l IH]; [reflexivity|]. cbn. rewrite IH. reflexivity. Qed.
  Lemma ev_seq cls l : ev (PSeq cls l) = (let! l' := mapM ev l in new_seq cls l').
  Proof. cbn [M_deferred.ev]. rewrite ev_list. reflexivity. Qed.
  Lemma ev_pairs {A} (l : list (A * pobj)) :
    (fix go l := match l with
                 | [] => Ok []
                 | (k, x) :: l' => let! x' := ev x in let! r := go l' in Ok ((k, x') :: r)
                 end) l = ev_items l.
  Proof. induction l as [|[k x] l IH]; [reflexivity|]. cbn. rewrite IH. destruct (ev x); cbn; [|reflexivity]. reflexivity. Qed.
  Lemma ev_map cls l : ev (PMap cls l) = (let! l' := ev_items l in new_map cls l').
  Proof. cbn [M_deferred.ev]. rewrite ev_pairs. reflexivity. Qed.
  Lemma ev_est cls l fit : ev (PEst cls l fit) = (let! l' := ev_items l in new_est cls l').
  Proof. cbn [M_deferred.ev]. rewrite ev_pairs. reflexivity. Qed.

  Lemma mapM_sound {A B} (f : A -> res B) (R : A -> B -> Prop) l : Forall (fun a => forall b, f a = Ok b -> R a b) l ->
    forall l', mapM f l = Ok l' -> Forall2 R l l'.
  Proof.
    induction 1 as [|a l Ha Hl IH]; intros l' E; cbn in E; [injection E as <-; constructor|].
    destruct (f a) as [b|] eqn:Ef; cbn in E; [|discriminate]. destruct (mapM f l) as [bs|]; cbn in E; [|discriminate]. injection E as <-. constructor; auto.
  Qed.
  Lemma mapM_complete {A B} (f : A -> res B) (R : A -> B -> Prop) l : Forall (fun a => forall b, R a b -> f a = Ok b) l ->
    forall l', Forall2 R l l' -> mapM f l = Ok l'.
  Proof.
    induction 1 as [|a l Ha Hl IH]; intros l' E; inversion E; subst; [reflexivity|]. cbn. rewrite (Ha y) by assumption. cbn. rewrite (IH l'0) by assumption. reflexivity.
  Qed.
  Lemma mapM_err {A B} (f : A -> res B) l e : mapM f l = Err e -> exists a, In a l /\ f a = Err e.
  Proof.
    induction l as [|a l IH]; cbn; [discriminate|]. destruct (f a) as [b|] eqn:Ef; cbn.
    - destruct (mapM f l) as [bs|]; cbn; [discriminate|]. intros E. injection E as <-. destruct (IH eq_refl) as (x & I & Ex). eauto.
    - intros E. injection E as <-. eauto.
  Qed.

  Lemma ev_spec o : ordinary o -> forall v, ev o = Ok v <-> replaced o v.
  Proof.
    induction o as [v|i|cls l IH|cls l IH|cls l fit IH] using pobj_induction; intros O w.
    - cbn. split; [intros E; injection E as <-; constructor|intros R; inversion R; reflexivity].
    - cbn. split; [intros E; constructor; exact E|intros R; inversion R; assumption].
    - inversion O as [| |cls' l' Hn Ol| |]; subst. rewrite ev_seq. split; intros E.
      + destruct (mapM ev l) as [l'|] eqn:El; cbn in E; [|discriminate]. rewrite Hn in E. injection E as <-. constructor.
        refine (mapM_sound ev replaced l _ l' El). clear - IH Ol. induction IH; inversion Ol; subst; constructor; auto. intros b. apply H; assumption.
      + inversion E as [| |cls' l0 l' F| |]; subst. rewrite (mapM_complete ev replaced l) with (l' := l'); [cbn; apply Hn| |exact F].
        clear - IH Ol. induction IH; inversion Ol; subst; constructor; auto. intros b. apply H; assumption.
    - inversion O as [| | |cls' l' Hn Ol|]; subst. rewrite ev_map. unfold M_deferred.ev_items. split; intros E.
      + destruct (mapM _ l) as [l'|] eqn:El; cbn in E; [|discriminate]. rewrite Hn in E. injection E as <-. constructor.
        refine (mapM_sound _ (fun a b => fst a = fst b /\ replaced (snd a) (snd b)) l _ l' El).
        clear - IH Ol. induction IH; inversion Ol; subst; constructor; auto. intros b Eb. destruct (ev (snd x)) as [v|] eqn:Ev; cbn in Eb; [|discriminate]. injection Eb as <-. split; [reflexivity|]. apply H; [assumption|reflexivity].
      + inversion E as [| | |cls' l0 l' F|]; subst. rewrite (mapM_complete _ (fun a b => fst a = fst b /\ replaced (snd a) (snd b)) l) with (l' := l'); [cbn; apply Hn| |exact F].
        clear - IH Ol. induction IH; inversion Ol; subst; constructor; auto. intros [k b] [Ek Eb]. cbn [fst snd] in *. subst k. apply H in Eb; [|assumption]. rewrite Eb. reflexivity.
    - inversion O as [| | | |cls' l' Hn Ol]; subst. rewrite ev_est. unfold M_deferred.ev_items. split; intros E.
      + destruct (mapM _ l) as [l'|] eqn:El; cbn in E; [|discriminate]. rewrite Hn in E. injection E as <-. constructor.
        refine (mapM_sound _ (fun a b => fst a = fst b /\ replaced (snd a) (snd b)) l _ l' El).
        clear - IH Ol. induction IH; inversion Ol; subst; constructor; auto. intros b Eb. destruct (ev (snd x)) as [v|] eqn:Ev; cbn in Eb; [|discriminate]. injection Eb as <-. split; [reflexivity|]. apply H; [assumption|reflexivity].
      + inversion E as [| | | |cls' l0 l' fit' F]; subst. rewrite (mapM_complete _ (fun a b => fst a = fst b /\ replaced (snd a) (snd b)) l) with (l' := l'); [cbn; apply Hn| |exact F].
        clear - IH Ol. induction IH; inversion Ol; subst; constructor; auto. intros [k b] [Ek Eb]. cbn [fst snd] in *. subst k. apply H in Eb; [|assumption]. rewrite Eb. reflexivity.
  Qed.

  Lemma ev_items_err {A} (l : list (A * pobj)) e : ev_items l = Err e -> exists k o, In (k, o) l /\ ev o = Err e.
  Proof.
    intros E. destruct (mapM_err _ _ _ E) as ([k o] & I & Eo). exists k, o. split; [exact I|]. cbn in Eo. destruct (ev o); cbn in Eo; congruence.
  Qed.
  Lemma ev_error o e : ordinary o -> ev o = Err e -> exists i, occurs i o /\ meaning i = Err e.
  Proof.
    induction o as [v|i|cls l IH|cls l IH|cls l fit IH] using pobj_induction; intros O E.
    - discriminate E.
    - exists i. split; [constructor|exact E].
    - inversion O as [| |cls' l' Hn Ol| |]; subst. rewrite ev_seq in E. destruct (mapM ev l) as [l'|] eqn:El; cbn in E; [rewrite Hn in E; discriminate|]. injection E as <-.
      destruct (mapM_err _ _ _ El) as (x & I & Ex). rewrite Forall_forall in IH, Ol. destruct (IH x I (Ol x I) Ex) as (i & Oi & Mi). exists i. split; [econstructor; eassumption|exact Mi].
    - inversion O as [| | |cls' l' Hn Ol|]; subst. rewrite ev_map in E. destruct (ev_items l) as [l'|] eqn:El; cbn in E; [rewrite Hn in E; discriminate|]. injection E as <-.
      destruct (ev_items_err _ _ El) as (k & x & I & Ex). rewrite Forall_forall in IH, Ol. destruct (IH (k, x) I (Ol (k, x) I) Ex) as (i & Oi & Mi). exists i. split; [econstructor; eassumption|exact Mi].
    - inversion O as [| | | |cls' l' Hn Ol]; subst. rewrite ev_est in E. destruct (ev_items l) as [l'|] eqn:El; cbn in E; [rewrite Hn in E; discriminate|]. injection E as <-.
      destruct (ev_items_err _ _ El) as (k & x & I & Ex). rewrite Forall_forall in IH, Ol. destruct (IH (k, x) I (Ol (k, x) I) Ex) as (i & Oi & Mi). exists i. split; [econstructor; eassumption|exact Mi].
  Qed.

  Lemma replaced_plain o : plain o -> replaced o o.
  Proof.
    induction o as [v|i|cls l IH|cls l IH|cls l fit IH] using pobj_induction; intros P.
    - constructor.
    - exfalso. apply (P i). constructor.
    - constructor. assert (Pl : forall x, In x l -> plain x) by (intros x I i Oi; apply (P i); econstructor; eassumption).
      clear P. induction IH; constructor; [apply H, Pl; left; reflexivity|apply IHIH; intros y I; apply Pl; right; exact I].
    - constructor. assert (Pl : forall k x, In (k, x) l -> plain x) by (intros k x I i Oi; apply (P i); econstructor; eassumption).
      clear P. induction IH as [|[k x] l Hx Hl IHl]; constructor; [split; [reflexivity|apply Hx, (Pl k); left; reflexivity]|apply IHl; intros k' y I; apply (Pl k'); right; exact I].
    - constructor. assert (Pl : forall k x, In (k, x) l -> plain x) by (intros k x I i Oi; apply (P i); econstructor; eassumption).
      clear P. induction IH as [|[k x] l Hx Hl IHl]; constructor; [split; [reflexivity|apply Hx, (Pl k); left; reflexivity]|apply IHl; intros k' y I; apply (Pl k'); right; exact I].
  Qed.
  Lemma replaced_fun o v w : replaced o v -> replaced o w -> v = w.
  Proof.
    revert v w. induction o as [u|i|cls l IH|cls l IH|cls l fit IH] using pobj_induction; intros v w R1 R2; inversion R1; subst; inversion R2; subst; try reflexivity; try congruence; f_equal.
    - clear R1 R2. match goal with A : Forall2 _ l ?a, B : Forall2 _ l ?b |- _ = _ => revert a b A B end. induction IH as [|x l Hx Hl IHl]; intros a b A B; inversion A; subst; inversion B; subst; [reflexivity|]. f_equal; auto.
    - clear R1 R2. match goal with A : Forall2 _ l ?a, B : Forall2 _ l ?b |- _ = _ => revert a b A B end. induction IH as [|x l Hx Hl IHl]; intros a b A B; inversion A as [|? [k1 y1] ? ? [? ?]]; subst; inversion B as [|? [k2 y2] ? ? [? ?]]; subst; [reflexivity|]. cbn [fst snd] in *. subst. f_equal; [f_equal; auto|auto].
    - clear R1 R2. match goal with A : Forall2 _ l ?a, B : Forall2 _ l ?b |- _ = _ => revert a b A B end. induction IH as [|x l Hx Hl IHl]; intros a b A B; inversion A as [|? [k1 y1] ? ? [? ?]]; subst; inversion B as [|? [k2 y2] ? ? [? ?]]; subst; [reflexivity|]. cbn [fst snd] in *. subst. f_equal; [f_equal; auto|auto].
  Qed.
  Lemma ev_plain o : ordinary o -> plain o -> ev o = Ok o.
  Proof. intros O P. apply ev_spec; [exact O|]. apply replaced_plain. exact P. Qed.

  (** *** Looking for expressions *)

  Definition found (o : pobj) (r : res (option pobj)) : Prop :=
    (r = Ok None /\ exists i, occurs i o) \/ (r = Ok (Some o) /\ plain o).

  Lemma search_list l : Forall (fun o => found o (search_expr o)) l ->
    forall go, go = (fix go l := match l with
                        | [] => Ok (Some [])
                        | x :: l' => let! x' := search_expr x in
                            match x' with
                            | None => Ok None
                            | Some x' => let! r := go l' in Ok (option_map (cons x') r)
                            end
                        end) ->
    (go l = Ok None /\ exists i o, In o l /\ occurs i o) \/ (go l = Ok (Some l) /\ forall o, In o l -> plain o).
  Proof.
    intros F go ->. induction F as [|x l Hx Hl IH]; [right; split; [reflexivity|contradiction]|].
    destruct Hx as [[-> (i & Oi)]|[-> P]]; cbn [bind].
    - left. split; [reflexivity|]. exists i, x. split; [left; reflexivity|exact Oi].
    - destruct IH as [[-> (i & o & I & Oi)]|[-> A]]; cbn [bind option_map].
      + left. split; [reflexivity|]. exists i, o. split; [right; exact I|exact Oi].
      + right. split; [reflexivity|]. intros o [<-|I]; auto.
  Qed.
  Lemma search_pairs {A} (l : list (A * pobj)) : Forall (fun kv => found (snd kv) (search_expr (snd kv))) l ->
    forall go, go = (fix go l := match l with
                        | [] => Ok (Some [])
                        | (k, x) :: l' => let! x' := search_expr x in
                            match x' with
                            | None => Ok None
                            | Some x' => let! r := go l' in Ok (option_map (cons (k, x')) r)
                            end
                        end) ->
    (go l = Ok None /\ exists i k o, In (k, o) l /\ occurs i o) \/ (go l = Ok (Some l) /\ forall k o, In (k, o) l -> plain o).
  Proof.
    intros F go ->. induction F as [|[k x] l Hx Hl IH]; [right; split; [reflexivity|contradiction]|]. cbn [snd] in Hx.
    destruct Hx as [[-> (i & Oi)]|[-> P]]; cbn [bind].
    - left. split; [reflexivity|]. exists i, k, x. split; [left; reflexivity|exact Oi].
    - destruct IH as [[-> (i & k' & o & I & Oi)]|[-> Q]]; cbn [bind option_map].
      + left. split; [reflexivity|]. exists i, k', o. split; [right; exact I|exact Oi].
      + right. split; [reflexivity|]. intros k' o [E|I]; [injection E as <- <-; exact P|eauto].
  Qed.
  Lemma search_spec o : ordinary o -> found o (search_expr o).
  Proof.
    induction o as [v|i|cls l IH|cls l IH|cls l fit IH] using pobj_induction; intros O.
    - right. split; [reflexivity|]. intros i Oi. inversion Oi.
    - left. split; [reflexivity|]. exists i. constructor.
    - inversion O as [| |cls' l' Hn Ol| |]; subst. cbn [M_deferred.search_expr].
      assert (F : Forall (fun o => found o (search_expr o)) l) by (clear - IH Ol; induction IH; inversion Ol; subst; constructor; auto).
      destruct (search_list l F _ eq_refl) as [[-> (i & x & I & Oi)]|[-> P]]; cbn [bind].
      + left. split; [reflexivity|]. exists i. econstructor; eassumption.
      + rewrite Hn. right. split; [reflexivity|]. intros i Oi. inversion Oi; subst. eapply P; eassumption.
    - inversion O as [| | |cls' l' Hn Ol|]; subst. cbn [M_deferred.search_expr].
      assert (F : Forall (fun kv => found (snd kv) (search_expr (snd kv))) l) by (clear - IH Ol; induction IH; inversion Ol; subst; constructor; auto).
      destruct (search_pairs l F _ eq_refl) as [[-> (i & k & x & I & Oi)]|[-> P]]; cbn [bind].
      + left. split; [reflexivity|]. exists i. econstructor; eassumption.
      + rewrite Hn. right. split; [reflexivity|]. intros i Oi. inversion Oi; subst. eapply P; eassumption.
    - inversion O as [| | | |cls' l' Hn Ol]; subst. cbn [M_deferred.search_expr].
      assert (F : Forall (fun kv => found (snd kv) (search_expr (snd kv))) l) by (clear - IH Ol; induction IH; inversion Ol; subst; constructor; auto).
      destruct (search_pairs l F _ eq_refl) as [[-> (i & k & x & I & Oi)]|[-> P]]; cbn [bind].
      + left. split; [reflexivity|]. exists i. econstructor; eassumption.
      + rewrite Hn. right. split; [reflexivity|]. intros i Oi. inversion Oi; subst. eapply P; eassumption.
  Qed.
  Lemma needs_eval_spec o : ordinary o -> (needs_eval o = Ok true /\ exists i, occurs i o) \/ (needs_eval o = Ok false /\ plain o).
  Proof.
    intros O. unfold M_deferred.needs_eval. destruct (search_spec o O) as [[-> H]|[-> H]]; [left|right]; split; auto.
  Qed.
  Lemma any_needs_eval_spec l : Forall ordinary l ->
    (any_needs_eval l = Ok true /\ exists i o, In o l /\ occurs i o) \/ (any_needs_eval l = Ok false /\ Forall plain l).
  Proof.
    induction 1 as [|o l Ho Hl IH]; [right; split; [reflexivity|constructor]|]. cbn [M_deferred.any_needs_eval].
    destruct (needs_eval_spec o Ho) as [[-> (i & Oi)]|[-> P]]; cbn [bind].
    - left. split; [reflexivity|]. exists i, o. split; [left; reflexivity|exact Oi].
    - destruct IH as [[-> (i & x & I & Oi)]|[-> Q]].
      + left. split; [reflexivity|]. exists i, x. split; [right; exact I|exact Oi].
      + right. split; [reflexivity|]. constructor; assumption.
  Qed.

  (** *** Matching arguments and parameters *)

  Lemma merge_dget (a b : list (string * pobj)) k : NoDup (dkeys b) -> dget k (merge a b) = match dget k b with Some v => Some v | None => dget k a end.
  Proof.
    revert a. induction b as [|[k' v] b IH]; intros a N; [reflexivity|]. cbn [merge dget]. inversion N as [|? ? Hn N']; subst.
    rewrite IH by exact N'. destruct (eqd k k') as [->|Hne].
    - rewrite dget_dset_eq. apply dget_None_keys in Hn. rewrite Hn. reflexivity.
    - rewrite dget_dset_neq by assumption. reflexivity.
  Qed.
  Lemma filter_dset (P : string -> bool) k v (d : list (string * pobj)) : (P k = true -> ~ In k (dkeys d)) ->
    filter (fun kv => P (fst kv)) (dset k v d) = filter (fun kv => P (fst kv)) d ++ (if P k then [(k, v)] else []).
  Proof.
    induction d as [|[k' v'] d IH]; intros Hn; cbn [dset filter fst].
    - destruct (P k); reflexivity.
    - destruct (eqd k k') as [<-|Hne]; cbn [filter fst].
      + destruct (P k) eqn:E; [exfalso; apply Hn; [reflexivity|left; reflexivity]|]. rewrite app_nil_r. reflexivity.
      + rewrite IH by (intros E I; apply (Hn E); right; exact I). destruct (P k'); reflexivity.
  Qed.
  Lemma merge_filter (P : string -> bool) (a b : list (string * pobj)) : NoDup (dkeys b) -> (forall k, In k (dkeys a) -> In k (dkeys b) -> P k = false) ->
    filter (fun kv => P (fst kv)) (merge a b) = filter (fun kv => P (fst kv)) a ++ filter (fun kv => P (fst kv)) b.
  Proof.
    revert a. induction b as [|[k v] b IH]; intros a N Hd; [cbn; rewrite app_nil_r; reflexivity|]. cbn [merge]. inversion N as [|? ? Hn N']; subst.
    rewrite IH; [|exact N'|].
    - rewrite filter_dset by (intros E I; rewrite (Hd k I (or_introl eq_refl)) in E; discriminate). cbn [filter fst]. rewrite <- app_assoc. destruct (P k); reflexivity.
    - intros k' I1 I2. apply dkeys_dset_iff in I1. destruct I1 as [->|I1]; [contradiction|]. apply Hd; [exact I1|right; exact I2].
  Qed.
  Lemma merge_keys (a b : list (string * pobj)) k : In k (dkeys (merge a b)) <-> In k (dkeys a) \/ In k (dkeys b).
  Proof.
    revert a. induction b as [|[k' v] b IH]; intros a; cbn [merge]; [cbn; split; [auto|intros [?|[]]; auto]|]. rewrite IH, dkeys_dset_iff. cbn. split; [intros [[->|?]|?]|intros [?|[->|?]]]; auto.
  Qed.
  Lemma existsb_same {A} (f : A -> bool) l l' : (forall a, f a = true -> (In a l <-> In a l')) -> existsb f l = existsb f l'.
  Proof.
    intros S. apply eq_true_iff_eq. rewrite !existsb_exists. split; intros (a & I & E); exists a; split; auto; apply (S a E); exact I.
  Qed.

  (** A function as Python makes them. *)
  Definition code_ok (c : code) : Prop := NoDup (co_params c ++ co_kwonly c).
  Definition kwdefaults_ok (c : code) (kd : list (string * pobj)) : Prop := NoDup (dkeys kd) /\ incl (dkeys kd) (co_kwonly c).

  (** Giving the defaults of keyword-only parameters as arguments. *)
  Lemma bind_kwdefaults c (defaults : list pobj) kd kd0 args kwargs : code_ok c -> kwdefaults_ok c kd -> NoDup (dkeys kwargs) ->
    (forall k, In k (co_kwonly c) -> dget k kd = None -> dget k kd0 = None) ->
    bind_args c defaults kd0 args (merge kd kwargs) = bind_args c defaults kd args kwargs.
  Proof.
    intros Hc [Nd Hi] Nk H0. unfold bind_args.
    assert (Disj : forall k, In k (co_kwonly c) -> ~ In k (co_params c)) by (intros k I1 I2; exact (NoDup_app_disj (co_params c) (co_kwonly c) k Hc I2 I1)).
    destruct ((length (co_params c) <? length args) && negb (co_varargs c)); [reflexivity|].
    match goal with |- (if existsb ?f _ then _ else _) = _ => rewrite (existsb_same f (dkeys (merge kd kwargs)) (dkeys kwargs)) end.
    2: { intros k E. rewrite merge_keys. split; [intros [I|I]; [|exact I]|auto]. exfalso. apply Hi in I. apply orb_true_iff in E. destruct E as [E|E].
         - apply mem_true in E. apply (Disj k I). rewrite <- (firstn_skipn (length args) (co_params c)). apply in_or_app. left. exact E.
         - apply mem_true in I. rewrite I, orb_true_r in E. discriminate. }
    destruct (existsb _ (dkeys kwargs)); [reflexivity|].
    match goal with |- bind ?a _ = bind ?b _ => assert (Ea : a = b) end.
    { apply mapM_ext. intros [i p] I. cbn [fst snd]. destruct (nth_error args i); [reflexivity|]. rewrite merge_dget by exact Nk. destruct (dget p kwargs); [reflexivity|].
      assert (Hp : dget p kd = None); [|rewrite Hp; reflexivity]. apply dget_None_keys. intros Ik. apply Hi in Ik. apply (Disj p Ik). apply in_combine_r in I. exact I. }
    rewrite Ea. match goal with |- bind ?a _ = _ => destruct a as [ps|]; cbn [bind]; [|reflexivity] end.
    match goal with |- bind ?a _ = bind ?b _ => assert (Eb : a = b) end.
    { apply mapM_ext. intros k I. rewrite merge_dget by exact Nk. destruct (dget k kwargs); [reflexivity|]. destruct (dget k kd) eqn:E; [reflexivity|]. rewrite (H0 k I E). reflexivity. }
    rewrite Eb. match goal with |- bind ?a _ = _ => destruct a as [ks|]; cbn [bind]; [|reflexivity] end. do 2 f_equal.
    set (P := fun k : string => negb (mem k (co_params c) || mem k (co_kwonly c))). change (filter (fun kv => P (fst kv)) (merge kd kwargs) = filter (fun kv => P (fst kv)) kwargs).
    rewrite merge_filter; [|exact Nk|].
    - assert (Hn : filter (fun kv => P (fst kv)) kd = []); [|rewrite Hn; reflexivity]. clear - Hi. subst P. induction kd as [|[k v] kd IH]; [reflexivity|]. cbn [filter fst].
      assert (Ik : mem k (co_kwonly c) = true) by (apply mem_true, Hi; left; reflexivity). rewrite Ik, orb_true_r. cbn [negb]. apply IH. intros x I. apply Hi. right. exact I.
    - intros k I _. subst P. cbn beta. assert (Ik : mem k (co_kwonly c) = true) by (apply mem_true, Hi; exact I). rewrite Ik, orb_true_r. reflexivity.
  Qed.
End Spec.
