(** C100: the choices of a copy of an expression. *)
From Verif Require Import Base L_dict M_traverse L_traverse M_expr L_expr1 L_expr3 L_expr5 M_clone L_clone M_grid M_choicegraph L_choicegraph L_choicegraph2 L_conflicts.
From Coq Require Import Relations.Relation_Operators Relations.Operators_Properties.
Open Scope string_scope.
Open Scope list_scope.
Open Scope nat_scope.

(** ** Traversals of similar graphs *)
Section Big.
  Context {S : Type}.
  Variable handler : oid -> gen unit S.
  (** What running a generator does, without bound nor path. *)
  Inductive big : gen unit S -> S -> S -> outcome unit -> Prop :=
  | big_ret v s : big (GRet v) s s (TOk v)
  | big_raise e s : big (GRaise e) s s (TErr e)
  | big_get k s s1 r : big (k s) s s1 r -> big (GGet k) s s1 r
  | big_put s0 g s s1 r : big g s0 s1 r -> big (GPut s0 g) s s1 r
  | big_yield t k s s1 v s2 r : big (handler t) s s1 (TOk v) -> big (k v) s1 s2 r -> big (GYield t k) s s2 r
  | big_yield_err t k s s1 e : big (handler t) s s1 (TErr e) -> big (GYield t k) s s1 (TErr e).

  Lemma big_det : forall g s s1 r, big g s s1 r -> forall s2 r2, big g s s2 r2 -> s1 = s2 /\ r = r2.
  Proof.
    intros g s s1 r B. induction B as [v s|e s|k s s1 r B IH|s0 g s s1 r B IH|t k s s1 v s2 r B1 IH1 B2 IH2|t k s s1 e B IH]; intros z w B'; inversion B'; subst; auto.
    - match goal with X : big (handler t) s _ (TOk _) |- _ => destruct (IH1 _ _ X) as [<- E]; injection E as <- end. apply IH2. assumption.
    - match goal with X : big (handler t) s _ (TErr _) |- _ => destruct (IH1 _ _ X) as [_ E]; discriminate end.
    - match goal with X : big (handler t) s _ (TOk _) |- _ => destruct (IH _ _ X) as [_ E]; discriminate end.
  Qed.
  Lemma visit_big : forall d path o s s1 r, visit handler d path o s = (s1, r) -> (exists v, r = TOk v) \/ (exists e, r = TErr e) -> big (handler o) s s1 r.
  Proof.
    induction d as [|d IH]; intros path o s s1 r E R; [cbn in E; injection E as <- <-; destruct R as [[? X]|[? X]]; discriminate|]. cbn [visit] in E.
    assert (G : forall g s, run_gen (visit handler d (o :: path)) (o :: path) g s = (s1, r) -> big g s s1 r).
    { clear E s. intros g. induction g as [v|e|t k IHk|k IHk|s0 g IHg]; intros s E; cbn [run_gen] in E.
      - injection E as <- <-. constructor.
      - injection E as <- <-. constructor.
      - destruct (mem t (o :: path)); [injection E as <- <-; destruct R as [[? X]|[? X]]; discriminate|]. destruct (visit handler d (o :: path) t s) as [s0 [v|e|t'|]] eqn:Ev.
        + eapply big_yield; [eapply IH; [exact Ev|left; eauto]|]. apply IHk. exact E.
        + injection E as <- <-. apply big_yield_err. eapply IH; [exact Ev|right; eauto].
        + injection E as <- <-. destruct R as [[? X]|[? X]]; discriminate.
        + injection E as <- <-. destruct R as [[? X]|[? X]]; discriminate.
      - constructor. apply IHk. exact E.
      - constructor. apply IHg. exact E. }
    apply G. exact E.
  Qed.
  Lemma big_yield_all : forall items k s, (forall t s, In t items -> big (handler t) s s (TOk tt)) -> forall s1 r, big (k (map (fun _ => tt) items)) s s1 r -> big (yield_all items k) s s1 r.
  Proof.
    induction items as [|t items IH]; intros k s A s1 r B; cbn [yield_all map] in *; [exact B|].
    eapply big_yield; [apply A; left; reflexivity|]. apply IH; [intros; apply A; right; assumption|exact B].
  Qed.
End Big.

Section Simulation.
  Context {S' S : Type}.
  Variable handler' : oid -> gen unit S'.
  Variable handler : oid -> gen unit S.
  Variable RS : S' -> S -> Prop.
  Variable Rn : oid -> oid -> Prop.
  Inductive gsim : gen unit S' -> gen unit S -> Prop :=
  | sim_ret v : gsim (GRet v) (GRet v)
  | sim_raise e : gsim (GRaise e) (GRaise e)
  | sim_get k' k : (forall s' s, RS s' s -> gsim (k' s') (k s)) -> gsim (GGet k') (GGet k)
  | sim_put s' s g' g : RS s' s -> gsim g' g -> gsim (GPut s' g') (GPut s g)
  | sim_yield t' t k' k : Rn t' t -> (forall v, gsim (k' v) (k v)) -> gsim (GYield t' k') (GYield t k)
  | sim_extra g' t k : (forall s, big handler (handler t) s s (TOk tt)) -> gsim g' (k tt) -> gsim g' (GYield t k).
  Hypothesis H : forall n o, Rn n o -> gsim (handler' n) (handler o).
  Lemma simulation : forall g' s' s1' r, big handler' g' s' s1' r -> forall g, gsim g' g -> forall s, RS s' s -> exists s1, big handler g s s1 r /\ RS s1' s1.
  Proof using H.
    intros g' s' s1' r B. induction B as [v s'|e s'|k' s' s1' r B IH|s0' g' s' s1' r B IH|t' k' s' s1' v s2' r B1 IH1 B2 IH2|t' k' s' s1' e B IH]; intros g G.
    - remember (GRet v) as q eqn:Eq. induction G as [w|e|k' k|s0' s0 g' g|t' t k' k|g' t k N G IHG]; try discriminate; intros s R.
      + injection Eq as ->. exists s. split; [constructor|exact R].
      + destruct (IHG Eq s R) as (s1 & B & R1). exists s1. split; [eapply big_yield; [apply N|exact B]|exact R1].
    - remember (GRaise e) as q eqn:Eq. induction G as [w|e'|k' k|s0' s0 g' g|t' t k' k|g' t k N G IHG]; try discriminate; intros s R.
      + injection Eq as ->. exists s. split; [constructor|exact R].
      + destruct (IHG Eq s R) as (s1 & B & R1). exists s1. split; [eapply big_yield; [apply N|exact B]|exact R1].
    - remember (GGet k') as q eqn:Eq. induction G as [w|e'|k'' k X _|s0' s0 g' g|t' t k'' k|g' t k N G IHG]; try discriminate; intros s R.
      + injection Eq as ->. destruct (IH (k s) (X s' s R) s R) as (s1 & B1 & R1). exists s1. split; [constructor; exact B1|exact R1].
      + destruct (IHG Eq s R) as (s1 & B1 & R1). exists s1. split; [eapply big_yield; [apply N|exact B1]|exact R1].
    - remember (GPut s0' g') as q eqn:Eq. induction G as [w|e'|k'' k|t0' t0 q' q R0 G _|t' t k'' k|q' t k N G IHG]; try discriminate; intros s R.
      + injection Eq as -> ->. destruct (IH q G t0 R0) as (s1 & B1 & R1). exists s1. split; [constructor; exact B1|exact R1].
      + destruct (IHG Eq s R) as (s1 & B1 & R1). exists s1. split; [eapply big_yield; [apply N|exact B1]|exact R1].
    - remember (GYield t' k') as q eqn:Eq. induction G as [w|e'|k'' k|t0' t0 q' q R0 G _|u' u k'' k Ru X _|q' t k N G IHG]; try discriminate; intros s R.
      + injection Eq as -> ->. destruct (IH1 _ (H _ _ Ru) s R) as (s1 & Ba & Ra). destruct (IH2 _ (X v) s1 Ra) as (s2 & Bb & Rb). exists s2. split; [eapply big_yield; eassumption|exact Rb].
      + destruct (IHG Eq s R) as (s1 & Ba & Ra). exists s1. split; [eapply big_yield; [apply N|exact Ba]|exact Ra].
    - remember (GYield t' k') as q eqn:Eq. induction G as [w|e'|k'' k|t0' t0 q' q R0 G _|u' u k'' k Ru X _|q' t k N G IHG]; try discriminate; intros s R.
      + injection Eq as -> ->. destruct (IH _ (H _ _ Ru) s R) as (s1 & Ba & Ra). exists s1. split; [apply big_yield_err; exact Ba|exact Ra].
      + destruct (IHG Eq s R) as (s1 & Ba & Ra). exists s1. split; [eapply big_yield; [apply N|exact Ba]|exact Ra].
  Qed.
  Lemma sim_yield_all : forall l' l k' k, Forall2 Rn l' l -> (forall vs, gsim (k' vs) (k vs)) -> gsim (yield_all l' k') (yield_all l k).
  Proof using Type.
    intros l' l k' k F. revert k' k. induction F as [|t' t l' l R F IH]; intros k' k X; cbn [yield_all]; [apply X|]. apply sim_yield; [exact R|]. intros v. apply IH. intros vs. apply X.
  Qed.
End Simulation.

Section Ends.
  Context {V K S : Type} `{EqD K}.
  Variables (h : heap V K) (size : nat) (hd : oid -> gen unit S).
  Hypothesis Hedges : forall o, gen_all (fun t => clos_trans oid (child h) o t) (hd o).
    Lemma ends o s : closed h size -> o < size -> (forall x, part_of h o x -> ~ on_cycle h x) -> (exists s1 v, visit hd size [] o s = (s1, TOk v)) \/ exists s1 e, visit hd size [] o s = (s1, TErr e).
    Proof.
      intros Hclosed L A. destruct (visit hd size [] o s) as [s1 [v|e|x|]] eqn:E; eauto; exfalso.
      - apply (visit_circ hd (fun a b => clos_trans oid (child h) a b) Hedges) in E. destruct E as [C P]. apply (A x); [|apply (ct_cycle h)].
        + clear - P. apply clos_rt1n_rt in P. apply rt_part. apply clos_rt_rt1n. induction P as [a b P|a|a b c P1 IH1 P2 IH2]; [|apply rt_refl|eapply rt_trans; eassumption]. induction P as [a b P|a b c P1 IH1 P2 IH2]; [apply rt_step; exact P|eapply rt_trans; eassumption].
        + clear - C. revert C. generalize x at 2 4. intros y C. induction C as [a b C|a b c C1 IH1 C2 IH2]; [exact C|eapply t_trans; eassumption].
      - pose proof (visit_no_fuel_heap hd size o s) as N. rewrite E in N. apply N; [|exact L|reflexivity]. intros a La. apply in_seq in La. eapply gen_all_impl; [|apply Hedges].
        intros t Ht. apply in_seq. split; [lia|]. cbn. apply (closed_part h size a t Hclosed); [lia|]. apply ct_part. exact Ht.
    Qed.
End Ends.

(** ** The copy of an expression *)
Section CopyOf.
  Context {V K : Type} `{EqD K}.
  Notation heap := (heap V K).
  (** In memory [h'], [root'] is a copy of [root] in memory [h]; [f] gives the object of which
      each object is the copy. Expressions and choices are copied once. *)
  Record copy_of (copy : V -> res V) (drop : bool) (h : heap) (root : oid) (h' : heap) (size' : nat) (root' : oid) (f : oid -> oid) : Prop := {
    co_closed : closed h' size';
    co_root_lt : root' < size';
    co_root : f root' = root;
    co_part : forall n, part_of h' root' n -> part_of h root (f n);
    co_like : forall n, part_of h' root' n -> obj_like copy drop (fun n' o' => f n' = o') (h' n) (h (f n));
    co_sharing : forall n m, part_of h' root' n -> part_of h' root' m -> f n = f m -> is_node h (f n) -> n = m;
    co_acyclic : acyclic h' root'
  }.
  Lemma clone_copy copy drop (h : heap) size root h' size' root' f : is_clone copy drop h size root h' size' root' f -> copy_of copy drop h root h' size' root' f.
  Proof. intros []. split; assumption. Qed.
End CopyOf.

Section Copy.
  Context {V K : Type} `{EqD K}.
  Notation heap := (heap V K).
  Variable copy : V -> res V.
  Variable drop : bool.
  Variables (h h' : heap) (size size' : nat) (root root' : oid) (f : oid -> oid).
  Hypothesis Hclone : copy_of copy drop h root h' size' root' f.
  Hypothesis Hclosed : closed h size.
  Hypothesis Hroot : root < size.
  Hypothesis Hacyclic : acyclic h root.
  (** of the objects of the two memories *)
  Variables hash_obj hash_obj' : oid -> res K.
  (** a copy has the hash of the original, and is equal to it *)
  Definition same_hash : Prop := forall n, part_of h' root' n -> hash_obj' n = hash_obj (f n).
  Hypothesis Hhash : same_hash.
  (** values given for variables contain no expression and no choice *)
  Definition plain_values : Prop := drop = true -> forall o v name isX isY x,
    part_of h root o -> h o = OExpr (IVar (Some v)) name isX isY -> part_of h v x ->
    match h x with OMap _ _ | OSeq _ _ | OSlice _ _ _ | OEstimator _ _ | OValue _ => True | _ => False end.
  Hypothesis Hvalues : plain_values.

  Definition Rn (n o : oid) : Prop := part_of h' root' n /\ f n = o.
  Definition Ch (c : oid) : Prop := part_of h' root' c /\ match h' c with OChoice _ _ _ | ONumChoice _ _ _ => True | _ => False end.
  Definition key_of (k : ckey) : ckey := match k with None => None | Some (c, i) => Some (f c, i) end.
  Definition Kok (k : ckey) : Prop := match k with None => True | Some (c, _) => Ch c end.
  Definition kids_of (d : dict ckey (list oid)) : dict ckey (list oid) := map (fun kl => (key_of (fst kl), map f (snd kl))) d.
  Record RS (s' s : cg_st) : Prop := {
    rs_choices : cs_choices s = map f (cs_choices s');
    rs_children : cs_children s = kids_of (cs_children s');
    rs_current : cs_current s = map key_of (cs_current s');
    rs_ok1 : Forall Ch (cs_choices s');
    rs_ok2 : Forall (fun kl => Kok (fst kl) /\ Forall Ch (snd kl)) (cs_children s');
    rs_ok3 : Forall Kok (cs_current s')
  }.
  Lemma like n : part_of h' root' n -> obj_like copy drop (fun n' o' => f n' = o') (h' n) (h (f n)).
  Proof using Hclone. clear - Hclone. apply (co_like _ _ _ _ _ _ _ _ Hclone). Qed.
  Lemma part_down n t : part_of h' root' n -> In t (children (h' n)) -> part_of h' root' t.
  Proof using Type. clear. intros P I. eapply reach_trans; [exact P|]. apply part_child. exact I. Qed.
  Lemma ch_inj a b : Ch a -> Ch b -> f a = f b -> a = b.
  Proof using Hclone. clear - Hclone.
    intros [Pa A] [Pb _] E. apply (co_sharing _ _ _ _ _ _ _ _ Hclone a b Pa Pb E). unfold is_node. pose proof (like a Pa) as L. inversion L; subst; try exact Logic.I; match goal with X : _ = h' a |- _ => rewrite <- X in A; destruct A end.
  Qed.
  Lemma key_inj a b : Kok a -> Kok b -> key_of a = key_of b -> a = b.
  Proof using Hclone. clear - Hclone.
    destruct a as [[a i]|], b as [[b j]|]; cbn; intros A B E; try discriminate; [|reflexivity]. injection E as E ->. rewrite (ch_inj a b A B E). reflexivity.
  Qed.
  Lemma mem_map_f c l : Ch c -> Forall Ch l -> mem (f c) (map f l) = mem c l.
  Proof using Hclone. clear - Hclone.
    intros C A. destruct (mem c l) eqn:E; [apply mem_true in E; apply mem_true; apply in_map; exact E|]. apply mem_false in E. apply mem_false. intros I. apply in_map_iff in I. destruct I as (x & E1 & I). apply E. rewrite Forall_forall in A. rewrite <- (ch_inj x c (A x I) C E1). exact I.
  Qed.
  Lemma dget_kids k d : Kok k -> Forall (fun kl => Kok (fst kl) /\ Forall Ch (snd kl)) d -> dget (key_of k) (kids_of d) = match dget k d with Some l => Some (map f l) | None => None end.
  Proof using Hclone. clear - Hclone.
    intros C A. induction A as [|[q l] d [Q _] A IH]; [reflexivity|]. cbn [kids_of map fst snd dget] in *. destruct (eqd (key_of k) (key_of q)) as [E|E], (eqd k q) as [E'|E']; try reflexivity.
    - exfalso. apply E'. apply key_inj; assumption.
    - exfalso. apply E. congruence.
    - exact IH.
  Qed.
  Lemma dset_kids k l d : Kok k -> Forall (fun kl => Kok (fst kl) /\ Forall Ch (snd kl)) d -> dset (key_of k) (map f l) (kids_of d) = kids_of (dset k l d).
  Proof using Hclone. clear - Hclone.
    intros C A. induction A as [|[q m] d [Q _] A IH]; [reflexivity|]. cbn [kids_of map fst snd dset] in *. destruct (eqd (key_of k) (key_of q)) as [E|E], (eqd k q) as [E'|E']; cbn [map fst snd].
    - subst. reflexivity.
    - exfalso. apply E'. apply key_inj; assumption.
    - exfalso. apply E. congruence.
    - f_equal. exact IH.
  Qed.
  Lemma dset_forall (P : ckey * list oid -> Prop) k l d : P (k, l) -> Forall P d -> (forall q m, P (q, m) -> q = k -> True) -> Forall P (dset k l d).
  Proof using Type. clear.
    intros X A _. induction A as [|[q m] d Q A IH]; cbn; [constructor; [exact X|constructor]|]. destruct (eqd k q) as [->|]; constructor; assumption.
  Qed.
  Lemma dget_forall k (d : dict ckey (list oid)) l : Forall (fun kl => Kok (fst kl) /\ Forall Ch (snd kl)) d -> dget k d = Some l -> Forall Ch l.
  Proof using Type. clear.
    intros A. induction A as [|[q m] d [_ M] A IH]; cbn; [discriminate|]. destruct (eqd k q); [intros X; injection X as <-; exact M|exact IH].
  Qed.

  Lemma rs_note c s' s : Ch c -> RS s' s -> RS (note_child c s') (note_child (f c) s).
  Proof using Hclone. clear - Hclone.
    intros C [A1 A2 A3 B1 B2 B3]. unfold note_child. rewrite A3. destruct (cs_current s') as [|k cur] eqn:Ek; cbn [map]; [split; auto; rewrite ?Ek; auto|]. inversion B3 as [|? ? Kk B3']; subst.
    rewrite A2, (dget_kids k _ Kk B2). set (l := match dget k (cs_children s') with Some l => l ++ [c] | None => [c] end).
    assert (El : match match dget k (cs_children s') with Some l0 => Some (map f l0) | None => None end with Some l0 => l0 ++ [f c] | None => [f c] end = map f l) by (unfold l; destruct (dget k (cs_children s')); [rewrite map_app|]; reflexivity).
    rewrite El, (dset_kids k l _ Kk B2). split; cbn [cs_choices cs_children cs_current]; auto.
    apply dset_forall; auto. split; [exact Kk|]. unfold l. cbn. destruct (dget k (cs_children s')) as [l0|] eqn:E0; [apply Forall_app; split; [exact (dget_forall k _ l0 B2 E0)|]|]; repeat constructor; apply C.
  Qed.
  Lemma rs_register c s' s : Ch c -> RS s' s -> RS (register c s') (register (f c) s).
  Proof using Hclone. clear - Hclone.
    intros C [A1 A2 A3 B1 B2 B3]. unfold register. rewrite A1, (mem_map_f c _ C B1). destruct (mem c (cs_choices s')); split; cbn [cs_choices cs_children cs_current]; auto.
    - rewrite map_app. reflexivity.
    - apply Forall_app. split; [exact B1|]. repeat constructor; apply C.
  Qed.
  Lemma rs_push c i s' s : Ch c -> RS s' s -> RS (push (Some (c, i)) s') (push (Some (f c, i)) s).
  Proof using Type. clear.
    intros C [A1 A2 A3 B1 B2 B3]. split; cbn; auto. rewrite A3; reflexivity.
  Qed.
  Lemma rs_pop s' s : RS s' s -> RS (pop s') (pop s).
  Proof using Type. clear.
    intros [A1 A2 A3 B1 B2 B3]. split; cbn; auto; [rewrite A3; destruct (cs_current s'); reflexivity|]. destruct B3; [constructor|assumption].
  Qed.

  Notation handler' := (cg_handler hash_obj' h').
  Notation handler := (cg_handler hash_obj h).
  Notation sim := (gsim handler RS Rn).
  Lemma sim_modify g' g k' k : (forall s' s, RS s' s -> RS (g' s') (g s)) -> sim k' k -> sim (gmodify g' k') (gmodify g k).
  Proof using Type. clear. intros A B. unfold gmodify. apply sim_get. intros s' s R. apply sim_put; [apply A; exact R|exact B]. Qed.
  (** results of looking up outcomes *)
  Inductive rlike : res oid -> res oid -> Prop :=
  | rl_ok t' t : Rn t' t -> rlike (Ok t') (Ok t)
  | rl_err e : rlike (Err e) (Err e).
  Lemma sim_each c : Ch c -> forall l' l, Forall2 rlike l' l -> forall idx k' k, sim k' k -> sim (each_outcome c idx l' k') (each_outcome (f c) idx l k).
  Proof using Type. clear.
    intros C l' l F. induction F as [|r' r l' l R F IH]; intros idx k' k X; cbn [each_outcome]; [exact X|]. apply sim_modify; [intros s' s; apply rs_push; exact C|].
    destruct R as [t' t R|e]; [|apply sim_raise]. apply sim_yield; [exact R|]. intros _. apply sim_modify; [intros; apply rs_pop; assumption|]. apply IH. exact X.
  Qed.
  Lemma rn_list n : part_of h' root' n -> forall l' l, Forall2 (fun n' o' => f n' = o') l' l -> incl l' (children (h' n)) -> Forall2 Rn l' l.
  Proof using Type. clear.
    intros P l' l F. induction F as [|a b l' l E F IH]; intros I; constructor; [split; [apply (part_down n a P); apply I; left; reflexivity|exact E]|]. apply IH. intros x X. apply I. right. exact X.
  Qed.
  (** the outcomes of a choice *)
  Lemma like_outcomes c : part_of h' root' c -> match outcomes_of h' c, outcomes_of h (f c) with Ok l', Ok l => Forall2 Rn l' l /\ Ch c | Err e, Err e' => e = e' | _, _ => False end.
  Proof using Hclone. clear - Hclone.
    intros P. pose proof (like c P) as L. unfold outcomes_of. inversion L as [| | | |name n o ch E E1 E2| | | |]; try reflexivity.
    assert (Po : part_of h' root' n) by (apply (part_down c n P); rewrite <- E1; left; reflexivity).
    pose proof (like n Po) as Lo. rewrite E in Lo. inversion Lo as [| |ty b' b F E3 E4| | | | | |]; try reflexivity.
    split; [apply (rn_list n Po); [exact F|]; rewrite <- E3; apply incl_refl|]. split; [exact P|]. rewrite <- E1. exact Logic.I.
  Qed.
  Lemma map_get k : forall l' l : list (K * oid), Forall2 (fun n o => fst n = fst o /\ f (snd n) = snd o) l' l -> match dget k l', dget k l with Some t', Some t => f t' = t /\ In t' (map snd l') | None, None => True | _, _ => False end.
  Proof using Type. clear.
    intros l' l F. induction F as [|[q t'] [q2 t] l' l [E1 E2] F IH]; [exact Logic.I|]. cbn [fst snd dget map] in *. subst q2. destruct (eqd k q); [split; [exact E2|left; reflexivity]|].
    destruct (dget k l'), (dget k l); auto. split; [apply IH|right; apply IH].
  Qed.
  Lemma like_mapped m w : part_of h' root' m -> part_of h' root' w -> rlike (mapped hash_obj' h' m w) (mapped hash_obj h (f m) (f w)).
  Proof using Hclone Hhash. clear - Hclone Hhash.
    intros P W. unfold mapped. rewrite (Hhash w W). destruct (hash_obj (f w)) as [key|e]; cbn [bind]; [|constructor].
    pose proof (like m P) as L. inversion L as [|ty b' b F E1 E2| | | | | | |]; try constructor.
    pose proof (map_get key b' b F) as G. destruct (dget key b') as [t'|] eqn:E3, (dget key b) as [t|] eqn:E4; try contradiction; constructor.
    split; [|apply G]. apply (part_down m t' P). rewrite <- E1. apply G.
  Qed.
  Lemma rl_mapped m l' l : part_of h' root' m -> Forall2 Rn l' l -> Forall2 rlike (map (mapped hash_obj' h' m) l') (map (mapped hash_obj h (f m)) l).
  Proof using Hclone Hhash. clear - Hclone Hhash.
    intros P F. induction F as [|w' w l' l [W <-] F IH]; cbn; constructor; [|exact IH]. apply like_mapped; assumption.
  Qed.
  Lemma rl_ok_list l' l : Forall2 Rn l' l -> Forall2 rlike (map Ok l') (map Ok l).
  Proof using Type. clear. intros F. induction F as [|w' w l' l R F IH]; cbn; constructor; [|exact IH]. constructor. exact R. Qed.

  (** *** Values that are not kept *)
  Definition plain_at (x : oid) : Prop := match h x with OMap _ _ | OSeq _ _ | OSlice _ _ _ | OEstimator _ _ | OValue _ => True | _ => False end.
  Section Neutral.
    Context {S : Type}.
    Variable hd : oid -> gen unit S.
    Hypothesis Hplain : forall x, plain_at x -> hd x = yield_all (children (h x)) (fun _ => GRet tt).
    Hypothesis Hedges : forall o, gen_all (fun t => clos_trans oid (child h) o t) (hd o).
    Definition quiet (s : S) (p : S * outcome unit) : Prop := match snd p with TOk tt => fst p = s | TErr _ => False | _ => True end.
    Lemma neutral_visit : forall d path v s, (forall x, part_of h v x -> plain_at x) -> quiet s (visit hd d path v s).
    Proof using Hplain. clear - Hplain.
      induction d as [|d IH]; intros path v s A; [exact Logic.I|]. cbn [visit]. rewrite Hplain; [|apply A; apply reach_refl].
      assert (G : forall l, incl l (children (h v)) -> forall k s0, (forall vs, quiet s0 (run_gen (visit hd d (v :: path)) (v :: path) (k vs) s0)) -> quiet s0 (run_gen (visit hd d (v :: path)) (v :: path) (yield_all l k) s0)).
      { induction l as [|t l IHl]; intros I k s0 Q; cbn [yield_all]; [apply Q|]. cbn [run_gen]. destruct (mem t (v :: path)); [exact Logic.I|].
        pose proof (IH (v :: path) t s0) as Qt. unfold quiet in Qt at 1.
        assert (At : forall x, part_of h t x -> plain_at x) by (intros x X; apply A; eapply reach_trans; [apply part_child; apply I; left; reflexivity|exact X]).
        specialize (Qt At). destruct (visit hd d (v :: path) t s0) as [s1 [[]|e|x|]]; cbn [fst snd] in Qt; [subst s1|contradiction|exact Logic.I|exact Logic.I].
        apply IHl; [intros x X; apply I; right; exact X|]. intros vs. apply Q. }
      apply G; [apply incl_refl|]. intros vs. reflexivity.
    Qed.
    Lemma neutral v : part_of h root v -> (forall x, part_of h v x -> plain_at x) -> forall s, big hd (hd v) s s (TOk tt).
    Proof using Hplain Hedges Hclosed Hroot Hacyclic. clear - Hplain Hedges Hclosed Hroot Hacyclic.
      intros P A s. pose proof (neutral_visit size [] v s A) as Q. destruct (ends h size hd Hedges v s) as [(s1 & [] & E)|(s1 & e & E)].
      - exact Hclosed.
      - eapply closed_part; eauto.
      - intros x X. apply Hacyclic. eapply reach_trans; eauto.
      - rewrite E in Q. cbn in Q. subst s1. apply (visit_big hd _ _ _ _ _ _ E). left. eauto.
      - rewrite E in Q. destruct Q.
    Qed.
    (** the objects of similar nodes *)
    Context {S' : Type}.
    Variable RS0 : S' -> S -> Prop.
    Lemma sim_children n k' k : part_of h' root' n -> (forall vs' vs, gsim hd RS0 Rn (k' vs') (k vs)) -> gsim hd RS0 Rn (yield_all (children (h' n)) k') (yield_all (children (h (f n))) k).
    Proof using Hclone Hclosed Hroot Hacyclic Hvalues Hplain Hedges. clear - Hclone Hclosed Hroot Hacyclic Hvalues Hplain Hedges.
      intros P X.
      assert (Same : Forall2 (fun n' o' => f n' = o') (children (h' n)) (children (h (f n))) -> gsim hd RS0 Rn (yield_all (children (h' n)) k') (yield_all (children (h (f n))) k)).
      { intros F. apply sim_yield_all; [|auto]. apply (rn_list n P _ _ F). apply incl_refl. }
      assert (Fields : forall A (fs' fs : list (A * oid)), Forall2 (fun n o => fst n = fst o /\ f (snd n) = snd o) fs' fs -> Forall2 (fun n' o' => f n' = o') (map snd fs') (map snd fs)).
      { intros A fs' fs F. induction F as [|a b fs' fs [_ E] F IH]; constructor; assumption. }
      pose proof (like n P) as L. inversion L as [i' i name isX isY I E1 E2|ty b' b F E1 E2|ty b' b F E1 E2|n1 n2 n3 o1 o2 o3 R1 R2 R3 E1 E2|name m o ch R1 E1 E2|name df ch E1 E2|n1 n2 o1 o2 R1 R2 E1 E2|cls m o R1 E1 E2|v v' Ev E1 E2].
      2-9: rewrite <- E1, <- E2 in Same; cbn [children] in *; apply Same; auto; try (repeat constructor; assumption); try (apply Fields; exact F).
      destruct I as [|m o D R1|o D|m o R1|n1 n2 n3 o1 o2 o3 R1 R2 R3|n1 n2 o1 o2 R1 R2|n1 n2 n3 o1 o2 o3 R1 R2 R3|m o R1|n1 n2 n3 n4 n5 n6 o1 o2 o3 o4 o5 o6 u R1 R2 R3 R4 R5 R6|m o R1|n1 n2 o1 o2 R1 R2|op fs fs' F].
      3:{ cbn [children fields map yield_all snd]. apply sim_extra; [|apply X]. pose proof (co_part _ _ _ _ _ _ _ _ Hclone n P) as Pf.
          apply neutral; [eapply reach_trans; [exact Pf|]; apply part_child; rewrite <- E2; left; reflexivity|]. intros x Hx. apply (Hvalues D (f n) o name isX isY x Pf (eq_sym E2) Hx). }
      all: rewrite <- E1, <- E2 in Same; cbn [children fields map snd] in *; apply Same; try (repeat constructor; assumption). apply Fields. exact F.
    Qed.
  End Neutral.

  Lemma cg_plain x : plain_at x -> handler x = yield_all (children (h x)) (fun _ => GRet tt).
  Proof using Type. clear. unfold plain_at, cg_handler. destruct (h x); try contradiction; reflexivity. Qed.
  Lemma cg_edges o : gen_all (fun t => clos_trans oid (child h) o t) (handler o).
  Proof using Type. clear. eapply gen_all_impl; [|apply cg_handler_edges]. intros t. apply cedge_child. Qed.
  Lemma cg_sim n o : Rn n o -> sim (handler' n) (handler o).
  Proof using Hclone Hclosed Hroot Hacyclic Hhash Hvalues. clear - Hclone Hclosed Hroot Hacyclic Hhash Hvalues.
    intros [P <-]. pose proof (like n P) as L. pose proof (sim_children handler cg_plain cg_edges RS n (fun _ => GRet tt) (fun _ => GRet tt) P) as SC.
    pose proof (like_outcomes n P) as LO. unfold cg_handler.
    inversion L as [i' i name isX isY I E1 E2|ty b' b F E1 E2|ty b' b F E1 E2|n1 n2 n3 o1 o2 o3 R1 R2 R3 E1 E2|name m o ch R1 E1 E2|name df ch E1 E2|n1 n2 o1 o2 R1 R2 E1 E2|cls m o R1 E1 E2|v v' Ev E1 E2].
    1-4,8-9: rewrite E1, E2; apply SC; intros; constructor.
    - assert (C : Ch n) by (split; [exact P|rewrite <- E1; exact Logic.I]). apply sim_modify; [intros; apply rs_note; assumption|].
      destruct (outcomes_of h' n) as [l'|e], (outcomes_of h (f n)) as [l|e']; try contradiction; [|subst e'; constructor].
      apply sim_each; [exact C|apply rl_ok_list; apply LO|]. apply sim_modify; [intros; apply rs_register; assumption|constructor].
    - assert (C : Ch n) by (split; [exact P|rewrite <- E1; exact Logic.I]). apply sim_modify; [intros; apply rs_note; assumption|]. apply sim_modify; [intros; apply rs_register; assumption|constructor].
    - assert (P1 : part_of h' root' n1) by (apply (part_down n n1 P); rewrite <- E1; left; reflexivity). assert (P2 : part_of h' root' n2) by (apply (part_down n n2 P); rewrite <- E1; right; left; reflexivity).
      apply sim_yield; [split; assumption|]. intros _. pose proof (like_outcomes n1 P1) as LO1. rewrite R1 in LO1. destruct (outcomes_of h' n1) as [l'|e], (outcomes_of h o1) as [l|e']; try contradiction; [|subst e'; constructor].
      rewrite <- R1, <- R2. apply sim_each; [apply LO1|apply rl_mapped; [exact P2|apply LO1]|constructor].
  Qed.

  (** *** Marked nodes *)
  Section Find.
    Variable pred : obj V K -> bool.
    Hypothesis Hpred : forall n, part_of h' root' n -> pred (h' n) = pred (h (f n)).
    Definition RO (s' s : option oid) : Prop := match s', s with Some n, Some o => Rn n o | None, None => True | _, _ => False end.
    Lemma find_plain x : plain_at x -> find_handler h pred x = yield_all (children (h x)) (fun _ => GRet tt).
    Proof using Type. clear. unfold plain_at, find_handler. destruct (h x); try contradiction; reflexivity. Qed.
    Lemma find_edges (hh : heap) o : gen_all (fun t => clos_trans oid (child hh) o t) (find_handler hh pred o).
    Proof using Type. clear. eapply gen_all_impl; [|apply find_handler_edges]. intros t T. apply t_step. exact T. Qed.
    Lemma find_sim n o : Rn n o -> gsim (find_handler h pred) RO Rn (find_handler h' pred n) (find_handler h pred o).
    Proof using Hclone Hclosed Hroot Hacyclic Hvalues Hpred. clear - Hclone Hclosed Hroot Hacyclic Hvalues Hpred.
      intros [P <-]. pose proof (like n P) as L. pose proof (sim_children (find_handler h pred) find_plain (find_edges h) RO n (fun _ => GRet tt) (fun _ => GRet tt) P (fun _ _ => sim_ret _ _ _ _)) as SC.
      pose proof (Hpred n P) as E. unfold find_handler at 2 3. rewrite E. destruct (pred (h (f n))).
      - destruct L; try exact SC; apply sim_put; try constructor; try exact P; reflexivity.
      - destruct L; exact SC.
    Qed.
    Lemma clone_find : find_node h pred size root = match find_node h' pred size' root' with Ok o => Ok (option_map f o) | Err e => Err e end /\
      (forall n, find_node h' pred size' root' = Ok (Some n) -> part_of h' root' n).
    Proof using Hclone Hclosed Hroot Hacyclic Hvalues Hpred. clear - Hclone Hclosed Hroot Hacyclic Hvalues Hpred.
      assert (R0 : Rn root' root) by (split; [apply reach_refl|apply (co_root _ _ _ _ _ _ _ _ Hclone)]).
      assert (E' : exists s1 r, visit (find_handler h' pred) size' [] root' None = (s1, r) /\ ((exists v, r = TOk v) \/ exists e, r = TErr e)).
      { destruct (ends h' size' _ (find_edges h') root' None) as [(s1 & v & E)|(s1 & e & E)]; try rewrite E; eauto 7; [apply (co_closed _ _ _ _ _ _ _ _ Hclone)|apply (co_root_lt _ _ _ _ _ _ _ _ Hclone)|apply (co_acyclic _ _ _ _ _ _ _ _ Hclone)]. }
      assert (E : exists s1 r, visit (find_handler h pred) size [] root None = (s1, r) /\ ((exists v, r = TOk v) \/ exists e, r = TErr e)).
      { destruct (ends h size _ (find_edges h) root None Hclosed Hroot Hacyclic) as [(s1 & v & E)|(s1 & e & E)]; rewrite E; eauto 7. }
      destruct E' as (s1' & r' & E' & C'), E as (s1 & r & E & C).
      pose proof (visit_big _ _ _ _ _ _ _ E' C') as B'. pose proof (visit_big _ _ _ _ _ _ _ E C) as B.
      destruct (simulation _ _ RO Rn find_sim _ _ _ _ B' _ (find_sim _ _ R0) None Logic.I) as (s2 & B2 & R2).
      destruct (big_det _ _ _ _ _ B _ _ B2) as [-> ->]. unfold find_node. rewrite E, E'. destruct s1' as [n|], s2 as [o|]; try contradiction.
      - destruct R2 as [P <-]. destruct r' as [v|x| |]; try (split; [reflexivity|discriminate]). destruct x as [ | | | | | | | | | | | | | |u]; try (split; [reflexivity|discriminate]). destruct u as [|[|u]]; try (split; [reflexivity|discriminate]). split; [reflexivity|]. intros q Eq. injection Eq as <-. exact P.
      - destruct r' as [v|[]| |]; try (split; [reflexivity|discriminate]).
    Qed.
  End Find.

  (** *** The graph of choices *)
  Lemma index_map c l : Ch c -> Forall Ch l -> index_of (f c) (map f l) = index_of c l.
  Proof using Hclone. clear - Hclone.
    intros C A. induction A as [|x l X A IH]; [reflexivity|]. cbn [index_of map]. destruct (eqd (f c) (f x)) as [E|E], (eqd c x) as [E2|E2]; try reflexivity.
    - exfalso. apply E2. apply ch_inj; assumption.
    - exfalso. apply E. congruence.
    - rewrite IH. reflexivity.
  Qed.
  Lemma unique_ok l : Forall Ch l -> Forall Ch (unique l).
  Proof using Type. clear. intros A. rewrite Forall_forall in *. intros x X. apply A. apply unique_in. exact X. Qed.
  Lemma unique_map l : Forall Ch l -> unique (map f l) = map f (unique l).
  Proof using Hclone. clear - Hclone.
    intros A. induction A as [|x l X A IH]; [reflexivity|]. cbn [unique map]. f_equal. rewrite IH. clear IH. pose proof (unique_ok l A) as U. induction U as [|y m Y U IHm]; [reflexivity|]. cbn [map filter].
    assert (Q : eqb_of (f y) (f x) = eqb_of y x).
    { unfold eqb_of. destruct (eqd (f y) (f x)) as [E|E], (eqd y x) as [E2|E2]; try reflexivity; exfalso; [apply E2; apply ch_inj; assumption|apply E; congruence]. }
    rewrite Q. destruct (negb (eqb_of y x)); cbn [map]; rewrite IHm; reflexivity.
  Qed.
  Lemma mapM_map {A B C} (g : B -> res C) (k : A -> B) l : mapM g (map k l) = mapM (fun a => g (k a)) l.
  Proof using Type. clear. induction l as [|a l IH]; [reflexivity|]. cbn [mapM map]. rewrite IH. reflexivity. Qed.
  Lemma mapM_same {A C} (g1 g2 : A -> res C) l : (forall a, In a l -> g1 a = g2 a) -> mapM g1 l = mapM g2 l.
  Proof using Type. clear. induction l as [|a l IH]; intros X; [reflexivity|]. cbn [mapM]. rewrite (X a (or_introl eq_refl)), IH; [reflexivity|]. intros; apply X; right; assumption. Qed.
  Lemma kind_like c : part_of h' root' c -> choice_kind h' c = choice_kind h (f c).
  Proof using Hclone. clear - Hclone.
    intros P. pose proof (like c P) as L. pose proof (like_outcomes c P) as LO. unfold choice_kind. destruct L; try reflexivity.
    destruct (outcomes_of h' c) as [l'|e], (outcomes_of h (f c)) as [l|e']; try contradiction; [|subst; reflexivity]. destruct LO as [F _]. cbn [bind]. rewrite (Forall2_len _ _ _ F). reflexivity.
  Qed.
  Lemma rs_init : RS cg_init cg_init.
  Proof using Type. clear. split; cbn; repeat constructor. Qed.
  Lemma part_bound n : part_of h' root' n -> n < size'.
  Proof using Hclone. clear - Hclone. intros P. apply (closed_part h' size' root' n); [apply (co_closed _ _ _ _ _ _ _ _ Hclone)|apply (co_root_lt _ _ _ _ _ _ _ _ Hclone)|exact P]. Qed.
  Lemma clone_run n : part_of h' root' n -> run_choice_graph hash_obj h size (f n) = (let! (short, g) := run_choice_graph hash_obj' h' size' n in Ok (map f short, g)) /\
    (forall short g, run_choice_graph hash_obj' h' size' n = Ok (short, g) -> Forall Ch short).
  Proof using Hclone Hclosed Hroot Hacyclic Hhash Hvalues. clear - Hclone Hclosed Hroot Hacyclic Hhash Hvalues.
    intros P. assert (R0 : Rn n (f n)) by (split; [exact P|reflexivity]). pose proof (co_part _ _ _ _ _ _ _ _ Hclone n P) as Pf.
    assert (Ed' : forall o, gen_all (fun t => clos_trans oid (child h') o t) (handler' o)) by (intros o; eapply gen_all_impl; [|apply cg_handler_edges]; intros t; apply cedge_child).
    assert (E' : exists s1 r, visit handler' size' [] n cg_init = (s1, r) /\ ((exists v, r = TOk v) \/ exists e, r = TErr e)).
    { destruct (ends h' size' _ Ed' n cg_init) as [(s1 & v & E)|(s1 & e & E)]; try rewrite E; eauto 7; [apply (co_closed _ _ _ _ _ _ _ _ Hclone)|apply part_bound; exact P|]. intros x X. apply (co_acyclic _ _ _ _ _ _ _ _ Hclone). eapply reach_trans; eauto. }
    assert (E : exists s1 r, visit handler size [] (f n) cg_init = (s1, r) /\ ((exists v, r = TOk v) \/ exists e, r = TErr e)).
    { destruct (ends h size _ cg_edges (f n) cg_init Hclosed) as [(s1 & v & E)|(s1 & e & E)]; try rewrite E; eauto 7; [eapply closed_part; eauto|]. intros x X. apply Hacyclic. eapply reach_trans; eauto. }
    destruct E' as (s1' & r' & E' & C'), E as (s1 & r & E & C).
    pose proof (visit_big _ _ _ _ _ _ _ E' C') as B'. pose proof (visit_big _ _ _ _ _ _ _ E C) as B.
    destruct (simulation _ _ RS Rn cg_sim _ _ _ _ B' _ (cg_sim _ _ R0) cg_init rs_init) as (s2 & B2 & [Q1 Q2 Q3 W1 W2 W3]).
    destruct (big_det _ _ _ _ _ B _ _ B2) as [-> ->]. unfold run_choice_graph. rewrite E, E'. destruct (to_res r') as [[]|e]; cbn [bind]; [|split; [reflexivity|discriminate]].
    rewrite Q1, Q2, mapM_map. rewrite <- (mapM_same (choice_kind h') (fun a => choice_kind h (f a)) (cs_choices s1')).
    2:{ intros a Ia. apply kind_like. rewrite Forall_forall in W1. apply (W1 a Ia). }
    destruct (mapM (choice_kind h') (cs_choices s1')) as [kinds|e]; cbn [bind]; [|split; [reflexivity|discriminate]].
    unfold kids_of. rewrite mapM_map. cbn [fst snd].
    match goal with |- (let! ch := mapM ?g1 _ in _) = (let! _ := (let! ch2 := mapM ?g2 _ in _) in _) /\ _ => rewrite (mapM_same g1 g2 (cs_children s1')) end.
    - destruct (mapM _ (cs_children s1')) as [ch|e]; cbn [bind]; [|split; [reflexivity|discriminate]]. split; [reflexivity|]. intros short g X. injection X as <- _. exact W1.
    - intros [k l] Ikl. cbn [fst snd]. rewrite Forall_forall in W2. destruct (W2 _ Ikl) as [Kk Fl]. cbn [fst snd] in Kk, Fl.
      assert (Ek : short_key (map f (cs_choices s1')) (key_of k) = short_key (cs_choices s1') k) by (destruct k as [[c i]|]; cbn [short_key key_of]; [rewrite (index_map c _ Kk W1)|]; reflexivity).
      rewrite Ek. destruct (short_key (cs_choices s1') k); cbn [bind]; [|reflexivity]. rewrite (unique_map l Fl), mapM_map.
      rewrite (mapM_same (fun a => index_of (f a) (map f (cs_choices s1'))) (fun c => index_of c (cs_choices s1'))); [reflexivity|]. intros c Ic. apply index_map; [|exact W1]. pose proof (unique_ok l Fl) as U. rewrite Forall_forall in U. apply U. exact Ic.
  Qed.
  Lemma clone_choices_of short node : Forall Ch short -> (forall n, node = Some n -> part_of h' root' n) ->
    choices_of_node hash_obj h size (map f short) (option_map f node) = choices_of_node hash_obj' h' size' short node.
  Proof using Hclone Hclosed Hroot Hacyclic Hhash Hvalues. clear - Hclone Hclosed Hroot Hacyclic Hhash Hvalues.
    intros S P. destruct node as [n|]; [|reflexivity]. cbn [option_map choices_of_node]. destruct (clone_run n (P n eq_refl)) as [-> U]. destruct (run_choice_graph hash_obj' h' size' n) as [[used g]|e]; cbn [bind]; [|reflexivity].
    specialize (U used g eq_refl). rewrite mapM_map. apply mapM_same. intros c Ic. apply index_map; [|exact S]. rewrite Forall_forall in U. apply U. exact Ic.
  Qed.
  Theorem clone_choice_graph : choice_graph hash_obj h size root = (let! (short, g) := choice_graph hash_obj' h' size' root' in Ok (map f short, g)).
  Proof using Hclone Hclosed Hroot Hacyclic Hhash Hvalues. clear - Hclone Hclosed Hroot Hacyclic Hhash Hvalues.
    unfold choice_graph. destruct (clone_run root' (reach_refl _ _ _)) as [E U]. rewrite (co_root _ _ _ _ _ _ _ _ Hclone) in E. rewrite E. destruct (run_choice_graph hash_obj' h' size' root') as [[short [kinds ch]]|e]; cbn [bind]; [|reflexivity]. specialize (U short _ eq_refl).
    assert (PX : forall n, part_of h' root' n -> marked_X (h' n) = marked_X (h (f n))) by (intros n P; destruct (like n P); reflexivity).
    assert (PY : forall n, part_of h' root' n -> marked_y (h' n) = marked_y (h (f n))) by (intros n P; destruct (like n P); reflexivity).
    unfold find_X, find_y. destruct (clone_find marked_X PX) as [-> FX]. destruct (clone_find marked_y PY) as [-> FY].
    destruct (find_node h' marked_X size' root') as [x|e]; cbn [bind]; [|reflexivity]. destruct (find_node h' marked_y size' root') as [y|e]; cbn [bind]; [|reflexivity].
    rewrite (clone_choices_of short x U), (clone_choices_of short y U); [|intros n ->; apply FY; reflexivity|intros n ->; apply FX; reflexivity].
    destruct (choices_of_node hash_obj' h' size' short x); cbn [bind]; [|reflexivity]. destruct (choices_of_node hash_obj' h' size' short y); reflexivity.
  Qed.
End Copy.
