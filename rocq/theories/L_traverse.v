(** The stack machine of the traversal computes what the recursive function computes,
    and always stops on finite object graphs, cyclic or not. *)
From Verif Require Import Base M_traverse.

Section L.
  Context {V St : Type}.
  Notation gen := (gen V St).
  Notation outcome := (outcome V).
  Variable handler : oid -> gen.

  Definition obind {A B} (x : St * M_traverse.outcome A)
    (f : A -> St -> St * M_traverse.outcome B) : St * M_traverse.outcome B :=
    match x with
    | (s, TOk a) => f a s
    | (s, TErr e) => (s, TErr e)
    | (s, TCirc t) => (s, TCirc t)
    | (s, TFuel) => (s, TFuel)
    end.

  Definition vchk (vc : oid -> St -> St * outcome) (path : list oid) (t : oid) (s : St)
    : St * outcome := if mem t path then (s, TCirc t) else vc t s.

  Fixpoint visit_all (vc : oid -> St -> St * outcome) (path : list oid) (items : list oid)
    (s : St) : St * M_traverse.outcome (list V) :=
    match items with
    | [] => (s, TOk [])
    | t :: items' =>
        obind (vchk vc path t s) (fun v s1 =>
          obind (visit_all vc path items' s1) (fun vs s2 => (s2, TOk (v :: vs))))
    end.

  Lemma run_gen_yield vc path t k s :
    run_gen vc path (GYield t k) s = obind (vchk vc path t s) (fun v s1 => run_gen vc path (k v) s1).
  Proof.
    simpl. unfold vchk. destruct (mem t path); [reflexivity|].
    destruct (vc t s) as [s' [v|e|t'|]]; reflexivity.
  Qed.

  Lemma obind_assoc {A B C} (x : St * M_traverse.outcome A)
    (f : A -> St -> St * M_traverse.outcome B) (g : B -> St -> St * M_traverse.outcome C) :
    obind (obind x f) g = obind x (fun a s => obind (f a s) g).
  Proof. destruct x as [s [a|e|t|]]; reflexivity. Qed.

  Lemma obind_ext {A B} (x : St * M_traverse.outcome A)
    (f g : A -> St -> St * M_traverse.outcome B) :
    (forall a s, f a s = g a s) -> obind x f = obind x g.
  Proof. intros E. destruct x as [s [a|e|t|]]; simpl; auto. Qed.

  Lemma obind_ok {A B} (x : St * M_traverse.outcome A)
    (f : A -> St -> St * M_traverse.outcome B) s' b :
    obind x f = (s', TOk b) -> exists a s1, x = (s1, TOk a) /\ f a s1 = (s', TOk b).
  Proof.
    destruct x as [s1 [a|e|t|]]; simpl; intros E; try discriminate.
    exists a, s1. split; [reflexivity|exact E].
  Qed.

  Lemma run_gen_yield_all vc path : forall items k s,
    run_gen vc path (yield_all items k) s
    = obind (visit_all vc path items s) (fun vs s1 => run_gen vc path (k vs) s1).
  Proof.
    induction items as [|t items IH]; intros k s; [reflexivity|].
    cbn [yield_all visit_all]. rewrite run_gen_yield, !obind_assoc.
    apply obind_ext. intros v s1. rewrite IH, obind_assoc. reflexivity.
  Qed.

  (** All objects yielded by a generator, whatever it receives, satisfy [P]. *)
  Fixpoint gen_all (P : oid -> Prop) (g : gen) : Prop :=
    match g with
    | GRet _ | GRaise _ => True
    | GYield t k => P t /\ forall v, gen_all P (k v)
    | GGet k => forall s, gen_all P (k s)
    | GPut _ g' => gen_all P g'
    end.

  Lemma gen_all_yield_all (P : oid -> Prop) : forall items k,
    (forall t, In t items -> P t) -> (forall vs, gen_all P (k vs)) ->
    gen_all P (yield_all items k).
  Proof.
    induction items as [|t items IH]; intros k Hi Hk; simpl; [apply Hk|].
    split; [apply Hi; left; reflexivity|]. intros v. apply IH.
    - intros t' Ht'. apply Hi. right. exact Ht'.
    - intros vs. apply Hk.
  Qed.

  Lemma gen_all_impl (P Q : oid -> Prop) : (forall t, P t -> Q t) ->
    forall g, gen_all P g -> gen_all Q g.
  Proof.
    intros HPQ. induction g; simpl; auto.
    intros [Ht Hk]. split; auto.
  Qed.

  Lemma gen_all_of P (r : res V) : gen_all P (gen_of r).
  Proof. destruct r; exact I. Qed.

  (** ** No visit runs out of depth *)
  Section Depth.
    Variable dom : list oid.
    Hypothesis Hclosed : forall o, In o dom -> gen_all (fun t => In t dom) (handler o).

    Lemma run_gen_no_fuel vc path (Hvc : forall t s, In t dom -> ~ In t path -> snd (vc t s) <> TFuel) :
      forall g s, gen_all (fun t => In t dom) g -> snd (run_gen vc path g s) <> TFuel.
    Proof.
      induction g; intros s0 Hg.
      - simpl. discriminate.
      - simpl. discriminate.
      - destruct Hg as [Ht Hk]. rewrite run_gen_yield. unfold vchk.
        destruct (mem t path) eqn:Em; [simpl; discriminate|].
        apply mem_false in Em. pose proof (Hvc t s0 Ht Em) as Hv.
        destruct (vc t s0) as [s' [v|e|t'|]]; simpl in *; try discriminate.
        + apply H. apply Hk.
        + congruence.
      - simpl. apply H. apply Hg.
      - simpl. apply IHg. exact Hg.
    Qed.

    Lemma visit_no_fuel : forall depth path o s,
      NoDup path -> incl path dom -> In o dom -> ~ In o path ->
      length dom < depth + length path + 1 ->
      snd (visit handler depth path o s) <> TFuel.
    Proof.
      induction depth as [|d IH]; intros path o s Hnd Hincl Ho Hno Hlen.
      - exfalso. assert (length (o :: path) <= length dom).
        { apply NoDup_incl_length.
          - constructor; assumption.
          - intros x [<-|Hx]; auto. }
        simpl in *. lia.
      - simpl. apply run_gen_no_fuel.
        + intros t s0 Ht Hnt. apply IH; auto.
          * constructor; assumption.
          * intros x [<-|Hx]; auto.
          * simpl. lia.
        + apply Hclosed. exact Ho.
    Qed.
  End Depth.

  (** ** The stack machine *)
  Lemma steps_add n : forall m (x : machine V St), steps handler (n + m) x = steps handler m (steps handler n x).
  Proof. induction n as [|n IH]; intros m x; simpl; [reflexivity|apply IH]. Qed.

  Lemma steps_finished n s r : steps handler n (Finished s r) = (Finished s r : machine V St).
  Proof. induction n; simpl; auto. Qed.

  (** What the machine reaches from the moment an object is on top of the stack. *)
  Definition reaches (m : machine V St) (rest : list (item V St)) (x : St * outcome) : Prop :=
    match x with
    | (s', TOk v) => exists n, steps handler n m = Running rest (Some v) s'
    | (s', TFuel) => True
    | (s', r) => exists n, steps handler n m = Finished s' r
    end.

  Lemma reaches_steps k m rest x :
    reaches (steps handler k m) rest x -> reaches m rest x.
  Proof.
    destruct x as [s' [v|e|t|]]; simpl; auto; intros [n Hn]; exists (k + n);
      rewrite steps_add; exact Hn.
  Qed.

  Lemma run_gen_reaches d (rest : list (item V St)) o
    (IH : forall path t s rest', path = targets rest' ->
          reaches (Running (IObj t :: rest') None s) rest' (visit handler d path t s)) :
    forall g s last resume,
      (resume last = g) ->
      reaches (Running (IComp o resume :: rest) last s) rest
        (run_gen (visit handler d (o :: targets rest)) (o :: targets rest) g s).
  Proof.
    enough (Hgen : forall (g : gen) s s0 last resume,
      send (resume last) s0 = send g s ->
      reaches (Running (IComp o resume :: rest) last s0) rest
        (run_gen (visit handler d (o :: targets rest)) (o :: targets rest) g s)).
    { intros g s last resume E. apply Hgen. rewrite E. reflexivity. }
    induction g as [v|e|t k IHk|k IHk|s' g IHg]; intros s s0 last resume E; simpl in E.
    - simpl. exists 1. simpl. rewrite E. reflexivity.
    - simpl. exists 1. simpl. rewrite E. reflexivity.
    - rewrite run_gen_yield. unfold vchk.
      destruct (mem t (o :: targets rest)) eqn:Em.
      + cbn [obind]. cbn [reaches]. exists 1. cbn [steps step]. rewrite E, Em. reflexivity.
      + pose proof (IH (o :: targets rest) t s (IComp o (resume_with k) :: rest) eq_refl) as Ht.
        assert (Estep : steps handler 1 (Running (IComp o resume :: rest) last s0)
                        = Running (IObj t :: IComp o (resume_with k) :: rest) None s).
        { cbn [steps step]. rewrite E, Em. reflexivity. }
        destruct (visit handler d (o :: targets rest) t s) as [s1 [v|e|t'|]] eqn:Ev.
        * cbn [obind]. destruct Ht as [n Hn].
          apply (reaches_steps 1). rewrite Estep.
          apply (reaches_steps n). rewrite Hn. apply IHk. reflexivity.
        * simpl. destruct Ht as [n Hn]. exists (1 + n). rewrite steps_add, Estep. exact Hn.
        * simpl. destruct Ht as [n Hn]. exists (1 + n). rewrite steps_add, Estep. exact Hn.
        * exact I.
    - cbn [run_gen]. apply IHk. exact E.
    - cbn [run_gen]. apply IHg. exact E.
  Qed.

  Lemma visit_reaches : forall d path t s rest, path = targets rest ->
    reaches (Running (IObj t :: rest) None s) rest (visit handler d path t s).
  Proof.
    induction d as [|d IH]; intros path t s rest ->; [exact I|].
    cbn [visit]. apply (reaches_steps 1). cbn [steps step].
    apply run_gen_reaches; [exact IH|reflexivity].
  Qed.

  Theorem machine_visit dom o s :
    (forall o, In o dom -> gen_all (fun t => In t dom) (handler o)) -> In o dom ->
    let r := visit handler (length dom) [] o s in
    snd r <> TFuel /\
    exists n, forall m, n <= m -> steps handler m (start o s) = Finished (fst r) (snd r).
  Proof.
    intros Hc Ho. cbn zeta.
    assert (Hf : snd (visit handler (length dom) [] o s) <> TFuel).
    { apply (visit_no_fuel dom Hc); auto.
      - constructor.
      - intros x [].
      - simpl. lia. }
    split; [exact Hf|].
    pose proof (visit_reaches (length dom) [] o s [] eq_refl) as Hr. unfold start.
    assert (Hfin : exists n, steps handler n (Running [IObj o] None s)
                    = Finished (fst (visit handler (length dom) [] o s)) (snd (visit handler (length dom) [] o s))).
    { destruct (visit handler (length dom) [] o s) as [s' [v|e|t|]]; simpl in *.
      - destruct Hr as [n Hn]. exists (n + 1). rewrite steps_add, Hn. reflexivity.
      - exact Hr.
      - exact Hr.
      - congruence. }
    destruct Hfin as [n Hn]. exists n. intros m Hm.
    replace m with (n + (m - n)) by lia. rewrite steps_add, Hn. apply steps_finished.
  Qed.
End L.
