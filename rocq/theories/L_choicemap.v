(** What choices are as keyword arguments, as sequences, and after [map_values]. *)
From Coq Require Import List ZArith Bool NArith Lia.
From Verif Require Import Base L_dict M_labels M_match M_choicemap.
Import ListNotations.
Open Scope list_scope.
Open Scope nat_scope.

(** ** Specification *)

Definition dunder : text := [95%N; 95%N].

(** [k] is what follows the last ["__"] of [t], or [t] if it has none. *)
Definition LastPart (t k : text) : Prop :=
  (exists p, t = p ++ dunder ++ k /\ forall p' k', t = p' ++ dunder ++ k' -> length k <= length k') \/
  (t = k /\ forall p' k', t <> p' ++ dunder ++ k').

Section Spec.
  Context {V : Type}.

  (** The argument is given for the parameter [k] and is [i]. *)
  Definition Given (a : argument V) (k : text) (i : item V) : Prop :=
    match a with
    | Named t v => k = t /\ i = Value v
    | Unpacked c => i = Self c /\ exists t, choice_name c = Some t /\ LastPart t k
    end.
  Definition Nameless (a : argument V) : Prop :=
    match a with Named _ _ => False | Unpacked c => choice_name c = None end.
End Spec.

(** ** The last part of a name *)

Lemma after_last_none t : after_last t = None <-> forall p k, t <> p ++ dunder ++ k.
Proof.
  induction t as [|c t IH]; simpl.
  - split; auto. intros _ p k Heq. destruct p; discriminate.
  - destruct (after_last t) as [r|] eqn:E.
    + split; [discriminate|]. intros Hno. exfalso.
      assert (Hn : forall p k, t <> p ++ dunder ++ k).
      { intros p k Heq. apply (Hno (c :: p) k). simpl. now f_equal. }
      apply IH in Hn. discriminate.
    + assert (Hn : forall p k, t <> p ++ dunder ++ k) by now apply IH.
      destruct t as [|c' r].
      * split; auto. intros _ p k Heq. destruct p as [|x p]; [discriminate|].
        injection Heq as -> Heq. destruct p; discriminate.
      * destruct (N.eqb c uscore && N.eqb c' uscore)%bool eqn:B.
        -- split; [discriminate|]. intros Hno. exfalso.
           apply andb_true_iff in B. destruct B as [B1 B2].
           apply N.eqb_eq in B1, B2. subst. apply (Hno [] r). reflexivity.
        -- split; auto. intros _ p k Heq. destruct p as [|x p].
           ++ simpl in Heq. injection Heq as -> -> ->. rewrite !N.eqb_refl in B. discriminate.
           ++ injection Heq as -> Heq. now apply (Hn p k).
Qed.

Lemma after_last_some t r : after_last t = Some r ->
  exists p, t = p ++ dunder ++ r /\ forall p' k', t = p' ++ dunder ++ k' -> length r <= length k'.
Proof.
  revert r. induction t as [|c t IH]; simpl; [discriminate|]. intros r Hr.
  destruct (after_last t) as [r'|] eqn:E.
  - injection Hr as <-. destruct (IH r' eq_refl) as (p & -> & Hmin).
    exists (c :: p). split; [reflexivity|]. intros p' k' Heq. destruct p' as [|x p'].
    + simpl in Heq. injection Heq as _ Heq. apply (f_equal (@length N)) in Heq.
      rewrite !app_length in Heq. simpl in Heq. lia.
    + injection Heq as _ Heq. now apply (Hmin p').
  - destruct t as [|c' r']; [discriminate|].
    destruct (N.eqb c uscore && N.eqb c' uscore)%bool eqn:B; [|discriminate]. injection Hr as <-.
    apply andb_true_iff in B. destruct B as [B1 B2]. apply N.eqb_eq in B1, B2. subst.
    exists []. split; [reflexivity|]. intros p' k' Heq. destruct p' as [|x p'].
    + simpl in Heq. injection Heq as ->. lia.
    + injection Heq as _ Heq. exfalso. apply (proj1 (after_last_none _) E p' k' Heq).
Qed.

Lemma last_part_spec t : LastPart t (last_part t).
Proof.
  unfold last_part. destruct (after_last t) as [r|] eqn:E.
  - left. now apply after_last_some.
  - right. split; auto. now apply after_last_none.
Qed.

Lemma LastPart_unique t k1 k2 : LastPart t k1 -> LastPart t k2 -> k1 = k2.
Proof.
  intros [(p1 & H1 & M1) | (-> & N1)] [(p2 & H2 & M2) | (E2 & N2)].
  - assert (L : length k1 = length k2) by (apply PeanoNat.Nat.le_antisymm; eauto).
    rewrite H1 in H2.
    assert (Hs : forall (a b c d : text), a ++ b = c ++ d -> length b = length d -> b = d).
    { induction a as [|x a IH]; intros b c d Heq Hl.
      - destruct c as [|y c]; simpl in *; auto. subst b. simpl in Hl. rewrite app_length in Hl. lia.
      - destruct c as [|y c]; simpl in *.
        + subst d. simpl in Hl. rewrite app_length in Hl. lia.
        + injection Heq as _ Heq. eauto. }
    rewrite !app_assoc in H2. now apply (Hs _ _ _ _ H2).
  - subst. exfalso. now apply (N2 p1 k1).
  - exfalso. now apply (N1 p2 k2).
  - auto.
Qed.

Lemma LastPart_iff t k : LastPart t k <-> k = last_part t.
Proof.
  split; intros E.
  - eapply LastPart_unique; eauto using last_part_spec.
  - subst. apply last_part_spec.
Qed.

(** A parameter whose name has no ["__"] and does not begin with ["_"] can be named with any
    prefix; a name with ["__"] can only be that of a parameter of this kind. *)
Lemma LastPart_prefixed p k : (forall q r, k <> q ++ dunder ++ r) -> (forall r, k <> 95%N :: r) ->
  LastPart (p ++ dunder ++ k) k.
Proof.
  intros Hno Hfirst. left. exists p. split; auto. intros p' k' Heq.
  assert (Hs : forall (a c k k' : text), (forall q r, k <> q ++ dunder ++ r) -> (forall r, k <> 95%N :: r) ->
                a ++ dunder ++ k = c ++ dunder ++ k' -> length k <= length k').
  { clear. induction a as [|x a IH]; intros c k k' Hno Hf Heq.
    - destruct c as [|y c]; [simpl in Heq; injection Heq as ->; lia|].
      destruct c as [|y' c]; [simpl in Heq; injection Heq as _ Heq; exfalso; now apply (Hf k')|].
      simpl in Heq. injection Heq as _ _ Heq. exfalso. now apply (Hno c k').
    - destruct c as [|y c].
      + simpl in Heq. injection Heq as _ Heq. apply (f_equal (@length N)) in Heq.
        rewrite app_length in Heq. simpl in Heq. lia.
      + simpl in Heq. injection Heq as _ Heq. now apply (IH c). }
  eapply Hs; eauto.
Qed.

Lemma LastPart_plain k : (forall q r, k <> q ++ dunder ++ r) -> LastPart k k.
Proof. intros Hno. right. auto. Qed.

Lemma LastPart_no_dunder t k : LastPart t k -> forall q r, k <> q ++ dunder ++ r.
Proof.
  intros [(p & -> & M) | (-> & No)] q r Heq.
  - subst k. specialize (M (p ++ dunder ++ q) r). rewrite !app_length in M. simpl in M.
    assert (length q + S (S (length r)) <= length r).
    { apply M. now rewrite <- !app_assoc. }
    lia.
  - now apply (No q r).
Qed.

Section Proofs.
  Context {V : Type}.
  Notation choice := (choice V).

  Lemma keys_spec (c : choice) :
    match keys c with
    | Ok ks => exists t k, choice_name c = Some t /\ LastPart t k /\ ks = [k]
    | Err e => e = AttributeError /\ choice_name c = None
    end.
  Proof.
    unfold keys. destruct (choice_name c) as [t|]; auto.
    exists t, (last_part t). auto using last_part_spec.
  Qed.

  Lemma getitem_str (c : choice) s :
    match getitem c (KStr s) with
    | Ok i => i = Self c /\ exists t, choice_name c = Some t /\ LastPart t s
    | Err e => (e = AttributeError /\ choice_name c = None) \/
               (e = KeyError /\ exists t k, choice_name c = Some t /\ LastPart t k /\ s <> k)
    end.
  Proof.
    unfold getitem, keys. destruct (choice_name c) as [t|]; simpl; auto.
    destruct (eqb_of s (last_part t)) eqn:E.
    - apply eqb_of_eq in E. subst. split; auto. exists t. auto using last_part_spec.
    - right. split; auto. exists t, (last_part t). repeat split; auto using last_part_spec.
      intros ->. rewrite eqb_of_refl in E. discriminate.
  Qed.

  Lemma pairs_of_spec (a : argument V) :
    match pairs_of a with
    | Ok ps => exists k i, ps = [(k, i)] /\ Given a k i
    | Err e => e = AttributeError /\ Nameless a
    end.
  Proof.
    destruct a as [c|t v]; [|simpl; eauto].
    cbn [pairs_of Nameless]. unfold unpack. pose proof (keys_spec c) as K. destruct (keys c) as [ks|e] eqn:E; cbn [bind]; auto.
    destruct K as (t & k & Hn & L & ->). cbn [mapM].
    pose proof (getitem_str c k) as G. destruct (getitem c (KStr k)) as [i|e]; cbn [bind].
    - destruct G as (-> & _). exists k, (Self c). split; [reflexivity|]. simpl. eauto.
    - exfalso. destruct G as [[_ G]|(_ & t' & k' & Hn' & L' & Hne)]; [congruence|].
      apply Hne. rewrite Hn in Hn'. injection Hn' as <-. eapply LastPart_unique; eauto.
  Qed.

  Lemma Given_unique (a : argument V) k1 i1 k2 i2 : Given a k1 i1 -> Given a k2 i2 -> k1 = k2 /\ i1 = i2.
  Proof.
    destruct a as [c|t v]; simpl.
    - intros (-> & t1 & H1 & L1) (-> & t2 & H2 & L2). split; auto. rewrite H1 in H2.
      injection H2 as <-. eapply LastPart_unique; eauto.
    - intros [-> ->] [-> ->]. auto.
  Qed.

  Lemma dset_new {A B : Type} `{EqD A} (k : A) (v : B) d : dget k d = None -> dset k v d = d ++ [(k, v)].
  Proof.
    induction d as [|[k' v'] d IH]; simpl; auto. destruct (eqd k k'); [discriminate|].
    intros E. now rewrite (IH E).
  Qed.

  (** The arguments of a call, from those already collected. *)
  Lemma keyword_arguments_ok l : forall d0 d, NoDup (dkeys d0) ->
    keyword_arguments l d0 = Ok d <->
    exists d', d = d0 ++ d' /\ Forall2 (fun (a : argument V) p => Given a (fst p) (snd p)) l d' /\ NoDup (dkeys d).
  Proof.
    induction l as [|a l IH]; intros d0 d N0; simpl.
    - split.
      + intros E. injection E as <-. exists []. rewrite app_nil_r. auto.
      + intros (d' & -> & F & _). inversion F. now rewrite app_nil_r.
    - pose proof (pairs_of_spec a) as P. destruct (pairs_of a) as [ps|e]; simpl.
      + destruct P as (k & i & -> & G). simpl. destruct (dget k d0) as [x|] eqn:E; simpl.
        * split; [discriminate|]. intros (d' & -> & F & N). exfalso.
          inversion F as [|? [k' i'] ? d'' G' F']; subst. simpl in G'.
          destruct (Given_unique _ _ _ _ _ G G') as [-> ->].
          unfold dkeys in N. rewrite map_app in N. simpl in N. apply NoDup_remove_2 in N.
          apply N. apply in_or_app. left. apply (dget_in_keys d0 k'). eauto.
        * rewrite (dset_new k i d0 E).
          assert (N1 : NoDup (dkeys (d0 ++ [(k, i)]))).
          { rewrite <- (dset_new k i d0 E). now apply dset_NoDup. }
          rewrite (IH _ d N1). split.
          -- intros (d' & -> & F & N). exists ((k, i) :: d'). rewrite <- app_assoc. simpl.
             repeat split; auto. rewrite <- app_assoc in N. exact N.
          -- intros (d' & -> & F & N). inversion F as [|? [k' i'] ? d'' G' F']; subst. simpl in G'.
             destruct (Given_unique _ _ _ _ _ G G') as [-> ->].
             exists d''. rewrite <- app_assoc. auto.
      + split; [discriminate|]. intros (d' & -> & F & _). exfalso.
        inversion F as [|? [k i] ? d'' G F']; subst. simpl in G. destruct P as [_ Pn].
        destruct a as [c|t v]; simpl in *; [|contradiction].
        destruct G as (_ & t & Hc & _). congruence.
  Qed.

  Theorem arguments_spec (l : list (argument V)) d :
    keyword_arguments l [] = Ok d <->
    Forall2 (fun a p => Given a (fst p) (snd p)) l d /\ NoDup (dkeys d).
  Proof.
    rewrite (keyword_arguments_ok l [] d (NoDup_nil _)). split.
    - intros (d' & -> & F & N). auto.
    - intros [F N]. exists d. auto.
  Qed.

  (** What is reported: an argument without name, or the first one that is given again. *)
  Lemma keyword_arguments_err l : forall before d0 e,
    Forall2 (fun (a : argument V) p => Given a (fst p) (snd p)) before d0 -> NoDup (dkeys d0) ->
    keyword_arguments l d0 = Err e ->
    (e = AttributeError /\ exists a, In a l /\ Nameless a) \/
    (e = TypeError /\ exists l1 a l2 b l3 k i j, before ++ l = l1 ++ a :: l2 ++ b :: l3 /\ Given a k i /\ Given b k j).
  Proof.
    induction l as [|b l IH]; intros before d0 e F0 N0 E; simpl in E; [discriminate|].
    pose proof (pairs_of_spec b) as P. destruct (pairs_of b) as [ps|e']; simpl in E.
    - destruct P as (k & i & -> & G). simpl in E. destruct (dget k d0) as [x|] eqn:Ed; simpl in E.
      + injection E as <-. right. split; auto.
        assert (Hin : In (k, x) d0) by (apply dget_In_weak; exact Ed).
        assert (Hs : exists l1 a l2, before = l1 ++ a :: l2 /\ Given a k x).
        { clear - F0 Hin. induction F0 as [|a p bf d Hg F IHF]; [destruct Hin|].
          destruct Hin as [-> | Hin].
          - exists [], a, bf. auto.
          - destruct (IHF Hin) as (l1 & a' & l2 & -> & Hg'). exists (a :: l1), a', l2. auto. }
        destruct Hs as (l1 & a & l2 & -> & Ga). exists l1, a, l2, b, l, k, x, i.
        rewrite <- app_assoc. auto.
      + rewrite (dset_new k i d0 Ed) in E.
        assert (N1 : NoDup (dkeys (d0 ++ [(k, i)]))).
        { rewrite <- (dset_new k i d0 Ed). now apply dset_NoDup. }
        assert (F1 : Forall2 (fun (a : argument V) p => Given a (fst p) (snd p)) (before ++ [b]) (d0 ++ [(k, i)])).
        { apply Forall2_app; auto. }
        destruct (IH (before ++ [b]) _ e F1 N1 E) as [(-> & a & Ha & Hn) | (-> & l1 & a & l2 & b' & l3 & k' & i' & j' & Heq & G1 & G2)].
        * left. split; auto. exists a. simpl. auto.
        * right. split; auto. exists l1, a, l2, b', l3, k', i', j'. split; auto. rewrite <- Heq, <- app_assoc. reflexivity.
    - injection E as <-. destruct P as [-> Pn]. left. split; auto. exists b. simpl. auto.
  Qed.

  Theorem arguments_refused (l : list (argument V)) e : keyword_arguments l [] = Err e ->
    (e = AttributeError /\ exists a, In a l /\ Nameless a) \/
    (e = TypeError /\ exists l1 a l2 b l3 k i j, l = l1 ++ a :: l2 ++ b :: l3 /\ Given a k i /\ Given b k j).
  Proof. apply (keyword_arguments_err l [] [] e (Forall2_nil _) (NoDup_nil _)). Qed.

  (** ** Sequences *)

  Lemma at_index_spec (l : list V) z :
    match at_index l z with
    | Ok v => exists i, nth_error l i = Some v /\ (z = Z.of_nat i \/ z = (Z.of_nat i - Z.of_nat (length l))%Z)
    | Err e => e = IndexError /\ (z < - Z.of_nat (length l) \/ Z.of_nat (length l) <= z)%Z
    end.
  Proof.
    unfold at_index. destruct (z <? 0)%Z eqn:E1.
    - apply Z.ltb_lt in E1. destruct (z + Z.of_nat (length l) <? 0)%Z eqn:E2.
      + apply Z.ltb_lt in E2. split; auto. lia.
      + apply Z.ltb_ge in E2. destruct (nth_error l (Z.to_nat (z + Z.of_nat (length l)))) as [v|] eqn:En.
        * exists (Z.to_nat (z + Z.of_nat (length l))). split; auto. right. lia.
        * apply nth_error_None in En. exfalso. lia.
    - rewrite E1. apply Z.ltb_ge in E1. destruct (nth_error l (Z.to_nat z)) as [v|] eqn:En.
      + exists (Z.to_nat z). split; auto. left. lia.
      + apply nth_error_None in En. split; auto. right. lia.
  Qed.

  Lemma item_at_steps g n ch i :
    item_at (@Steps V g n ch) i = match nth_error g i with Some v => Ok v | None => Err IndexError end.
  Proof.
    unfold item_at, getitem, at_index. destruct (Z.of_nat i <? 0)%Z eqn:E; [apply Z.ltb_lt in E; lia|].
    rewrite E, Nat2Z.id. destruct (nth_error g i); reflexivity.
  Qed.

  Lemma mapM_nth g n ch : forall is_, (forall i, In i is_ -> i < length g) ->
    exists l, mapM (item_at (@Steps V g n ch)) is_ = Ok l /\ Forall2 (fun i v => nth_error g i = Some v) is_ l.
  Proof.
    induction is_ as [|i is_ IH]; intros Hb; simpl; [eauto|].
    rewrite item_at_steps. destruct (nth_error g i) as [v|] eqn:E.
    - destruct IH as (l & -> & F); [intros; apply Hb; simpl; auto|]. simpl. eauto.
    - exfalso. apply nth_error_None in E. specialize (Hb i (or_introl eq_refl)). lia.
  Qed.

  Lemma Forall2_nth_unique (g : list V) is_ l1 l2 :
    Forall2 (fun i v => nth_error g i = Some v) is_ l1 -> Forall2 (fun i v => nth_error g i = Some v) is_ l2 -> l1 = l2.
  Proof.
    intros F1. revert l2. induction F1 as [|i v is_ l1 E F1 IH]; intros l2 F2; inversion F2; subst; auto.
    f_equal; [congruence|auto].
  Qed.

  Lemma seq_nth (g : list V) : forall pre, Forall2 (fun i v => nth_error (pre ++ g) i = Some v) (seq (length pre) (length g)) g.
  Proof.
    induction g as [|v g IH]; intros pre; simpl; constructor.
    - rewrite nth_error_app2 by lia. now rewrite PeanoNat.Nat.sub_diag.
    - specialize (IH (pre ++ [v])). rewrite app_length in IH. simpl in IH.
      rewrite PeanoNat.Nat.add_1_r in IH. rewrite <- app_assoc in IH. exact IH.
  Qed.

  Lemma Forall2_rev {A B} (R : A -> B -> Prop) l1 l2 : Forall2 R l1 l2 -> Forall2 R (rev l1) (rev l2).
  Proof. induction 1; simpl; auto. apply Forall2_app; auto. Qed.

  Lemma reversed_spec g n ch : seq_reversed (@Steps V g n ch) = Ok (rev g).
  Proof.
    unfold seq_reversed. simpl.
    destruct (mapM_nth g n ch (rev (seq 0 (length g)))) as (l & -> & F).
    { intros i Hi. rewrite <- in_rev in Hi. apply in_seq in Hi. lia. }
    f_equal. eapply Forall2_nth_unique; [exact F|]. apply Forall2_rev. apply (seq_nth g []).
  Qed.

  Lemma index_from_spec (eqv : V -> V -> bool) g n ch v : forall fuel i, length g < fuel + i ->
    match index_from eqv (@Steps V g n ch) v fuel i with
    | Ok j => i <= j /\ (exists w, nth_error g j = Some w /\ eqv w v = true) /\
              forall m w, i <= m < j -> nth_error g m = Some w -> eqv w v = false
    | Err e => e = ValueError /\ forall m w, i <= m -> nth_error g m = Some w -> eqv w v = false
    end.
  Proof.
    induction fuel as [|fuel IH]; intros i Hf; simpl.
    - split; auto. intros m w Hm E. assert (m < length g) by (apply nth_error_Some; congruence). lia.
    - rewrite item_at_steps. destruct (nth_error g i) as [w|] eqn:E.
      + destruct (eqv w v) eqn:Eq.
        * split; auto. split; [eauto|]. intros m w' Hm. lia.
        * specialize (IH (S i)). assert (Hf' : length g < fuel + S i) by lia. specialize (IH Hf').
          destruct (index_from eqv (Steps g n ch) v fuel (S i)) as [j|e].
          -- destruct IH as (Hle & Hw & Hb). split; [lia|]. split; auto. intros m w' Hm Em.
             destruct (PeanoNat.Nat.eq_dec m i) as [-> | Hne]; [congruence|]. apply (Hb m w'); auto. lia.
          -- destruct IH as [-> Hb]. split; auto. intros m w' Hm Em.
             destruct (PeanoNat.Nat.eq_dec m i) as [-> | Hne]; [congruence|]. apply (Hb m w'); auto. lia.
      + split; auto. intros m w Hm Em. apply nth_error_None in E.
        assert (m < length g) by (apply nth_error_Some; congruence). lia.
  Qed.

  (** ** Construction and [map_values] *)

  Lemma all_distinct_spec l : all_distinct l = true <-> NoDup l.
  Proof.
    induction l as [|x l IH]; simpl; [split; auto; constructor|].
    rewrite andb_true_iff, negb_true_iff, IH, mem_false. split.
    - intros [H1 H2]. now constructor.
    - intros H. inversion H; auto.
  Qed.

  Lemma is_str_spec l : forallb is_str l = true <-> ~ In POther l.
  Proof.
    rewrite forallb_forall. split.
    - intros H Hin. specialize (H _ Hin). discriminate.
    - intros H [t|] Hin; auto.
  Qed.

  (** Names of outcomes: as many as outcomes, strings, distinct. *)
  Definition NamesOk (outs : list V) (names : option (list pyname)) : Prop :=
    match names with None => True | Some ns => length ns = length outs /\ ~ In POther ns /\ NoDup ns end.

  (** What is wrong with the names, and how it is reported. *)
  Definition BadNames (outs : list V) (names : option (list pyname)) (e : exn) : Prop :=
    exists ns, names = Some ns /\
      (e = ValueError /\ length ns <> length outs \/
       e = TypeError /\ length ns = length outs /\ In POther ns \/
       e = ValueError /\ length ns = length outs /\ ~ In POther ns /\ ~ NoDup ns).

  Lemma post_init_spec cls outs names name idx :
    match @post_init V cls outs names name idx with
    | Ok c => c = Enum cls outs names name idx /\ outs <> [] /\ NamesOk outs names
    | Err e => outs = [] /\ e = ValueError \/ BadNames outs names e
    end.
  Proof.
    unfold post_init, NamesOk. destruct outs as [|o outs]; [auto|].
    destruct names as [ns|]; [|repeat split; auto; discriminate].
    destruct (length ns =? length (o :: outs)) eqn:E1; cbn [negb].
    - apply PeanoNat.Nat.eqb_eq in E1. destruct (forallb is_str ns) eqn:E2; cbn [negb].
      + apply is_str_spec in E2. destruct (all_distinct ns) eqn:E3; cbn [negb].
        * apply all_distinct_spec in E3. repeat split; auto. discriminate.
        * right. exists ns. split; auto. right; right. repeat split; auto. intros N. apply all_distinct_spec in N. congruence.
      + right. exists ns. split; auto. right; left. repeat split; auto.
        destruct (in_dec (@eqd _ EqD_pyname) POther ns) as [Hi|Hn]; auto.
        apply is_str_spec in Hn. congruence.
    - apply PeanoNat.Nat.eqb_neq in E1. right. exists ns. auto.
  Qed.

  (** Choices that can be obtained: built by [choose_from], [optional] or [choose_bool], with an
      index that is that of an outcome. *)
  Definition Sound (c : choice) : Prop :=
    match c with
    | Enum _ outs names _ idx => outs <> [] /\ NamesOk outs names /\ (forall i, idx = Some i -> i < length outs)
    | Range _ _ _ => True
    | Steps g _ _ => g <> []
    end.

  Lemma construct_spec cls outs names name :
    match @construct V cls outs names name with
    | Ok c => exists t, (name = None /\ t = None \/ exists s, name = Some (PStr s) /\ t = Some s) /\
                        c = Enum cls outs names t None /\ Sound c
    | Err e => e = TypeError /\ name = Some POther \/
               outs = [] /\ e = ValueError \/
               BadNames outs names e
    end.
  Proof.
    unfold construct.
    assert (H : forall t, (name = None /\ t = None \/ exists s, name = Some (PStr s) /\ t = Some s) ->
      match @post_init V cls outs names t None with
      | Ok c => exists t, (name = None /\ t = None \/ exists s, name = Some (PStr s) /\ t = Some s) /\
                        c = Enum cls outs names t None /\ Sound c
      | Err e => e = TypeError /\ name = Some POther \/
               outs = [] /\ e = ValueError \/
               BadNames outs names e
      end).
    { intros t Ht. pose proof (post_init_spec cls outs names t None) as P.
      destruct (post_init cls outs names t None) as [c|e]; auto.
      destruct P as (-> & H1 & H2). exists t. split; auto. split; auto. simpl. repeat split; auto. discriminate. }
    destruct name as [[s|]|]; cbn [check_name bind].
    - apply (H (Some s)). right. eauto.
    - auto.
    - apply (H None). auto.
  Qed.

  Theorem choose_from_spec (g : given V) name :
    (forall m, g = GMapping m -> NoDup (map fst m)) ->
    match choose_from g name with
    | Ok c => Sound c /\ exists t, (name = None /\ t = None \/ exists s, name = Some (PStr s) /\ t = Some s) /\
        match g with
        | GList l => c = Enum Plain l None t None
        | GMapping m => c = Enum Plain (map snd m) (Some (map fst m)) t None
        end
    | Err TypeError => name = Some POther \/ exists m v, g = GMapping m /\ In (POther, v) m
    | Err ValueError => g = GList [] \/ g = GMapping []
    | Err _ => False
    end.
  Proof.
    intros Hd. destruct g as [m|l]; simpl.
    - pose proof (construct_spec Plain (map snd m) (Some (map fst m)) name) as C.
      destruct (construct Plain (map snd m) (Some (map fst m)) name) as [c|e].
      + destruct C as (t & Ht & -> & S). split; auto. exists t. auto.
      + destruct C as [[-> ->] | [[E ->] | (ns & Hns & C)]]; auto.
        * right. destruct m; [reflexivity|discriminate].
        * injection Hns as <-. rewrite !map_length in C.
          destruct C as [[-> C] | [(-> & _ & Hin) | (-> & _ & _ & C)]]; [congruence| |exfalso; auto].
          right. apply in_map_iff in Hin. destruct Hin as ([k v] & Hk & Hin). simpl in Hk. subst k. eauto.
    - pose proof (construct_spec Plain l None name) as C.
      destruct (construct Plain l None name) as [c|e].
      + destruct C as (t & Ht & -> & S). split; auto. exists t. auto.
      + destruct C as [[-> ->] | [[-> ->] | (ns & Hns & _)]]; auto. discriminate.
  Qed.

  (** [map_values] gives a choice of the same class, with the same names and the same outcome
      chosen, whose outcomes are the images; it fails only if the function does. *)
  Theorem map_values_spec func cls outs names name idx : Sound (Enum cls outs names name idx) ->
    match map_values func (Enum cls outs names name idx) with
    | Ok c => exists outs', c = Enum cls outs' names name idx /\ Forall2 (fun v w => func v = Ok w) outs outs' /\ Sound c
    | Err e => exists v, In v outs /\ func v = Err e
    end.
  Proof.
    intros (Hne & Hn & Hi). unfold map_values. destruct (mapM func outs) as [outs'|e] eqn:E; simpl.
    - apply mapM_Forall2 in E. pose proof (Forall2_len _ _ _ E) as Hl.
      assert (Hn' : NamesOk outs' names) by (unfold NamesOk in *; destruct names; rewrite <- ?Hl; auto).
      assert (Hne' : outs' <> []) by (destruct outs'; [destruct outs; [congruence|discriminate]|discriminate]).
      pose proof (post_init_spec cls outs' names name idx) as P.
      destruct (post_init cls outs' names name idx) as [c|e].
      + destruct P as (-> & _ & _). exists outs'. repeat split; auto. now rewrite <- Hl.
      + exfalso. destruct P as [[-> _] | (ns & -> & P)]; [congruence|]. simpl in Hn'.
        destruct Hn' as (L & NP & ND). destruct P as [(_ & C)|[(_ & _ & C)|(_ & _ & _ & C)]]; auto.
    - clear - E. revert E. induction outs as [|v outs IH]; simpl; [discriminate|]. destruct (func v) as [w|e'] eqn:Ev; simpl.
      + destruct (mapM func outs) as [ws|e2]; simpl; [discriminate|]. intros E. destruct (IH E) as (x & Hx & Hf). exists x. auto.
      + intros E. injection E as ->. exists v. auto.
  Qed.

  Lemma Forall2_nth_get {A B} (R : A -> B -> Prop) l1 l2 i x : Forall2 R l1 l2 -> nth_error l1 i = Some x -> exists y, nth_error l2 i = Some y /\ R x y.
  Proof.
    intros F. revert i. induction F; intros [|i]; simpl; try discriminate; eauto.
    intros E. injection E as <-. eauto.
  Qed.

  Theorem map_values_values func c c' : Sound c -> map_values func c = Ok c' ->
    (forall v, default c = Ok v -> exists w, func v = Ok w /\ default c' = Ok w) /\
    (forall v, chosen_or_default c = Ok v -> exists w, func v = Ok w /\ chosen_or_default c' = Ok w) /\
    (exists v, default c = Ok v) /\ (exists v, chosen_or_default c = Ok v) /\ choice_name c' = choice_name c.
  Proof.
    intros S E. destruct c as [cls outs names name idx| |]; try discriminate.
    pose proof (map_values_spec func _ _ _ _ _ S) as M. rewrite E in M.
    destruct M as (outs' & -> & F & _). destruct S as (Hne & _ & Hi).
    assert (D : forall i v, match nth_error outs i with Some v => Ok v | None => Err IndexError end = Ok v ->
      exists w, func v = Ok w /\ match nth_error outs' i with Some v => Ok v | None => Err IndexError end = Ok w).
    { intros i v Hv. destruct (nth_error outs i) as [v'|] eqn:En; [|discriminate]. injection Hv as ->.
      destruct (Forall2_nth_get _ _ _ _ _ F En) as (w & Hw & Hf). exists w. now rewrite Hw. }
    assert (T : forall i, i < length outs -> exists v, match nth_error outs i with Some v => Ok v | None => Err IndexError end = Ok v).
    { intros i Hlt. destruct (nth_error outs i) eqn:En; eauto. apply nth_error_None in En. lia. }
    assert (L0 : 0 < length outs) by (destruct outs; [congruence|simpl; lia]).
    split; [exact (D 0)|]. destruct idx as [i|]; simpl chosen_or_default.
    - split; [exact (D i)|]. split; [exact (T 0 L0)|]. split; [exact (T i (Hi i eq_refl))|reflexivity].
    - split; [exact (D 0)|]. split; [exact (T 0 L0)|]. split; [exact (T 0 L0)|reflexivity].
  Qed.


  (** ** [optional] and [choose_bool] *)

  Lemma construct_ok cls outs names name : name <> Some POther -> outs <> [] -> NamesOk outs names ->
    exists t, (name = None /\ t = None \/ exists s, name = Some (PStr s) /\ t = Some s) /\
              @construct V cls outs names name = Ok (Enum cls outs names t None).
  Proof.
    intros Hn Ho Hok. pose proof (construct_spec cls outs names name) as C.
    destruct (construct cls outs names name) as [c|e].
    - destruct C as (t & Ht & -> & _). eauto.
    - exfalso. destruct C as [[_ C]|[[C _]|(ns & -> & C)]]; auto. simpl in Hok.
      destruct Hok as (L & NP & ND). destruct C as [(_ & C)|[(_ & _ & C)|(_ & _ & _ & C)]]; auto.
  Qed.

  (** The value is kept by default and when the first outcome is chosen; the other outcome is
      [None]. *)
  Theorem optional_spec none v name : name <> Some POther ->
    exists names t, optional none v name = Ok (Enum OptionalChoice [v; none] (Some names) t None) /\
      Sound (Enum OptionalChoice [v; none] (Some names) t None) /\
      chosen_or_default (Enum OptionalChoice [v; none] (Some names) t None) = Ok v /\
      chosen_or_default (Enum OptionalChoice [v; none] (Some names) t (Some 0)) = Ok v /\
      chosen_or_default (Enum OptionalChoice [v; none] (Some names) t (Some 1)) = Ok none.
  Proof.
    intros Hn. unfold optional. set (names := [PStr (of_string "true"); PStr (of_string "false")]).
    assert (Hok : NamesOk [v; none] (Some names)).
    { split; [reflexivity|]. split.
      - intros [H|[H|[]]]; discriminate.
      - constructor; [intros [H|[]]; discriminate|]. constructor; [intros []|constructor]. }
    destruct (construct_ok OptionalChoice [v; none] (Some names) name Hn ltac:(discriminate) Hok) as (t & _ & E).
    exists names, t. split; [exact E|]. split; [|auto].
    split; [discriminate|]. split; [exact Hok|]. discriminate.
  Qed.

  Section IfElse.
    Context {K : Type} `{EqD K}.
    Variable hash_key : V -> res K.
    Variables (kt kf : K) (vtrue vfalse : V).
    Hypothesis true_key : hash_key vtrue = Ok kt.
    Hypothesis false_key : hash_key vfalse = Ok kf.
    Hypothesis differ : kt <> kf.

    Theorem if_else_spec name a b : name <> Some POther ->
      exists t, choose_bool vtrue vfalse name = Ok (Enum BoolChoice [vtrue; vfalse] None t None) /\
        (forall idx, exists mt, if_else hash_key kt kf (Enum BoolChoice [vtrue; vfalse] None t idx) a b = Ok mt /\
           of_choice mt = mk_echoice [vtrue; vfalse] idx /\
           ((idx = None \/ idx = Some 0) -> match_value hash_key mt = Ok a) /\
           (idx = Some 1 -> match_value hash_key mt = Ok b)).
    Proof using true_key false_key differ.
      intros Hn. unfold choose_bool.
      destruct (construct_ok BoolChoice [vtrue; vfalse] None name Hn ltac:(discriminate) I) as (t & _ & E).
      assert (M : forall idx, if_else hash_key kt kf (Enum BoolChoice [vtrue; vfalse] None t idx) a b =
        Ok (mk_ematch (mk_echoice [vtrue; vfalse] idx) [(kt, a); (kf, b)])).
      { intros idx. unfold if_else, choice_match, check_match_keys. cbn [outcomes mapM bind dkeys map fst is_given].
        rewrite true_key. cbn [bind]. rewrite false_key. cbn [bind filter].
        assert (M1 : mem kt [kt; kf] = true) by (apply mem_true; simpl; auto).
        assert (M2 : mem kf [kt; kf] = true) by (apply mem_true; simpl; auto).
        rewrite M1, M2. cbn [negb]. reflexivity. }
      exists t. split; [exact E|].
      intros idx. eexists. split; [apply M|]. split; [reflexivity|].
      unfold match_value, chosen_outcome. cbn [of_choice outcomes chosen_idx mapping].
      split.
      - intros [-> | ->]; cbn [nth_error bind]; rewrite true_key; cbn [bind dget]; destruct (eqd kt kt); congruence.
      - intros ->. cbn [nth_error bind]. rewrite false_key. cbn [bind dget].
        destruct (eqd kf kt); [congruence|]. destruct (eqd kf kf); congruence.
    Qed.

    (** After [map_values], [if_else] is accepted only if both [True] and [False] are outcomes,
        and nothing else is. *)
    Theorem if_else_accepts outs names t idx a b :
      (exists mt, if_else hash_key kt kf (Enum BoolChoice outs names t idx) a b = Ok mt) <->
      (exists ks, Forall2 (fun v k => hash_key v = Ok k) outs ks /\ forall k, In k ks <-> k = kt \/ k = kf).
    Proof.
      unfold if_else, choice_match, check_match_keys. cbn [outcomes is_given].
      destruct (mapM hash_key outs) as [ks|e] eqn:E; cbn [bind].
      - assert (F := proj1 (mapM_Forall2 _ _ _) E).
        cbn [dkeys map fst].
        assert (Hu : forall ks', Forall2 (fun v k => hash_key v = Ok k) outs ks' -> ks' = ks).
        { intros ks' F'. apply mapM_Forall2 in F'. congruence. }
        destruct (filter (fun k => negb (mem k ks)) [kt; kf]) as [|x r] eqn:F1; cbn [bind].
        + assert (A1 : forall k, k = kt \/ k = kf -> In k ks).
          { intros k Hk. apply mem_true. destruct (mem k ks) eqn:M; auto.
            assert (Hin : In k (filter (fun k => negb (mem k ks)) [kt; kf])).
            { apply filter_In. rewrite M. split; auto. simpl. intuition. }
            rewrite F1 in Hin. destruct Hin. }
          destruct (filter (fun k => negb (mem k [kt; kf])) ks) as [|x r] eqn:F2; cbn [bind].
          * split; [|eauto]. intros _. exists ks. split; auto. intros k. split; auto.
            intros Hk. assert (M : mem k [kt; kf] = true).
            { destruct (mem k [kt; kf]) eqn:M; auto.
              assert (Hin : In k (filter (fun k => negb (mem k [kt; kf])) ks)) by (apply filter_In; rewrite M; auto).
              rewrite F2 in Hin. destruct Hin. }
            apply mem_true in M. simpl in M. intuition.
          * split; [intros (mt & Hmt); discriminate|]. intros (ks' & F' & Hk). exfalso.
            rewrite (Hu ks' F') in *.
            assert (Hin : In x (filter (fun k => negb (mem k [kt; kf])) ks)) by (rewrite F2; left; auto).
            apply filter_In in Hin. destruct Hin as [Hx Hm]. apply Hk in Hx. apply negb_true_iff in Hm.
            apply mem_false in Hm. apply Hm. simpl. intuition.
        + split; [intros (mt & Hmt); discriminate|]. intros (ks' & F' & Hk). exfalso.
          rewrite (Hu ks' F') in *.
          assert (Hin : In x (filter (fun k => negb (mem k ks)) [kt; kf])) by (rewrite F1; left; auto).
          apply filter_In in Hin. destruct Hin as [Hx Hm]. apply negb_true_iff in Hm. apply mem_false in Hm.
          apply Hm. apply Hk. simpl in Hx. intuition.
      - split; [intros (mt & Hmt); discriminate|]. intros (ks & F & _). exfalso.
        apply mapM_Forall2 in F. congruence.
    Qed.
  End IfElse.

  (** ** Discretized choices are sequences *)
  Theorem steps_sequence g n ch (eqv : V -> V -> bool) : g <> [] ->
    let c := @Steps V g n ch in
    exists l, seq_iter c = Ok l /\ seq_len c = Ok (length l) /\ seq_reversed c = Ok (rev l) /\
      (exists v, default c = Ok v /\ In v l) /\
      (forall z, match getitem c (KInt z) with
                 | Ok i => exists j v, i = Value v /\ nth_error l j = Some v /\
                             (z = Z.of_nat j \/ z = (Z.of_nat j - Z.of_nat (length l))%Z)
                 | Err e => e = IndexError /\ (z < - Z.of_nat (length l) \/ Z.of_nat (length l) <= z)%Z
                 end) /\
      (forall v, match seq_index eqv c v with
                 | Ok j => seq_contains eqv c v = Ok true /\ (exists w, nth_error l j = Some w /\ eqv w v = true) /\
                           forall m w, m < j -> nth_error l m = Some w -> eqv w v = false
                 | Err e => e = ValueError /\ seq_contains eqv c v = Ok false /\ forall w, In w l -> eqv w v = false
                 end).
  Proof.
    intros Hg c. exists g. subst c. split; [reflexivity|]. split; [reflexivity|]. split; [apply reversed_spec|].
    split; [|split].
    - unfold default. destruct (nth_error g (Nat.div2 (length g - 1))) as [v|] eqn:E.
      + exists v. split; auto. eapply nth_error_In; eauto.
      + exfalso. apply nth_error_None in E. destruct g as [|x g]; [congruence|]. simpl in E.
        pose proof (PeanoNat.Nat.div2_decr (length g) (length g)).
        rewrite PeanoNat.Nat.sub_0_r in E. lia.
    - intros z. unfold getitem. pose proof (at_index_spec g z) as A. destruct (at_index g z) as [v|e]; cbn [bind]; auto.
      destruct A as (i & Hi & Hz). eauto.
    - intros v. unfold seq_index, seq_contains. cbn [seq_len seq_iter bind].
      pose proof (index_from_spec eqv g n ch v (S (length g)) 0) as X.
      assert (Hlt : length g < S (length g) + 0) by lia. specialize (X Hlt).
      destruct (index_from eqv (Steps g n ch) v (S (length g)) 0) as [j|e].
      + destruct X as (_ & (w & Hw & Hq) & Hb). split; [|split; [eauto|]].
        * f_equal. apply existsb_exists. exists w. split; auto. eapply nth_error_In; eauto.
        * intros m w' Hm. apply Hb. lia.
      + destruct X as [-> Hb]. assert (Ha : forall w, In w g -> eqv w v = false).
        { intros w Hin. apply In_nth_error in Hin. destruct Hin as (m & Hm). apply (Hb m w); auto. lia. }
        split; auto. split; auto. f_equal. destruct (existsb (fun w => eqv w v) g) eqn:Ex; auto.
        apply existsb_exists in Ex. destruct Ex as (w & Hin & Hq). rewrite (Ha w Hin) in Hq. discriminate.
  Qed.

  (** Other choices are not sequences, so that they cannot be iterated over by mistake. *)
  Theorem not_sequences (c : choice) z : (forall g n ch, c <> Steps g n ch) ->
    seq_len c = Err TypeError /\ seq_iter c = Err TypeError /\
    match choice_name c with Some _ => getitem c (KInt z) = Err TypeError | None => getitem c (KInt z) = Err AttributeError end.
  Proof.
    intros Hc. destruct c as [cls outs names name idx|m name ch|g name ch]; [| |exfalso; eapply Hc; eauto];
      split; auto; split; auto; simpl; unfold keys; simpl; destruct name; auto.
  Qed.
End Proofs.
