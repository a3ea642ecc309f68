(** C103, second part: setting the choices of a copy; copies of copies. *)
From Verif Require Import Base L_dict M_traverse L_traverse M_expr L_expr1 L_expr2 L_expr3 L_expr4 L_expr5 L_expr6 L_expr7.
From Verif Require Import M_clone L_clone L_clone2 M_grid M_choicegraph L_choicegraph L_choicegraph2 L_choicegraph3 L_conflicts M_estimator L_estimator1 L_search1 M_search L_search2 L_search4.
Set Default Proof Using "Type".
Open Scope string_scope.
Open Scope list_scope.
Open Scope nat_scope.

Section Copies.
  Context {V K : Type} `{EqD K}.
  Notation heap := (heap V K).
  Variable copy : V -> res V.
  Hypothesis Hcopy : forall v v', copy v = Ok v' -> v' = v.

  Lemma same_refl (g : heap) : same_but_settings g g.
  Proof. intros o. destruct (g o); auto. Qed.
  Lemma same_trans (a b c : heap) : same_but_settings a b -> same_but_settings b c -> same_but_settings a c.
  Proof.
    intros A B o. specialize (A o). specialize (B o). destruct (a o), (b o); try discriminate; destruct (c o); try discriminate; try congruence; try tauto; destruct A, B; split; congruence.
  Qed.
  Lemma same_node (a b : heap) o : same_but_settings a b -> is_node b o <-> is_node a o.
  Proof. intros A. specialize (A o). unfold is_node. destruct (a o), (b o); try discriminate; tauto. Qed.
  Lemma set_same (g : heap) c p ob : set_choice p (g c) = Ok ob -> same_but_settings g (upd_heap g c ob).
  Proof.
    intros E o. unfold upd_heap. destruct (eqd o c) as [->|]; [|destruct (g o); auto]. unfold set_choice in E.
    destruct (g c), p; try discriminate; injection E as <-; auto.
  Qed.

  (** *** Setting choices *)
  Lemma set_copy drop (h h' : heap) root size' root' f short : forall params,
    copy_of copy drop h root h' size' root' f -> Forall (Ch h' root') short ->
    match set_numbered short params h', set_numbered (map f short) params h with
    | Ok hs', Ok hs => copy_of copy drop hs root hs' size' root' f /\ same_but_settings h hs /\ same_but_settings h' hs'
    | Err a, Err b => a = b
    | _, _ => False
    end.
  Proof.
    intros params. revert h h'. induction params as [|[k p] params IH]; intros h h' C S; cbn [set_numbered].
    - split; [exact C|]. split; apply same_refl.
    - rewrite nth_error_map. destruct (nth_error short k) as [c|] eqn:Ek; cbn [option_map]; [|reflexivity].
      assert (Cc : Ch h' root' c) by (rewrite Forall_forall in S; apply S; eapply nth_error_In; exact Ek). destruct Cc as [Pc Kc].
      pose proof (co_like _ _ _ _ _ _ _ _ C c Pc) as L.
      assert (G : match set_choice p (h' c), set_choice p (h (f c)) with
                  | Ok o', Ok o => obj_like copy drop (fun n' o' => f n' = o') o' o | Err a, Err b => a = b | _, _ => False end).
      { inversion L as [i' i name isX isY I E1 E2|ty b' b F1 E1 E2|ty b' b F1 E1 E2|n1 n2 n3 o1 o2 o3 R1 R2 R3 E1 E2|name m o ch R1 E1 E2|name df ch E1 E2|n1 n2 o1 o2 R1 R2 E1 E2|cls m o R1 E1 E2|v v' Ev E1 E2]; cbn [set_choice]; auto; destruct p; cbn [set_choice]; auto; constructor; auto. }
      destruct (set_choice p (h' c)) as [ob'|x'] eqn:S', (set_choice p (h (f c))) as [ob|x] eqn:S0; try contradiction; cbn [bind]; [|exact G].
      pose proof (set_same h' c p ob' S') as W'. pose proof (set_same h (f c) p ob S0) as W.
      assert (C1 : copy_of copy drop (upd_heap h (f c) ob) root (upd_heap h' c ob') size' root' f).
      { assert (N : is_node h (f c)) by (unfold is_node; destruct L; tauto). destruct C as [C1 C2 C3 C4 C5 C6 C7]. split.
        - eapply settings_closed; eauto.
        - exact C2.
        - exact C3.
        - intros n P. apply (settings_part _ _ W). apply C4. apply (settings_part _ _ W'). exact P.
        - intros n P. apply (settings_part _ _ W') in P. unfold upd_heap. destruct (eqd n c) as [->|D].
          + destruct (eqd (f c) (f c)); [exact G|congruence].
          + destruct (eqd (f n) (f c)) as [Q|]; [|apply C5; exact P]. exfalso. apply D. apply C6; auto. rewrite Q. exact N.
        - intros n m P Q E Nn. apply (settings_part _ _ W') in P. apply (settings_part _ _ W') in Q. apply C6; auto. apply (same_node _ _ _ W). exact Nn.
        - eapply settings_acyclic; eauto. }
      assert (S1 : Forall (Ch (upd_heap h' c ob') root') short).
      { rewrite Forall_forall in *. intros x Ix. destruct (S x Ix) as [Px Kx]. split; [apply (settings_part _ _ W'); exact Px|]. specialize (W' x). destruct (h' x), (upd_heap h' c ob' x); try discriminate; tauto. }
      specialize (IH _ _ C1 S1). destruct (set_numbered short params (upd_heap h' c ob')) as [hs'|], (set_numbered (map f short) params (upd_heap h (f c) ob)) as [hs|]; try contradiction; [|exact IH].
      destruct IH as (I1 & I2 & I3). split; [exact I1|]. split; eapply same_trans; eauto.
  Qed.

  (** *** Copies of copies *)
  Lemma like_trans (f1 f2 : oid -> oid) (a b c : obj V K) : obj_like copy false (fun n o => f2 n = o) a b -> obj_like copy false (fun n o => f1 n = o) b c ->
    obj_like copy false (fun n o => f1 (f2 n) = o) a c.
  Proof using Hcopy.
    assert (FF : forall A (l1 l2 l3 : list (A * oid)), Forall2 (fun n o => fst n = fst o /\ f2 (snd n) = snd o) l1 l2 -> Forall2 (fun n o => fst n = fst o /\ f1 (snd n) = snd o) l2 l3 ->
      Forall2 (fun n o => fst n = fst o /\ f1 (f2 (snd n)) = snd o) l1 l3).
    { intros A l1 l2 l3 F1. revert l3. induction F1 as [|x y l1 l2 [R1 R2] F1 IH]; intros l3 F2; inversion F2 as [|? z ? l3' [R3 R4] F3]; subst; constructor; auto. split; congruence. }
    intros L1 L2. destruct L1 as [i' i name isX isY I|ty b' b F1|ty b' b F1|n1 n2 n3 o1 o2 o3 R1 R2 R3|name m o ch R1|name df ch|n1 n2 o1 o2 R1 R2|cls m o R1|v v' Ev]; inversion L2 as [j' j nm jX jY J|? ? d G1|? ? d G1|? ? ? p1 p2 p3 S1 S2 S3|? ? p ? S1|? ? ?|? ? p1 p2 S1 S2|? ? p S1|w w' Ew]; subst; try (constructor; auto; fail).
    - constructor. destruct I; inversion J; subst; try (constructor; auto; fail); try discriminate. constructor. eapply FF; eauto.
    - constructor. eapply FF; eauto.
    - constructor. clear - F1 G1. revert d G1. induction F1 as [|x y l1 l2 R F1 IH]; intros l3 F2; inversion F2 as [|? z ? l3' R3 F3]; subst; constructor; auto.
    - constructor. pose proof (Hcopy _ _ Ew) as ->. exact Ev.
  Qed.
  Lemma copy_trans (h h1 h2 : heap) root root1 root2 size1 size2 f1 f2 :
    copy_of copy false h root h1 size1 root1 f1 -> copy_of copy false h1 root1 h2 size2 root2 f2 ->
    copy_of copy false h root h2 size2 root2 (fun n => f1 (f2 n)).
  Proof using Hcopy.
    intros [A1 A2 A3 A4 A5 A6 A7] [B1 B2 B3 B4 B5 B6 B7]. split; auto.
    - congruence.
    - intros n P. eapply like_trans; [apply B5; exact P|apply A5; apply B4; exact P].
    - intros n m P Q E N. apply B6; auto. pose proof (A5 _ (B4 n P)) as L. unfold is_node in *. destruct L; tauto.
  Qed.
End Copies.
