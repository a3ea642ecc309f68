(** Joining again: what depends on the order of Python sets, on the order of groups and on random
    names. *)
From Verif Require Import Base M_names M_oncols M_agg M_str M_multiagg L_names L_leftjoin L_agg L_agg2 L_multiagg.
From Coq Require Import Permutation.
Open Scope string_scope.
Open Scope list_scope.
Open Scope nat_scope.

(** ** Specification *)

(** The same rows in the same order, with the same columns, perhaps in another order. *)
Definition SameUpToColumnOrder {V} (t1 t2 : table V) : Prop :=
  Permutation (tcols t1) (tcols t2) /\
  Forall2 (fun r1 r2 => forall c v, ValueAt (tcols t1) r1 c v <-> ValueAt (tcols t2) r2 c v) (trows t1) (trows t2).

Section Reseed.
  Context {V : Type} {EV : EqD V}.
  Variable null : V.
  Variable isnull : V -> bool.
  Variable aggf : string -> list V -> res V.

  (** [v] is beside [p] *)
  Definition Beside {A B} (ps : list A) (vs : list B) (p : A) (v : B) : Prop :=
    exists i, nth_error ps i = Some p /\ nth_error vs i = Some v.

  Lemma ValueAt_app xs ys (l r : list V) c v : length l = length xs ->
    ValueAt (xs ++ ys) (l ++ r) c v <-> ValueAt xs l c v \/ ValueAt ys r c v.
  Proof using Type.
    intros L. unfold ValueAt. split.
    - intros (i & H1 & H2). destruct (Nat.lt_ge_cases i (length xs)) as [Hi|Hi].
      + left. exists i. rewrite nth_error_app1 in H1 by exact Hi. rewrite nth_error_app1 in H2 by lia. auto.
      + right. exists (i - length xs). rewrite nth_error_app2 in H1 by exact Hi.
        rewrite nth_error_app2 in H2 by lia. rewrite L in H2. auto.
    - intros [(i & H1 & H2)|(i & H1 & H2)].
      + exists i. assert (i < length xs) by (apply nth_error_Some; congruence).
        rewrite !nth_error_app1 by lia. auto.
      + exists (length xs + i). rewrite !nth_error_app2 by lia. rewrite L.
        replace (length xs + i - length xs) with i by lia. auto.
  Qed.

  Lemma ValueAt_map {A} (f : A -> string) ps (vs : list V) c v :
    ValueAt (map f ps) vs c v <-> exists p, c = f p /\ Beside ps vs p v.
  Proof using Type.
    unfold ValueAt, Beside. split.
    - intros (i & H1 & H2). rewrite nth_error_map in H1. destruct (nth_error ps i) as [p|] eqn:E; [|discriminate].
      injection H1 as <-. eauto.
    - intros (p & -> & i & H1 & H2). exists i. rewrite nth_error_map, H1. auto.
  Qed.

  Lemma Selected_det {A} (P : A -> Prop) l s1 s2 : Selected P l s1 -> Selected P l s2 -> s1 = s2.
  Proof using Type.
    intros H1. revert s2. induction H1; intros s2 H2; inversion H2; subst; try contradiction; auto.
    f_equal; auto.
  Qed.

  Lemma Forall2_det {A B} (R : A -> B -> Prop) l a b : (forall x y z, R x y -> R x z -> y = z) ->
    Forall2 R l a -> Forall2 R l b -> a = b.
  Proof using Type.
    intros D F. revert b. induction F; intros b Fb; inversion Fb; subst; auto. f_equal; eauto.
  Qed.

  Lemma Forall2_at {A B} (R : A -> B -> Prop) l a i x y : Forall2 R l a -> nth_error l i = Some x -> nth_error a i = Some y -> R x y.
  Proof using Type.
    intros F. revert i. induction F; intros [|i]; simpl; try discriminate; eauto.
    intros E1 E2. injection E1 as <-. injection E2 as <-. auto.
  Qed.

  Notation Attached := (Attached null isnull aggf).

  Lemma Attached_length X aux mk ak pairs l vals : Attached X aux mk ak pairs l vals -> length vals = length pairs.
  Proof using Type.
    intros (k & _ & [(_ & rows & _ & _ & C)|(_ & ->)]).
    - eapply Computed_length; eauto.
    - apply repeat_length.
  Qed.

  Lemma Attached_one X aux mk ak pairs l vals p v : Attached X aux mk ak pairs l vals -> Beside pairs vals p v ->
    Attached X aux mk ak [p] l [v].
  Proof using Type.
    intros (k & Hk & H) (i & H1 & H2). exists k. split; auto.
    destruct H as [(Hn & rows & Hs & Hr & C)|(Hno & ->)].
    - left. split; auto. exists rows. split; auto. split; auto.
      constructor; [|constructor]. exact (Forall2_at _ _ _ i p v C H1 H2).
    - right. split; auto. simpl.
      assert (Hin : In v (repeat null (length pairs))) by (eapply nth_error_In; eauto).
      apply repeat_spec in Hin. now subst.
  Qed.

  Lemma ValueAt_det cols (row : list V) c v1 v2 : NoDup cols -> ValueAt cols row c v1 -> ValueAt cols row c v2 -> v1 = v2.
  Proof using Type.
    intros N (i & A1 & A2) (j & B1 & B2).
    assert (i = j).
    { eapply (proj1 (NoDup_nth_error cols) N).
      - apply nth_error_Some. congruence.
      - congruence. }
    subst. congruence.
  Qed.

  Lemma Attached_one_det X aux mk ak p l v1 v2 : NoDup (tcols X) -> NoDup (tcols aux) ->
    Attached X aux mk ak [p] l [v1] -> Attached X aux mk ak [p] l [v2] -> v1 = v2.
  Proof using Type.
    intros NX NA (k1 & K1 & H1) (k2 & K2 & H2).
    assert (k1 = k2).
    { eapply Forall2_det; [|exact K1|exact K2]. intros x y z A B. exact (ValueAt_det _ _ _ _ _ NX A B). }
    subst k2.
    destruct H1 as [(N1 & rows1 & S1 & R1 & C1)|(O1 & E1)]; destruct H2 as [(N2 & rows2 & S2 & R2 & C2)|(O2 & E2)].
    - assert (rows1 = rows2) by (eapply Selected_det; eauto). subst rows2.
      inversion C1 as [|? ? ? ? (vs1 & F1 & G1) _]; subst. inversion C2 as [|? ? ? ? (vs2 & F2 & G2) _]; subst.
      assert (vs1 = vs2).
      { eapply Forall2_det; [|exact F1|exact F2]. intros x y z A B. exact (ValueAt_det _ _ _ _ _ NA A B). }
      subst. congruence.
    - exfalso. destruct O2 as [O2|O2]; [auto|]. destruct rows1 as [|r rows1]; [auto|].
      assert (Hr : In r (trows aux) /\ ValuesAt (tcols aux) r ak k1).
      { clear - S1. remember (r :: rows1) as s eqn:E. induction S1; [discriminate| |].
        - injection E as -> ->. simpl. auto.
        - destruct (IHS1 E). simpl. auto. }
      destruct Hr as [Hr Hk]. exact (O2 r Hr Hk).
    - exfalso. destruct O1 as [O1|O1]; [auto|]. destruct rows2 as [|r rows2]; [auto|].
      assert (Hr : In r (trows aux) /\ ValuesAt (tcols aux) r ak k1).
      { clear - S2. remember (r :: rows2) as s eqn:E. induction S2; [discriminate| |].
        - injection E as -> ->. simpl. auto.
        - destruct (IHS2 E). simpl. auto. }
      destruct Hr as [Hr Hk]. exact (O1 r Hr Hk).
    - simpl in *. congruence.
  Qed.

  Lemma Beside_exists {A B} (ps : list A) (vs : list B) p : length vs = length ps -> In p ps -> exists v, Beside ps vs p v.
  Proof using Type.
    intros L Hin. apply In_nth_error in Hin. destruct Hin as (i & Hi).
    destruct (nth_error vs i) as [v|] eqn:E; [exists v, i; auto|].
    apply nth_error_None in E. assert (i < length ps) by (apply nth_error_Some; congruence). lia.
  Qed.

  Lemma Attached_same X aux mk ak pairs1 pairs2 l vals1 vals2 p v : NoDup (tcols X) -> NoDup (tcols aux) ->
    (forall q, In q pairs1 -> In q pairs2) ->
    Attached X aux mk ak pairs1 l vals1 -> Attached X aux mk ak pairs2 l vals2 ->
    Beside pairs1 vals1 p v -> Beside pairs2 vals2 p v.
  Proof using Type.
    intros NX NA Hin A1 A2 B1.
    assert (Hp : In p pairs1) by (destruct B1 as (i & H1 & _); eapply nth_error_In; eauto).
    destruct (Beside_exists pairs2 vals2 p (Attached_length _ _ _ _ _ _ _ A2) (Hin p Hp)) as (v' & B2).
    assert (v = v').
    { eapply Attached_one_det; [exact NX|exact NA|eapply Attached_one; [exact A1|exact B1]|eapply Attached_one; [exact A2|exact B2]]. }
    now subst v'.
  Qed.

  Lemma list_prod_perm {A B} (l1 l2 : list A) (m : list B) : Permutation l1 l2 -> Permutation (list_prod l1 m) (list_prod l2 m).
  Proof using Type.
    induction 1; simpl; auto.
    - now apply Permutation_app_head.
    - rewrite !app_assoc. apply Permutation_app_tail. apply Permutation_app_comm.
    - etransitivity; eauto.
  Qed.

  Lemma joined_same X aux mk ak cols1 cols2 ops suffix out1 out2 : WFTable X -> WFTable aux ->
    Permutation cols1 cols2 ->
    (forall c, In c ak -> untagged c) ->
    (forall q, In q (list_prod cols1 ops) -> untagged (result_name suffix q) /\ ~ In (result_name suffix q) (tcols X)) ->
    Joined null isnull aggf X aux mk ak cols1 ops suffix out1 ->
    Joined null isnull aggf X aux mk ak cols2 ops suffix out2 ->
    SameUpToColumnOrder out1 out2.
  Proof using Type.
    intros [NX LX] [NA _] P Ha Hq ((n1 & T1 & _ & E1) & D1 & F1) ((n2 & T2 & _ & E2) & D2 & F2).
    pose proof (list_prod_perm _ _ ops P) as PP.
    assert (Hq2 : forall q, In q (list_prod cols2 ops) -> untagged (result_name suffix q) /\ ~ In (result_name suffix q) (tcols X)).
    { intros q Hin. apply Hq. eapply Permutation_in; [apply Permutation_sym; exact PP|exact Hin]. }
    rewrite (E1 Ha Hq) in T1. rewrite (E2 Ha Hq2) in T2. clear E1 E2 n1 n2.
    split.
    - rewrite T1, T2. apply Permutation_app_head. apply Permutation_map. exact PP.
    - rewrite T1, T2. clear T1 T2 D1 D2. set (cX := tcols X) in *.
      assert (G : forall rows o1 o2, (forall r, In r rows -> length r = length (tcols X)) ->
        Forall2 (fun l o => exists vals, o = l ++ vals /\ Attached X aux mk ak (list_prod cols1 ops) l vals) rows o1 ->
        Forall2 (fun l o => exists vals, o = l ++ vals /\ Attached X aux mk ak (list_prod cols2 ops) l vals) rows o2 ->
        Forall2 (fun r1 r2 => forall c v,
          ValueAt (cX ++ map (result_name suffix) (list_prod cols1 ops)) r1 c v <->
          ValueAt (cX ++ map (result_name suffix) (list_prod cols2 ops)) r2 c v) o1 o2).
      { intros rows o1 o2 L G1. revert o2. induction G1 as [|l o rows o1 (v1 & -> & A1) G1 IH]; intros o2 G2; inversion G2 as [|? o' ? o2' (v2 & -> & A2) G2']; subst; constructor.
        - intros c v. assert (Hl : length l = length cX) by (apply L; left; reflexivity).
          rewrite !ValueAt_app by exact Hl. rewrite !ValueAt_map.
          split; intros [H|(p & -> & H)]; auto; right; exists p; split; auto.
          + eapply (Attached_same X aux mk ak); [exact NX|exact NA| |exact A1|exact A2|exact H]. intros q. apply Permutation_in. exact PP.
          + eapply (Attached_same X aux mk ak); [exact NX|exact NA| |exact A2|exact A1|exact H]. intros q. apply Permutation_in. apply Permutation_sym. exact PP.
        - apply IH; auto. intros r Hr. apply L. right. exact Hr. }
      exact (G (trows X) _ _ LX F1 F2).
  Qed.

  (** With the same columns in the same order, the result is exactly the same. *)
  Lemma Attached_same_list X aux mk ak pairs l vals1 vals2 : NoDup (tcols X) -> NoDup (tcols aux) -> NoDup pairs ->
    Attached X aux mk ak pairs l vals1 -> Attached X aux mk ak pairs l vals2 -> vals1 = vals2.
  Proof using Type.
    intros NX NA NP A1 A2.
    pose proof (Attached_length _ _ _ _ _ _ _ A1) as L1. pose proof (Attached_length _ _ _ _ _ _ _ A2) as L2.
    apply (nth_ext vals1 vals2 null null); [congruence|]. intros n Hn.
    destruct (nth_error vals1 n) as [v|] eqn:E1; [|apply nth_error_None in E1; lia].
    destruct (nth_error pairs n) as [p|] eqn:Ep; [|apply nth_error_None in Ep; lia].
    assert (B : Beside pairs vals1 p v) by (exists n; auto).
    apply (Attached_same X aux mk ak pairs pairs l vals1 vals2 p v NX NA (fun q H => H) A1 A2) in B.
    destruct B as (m & M1 & M2).
    assert (m = n).
    { apply (proj1 (NoDup_nth_error pairs) NP); [apply nth_error_Some; congruence|congruence]. }
    subst m. rewrite (nth_error_nth _ _ null E1), (nth_error_nth _ _ null M2). reflexivity.
  Qed.

  Lemma joined_equal X aux mk ak cols ops suffix out1 out2 : WFTable X -> WFTable aux -> NoDup cols -> NoDup ops ->
    (forall c, In c ak -> untagged c) ->
    (forall q, In q (list_prod cols ops) -> untagged (result_name suffix q) /\ ~ In (result_name suffix q) (tcols X)) ->
    Joined null isnull aggf X aux mk ak cols ops suffix out1 ->
    Joined null isnull aggf X aux mk ak cols ops suffix out2 -> out1 = out2.
  Proof using Type.
    intros [NX LX] [NA _] Nc No Ha Hq ((n1 & T1 & _ & E1) & _ & F1) ((n2 & T2 & _ & E2) & _ & F2).
    rewrite (E1 Ha Hq) in T1. rewrite (E2 Ha Hq) in T2.
    assert (R : trows out1 = trows out2).
    { eapply Forall2_det; [|exact F1|exact F2]. intros l o1 o2 (v1 & -> & A1) (v2 & -> & A2). f_equal.
      exact (Attached_same_list X aux mk ak _ l v1 v2 NX NA (NoDup_list_prod _ _ _ _ Nc No) A1 A2). }
    destruct out1, out2. simpl in *. congruence.
  Qed.
End Reseed.

Section Fits.
  Context {V : Type} {EV : EqD V}.
  Variable null : V.
  Variable isnull : V -> bool.
  Variable lib : library.
  Variable aggf : string -> list V -> res V.

  (** What a fit uses besides its arguments: the order of groups, the order of sets, and the
      random names. *)
  Record circumstances : Type := mk_circumstances {
    groups : list (list V) -> list (list V); sets : list string -> list string; names_drawn : nat -> string }.

  Definition Possible (w : circumstances) : Prop :=
    (forall l, Permutation (groups w l) l) /\ (forall l, Permutation (sets w l) l).

  Definition fit_in (w : circumstances) := fit_transform null isnull lib (groups w) aggf (sets w) (names_drawn w).

  Lemma ColsAre_perm w1 w2 (p : agg_params (V := V)) aux ak c1 c2 : Possible w1 -> Possible w2 ->
    ColsAre (sets w1) p aux ak c1 -> ColsAre (sets w2) p aux ak c2 -> Permutation c1 c2.
  Proof using Type.
    intros [_ S1] [_ S2] [(H1 & ->)|(H1 & ->)] [(H2 & ->)|(H2 & ->)]; try contradiction; auto.
    rewrite S1. symmetry. apply S2.
  Qed.

  (** The names drawn at random are not used here: no name clashes. *)
  Definition NoClash (existing ak cols ops : list string) (suffix : string) : Prop :=
    (forall c, In c ak -> untagged c) /\
    forall q, In q (list_prod cols ops) ->
      untagged (result_name suffix q) /\ ~ In (result_name suffix q) existing /\ ~ In (result_name suffix q) ak.

  Definition FreshIn (w : circumstances) (X : table V) (ak cols ops : list string) (suffix : string) : Prop :=
    Fresh (names_drawn w) (length ak + length (list_prod cols ops)) (ak ++ map (result_name suffix) (list_prod cols ops)) (tcols X).

  Theorem same_in_all_circumstances w1 w2 is_numeric p X f1 out1 f2 out2 aux mk ak cols1 cols2 ops :
    Possible w1 -> Possible w2 ->
    fit_in w1 is_numeric p X = Ok (f1, out1) -> fit_in w2 is_numeric p X = Ok (f2, out2) ->
    AuxIs p X aux -> KeysAre p mk ak -> ColsAre (sets w1) p aux ak cols1 -> ColsAre (sets w2) p aux ak cols2 -> OpsAre p ops ->
    WFTable X -> WFTable aux -> NoDup cols1 -> NoDup ops ->
    NoClash (tcols X) ak cols1 ops (p_suffix p) ->
    FreshIn w1 X ak cols1 ops (p_suffix p) -> FreshIn w2 X ak cols2 ops (p_suffix p) ->
    SameUpToColumnOrder out1 out2 /\ (p_cols p <> KNone -> out1 = out2).
  Proof using Type.
    intros P1 P2 E1 E2 HA HK C1 C2 HO WX WA NC NO [U1 U2] F1 F2.
    pose proof (ColsAre_perm w1 w2 p aux ak cols1 cols2 P1 P2 C1 C2) as PC.
    assert (NC2 : NoDup cols2) by (eapply Permutation_NoDup; eauto).
    assert (J1 : Joined null isnull aggf X aux mk ak cols1 ops (p_suffix p) out1).
    { eapply fit_spec; [apply P1|exact E1|exact HA|exact HK|exact C1|exact HO|exact WX|exact WA|exact NC|exact NO| |exact F1].
      intros _ q Hq. apply U2. exact Hq. }
    assert (J2 : Joined null isnull aggf X aux mk ak cols2 ops (p_suffix p) out2).
    { eapply fit_spec; [apply P2|exact E2|exact HA|exact HK|exact C2|exact HO|exact WX|exact WA|exact NC2|exact NO| |exact F2].
      intros _ q Hq. apply U2. eapply Permutation_in; [apply list_prod_perm; apply Permutation_sym; exact PC|exact Hq]. }
    assert (U3 : forall q, In q (list_prod cols1 ops) -> untagged (result_name (p_suffix p) q) /\ ~ In (result_name (p_suffix p) q) (tcols X)).
    { intros q Hq. destruct (U2 q Hq) as (A & B & _). auto. }
    split.
    - eapply joined_same; [exact WX|exact WA|exact PC|exact U1|exact U3|exact J1|exact J2].
    - intros Hp. destruct C1 as [(H & _)|(_ & ->)]; [contradiction|]. destruct C2 as [(H & _)|(_ & ->)]; [contradiction|].
      eapply joined_equal; [exact WX|exact WA|exact NC|exact NO|exact U1|exact U3|exact J1|exact J2].
  Qed.

  (** ** Several joins, with [cols] given *)
  Variable is_numeric : table V -> string -> bool.

  Definition run_in (w : nat -> circumstances) :=
    fix run (i : nat) (steps : list (step (V := V))) (X : table V) : res (list (agg_fitted (V := V)) * table V) :=
      match steps with
      | [] => Ok ([], X)
      | s :: steps' =>
          let! (f, X1) := fit_in (w i) (is_numeric (s_aux s)) (step_params s) X in
          let! (fs, out) := run (S i) steps' X1 in
          Ok (f :: fs, out)
      end.

  Fixpoint NoClashRun (existing : list string) (steps : list (step (V := V))) : Prop :=
    match steps with
    | [] => True
    | s :: steps' =>
        NoClash existing (s_ak s) (s_cols s) (s_ops s) (s_suffix s) /\
        NoClashRun (existing ++ map (result_name (s_suffix s)) (L_multiagg.pairs_of s)) steps'
    end.
  Fixpoint FreshRunIn (w : nat -> circumstances) (i : nat) (existing : list string) (steps : list (step (V := V))) : Prop :=
    match steps with
    | [] => True
    | s :: steps' =>
        Fresh (names_drawn (w i)) (length (s_ak s) + length (L_multiagg.pairs_of s))
              (s_ak s ++ map (result_name (s_suffix s)) (L_multiagg.pairs_of s)) existing /\
        FreshRunIn w (S i) (existing ++ map (result_name (s_suffix s)) (L_multiagg.pairs_of s)) steps'
    end.

  Lemma step_joined w s X f X1 : Possible w -> length (s_mk s) = length (s_ak s) ->
    WFTable X -> WFTable (s_aux s) -> NoDup (s_cols s) -> NoDup (s_ops s) ->
    NoClash (tcols X) (s_ak s) (s_cols s) (s_ops s) (s_suffix s) ->
    Fresh (names_drawn w) (length (s_ak s) + length (L_multiagg.pairs_of s))
          (s_ak s ++ map (result_name (s_suffix s)) (L_multiagg.pairs_of s)) (tcols X) ->
    fit_in w (is_numeric (s_aux s)) (step_params s) X = Ok (f, X1) ->
    Joined null isnull aggf X (s_aux s) (s_mk s) (s_ak s) (s_cols s) (s_ops s) (s_suffix s) X1.
  Proof using Type.
    intros P HL WX WA NC NO [_ U] F E.
    eapply (fit_spec null isnull lib (groups w) aggf (sets w) (proj1 P) (names_drawn w) (is_numeric (s_aux s)) (step_params s) X f X1);
      [exact E|right; reflexivity| | |reflexivity|exact WX|exact WA|exact NC|exact NO| |exact F].
    - right. repeat split; try discriminate. exact HL.
    - right. split; [discriminate|reflexivity].
    - intros _ q Hq. apply (U q Hq).
  Qed.

  Lemma Joined_wf X aux mk ak cols ops suffix out : WFTable X ->
    NoClash (tcols X) ak cols ops suffix ->
    Joined null isnull aggf X aux mk ak cols ops suffix out ->
    WFTable out /\ tcols out = tcols X ++ map (result_name suffix) (list_prod cols ops).
  Proof using Type.
    intros [NX LX] [U1 U2] ((names & T & L & E) & D & F).
    assert (En : names = map (result_name suffix) (list_prod cols ops)).
    { apply E; [exact U1|]. intros q Hq. destruct (U2 q Hq) as (A & B & _). auto. }
    split; [|congruence]. split; [exact D|]. rewrite T, app_length, L. clear - LX F.
    induction F as [|l o ls os (vals & -> & A) F IH]; [intros r []|].
    intros r [<-|Hr].
    - rewrite app_length, (LX l (or_introl eq_refl)). f_equal. eapply Attached_length; eauto.
    - apply IH; [|exact Hr]. intros r' Hr'. apply LX. right. exact Hr'.
  Qed.

  Theorem several_same w1 w2 : (forall i, Possible (w1 i)) -> (forall i, Possible (w2 i)) ->
    forall steps i X fs1 out1 fs2 out2,
    run_in w1 i steps X = Ok (fs1, out1) -> run_in w2 i steps X = Ok (fs2, out2) ->
    WFTable X ->
    (forall s, In s steps -> length (s_mk s) = length (s_ak s) /\ WFTable (s_aux s) /\ NoDup (s_cols s) /\ NoDup (s_ops s)) ->
    NoClashRun (tcols X) steps -> FreshRunIn w1 i (tcols X) steps -> FreshRunIn w2 i (tcols X) steps ->
    out1 = out2 /\ tcols out1 = tcols X ++ concat (map (fun s => map (result_name (s_suffix s)) (L_multiagg.pairs_of s)) steps).
  Proof using Type.
    intros P1 P2. induction steps as [|s steps IH]; intros i X fs1 out1 fs2 out2 E1 E2 WX Hs NC F1 F2.
    - simpl in E1, E2. injection E1 as _ <-. injection E2 as _ <-. split; auto. simpl. now rewrite app_nil_r.
    - cbn [run_in] in E1, E2. apply bindE in E1. destruct E1 as ([f1 X1] & Ef1 & E1).
      apply bindE in E1. destruct E1 as ([gs1 o1] & Er1 & E1). injection E1 as _ <-.
      apply bindE in E2. destruct E2 as ([f2 X2] & Ef2 & E2).
      apply bindE in E2. destruct E2 as ([gs2 o2] & Er2 & E2). injection E2 as _ <-.
      destruct NC as [NC NCs]. destruct F1 as [F1 F1s]. destruct F2 as [F2 F2s].
      destruct (Hs s (or_introl eq_refl)) as (HL & WA & Nc & No).
      pose proof (step_joined _ _ _ _ _ (P1 i) HL WX WA Nc No NC F1 Ef1) as J1.
      pose proof (step_joined _ _ _ _ _ (P2 i) HL WX WA Nc No NC F2 Ef2) as J2.
      assert (EX : X1 = X2).
      { destruct NC as [U1 U2].
        exact (joined_equal null isnull aggf X (s_aux s) (s_mk s) (s_ak s) (s_cols s) (s_ops s) (s_suffix s) X1 X2 WX WA Nc No U1
                 (fun q Hq => let (A, B) := U2 q Hq in conj A (proj1 B)) J1 J2). }
      subst X2. destruct (Joined_wf _ _ _ _ _ _ _ _ WX NC J1) as [W1 T1].
      change (list_prod (s_cols s) (s_ops s)) with (L_multiagg.pairs_of s) in T1.
      destruct (IH (S i) X1 gs1 o1 gs2 o2 Er1 Er2 W1) as [-> T].
      + intros s' Hin. apply Hs. right. exact Hin.
      + rewrite T1. exact NCs.
      + rewrite T1. exact F1s.
      + rewrite T1. exact F2s.
      + split; auto. rewrite T, T1. cbn [map concat]. now rewrite app_assoc.
  Qed.

  Lemma run_steps_in go so draw steps : forall i X,
    run_steps null isnull lib go aggf so is_numeric draw i steps X = run_in (fun i => mk_circumstances go so (draw i)) i steps X.
  Proof using Type.
    induction steps as [|s steps IH]; intros i X; [reflexivity|].
    cbn [run_steps run_in]. unfold fit_in at 1. cbn [groups sets names_drawn].
    destruct (fit_transform null isnull lib go aggf so (draw i) (is_numeric (s_aux s)) (step_params s) X) as [[f X1]|e]; [|reflexivity].
    cbn [bind]. rewrite IH. reflexivity.
  Qed.

  Lemma steps_equal : forall (s1 s2 : list (step (V := V))),
    map s_aux s1 = map s_aux s2 -> map s_mk s1 = map s_mk s2 -> map s_ak s1 = map s_ak s2 ->
    map s_cols s1 = map s_cols s2 -> map s_ops s1 = map s_ops s2 -> map s_suffix s1 = map s_suffix s2 -> s1 = s2.
  Proof using Type.
    induction s1 as [|a s1 IH]; intros [|b s2]; simpl; try discriminate; auto.
    intros E1 E2 E3 E4 E5 E6. injection E1 as A1 E1. injection E2 as A2 E2. injection E3 as A3 E3.
    injection E4 as A4 E4. injection E5 as A5 E5. injection E6 as A6 E6.
    f_equal; [destruct a, b; simpl in *; congruence|auto].
  Qed.

  Lemma StepsAre_det so1 so2 p aux (X : table V) s1 s2 : mp_cols p <> None ->
    StepsAre lib so1 p aux X s1 -> StepsAre lib so2 p aux X s2 -> s1 = s2.
  Proof using Type.
    intros Hc (R1 & K1 & _ & C1 & O1 & S1) (R2 & K2 & _ & C2 & O2 & S2).
    assert (EA : map s_aux s1 = map s_aux s2).
    { eapply Forall2_det; [|exact R1|exact R2]. intros e t t' H1 H2. inversion H1; subst; inversion H2; subst; auto. }
    assert (EL : length s1 = length s2) by (rewrite <- (map_length s_aux s1), EA, map_length; reflexivity).
    destruct (mp_cols p) as [cols|]; [|congruence].
    assert (ES : map s_suffix s1 = map s_suffix s2) by (destruct (mp_suffixes p); congruence).
    apply steps_equal; try congruence.
    - destruct K1 as [(ks & A & _ & _ & B & _)|(A & B & _)]; destruct K2 as [(ks' & A' & _ & _ & B' & _)|(A' & B' & _)]; congruence.
    - destruct K1 as [(ks & A & _ & _ & _ & B)|(A & _ & B)]; destruct K2 as [(ks' & A' & _ & _ & _ & B')|(A' & _ & B')]; congruence.
  Qed.

  Theorem multi_same go1 so1 draw1 go2 so2 draw2 p aux X st1 fs1 out1 st2 fs2 out2 :
    (forall l, Permutation (go1 l) l) -> (forall l, Permutation (so1 l) l) ->
    (forall l, Permutation (go2 l) l) -> (forall l, Permutation (so2 l) l) ->
    mp_cols p <> None ->
    multi_fit_transform null isnull lib go1 aggf so1 is_numeric draw1 p aux X = (st1, Ok (fs1, out1)) ->
    multi_fit_transform null isnull lib go2 aggf so2 is_numeric draw2 p aux X = (st2, Ok (fs2, out2)) ->
    exists steps, StepsAre lib so1 p aux X steps /\
      (WFTable X -> (forall s, In s steps -> WFTable (s_aux s) /\ NoDup (s_cols s) /\ NoDup (s_ops s)) ->
       NoClashRun (tcols X) steps ->
       FreshRunIn (fun i => mk_circumstances go1 so1 (draw1 i)) 0 (tcols X) steps ->
       FreshRunIn (fun i => mk_circumstances go2 so2 (draw2 i)) 0 (tcols X) steps ->
       out1 = out2).
  Proof using Type.
    intros G1 S1 G2 S2 Hc E1 E2.
    destruct (L_multiagg.fit_inv null isnull lib go1 aggf so1 is_numeric draw1 p aux X st1 fs1 out1 E1) as (steps & A1 & _ & _ & R1).
    destruct (L_multiagg.fit_inv null isnull lib go2 aggf so2 is_numeric draw2 p aux X st2 fs2 out2 E2) as (steps2 & A2 & _ & _ & R2).
    assert (steps2 = steps) by (eapply StepsAre_det; eauto). subst steps2.
    exists steps. split; auto. intros WX Hs NC F1 F2.
    rewrite run_steps_in in R1, R2.
    destruct (several_same (fun i => mk_circumstances go1 so1 (draw1 i)) (fun i => mk_circumstances go2 so2 (draw2 i)) (fun i => conj G1 S1) (fun i => conj G2 S2) steps 0 X fs1 out1 fs2 out2 R1 R2 WX) as [-> _]; auto.
    intros s Hin. destruct A1 as (_ & _ & HL & _). split; auto.
  Qed.
End Fits.
