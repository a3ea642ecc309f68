(** Several joins whose columns are enumerated in different orders. *)
From Verif Require Import Base M_names M_oncols M_agg M_str M_multiagg L_names L_leftjoin L_agg L_agg2 L_multiagg L_reseed.
From Coq Require Import Permutation.
Open Scope string_scope.
Open Scope list_scope.
Open Scope nat_scope.
Set Default Proof Using "Type".

Section Several.
  Context {V : Type} {EV : EqD V}.
  Variable null : V.
  Variable isnull : V -> bool.
  Variable lib : library.
  Variable aggf : string -> list V -> res V.
  Variable is_numeric : table V -> string -> bool.

  Notation Attached := (Attached null isnull aggf).
  Notation Joined := (Joined null isnull aggf).

  (** What is attached to a row only depends on the values that it has in the columns of the key. *)
  Lemma Attached_move (X1 X2 aux : table V) mk ak pairs l1 l2 vals :
    (forall c v, ValueAt (tcols X2) l2 c v -> ValueAt (tcols X1) l1 c v) ->
    Attached X2 aux mk ak pairs l2 vals -> Attached X1 aux mk ak pairs l1 vals.
  Proof.
    intros H (k & Hk & R). exists k. split; [|exact R]. clear R. unfold ValuesAt in *.
    induction Hk as [|c v cs vs Hc _ IH]; constructor; [apply H; exact Hc|exact IH].
  Qed.

  Lemma joined_same_both X1 X2 aux mk ak cols1 cols2 ops suffix out1 out2 :
    WFTable X1 -> WFTable X2 -> WFTable aux -> SameUpToColumnOrder X1 X2 -> Permutation cols1 cols2 ->
    NoClash (tcols X1) ak cols1 ops suffix -> NoClash (tcols X2) ak cols2 ops suffix ->
    Joined X1 aux mk ak cols1 ops suffix out1 -> Joined X2 aux mk ak cols2 ops suffix out2 ->
    SameUpToColumnOrder out1 out2.
  Proof.
    intros W1 W2 [NA _] [PX FX] P C1 C2 J1 J2.
    destruct (Joined_wf null isnull aggf _ _ _ _ _ _ _ _ W1 C1 J1) as [_ T1].
    destruct (Joined_wf null isnull aggf _ _ _ _ _ _ _ _ W2 C2 J2) as [_ T2].
    destruct J1 as (_ & _ & F1). destruct J2 as (_ & _ & F2).
    pose proof (list_prod_perm _ _ ops P) as PP.
    split.
    - rewrite T1, T2. apply Permutation_app; [exact PX|]. apply Permutation_map. exact PP.
    - rewrite T1, T2. clear T1 T2 C1 C2. destruct W1 as [N1 L1]. destruct W2 as [N2 L2].
      revert F1 F2. generalize (trows out1) as o1. generalize (trows out2) as o2. revert L1 L2.
      induction FX as [|l1 l2 r1 r2 HR FX IH]; intros L1 L2 o2 o1 F1 F2.
      + inversion F1; subst. inversion F2; subst. constructor.
      + inversion F1 as [|? ? ? o1' (v1 & -> & A1) F1']; subst. inversion F2 as [|? ? ? o2' (v2 & -> & A2) F2']; subst.
        constructor.
        * intros c v. rewrite !ValueAt_app by (first [apply L1|apply L2]; left; reflexivity). rewrite !ValueAt_map.
          assert (A2' : Attached X1 aux mk ak (list_prod cols2 ops) l1 v2).
          { eapply Attached_move; [|exact A2]. intros c' v'. apply HR. }
          split; (intros [H|(p & -> & H)]; [left; apply HR; exact H|right; exists p; split; auto]).
          -- eapply (Attached_same null isnull aggf X1 aux mk ak); [exact N1|exact NA| |exact A1|exact A2'|exact H]. intros q. apply Permutation_in. exact PP.
          -- eapply (Attached_same null isnull aggf X1 aux mk ak); [exact N1|exact NA| |exact A2'|exact A1|exact H]. intros q. apply Permutation_in. apply Permutation_sym. exact PP.
        * apply IH; auto; intros r Hr; [apply L1|apply L2]; right; exact Hr.
  Qed.

  (** Joins that differ only by the order of the columns to aggregate. *)
  Definition StepLike (s1 s2 : step (V := V)) : Prop :=
    s_aux s1 = s_aux s2 /\ s_mk s1 = s_mk s2 /\ s_ak s1 = s_ak s2 /\ Permutation (s_cols s1) (s_cols s2) /\
    s_ops s1 = s_ops s2 /\ s_suffix s1 = s_suffix s2.

  Lemma NoClash_like existing1 existing2 ak cols1 cols2 ops suffix : Permutation existing1 existing2 -> Permutation cols1 cols2 ->
    NoClash existing1 ak cols1 ops suffix -> NoClash existing2 ak cols2 ops suffix.
  Proof.
    intros PE PC [U1 U2]. split; [exact U1|]. intros q Hq.
    destruct (U2 q) as (A & B & C).
    - eapply Permutation_in; [apply list_prod_perm; apply Permutation_sym; exact PC|exact Hq].
    - split; auto. split; auto. intros I. apply B. eapply Permutation_in; [apply Permutation_sym; exact PE|exact I].
  Qed.

  Theorem several_like w1 w2 : (forall i, Possible (V := V) (w1 i)) -> (forall i, Possible (V := V) (w2 i)) ->
    forall steps1 steps2, Forall2 StepLike steps1 steps2 ->
    forall i X1 X2 fs1 out1 fs2 out2,
    run_in null isnull lib aggf is_numeric w1 i steps1 X1 = Ok (fs1, out1) ->
    run_in null isnull lib aggf is_numeric w2 i steps2 X2 = Ok (fs2, out2) ->
    WFTable X1 -> WFTable X2 -> SameUpToColumnOrder X1 X2 ->
    (forall s, In s steps1 -> length (s_mk s) = length (s_ak s) /\ WFTable (s_aux s) /\ NoDup (s_cols s) /\ NoDup (s_ops s)) ->
    NoClashRun (tcols X1) steps1 -> FreshRunIn w1 i (tcols X1) steps1 -> FreshRunIn w2 i (tcols X2) steps2 ->
    SameUpToColumnOrder out1 out2.
  Proof.
    intros P1 P2 steps1 steps2 FL. induction FL as [|s1 s2 steps1 steps2 SL FL IH]; intros i X1 X2 fs1 out1 fs2 out2 E1 E2 W1 W2 HX Hs NC F1 F2.
    - simpl in E1, E2. injection E1 as _ <-. injection E2 as _ <-. exact HX.
    - cbn [run_in] in E1, E2. apply bindE in E1. destruct E1 as ([f1 Y1] & Ef1 & E1).
      apply bindE in E1. destruct E1 as ([gs1 o1] & Er1 & E1). injection E1 as _ <-.
      apply bindE in E2. destruct E2 as ([f2 Y2] & Ef2 & E2).
      apply bindE in E2. destruct E2 as ([gs2 o2] & Er2 & E2). injection E2 as _ <-.
      destruct NC as [NC NCs]. destruct F1 as [F1 F1s]. destruct F2 as [F2 F2s].
      destruct (Hs s1 (or_introl eq_refl)) as (HL & WA & Nc & No).
      destruct SL as (SA & SM & SK & SC & SO & SS).
      assert (NC2 : NoClash (tcols X2) (s_ak s2) (s_cols s2) (s_ops s2) (s_suffix s2)).
      { rewrite <- SK, <- SO, <- SS. eapply NoClash_like; [apply HX|exact SC|exact NC]. }
      pose proof (step_joined null isnull lib aggf is_numeric _ _ _ _ _ (P1 i) HL W1 WA Nc No NC F1 Ef1) as J1.
      assert (HL2 : length (s_mk s2) = length (s_ak s2)) by congruence.
      assert (WA2 : WFTable (s_aux s2)) by (rewrite <- SA; exact WA).
      assert (Nc2 : NoDup (s_cols s2)) by (eapply Permutation_NoDup; eauto).
      assert (No2 : NoDup (s_ops s2)) by (rewrite <- SO; exact No).
      pose proof (step_joined null isnull lib aggf is_numeric _ _ _ _ _ (P2 i) HL2 W2 WA2 Nc2 No2 NC2 F2 Ef2) as J2.
      destruct (Joined_wf null isnull aggf _ _ _ _ _ _ _ _ W1 NC J1) as [V1 T1].
      destruct (Joined_wf null isnull aggf _ _ _ _ _ _ _ _ W2 NC2 J2) as [V2 T2].
      change (list_prod (s_cols s1) (s_ops s1)) with (L_multiagg.pairs_of s1) in T1.
      change (list_prod (s_cols s2) (s_ops s2)) with (L_multiagg.pairs_of s2) in T2.
      eapply (IH (S i) Y1 Y2 gs1 o1 gs2 o2 Er1 Er2 V1 V2).
      + rewrite <- SA, <- SM, <- SK, <- SO, <- SS in J2. rewrite <- SK, <- SO, <- SS in NC2.
        exact (joined_same_both _ _ _ _ _ _ _ _ _ _ _ W1 W2 WA HX SC NC NC2 J1 J2).
      + intros s Hin. apply Hs. right. exact Hin.
      + rewrite T1. exact NCs.
      + rewrite T1. exact F1s.
      + rewrite T2. exact F2s.
  Qed.

  Lemma steps_like : forall (s1 s2 : list (step (V := V))),
    map s_aux s1 = map s_aux s2 -> map s_mk s1 = map s_mk s2 -> map s_ak s1 = map s_ak s2 ->
    Forall2 (fun a b => Permutation (s_cols a) (s_cols b)) s1 s2 ->
    map s_ops s1 = map s_ops s2 -> map s_suffix s1 = map s_suffix s2 -> Forall2 StepLike s1 s2.
  Proof.
    induction s1 as [|a s1 IH]; intros [|b s2]; simpl; try discriminate; [constructor|].
    intros E1 E2 E3 E4 E5 E6. injection E1 as A1 E1. injection E2 as A2 E2. injection E3 as A3 E3.
    inversion E4 as [|? ? ? ? A4 E4']; subst. injection E5 as A5 E5. injection E6 as A6 E6.
    constructor; [repeat split; assumption|auto].
  Qed.

  Lemma StepsAre_like so1 so2 p aux (X : table V) s1 s2 :
    (forall l, Permutation (so1 l) l) -> (forall l, Permutation (so2 l) l) ->
    StepsAre lib so1 p aux X s1 -> StepsAre lib so2 p aux X s2 -> Forall2 StepLike s1 s2.
  Proof.
    intros P1 P2 (R1 & K1 & _ & C1 & O1 & S1) (R2 & K2 & _ & C2 & O2 & S2).
    assert (EA : map s_aux s1 = map s_aux s2).
    { eapply Forall2_det; [|exact R1|exact R2]. intros e t t' H1 H2. inversion H1; subst; inversion H2; subst; auto. }
    assert (EL : length s1 = length s2) by (rewrite <- (map_length s_aux s1), EA, map_length; reflexivity).
    assert (ES : map s_suffix s1 = map s_suffix s2) by (destruct (mp_suffixes p); congruence).
    assert (EK : map s_ak s1 = map s_ak s2).
    { destruct K1 as [(ks & A & _ & _ & _ & B)|(A & _ & B)]; destruct K2 as [(ks' & A' & _ & _ & _ & B')|(A' & _ & B')]; congruence. }
    apply steps_like; try congruence.
    - destruct K1 as [(ks & A & _ & _ & B & _)|(A & B & _)]; destruct K2 as [(ks' & A' & _ & _ & B' & _)|(A' & B' & _)]; congruence.
    - destruct (mp_cols p) as [cols|].
      + rewrite <- C2 in C1. clear -C1. revert s2 C1. induction s1 as [|a s1 IH]; intros [|b s2]; simpl; try discriminate; [constructor|].
        intros E. injection E as A E. constructor; [rewrite A; apply Permutation_refl|auto].
      + clear -C1 C2 P1 P2 EA EK. revert s2 C2 EA EK. induction s1 as [|a s1 IH]; intros [|b s2]; simpl; try discriminate; [constructor|].
        intros C2 EA EK. injection EA as A EA. injection EK as K EK. constructor.
        * rewrite (C1 a (or_introl eq_refl)), (C2 b (or_introl eq_refl)), A, K. rewrite P1. symmetry. apply P2.
        * apply IH; auto. intros s I. apply C1. right. exact I.
  Qed.

  Theorem multi_like go1 so1 draw1 go2 so2 draw2 p aux X st1 fs1 out1 st2 fs2 out2 :
    (forall l, Permutation (go1 l) l) -> (forall l, Permutation (so1 l) l) ->
    (forall l, Permutation (go2 l) l) -> (forall l, Permutation (so2 l) l) ->
    multi_fit_transform null isnull lib go1 aggf so1 is_numeric draw1 p aux X = (st1, Ok (fs1, out1)) ->
    multi_fit_transform null isnull lib go2 aggf so2 is_numeric draw2 p aux X = (st2, Ok (fs2, out2)) ->
    exists steps1 steps2, StepsAre lib so1 p aux X steps1 /\ StepsAre lib so2 p aux X steps2 /\
      (WFTable X -> (forall s, In s steps1 -> WFTable (s_aux s) /\ NoDup (s_cols s) /\ NoDup (s_ops s)) ->
       NoClashRun (tcols X) steps1 ->
       FreshRunIn (fun i => mk_circumstances go1 so1 (draw1 i)) 0 (tcols X) steps1 ->
       FreshRunIn (fun i => mk_circumstances go2 so2 (draw2 i)) 0 (tcols X) steps2 ->
       SameUpToColumnOrder out1 out2).
  Proof.
    intros G1 S1 G2 S2 E1 E2.
    destruct (L_multiagg.fit_inv null isnull lib go1 aggf so1 is_numeric draw1 p aux X st1 fs1 out1 E1) as (steps1 & A1 & _ & _ & R1).
    destruct (L_multiagg.fit_inv null isnull lib go2 aggf so2 is_numeric draw2 p aux X st2 fs2 out2 E2) as (steps2 & A2 & _ & _ & R2).
    exists steps1, steps2. split; [exact A1|]. split; [exact A2|]. intros WX Hs NC F1 F2.
    rewrite run_steps_in in R1, R2.
    refine (several_like (fun i => mk_circumstances go1 so1 (draw1 i)) (fun i => mk_circumstances go2 so2 (draw2 i)) (fun i => conj G1 S1) (fun i => conj G2 S2)
      steps1 steps2 (StepsAre_like _ _ _ _ _ _ _ S1 S2 A1 A2) 0 X X fs1 out1 fs2 out2 R1 R2 WX WX _ _ NC F1 F2).
    - split; [apply Permutation_refl|]. clear. induction (trows X); constructor; auto. intros; reflexivity.
    - intros s Hin. destruct A1 as (_ & _ & HL & _). split; auto.
  Qed.
End Several.
