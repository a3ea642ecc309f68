(** Several aggregation joins: specification and lemmas. *)
From Verif Require Import Base M_str M_names M_oncols M_agg M_multiagg L_names L_leftjoin L_agg L_agg2.
From Coq Require Import Permutation.
Open Scope string_scope.
Open Scope list_scope.
Open Scope nat_scope.

Section Multi.
  Context {V : Type} {EV : EqD V}.
  Variable null : V.
  Variable isnull : V -> bool.
  Variable lib : library.
  Variable group_order : list (list V) -> list (list V).
  Variable aggf : string -> list V -> res V.
  Variable set_order : list string -> list string.
  Variable is_numeric : table V -> string -> bool.
  Hypothesis group_order_perm : forall l, Permutation (group_order l) l.

  (** ** Specification *)
  (** The joins that the parameters ask for, when "X" stands for [X]. *)
  Inductive Resolved (X : table V) : entry -> table V -> Prop :=
  | Res_X : Resolved X EX X
  | Res_table t : Resolved X (ETable lib t) t.

  (** "X" replaced by the table [X]. *)
  Definition freeze (X : table V) (e : entry (V := V)) : entry := match e with EX => ETable lib X | _ => e end.

  Definition StepsAre (p : multi_params) (aux : list entry) (X : table V) (steps : list (step (V := V))) : Prop :=
    Forall2 (Resolved X) aux (map s_aux steps) /\
    ((exists ks, mp_keys p = Some ks /\ mp_main_keys p = None /\ mp_aux_keys p = None /\
        map s_mk steps = ks /\ map s_ak steps = ks) \/
     (mp_keys p = None /\ mp_main_keys p = Some (map s_mk steps) /\ mp_aux_keys p = Some (map s_ak steps))) /\
    (forall s, In s steps -> length (s_mk s) = length (s_ak s)) /\
    match mp_cols p with
    | Some cols => map s_cols steps = cols
    | None => forall s, In s steps -> s_cols s = set_order (other_columns (tcols (s_aux s)) (s_ak s))
    end /\
    map s_ops steps = mp_operations p /\
    match mp_suffixes p with
    | Some l => map s_suffix steps = l
    | None => map s_suffix steps = map (fun i => ("_" ++ str_nat i)%string) (seq 0 (length steps))
    end.

  Definition pairs_of (s : step (V := V)) : list (string * string) := list_prod (s_cols s) (s_ops s).

  (** What is assumed of each join. *)
  Definition StepOk (X : table V) (s : step (V := V)) : Prop :=
    WFTable (s_aux s) /\ NoDup (s_cols s) /\ NoDup (s_ops s) /\
    (forall c, In c (s_mk s) -> In c (tcols X)) /\
    (lib = Pandas -> forall q, In q (pairs_of s) -> ~ In (result_name (s_suffix s) q) (s_ak s)).

  Definition FreshStep (draw : nat -> string) (s : step (V := V)) (X : table V) : Prop :=
    Fresh draw (length (s_ak s) + length (pairs_of s)) (s_ak s ++ map (result_name (s_suffix s)) (pairs_of s)) (tcols X).
  (** The random strings [d] are fresh at each join made by the fit that draws [draw]. *)
  Fixpoint FreshRun (draw d : nat -> nat -> string) (i : nat) (steps : list (step (V := V))) (X : table V) : Prop :=
    match steps with
    | [] => True
    | s :: steps' =>
        FreshStep (d i) s X /\
        forall f X1, fit_transform null isnull lib group_order aggf set_order (draw i) (is_numeric (s_aux s)) (step_params s) X = Ok (f, X1) ->
          FreshRun draw d (S i) steps' X1
    end.

  (** The row [o] is the row [x] of [X] followed by the values that each join attaches to it. *)
  Definition AllAttached (X : table V) (steps : list (step (V := V))) (x o : list V) : Prop :=
    exists vals, o = x ++ concat vals /\
      Forall2 (fun s v => Attached null isnull aggf X (s_aux s) (s_mk s) (s_ak s) (pairs_of s) x v) steps vals.

  (** ** Lemmas *)
  Lemma bindE : forall {A B} (r : res A) (f : A -> res B) b, bind r f = Ok b -> exists a, r = Ok a /\ f a = Ok b.
  Proof. intros A B [a|e] f b E; [eauto|discriminate]. Qed.

  Lemma replace_X_ok : forall tuple X aux st ts, replace_X lib tuple X aux = (st, Ok ts) ->
    Forall2 (fun e t => e = EX /\ t = (lib, X) \/ e = ETable (fst t) (snd t)) aux ts /\
    (tuple = true -> ~ In EX aux) /\
    st = map (freeze X) aux.
  Proof.
    induction aux as [|e aux IH]; intros st ts E; cbn [replace_X] in E.
    - injection E as <- <-. split; [constructor|]. split; [intros _ []|reflexivity].
    - destruct e as [|l t|]; [|destruct (replace_X lib tuple X aux) as [st1 r] eqn:E1|discriminate].
      + destruct tuple; [discriminate|]. destruct (replace_X lib false X aux) as [st1 r] eqn:E1.
        injection E as <- E. apply bindE in E. destruct E as (l & -> & E). injection E as <-.
        destruct (IH st1 l eq_refl) as (F & _ & ->). split; [constructor; [left; split; reflexivity|exact F]|].
        split; [discriminate|reflexivity].
      + injection E as <- E. apply bindE in E. destruct E as (l' & -> & E). injection E as <-.
        destruct (IH st1 l' eq_refl) as (F & N & ->). split; [constructor; [right; reflexivity|exact F]|].
        split; [intros Et [X0|I]; [discriminate|exact (N Et I)]|reflexivity].
  Qed.

  Lemma check_dataframes_ok : forall tuple X aux st ts, check_dataframes lib tuple X aux = (st, Ok ts) ->
    Forall2 (Resolved X) aux ts /\ (tuple = true -> ~ In EX aux) /\
    st = map (freeze X) aux.
  Proof.
    intros tuple X aux st ts E. unfold check_dataframes in E.
    destruct (replace_X lib tuple X aux) as [st1 r] eqn:E1. injection E as <- E.
    apply bindE in E. destruct E as (l & -> & E).
    destruct (forallb _ l) eqn:Ef; [|discriminate]. injection E as <-.
    destruct (replace_X_ok _ _ _ _ _ E1) as (F & N & ->). split; [|split; [exact N|reflexivity]].
    rewrite forallb_forall in Ef. clear -F Ef. induction F as [|e t aux ts H F IH]; simpl; constructor.
    - destruct H as [[-> ->]| ->]; [constructor|].
      specialize (Ef t (or_introl eq_refl)). apply (proj1 (eqb_of_true _ _)) in Ef. rewrite Ef. constructor.
    - apply IH. intros x I. apply Ef. right. exact I.
  Qed.

  Lemma zip_steps_maps : forall aux mks aks cols ops suffixes, length mks = length aux -> length aks = length aux ->
    length cols = length aux -> length ops = length aux -> length suffixes = length aux ->
    let steps := zip_steps aux mks aks cols ops suffixes in
    map s_aux steps = aux /\ map s_mk steps = mks /\ map s_ak steps = aks /\ map s_cols steps = cols /\
    map s_ops steps = ops /\ map (s_suffix (V := V)) steps = suffixes.
  Proof.
    induction aux as [|t aux IH]; intros mks aks cols ops suffixes L1 L2 L3 L4 L5;
      destruct mks, aks, cols, ops, suffixes; try discriminate; [repeat split|].
    simpl in *. destruct (IH mks aks cols ops suffixes) as (H1 & H2 & H3 & H4 & H5 & H6); try congruence.
    repeat split; congruence.
  Qed.

  Lemma fit_inv : forall draw p aux X st fs out,
    multi_fit_transform null isnull lib group_order aggf set_order is_numeric draw p aux X = (st, Ok (fs, out)) ->
    exists steps, StepsAre p aux X steps /\ (mp_tuple p = true -> ~ In EX aux) /\
      st = map (freeze X) aux /\
      run_steps null isnull lib group_order aggf set_order is_numeric draw 0 steps X = Ok (fs, out).
  Proof.
    intros draw p aux X st fs out E. unfold multi_fit_transform in E.
    destruct (check_dataframes lib (mp_tuple p) X aux) as [st1 r] eqn:Ed. injection E as <- E.
    apply bindE in E. destruct E as (ts & -> & E). apply bindE in E. destruct E as ([mks aks] & Ek & E).
    apply bindE in E. destruct E as (cols & Ec & E). apply bindE in E. destruct E as (ops & Eo & E).
    apply bindE in E. destruct E as (sf & Es & E).
    destruct (check_dataframes_ok _ _ _ _ _ Ed) as (F & N & ->).
    unfold check_keys in Ek. apply bindE in Ek. destruct Ek as ([mks' aks'] & Ek1 & Ek).
    destruct (length ts =? length mks') eqn:L1; [|discriminate]. apply Nat.eqb_eq in L1. cbn [negb] in Ek.
    destruct (length ts =? length aks') eqn:L2; [|discriminate]. apply Nat.eqb_eq in L2. cbn [negb] in Ek.
    destruct (forallb _ (combine mks' aks')) eqn:Ef; [|discriminate]. injection Ek as <- <-.
    assert (Lc : length cols = length ts).
    { unfold check_cols in Ec. destruct (mp_cols p) as [c|].
      - destruct (length c =? length ts) eqn:L; [|discriminate]. injection Ec as <-. apply Nat.eqb_eq. exact L.
      - injection Ec as <-. rewrite map_length, combine_length. lia. }
    unfold check_ops in Eo. destruct (length (mp_operations p) =? length ts) eqn:Lo; [|discriminate].
    injection Eo as <-. apply Nat.eqb_eq in Lo.
    assert (Lsf : length sf = length ts).
    { unfold check_suffixes in Es. destruct (mp_suffixes p) as [l|].
      - destruct (length l =? length ts) eqn:L; [|discriminate]. injection Es as <-. apply Nat.eqb_eq. exact L.
      - injection Es as <-. rewrite map_length, seq_length. reflexivity. }
    destruct (zip_steps_maps ts mks' aks' cols (mp_operations p) sf) as (M1 & M2 & M3 & M4 & M5 & M6); try congruence.
    set (steps := zip_steps ts mks' aks' cols (mp_operations p) sf) in *.
    assert (Ls : length steps = length ts) by (rewrite <- M1, map_length; reflexivity).
    exists steps. split; [|split; [exact N|split; [reflexivity|exact E]]].
    split; [rewrite M1; exact F|]. split.
    { destruct (mp_keys p) as [ks|]; destruct (mp_main_keys p) as [m|]; destruct (mp_aux_keys p) as [a|]; try discriminate.
      - injection Ek1 as <- <-. left. exists ks. repeat split; congruence.
      - injection Ek1 as <- <-. right. repeat split; congruence. }
    split.
    { intros s I. rewrite forallb_forall in Ef. assert (I2 : In (s_mk s, s_ak s) (combine mks' aks')).
      { rewrite <- M2, <- M3. clear -I. induction steps as [|s0 l IH]; [destruct I|]. simpl. destruct I as [<-|I]; [left; reflexivity|right; auto]. }
      apply Ef in I2. apply Nat.eqb_eq in I2. exact I2. }
    split.
    { unfold check_cols in Ec. destruct (mp_cols p) as [c|].
      - destruct (length c =? length ts); [|discriminate]. congruence.
      - injection Ec as Ec. intros s I. 
        assert (G : map (fun s => set_order (filter (fun c => negb (mem c (s_ak s))) (tcols (s_aux s)))) steps = map s_cols steps).
        { rewrite M4, <- Ec, <- M1, <- M3. clear. induction steps as [|s0 l IH]; [reflexivity|]. simpl. f_equal. exact IH. }
        symmetry. clear -G I. induction steps as [|s0 l IH]; [destruct I|]. simpl in G. injection G as G1 G2.
        destruct I as [<-|I]; [exact G1|]. apply IH; assumption. }
    split; [exact M5|].
    unfold check_suffixes in Es. destruct (mp_suffixes p) as [l|].
    - destruct (length l =? length ts); [|discriminate]. congruence.
    - injection Es as Es. rewrite M6, Ls. symmetry. exact Es.
  Qed.

  Lemma Attached_prefix : forall (X X1 aux : table V) mk ak pairs x more vals names,
    NoDup (tcols X1) -> tcols X1 = tcols X ++ names -> length x = length (tcols X) ->
    (forall c, In c mk -> In c (tcols X)) ->
    Attached null isnull aggf X1 aux mk ak pairs (x ++ more) vals -> Attached null isnull aggf X aux mk ak pairs x vals.
  Proof.
    intros X X1 aux mk ak pairs x more vals names ND EX L Hmk (k & Hk & H). exists k. split; [|exact H].
    destruct (values_exist (tcols X) x mk L Hmk) as [k' Hk'].
    assert (k = k') as ->; [|exact Hk'].
    eapply ValuesAt_det; [exact ND|exact Hk|]. unfold ValuesAt in *.
    clear -Hk' EX. induction Hk' as [|c v cs vs (i & E1 & E2) _ IH]; constructor; [|exact IH].
    exists i. rewrite EX, !nth_error_app1; [split; assumption| |]; apply nth_error_Some; congruence.
  Qed.

  Lemma step_spec : forall dr s X f X1, StepOk X s -> WFTable X -> length (s_mk s) = length (s_ak s) -> FreshStep dr s X ->
    fit_transform null isnull lib group_order aggf set_order dr (is_numeric (s_aux s)) (step_params s) X = Ok (f, X1) ->
    Joined null isnull aggf X (s_aux s) (s_mk s) (s_ak s) (s_cols s) (s_ops s) (s_suffix s) X1.
  Proof.
    intros dr s X f X1 (H1 & H2 & H3 & H4 & H5) WX L F E.
    eapply (fit_spec null isnull lib group_order aggf set_order group_order_perm dr _ (step_params s)); try eassumption.
    - right. reflexivity.
    - right. cbn. repeat split; try discriminate. exact L.
    - right. split; [discriminate|reflexivity].
    - reflexivity.
  Qed.

  Lemma Joined_WF : forall X aux mk ak cols ops suffix out, WFTable X ->
    Joined null isnull aggf X aux mk ak cols ops suffix out -> WFTable out.
  Proof.
    intros X aux mk ak cols ops suffix out [_ WX] ((names & E1 & L & _) & ND & F). split; [exact ND|].
    intros r I. destruct (L_tablevec3.Forall2_in_r _ _ _ _ F I) as (x & Ix & vals & -> & k & _ & HV).
    rewrite E1, !app_length, (WX x Ix), L. f_equal. destruct HV as [(_ & rows & _ & _ & C)|(_ & ->)].
    - apply (Computed_length aggf) in C. exact C.
    - apply repeat_length.
  Qed.

  Lemma run_spec : forall draw steps i X fs out, WFTable X ->
    (forall s, In s steps -> length (s_mk s) = length (s_ak s)) ->
    (forall s, In s steps -> StepOk X s) -> FreshRun draw draw i steps X ->
    run_steps null isnull lib group_order aggf set_order is_numeric draw i steps X = Ok (fs, out) ->
    (exists names, tcols out = tcols X ++ concat names /\ map (@length _) names = map (fun s => length (pairs_of s)) steps) /\
    WFTable out /\ Forall2 (AllAttached X steps) (trows X) (trows out).
  Proof.
    induction steps as [|s steps IH]; intros i X fs out WX HL HS HF E; cbn [run_steps] in E.
    - injection E as <- <-. split; [exists []; split; [simpl; rewrite app_nil_r; reflexivity|reflexivity]|].
      split; [exact WX|]. assert (G : forall l : list (list V), Forall2 (AllAttached X []) l l).
      { induction l as [|x l IHl]; constructor; [|exact IHl]. exists []. split; [simpl; rewrite app_nil_r; reflexivity|constructor]. }
      apply G.
    - apply bindE in E. destruct E as ([f X1] & E1 & E). apply bindE in E. destruct E as ([fs1 out1] & E2 & E).
      injection E as <- <-. destruct HF as [HF1 HF2].
      pose proof (step_spec (draw i) s X f X1 (HS s (or_introl eq_refl)) WX (HL s (or_introl eq_refl)) HF1 E1) as J.
      pose proof (Joined_WF _ _ _ _ _ _ _ _ WX J) as W1.
      destruct J as ((names & C1 & C2 & _) & ND & F1).
      destruct (IH (S i) X1 fs1 out1) as ((names' & D1 & D2) & WO & F2).
      + exact W1.
      + intros s' I. apply HL. right. exact I.
      + intros s' I. destruct (HS s' (or_intror I)) as (A1 & A2 & A3 & A4 & A5). repeat split; try assumption; try apply A1.
        intros c Ic. rewrite C1. apply in_or_app. left. apply A4. exact Ic.
      + apply (HF2 f X1 E1).
      + exact E2.
      + split.
        { exists (names :: names'). split; [rewrite D1, C1, <- app_assoc; reflexivity|]. simpl. f_equal; [exact C2|exact D2]. }
        split; [exact WO|].
        (* compose *)
        assert (HS' : forall s', In s' steps -> forall c, In c (s_mk s') -> In c (tcols X)).
        { intros s' I. destruct (HS s' (or_intror I)) as (_ & _ & _ & A4 & _). exact A4. }
        destruct WX as [_ WXr]. destruct W1 as [N1 _].
        assert (Lx : forall x, In x (trows X) -> length x = length (tcols X)) by exact WXr. clear WXr.
        revert F2. generalize (trows out1) as rows2. revert Lx.
        induction F1 as [|x x1 xs xs1 (vals & -> & HA) F1 IHF]; intros Lx rows2 F2.
        * inversion F2; subst. constructor.
        * inversion F2 as [|? o ? os (vals' & Eo & FA) F2']; subst. constructor.
          -- exists (vals :: vals'). split; [simpl; rewrite <- app_assoc; reflexivity|]. constructor; [exact HA|].
             assert (FA' : Forall2 (fun s0 v => Attached null isnull aggf X (s_aux s0) (s_mk s0) (s_ak s0) (pairs_of s0) x v) steps vals').
             { apply (fun Hh => L_tablevec3.Forall2_impl_in _ _ _ _ Hh FA). intros s' v I _ H.
               eapply Attached_prefix; [exact N1|exact C1|apply Lx; left; reflexivity|exact (HS' s' I)|exact H]. }
             exact FA'.
          -- apply IHF; [intros y Iy; apply Lx; right; exact Iy|exact F2'].
  Qed.

  Theorem multi_fit_spec : forall draw p aux X st fs out,
    multi_fit_transform null isnull lib group_order aggf set_order is_numeric draw p aux X = (st, Ok (fs, out)) ->
    WFTable X ->
    exists steps, StepsAre p aux X steps /\
      ((forall s, In s steps -> StepOk X s) -> FreshRun draw draw 0 steps X ->
       (exists names, tcols out = tcols X ++ concat names /\ map (@length _) names = map (fun s => length (pairs_of s)) steps) /\
       NoDup (tcols out) /\ Forall2 (AllAttached X steps) (trows X) (trows out)).
  Proof.
    intros draw p aux X st fs out E WX. destruct (fit_inv draw p aux X st fs out E) as (steps & HS & _ & _ & ER).
    exists steps. split; [exact HS|]. intros HO HF.
    destruct (run_spec draw steps 0 X fs out WX) as (N & W & F); try assumption.
    { destruct HS as (_ & _ & HL & _). exact HL. }
    split; [exact N|]. split; [exact (proj1 W)|exact F].
  Qed.

  (** *** Transform *)
  Lemma run_transform_spec : forall draw draw' steps i X fs out X', WFTable X -> WFTable X' -> tcols X' = tcols X ->
    (forall s, In s steps -> length (s_mk s) = length (s_ak s)) ->
    (forall s, In s steps -> StepOk X s) -> FreshRun draw draw i steps X -> 
    FreshRun draw draw' i steps X ->
    run_steps null isnull lib group_order aggf set_order is_numeric draw i steps X = Ok (fs, out) ->
    exists out', multi_transform null isnull lib draw' i fs X' = Ok out' /\ tcols out' = tcols out /\
      Forall2 (AllAttached X' steps) (trows X') (trows out').
  Proof.
    induction steps as [|s steps IH]; intros i X fs out X' WX WX' EX HL HS HF HD E; cbn [run_steps] in E.
    - injection E as <- <-. exists X'. split; [reflexivity|]. split; [exact EX|].
      assert (G : forall l : list (list V), Forall2 (AllAttached X' []) l l).
      { induction l as [|x l IHl]; constructor; [|exact IHl]. exists []. split; [simpl; rewrite app_nil_r; reflexivity|constructor]. }
      apply G.
    - apply bindE in E. destruct E as ([f X1] & E1 & E). apply bindE in E. destruct E as ([fs1 out1] & E2 & E).
      injection E as <- <-. destruct HF as [HF1 HF2].
      pose proof (step_spec (draw i) s X f X1 (HS s (or_introl eq_refl)) WX (HL s (or_introl eq_refl)) HF1 E1) as J.
      pose proof (Joined_WF _ _ _ _ _ _ _ _ WX J) as W1.
      assert (HS1 : forall s', In s' steps -> StepOk X1 s').
      { intros s' I. destruct (HS s' (or_intror I)) as (A1 & A2 & A3 & A4 & A5). repeat split; try assumption; try apply A1.
        intros c Ic. destruct J as ((names & C1 & _) & _). rewrite C1. apply in_or_app. left. apply A4. exact Ic. }
      destruct J as ((names & C1 & C2 & _) & ND & F1).
      destruct HD as [HF0 HD2].
      destruct (HS s (or_introl eq_refl)) as (A1 & A2 & A3 & A4 & A5).
      pose proof (transform_spec null isnull lib group_order aggf set_order group_order_perm (draw i) (is_numeric (s_aux s)) (step_params s)
        X f X1 (s_aux s) (s_mk s) (s_ak s) (s_cols s) (s_ops s) (draw' i) X' E1) as T.
      destruct (eqd (tcols X') (tcols X)) as [_|Nn]; [|congruence].
      destruct T as (X1' & T1 & T2 & T3); try assumption.
      { right. reflexivity. }
      { right. cbn. repeat split; try discriminate. apply HL. left. reflexivity. }
      { right. split; [discriminate|reflexivity]. }
      { reflexivity. }
      assert (W1' : WFTable X1').
      { split; [rewrite T2; exact (proj1 W1)|]. intros r I. destruct (L_tablevec3.Forall2_in_r _ _ _ _ T3 I) as (x & Ix & vals & -> & k & _ & HV).
        rewrite T2, C1, !app_length, (proj2 WX' x Ix), EX, C2. f_equal. destruct HV as [(_ & rows & _ & _ & C)|(_ & ->)].
        - apply (Computed_length aggf) in C. exact C.
        - apply repeat_length. }
      destruct (IH (S i) X1 fs1 out1 X1') as (out' & G1 & G2 & G3); try assumption.
      + intros s' I. apply HL. right. exact I.
      + exact (HF2 f X1 E1).
      + exact (HD2 f X1 E1).
      + exists out'. split; [cbn [multi_transform]; rewrite T1; exact G1|]. split; [exact G2|].
        assert (HS' : forall s', In s' steps -> forall c, In c (s_mk s') -> In c (tcols X')).
        { intros s' I c Ic. rewrite EX. destruct (HS s' (or_intror I)) as (_ & _ & _ & A4' & _). exact (A4' c Ic). }
        assert (C1' : tcols X1' = tcols X' ++ names) by (rewrite T2, C1, EX; reflexivity).
        destruct W1' as [N1' _].
        assert (Lx : forall x, In x (trows X') -> length x = length (tcols X')) by (exact (proj2 WX')).
        revert G3. generalize (trows out') as rows2. revert Lx. clear -T3 HS' C1' N1'.
        induction T3 as [|x x1 xs xs1 (vals & -> & HA) F1 IHF]; intros Lx rows2 F2.
        * inversion F2; subst. constructor.
        * inversion F2 as [|? o ? os (vals' & Eo & FA) F2']; subst. constructor.
          -- exists (vals :: vals'). split; [simpl; rewrite <- app_assoc; reflexivity|]. constructor; [exact HA|].
             apply (fun Hh => L_tablevec3.Forall2_impl_in _ _ _ _ Hh FA). intros s' v I _ H.
             eapply Attached_prefix; [exact N1'|exact C1'|apply Lx; left; reflexivity|exact (HS' s' I)|exact H].
          -- apply IHF; [intros y Iy; apply Lx; right; exact Iy|exact F2'].
  Qed.

  Theorem multi_transform_spec : forall draw draw' p aux X st fs out X',
    multi_fit_transform null isnull lib group_order aggf set_order is_numeric draw p aux X = (st, Ok (fs, out)) ->
    WFTable X -> WFTable X' -> tcols X' = tcols X ->
    exists steps, StepsAre p aux X steps /\
      ((forall s, In s steps -> StepOk X s) -> FreshRun draw draw 0 steps X -> FreshRun draw draw' 0 steps X ->
       exists out', multi_transform null isnull lib draw' 0 fs X' = Ok out' /\ tcols out' = tcols out /\
         Forall2 (AllAttached X' steps) (trows X') (trows out')).
  Proof.
    intros draw draw' p aux X st fs out X' E WX WX' EX. destruct (fit_inv draw p aux X st fs out E) as (steps & HS & _ & _ & ER).
    exists steps. split; [exact HS|]. intros HO HF HF'.
    apply (run_transform_spec draw draw' steps 0 X fs out X'); try assumption.
    destruct HS as (_ & _ & HL & _). exact HL.
  Qed.

  (** *** Fitting again *)
  Lemma replace_X_without : forall tuple (X : table V) aux, ~ In EX aux -> fst (replace_X lib tuple X aux) = aux.
  Proof.
    induction aux as [|e aux IH]; intros N; [reflexivity|]. cbn [replace_X].
    assert (N' : ~ In EX aux) by (intros I; apply N; right; exact I). specialize (IH N').
    destruct e as [|l t|]; [destruct N; left; reflexivity| |reflexivity].
    destruct (replace_X lib tuple X aux) as [st r]. cbn [fst] in *. congruence.
  Qed.

  Theorem refit_without_X : forall draw1 draw2 p aux X1 X2, ~ In EX aux ->
    multi_fit_transform null isnull lib group_order aggf set_order is_numeric draw2 p
      (fst (multi_fit_transform null isnull lib group_order aggf set_order is_numeric draw1 p aux X1)) X2 =
    multi_fit_transform null isnull lib group_order aggf set_order is_numeric draw2 p aux X2.
  Proof.
    intros draw1 draw2 p aux X1 X2 N. f_equal. unfold multi_fit_transform, check_dataframes.
    pose proof (replace_X_without (mp_tuple p) X1 aux N) as H.
    destruct (replace_X lib (mp_tuple p) X1 aux) as [st r]. exact H.
  Qed.

  (** In general, the second fit uses the first table for "X". *)
  Theorem refit_general : forall draw1 draw2 p aux X1 st fs out X2,
    multi_fit_transform null isnull lib group_order aggf set_order is_numeric draw1 p aux X1 = (st, Ok (fs, out)) ->
    multi_fit_transform null isnull lib group_order aggf set_order is_numeric draw2 p st X2 =
    multi_fit_transform null isnull lib group_order aggf set_order is_numeric draw2 p
      (map (freeze X1) aux) X2.
  Proof.
    intros draw1 draw2 p aux X1 st fs out X2 E. destruct (fit_inv _ _ _ _ _ _ _ E) as (_ & _ & _ & -> & _). reflexivity.
  Qed.

  (** The string "X" in a tuple is refused. *)
  Theorem tuple_refused : forall draw p pre post X, mp_tuple p = true -> Forall (fun e => exists l t, e = ETable l t) pre ->
    multi_fit_transform null isnull lib group_order aggf set_order is_numeric draw p (pre ++ EX :: post) X =
    (pre ++ EX :: post, Err TypeError).
  Proof.
    intros draw p pre post X Et F. unfold multi_fit_transform, check_dataframes. rewrite Et.
    assert (H : replace_X lib true X (pre ++ EX :: post) = (pre ++ EX :: post, Err TypeError)).
    { induction F as [|e pre (l & t & ->) F IH]; [reflexivity|]. cbn [app replace_X]. rewrite IH. reflexivity. }
    rewrite H. reflexivity.
  Qed.
End Multi.
