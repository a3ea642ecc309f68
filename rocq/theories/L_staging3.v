(** Statements; what evaluating the names gives. *)
From Verif Require Import Base L_dict M_traverse L_traverse M_expr L_expr1 L_expr2 L_expr3 L_expr4 L_expr5 L_expr6 L_expr7.
From Verif Require Import M_grid M_choicegraph L_conflicts M_clone M_check M_namespace L_estimator1 L_estimator2 L_namespace L_namespace2 L_namespace3 M_staging L_staging L_staging2.
Open Scope string_scope.
Open Scope list_scope.
Open Scope nat_scope.
Set Default Proof Using "Type".

Section Run.
  Context {V K F : Type} {HK : EqD K}.
  Variable ext : externals V K F.
  Variable e : env V.
  Variable mode : string.
  Variable f : oid -> option (fit_attr V F).
  Notation mem_st := (@mem_st V K).
  Notation bstate := (@bstate V K).
  Notation brel := (brel ext e mode f).
  Notation failing := (failing ext e mode f).
  Notation lrel := (lrel ext e mode f).

  Variable prim : string -> list (string * V) -> res V.
  Variable truth : V -> res bool.
  Variable iter : V -> res (list V).
  Variable is_none : V -> bool.
  Variable of_bool : bool -> V.
  Variable of_string : string -> V.
  Variable tuple1 : V -> V.
  Variable no_kwargs : V.
  Variable own : string -> oid -> oid -> option (res V).
  Variable foreign : string -> V -> oid -> res V.

  Notation build := (build (K:=K) prim truth is_none of_bool of_string tuple1 no_kwargs own foreign).
  Notation build_test := (build_test (K:=K) prim truth is_none of_bool of_string tuple1 no_kwargs own foreign).
  Notation build_run := (build_run (K:=K) prim truth iter is_none of_bool of_string tuple1 no_kwargs own foreign).
  Notation value_of := (value_of prim truth is_none of_bool of_string tuple1 no_kwargs).
  Notation run := (run prim truth iter is_none of_bool of_string tuple1 no_kwargs).

  Definition goodS (m : mem_st) (r : option (res bstate)) : Prop :=
    match r with
    | Some (Ok (L, m')) => okm m' /\ grows m m' /\ wfL m' L
    | _ => True
    end.
  Definition simS (m : mem_st) (r : option (res bstate)) (d : option (res (list (string * V)))) : Prop :=
    match r, d with
    | Some (Ok (L, m')), Some (Ok D) => lrel m' L D
    | Some (Ok (L, m')), Some (Err ex) => failing m m' ex
    | Some (Ok _), None => False
    | Some (Err ex), Some (Ok _) => ex = TypeError \/ ex = AttributeError
    | None, Some (Ok _) => False
    | _, _ => True
    end.

  Lemma goodS_widen m m1 r : grows m m1 -> goodS m1 r -> goodS m r.
  Proof. destruct r as [[[L m']|]|]; auto. intros Hg (H1 & H2 & H3). split; [exact H1|]. split; [eapply grows_trans; eauto|exact H3]. Qed.
  Lemma simS_widen m m1 r d : grows m m1 -> goodS m1 r -> simS m1 r d -> simS m r d.
  Proof.
    intros Hg. destruct r as [[[L m']|]|], d as [[D|ex]|]; cbn; auto. intros (H1 & H2 & H3) Hf.
    eapply failing_later; [exact H1|exact Hg|apply grows_refl|exact Hf].
  Qed.

  Definition then_ (r : option (res bstate)) (k : bstate -> option (res bstate)) : option (res bstate) :=
    match r with Some (Ok b) => k b | Some (Err ex) => Some (Err ex) | None => None end.
  Definition thenD (r : option (res (list (string * V)))) (k : list (string * V) -> option (res (list (string * V))))
    : option (res (list (string * V))) := match r with Some (Ok b) => k b | Some (Err ex) => Some (Err ex) | None => None end.

  Lemma goodS_then m r k : goodS m r ->
    (forall L m1, okm m1 -> grows m m1 -> wfL m1 L -> goodS m1 (k (L, m1))) -> goodS m (then_ r k).
  Proof. destruct r as [[[L m1]|]|]; cbn; auto. intros (H1 & H2 & H3) Hk. eapply goodS_widen; [exact H2|]. auto. Qed.
  Lemma simS_then m r d k kd : goodS m r -> simS m r d ->
    (forall L m1, okm m1 -> grows m m1 -> wfL m1 L -> goodS m1 (k (L, m1))) ->
    (forall L m1 D, okm m1 -> grows m m1 -> wfL m1 L -> lrel m1 L D -> simS m1 (k (L, m1)) (kd D)) ->
    simS m (then_ r k) (thenD d kd).
  Proof.
    intros Hg Hs Hk Hkd. destruct r as [[[L m1]|ex]|].
    - destruct Hg as (H1 & H2 & H3). specialize (Hk L m1 H1 H2 H3). destruct d as [[D|ex]|]; cbn in Hs |- *.
      + eapply simS_widen; [exact H2|exact Hk|]. auto.
      + unfold simS. destruct (k (L, m1)) as [[[L' m']|]|]; [|exact I|exact I]. destruct Hk as (K1 & K2 & K3).
        eapply failing_later; [exact H1|apply grows_refl|exact K2|exact Hs].
      + contradiction.
    - destruct d as [[D|]|]; cbn in *; [|exact I|exact I]. destruct (kd D) as [[|]|]; auto.
    - destruct d as [[D|]|]; cbn in *; [contradiction|exact I|exact I].
  Qed.

  (** A test, or the start of a loop: [k] on the result. *)
  Lemma after_good {A} m (r : res (bval V * mem_st)) (t : bval V -> res A) (k : A -> mem_st -> option (res bstate)) :
    good m r -> (forall b m1 x, r = Ok (b, m1) -> t b = Ok x -> okm m1 -> grows m m1 -> goodS m1 (k x m1)) ->
    goodS m (match (let! (v, m1) := r in let! x := t v in Ok (x, m1)) with Ok (x, m1) => k x m1 | Err ex => Some (Err ex) end).
  Proof.
    destruct r as [[b m1]|]; cbn; [|auto]. intros (H1 & H2 & H3) Hk. destruct (t b) as [x|] eqn:E; cbn; [|exact I].
    eapply goodS_widen; [exact H2|]. eapply Hk; eauto.
  Qed.
  Lemma after_sim {A} m (r : res (bval V * mem_st)) d (t : V -> res A) (k : A -> mem_st -> option (res bstate)) kd :
    good m r -> sim ext e mode f m r d ->
    let tb := fun b : bval V => match b with BPlain v => t v | BNode _ => Err TypeError end in
    (forall x m1, okm m1 -> grows m m1 -> goodS m1 (k x m1)) ->
    (forall x m1, okm m1 -> grows m m1 -> simS m1 (k x m1) (kd x)) ->
    simS m (match (let! (v, m1) := r in let! x := tb v in Ok (x, m1)) with Ok (x, m1) => k x m1 | Err ex => Some (Err ex) end)
           (match (let! v := d in t v) with Ok x => kd x | Err ex => Some (Err ex) end).
  Proof.
    intros Hg Hs tb Hk Hkd. destruct r as [[b m1]|ex]; cbn in Hg |- *.
    - destruct Hg as (H1 & H2 & H3). destruct d as [v|ex]; cbn in Hs |- *.
      + destruct b as [w|o]; cbn.
        * cbn in Hs. subst w. destruct (t v) as [x|]; cbn; [|exact I]. eapply simS_widen; [exact H2|auto|auto].
        * destruct (t v) as [x|]; [|exact I]. destruct (kd x) as [[|]|]; auto.
      + destruct (tb b) as [x|]; cbn; [|exact I]. specialize (Hk x m1 H1 H2). unfold simS.
        destruct (k x m1) as [[[L' m']|]|]; [|exact I|exact I]. destruct Hk as (K1 & K2 & K3).
        eapply failing_later; [exact H1|apply grows_refl|exact K2|exact Hs].
    - destruct d as [v|]; cbn in *; [|exact I]. destruct (t v) as [x|]; [|exact I]. destruct (kd x) as [[|]|]; auto.
  Qed.

  Lemma bg c L m : okm m -> wfL m L -> good m (build L c m).
  Proof using ext e mode f HK. intros. apply (build_good ext e mode f); assumption. Qed.

  Lemma while_good (test : bstate -> res (bool * mem_st)) body a : test = build_test a ->
    (forall b, okm (snd b) -> wfL (snd b) (fst b) -> goodS (snd b) (body b)) ->
    forall k b, okm (snd b) -> wfL (snd b) (fst b) -> goodS (snd b) (build_while test body k b).
  Proof using ext e mode f HK.
    intros -> Hbody. induction k as [|k IH]; intros b Hm HL; [exact I|]. cbn [build_while].
    pose proof (bg a (fst b) (snd b) Hm HL) as Hg. unfold M_staging.build_test at 1.
    destruct (build (fst b) a (snd b)) as [[v m1]|]; cbn [bind]; [|exact I]. destruct Hg as (H1 & H2 & H3).
    pose proof (wfL_grow _ _ _ Hm H2 HL) as HL'.
    destruct (M_staging.build_truth truth v) as [[|]|]; cbn [bind]; [| |exact I].
    - eapply goodS_widen; [exact H2|]. apply (goodS_then m1 (body (fst b, m1)) (build_while (build_test a) body k)).
      + apply Hbody; assumption.
      + intros L m2 K1 K2 K3. apply (IH (L, m2)); assumption.
    - split; [exact H1|]. split; [exact H2|exact HL'].
  Qed.

  Lemma for_good x body :
    (forall b, okm (snd b) -> wfL (snd b) (fst b) -> goodS (snd b) (body b)) ->
    forall l b, okm (snd b) -> wfL (snd b) (fst b) -> goodS (snd b) (build_for (V:=V) (K:=K) x body l b).
  Proof.
    intros Hbody. induction l as [|v l IH]; intros [L m] Hm HL; cbn [build_for]; [split; [exact Hm|]; split; [apply grows_refl|exact HL]|].
    apply (goodS_then m (body (dset x (BPlain v) L, m)) (build_for x body l)).
    - apply (Hbody (dset x (BPlain v) L, m)); [exact Hm|]. apply wfL_set; [exact HL|exact I].
    - intros L' m2 K1 K2 K3. apply (IH (L', m2)); assumption.
  Qed.

  Lemma run_good n s : forall b, okm (snd b) -> wfL (snd b) (fst b) -> goodS (snd b) (build_run n s b).
  Proof using ext e mode f HK.
    induction s as [|x a|x k a|s1 IH1 s2 IH2|a s1 IH1 s2 IH2|a s1 IH1|x a s1 IH1]; intros b Hm HL; cbn [M_staging.build_run].
    - destruct b. split; [exact Hm|]. split; [apply grows_refl|exact HL].
    - pose proof (bg a (fst b) (snd b) Hm HL) as Hg. destruct (build (fst b) a (snd b)) as [[v m1]|]; cbn; [|exact I].
      destruct Hg as (H1 & H2 & H3). split; [exact H1|]. split; [exact H2|]. apply wfL_set; [|exact H3]. eapply wfL_grow; [exact Hm|exact H2|exact HL].
    - pose proof (bg a (fst b) (snd b) Hm HL) as Hg. destruct (build (fst b) a (snd b)) as [[v m1]|]; cbn [bind]; [|exact I].
      destruct Hg as (H1 & H2 & H3). destruct (dget x (fst b)) as [vx|] eqn:Ex; [|exact I].
      pose proof (wfL_grow _ _ _ Hm H2 HL) as HL'. pose proof (bg k (fst b) m1 H1 HL') as Hg.
      destruct (build (fst b) k m1) as [[vk m2]|]; cbn [bind]; [|exact I]. destruct Hg as (K1 & K2 & K3).
      destruct (build_setitem prim foreign vx vk v) as [w|] eqn:Ew; cbn; [|exact I].
      split; [exact K1|]. split; [eapply grows_trans; eauto|]. apply wfL_set; [eapply wfL_grow; [exact H1|exact K2|exact HL']|].
      destruct vx, vk, v; cbn in Ew; try discriminate;
        match type of Ew with (let! _ := ?r in _) = _ => destruct r; cbn in Ew; [injection Ew as <-; exact I|discriminate] end.
    - apply goodS_then; [apply IH1; assumption|]. intros L m1 H1 H2 H3. apply (IH2 (L, m1)); assumption.
    - unfold M_staging.build_test. apply after_good; [apply bg; assumption|]. intros v m1 t _ _ H1 H2.
      destruct t; [apply (IH1 (fst b, m1))|apply (IH2 (fst b, m1))]; cbn; auto; eapply wfL_grow; [exact Hm|exact H2|exact HL| exact Hm|exact H2|exact HL].
    - eapply while_good; [reflexivity|exact IH1|exact Hm|exact HL].
    - apply after_good; [apply bg; assumption|]. intros v m1 l _ _ H1 H2.
      apply (for_good x (build_run n s1) IH1 l (fst b, m1)); [exact H1|]. eapply wfL_grow; [exact Hm|exact H2|exact HL].
  Qed.

  Hypothesis Hcomp : computes ext prim tuple1 no_kwargs mode.
  Hypothesis Hmir : mirrored ext mode.
  Hypothesis Hmeth : method_is_call ext mode.
  Hypothesis Hown : forall op l r, own op l r = None.
  Hypothesis Hfor : forall op v o, foreign op v o = Err TypeError.

  Lemma bs c L D m : ~ asks_none c -> okm m -> wfL m L -> lrel m L D -> sim ext e mode f m (build L c m) (value_of D c).
  Proof using Hcomp Hmir Hmeth Hown Hfor. intros. apply build_sim; assumption. Qed.

  Definition body_good (body : bstate -> option (res bstate)) : Prop :=
    forall b, okm (snd b) -> wfL (snd b) (fst b) -> goodS (snd b) (body b).
  Definition body_sim (body : bstate -> option (res bstate)) bodyD : Prop :=
    forall b D, okm (snd b) -> wfL (snd b) (fst b) -> lrel (snd b) (fst b) D -> simS (snd b) (body b) (bodyD D).

  Lemma while_sim a body bodyD : ~ asks_none a -> body_good body -> body_sim body bodyD ->
    forall k, body_sim (build_while (build_test a) body k) (repeat_while k (fun D => let! v := value_of D a in truth v) bodyD).
  Proof using Hcomp Hmir Hmeth Hown Hfor.
    intros Ha Hbg Hbs. induction k as [|k IH]; intros b D Hm HL HR; [exact I|].
    assert (E : build_while (build_test a) body (S k) b =
      match (let! (v, m1) := build (fst b) a (snd b) in let! x := (fun b0 : bval V => match b0 with BPlain v => truth v | BNode _ => Err TypeError end) v in Ok (x, m1)) with
      | Ok (x, m1) => (fun (t : bool) m1 => if t then then_ (body (fst b, m1)) (build_while (build_test a) body k) else Some (Ok (fst b, m1))) x m1
      | Err ex => Some (Err ex) end).
    { cbn [build_while]. unfold M_staging.build_test at 1. destruct (build (fst b) a (snd b)) as [[v m1]|]; cbn [bind]; [|reflexivity].
      destruct v as [w|]; cbn [M_staging.build_truth bind]; [|reflexivity]. destruct (truth w) as [[|]|]; reflexivity. }
    rewrite E.
    assert (ED : repeat_while (S k) (fun D => let! v := value_of D a in truth v) bodyD D =
      match (let! v := value_of D a in truth v) with
      | Ok x => (fun t : bool => if t then thenD (bodyD D) (repeat_while k (fun D => let! v := value_of D a in truth v) bodyD) else Some (Ok D)) x
      | Err ex => Some (Err ex) end).
    { cbn [repeat_while]. destruct (let! v := value_of D a in truth v) as [[|]|]; reflexivity. }
    rewrite ED.
    apply after_sim.
    - apply bg; assumption.
    - apply bs; assumption.
    - intros t m1 H1 H2. pose proof (wfL_grow _ _ _ Hm H2 HL) as HL'. destruct t; [|split; [exact H1|]; split; [apply grows_refl|exact HL']].
      apply goodS_then; [apply (Hbg (fst b, m1)); assumption|]. intros L m2 K1 K2 K3.
      eapply (while_good _ body a eq_refl Hbg k (L, m2)); assumption.
    - intros t m1 H1 H2. pose proof (wfL_grow _ _ _ Hm H2 HL) as HL'. pose proof (lrel_grow ext e mode f _ _ _ _ Hm H2 HL HR) as HR'.
      destruct t; [|exact HR'].
      apply simS_then; [apply (Hbg (fst b, m1)); assumption|apply (Hbs (fst b, m1)); assumption| |].
      + intros L m2 K1 K2 K3. eapply (while_good _ body a eq_refl Hbg k (L, m2)); assumption.
      + intros L m2 D2 K1 K2 K3 K4. apply (IH (L, m2)); assumption.
  Qed.

  Lemma for_sim x body bodyD : body_good body -> body_sim body bodyD ->
    forall l, body_sim (build_for x body l) (for_each x bodyD l).
  Proof.
    intros Hbg Hbs. induction l as [|v l IH]; intros [L m] D Hm HL HR; cbn [build_for for_each]; [exact HR|].
    apply (simS_then m (body (dset x (BPlain v) L, m)) (bodyD (dset x v D)) (build_for x body l) (for_each x bodyD l)).
    - apply (Hbg (dset x (BPlain v) L, m)); [exact Hm|]. apply wfL_set; [exact HL|exact I].
    - apply (Hbs (dset x (BPlain v) L, m)); [exact Hm| |]; cbn; [apply wfL_set; [exact HL|exact I]|]. apply lrel_set; [exact HR|reflexivity].
    - intros L' m2 K1 K2 K3. apply (for_good x body Hbg l (L', m2)); assumption.
    - intros L' m2 D2 K1 K2 K3 K4. apply (IH (L', m2)); assumption.
  Qed.

  Lemma run_sim n s : ~ stmt_asks_none s -> body_sim (build_run n s) (run n s).
  Proof using Hcomp Hmir Hmeth Hown Hfor.
    induction s as [|x a|x k a|s1 IH1 s2 IH2|a s1 IH1 s2 IH2|a s1 IH1|x a s1 IH1]; intros Hn b D Hm HL HR;
      cbn [M_staging.build_run L_staging.run stmt_asks_none] in *.
    - destruct b. exact HR.
    - pose proof (bg a (fst b) (snd b) Hm HL) as Hg. pose proof (bs a (fst b) D (snd b) Hn Hm HL HR) as Hs.
      destruct (build (fst b) a (snd b)) as [[v m1]|]; destruct (value_of D a) as [d|]; cbn in *; auto.
      destruct Hg as (H1 & H2 & H3). apply lrel_set; [|exact Hs]. exact (lrel_grow ext e mode f _ _ _ _ Hm H2 HL HR).
    - pose proof (bg a (fst b) (snd b) Hm HL) as Hg. pose proof (bs a (fst b) D (snd b) ltac:(tauto) Hm HL HR) as Hs.
      pose proof (lrel_get ext e mode f (snd b) (fst b) D x HR) as Hx.
      destruct (build (fst b) a (snd b)) as [[v m1]|]; cbn [bind].
      2:{ destruct (value_of D a) as [d|]; cbn in *; [|exact I]. destruct (dget x D); [|exact I].
          destruct (value_of D k); cbn; [|exact I]. destruct (prim "setitem" _); cbn; auto. }
      destruct Hg as (H1 & H2 & H3). pose proof (wfL_grow _ _ _ Hm H2 HL) as HL'.
      pose proof (lrel_grow ext e mode f _ _ _ _ Hm H2 HL HR) as HR'.
      pose proof (bg k (fst b) m1 H1 HL') as Hg. pose proof (bs k (fst b) D m1 ltac:(tauto) H1 HL' HR') as Hsk.
      destruct (dget x (fst b)) as [vx|] eqn:Ex, (dget x D) as [dx|] eqn:Edx; try contradiction.
      2:{ destruct (value_of D a) as [d|]; cbn in *; exact I. }
      assert (Hset : build_setitem prim foreign vx (BPlain dx) v = build_setitem prim foreign vx (BPlain dx) v) by reflexivity. clear Hset.
      destruct (build (fst b) k m1) as [[vk m2]|]; cbn [bind].
      2:{ destruct (value_of D a) as [d|]; cbn in *; [|exact I].
          destruct (value_of D k); cbn; [|exact I]. destruct (prim "setitem" _); cbn; auto. }
      destruct Hg as (K1 & K2 & K3).
      destruct (value_of D a) as [d|ex]; cbn [bind].
      2:{ destruct (build_setitem prim foreign vx vk v); cbn in *; [|exact I].
          exact (failing_later ext e mode f _ _ _ _ _ H1 (grows_refl _) K2 Hs). }
      destruct (value_of D k) as [dk|ex]; cbn [bind].
      2:{ destruct (build_setitem prim foreign vx vk v); cbn in *; [|exact I].
          exact (failing_later ext e mode f _ _ _ _ _ K1 H2 (grows_refl _) Hsk). }
      assert (Hno : forall r, simS (snd b) (Some (let! w := Err TypeError in Ok (dset x w (fst b), m2))) (Some r)).
      { intros [?|]; cbn; auto. }
      assert (HR2 : lrel m2 (fst b) D) by exact (lrel_grow ext e mode f _ _ _ _ H1 K2 HL' HR').
      destruct vx as [wx|ox]; [|apply Hno]. destruct vk as [wk|ok]; [|cbn [build_setitem]; rewrite Hfor; apply Hno].
      destruct v as [wv|ov]; cbn [build_setitem]; [|rewrite Hfor; apply Hno].
      cbn in Hx, Hs, Hsk. subst. destruct (prim "setitem" _); cbn; [|exact I]. apply lrel_set; [exact HR2|reflexivity].
    - apply simS_then; [apply run_good; assumption|apply IH1; [tauto| | |]; assumption| |].
      + intros L m1 H1 H2 H3. apply (run_good n s2 (L, m1)); assumption.
      + intros L m1 D1 H1 H2 H3 H4. apply (IH2 ltac:(tauto) (L, m1)); assumption.
    - apply (after_sim (snd b) (build (fst b) a (snd b)) (value_of D a) truth (fun t m => build_run n (if t then s1 else s2) (fst b, m)) (fun t => run n (if t then s1 else s2) D)).
      + apply bg; assumption.
      + apply bs; [tauto| | |]; assumption.
      + intros t m1 H1 H2. pose proof (wfL_grow _ _ _ Hm H2 HL) as HL'. apply (run_good n (if t then s1 else s2) (fst b, m1)); assumption.
      + intros t m1 H1 H2. pose proof (wfL_grow _ _ _ Hm H2 HL) as HL'. pose proof (lrel_grow ext e mode f _ _ _ _ Hm H2 HL HR) as HR'.
        destruct t; [apply (IH1 ltac:(tauto) (fst b, m1))|apply (IH2 ltac:(tauto) (fst b, m1))]; assumption.
    - apply while_sim; [tauto|intros b' Hb1 Hb2; apply run_good; assumption|apply IH1; tauto|exact Hm|exact HL|exact HR].
    - apply (after_sim (snd b) (build (fst b) a (snd b)) (value_of D a) iter (fun l m => build_for x (build_run n s1) l (fst b, m)) (fun l => for_each x (run n s1) l D)).
      + apply bg; assumption.
      + apply bs; [tauto| | |]; assumption.
      + intros l m1 H1 H2. pose proof (wfL_grow _ _ _ Hm H2 HL) as HL'. apply (for_good x (build_run n s1) (fun b H H' => run_good n s1 b H H') l (fst b, m1)); assumption.
      + intros l m1 H1 H2. pose proof (wfL_grow _ _ _ Hm H2 HL) as HL'. pose proof (lrel_grow ext e mode f _ _ _ _ Hm H2 HL HR) as HR'.
        apply (for_sim x (build_run n s1) (run n s1) (fun b H H' => run_good n s1 b H H') (IH1 ltac:(tauto)) l (fst b, m1)); assumption.
  Qed.
End Run.

(** ** What is observed *)
Section Final.
  Context {V K F : Type} {HK : EqD K}.
  Variable ext : externals V K F.
  Variable requested : string.
  Variable e : env V.
  Variable s : st V F.
  Hypothesis Hreq : requested <> "fit".

  Lemma gives_DV h size o r : closed h size -> o < size -> acyclic h o ->
    (DenV ext h e (real_mode requested) (fitted s) o r <-> gives ext requested e s h size o r).
  Proof using Hreq.
    intros Hc Ho Ha. unfold gives. destruct (evaluate_value ext h size o e requested s Hc Ho Ha) as (r' & D & ->).
    assert (Hf : eqb_of requested "fit" = false) by (destruct (eqb_of requested "fit") eqn:Eq; [|reflexivity]; apply (proj1 (eqb_of_true _ _)) in Eq; contradiction).
    split.
    - intros [d Ed]. unfold ev in Ed. destruct (den ext h e (real_mode requested) (fitted s) d o) as [[[v a]|ex]|] eqn:E; cbn in Ed; try discriminate; injection Ed as <-.
      + assert (r' = Ok (v, a)) as -> by (eapply Den_det; [exact D|exists d; exact E]). cbn. rewrite Hf. reflexivity.
      + assert (r' = Err ex) as -> by (eapply Den_det; [exact D|exists d; exact E]). reflexivity.
    - destruct r' as [[v a]|ex], r as [w|ex']; cbn; rewrite ?Hf; try discriminate; intros E; injection E as <-.
      + eapply Den_V. exact D.
      + apply Den_V_err. exact D.
  Qed.

  Lemma stand_for_wf h size L D : closed h size -> stand_for ext requested e s h size L D <->
    wfL (h, size) L /\ lrel ext e (real_mode requested) (fitted s) (h, size) L D.
  Proof using Hreq.
    intros Hc. unfold stand_for, wfL, lrel. split.
    - intros H. induction H as [|[x b] [y v] L D [E1 E2] _ [IH1 IH2]]; [split; constructor|]. cbn in E1, E2.
      destruct b as [w|o]; (split; constructor; auto); cbn; auto.
      + destruct E2 as (H1 & H2 & H3 & H4). split; [split; assumption|exact H2].
      + split; [exact E1|]. destruct E2 as (H1 & H2 & H3 & H4). apply (gives_DV h size o (Ok v)); assumption.
    - intros [H1 H2]. induction H2 as [|[x b] [y v] L D [E1 E2] _ IH]; [constructor|]. inversion H1 as [|? ? Hb HL]; subst.
      constructor; [|apply IH; exact HL]. split; [exact E1|]. destruct b as [w|o]; cbn in *; [exact E2|].
      destruct Hb as [[B1 B2] B3]. split; [exact B1|]. split; [exact B3|]. split; [exact B2|]. apply gives_DV; assumption.
  Qed.

  Section Prog.
    Variable prim : string -> list (string * V) -> res V.
    Variable truth : V -> res bool.
    Variable iter : V -> res (list V).
    Variable is_none : V -> bool.
    Variable of_bool : bool -> V.
    Variable of_string : string -> V.
    Variable tuple1 : V -> V.
    Variable no_kwargs : V.
    Variable own : string -> oid -> oid -> option (res V).
    Variable foreign : string -> V -> oid -> res V.
    Notation build_run := (build_run (K:=K) prim truth iter is_none of_bool of_string tuple1 no_kwargs own foreign).
    Notation run := (run prim truth iter is_none of_bool of_string tuple1 no_kwargs).
    Hypothesis Hcomp : computes ext prim tuple1 no_kwargs (real_mode requested).
    Hypothesis Hmir : mirrored ext (real_mode requested).
    Hypothesis Hmeth : method_is_call ext (real_mode requested).
    Hypothesis Hown : forall op l r, own op l r = None.
    Hypothesis Hfor : forall op v o, foreign op v o = Err TypeError.

    Theorem same_run h size L D p n L' h' size' : closed h size -> plain_attrs h size ->
      stand_for ext requested e s h size L D -> ~ stmt_asks_none p ->
      build_run n p (L, (h, size)) = Some (Ok (L', (h', size'))) ->
      (exists D', run n p D = Some (Ok D') /\ stand_for ext requested e s h' size' L' D') \/
      (exists ex o, run n p D = Some (Err ex) /\ size <= o < size' /\
         gives ext requested e s h' size' o (shown ext (real_mode requested) (Err ex))).
    Proof using Hreq Hcomp Hmir Hmeth Hown Hfor.
      intros Hc Hp HL Hn E. apply (stand_for_wf h size L D Hc) in HL. destruct HL as [Hw HR].
      pose proof (run_good ext e (real_mode requested) (fitted s) prim truth iter is_none of_bool of_string tuple1 no_kwargs own foreign n p (L, (h, size)) (conj Hc Hp) Hw) as Hg.
      pose proof (run_sim ext e (real_mode requested) (fitted s) prim truth iter is_none of_bool of_string tuple1 no_kwargs own foreign
        Hcomp Hmir Hmeth Hown Hfor n p Hn (L, (h, size)) D (conj Hc Hp) Hw HR) as Hs.
      rewrite E in Hg, Hs. destruct Hg as ([Hc' Hp'] & Hgr & Hw'). cbn [fst snd] in *.
      destruct (run n p D) as [[D'|ex]|]; cbn in Hs; [| |contradiction].
      - left. exists D'. split; [reflexivity|]. apply stand_for_wf; [exact Hc'|]. split; assumption.
      - right. destruct Hs as (o & H1 & [H2 H3] & H4). exists ex, o. split; [reflexivity|]. split; [split; assumption|].
        apply gives_DV; assumption.
    Qed.

    Theorem refused_run h size L D p n ex D' : closed h size -> plain_attrs h size ->
      stand_for ext requested e s h size L D -> ~ stmt_asks_none p ->
      build_run n p (L, (h, size)) = Some (Err ex) -> run n p D = Some (Ok D') ->
      ex = TypeError \/ ex = AttributeError.
    Proof using Hreq Hcomp Hmir Hmeth Hown Hfor.
      intros Hc Hp HL Hn E Ed. apply (stand_for_wf h size L D Hc) in HL. destruct HL as [Hw HR].
      pose proof (run_sim ext e (real_mode requested) (fitted s) prim truth iter is_none of_bool of_string tuple1 no_kwargs own foreign
        Hcomp Hmir Hmeth Hown Hfor n p Hn (L, (h, size)) D (conj Hc Hp) Hw HR) as Hs.
      rewrite E, Ed in Hs. exact Hs.
    Qed.
  End Prog.
End Final.
