(** Operations specialized for dataframe libraries. *)
From Verif Require Import Base L_dict M_dispatch.
From Coq Require Import List Permutation.
Import ListNotations.
Open Scope string_scope.
Open Scope list_scope.
Open Scope nat_scope.
Set Default Proof Using "Type".

(** ** Specification: from the history of registrations *)
Section Spec.
  Context {C I : Type} `{EqD C}.
  Variable mro : C -> list C.
  Variable object : C.
  Variable module_types : string -> option (dict string (list C)).
  Variable installed : string -> bool.

  Definition names_of (a : argument_type) (types : dict string (list C)) : list string :=
    match a with AllTypes => dkeys types | OneType n => [n] | Types ns => ns end.
  (** a specialization takes effect if its module is known and installed and all its type names are known *)
  Definition effective (m : string) (a : argument_type) : Prop :=
    installed m = true /\ exists types, module_types m = Some types /\
      forall n, In n (names_of a types) -> exists cs, dget n types = Some cs.
  (** and it is for these classes *)
  Definition for_class (m : string) (a : argument_type) (c : C) : Prop :=
    effective m a /\ exists types n cs, module_types m = Some types /\ In n (names_of a types) /\ dget n types = Some cs /\ In c cs.

  (** the implementation in force for a class itself: the last one registered for it *)
  Inductive in_force (default : I) : list (op C I) -> C -> I -> Prop :=
  | force_default ops : (forall m a f, In (Specialize m a f) ops -> ~ for_class m a object) -> in_force default ops object default
  | force_last before m a f after c : for_class m a c -> (forall m' a' f', In (Specialize m' a' f') after -> ~ for_class m' a' c) ->
      in_force default (before ++ Specialize m a f :: after) c f.
  (** the implementation for the objects of a class: that of the first class of its resolution order that has one *)
  Definition chosen (default : I) (ops : list (op C I)) (c : C) (f : I) : Prop :=
    exists before t after, mro c = before ++ t :: after /\ in_force default ops t f /\
      forall t' f', In t' before -> ~ in_force default ops t' f'.
End Spec.

(** ** Proofs *)
Section Proofs.
  Context {C I : Type} `{EC : EqD C}.
  Variable mro : C -> list C.
  Variable object : C.
  Variable module_types : string -> option (dict string (list C)).
  Variable installed : string -> bool.
  Variable set_order : list C -> list C.
  Hypothesis Horder : forall l c, In c (set_order l) <-> In c l.
  Hypothesis Hmro : forall c, exists l, mro c = c :: l.
  Hypothesis Hobject : forall c, In object (mro c).
  Notation step := (@step C I _ mro module_types installed set_order).
  Notation run := (@run C I _ mro module_types installed set_order).
  Notation specialize := (@specialize C I _ module_types installed set_order).
  Notation for_class := (for_class module_types installed).
  Notation effective := (effective module_types installed).
  Notation in_force := (@in_force C I object module_types installed).
  Notation chosen := (@chosen C I mro object module_types installed).
  Notation lookup := (fun g c => find_impl (g_registry g) (mro c)).

  Lemma register_all_get (cs : list C) (f : I) : forall g c,
    dget c (g_registry (fold_left (fun g c => register g c f) cs g)) = if mem c cs then Some f else dget c (g_registry g).
  Proof.
    induction cs as [|x cs IH]; intros g c; [reflexivity|]. cbn [fold_left]. rewrite IH. cbn [register g_registry].
    destruct (mem c cs) eqn:E1.
    - apply mem_true in E1. rewrite (proj2 (mem_true c (x :: cs)) (or_intror E1)). reflexivity.
    - apply mem_false in E1. rewrite dget_dset_if. destruct (eqd c x) as [->|Hn].
      + rewrite (proj2 (mem_true x (x :: cs)) (or_introl eq_refl)). reflexivity.
      + rewrite (proj2 (mem_false c (x :: cs))); [reflexivity|]. intros [Hx|Hx]; [congruence|exact (E1 Hx)].
  Qed.
  Lemma register_all_cache (cs : list C) (f : I) g : cs <> [] -> g_cache (fold_left (fun g c => register g c f) cs g) = [].
  Proof.
    intros Hne. destruct cs as [|x cs]; [congruence|]. cbn [fold_left].
    assert (Hc : forall l g, g_cache g = [] -> g_cache (fold_left (fun g c => register (I := I) g c f) l g) = []).
    { induction l as [|y l IH]; intros g0 E; [exact E|]. apply IH. reflexivity. }
    apply Hc. reflexivity.
  Qed.

  (** the cache agrees with the registry *)
  Definition good (g : generic C I) : Prop := forall c f, dget c (g_cache g) = Some f -> lookup g c = Some f.

  Lemma names_found (types : dict string (list C)) names css :
    mapM (fun n => match dget n types with Some cs => Ok cs | None => Err KeyError end) names = Ok css ->
    (forall n, In n names -> exists cs, dget n types = Some cs) /\
    forall cs, In cs css <-> exists n, In n names /\ dget n types = Some cs.
  Proof.
    intros E. apply mapM_Forall2 in E. induction E as [|n cs names css En _ [IH1 IH2]].
    - split; [intros n []|]. intros cs. split; [intros []|intros (n & [] & _)].
    - destruct (dget n types) as [x|] eqn:Ex; [|discriminate]. injection En as ->. split.
      + intros n' [<-|Hn]; [exists cs; exact Ex|exact (IH1 n' Hn)].
      + intros cs'. split.
        * intros [<-|Hc]; [exists n; split; [left; reflexivity|exact Ex]|]. apply IH2 in Hc. destruct Hc as (n' & Hn & E'). exists n'.
          split; [right; exact Hn|exact E'].
        * intros (n' & [<-|Hn] & E'); [left; congruence|]. right. apply IH2. exists n'. auto.
  Qed.

  Lemma specialize_cases g m a f : exists cs,
    specialize g m a f = (fold_left (fun g c => register g c f) cs g, snd (specialize g m a f)) /\
    (forall c, In c cs <-> for_class m a c) /\
    (snd (specialize g m a f) <> Ok tt -> cs = [] /\ ~ effective m a).
  Proof using Horder.
    unfold M_dispatch.specialize, load_info. destruct (module_types m) as [types|] eqn:Em.
    2:{ exists []. split; [reflexivity|]. split.
        - intros c. split; [intros []|]. intros [[_ (types & E & _)] _]. congruence.
        - intros _. split; [reflexivity|]. intros [_ (types & E & _)]. congruence. }
    destruct (installed m) eqn:Ei.
    2:{ exists []. split; [reflexivity|]. split.
        - intros c. split; [intros []|]. intros [[E _] _]. congruence.
        - intros Hne. cbn in Hne. congruence. }
    fold (names_of a types).
    destruct (mapM _ (names_of a types)) as [css|e] eqn:E.
    - exists (set_order (concat css)). split; [reflexivity|]. split; [|cbn; congruence].
      destruct (names_found types (names_of a types) css E) as [Hall Hcss].
      assert (Heff : effective m a) by (split; [exact Ei|]; exists types; auto).
      intros c. rewrite Horder, in_concat. split.
      + intros (cs & Hcs & Hc). apply Hcss in Hcs. destruct Hcs as (n & Hn & En). split; [exact Heff|]. exists types, n, cs. auto.
      + intros [_ (types' & n & cs & E1 & Hn & E2 & Hc)]. rewrite Em in E1. injection E1 as <-.
        exists cs. split; [apply Hcss; exists n; auto|exact Hc].
    - exists []. split; [reflexivity|].
      assert (Hno : ~ effective m a).
      { intros [_ (types' & E1 & Hall)]. rewrite Em in E1. injection E1 as <-. clear Em Ei.
        revert e E Hall. generalize (names_of a types) as l. induction l as [|n l IH]; intros e E Hall; [discriminate|].
        cbn [mapM] in E. destruct (Hall n (or_introl eq_refl)) as (cs & Ecs). rewrite Ecs in E. cbn [bind] in E.
        destruct (mapM _ l) as [r|e'] eqn:E'; [discriminate|]. exact (IH e' eq_refl (fun n Hn => Hall n (or_intror Hn))). }
      split; [|intros _; split; [reflexivity|exact Hno]]. intros c. split; [intros []|]. intros [Heff _]. exact (Hno Heff).
  Qed.

  Lemma specialize_good g m a f : good g -> good (fst (specialize g m a f)).
  Proof using Horder.
    intros Hg. destruct (specialize_cases g m a f) as (cs & E & _ & _). rewrite E. cbn [fst].
    destruct cs as [|c cs]; [exact Hg|]. intros c' f' E'. rewrite register_all_cache in E' by discriminate. discriminate.
  Qed.

  (** the answer of [dispatch] is that of the registry *)
  Lemma dispatch_lookup g c : good g -> snd (dispatch mro g c) = lookup g c /\ good (fst (dispatch mro g c)) /\
    g_registry (fst (dispatch mro g c)) = g_registry g.
  Proof using Hmro.
    intros Hg. unfold dispatch. destruct (dget c (g_cache g)) as [f|] eqn:Ec.
    - cbn [fst snd]. split; [symmetry; exact (Hg c f Ec)|]. auto.
    - assert (Eq : (match dget c (g_registry g) with Some f => Some f | None => find_impl (g_registry g) (mro c) end) = lookup g c).
      { destruct (Hmro c) as (l & El). rewrite El. cbn [find_impl]. destruct (dget c (g_registry g)); reflexivity. }
      rewrite Eq. cbv beta. destruct (find_impl (g_registry g) (mro c)) as [f|] eqn:Ef; cbn [fst snd]; [|auto].
      split; [reflexivity|]. split; [|reflexivity]. intros c' f'. cbn [g_cache g_registry]. rewrite dget_dset_if.
      destruct (eqd c' c) as [->|_]; [intros E; injection E as <-; exact Ef|apply Hg].
  Qed.

  Lemma step_good g o : good g -> good (step g o).
  Proof using Horder Hmro.
    intros Hg. destruct o as [m a f|[c|]]; cbn [M_dispatch.step].
    - apply specialize_good, Hg.
    - cbn [call]. destruct (dispatch_lookup g c Hg) as (_ & H' & _). destruct (dispatch mro g c) as [g' [f|]]; exact H'.
    - exact Hg.
  Qed.
  Lemma step_registry g o c : good g ->
    dget c (g_registry (step g o)) =
    match o with
    | Specialize m a f => dget c (g_registry (fst (specialize g m a f)))
    | Call _ => dget c (g_registry g)
    end.
  Proof using Hmro.
    intros Hg. destruct o as [m a f|[c'|]]; cbn [M_dispatch.step]; [reflexivity| |reflexivity].
    cbn [call]. destruct (dispatch_lookup g c' Hg) as (_ & _ & E). destruct (dispatch mro g c') as [g' [f|]]; cbn [fst] in *; rewrite E; reflexivity.
  Qed.

  Lemma in_force_app default ops o c f :
    in_force default (ops ++ [o]) c f <->
    match o with
    | Specialize m a f' => (for_class m a c /\ f = f') \/ (~ for_class m a c /\ in_force default ops c f)
    | Call _ => in_force default ops c f
    end.
  Proof.
    clear Hobject Hmro Horder. assert (Hspec : forall m a f', ~ for_class m a c -> in_force default (ops ++ [Specialize m a f']) c f <-> in_force default ops c f).
    { intros m a f' Hno. split.
      - intros Hf. inversion Hf as [ops' Hall|before m1 a1 f1 after c1 Hfc Hall Eops]; subst.
        + constructor. intros m1 a1 f1 Hin. apply (Hall m1 a1 f1). apply in_or_app. left. exact Hin.
        + destruct after as [|x after _] using rev_ind.
          * apply app_inj_tail in Eops. destruct Eops as [_ Eops]. injection Eops as -> -> ->. contradiction.
          * rewrite app_comm_cons, app_assoc in Eops. apply app_inj_tail in Eops. destruct Eops as [<- _].
            constructor; [exact Hfc|]. intros m2 a2 f2 Hin. apply (Hall m2 a2 f2). apply in_or_app. left. exact Hin.
      - intros Hf. inversion Hf as [ops' Hall|before m1 a1 f1 after c1 Hfc Hall]; subst.
        + constructor. intros m1 a1 f1 Hin. apply in_app_or in Hin. destruct Hin as [Hin|[Hin|[]]]; [exact (Hall _ _ _ Hin)|].
          injection Hin as -> -> ->. exact Hno.
        + rewrite <- app_assoc. cbn [app]. constructor; [exact Hfc|]. intros m2 a2 f2 Hin. apply in_app_or in Hin.
          destruct Hin as [Hin|[Hin|[]]]; [exact (Hall _ _ _ Hin)|]. injection Hin as -> -> ->. exact Hno. }
    destruct o as [m a f'|cl].
    - split.
      + intros Hf. inversion Hf as [ops' Hall|before m1 a1 f1 after c1 Hfc Hall Eops]; subst.
        * right. assert (Hno : ~ for_class m a c) by (apply (Hall m a f'); apply in_or_app; right; left; reflexivity).
          split; [exact Hno|]. apply (Hspec m a f' Hno). exact Hf.
        * destruct after as [|x after _] using rev_ind.
          -- apply app_inj_tail in Eops. destruct Eops as [_ Eops]. injection Eops as -> -> ->. left. auto.
          -- assert (x = Specialize m a f').
             { rewrite app_comm_cons, app_assoc in Eops. apply app_inj_tail in Eops. exact (proj2 Eops). }
             subst x. assert (Hno : ~ for_class m a c) by (apply (Hall m a f'); apply in_or_app; right; left; reflexivity).
             right. split; [exact Hno|]. apply (Hspec m a f' Hno). exact Hf.
      + intros [[Hfc ->]|[Hno Hf]].
        * constructor; [exact Hfc|]. intros m' a' f1 [].
        * apply (Hspec m a f' Hno). exact Hf.
    - split.
      + intros Hf. inversion Hf as [ops' Hall|before m1 a1 f1 after c1 Hfc Hall Eops]; subst.
        * constructor. intros m1 a1 f1 Hin. apply (Hall m1 a1 f1). apply in_or_app. left. exact Hin.
        * destruct after as [|x after _] using rev_ind.
          -- apply app_inj_tail in Eops. destruct Eops as [_ Eops]. discriminate.
          -- rewrite app_comm_cons, app_assoc in Eops. apply app_inj_tail in Eops. destruct Eops as [<- _].
             constructor; [exact Hfc|]. intros m2 a2 f2 Hin. apply (Hall m2 a2 f2). apply in_or_app. left. exact Hin.
      + intros Hf. inversion Hf as [ops' Hall|before m1 a1 f1 after c1 Hfc Hall]; subst.
        * constructor. intros m1 a1 f1 Hin. apply in_app_or in Hin. destruct Hin as [Hin|[Hin|[]]]; [exact (Hall _ _ _ Hin)|discriminate].
        * rewrite <- app_assoc. cbn [app]. constructor; [exact Hfc|]. intros m2 a2 f2 Hin. apply in_app_or in Hin.
          destruct Hin as [Hin|[Hin|[]]]; [exact (Hall _ _ _ Hin)|discriminate].
  Qed.

  (** the registry holds the implementations in force *)
  Lemma run_registry default ops : good (run (new_generic object default) ops) /\
    forall c f, dget c (g_registry (run (new_generic object default) ops)) = Some f <-> in_force default ops c f.
  Proof using Horder Hmro.
    clear Hobject. induction ops as [|o ops IH] using rev_ind.
    - split; [intros c f E; discriminate|]. intros c f. cbn. split.
      + destruct (eqd c object) as [->|]; [intros E; injection E as <-|discriminate]. constructor. intros m a f [].
      + intros Hf. inversion Hf as [ops' Hall|before m1 a1 f1 after c1 Hfc Hall Eops]; subst.
        * destruct (eqd c c); [reflexivity|congruence].
        * destruct before; discriminate.
    - destruct IH as [Hg IH]. unfold M_dispatch.run. rewrite fold_left_app. cbn [fold_left].
      fold (run (new_generic object default) ops). set (g := run (new_generic object default) ops) in *.
      split; [apply step_good, Hg|]. intros c f. rewrite in_force_app, step_registry by exact Hg.
      destruct o as [m a f'|cl]; [|apply IH].
      destruct (specialize_cases g m a f') as (cs & E & Hcs & _). rewrite E. cbn [fst]. rewrite register_all_get.
      destruct (mem c cs) eqn:Em.
      + apply mem_true in Em. apply Hcs in Em. split; [intros Ef; injection Ef as <-; auto|].
        intros [[_ ->]|[Hno _]]; [reflexivity|contradiction].
      + apply mem_false in Em. rewrite IH. split; [intros Hf; right; split; [intros Hc; apply Em, Hcs, Hc|exact Hf]|].
        intros [[Hc _]|[_ Hf]]; [exfalso; apply Em, Hcs, Hc|exact Hf].
  Qed.

  Lemma object_in_force default ops : exists f, in_force default ops object f.
  Proof using EC Horder Hmro.
    destruct (run_registry default ops) as [Hg Hr].
    assert (Hk : In object (dkeys (g_registry (run (new_generic object default) ops)))).
    { clear Hr. induction ops as [|o ops IH] using rev_ind; [left; reflexivity|].
      destruct (run_registry default ops) as [Hg' _]. specialize (IH Hg'). unfold M_dispatch.run. rewrite fold_left_app. cbn [fold_left].
      fold (run (new_generic object default) ops). apply dget_in_keys in IH. destruct IH as (f & Ef). apply dget_in_keys.
      rewrite step_registry by exact Hg'. destruct o as [m a f'|cl]; [|exists f; exact Ef].
      destruct (specialize_cases (run (new_generic object default) ops) m a f') as (cs & E & _). rewrite E. cbn [fst].
      rewrite register_all_get. destruct (mem object cs); [exists f'; reflexivity|exists f; exact Ef]. }
    apply dget_in_keys in Hk. destruct Hk as (f & Ef). exists f. apply Hr. exact Ef.
  Qed.

  Lemma find_impl_spec (registry : dict C I) (l : list C) f : find_impl registry l = Some f <->
    exists before t after, l = before ++ t :: after /\ dget t registry = Some f /\ forall t', In t' before -> dget t' registry = None.
  Proof.
    induction l as [|t l IH]; cbn [find_impl].
    - split; [discriminate|]. intros (before & t & after & E & _). destruct before; discriminate.
    - destruct (dget t registry) as [f0|] eqn:Et.
      + split.
        * intros E. injection E as <-. exists [], t, l. split; [reflexivity|]. split; [exact Et|intros t' []].
        * intros (before & t1 & after & E & E1 & Hb). destruct before as [|x before].
          -- injection E as <- _. congruence.
          -- injection E as <- _. specialize (Hb t (or_introl eq_refl)). congruence.
      + rewrite IH. split.
        * intros (before & t1 & after & -> & E1 & Hb). exists (t :: before), t1, after. split; [reflexivity|]. split; [exact E1|].
          intros t' [<-|Ht']; [exact Et|exact (Hb t' Ht')].
        * intros (before & t1 & after & E & E1 & Hb). destruct before as [|x before].
          -- injection E as <- _. congruence.
          -- injection E as <- ->. exists before, t1, after. split; [reflexivity|]. split; [exact E1|]. intros t' Ht'. apply Hb. right. exact Ht'.
  Qed.

  Lemma chosen_lookup default ops c f :
    chosen default ops c f <-> find_impl (g_registry (run (new_generic object default) ops)) (mro c) = Some f.
  Proof using Horder Hmro.
    destruct (run_registry default ops) as [Hg Hr]. rewrite find_impl_spec. split.
    - intros (before & t & after & E & Hf & Hb). exists before, t, after. split; [exact E|]. split; [apply Hr, Hf|].
      intros t' Ht'. destruct (dget t' _) as [f'|] eqn:E'; [|reflexivity]. apply Hr in E'. exfalso. exact (Hb t' f' Ht' E').
    - intros (before & t & after & E & Hf & Hb). exists before, t, after. split; [exact E|]. split; [apply Hr, Hf|].
      intros t' f' Ht' Hf'. apply Hr in Hf'. rewrite (Hb t' Ht') in Hf'. discriminate.
  Qed.

  Theorem call_chosen default ops c :
    exists f, snd (call mro (run (new_generic object default) ops) (Some c)) = Ok f /\ chosen default ops c f /\
      forall f', chosen default ops c f' -> f' = f.
  Proof using Horder Hmro Hobject.
    destruct (run_registry default ops) as [Hg Hr]. set (g := run (new_generic object default) ops) in *.
    assert (Hex : exists f, find_impl (g_registry g) (mro c) = Some f).
    { destruct (object_in_force default ops) as (f0 & Hf0). apply Hr in Hf0. specialize (Hobject c). revert Hobject.
      generalize (mro c) as l. induction l as [|t l IH]; intros Hin; [destruct Hin|]. cbn [find_impl].
      destruct (dget t (g_registry g)) as [f|] eqn:Et; [exists f; reflexivity|]. destruct Hin as [->|Hin]; [congruence|exact (IH Hin)]. }
    destruct Hex as (f & Ef). exists f. cbn [call]. destruct (dispatch_lookup g c Hg) as (Ed & _ & _).
    destruct (dispatch mro g c) as [g' r]. cbn [snd] in Ed. rewrite Ed, Ef. cbn [snd]. split; [reflexivity|].
    split; [apply chosen_lookup; exact Ef|]. intros f' Hf'. apply chosen_lookup in Hf'. fold g in Hf'. congruence.
  Qed.

  Theorem failed_specialize default ops m a f : snd (specialize (run (new_generic object default) ops) m a f) <> Ok tt ->
    forall c, snd (call mro (fst (specialize (run (new_generic object default) ops) m a f)) c) =
              snd (call mro (run (new_generic object default) ops) c).
  Proof using Horder.
    intros Hne c. destruct (specialize_cases (run (new_generic object default) ops) m a f) as (cs & E & _ & Hn).
    destruct (Hn Hne) as [-> _]. rewrite E. reflexivity.
  Qed.
  Theorem specialize_fails g m a f : (exists e, snd (specialize g m a f) = Err e) <->
    module_types m = None \/ (installed m = true /\ ~ effective m a).
  Proof using Horder.
    unfold M_dispatch.specialize, load_info. destruct (module_types m) as [types|] eqn:Em.
    2:{ split; [auto|]. intros _. eexists. reflexivity. }
    destruct (installed m) eqn:Ei.
    2:{ cbn. split; [intros (e & E); discriminate|]. intros [E|[E _]]; discriminate. }
    fold (names_of a types).
    destruct (mapM _ (names_of a types)) as [css|e] eqn:E; cbn [snd].
    - split; [intros (e & E'); discriminate|]. intros [E'|[_ Hno]]; [discriminate|]. exfalso. apply Hno. split; [exact Ei|].
      exists types. split; [exact Em|]. exact (proj1 (names_found types (names_of a types) css E)).
    - split; [|intros _; eexists; reflexivity]. intros _. right. split; [reflexivity|].
      destruct (specialize_cases (mk_generic [] []) m a f) as (cs & _ & _ & Hn). apply Hn.
      unfold M_dispatch.specialize, load_info. rewrite Em, Ei. fold (names_of a types). rewrite E. cbn. discriminate.
  Qed.

  (** specializations for modules that have no class in common with the resolution order of a class do not matter *)
  Definition related (m : string) (c : C) : Prop :=
    exists types n cs t, module_types m = Some types /\ In (n, cs) types /\ In t cs /\ In t (mro c).
  Lemma unrelated_for_class m a c : ~ related m c -> forall t, In t (mro c) -> ~ for_class m a t.
  Proof.
    intros Hno t Ht [_ (types & n & cs & E1 & _ & E2 & Hc)]. apply Hno. exists types, n, cs, t.
    split; [exact E1|]. split; [apply dget_In_weak, E2|]. auto.
  Qed.
  Lemma in_force_insert default before m a f after t f' : ~ for_class m a t ->
    in_force default (before ++ Specialize m a f :: after) t f' <-> in_force default (before ++ after) t f'.
  Proof.
    intros Hno. revert f'. induction after as [|o after IH] using rev_ind; intros f'.
    - rewrite in_force_app, app_nil_r. split; [intros [[Hc _]|[_ Hf]]; [contradiction|exact Hf]|auto].
    - rewrite app_comm_cons, !app_assoc, !in_force_app. destruct o as [m' a' f1|cl]; [|apply IH]. rewrite IH. reflexivity.
  Qed.
  Theorem other_modules default before m a f after c f' : ~ related m c ->
    chosen default (before ++ Specialize m a f :: after) c f' <-> chosen default (before ++ after) c f'.
  Proof.
    intros Hno. pose proof (unrelated_for_class m a c Hno) as Hfc. unfold L_dispatch.chosen.
    assert (Hin : forall b t l, mro c = b ++ t :: l -> In t (mro c) /\ forall t', In t' b -> In t' (mro c)).
    { intros b t l E. rewrite E. split; [apply in_or_app; right; left; reflexivity|]. intros t' Ht'. apply in_or_app. left. exact Ht'. }
    split; intros (b & t & l & E & Hf & Hb); exists b, t, l; destruct (Hin b t l E) as [Ht Hb']; (split; [exact E|]); split.
    - apply (in_force_insert default before m a f after t f' (Hfc t Ht)). exact Hf.
    - intros t' f1 Ht' Hf1. apply (Hb t' f1 Ht'). apply (in_force_insert default before m a f after t' f1 (Hfc t' (Hb' t' Ht'))). exact Hf1.
    - apply (in_force_insert default before m a f after t f' (Hfc t Ht)). exact Hf.
    - intros t' f1 Ht' Hf1. apply (Hb t' f1 Ht'). apply (in_force_insert default before m a f after t' f1 (Hfc t' (Hb' t' Ht'))). exact Hf1.
  Qed.
End Proofs.
