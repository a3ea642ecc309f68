(** Single-column transformers: what the methods of derived classes refuse. *)
From Coq Require Import Ascii.
From Verif Require Import Base L_dict M_singlecol.
Open Scope string_scope.
Open Scope list_scope.
Open Scope nat_scope.
Set Default Proof Using "Type".

Section Spec.
  Context {X Y V : Type}.
  Notation entry := (entry X Y V).
  Notation func := (func X Y V).

  Definition names_of (own : list (string * func)) : list string := map fst own.
  Definition Defines (e : entry) (m : string) : Prop :=
    match e with
    | Derived _ _ _ own | Foreign _ _ _ own => In m (names_of own)
    | TheBase _ _ _ => m = "fit"
    end.
  (** The first class that defines a method. *)
  Definition Owner (mro : list entry) (m : string) (e : entry) : Prop :=
    exists a b, mro = a ++ e :: b /\ Defines e m /\ forall e', In e' a -> ~ Defines e' m.
  Definition checked_method (m : string) : Prop := m = "fit" \/ m = "fit_transform" \/ m = "transform" \/ m = "partial_fit".
  (** The functions of the bodies of derived classes are named as usual. *)
  Definition Named (mro : list entry) : Prop :=
    forall own m f, In (Derived _ _ _ own) mro -> In (m, f) own -> checked_method m -> f_name _ _ _ f = Some m.

  Variable column : X -> Prop.
  (** Calls that a correct program makes: with a column, transform without y. *)
  Definition good (m : string) (x : X) (y : option Y) : Prop :=
    checked_method m -> column x /\ (m = "transform" -> y = None).
  Inductive Tame : prog X Y V -> Prop :=
  | tame_return r : Tame (Return _ _ _ r)
  | tame_effect n k : Tame k -> Tame (Effect _ _ _ n k)
  | tame_self m x y k : good m x y -> (forall r, Tame (k r)) -> Tame (CallSelf _ _ _ m x y k)
  | tame_super m x y k : good m x y -> (forall r, Tame (k r)) -> Tame (CallSuper _ _ _ m x y k).
End Spec.

Lemma checked_in m : checked_method m <-> mem m wrapped_names = true.
Proof.
  unfold checked_method, wrapped_names. rewrite mem_true. cbn. intuition.
Qed.

Lemma mapM_F2 {A B} (g : A -> res B) : forall l l', mapM g l = Ok l' -> Forall2 (fun a b => g a = Ok b) l l'.
Proof.
  induction l as [|a l IH]; intros l' E; cbn [mapM] in E.
  - injection E as <-. constructor.
  - destruct (g a) as [b|] eqn:Ea; [|discriminate]. cbn [bind] in E. destruct (mapM g l) as [bs|]; [|discriminate].
    cbn [bind] in E. injection E as <-. constructor; [exact Ea|apply IH; reflexivity].
Qed.
Lemma mapM_ok_all {A B} (g : A -> res B) : forall l, (forall a, In a l -> exists b, g a = Ok b) -> exists l', mapM g l = Ok l'.
Proof.
  induction l as [|a l IH]; intros Hl; cbn [mapM]; [eauto|].
  destruct (Hl a (or_introl eq_refl)) as (b & ->). cbn [bind]. destruct IH as (l' & ->); [intros; apply Hl; right; assumption|].
  cbn [bind]. eauto.
Qed.

Section Proofs.
  Context {X Y V : Type}.
  Variable is_dataframe : X -> bool.
  Variable is_column : X -> bool.
  Variable none : Y.
  Variable self_value : V.
  Notation entry := (entry X Y V).
  Notation func := (func X Y V).
  Notation attr := (attr X Y V).
  Notation make := (make X Y V none self_value).
  Notation make_entry := (make_entry X Y V none self_value).
  Notation lookup := (lookup X Y V).
  Notation lookup_from := (lookup_from X Y V).
  Notation enter := (enter X Y V is_dataframe is_column none).
  Notation call := (call X Y V is_dataframe is_column none).
  Notation exec := (exec X Y V is_dataframe is_column none).
  Notation invoke := (invoke X Y V is_dataframe is_column none).

  Definition column (x : X) : Prop := is_dataframe x = false /\ is_column x = true.

  Lemma check_column x : column x -> check X is_dataframe is_column x = Ok tt.
  Proof. intros [E1 E2]. unfold check. rewrite E1, E2. reflexivity. Qed.
  Lemma check_other x : ~ column x -> check X is_dataframe is_column x = Err ValueError.
  Proof.
    intros Hn. unfold check. destruct (is_dataframe x) eqn:E1; [reflexivity|]. destruct (is_column x) eqn:E2; [|reflexivity].
    exfalso. apply Hn. split; assumption.
  Qed.

  (** The attribute that a function becomes. *)
  Definition becomes (derived : bool) (m : string) (f : func) (a : attr) : Prop :=
    if derived && mem m wrapped_names then
      (a = Checked _ _ _ true (Plain _ _ _ f) /\ (f_name _ _ _ f = Some "fit" \/ f_name _ _ _ f = Some "partial_fit" \/ f_name _ _ _ f = Some "fit_transform")) \/
      (a = Checked _ _ _ false (Plain _ _ _ f) /\ f_name _ _ _ f = Some "transform")
    else a = Plain _ _ _ f.

  Lemma wrap_plain (f : func) a : wrap X Y V (Plain _ _ _ f) = Ok a ->
    (a = Checked _ _ _ true (Plain _ _ _ f) /\ (f_name _ _ _ f = Some "fit" \/ f_name _ _ _ f = Some "partial_fit" \/ f_name _ _ _ f = Some "fit_transform")) \/
    (a = Checked _ _ _ false (Plain _ _ _ f) /\ f_name _ _ _ f = Some "transform").
  Proof.
    unfold wrap. cbn [a_name]. destruct (f_name _ _ _ f) as [n|]; [|discriminate]. intros E.
    destruct (eqb_of n "fit") eqn:E1; [apply eqb_of_eq in E1; injection E as <-; rewrite E1; left; auto|].
    destruct (eqb_of n "partial_fit") eqn:E2; [apply eqb_of_eq in E2; injection E as <-; rewrite E2; left; auto|].
    destruct (eqb_of n "fit_transform") eqn:E3; [apply eqb_of_eq in E3; injection E as <-; rewrite E3; left; auto|].
    destruct (eqb_of n "transform") eqn:E4; [apply eqb_of_eq in E4; injection E as <-; rewrite E4; right; auto|discriminate].
  Qed.

  Definition functions (e : entry) : list (string * func) :=
    match e with Derived _ _ _ own | Foreign _ _ _ own => own | TheBase _ _ _ => [("fit", base_fit X Y V none self_value)] end.
  Definition derived (e : entry) : bool := match e with Derived _ _ _ _ => true | _ => false end.

  Definition DictRel (dr : bool) (own : list (string * func)) (d : list (string * attr)) : Prop :=
    Forall2 (fun nf na => fst nf = fst na /\ becomes dr (fst nf) (snd nf) (snd na)) own d.

  Lemma made e d : make_entry e = Ok d -> DictRel (derived e) (functions e) d.
  Proof.
    destruct e as [own| |own]; cbn [M_singlecol.make_entry derived functions]; intros E.
    - unfold init_subclass, plain in E. revert d E. induction own as [|[n f] own IH]; intros d E; cbn [map mapM] in E.
      + injection E as <-. constructor.
      + cbn [fst snd] in E. destruct (mem n wrapped_names) eqn:Em.
        * destruct (wrap X Y V (Plain _ _ _ f)) as [a|] eqn:Ew; [|discriminate]. cbn [bind] in E.
          match type of E with bind ?z _ = _ => destruct z as [d'|] eqn:Ed; [|discriminate] end. cbn [bind] in E. injection E as <-.
          constructor; [|apply IH; reflexivity]. cbn [fst snd]. split; [reflexivity|]. unfold becomes. rewrite Em. cbn [andb].
          apply wrap_plain. exact Ew.
        * cbn [bind] in E. match type of E with bind ?z _ = _ => destruct z as [d'|] eqn:Ed; [|discriminate] end. cbn [bind] in E. injection E as <-.
          constructor; [|apply IH; reflexivity]. cbn [fst snd]. split; [reflexivity|]. unfold becomes. rewrite Em. reflexivity.
    - injection E as <-. constructor; [|constructor]. split; reflexivity.
    - injection E as <-. unfold plain. induction own as [|[n f] own IH]; cbn [map]; constructor; auto. split; reflexivity.
  Qed.

  Lemma dict_get dr own d m : DictRel dr own d ->
    match dget m own with
    | Some f => exists a, dget m d = Some a /\ becomes dr m f a
    | None => dget m d = None
    end.
  Proof.
    intros HD. induction HD as [|[n f] [n' a] own d [En Hb] HD IH]; cbn [dget]; [reflexivity|]. cbn [fst snd] in *. subst n'.
    destruct (eqd m n) as [->|]; [exists a; auto|exact IH].
  Qed.

  Lemma defines_get e m : Defines e m <-> dget m (functions e) <> None.
  Proof.
    assert (G : forall own : list (string * func), In m (map fst own) <-> dget m own <> None).
    { induction own as [|[n f] own IH]; cbn [map dget In fst]; [split; [intros []|intros E; apply E; reflexivity]|].
      destruct (eqd m n) as [->|Hne]; [split; [discriminate|auto]|]. rewrite <- IH. split; [intros [->|Hin]; [congruence|exact Hin]|auto]. }
    destruct e as [own| |own]; cbn [Defines functions]; [apply G| |apply G].
    rewrite <- G. cbn. intuition.
  Qed.

  Definition MroRel (mro : list entry) (cs : list (list (string * attr))) : Prop :=
    Forall2 (fun e d => DictRel (derived e) (functions e) d) mro cs.
  Lemma make_rel mro cs : make mro = Ok cs -> MroRel mro cs.
  Proof.
    intros E. apply mapM_F2 in E. induction E as [|e d mro cs He _ IH]; constructor; [apply made; exact He|exact IH].
  Qed.

  Lemma lookup_owner mro cs m e : MroRel mro cs -> Owner mro m e ->
    exists i f a, lookup 0 cs m = Some (i, a) /\ dget m (functions e) = Some f /\ becomes (derived e) m f a.
  Proof.
    intros HR (a & b & -> & Hd & Hn). unfold lookup. cbn [skipn]. unfold M_singlecol.lookup. cbn [skipn].
    generalize 0. revert cs HR. induction a as [|e0 a IH]; intros cs HR start.
    - cbn [app] in HR. inversion HR as [|e' d mro' cs' HD HR']; subst. cbn [M_singlecol.lookup_from].
      apply defines_get in Hd. pose proof (dict_get _ _ _ m HD) as G. destruct (dget m (functions e)) as [f|]; [|congruence].
      destruct G as (at' & -> & Hb). exists start, f, at'. auto.
    - cbn [app] in HR. inversion HR as [|e' d mro' cs' HD HR']; subst. cbn [M_singlecol.lookup_from].
      pose proof (dict_get _ _ _ m HD) as G.
      assert (E0 : dget m (functions e0) = None).
      { destruct (dget m (functions e0)) eqn:E0; [|reflexivity]. exfalso. apply (Hn e0 (or_introl eq_refl)). apply defines_get. congruence. }
      rewrite E0 in G. rewrite G. apply IH; [|exact HR']. intros e' He'. apply Hn. right. exact He'.
  Qed.

  Theorem refuses mro cs m own calls x y : make mro = Ok cs -> checked_method m -> Owner mro m (Derived _ _ _ own) ->
    ~ column x -> (forall f, In (m, f) own -> f_name _ _ _ f = Some "transform" -> y = None) ->
    call cs calls m x y = Some ([], Err ValueError).
  Proof.
    intros E Hm Ho Hx Hy. destruct (lookup_owner _ _ _ _ (make_rel _ _ E) Ho) as (i & f & a & El & Ef & Hb).
    unfold M_singlecol.call, M_singlecol.invoke. rewrite El. cbn [derived functions] in *. unfold becomes in Hb.
    apply checked_in in Hm. rewrite Hm in Hb. cbn [andb] in Hb. destruct Hb as [[-> _]|[-> Hf]]; cbn [M_singlecol.enter].
    - rewrite (check_other x Hx). reflexivity.
    - rewrite (Hy f (dget_In_weak _ _ _ Ef) Hf), (check_other x Hx). reflexivity.
  Qed.

  Theorem base_fit_refuses mro cs own calls x y : make mro = Ok cs ->
    Owner mro "fit" (TheBase _ _ _) -> Owner mro "fit_transform" (Derived _ _ _ own) ->
    (forall f, In ("fit_transform", f) own -> f_name _ _ _ f <> Some "transform") ->
    ~ column x -> call cs (S calls) "fit" x y = Some ([], Err ValueError).
  Proof.
    intros E Hf Ht Hn Hx. destruct (lookup_owner _ _ _ _ (make_rel _ _ E) Hf) as (i & f & a & El & Ef & Hb).
    cbn [functions dget] in Ef. cbn in Ef. injection Ef as <-. cbn [derived] in Hb. unfold becomes in Hb. cbn [andb] in Hb. subst a.
    unfold M_singlecol.call, M_singlecol.invoke. rewrite El. cbn [M_singlecol.enter base_fit f_body M_singlecol.exec].
    assert (R : forall z, call cs calls "fit_transform" x z = Some ([], Err ValueError)).
    { intros z. eapply refuses; eauto; [right; left; reflexivity|]. intros f Hin Hff. destruct (Hn f Hin Hff). }
    unfold M_singlecol.call in R. rewrite R. reflexivity.
  Qed.

  Theorem delegated_refuses mro cs m m2 other own calls x y : make mro = Ok cs ->
    Owner mro m (Foreign _ _ _ other) ->
    (forall f, In (m, f) other -> exists y2 k, f_body _ _ _ f x y = CallSelf _ _ _ m2 x y2 k /\ forall e, k (Err e) = Return _ _ _ (Err e)) ->
    checked_method m2 -> m2 <> "transform" -> Owner mro m2 (Derived _ _ _ own) -> Named mro ->
    ~ column x -> call cs (S calls) m x y = Some ([], Err ValueError).
  Proof.
    intros E Hf Hbody Hm2 Hne Ho Hn Hx. destruct (lookup_owner _ _ _ _ (make_rel _ _ E) Hf) as (i & f & a & El & Ef & Hb).
    cbn [derived functions] in *. unfold becomes in Hb. cbn [andb] in Hb. subst a.
    unfold M_singlecol.call, M_singlecol.invoke. rewrite El. cbn [M_singlecol.enter].
    destruct (Hbody f (dget_In_weak _ _ _ Ef)) as (y2 & k & -> & Hk). cbn [M_singlecol.exec].
    assert (R : call cs calls m2 x y2 = Some ([], Err ValueError)).
    { eapply refuses; eauto. intros f2 Hin Hff. exfalso. apply Hne.
      destruct Ho as (a & b & -> & _). rewrite (Hn own m2 f2) in Hff; [congruence|apply in_or_app; right; left; reflexivity|exact Hin|exact Hm2]. }
    unfold M_singlecol.call in R. rewrite R, Hk. reflexivity.
  Qed.

  (** ** Making a class *)
  Theorem made_iff mro : (exists cs, make mro = Ok cs) <->
    forall own m f, In (Derived _ _ _ own) mro -> In (m, f) own -> checked_method m ->
      exists n, f_name _ _ _ f = Some n /\ checked_method n.
  Proof.
    split.
    - intros [cs E] own m f Hin Hf Hm. apply make_rel in E. induction E as [|e d mro cs HD _ IH]; [destruct Hin|].
      destruct Hin as [->|Hin]; [|exact (IH Hin)]. cbn [derived functions] in HD. clear IH.
      induction HD as [|[n f'] [n' a] own d [En Hb] HD IH]; [destruct Hf|]. cbn [fst snd] in *.
      destruct Hf as [E|Hf]; [|exact (IH Hf)]. injection E as -> ->. apply checked_in in Hm. unfold becomes in Hb. rewrite Hm in Hb.
      cbn [andb] in Hb. unfold checked_method. destruct Hb as [[_ [->|[->| ->]]]|[_ ->]]; eexists; (split; [reflexivity|]); auto.
    - intros Hall. apply mapM_ok_all. intros e He. destruct e as [own| |own]; cbn [M_singlecol.make_entry]; eauto.
      unfold init_subclass. apply mapM_ok_all. intros [n a] Hin. unfold plain in Hin. apply in_map_iff in Hin.
      destruct Hin as ([n' f] & E & Hin). cbn in E. injection E as <- <-. cbn [fst snd].
      destruct (mem n' wrapped_names) eqn:Em; [|eauto]. apply checked_in in Em.
      destruct (Hall own n' f He Hin Em) as (nm & Ef & Hnm). unfold wrap. cbn [a_name]. rewrite Ef.
      unfold checked_method in Hnm. destruct Hnm as [->|[->|[->| ->]]]; cbn; eauto.
  Qed.

  (** ** Columns *)
  (** The same classes without checks. *)
  Definition unchecked (mro : list entry) : list (list (string * attr)) := map (fun e => plain X Y V (functions e)) mro.

  Section Same.
    Variable mro : list entry.
    Variable cs : list (list (string * attr)).
    Hypothesis Emake : make mro = Ok cs.
    Hypothesis Hnamed : Named mro.
    Hypothesis Hnone : forall own m f x, In (Derived _ _ _ own) mro -> In (m, f) own -> checked_method m -> m <> "transform" ->
      f_body _ _ _ f x None = f_body _ _ _ f x (Some none).
    Hypothesis Htame : forall e m f x y, In e mro -> In (m, f) (functions e) -> good column m x y -> Tame column (f_body _ _ _ f x y).

    Lemma plain_get own m : dget m (plain X Y V own) = option_map (Plain _ _ _) (dget m own).
    Proof. induction own as [|[n f] own IH]; cbn; [reflexivity|]. destruct (eqd m n); [reflexivity|exact IH]. Qed.

    Lemma lookup_both start m :
      match lookup start (unchecked mro) m with
      | None => lookup start cs m = None
      | Some (i, a0) => exists e f a, In e mro /\ dget m (functions e) = Some f /\ a0 = Plain _ _ _ f /\
          lookup start cs m = Some (i, a) /\ becomes (derived e) m f a
      end.
    Proof using Emake.
      unfold M_singlecol.lookup. pose proof (make_rel _ _ Emake) as HR. clear Emake Hnamed Hnone Htame.
      generalize start at 1 3 5. revert start.
      assert (G : forall l cs0, MroRel l cs0 -> (forall e, In e l -> In e mro) -> forall k,
        match lookup_from k (unchecked l) m with
        | None => lookup_from k cs0 m = None
        | Some (i, a0) => exists e f a, In e mro /\ dget m (functions e) = Some f /\ a0 = Plain _ _ _ f /\
            lookup_from k cs0 m = Some (i, a) /\ becomes (derived e) m f a
        end).
      { intros l cs0 HR0. induction HR0 as [|e d l cs0 HD HR0 IH]; intros Hl k; cbn [unchecked map M_singlecol.lookup_from]; [reflexivity|].
        rewrite plain_get. pose proof (dict_get _ _ _ m HD) as G. destruct (dget m (functions e)) as [f|] eqn:Ef; cbn [option_map].
        - destruct G as (a & Ea & Hb). rewrite Ea. exists e, f, a. repeat split; auto. apply Hl. left. reflexivity.
        - rewrite G. apply IH. intros e' He'. apply Hl. right. exact He'. }
      assert (GS : forall n (l : list entry) cs0, MroRel l cs0 -> MroRel (skipn n l) (skipn n cs0)).
      { induction n as [|n IH]; intros l cs0 HR0; [exact HR0|]. destruct HR0; [constructor|]. cbn. apply IH. assumption. }
      intros start k. replace (skipn start (unchecked mro)) with (unchecked (skipn start mro)) by (unfold unchecked; symmetry; apply skipn_map).
      apply G; [apply GS; exact HR|]. intros e He. rewrite <- (firstn_skipn start mro). apply in_or_app. right. exact He.
    Qed.

    Lemma invoke_both ex ex' start m x y : good column m x y ->
      (forall i p, Tame column p -> ex i p = ex' i p) ->
      invoke cs ex start m x y = invoke (unchecked mro) ex' start m x y.
    Proof using Emake Hnamed Hnone Htame.
      intros Hg Hex. unfold M_singlecol.invoke. pose proof (lookup_both start m) as HL.
      destruct (lookup start (unchecked mro) m) as [[i a0]|]; [|rewrite HL; reflexivity].
      destruct HL as (e & f & a & He & Ef & -> & -> & Hb). pose proof (dget_In_weak _ _ _ Ef) as Hin. cbn [M_singlecol.enter].
      unfold becomes in Hb. destruct (derived e && mem m wrapped_names) eqn:Ed.
      - apply andb_true_iff in Ed. destruct Ed as [Ed Em]. apply checked_in in Em. destruct (Hg Em) as [Hc Ht].
        destruct e as [own| |own]; try discriminate. cbn [functions] in *.
        pose proof (Hnamed own m f He Hin Em) as Hnm.
        destruct Hb as [[-> Hf]|[-> Hf]]; cbn [M_singlecol.enter].
        + rewrite (check_column x Hc). cbn [bind]. destruct y as [y'|].
          * apply Hex. apply (Htame _ m f _ _ He Hin Hg).
          * assert (Hne : m <> "transform").
            { intros ->. rewrite Hnm in Hf. destruct Hf as [Hf|[Hf|Hf]]; discriminate. }
            rewrite (Hnone own m f x He Hin Em Hne). apply Hex. rewrite <- (Hnone own m f x He Hin Em Hne). apply (Htame _ m f _ _ He Hin Hg).
        + rewrite Hnm in Hf. injection Hf as ->. rewrite (Ht eq_refl), (check_column x Hc). cbn [bind]. apply Hex.
          apply (Htame _ _ f _ _ He Hin). rewrite (Ht eq_refl) in Hg. exact Hg.
      - subst a. cbn [M_singlecol.enter]. apply Hex. apply (Htame _ m f _ _ He Hin Hg).
    Qed.

    Lemma exec_both : forall d i p, Tame column p -> exec cs d i p = exec (unchecked mro) d i p.
    Proof using Emake Hnamed Hnone Htame.
      induction d as [|d IH]; intros i p Hp; [reflexivity|]. cbn [M_singlecol.exec].
      induction Hp as [r|n k _ IHk|m x y k Hg _ IHk|m x y k Hg _ IHk].
      - reflexivity.
      - rewrite IHk. reflexivity.
      - rewrite (invoke_both (exec cs d) (exec (unchecked mro) d) 0 m x y Hg IH).
        destruct (invoke (unchecked mro) (exec (unchecked mro) d) 0 m x y) as [[t r]|]; [rewrite IHk|]; reflexivity.
      - rewrite (invoke_both (exec cs d) (exec (unchecked mro) d) (S i) m x y Hg IH).
        destruct (invoke (unchecked mro) (exec (unchecked mro) d) (S i) m x y) as [[t r]|]; [rewrite IHk|]; reflexivity.
    Qed.

    Theorem same_for_columns calls m x y : good column m x y -> call cs calls m x y = call (unchecked mro) calls m x y.
    Proof using Emake Hnamed Hnone Htame. intros Hg. apply invoke_both; [exact Hg|]. intros i p Hp. apply exec_both. exact Hp. Qed.
  End Same.
End Proofs.
