(** What calls of deferred functions give. *)
From Verif Require Import Base L_dict M_deferred L_deferred.
Open Scope string_scope.
Open Scope list_scope.
Open Scope nat_scope.
Set Default Proof Using "Type".

Section Calls.
  Context {V : Type}.
  Notation pobj := (pobj V).
  Variable new_seq : string -> list pobj -> res pobj.
  Variable new_map : string -> list (V * pobj) -> res pobj.
  Variable new_est : string -> list (string * pobj) -> res pobj.
  Variable meaning : nat -> res pobj.
  Variable exec : code -> (string -> option pobj) -> list (option pobj) -> binding V -> res pobj.
  Variable call_other : string -> list pobj -> list (string * pobj) -> res pobj.

  Notation ev := (ev new_seq new_map new_est meaning).
  Notation ev_items := (ev_items new_seq new_map new_est meaning).
  Notation needs_eval := (needs_eval new_seq new_map new_est).
  Notation any_needs_eval := (any_needs_eval new_seq new_map new_est).
  Notation needed_globals := (needed_globals new_seq new_map new_est).
  Notation defer := (defer new_seq new_map new_est).
  Notation deferred := (deferred new_seq new_map new_est).
  Notation compute_call := (compute_call new_seq new_map new_est meaning exec call_other).
  Notation call_func := (call_func exec).
  Notation ordinary := (ordinary new_seq new_map new_est).
  Notation replaced := (replaced meaning).
  Notation replaced_items := (Forall2 (fun a b : string * pobj => fst a = fst b /\ replaced (snd a) (snd b))).

  (** The objects a call uses: arguments, global variables and variables of enclosing functions
      read by the function, defaults. *)
  Inductive used (m : memory V) (f : func V) (args : list pobj) (kwargs : list (string * pobj)) (o : pobj) : Prop :=
  | used_arg : In o args -> used m f args kwargs o
  | used_kwarg k : In (k, o) kwargs -> used m f args kwargs o
  | used_global n : In n (co_loads (f_code f)) -> m_globals m n = Some o -> used m f args kwargs o
  | used_cell c : In c (f_cells f) -> m_cells m c = Some o -> used m f args kwargs o
  | used_default : In o (f_defaults f) -> used m f args kwargs o
  | used_kwdefault k : In (k, o) (f_kwdefaults f) -> used m f args kwargs o.

  (** The variables of [m'] are those of [m] in which expressions are replaced with their
      values, as far as [f] sees them. *)
  Definition replaced_memory (f : func V) (m m' : memory V) : Prop :=
    (forall n, In n (co_loads (f_code f) ++ co_nested (f_code f)) ->
      match m_globals m n with Some o => exists o', m_globals m' n = Some o' /\ replaced o o' | None => m_globals m' n = None end) /\
    (forall c, In c (f_cells f) -> exists o o', m_cells m c = Some o /\ m_cells m' c = Some o' /\ replaced o o').
  Definition replaced_func (f f' : func V) : Prop :=
    f_code f' = f_code f /\ f_cells f' = f_cells f /\ f_self f' = f_self f /\
    Forall2 replaced (f_defaults f) (f_defaults f') /\ replaced_items (f_kwdefaults f) (f_kwdefaults f').

  Lemma Forall2_In_l {A B} (R : A -> B -> Prop) l l' : Forall2 R l l' -> forall a, In a l -> exists b, In b l' /\ R a b.
  Proof. induction 1 as [|a b l l' Hab F IH]; [contradiction|]. intros x [<-|I]; [exists b; split; [left; reflexivity|exact Hab]|]. destruct (IH x I) as (y & Iy & Hy). exists y. split; [right; exact Iy|exact Hy]. Qed.
  Lemma Forall2_In_r {A B} (R : A -> B -> Prop) l l' : Forall2 R l l' -> forall b, In b l' -> exists a, In a l /\ R a b.
  Proof. induction 1 as [|a b l l' Hab F IH]; [contradiction|]. intros x [<-|I]; [exists a; split; [left; reflexivity|exact Hab]|]. destruct (IH x I) as (y & Iy & Hy). exists y. split; [right; exact Iy|exact Hy]. Qed.

  (** *** Global variables kept *)

  Lemma needed_spec m names : (forall n o, In n names -> m_globals m n = Some o -> ordinary o) -> forall d,
    exists gs, needed_globals m names d = Ok gs /\ (NoDup (dkeys d) -> NoDup (dkeys gs)) /\
    forall n, (In n names /\ (exists o i, m_globals m n = Some o /\ occurs i o) /\ dget n gs = m_globals m n) \/
              ((In n names -> forall o, m_globals m n = Some o -> plain o) /\ dget n gs = dget n d).
  Proof.
    induction names as [|n0 names IH]; intros O d; cbn [M_deferred.needed_globals].
    - exists d. split; [reflexivity|]. split; [auto|]. intros n. right. split; [contradiction|reflexivity].
    - assert (O' : forall n o, In n names -> m_globals m n = Some o -> ordinary o) by (intros n o I; apply O; right; exact I).
      destruct (m_globals m n0) as [o|] eqn:E0.
      + destruct (needs_eval_spec new_seq new_map new_est o (O n0 o (or_introl eq_refl) E0)) as [[-> (i & Oi)]|[-> P]]; cbn [bind].
        * destruct (IH O' (dset n0 o d)) as (gs & E & N & S). exists gs. split; [exact E|]. split; [intros Nd; apply N, dset_NoDup; exact Nd|].
          intros n. destruct (S n) as [(I & Hx & Eg)|[Hp Eg]]; [left; split; [right; exact I|auto]|].
          destruct (eqd n n0) as [->|Hne].
          -- left. split; [left; reflexivity|]. split; [eauto|]. rewrite Eg, dget_dset_eq. congruence.
          -- right. split; [intros [E1|I]; [exfalso; apply Hne; symmetry; exact E1|auto]|]. rewrite Eg, dget_dset_neq by assumption. reflexivity.
        * destruct (IH O' d) as (gs & E & N & S). exists gs. split; [exact E|]. split; [exact N|].
          intros n. destruct (S n) as [(I & Hx & Eg)|[Hp Eg]]; [left; split; [right; exact I|auto]|].
          right. split; [|exact Eg]. intros [<-|I]; [intros o' Eo; rewrite E0 in Eo; injection Eo as <-; exact P|auto].
      + destruct (IH O' d) as (gs & E & N & S). exists gs. split; [exact E|]. split; [exact N|].
        intros n. destruct (S n) as [(I & Hx & Eg)|[Hp Eg]]; [left; split; [right; exact I|auto]|].
        right. split; [|exact Eg]. intros [<-|I]; [intros o' Eo; congruence|auto].
  Qed.

  (** *** Evaluation of lists *)

  Lemma ev_all l : (forall o, In o l -> ordinary o) ->
    (exists l', mapM ev l = Ok l' /\ Forall2 replaced l l') \/
    (exists i o e, In o l /\ occurs i o /\ meaning i = Err e /\ mapM ev l = Err e).
  Proof.
    intros O. destruct (mapM ev l) as [l'|e] eqn:E.
    - left. exists l'. split; [reflexivity|]. apply (mapM_sound ev replaced l); [|exact E]. apply Forall_forall. intros o I v Ev. apply ev_spec in Ev; auto.
    - right. destruct (mapM_err _ _ _ E) as (o & I & Eo). apply ev_error in Eo; [|auto]. destruct Eo as (i & Oi & Mi). exists i, o, e. auto.
  Qed.
  Lemma ev_all_items (l : list (string * pobj)) : (forall k o, In (k, o) l -> ordinary o) ->
    (exists l', ev_items l = Ok l' /\ replaced_items l l') \/
    (exists i k o e, In (k, o) l /\ occurs i o /\ meaning i = Err e /\ ev_items l = Err e).
  Proof.
    intros O. destruct (ev_items l) as [l'|e] eqn:E.
    - left. exists l'. split; [reflexivity|]. refine (mapM_sound _ _ l _ l' E). apply Forall_forall. intros [k o] I [k' v] Ev. cbn [fst snd] in *.
      destruct (ev o) as [w|] eqn:Eo; cbn in Ev; [|discriminate]. injection Ev as <- <-. split; [reflexivity|]. apply ev_spec in Eo; eauto.
    - right. destruct (ev_items_err _ _ _ _ _ _ E) as (k & o & I & Eo). apply ev_error in Eo; [|eauto]. destruct Eo as (i & Oi & Mi). exists i, k, o, e. auto.
  Qed.
  Lemma items_dget (l l' : list (string * pobj)) k : replaced_items l l' ->
    match dget k l with Some o => exists o', dget k l' = Some o' /\ replaced o o' | None => dget k l' = None end.
  Proof.
    induction 1 as [|[k1 o1] [k2 o2] l l' [Ek R] F IH]; [reflexivity|]. cbn [fst snd] in *. subst k2. cbn [dget]. destruct (eqd k k1) as [->|]; [eauto|exact IH].
  Qed.
  Lemma items_keys (l l' : list (string * pobj)) : replaced_items l l' -> dkeys l' = dkeys l.
  Proof. induction 1 as [|[k1 o1] [k2 o2] l l' [Ek R] F IH]; [reflexivity|]. cbn [fst] in Ek. subst k2. unfold dkeys in *. cbn [map fst]. rewrite IH. reflexivity. Qed.
  Lemma items_dget_none (l l' : list (string * pobj)) k : replaced_items l l' -> dget k l' = None -> dget k l = None.
  Proof. intros R E. apply dget_None_keys. apply dget_None_keys in E. rewrite <- (items_keys _ _ R). exact E. Qed.
  Lemma merge_nil (l : list (string * pobj)) : NoDup (dkeys l) -> merge [] l = l.
  Proof.
    assert (G : forall l a : list (string * pobj), NoDup (dkeys (a ++ l)) -> merge a l = a ++ l).
    { clear. induction l as [|[k v] l IH]; intros a N; cbn [merge]; [rewrite app_nil_r; reflexivity|].
      assert (E : dset k v a = a ++ [(k, v)]).
      { assert (Hn : ~ In k (dkeys a)).
        { intros I. unfold dkeys in N. rewrite map_app in N. apply (NoDup_app_disj _ _ k N I). left. reflexivity. }
        clear - Hn. induction a as [|[k' v'] a IH]; [reflexivity|]. cbn [dset]. destruct (eqd k k') as [->|]; [exfalso; apply Hn; left; reflexivity|]. cbn [app]. f_equal. apply IH. intros I. apply Hn. right. exact I. }
      rewrite E, IH; rewrite <- app_assoc; [reflexivity|exact N]. }
    intros N. apply (G l []). exact N.
  Qed.
  Lemma replaced_plain_list l l' : Forall plain l -> Forall2 replaced l l' -> l' = l.
  Proof.
    intros P F. induction F as [|o o' l l' R F IH]; [reflexivity|]. inversion P; subst. f_equal; [|auto]. eapply replaced_fun; [exact R|]. apply replaced_plain. assumption.
  Qed.
  Lemma replaced_plain_items (l l' : list (string * pobj)) : Forall plain (map snd l) -> replaced_items l l' -> l' = l.
  Proof.
    intros P F. induction F as [|[k o] [k' o'] l l' [Ek R] F IH]; [reflexivity|]. cbn [map snd fst] in *. inversion P; subst. f_equal; [|auto]. f_equal. eapply replaced_fun; [exact R|]. apply replaced_plain. assumption.
  Qed.
  Lemma replaced_self_list l : Forall plain l -> Forall2 replaced l l.
  Proof. induction 1; constructor; [apply replaced_plain|]; assumption. Qed.
  Lemma replaced_self_items (l : list (string * pobj)) : Forall plain (map snd l) -> replaced_items l l.
  Proof. induction l as [|[k o] l IH]; intros P; inversion P; subst; constructor; [split; [reflexivity|apply replaced_plain; assumption]|auto]. Qed.

  (** *** Calls *)

  Hypothesis Hexec : forall c g1 g2 cells b, (forall n, In n (co_loads c ++ co_nested c) -> g1 n = g2 n) -> exec c g1 cells b = exec c g2 cells b.

  Section Call.
    Variables (m0 m1 : memory V) (f : func V) (args : list pobj) (kwargs : list (string * pobj)) (d : deferred_func V).
    Hypothesis Hcode : code_ok (f_code f).
    Hypothesis Hkwd : kwdefaults_ok (f_code f) (f_kwdefaults f).
    Hypothesis Hkeys : NoDup (dkeys kwargs).
    Hypothesis Hord : forall o, used m1 f args kwargs o -> ordinary o.
    Hypothesis Hd : defer m0 (Function f) = Ok d.
    Hypothesis Hglobals : forall n, In n (co_loads (f_code f)) -> m_globals m1 n = m_globals m0 n.
    Hypothesis Hcells : forall c, In c (f_cells f) -> m_cells m1 c = m_cells m0 c.
    Hypothesis Hself : f_self f = None.
    Hypothesis Hnested : forall n o, In n (co_nested (f_code f)) -> ~ In n (co_loads (f_code f)) -> m_globals m1 n = Some o -> plain o.

    Definition value_memory : memory V :=
      mk_memory (fun n => if mem n (co_loads (f_code f)) then
                            match m_globals m1 n with Some o => match ev o with Ok v => Some v | Err _ => None end | None => None end
                          else m_globals m1 n)
                (fun c => match m_cells m1 c with Some o => match ev o with Ok v => Some v | Err _ => None end | None => None end).

    Lemma call_values :
      (exists m' f' args' kwargs', replaced_memory f m1 m' /\ replaced_func f f' /\
        Forall2 replaced args args' /\ replaced_items kwargs kwargs' /\
        compute_call m1 d args kwargs = call_func m' f' args' kwargs') \/
      (exists i o e, used m1 f args kwargs o /\ occurs i o /\ meaning i = Err e /\ compute_call m1 d args kwargs = Err e).
    Proof using Hexec Hcode Hkwd Hkeys Hord Hd Hglobals Hcells Hself Hnested.
      unfold M_deferred.defer in Hd.
      destruct (needed_spec m0 (co_loads (f_code f))) with (d := @nil (string * pobj)) as (gs & Eg & Ng & Sg).
      { intros n o I E. apply Hord. eapply used_global; [exact I|]. rewrite (Hglobals n I). exact E. }
      rewrite Eg in Hd. cbn [bind] in Hd. specialize (Ng (NoDup_nil _)).
      destruct (mapM (cell_contents m0) (f_cells f)) as [closure|] eqn:Ec; cbn [bind] in Hd; [|discriminate].
      apply mapM_Forall2 in Ec.
      assert (Oc : forall o, In o closure -> exists c, In c (f_cells f) /\ m_cells m1 c = Some o).
      { intros o I. destruct (Forall2_In_r _ _ _ Ec o I) as (c & Ic & E). exists c. split; [exact Ic|]. rewrite (Hcells c Ic). unfold cell_contents in E. destruct (m_cells m0 c); [injection E as ->; reflexivity|discriminate]. }
      assert (Og : forall n o, In (n, o) gs -> In n (co_loads (f_code f)) /\ m_globals m1 n = Some o).
      { intros n o I. apply (dget_In_iff _ _ _ Ng) in I. destruct (Sg n) as [(In_ & _ & E)|[_ E]]; [|rewrite E in I; discriminate]. split; [exact In_|]. rewrite (Hglobals n In_). congruence. }
      (* arguments *)
      unfold M_deferred.compute_call.
      destruct (ev_all args) as [(args' & Ea & Ra)|(i & o & e & I & Oi & Mi & ->)]; [intros o I; apply Hord; apply used_arg; exact I| |right; exists i, o, e; split; [apply used_arg; exact I|auto]].
      rewrite Ea. cbn [bind].
      destruct (ev_all_items kwargs) as [(kwargs' & Ek & Rk)|(i & k & o & e & I & Oi & Mi & ->)]; [intros k o I; apply Hord; eapply used_kwarg; exact I| |right; exists i, o, e; split; [eapply used_kwarg; exact I|auto]].
      rewrite Ek. cbn [bind].
      assert (Nk : NoDup (dkeys kwargs')) by (rewrite (items_keys _ _ Rk); exact Hkeys).
      assert (Pn : forall n, In n (co_loads (f_code f)) -> dget n gs = None -> forall o, m_globals m1 n = Some o -> plain o).
      { intros n I E o Eo. rewrite (Hglobals n I) in Eo. destruct (Sg n) as [(_ & (o' & i & Eo' & _) & E2)|[P _]]; [congruence|eauto]. }
      destruct (match gs with [] => any_needs_eval (closure ++ f_defaults f ++ map snd (f_kwdefaults f)) | _ => Ok true end) as [b|] eqn:Eb; cbn [bind] in Hd; [|discriminate].
      destruct b; injection Hd as <-; cbn [d_globals d_closure d_defaults d_kwdefaults d_func].
      - (* something is evaluated *)
        destruct (ev_all_items gs) as [(gs' & Egs & Rg)|(i & n & o & e & I & Oi & Mi & ->)]; [intros n o I; apply Hord; destruct (Og n o I); eapply used_global; eassumption| |right; exists i, o, e; split; [destruct (Og n o I); eapply used_global; eassumption|auto]].
        rewrite Egs. cbn [bind].
        destruct (ev_all closure) as [(closure' & Ecl & Rc)|(i & o & e & I & Oi & Mi & ->)]; [intros o I; apply Hord; destruct (Oc o I) as (c & ? & ?); eapply used_cell; eassumption| |right; exists i, o, e; split; [destruct (Oc o I) as (c & ? & ?); eapply used_cell; eassumption|auto]].
        rewrite Ecl. cbn [bind].
        destruct (ev_all (f_defaults f)) as [(defaults' & Edf & Rd)|(i & o & e & I & Oi & Mi & ->)]; [intros o I; apply Hord; apply used_default; exact I| |right; exists i, o, e; split; [apply used_default; exact I|auto]].
        rewrite Edf. cbn [bind].
        destruct (ev_all_items (f_kwdefaults f)) as [(kwd' & Ekd & Rkd)|(i & k & o & e & I & Oi & Mi & ->)]; [intros k o I; apply Hord; eapply used_kwdefault; exact I| |right; exists i, o, e; split; [eapply used_kwdefault; exact I|auto]].
        rewrite Ekd. cbn [bind].
        left. exists value_memory, (mk_func (f_code f) (f_cells f) defaults' kwd' (f_self f)), args', kwargs'.
        assert (Gn : forall n, In n (co_loads (f_code f)) -> m_globals value_memory n = override (m_globals m1) gs' n).
        { intros n I. cbn [value_memory m_globals]. pose proof I as I'. apply mem_true in I'. rewrite I'. unfold override. pose proof (items_dget _ _ n Rg) as D.
          destruct (dget n gs) as [o|] eqn:Eo.
          - destruct D as (o' & Eo' & R). apply dget_In_weak in Eo. destruct (Og n o Eo) as [_ Em]. rewrite Em, Eo'.
            assert (Ev : ev o = Ok o') by (apply ev_spec; [apply Hord; eapply used_global; eassumption|exact R]). rewrite Ev. reflexivity.
          - rewrite D. destruct (m_globals m1 n) as [o|] eqn:Em; [|reflexivity]. rewrite ev_plain; [reflexivity|apply Hord; eapply used_global; eassumption|]. eapply Pn; eassumption. }
        assert (Cv : map (m_cells value_memory) (f_cells f) = map Some closure').
        { clear - Ec Rc Oc Hord Hcells. cbn [value_memory m_cells]. revert closure' Rc. 
          assert (Ho : forall c, In c (f_cells f) -> forall o, m_cells m1 c = Some o -> ordinary o) by (intros c I o E; apply Hord; eapply used_cell; eassumption).
          clear Oc Hord. induction Ec as [|c o cells closure E Ec IH]; intros closure' Rc; inversion Rc; subst; [reflexivity|].
          cbn [map]. f_equal; [|apply IH; [intros; apply Hcells; right; assumption|intros c' I; apply Ho; right; exact I|assumption]].
          assert (Em : m_cells m1 c = Some o) by (rewrite (Hcells c (or_introl eq_refl)); unfold cell_contents in E; destruct (m_cells m0 c); [injection E as ->; reflexivity|discriminate]).
          rewrite Em. assert (Ev : ev o = Ok y) by (apply ev_spec; [apply (Ho c (or_introl eq_refl)); exact Em|assumption]). rewrite Ev. reflexivity. }
        assert (RM : replaced_memory f m1 value_memory).
        { split.
          - intros n I. destruct (in_dec string_dec n (co_loads (f_code f))) as [Il|Il].
            + rewrite (Gn n Il). unfold override. destruct (m_globals m1 n) as [o|] eqn:Em.
              * pose proof (items_dget _ _ n Rg) as D. destruct (dget n gs) as [o0|] eqn:Eo.
                -- destruct D as (o' & Eo' & R). rewrite Eo'. exists o'. split; [reflexivity|]. apply dget_In_weak in Eo. destruct (Og n o0 Eo) as [_ Em']. congruence.
                -- rewrite D. exists o. split; [reflexivity|]. apply replaced_plain. eapply Pn; eassumption.
              * pose proof (items_dget _ _ n Rg) as D. destruct (dget n gs) as [o0|] eqn:Eo; [|rewrite D; reflexivity]. apply dget_In_weak in Eo. destruct (Og n o0 Eo) as [_ Em']. congruence.
            + apply in_app_or in I. destruct I as [I|I]; [contradiction|]. cbn [value_memory m_globals]. pose proof Il as Il'. apply mem_false in Il'. rewrite Il'.
              destruct (m_globals m1 n) as [o|] eqn:Em; [|reflexivity]. exists o. split; [reflexivity|]. apply replaced_plain. eapply Hnested; eassumption.
          - intros c I. destruct (Forall2_In_l _ _ _ Ec c I) as (o & Io & E).
            assert (Em : m_cells m1 c = Some o) by (rewrite (Hcells c I); unfold cell_contents in E; destruct (m_cells m0 c); [injection E as ->; reflexivity|discriminate]).
            destruct (Forall2_In_l _ _ _ Rc o Io) as (o' & _ & R). exists o, o'. split; [exact Em|]. split; [|exact R]. cbn [value_memory m_cells]. rewrite Em.
            assert (Ev : ev o = Ok o') by (apply ev_spec; [apply Hord; eapply used_cell; eassumption|exact R]). rewrite Ev. reflexivity. }
        split; [exact RM|]. split; [repeat split; assumption|]. split; [exact Ra|]. split; [exact Rk|].
        assert (Hk' : kwdefaults_ok (f_code f) kwd').
        { destruct Hkwd as [N I]. split; rewrite (items_keys _ _ Rkd); assumption. }
        destruct (is_nil gs' && is_nil closure' && is_nil defaults') eqn:En; cbn [negb].
        + apply andb_true_iff in En. destruct En as [En E3]. apply andb_true_iff in En. destruct En as [E1 E2].
          destruct gs'; [|discriminate]. destruct closure'; [|discriminate]. destruct defaults'; [|discriminate]. inversion Rd as [Ed0|]. 
          unfold M_deferred.call_func. cbn [f_code f_cells f_defaults f_kwdefaults f_self with_self]. unfold with_self. rewrite Hself. cbn [f_self].
          rewrite <- Ed0. rewrite bind_kwdefaults; [|assumption..|intros k _; apply items_dget_none; exact Rkd].
          destruct (bind_args _ _ _ _ _); cbn [bind]; [|reflexivity].
          rewrite Cv. inversion Rc; subst. inversion Ec as [Ecells|]. cbn [map]. apply Hexec. intros n I. destruct (in_dec string_dec n (co_loads (f_code f))) as [Il|Il]; [rewrite (Gn n Il); reflexivity|].
          cbn [value_memory m_globals]. apply mem_false in Il. rewrite Il. reflexivity.
        + unfold M_deferred.call_func. cbn [f_code f_cells f_defaults f_kwdefaults f_self]. unfold with_self. cbn [f_self]. rewrite Hself.
          rewrite bind_kwdefaults; [|assumption..|reflexivity]. destruct (bind_args _ _ _ _ _); cbn [bind]; [|reflexivity].
          rewrite Cv. apply Hexec. intros n I. destruct (in_dec string_dec n (co_loads (f_code f))) as [Il|Il]; [rewrite (Gn n Il); reflexivity|].
          cbn [value_memory m_globals]. pose proof Il as Il'. apply mem_false in Il'. rewrite Il'. unfold override. pose proof (items_dget _ _ n Rg) as D.
          destruct (dget n gs) as [o|] eqn:Eo; [apply dget_In_weak in Eo; destruct (Og n o Eo); contradiction|]. rewrite D. reflexivity.
      - (* nothing to evaluate *)
        left. destruct gs as [|]; [|discriminate]. cbn [M_deferred.ev_items mapM bind is_nil andb negb].
        assert (Oall : Forall ordinary (closure ++ f_defaults f ++ map snd (f_kwdefaults f))).
        { apply Forall_forall. intros o I. apply Hord. apply in_app_or in I. destruct I as [I|I]; [destruct (Oc o I) as (c & ? & ?); eapply used_cell; eassumption|].
          apply in_app_or in I. destruct I as [I|I]; [apply used_default; exact I|]. apply in_map_iff in I. destruct I as ([k o'] & <- & I). eapply used_kwdefault; exact I. }
        destruct (any_needs_eval_spec _ _ _ _ Oall) as [[E _]|[_ P]]; [congruence|].
        apply Forall_app in P. destruct P as [Pc P]. apply Forall_app in P. destruct P as [Pd Pk].
        exists m1, f, args', kwargs'. split; [|split; [|split; [exact Ra|split; [exact Rk|]]]].
        + split.
          * intros n I. destruct (m_globals m1 n) as [o|] eqn:Em; [|reflexivity]. exists o. split; [reflexivity|]. apply replaced_plain.
            destruct (in_dec string_dec n (co_loads (f_code f))) as [Il|Il]; [eapply (Pn n Il); [reflexivity|exact Em]|]. apply in_app_or in I. destruct I as [I|I]; [contradiction|]. eapply Hnested; eassumption.
          * intros c I. destruct (Forall2_In_l _ _ _ Ec c I) as (o & Io & E).
            assert (Em : m_cells m1 c = Some o) by (rewrite (Hcells c I); unfold cell_contents in E; destruct (m_cells m0 c); [injection E as ->; reflexivity|discriminate]).
            exists o, o. split; [exact Em|]. split; [exact Em|]. apply replaced_plain. rewrite Forall_forall in Pc. auto.
        + repeat split; [apply replaced_self_list; exact Pd|apply replaced_self_items; exact Pk].
        + rewrite merge_nil by exact Nk. reflexivity.
    Qed.
  End Call.

  (** *** Functions that use no expression *)

  Lemma deferred_plain m0 f : (forall o, used m0 f [] [] o -> ordinary o /\ plain o) -> (forall c, In c (f_cells f) -> m_cells m0 c <> None) ->
    exists d, defer m0 (Function f) = Ok d /\
    forall m1 args kwargs, NoDup (dkeys kwargs) -> (forall o, In o args \/ (exists k, In (k, o) kwargs) -> ordinary o) ->
      (exists args' kwargs', Forall2 replaced args args' /\ replaced_items kwargs kwargs' /\
        compute_call m1 d args kwargs = call_func m1 f args' kwargs') \/
      (exists i o e, (In o args \/ exists k, In (k, o) kwargs) /\ occurs i o /\ meaning i = Err e /\ compute_call m1 d args kwargs = Err e).
  Proof using Type.
    intros O Ce. unfold M_deferred.defer.
    destruct (needed_spec m0 (co_loads (f_code f))) with (d := @nil (string * pobj)) as (gs & Eg & Ng & Sg); [intros n o I E; apply (O o); eapply used_global; eassumption|].
    rewrite Eg. cbn [bind]. specialize (Ng (NoDup_nil _)).
    assert (gs = []) as ->.
    { destruct gs as [|[n o] gs]; [reflexivity|]. exfalso. destruct (Sg n) as [(I & (o' & i & Eo & Oi) & _)|[_ E]].
      - assert (U : used m0 f [] [] o') by (eapply used_global; eassumption). destruct (O o' U) as [_ P]. exact (P i Oi).
      - cbn in E. destruct (eqd n n); [discriminate|congruence]. }
    assert (exists closure, mapM (cell_contents m0) (f_cells f) = Ok closure) as (closure & Ec).
    { clear - Ce. induction (f_cells f) as [|c cells IH]; [eexists; reflexivity|]. cbn [mapM]. unfold cell_contents at 1. destruct (m_cells m0 c) as [o|] eqn:E; [|exfalso; apply (Ce c (or_introl eq_refl)); exact E].
      cbn [bind]. destruct IH as (l & ->); [intros c' I; apply Ce; right; exact I|]. eexists. reflexivity. }
    rewrite Ec. cbn [bind]. apply mapM_Forall2 in Ec.
    assert (Oall : forall o, In o (closure ++ f_defaults f ++ map snd (f_kwdefaults f)) -> ordinary o /\ plain o).
    { intros o I. apply O. apply in_app_or in I. destruct I as [I|I].
      - destruct (Forall2_In_r _ _ _ Ec o I) as (c & Ic & E). eapply used_cell; [exact Ic|]. unfold cell_contents in E. destruct (m_cells m0 c); [injection E as ->; reflexivity|discriminate].
      - apply in_app_or in I. destruct I as [I|I]; [apply used_default; exact I|]. apply in_map_iff in I. destruct I as ([k o'] & <- & I). eapply used_kwdefault; exact I. }
    destruct (any_needs_eval_spec new_seq new_map new_est (closure ++ f_defaults f ++ map snd (f_kwdefaults f))) as [[_ (i & o & I & Oi)]|[-> _]].
    { apply Forall_forall. intros o I. apply Oall. exact I. }
    { exfalso. destruct (Oall o I) as [_ P]. exact (P i Oi). }
    cbn [bind]. eexists. split; [reflexivity|]. intros m1 args kwargs Nk Oa. unfold M_deferred.compute_call. cbn [d_globals d_closure d_defaults d_kwdefaults d_func].
    destruct (ev_all args) as [(args' & Ea & Ra)|(i & o & e & I & Oi & Mi & ->)]; [intros o I; apply Oa; left; exact I| |right; exists i, o, e; auto].
    rewrite Ea. cbn [bind].
    destruct (ev_all_items kwargs) as [(kwargs' & Ek & Rk)|(i & k & o & e & I & Oi & Mi & ->)]; [intros k o I; apply Oa; right; exists k; exact I| |right; exists i, o, e; split; [right; exists k; exact I|auto]].
    rewrite Ek. cbn [bind M_deferred.ev_items mapM is_nil andb negb]. left. exists args', kwargs'. split; [exact Ra|]. split; [exact Rk|].
    rewrite merge_nil; [reflexivity|]. rewrite (items_keys _ _ Rk). exact Nk.
  Qed.

  (** *** Decorating *)

  Lemma defer_exact m f : (forall o, used m f [] [] o -> ordinary o) ->
    (exists d, defer m (Function f) = Ok d /\ forall c, In c (f_cells f) -> m_cells m c <> None) \/
    (defer m (Function f) = Err ValueError /\ exists c, In c (f_cells f) /\ m_cells m c = None).
  Proof using Type.
    intros O. unfold M_deferred.defer.
    destruct (needed_spec m (co_loads (f_code f))) with (d := @nil (string * pobj)) as (gs & Eg & _ & _); [intros n o I E; apply (O o); eapply used_global; eassumption|].
    rewrite Eg. cbn [bind]. destruct (mapM (cell_contents m) (f_cells f)) as [closure|e] eqn:Ec; cbn [bind].
    - left. apply mapM_Forall2 in Ec.
      assert (Hc : forall c, In c (f_cells f) -> m_cells m c <> None).
      { intros c I. destruct (Forall2_In_l _ _ _ Ec c I) as (o & _ & E). unfold cell_contents in E. destruct (m_cells m c); [discriminate|discriminate]. }
      assert (exists b, match gs with [] => any_needs_eval (closure ++ f_defaults f ++ map snd (f_kwdefaults f)) | _ => Ok true end = Ok b) as (b & Eb).
      { destruct gs; [|eauto]. destruct (any_needs_eval_spec new_seq new_map new_est (closure ++ f_defaults f ++ map snd (f_kwdefaults f))) as [[E _]|[E _]]; [|eauto..].
        apply Forall_forall. intros o I. apply O. apply in_app_or in I. destruct I as [I|I].
        - destruct (Forall2_In_r _ _ _ Ec o I) as (c & Ic & E). eapply used_cell; [exact Ic|]. unfold cell_contents in E. destruct (m_cells m c); [injection E as ->; reflexivity|discriminate].
        - apply in_app_or in I. destruct I as [I|I]; [apply used_default; exact I|]. apply in_map_iff in I. destruct I as ([k o'] & <- & I). eapply used_kwdefault; exact I. }
      rewrite Eb. cbn [bind]. destruct b; eexists; split; try reflexivity; exact Hc.
    - right. destruct (mapM_err _ _ _ Ec) as (c & I & E). unfold cell_contents in E. destruct (m_cells m c) eqn:Em; [discriminate|]. injection E as <-. split; [reflexivity|]. exists c. auto.
  Qed.
  Lemma deferred_twice m m' x y : deferred m x = Ok y -> deferred m' y = Ok y.
  Proof using Type.
    destruct x as [i|d|c]; cbn; [intros E; injection E as <-; reflexivity..|]. destruct (defer m c); cbn; [|discriminate]. intros E. injection E as <-. reflexivity.
  Qed.

  (** *** Environments *)
  Lemma environment_exact e : Forall (fun kv => ordinary (snd kv)) e ->
    (check_environment new_seq new_map new_est e = Ok tt /\ forall k o, In (k, o) e -> plain o) \/
    (check_environment new_seq new_map new_est e = Err TypeError /\ exists k o i, In (k, o) e /\ occurs i o).
  Proof using Type.
    intros F. unfold check_environment. assert (Fm : Forall ordinary (map snd e)) by (induction F; constructor; assumption).
    destruct (any_needs_eval_spec new_seq new_map new_est _ Fm) as [[-> (i & o & I & Oi)]|[-> P]]; cbn [bind].
    - right. split; [reflexivity|]. apply in_map_iff in I. destruct I as ([k o'] & <- & I). exists k, o', i. auto.
    - left. split; [reflexivity|]. intros k o I. rewrite Forall_forall in P. apply P. apply in_map_iff. exists (k, o). auto.
  Qed.
End Calls.
