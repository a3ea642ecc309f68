(** Names of choices and parameters. *)
From Coq Require Import DecimalString DecimalNat DecimalFacts.
From Verif Require Import Base L_dict M_str L_str M_grid.
Open Scope string_scope.
Open Scope list_scope.
Open Scope nat_scope.

(** ** Display names *)
Section Display.
  Lemma numbered_candidates fuel used stem i :
    numbered fuel used stem i = None ->
    forall j, j <= fuel -> In ((stem ++ "_" ++ str_nat (i + j))%string) used.
  Proof.
    revert i. induction fuel as [|f IH]; intros i H j Hj; cbn [numbered] in H.
    - destruct (mem ((stem ++ "_" ++ str_nat i)%string) used) eqn:Em; [|discriminate].
      replace j with 0 by lia. rewrite Nat.add_0_r. apply mem_true in Em. exact Em.
    - destruct (mem ((stem ++ "_" ++ str_nat i)%string) used) eqn:Em; [|discriminate].
      destruct j as [|j].
      + rewrite Nat.add_0_r. apply mem_true in Em. exact Em.
      + replace (i + S j) with (S i + j) by lia. apply IH; [exact H|lia].
  Qed.

  Lemma sapp_inj_l (a b c : string) : (a ++ b = a ++ c)%string -> b = c.
  Proof. induction a as [|x a IH]; cbn; [auto|]. intros E. injection E as E. auto. Qed.

  Lemma numbered_some used stem i : exists s, numbered (length used) used stem i = Some s.
  Proof.
    destruct (numbered (length used) used stem i) as [s|] eqn:E; [eauto|]. exfalso.
    pose proof (numbered_candidates _ _ _ _ E) as H.
    set (cand := map (fun j => (stem ++ "_" ++ str_nat (i + j))%string) (seq 0 (S (length used)))).
    assert (Hnd : NoDup cand).
    { apply FinFun.Injective_map_NoDup; [|apply seq_NoDup]. intros x y Exy.
      apply sapp_inj_l in Exy. apply (sapp_inj_l "_") in Exy. apply str_nat_inj in Exy. lia. }
    assert (Hin : incl cand used).
    { intros s Hs. apply in_map_iff in Hs. destruct Hs as (j & <- & Hj). apply in_seq in Hj. apply H. lia. }
    pose proof (NoDup_incl_length Hnd Hin) as Hl. unfold cand in Hl. rewrite map_length, seq_length in Hl. lia.
  Qed.

  Lemma numbered_fresh fuel used stem i s : numbered fuel used stem i = Some s -> ~ In s used.
  Proof.
    revert i. induction fuel as [|f IH]; intros i E; cbn [numbered] in E;
      destruct (mem ((stem ++ "_" ++ str_nat i)%string) used) eqn:Em; try discriminate.
    - injection E as <-. apply mem_false in Em. exact Em.
    - eauto.
    - injection E as <-. apply mem_false in Em. exact Em.
  Qed.

  Definition vals (d : dict nat string) : list string := map snd d.

  Lemma dset_notin {A} (k : nat) (v : A) d : ~ In k (dkeys d) -> dset k v d = d ++ [(k, v)].
  Proof.
    induction d as [|[k' v'] d IH]; cbn; [reflexivity|]. intros Hn.
    destruct (eqd k k') as [->|Hne]; [exfalso; apply Hn; left; reflexivity|].
    rewrite IH; [reflexivity|]. intros Hin. apply Hn. right. exact Hin.
  Qed.

  Definition ids (l : list (nat * (option string * string))) : list nat := map fst l.

  Lemma add_names_spec l : forall used names,
    NoDup (ids l) -> (forall c, In c (ids l) -> ~ In c (dkeys names)) ->
    NoDup (vals names) -> (forall s, In s used <-> In s (vals names)) ->
    exists used' names', add_names l used names = Some (used', names') /\
      dkeys names' = dkeys names ++ ids l /\
      NoDup (vals names') /\ (forall s, In s used' <-> In s (vals names')) /\
      (exists more, names' = names ++ more).
  Proof.
    induction l as [|[c x] l IH]; intros used names Hnd Hdis Hv Hu.
    - exists used, names. cbn. rewrite app_nil_r. repeat split; auto; try apply Hu. exists []. rewrite app_nil_r. reflexivity.
    - cbn [ids map fst] in Hnd. inversion Hnd as [|? ? Hc Hnd']; subst.
      assert (Hcn : ~ In c (dkeys names)) by (apply Hdis; left; reflexivity).
      assert (Hstep : forall s, ~ In s used -> exists used' names',
        add_names l (s :: used) (dset c s names) = Some (used', names') /\
        dkeys names' = dkeys names ++ c :: ids l /\ NoDup (vals names') /\
        (forall t, In t used' <-> In t (vals names')) /\ (exists more, names' = names ++ more)).
      { intros s Hs. rewrite dset_notin; [|exact Hcn].
        destruct (IH (s :: used) (names ++ [(c, s)])) as (u' & n' & E & Hk & Hv' & Hu' & more & ->).
        - exact Hnd'.
        - intros d Hd. unfold dkeys. rewrite map_app, in_app_iff. cbn. intros [Hin|[->|[]]]; [|contradiction].
          exact (Hdis d (or_intror Hd) Hin).
        - unfold vals. rewrite map_app. cbn. apply NoDup_app_intro; [exact Hv|constructor; [intros []|constructor]|].
          intros t Ht [<-|[]]. apply Hs. apply Hu. exact Ht.
        - intros t. unfold vals. rewrite map_app, in_app_iff. cbn [In map snd].
          assert (In t used <-> In t (map snd names)) by apply Hu. intuition.
        - exists u', ((names ++ [(c, s)]) ++ more). split; [exact E|]. split.
          + rewrite Hk. unfold dkeys. rewrite map_app, <- app_assoc. reflexivity.
          + split; [exact Hv'|]. split; [exact Hu'|]. exists ([(c, s)] ++ more). rewrite app_assoc. reflexivity. }
      cbn [add_names]. destruct (mem (stem_of x) used) eqn:Em; cbn [negb].
      + destruct (numbered_some used (stem_of x) 1) as [s Es]. rewrite Es. apply Hstep.
        eapply numbered_fresh; eauto.
      + apply Hstep. apply mem_false in Em. exact Em.
  Qed.

  (** Names are kept when there is no clash. *)
  Lemma add_names_keep l : forall used names used' names',
    NoDup (ids l) -> (forall c, In c (ids l) -> ~ In c (dkeys names)) ->
    NoDup (map (fun cx => stem_of (snd cx)) l) ->
    (forall cx, In cx l -> ~ In (stem_of (snd cx)) used) ->
    add_names l used names = Some (used', names') ->
    forall c x, In (c, x) l -> In (c, stem_of x) names'.
  Proof.
    induction l as [|[c x] l IH]; intros used names used' names' Hnd Hdis Hst Hu E d y Hin; [destruct Hin|].
    cbn [ids map fst snd] in *. inversion Hnd as [|? ? Hc Hnd']; subst. inversion Hst as [|? ? Hs Hst']; subst.
    cbn [add_names] in E.
    assert (Em : mem (stem_of x) used = false) by (apply mem_false; exact (Hu (c, x) (or_introl eq_refl))).
    rewrite Em in E. cbn [negb] in E. rewrite dset_notin in E; [|apply Hdis; left; reflexivity].
    assert (Hdis' : forall c0, In c0 (ids l) -> ~ In c0 (dkeys (names ++ [(c, stem_of x)]))).
    { intros e He. unfold dkeys. rewrite map_app, in_app_iff. cbn. intros [Hi|[->|[]]]; [|contradiction].
      exact (Hdis e (or_intror He) Hi). }
    destruct Hin as [Eq|Hin].
    - injection Eq as -> ->. clear IH.
      assert (Hpre : forall l u n u' n', add_names l u n = Some (u', n') -> forall p, In p n -> ~ In (fst p) (ids l) -> In p n').
      { clear. induction l as [|[c x] l IH]; intros u n u' n' E p Hp Hn; cbn [add_names] in E; [congruence|].
        assert (Hset : forall s, In p (dset c s n)).
        { intros s. assert (Hne : fst p <> c) by (intros Eq; apply Hn; left; symmetry; exact Eq). clear -Hp Hne.
          induction n as [|[k v] n IH]; [destruct Hp|]. cbn. destruct (eqd c k) as [->|Hk].
          - destruct Hp as [<-|Hp]; [cbn in Hne; congruence|right; exact Hp].
          - destruct Hp as [<-|Hp]; [left; reflexivity|right; auto]. }
        destruct (mem (stem_of x) u); cbn [negb] in E.
        - destruct (numbered (length u) u (stem_of x) 1) as [s|]; [|discriminate].
          eapply IH; eauto. intros Hi. apply Hn. right. exact Hi.
        - eapply IH; eauto. intros Hi. apply Hn. right. exact Hi. }
      eapply Hpre; [exact E| |exact Hc]. apply in_app_iff. right. left. reflexivity.
    - eapply IH; [exact Hnd'|exact Hdis'|exact Hst'| |exact E|exact Hin].
      intros [e z] He [Hi|Hi].
      + apply Hs. cbn [snd] in Hi. rewrite Hi. apply (in_map (fun cx => stem_of (snd cx)) _ _ He).
      + exact (Hu (e, z) (or_intror He) Hi).
  Qed.

  Lemma NoDup_map_filter {A B} (f : A -> B) (p : A -> bool) l : NoDup (map f l) -> NoDup (map f (filter p l)).
  Proof.
    induction l as [|a l IH]; cbn; [auto|]. intros H. inversion H as [|? ? Hn H']; subst.
    destruct (p a); [|auto]. cbn. constructor; [|auto]. intros Hin. apply Hn.
    apply in_map_iff in Hin. destruct Hin as (b & Eb & Hb). apply filter_In in Hb. rewrite <- Eb. apply in_map. apply Hb.
  Qed.

  Lemma collect_spec (names' : dict nat string) : forall ks,
    (forall c, In c ks -> In c (dkeys names')) ->
    exists d, fold_right (fun c acc =>
      match dget c names', acc with
      | Some n, Some d => Some ((c, n) :: d)
      | _, _ => None
      end) (Some []) ks = Some d /\ dkeys d = ks /\
      forall c n, In (c, n) d -> dget c names' = Some n.
  Proof.
    induction ks as [|c ks IH]; intros H.
    - exists []. cbn. split; [reflexivity|]. split; [reflexivity|intros c n []].
    - destruct (IH (fun d Hd => H d (or_intror Hd))) as (d & E & Hk & Hd). cbn [fold_right]. rewrite E.
      pose proof (H c (or_introl eq_refl)) as Hc. apply dget_in_keys in Hc. destruct Hc as [n En]. rewrite En.
      exists ((c, n) :: d). split; [reflexivity|]. split.
      + unfold dkeys in *. cbn. rewrite Hk. reflexivity.
      + intros c' n' [Eq|Hin]; [injection Eq as <- <-; exact En|auto].
  Qed.

  Theorem display_names_spec (choices : dict nat (option string * string)) :
    NoDup (dkeys choices) ->
    exists names, display_names choices = Some names /\
      dkeys names = dkeys choices /\ NoDup (map snd names) /\
      (NoDup (map (fun cx => stem_of (snd cx)) (filter is_named choices)) ->
       forall c n r, In (c, (Some n, r)) choices -> dget c names = Some n).
  Proof.
    intros Hnd. unfold display_names.
    assert (H1 : NoDup (ids (filter is_named choices))) by (apply NoDup_map_filter; exact Hnd).
    assert (H2 : NoDup (ids (filter (fun x => negb (is_named x)) choices))) by (apply NoDup_map_filter; exact Hnd).
    destruct (add_names_spec (filter is_named choices) [] []) as (u1 & n1 & E1 & K1 & V1 & U1 & _);
      [exact H1|intros c _ []|constructor|intros s; split; intros []|].
    rewrite E1. cbn [dkeys map app] in K1.
    assert (Hdis : forall c, In c (ids (filter (fun x => negb (is_named x)) choices)) -> ~ In c (dkeys n1)).
    { intros c Hc. rewrite K1. intros Hc'. unfold ids in *. apply in_map_iff in Hc. destruct Hc as ((c1 & x1) & E & Hx1).
      apply in_map_iff in Hc'. destruct Hc' as ((c2 & x2) & E' & Hx2). cbn [fst] in *. subst c1 c2.
      apply filter_In in Hx1. apply filter_In in Hx2. destruct Hx1 as [Hi1 Hb1]. destruct Hx2 as [Hi2 Hb2].
      assert (x1 = x2); [|subst; rewrite Hb2 in Hb1; discriminate].
      apply (dget_In_iff choices) in Hi1; [|exact Hnd]. apply (dget_In_iff choices) in Hi2; [|exact Hnd]. congruence. }
    destruct (add_names_spec (filter (fun x => negb (is_named x)) choices) u1 n1) as (u2 & n2 & E2 & K2 & V2 & U2 & more & Emore);
      [exact H2|exact Hdis|exact V1|exact U1|].
    rewrite E2.
    assert (Hnd2 : NoDup (dkeys n2)).
    { rewrite K2, K1. apply NoDup_app_intro; [exact H1|exact H2|]. intros c Ha Hb. apply (Hdis c Hb). rewrite K1. exact Ha. }
    destruct (collect_spec n2 (dkeys choices)) as (d & Ed & Kd & Hd).
    { intros c Hc. rewrite K2, K1. apply in_app_iff. unfold dkeys in Hc. apply in_map_iff in Hc. destruct Hc as (x & <- & Hx).
      unfold ids. destruct (is_named x) eqn:Ex; [left|right]; apply in_map; apply filter_In; rewrite Ex; auto. }
    exists d. split; [exact Ed|]. split; [exact Kd|].
    assert (Hinj : forall c1 c2 n, In (c1, n) n2 -> In (c2, n) n2 -> c1 = c2).
    { unfold vals in V2. clear -V2. induction n2 as [|[k v] l IH]; cbn in *; [intros ? ? ? []|].
      inversion V2 as [|? ? Hv Hl]; subst. intros c1 c2 n [E1|E1] [E2|E2].
      - congruence.
      - injection E1 as -> ->. exfalso. apply Hv. apply (in_map snd) in E2. exact E2.
      - injection E2 as -> ->. exfalso. apply Hv. apply (in_map snd) in E1. exact E1.
      - eauto. }
    split.
    - rewrite <- Kd in Hnd. clear -Hnd Hd Hinj Hnd2. induction d as [|[c n] d IH]; cbn; [constructor|].
      unfold dkeys in Hnd. cbn in Hnd. inversion Hnd as [|? ? Hc Hnd']; subst. constructor.
      + intros Hin. apply in_map_iff in Hin. destruct Hin as ([c' n'] & En & Hin). cbn in En. subst n'.
        assert (c = c').
        { apply (Hinj c c' n); apply (dget_In_iff n2); try exact Hnd2; apply Hd; [left; reflexivity|right; exact Hin]. }
        subst c'. apply Hc. apply (in_map fst) in Hin. exact Hin.
      + apply IH; [exact Hnd'|]. intros c' n' Hin. apply Hd. right. exact Hin.
    - intros Hst c n r Hin.
      assert (In (c, n) n1).
      { assert (In (c, stem_of (Some n, r)) n1); [|exact H].
        eapply (add_names_keep _ [] []); [exact H1|intros c' _ []|exact Hst|intros cx _ []|exact E1|].
        apply filter_In. split; [exact Hin|reflexivity]. }
      assert (In (c, n) n2) by (rewrite Emore; apply in_app_iff; auto).
      apply (dget_In_iff n2) in H0; [|exact Hnd2].
      assert (Hk : In c (dkeys d)) by (rewrite Kd; apply (in_map fst) in Hin; exact Hin).
      apply dget_in_keys in Hk. destruct Hk as [n' En']. rewrite En'.
      assert (dget c n2 = Some n').
      { apply Hd. apply (dget_In_iff d); [rewrite Kd; exact Hnd|exact En']. }
      congruence.
  Qed.
End Display.

(** ** Parameters *)
Section Params.
  Context {P : Type}.

  Lemma lstrip_name k : lstrip (list_ascii_of_string "expr__") (param_name k) = str_nat k.
  Proof.
    unfold param_name. cbn [append lstrip list_ascii_of_string].
    change (lstrip (list_ascii_of_string "expr__") (str_nat k) = str_nat k).
    unfold str_nat. destruct (Nat.to_uint k) eqn:E; try reflexivity.
  Qed.

  Lemma param_id_name k : param_id (param_name k) = Ok k.
  Proof.
    unfold param_id. rewrite lstrip_name. unfold int_of, str_nat.
    rewrite NilZero.usu; [|apply to_uint_not_nil]. rewrite DecimalNat.Unsigned.of_to. reflexivity.
  Qed.

  Lemma param_name_inj k k' : param_name k = param_name k' -> k = k'.
  Proof. intros E. pose proof (param_id_name k) as H. rewrite E, param_id_name in H. congruence. Qed.

  Lemma get_params_nodup (d : chosen (P := P)) : NoDup (dkeys d) -> NoDup (dkeys (get_params d)).
  Proof.
    intros H. unfold get_params, dkeys. rewrite map_map. cbn [fst]. rewrite <- map_map with (f := fst) (g := param_name).
    apply FinFun.Injective_map_NoDup; [intros x y; apply param_name_inj|exact H].
  Qed.

  Lemma get_params_keys (d : chosen (P := P)) name :
    In name (dkeys (get_params d)) <-> exists k, In k (dkeys d) /\ name = param_name k.
  Proof.
    unfold get_params, dkeys. rewrite map_map. cbn [fst]. rewrite in_map_iff. split.
    - intros ([k v] & <- & Hin). exists k. split; [|reflexivity]. apply (in_map fst) in Hin. exact Hin.
    - intros (k & Hk & ->). apply in_map_iff in Hk. destruct Hk as ([k' v] & <- & Hin). exists (k', v). auto.
  Qed.

  Lemma get_params_get (d : chosen (P := P)) k : dget (param_name k) (get_params d) = dget k d.
  Proof.
    induction d as [|[k' v] d IH]; [reflexivity|]. cbn [get_params map dget fst snd].
    destruct (eqd k k') as [->|Hne]; destruct (eqd (param_name k') (param_name k')) as [_|Hx];
      try congruence; destruct (eqd (param_name k) (param_name k')) as [E|Hn]; try reflexivity; try exact IH.
    apply param_name_inj in E. contradiction.
  Qed.

  Lemma set_ids_spec l : forall (d : chosen (P := P)),
    NoDup (map fst l) -> (forall k, In k (map fst l) -> In k (dkeys d)) ->
    exists d', set_ids l d = (d', Ok tt) /\ dkeys d' = dkeys d /\
      forall k, dget k d' = match dget k l with Some v => Some v | None => dget k d end.
  Proof.
    induction l as [|[k v] l IH]; intros d Hnd Hin.
    - exists d. auto.
    - cbn [map fst] in *. inversion Hnd as [|? ? Hk Hnd']; subst. cbn [set_ids].
      assert (Em : mem k (dkeys d) = true) by (apply mem_true; apply Hin; left; reflexivity). rewrite Em.
      assert (Hks : dkeys (dset k v d) = dkeys d) by (apply dkeys_dset_in; apply Hin; left; reflexivity).
      destruct (IH (dset k v d) Hnd') as (d' & E & Hd' & Hg).
      { intros j Hj. rewrite Hks. apply Hin. right. exact Hj. }
      exists d'. split; [exact E|]. split; [congruence|]. intros j. rewrite Hg. cbn [dget].
      destruct (eqd j k) as [->|Hne].
      + destruct (dget k l) eqn:El; [|rewrite dget_dset_eq; reflexivity].
        exfalso. apply Hk. assert (In k (dkeys l)) by (apply dget_in_keys; eauto). exact H.
      + destruct (dget j l); [reflexivity|]. apply dget_dset_neq. exact Hne.
  Qed.

  Lemma fold_dset_id (l : list (nat * P)) : forall acc, NoDup (map fst (acc ++ l)) ->
    fold_left (fun acc kv => dset (fst kv) (snd kv) acc) l acc = acc ++ l.
  Proof.
    induction l as [|[k v] l IH]; intros acc Hnd; cbn; [rewrite app_nil_r; reflexivity|].
    rewrite dset_notin.
    - rewrite IH; rewrite <- app_assoc; [reflexivity|exact Hnd].
    - intros Hin. rewrite map_app in Hnd. apply (NoDup_app_disj _ _ k Hnd Hin). left. reflexivity.
  Qed.

  Theorem set_params_spec (d : chosen (P := P)) (params : list (string * P)) :
    NoDup (dkeys d) -> NoDup (dkeys params) ->
    (forall name, In name (dkeys params) -> In name (dkeys (get_params d))) ->
    exists d', set_params None params d = (d', Ok tt) /\
      dkeys (get_params d') = dkeys (get_params d) /\
      forall name, dget name (get_params d') =
        match dget name params with Some v => Some v | None => dget name (get_params d) end.
  Proof.
    intros Hd Hp Hin.
    assert (Hl : exists l, mapM (fun p : string * P => let! k := param_id (fst p) in Ok (k, snd p)) params = Ok l /\
      params = map (fun kv => (param_name (fst kv), snd kv)) l /\ forall k, In k (map fst l) -> In k (dkeys d)).
    { clear Hp. induction params as [|[n v] ps IH].
      - exists []. cbn. split; [reflexivity|]. split; [reflexivity|intros k []].
      - destruct IH as (l & E & Hps & Hk); [intros name H; apply Hin; right; exact H|].
        pose proof (Hin n (or_introl eq_refl)) as Hn. apply get_params_keys in Hn. destruct Hn as (k & Hkd & ->).
        exists ((k, v) :: l). cbn [mapM fst snd]. rewrite param_id_name. cbn [bind]. rewrite E. cbn [bind].
        split; [reflexivity|]. split; [cbn [map fst snd]; f_equal; exact Hps|].
        intros j [<-|Hj]; [exact Hkd|auto]. }
    destruct Hl as (l & El & Hps & Hk). unfold set_params. rewrite El.
    assert (Hndl : NoDup (map fst l)).
    { rewrite Hps in Hp. unfold dkeys in Hp. rewrite map_map in Hp. cbn [fst] in Hp.
      rewrite <- map_map with (f := fst) (g := param_name) in Hp. apply NoDup_map_inv in Hp. exact Hp. }
    rewrite fold_dset_id; [|exact Hndl]. cbn [app].
    destruct (set_ids_spec l d Hndl Hk) as (d' & E & Hkeys & Hg).
    exists d'. split; [exact E|]. split.
    - unfold get_params, dkeys in *. rewrite !map_map. cbn [fst].
      rewrite <- (map_map fst param_name d'), <- (map_map fst param_name d), Hkeys. reflexivity.
    - intros name.
      assert (Hdec : (exists k, name = param_name k) \/ ~ (exists k, name = param_name k)).
      { destruct (mem name (map param_name (map fst l ++ dkeys d))) eqn:Em.
        - left. apply mem_true in Em. apply in_map_iff in Em. destruct Em as (k & <- & _). eauto.
        - destruct (param_id name) as [k|e] eqn:Ek.
          + destruct (eqd name (param_name k)) as [->|Hne]; [left; eauto|].
            right. intros (k' & ->). rewrite param_id_name in Ek. injection Ek as ->. contradiction.
          + right. intros (k' & ->). rewrite param_id_name in Ek. discriminate. }
      destruct Hdec as [(k & ->)|Hno].
      + rewrite !get_params_get, Hg. rewrite Hps.
        change (map (fun kv : nat * P => (param_name (fst kv), snd kv)) l) with (get_params l).
        rewrite get_params_get. reflexivity.
      + assert (Hnone : forall d0 : chosen (P := P), dget name (get_params d0) = None).
        { intros d0. apply dget_None_keys. intros Hi. apply get_params_keys in Hi. destruct Hi as (k & _ & ->). apply Hno. eauto. }
        rewrite Hnone, Hnone. destruct (dget name params) eqn:En; [|reflexivity].
        exfalso. apply Hno. assert (Hi : In name (dkeys params)) by (apply dget_in_keys; eauto).
        apply Hin in Hi. apply get_params_keys in Hi. destruct Hi as (k & _ & ->). eauto.
  Qed.

  Theorem set_params_unknown (d : chosen (P := P)) k v : ~ In k (dkeys d) ->
    set_params None [(param_name k, v)] d = (d, Err KeyError).
  Proof.
    intros Hn. unfold set_params. cbn [mapM fst snd]. rewrite param_id_name. cbn.
    apply mem_false in Hn. rewrite Hn. reflexivity.
  Qed.
End Params.
