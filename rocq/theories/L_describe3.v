(** Descriptions of parameter grids: proofs of the main results. *)
From Verif Require Import Base L_dict M_labels M_grid L_grid M_describe L_describe L_describe2.
From Coq Require Import NArith List Lia.
Import ListNotations.
Open Scope string_scope.
Open Scope list_scope.
Open Scope nat_scope.
Set Default Proof Using "Type".

Section Ranges.
  Variable printable : N -> bool.
  Context {V : Type}.
  Variable show_value : V -> text.

  Lemma go_map {A} (f : obj -> A) k : forall l,
    (fix go k (l : list obj) := match k, l with S k', x :: l' => f x :: go k' l' | _, _ => [] end) k l = map f (firstn k l).
  Proof. induction k as [|k IH]; intros l; destruct l as [|x l]; try reflexivity. cbn [firstn map]. rewrite <- IH. reflexivity. Qed.

  Lemma repr_str_length s : length s + 2 <= length (repr_str printable s).
  Proof.
    unfold repr_str. cbv zeta. cbn [length]. rewrite app_length. cbn [length].
    pose proof (escape_length printable (quote_of s) s). lia.
  Qed.
  Lemma plain_shows level o it : plain printable o it -> shows_item printable it (repr1 printable level o).
  Proof.
    intros [s Hs Hl|d Hd Hl|c r Hr Hl Hn]; cbn [repr1].
    - pose proof (repr_str_length s). unfold short_str. cbv zeta. rewrite firstn_all2 by lia.
      destruct (Nat.ltb_spec 30 (length (repr_str printable s))); [lia|]. constructor. exact Hs.
    - unfold cut. destruct (Nat.ltb_spec 40 (length d)); [lia|]. constructor. exact Hd.
    - unfold short_instance. rewrite (proj2 (mem_false newline r) Hn). cbn [orb].
      destruct (Nat.ltb_spec 50 (length r)); [lia|]. unfold cut. destruct (Nat.ltb_spec 50 (length r)); [lia|]. constructor. exact Hr.
  Qed.

  Lemma mapM_get {A} (xs : list A) l : (forall i, In i l -> i < length xs) ->
    exists ys, mapM (get xs) l = Ok ys /\ Forall2 (fun i y => nth_error xs i = Some y) l ys.
  Proof.
    induction l as [|i l IH]; intros H; [exists []; split; [reflexivity|constructor]|].
    destruct IH as (ys & E & Hy); [intros j Hj; apply H; right; exact Hj|].
    destruct (nth_error xs i) as [x|] eqn:Ex.
    - exists (x :: ys). split; [|constructor; assumption]. cbn [mapM]. unfold get at 1. rewrite Ex. cbn [bind]. rewrite E. reflexivity.
    - exfalso. apply nth_error_None in Ex. specialize (H i (or_introl eq_refl)). lia.
  Qed.

  Lemma iterable_list os : length os <= 6 -> short_repr printable (OList os) =
    of_string "[" ++ join comma (map (repr1 printable 5) os) ++ of_string "]".
  Proof.
    intros H. unfold short_repr. transitivity (iterable 6 (length os) 6 (map (repr1 printable 5) (firstn 6 os)) (of_string "[") (of_string "]") []).
    { rewrite <- (go_map (repr1 printable 5) 6 os). reflexivity. }
    rewrite firstn_all2 by exact H. unfold iterable.
    destruct (Nat.ltb_spec 6 (length os)); [lia|]. cbn [Nat.eqb andb]. rewrite app_nil_r. destruct (length os =? 1); reflexivity.
  Qed.

  Lemma tame_list os : Forall tame os -> tame (OList os).
  Proof. intros H. cbn [tame]. induction H as [|o os Ho _ IH]; [exact I|split; assumption]. Qed.
  Lemma tame_choice ns os nm : Forall tame os -> tame (OChoice Plain ns os nm).
  Proof. intros H. cbn [tame]. induction H as [|o os Ho _ IH]; [exact I|split; assumption]. Qed.

  Lemma Forall2_impl_l {A B} (P Q : A -> B -> Prop) l l' : (forall a b, In a l -> P a b -> Q a b) -> Forall2 P l l' -> Forall2 Q l l'.
  Proof. intros H F. induction F as [|a b l l' Hab _ IH]; constructor; [apply H; [left; reflexivity|exact Hab]|]. apply IH. intros x y Hx. apply H. right. exact Hx. Qed.

  Lemma nth_Forall {A} (P : A -> Prop) l i x : Forall P l -> nth_error l i = Some x -> P x.
  Proof. intros H E. apply nth_error_In in E. exact (proj1 (Forall_forall _ _) H x E). Qed.

  Lemma describe_listed nm os l : l <> [] -> (forall i, In i l -> i < length os) -> length l <= length os ->
    (forall ns, nm = Some ns -> length ns = length os) -> Forall tame os ->
    exists d, describe_range printable show_value (Listed nm os) (Indices l) = Ok d /\ ~ In 10%N d /\
      shown printable show_value (Listed nm os) (Indices l) d.
  Proof.
    intros Hne Hl Hlen Hnm Htame. destruct nm as [ns|].
    - assert (Hl' : forall i, In i l -> i < length ns) by (intros i Hi; rewrite (Hnm ns eq_refl); auto).
      destruct (mapM_get ns l Hl') as (ys & Ey & Hy).
      destruct l as [|i [|j l]]; [congruence| |].
      + inversion Hy as [|? y ? ? Hi Hrest]; subst. inversion Hrest; subst. cbn [describe_range]. unfold get. rewrite Hi. cbn [bind].
        eexists. split; [reflexivity|]. split; [apply repr_str_no_newline|]. intros [Hnd Hv].
        exists [Quoted y]. pose proof (nth_Forall _ _ _ _ Hv Hi) as Hvy. split.
        * apply (read_items_one printable). constructor. exact Hvy.
        * constructor; [|constructor]. exists y. auto.
      + assert (E : describe_range printable show_value (Listed (Some ns) os) (Indices (i :: j :: l)) = Ok (repr_strs printable ys)).
        { cbn [describe_range]. rewrite Ey. reflexivity. }
        eexists. split; [exact E|]. split.
        * unfold repr_strs. apply nl_app; [cbn; intuition discriminate|]. apply nl_app; [|cbn; intuition discriminate].
          apply nl_join. intros x Hx. apply in_map_iff in Hx. destruct Hx as (y & <- & _). apply repr_str_no_newline.
        * intros [Hnd Hv]. exists (map Quoted ys).
          assert (Hvy : Forall valid_text ys).
          { clear -Hy Hv. induction Hy as [|a b l0 l' Hab _ IH]; constructor; [exact (nth_Forall _ _ _ _ Hv Hab)|exact IH]. }
          split.
          -- unfold repr_strs. apply (read_items_list printable).
             ++ clear -Hvy. induction Hvy; constructor; [constructor; assumption|assumption].
             ++ inversion Hy; subst. discriminate.
          -- clear -Hy Hvy. revert Hvy. induction Hy as [|a b l0 ys' Hab _ IH]; intros Hvy; [constructor|].
             inversion Hvy; subst. cbn [map]. constructor; [exists b; auto|apply IH; assumption].
    - destruct (mapM_get os l Hl) as (ys & Ey & Hy).
      assert (Hty : Forall tame ys).
      { clear -Hy Htame. induction Hy as [|a b l l' Hab _ IH]; constructor; [exact (nth_Forall _ _ _ _ Htame Hab)|exact IH]. }
      assert (Hits : readable printable (Listed None os) -> length ys <= 6 /\ exists its, Forall2 (outcome_item printable (Listed None os)) l its /\ Forall2 (plain printable) ys its).
      { intros (H6 & its & Hp & _). split; [rewrite <- (Forall2_len _ _ _ Hy); lia|].
        clear -Hy Hp. induction Hy as [|a b l l' Hab _ (its' & H1 & H2)]; [exists []; split; constructor|].
        assert (Hb : exists it, plain printable b it).
        { clear -Hab Hp. revert a Hab. induction Hp as [|o it os its Ho _ IH]; intros a Hab; [destruct a; discriminate|].
          destruct a as [|a]; [injection Hab as <-; exists it; exact Ho|exact (IH a Hab)]. }
        destruct Hb as (it & Hb). exists (it :: its'). split; constructor; try assumption. exists b. auto. }
      destruct l as [|i [|j l]]; [congruence| |].
      + inversion Hy as [|? y ? ? Hi Hrest]; subst. inversion Hrest; subst. cbn [describe_range]. unfold get. rewrite Hi. cbn [bind].
        eexists. split; [reflexivity|]. split; [apply repr1_no_newline; inversion Hty; assumption|].
        intros Hr. destruct (Hits Hr) as (_ & its & H1 & H2). exists its. split; [|exact H1].
        inversion H2 as [|? it ? ? Hp Hp']; subst. inversion Hp'; subst. apply (read_items_one printable). apply plain_shows. exact Hp.
      + assert (E : describe_range printable show_value (Listed None os) (Indices (i :: j :: l)) = Ok (short_repr printable (OList ys))).
        { cbn [describe_range]. rewrite Ey. reflexivity. }
        eexists. split; [exact E|]. split; [apply repr1_no_newline, tame_list, Hty|].
        intros Hr. destruct (Hits Hr) as (H6 & its & H1 & H2). exists its. split; [|exact H1].
        rewrite iterable_list by exact H6. apply (read_items_list printable).
        * clear -H2. induction H2; constructor; [apply plain_shows; assumption|assumption].
        * inversion H1; subst. discriminate.
  Qed.
End Ranges.

Section Main.
  Variable printable : N -> bool.
  Context {V : Type}.
  Variable show_value : V -> text.
  Variable G : cgraph V.
  Variable choices : dict nat info.
  Variable names : dict nat text.
  Hypothesis Hin : inputs_ok show_value G choices names.
  Notation describe_range := (describe_range printable show_value).
  Notation shown := (shown printable show_value).
  Notation describe_param_grid := (describe_param_grid printable show_value choices names).

  Definition described (c : nat) (r : range V) : Prop := exists i n d, dget c choices = Some i /\ dget c names = Some n /\
    describe_range i r = Ok d /\ ~ In 10%N d /\ shown i r d.

  Lemma described_indices c n chosen l : dget c (cg_choices G) = Some (Enum n chosen) -> l <> [] ->
    (forall i, In i l -> i < n) -> length l <= n -> described c (Indices l).
  Proof using Hin.
    intros Ec Hne Hl Hlen. destruct (io_choice _ _ _ _ Hin c _ Ec) as (i & nm & E1 & Ha & Ht & E2).
    destruct i as [ns os|]; [|destruct Ha]. destruct Ha as (Hpos & Hos & _ & Hns). subst n.
    destruct (describe_listed printable show_value ns os l Hne Hl Hlen) as (d & H1 & H2 & H3).
    - intros ns' ->. exact Hns.
    - exact Ht.
    - exists (Listed ns os), nm, d. auto.
  Qed.

  Lemma described_range c r : choice_range G c = Ok r -> described c r.
  Proof using Hin.
    intros E. unfold choice_range, find_choice in E. destruct (dget c (cg_choices G)) as [ch|] eqn:Ec; [|discriminate].
    cbn [bind] in E. destruct (io_choice _ _ _ _ Hin c _ Ec) as (i & nm & E1 & Ha & Ht & E2).
    destruct ch as [n chosen|df chosen]; destruct (mem c (cg_Xy G)); injection E as <-.
    - assert (Hn : match chosen with Some i => i | None => 0 end < n).
      { destruct i as [ns os|]; [|destruct Ha]. destruct Ha as (Hpos & _ & Hk & _). destruct chosen as [k|]; [exact (Hk k eq_refl)|exact Hpos]. }
      apply (described_indices c n chosen); [exact Ec|discriminate| |cbn; lia]. intros j [<-|[]]. exact Hn.
    - apply (described_indices c n chosen); [exact Ec| | |rewrite seq_length; lia].
      + destruct i as [ns os|]; [|destruct Ha]. destruct Ha as (Hpos & _). destruct n; [lia|discriminate].
      + intros j Hj. apply in_seq in Hj. lia.
    - destruct i as [ns os|to_int low high log n_steps name]; [destruct Ha|].
      eexists. exists nm. eexists. split; [exact E1|]. split; [exact E2|]. split; [reflexivity|]. split; [|reflexivity].
      apply nl_app; [cbn; intuition discriminate|]. apply nl_app; [apply (io_value _ _ _ _ Hin)|cbn; intuition discriminate].
    - destruct i as [ns os|to_int low high log n_steps name]; [destruct Ha|]. destruct Ht as (T1 & T2 & T3).
      eexists. exists nm. eexists. split; [exact E1|]. split; [exact E2|]. split; [reflexivity|]. split; [|reflexivity].
      apply nl_numeric; assumption.
  Qed.
  Lemma described_one c l i : choice_range G c = Ok (Indices l) -> In i l -> described c (Indices [i]).
  Proof using Hin.
    intros E Hi. unfold choice_range, find_choice in E. destruct (dget c (cg_choices G)) as [ch|] eqn:Ec; [|discriminate].
    cbn [bind] in E. destruct (io_choice _ _ _ _ Hin c _ Ec) as (inf & nm & E1 & Ha & Ht & E2).
    destruct ch as [n chosen|df chosen]; destruct (mem c (cg_Xy G)); try discriminate; apply Ok_inj in E; injection E as <-;
      (destruct inf as [ns os|]; [|destruct Ha]); destruct Ha as (Hpos & _ & Hk & _).
    - destruct Hi as [<-|[]]. apply (described_indices c n chosen); [exact Ec|discriminate| |cbn; lia].
      intros j [<-|[]]. destruct chosen as [k|]; [exact (Hk k eq_refl)|exact Hpos].
    - apply in_seq in Hi. apply (described_indices c n chosen); [exact Ec|discriminate| |cbn; lia]. intros j [<-|[]]. lia.
  Qed.

  Lemma subgrid_ok g : forall p, (forall c r, In (c, r) g -> described c r) ->
    exists t, describe_subgrid printable show_value choices names p g = Ok t.
  Proof.
    induction g as [|[c r] g IH]; intros p H; [eexists; reflexivity|].
    destruct (H c r (or_introl eq_refl)) as (i & n & d & E1 & E2 & E3 & _).
    destruct (IH (of_string "  ") (fun c r Hcr => H c r (or_intror Hcr))) as (t & Et).
    cbn [describe_subgrid]. rewrite E1, E2, E3. cbn [bind]. rewrite Et. eexists. reflexivity.
  Qed.

  (** an entry of a sub-grid and the line that shows it *)
  Definition entry_shown (kv : nat * range V) (nd : text * text) : Prop :=
    exists c, dget (fst kv) choices = Some c /\ dget (fst kv) names = Some (fst nd) /\ shown c (snd kv) (snd nd).

  Lemma describe_main : exists gs t bs, param_grid G = Ok gs /\ describe_param_grid G = Ok t /\ reading t = map (map body) bs /\
    Forall2 (Forall2 entry_shown) (filter nonempty_block gs) bs /\ Forall (entries described) gs /\
    (t = empty_text <-> forall g, In g gs -> g = []).
  Proof using Hin.
    destruct (param_grid_spec G (io_wf _ _ _ _ Hin)) as (gs & Egs & _).
    pose proof (param_grid_entries G described described_range described_one gs Egs) as Hent.
    assert (Hd : forall g c r, In g gs -> In (c, r) g -> described c r).
    { intros g c r Hg Hcr. apply (proj1 (Forall_forall _ _) Hent) in Hg. destruct Hg as [Hnd Hg].
      apply Hg. apply dget_In_iff; [exact Hnd|exact Hcr]. }
    assert (Hok : exists ts, mapM (describe_subgrid printable show_value choices names (of_string "- ")) gs = Ok ts).
    { clear -Hd. induction gs as [|g gs IH]; [eexists; reflexivity|].
      destruct (subgrid_ok g (of_string "- ") (fun c r => Hd g c r (or_introl eq_refl))) as (t & Et).
      destruct IH as (ts & Ets); [intros g' c r Hg'; apply (Hd g' c r); right; exact Hg'|].
      cbn [mapM]. rewrite Et. cbn [bind]. rewrite Ets. eexists. reflexivity. }
    destruct Hok as (ts & Ets).
    assert (E : exists t, describe_grid printable show_value choices names gs = Ok t).
    { unfold describe_grid. rewrite Ets. eexists. reflexivity. }
    destruct E as (t & Et). exists gs, t.
    destruct (reading_describe printable show_value choices names (io_clear _ _ _ _ Hin) gs t) as (bs & Hr & Hf).
    - intros g k v c d Hg Hkv Ec Ed. destruct (Hd g k v Hg Hkv) as (i & n & d' & E1 & _ & E3 & Hn & _). congruence.
    - exact Et.
    - exists bs. split; [exact Egs|]. split; [unfold M_describe.describe_param_grid; rewrite Egs; exact Et|]. split; [exact Hr|].
      split; [|split; [exact Hent|exact (empty_described printable show_value choices names gs t Et)]].
      refine (Forall2_impl_l _ _ _ _ _ Hf). intros g b Hg. apply Forall2_impl_l. intros [k v] [n d] Hkv (c & E1 & E2 & E3).
      apply filter_In in Hg. destruct Hg as [Hg _]. destruct (Hd g k v Hg Hkv) as (i & n' & d' & F1 & F2 & F3 & _ & F5).
      cbn [fst snd] in *. exists c. split; [exact E1|]. split; [exact E2|]. cbn [fst snd]. congruence.
  Qed.

  Hypothesis Hread : forall c i, dget c choices = Some i -> readable printable i.
  Hypothesis Hdist : names_apart names.

  Lemma Forall2_in_l {A B} (P : A -> B -> Prop) l l' a : Forall2 P l l' -> In a l -> exists b, In b l' /\ P a b.
  Proof.
    induction 1 as [|x y l l' Hxy _ IH]; intros Ha; [destruct Ha|]. destruct Ha as [<-|Ha].
    - exists y. split; [left; reflexivity|exact Hxy].
    - destruct (IH Ha) as (b & Hb & Pb). exists b. split; [right; exact Hb|exact Pb].
  Qed.
  Lemma Forall2_in_r {A B} (P : A -> B -> Prop) l l' b : Forall2 P l l' -> In b l' -> exists a, In a l /\ P a b.
  Proof.
    induction 1 as [|x y l l' Hxy _ IH]; intros Hb; [destruct Hb|]. destruct Hb as [<-|Hb].
    - exists x. split; [left; reflexivity|exact Hxy].
    - destruct (IH Hb) as (a & Ha & Pa). exists a. split; [right; exact Ha|exact Pa].
  Qed.

  Lemma plain_fun o it it' : plain printable o it -> plain printable o it' -> it = it'.
  Proof. intros H1 H2. inversion H1; subst; inversion H2; reflexivity. Qed.

  (** different outcomes are shown differently *)
  Lemma outcome_inj i k k' it : readable printable i -> outcome_item printable i k it -> outcome_item printable i k' it -> k = k'.
  Proof.
    destruct i as [[ns|] os|]; cbn [readable outcome_item]; [| |contradiction].
    - intros [Hnd _] (n & E & _ & ->) (n' & E' & _ & Eq). injection Eq as <-.
      apply (proj1 (NoDup_nth_error ns) Hnd); [apply nth_error_Some; congruence|congruence].
    - intros (_ & its & Hp & Hnd) (o & E & P1) (o' & E' & P2).
      assert (Hn : forall j o, nth_error os j = Some o -> plain printable o it -> nth_error its j = Some it).
      { clear -Hp. induction Hp as [|x y os its Hxy _ IH]; intros j o E P; [destruct j; discriminate|].
        destruct j as [|j]; [injection E as <-; cbn; f_equal; exact (plain_fun _ _ _ Hxy P)|exact (IH j o E P)]. }
      pose proof (Hn _ _ E P1) as E1. pose proof (Hn _ _ E' P2) as E2.
      apply (proj1 (NoDup_nth_error its) Hnd); [apply nth_error_Some; congruence|congruence].
  Qed.

  (** every configuration is shown by one block and by no other *)
  Theorem configurations_shown : at_top G <> [] -> exists t, describe_param_grid G = Ok t /\
    forall sigma, valid G sigma -> exists before b after, reading t = before ++ b :: after /\
      shows_configuration printable G choices names sigma b /\
      forall b', In b' (before ++ after) -> ~ shows_configuration printable G choices names sigma b'.
  Proof using Hin Hread Hdist.
    intros Htop. destruct describe_main as (gs & t & bs & Egs & Et & Er & Hf & Hent & _).
    destruct (param_grid_spec G (io_wf _ _ _ _ Hin)) as (gs' & Egs' & Hok & Hcov). rewrite Egs in Egs'. injection Egs' as <-.
    exists t. split; [exact Et|]. intros sigma Hs. rewrite Er.
    destruct (Hcov sigma Hs) as (before & g & after & Eg & Hg & Hkeys & Hother).
    assert (Hnd : forall g', In g' gs -> NoDup (dkeys g')).
    { intros g' Hg'. apply (proj1 (Forall_forall _ _) Hent) in Hg'. exact (proj1 Hg'). }
    assert (Hne : g <> []).
    { destruct (at_top G) as [|c0 cs] eqn:Ea; [congruence|]. intros ->.
      assert (Hact : active G sigma c0) by (constructor; rewrite Ea; left; reflexivity).
      apply Hkeys in Hact. destruct Hact. }
    rewrite Eg, filter_app in Hf. cbn [filter] in Hf. destruct g as [|kv0 g0] eqn:Egg; [congruence|]. cbn [nonempty_block] in Hf.
    rewrite <- Egg in *. clear Egg kv0 g0 Hne.
    apply Forall2_app_inv_l in Hf. destruct Hf as (bs1 & bs2 & F1 & F2 & ->).
    inversion F2 as [|? b ? bs3 Fg F3]; subst bs2. exists (map (map body) bs1), (map body b), (map (map body) bs3). split; [rewrite map_app; reflexivity|].
    assert (Hgin : In g gs) by (rewrite Eg; apply in_or_app; right; left; reflexivity).
    split; [split|].
    - intros line Hline. apply in_map_iff in Hline. destruct Hline as ([n d] & <- & Hnd'). destruct (Forall2_in_r _ _ _ _ Fg Hnd') as ([k v] & Hkv & c & E1 & E2 & Hsh). cbn [fst snd] in *.
      exists k, c, n, d. split; [reflexivity|]. assert (Ek : dget k g = Some v) by (apply dget_In_iff; [apply Hnd; exact Hgin|exact Hkv]).
      split; [apply Hkeys; apply dget_in_keys; exists v; exact Ek|]. split; [exact E2|]. split; [exact E1|].
      intros nm os ->. destruct v as [rl| |xv]; [|destruct Hsh|destruct Hsh]. cbn [L_describe2.shown] in Hsh.
      destruct (Hsh (Hread _ _ E1)) as (its & Ei & Hits). pose proof (Hg k rl Ek) as Hsk.
      destruct (Forall2_in_l _ _ _ _ Hits Hsk) as (it & Hit & Ho). exists its, it. auto.
    - intros c Hc. apply Hkeys in Hc. apply dget_in_keys in Hc. destruct Hc as (v & Ev). apply dget_In_weak in Ev.
      destruct (Forall2_in_l _ _ _ _ Fg Ev) as ([n d] & Hin' & c' & E1 & E2 & _). exists n, d. split; [exact E2|]. apply in_map_iff. exists (n, d). auto.
    - intros b0 Hb0 [Hs1 Hs2]. rewrite <- map_app in Hb0. apply in_map_iff in Hb0. destruct Hb0 as (b' & <- & Hb').
      assert (Hg' : exists g', In g' (before ++ after) /\ Forall2 entry_shown g' b').
      { apply in_app_or in Hb'. destruct Hb' as [Hb'|Hb'].
        - destruct (Forall2_in_r _ _ _ _ F1 Hb') as (g' & Hg' & Hf'). apply filter_In in Hg'. exists g'. split; [apply in_or_app; left; exact (proj1 Hg')|exact Hf'].
        - destruct (Forall2_in_r _ _ _ _ F3 Hb') as (g' & Hg' & Hf'). apply filter_In in Hg'. exists g'. split; [apply in_or_app; right; exact (proj1 Hg')|exact Hf']. }
      destruct Hg' as (g' & Hg' & Hf'). apply (Hother g' Hg'). intros c rl El. apply dget_In_weak in El.
      destruct (Forall2_in_l _ _ _ _ Hf' El) as ([n d] & Hnd' & i & E1 & E2 & Hsh). cbn [fst snd] in *.
      destruct (Hs1 (body (n, d)) (in_map body _ _ Hnd')) as (c' & i' & n' & d' & El' & _ & E2' & E1' & Hpick).
      unfold body in El'. cbn [fst snd] in El'. assert (c' = c) by (symmetry; exact (Hdist _ _ _ _ _ _ E2 E2' El')). subst c'.
      assert (n' = n) by congruence. subst n'. apply app_inv_head in El'. injection El' as <-.
      assert (i' = i) by congruence. subst i'. destruct i as [nm os|]; [|destruct Hsh]. cbn [L_describe2.shown] in Hsh.
      destruct (Hsh (Hread _ _ E1)) as (its & Ei & Hits). destruct (Hpick nm os eq_refl) as (its' & it & Ei' & Ho & Hit).
      rewrite Ei in Ei'. injection Ei' as <-. destruct (Forall2_in_r _ _ _ _ Hits Hit) as (k & Hk & Ho').
      rewrite (outcome_inj _ _ _ _ (Hread _ _ E1) Ho Ho'). exact Hk.
  Qed.

  (** a grid is said to be empty if and only if there is no choice *)
  Theorem empty_iff_no_choice : forall t, describe_param_grid G = Ok t ->
    (exists sigma, valid G sigma) -> (t = empty_text <-> at_top G = []).
  Proof using Hin.
    intros t Et [sigma Hs]. destruct describe_main as (gs & t' & bs & Egs & Et' & _ & _ & _ & He). rewrite Et in Et'. apply Ok_inj in Et'. subst t'.
    destruct (param_grid_spec G (io_wf _ _ _ _ Hin)) as (gs' & Egs' & Hok & Hcov). rewrite Egs in Egs'. injection Egs' as <-.
    rewrite He. split.
    - intros H. destruct (Hcov sigma Hs) as (before & g & after & Eg & _ & Hkeys & _).
      assert (Hg : g = []) by (apply H; rewrite Eg; apply in_or_app; right; left; reflexivity). subst g.
      destruct (at_top G) as [|c cs] eqn:Ea; [reflexivity|]. exfalso.
      assert (Hact : active G sigma c) by (constructor; rewrite Ea; left; reflexivity). apply Hkeys in Hact. destruct Hact.
    - intros Ha g Hg. unfold param_grid in Egs. cbn [expand] in Egs. unfold at_top in Ha.
      destruct (dget None (cg_children G)) as [top|] eqn:Etop.
      + subst top. cbn in Egs. injection Egs as <-. destruct Hg as [<-|[]]. reflexivity.
      + cbn in Egs. injection Egs as <-. destruct Hg as [<-|[]]. reflexivity.
  Qed.
End Main.

(** names that differ and contain no colon followed by a space *)
Lemma no_colon_prefix n : forall n' d d', (forall a b, n <> a ++ [58; 32]%N ++ b) -> (forall a b, n' <> a ++ [58; 32]%N ++ b) ->
  name_line n d = name_line n' d' -> n = n'.
Proof.
  unfold name_line. induction n as [|c n IH]; intros n' d d' H H' E.
  - destruct n' as [|c' [|c'' n']]; [reflexivity| |].
    + exfalso. cbn in E. discriminate.
    + exfalso. cbn in E. injection E as <- <- _. apply (H' [] n'). reflexivity.
  - destruct n' as [|c' n'].
    + exfalso. destruct n as [|c2 n]; cbn in E; [discriminate|]. injection E as -> -> _. apply (H [] n). reflexivity.
    + cbn [app] in E. assert (c = c') by congruence. subst c'. f_equal. apply (IH n' d d').
      * intros a b ->. apply (H (c :: a) b). reflexivity.
      * intros a b ->. apply (H' (c :: a) b). reflexivity.
      * change (c :: n ++ 58%N :: 32%N :: d = c :: n' ++ 58%N :: 32%N :: d') in E. injection E as E. exact E.
Qed.
Lemma plain_names_apart (names : dict nat text) :
  (forall c n a b, dget c names = Some n -> n <> a ++ [58; 32]%N ++ b) ->
  (forall c c' n, dget c names = Some n -> dget c' names = Some n -> c = c') -> names_apart names.
Proof.
  intros H1 H2 c c' n n' d d' E E' Eq. assert (n = n').
  { apply (no_colon_prefix n n' d d'); [intros a b; exact (H1 _ _ a b E)|intros a b; exact (H1 _ _ a b E')|exact Eq]. }
  subst n'. exact (H2 _ _ _ E E').
Qed.

(** the call that builds a numeric choice *)
Definition numeric_call (to_int : bool) (low high : text) (log : bool) (n_steps name : option text) : text :=
  of_string (if to_int then "choose_int(" else "choose_float(") ++ low ++ of_string ", " ++ high ++
  (if log then of_string ", log=True" else []) ++
  match n_steps with Some k => of_string ", n_steps=" ++ k | None => [] end ++
  match name with Some n => of_string ", name=" ++ n | None => [] end ++ of_string ")".
Lemma repr_numeric_call printable to_int low high log (n_steps name : option text) :
  length low <= 40 -> length high <= 40 -> (forall k, n_steps = Some k -> length k <= 40) ->
  (forall n, name = Some n -> length (repr_str printable n) <= 30) ->
  repr_numeric printable to_int (OInt low) (OInt high) log (option_map OInt n_steps) name =
  numeric_call to_int low high log n_steps (option_map (repr_str printable) name).
Proof.
  intros Hl Hh Hk Hn. unfold repr_numeric, numeric_call, short_repr. cbn [repr1]. unfold cut.
  destruct (Nat.ltb_spec 40 (length low)); [lia|]. destruct (Nat.ltb_spec 40 (length high)); [lia|]. f_equal.
  destruct n_steps as [k|]; cbn [option_map repr1]; [specialize (Hk k eq_refl); unfold cut; destruct (Nat.ltb_spec 40 (length k)); [lia|]|];
  (destruct name as [n|]; cbn [option_map];
    [specialize (Hn n eq_refl); pose proof (repr_str_length printable n); unfold with_name, short_str; cbv zeta;
     rewrite firstn_all2 by lia; destruct (Nat.ltb_spec 30 (length (repr_str printable n))); [lia|]
    |unfold with_name]);
  destruct log; cbn [app join]; change comma with (of_string ", "); rewrite <- ?app_assoc; reflexivity.
Qed.
