(** Parameter grids. *)
From Verif Require Import Base L_dict M_str M_grid.
Open Scope string_scope.
Open Scope list_scope.
Open Scope nat_scope.

(** ** Specification *)
Section Spec.
  Context {V : Type}.
  Variable G : cgraph V.
  Notation choices := (cg_choices G).

  (** Choices below outcome [i] of choice [c]. *)
  Definition below (c i : nat) : list nat :=
    match dget (Some (c, i)) (cg_children G) with Some l => l | None => [] end.
  Definition at_top : list nat :=
    match dget None (cg_children G) with Some l => l | None => [] end.

  (** Outcomes that a search may try: those of the choice; for a choice used to compute X or
      y, the outcome already chosen, by default the first one. *)
  Definition can_be (c i : nat) : Prop :=
    exists n chosen, dget c choices = Some (Enum n chosen) /\
      if mem c (cg_Xy G) then i = match chosen with Some k => k | None => 0 end else i < n.

  (** An assignment of outcomes to the choices. *)
  Definition valid (sigma : nat -> nat) : Prop :=
    forall c n chosen, dget c choices = Some (Enum n chosen) -> can_be c (sigma c).

  (** A choice is active if it is at the top, or below the chosen outcome of an active
      one. *)
  Inductive active (sigma : nat -> nat) : nat -> Prop :=
  | active_top c : In c at_top -> active sigma c
  | active_below d c : active sigma d -> In c (below d (sigma d)) -> active sigma c.

  (** The assignment is one of those of the sub-grid. *)
  Definition covered (sigma : nat -> nat) (g : grid V) : Prop :=
    forall c l, dget c g = Some (Indices l) -> In (sigma c) l.

  Record well_formed : Prop := {
    wf_nodup : NoDup (dkeys choices);
    wf_top : forall c, In c at_top -> In c (dkeys choices);
    wf_below : forall d i c, In c (below d i) -> In c (dkeys choices) /\ exists n k, dget d choices = Some (Enum n k)
  }.

  (** Entries of sub-grids. *)
  Definition entry_ok (c : nat) (r : range V) : Prop :=
    match dget c choices with
    | Some (Enum _ _) => exists l, r = Indices l /\ forall i, In i l -> can_be c i
    | Some (Numeric default chosen) =>
        r = if mem c (cg_Xy G) then Single (match chosen with Some v => v | None => default end)
            else Whole
    | None => False
    end.
End Spec.

(** ** Proofs *)
Section Proofs.
  Context {V : Type}.
  Variable G : cgraph V.
  Notation choices := (cg_choices G).
  Hypothesis Hwf : well_formed G.

  Definition hasch (c : nat) : Prop := exists i, can_be G c i /\ below G c i <> [].
  Definition same_below (ch : childdict) : Prop :=
    forall k, dget (Some k) ch = dget (Some k) (cg_children G).

  Lemma get_children_below ch c i : same_below ch -> get_children c i ch = below G c i.
  Proof. intros Hs. unfold get_children, below. rewrite Hs. reflexivity. Qed.

  Lemma range_spec c : In c (dkeys choices) -> exists r, choice_range G c = Ok r /\ entry_ok G c r /\
    (forall l, r = Indices l -> NoDup l /\ forall i, In i l <-> can_be G c i).
  Proof.
    intros Hin. apply dget_in_keys in Hin. destruct Hin as [x Ex].
    unfold choice_range, find_choice, entry_ok, can_be. rewrite Ex. cbn [bind].
    destruct (mem c (cg_Xy G)) eqn:Em; destruct x as [n chosen|df chosen]; eexists; (split; [reflexivity|]); split.
    - eexists. split; [reflexivity|]. intros i [<-|[]]. exists n, chosen. auto.
    - intros l E. injection E as <-. split; [constructor; [intros []|constructor]|].
      intros i. split.
      + intros [<-|[]]. exists n, chosen. auto.
      + intros (n' & ch' & E & ->). injection E as <- <-. left. reflexivity.
    - reflexivity.
    - discriminate.
    - eexists. split; [reflexivity|]. intros i Hi. apply in_seq in Hi. exists n, chosen. split; [reflexivity|lia].
    - intros l E. injection E as <-. split; [apply seq_NoDup|]. intros i. rewrite in_seq. split.
      + intros Hi. exists n, chosen. split; [reflexivity|lia].
      + intros (n' & ch' & E & Hi). injection E as <- <-. lia.
    - reflexivity.
    - discriminate.
  Qed.

  Lemma has_children_spec ch c : same_below ch -> In c (dkeys choices) ->
    exists b, has_children G ch c = Ok b /\ (b = true <-> hasch c).
  Proof.
    intros Hs Hin. destruct (range_spec c Hin) as (r & Er & _ & Hr).
    apply dget_in_keys in Hin. destruct Hin as [x Ex].
    unfold has_children. unfold find_choice at 1. rewrite Ex. cbn [bind].
    destruct x as [n chosen|df chosen].
    - rewrite Er. cbn [bind].
      assert (El : exists l, r = Indices l).
      { unfold choice_range, find_choice in Er. rewrite Ex in Er. cbn [bind] in Er.
        destruct (mem c (cg_Xy G)); injection Er as <-; eauto. }
      destruct El as [l ->]. destruct (Hr l eq_refl) as [_ Hl].
      eexists. split; [reflexivity|]. rewrite existsb_exists. split.
      + intros (i & Hi & Hne). exists i. split; [apply Hl; exact Hi|].
        rewrite get_children_below in Hne; [|exact Hs]. destruct (below G c i); [discriminate|discriminate].
      + intros (i & Hi & Hne). exists i. split; [apply Hl; exact Hi|].
        rewrite get_children_below; [|exact Hs]. destruct (below G c i); [contradiction|reflexivity].
    - exists false. split; [reflexivity|]. split; [discriminate|]. intros (i & (n & k & E & _) & _). congruence.
  Qed.

  Definition hasch_dec c : In c (dkeys choices) -> hasch c \/ ~ hasch c.
  Proof.
    intros Hin. destruct (has_children_spec (cg_children G) c (fun _ => eq_refl) Hin) as (b & _ & Hb).
    destruct b; [left; apply Hb; reflexivity|right; intros Hc; apply Hb in Hc; discriminate].
  Qed.

  (** Invariant of grids under construction; [top] is what remains to be handled. *)
  Record GInv (top : list nat) (g : grid V) : Prop := {
    gi_nodup : NoDup (dkeys g);
    gi_keys : forall c, In c (dkeys g) -> In c (dkeys choices);
    gi_plain : forall c r, dget c g = Some r -> ~ hasch c -> choice_range G c = Ok r;
    gi_split : forall c r, dget c g = Some r -> hasch c -> exists i, r = Indices [i] /\ can_be G c i /\
      forall d, In d (below G c i) -> In d top \/ In d (dkeys g)
  }.

  Lemma extract_spec ch : same_below ch -> forall top g,
    (forall c, In c top -> In c (dkeys choices)) ->
    (forall c r, dget c g = Some r -> ~ hasch c -> choice_range G c = Ok r) ->
    exists g1, extract G ch top g = Ok g1 /\
      (NoDup (dkeys g) -> NoDup (dkeys g1)) /\
      (forall c, In c (dkeys g1) <-> In c (dkeys g) \/ (In c top /\ ~ hasch c)) /\
      (forall c r, dget c g = Some r -> dget c g1 = Some r) /\
      (forall c r, dget c g1 = Some r -> dget c g = Some r \/ (~ hasch c /\ choice_range G c = Ok r)).
  Proof.
    intros Hs. induction top as [|c top IH]; intros g Hids Hg.
    - exists g. cbn. split; [reflexivity|]. split; [auto|]. split; [intuition|]. split; [auto|auto].
    - destruct (has_children_spec ch c Hs (Hids c (or_introl eq_refl))) as (b & Eb & Hb).
      cbn [extract]. rewrite Eb. cbn [bind]. destruct b.
      + assert (Hc : hasch c) by (apply Hb; reflexivity).
        destruct (IH g (fun x Hx => Hids x (or_intror Hx)) Hg) as (g1 & E1 & H1 & H2 & H3 & H4).
        exists g1. split; [exact E1|]. split; [exact H1|]. split; [|split; assumption].
        intros x. rewrite H2. simpl. intuition (subst; contradiction).
      + assert (Hc : ~ hasch c) by (intros Hc; apply Hb in Hc; discriminate).
        destruct (range_spec c (Hids c (or_introl eq_refl))) as (r & Er & _). rewrite Er. cbn [bind].
        destruct (IH (dset c r g) (fun x Hx => Hids x (or_intror Hx))) as (g1 & E1 & H1 & H2 & H3 & H4).
        { intros x rx Ex Hx. rewrite dget_dset_if in Ex. destruct (eqd x c) as [->|Hne]; [congruence|].
          apply Hg; assumption. }
        exists g1. split; [exact E1|]. split; [intros Hnd; apply H1; apply dset_NoDup; exact Hnd|]. split; [|split].
        * intros x. rewrite H2, dkeys_dset_iff. simpl. intuition (subst; auto).
        * intros x rx Ex. apply H3. rewrite dget_dset_if. destruct (eqd x c) as [->|Hne]; [|exact Ex].
          f_equal. pose proof (Hg c rx Ex Hc). congruence.
        * intros x rx Ex. destruct (H4 x rx Ex) as [E|E]; [|auto].
          rewrite dget_dset_if in E. destruct (eqd x c) as [->|Hne]; [|auto].
          injection E as <-. auto.
  Qed.

  (** What the choices in [g] and [top] lead to. *)
  Inductive closure (sigma : nat -> nat) (top : list nat) (g : grid V) : nat -> Prop :=
  | cl_key c : In c (dkeys g) -> closure sigma top g c
  | cl_top c : In c top -> closure sigma top g c
  | cl_step d c : closure sigma top g d -> In c (below G d (sigma d)) -> closure sigma top g c.

  Definition one_covers (sigma : nat -> nat) (P : nat -> Prop) (gs : list (grid V)) : Prop :=
    exists l1 g l2, gs = l1 ++ g :: l2 /\ covered sigma g /\
      (forall c, In c (dkeys g) <-> P c) /\ forall g', In g' (l1 ++ l2) -> ~ covered sigma g'.

  Lemma closure_leaf sigma top g (g1 : grid V) : valid G sigma -> GInv top g -> covered sigma g ->
    (forall c, In c (dkeys g1) <-> In c (dkeys g) \/ (In c top /\ ~ hasch c)) ->
    (forall c, In c top -> In c (dkeys g1)) ->
    forall c, In c (dkeys g1) <-> closure sigma top g c.
  Proof.
    intros Hv Hi Hcov Hk Htop c. split.
    - intros Hc. apply Hk in Hc. destruct Hc as [Hc|[Hc _]]; [apply cl_key|apply cl_top]; exact Hc.
    - intros Hc. induction Hc as [c Hc|c Hc|d c Hd IH Hc].
      + apply Hk. auto.
      + apply Htop. exact Hc.
      + apply Hk in IH. destruct (wf_below _ Hwf _ _ _ Hc) as [_ (n & k & En)].
        assert (Hcan : can_be G d (sigma d)) by (eapply Hv; eauto).
        assert (Hh : hasch d) by (exists (sigma d); split; [exact Hcan|]; destruct (below G d (sigma d)); [destruct Hc|discriminate]).
        destruct IH as [IH|[_ Hn]]; [|contradiction].
        apply dget_in_keys in IH. destruct IH as [r Er].
        destruct (gi_split _ _ Hi _ _ Er Hh) as (i & -> & _ & Hb).
        destruct (Hcov d [i] Er) as [Hi'|[]]. rewrite <- Hi' in Hc. destruct (Hb c Hc) as [Ht|Hg]; [apply Htop; exact Ht|].
        apply Hk. auto.
  Qed.

  Lemma in_seq_dec (x : nat) l : In x l \/ ~ In x l.
  Proof. destruct (in_dec Nat.eq_dec x l); auto. Qed.

  Lemma expand_spec : forall fuel ch top g,
    same_below ch -> dget None ch = Some top -> (forall c, In c top -> In c (dkeys choices)) ->
    GInv top g -> length (dkeys choices) < fuel + length (dkeys g) ->
    exists ch' gs, expand G fuel ch g = (ch', Ok gs) /\ same_below ch' /\
      (forall g', In g' gs -> (forall c r, dget c g = Some r -> dget c g' = Some r) /\
         forall c r, dget c g' = Some r -> entry_ok G c r) /\
      forall sigma, valid G sigma -> covered sigma g -> one_covers sigma (closure sigma top g) gs.
  Proof.
    assert (Hentry : forall top g, GInv top g -> forall c r, dget c g = Some r -> entry_ok G c r).
    { intros top g Hi c r Er. assert (Hin : In c (dkeys g)) by (apply dget_in_keys; eauto).
      pose proof (gi_keys _ _ Hi c Hin) as Hid. destruct (hasch_dec c Hid) as [Hh|Hn].
      - destruct (gi_split _ _ Hi c r Er Hh) as (i & -> & Hcan & _). unfold entry_ok.
        pose proof Hcan as (n & k & En & _). rewrite En. exists [i]. split; [reflexivity|].
        intros j [<-|[]]. exact Hcan.
      - pose proof (gi_plain _ _ Hi c r Er Hn) as E. destruct (range_spec c Hid) as (r' & E' & Hok & _). congruence. }
    induction fuel as [|fuel IH]; intros ch top g Hs Et Hids Hi Hf.
    - exfalso. assert (length (dkeys g) <= length (dkeys choices)); [|lia].
      apply NoDup_incl_length; [apply (gi_nodup _ _ Hi)|]. intros c Hc. apply (gi_keys _ _ Hi). exact Hc.
    - cbn [expand]. rewrite Et.
      destruct (extract_spec ch Hs top g Hids (gi_plain _ _ Hi)) as (g1 & E1 & Hnd1 & Hk1 & Hext1 & Hold1).
      rewrite E1. specialize (Hnd1 (gi_nodup _ _ Hi)).
      assert (Hcov1 : forall sigma, valid G sigma -> covered sigma g -> covered sigma g1).
      { intros sigma Hv Hc c l El. destruct (Hold1 c _ El) as [E|[Hn E]]; [eapply Hc; eauto|].
        assert (Hin : In c (dkeys choices)).
        { unfold choice_range, find_choice in E. destruct (dget c choices) eqn:Ec; [|discriminate].
          apply dget_in_keys. eauto. }
        destruct (range_spec c Hin) as (r & Er & Hok & Hl). rewrite E in Er. injection Er as <-.
        apply (Hl l eq_refl). unfold entry_ok in Hok. destruct (dget c choices) as [[n k|df k]|] eqn:Ec; [| |contradiction].
        - eapply Hv; eauto.
        - destruct (mem c (cg_Xy G)); discriminate. }
      assert (Hsplit1 : forall c r, dget c g1 = Some r -> hasch c -> exists i, r = Indices [i] /\ can_be G c i /\
        forall d, In d (below G c i) -> In d top \/ In d (dkeys g1)).
      { intros c r Er Hh. destruct (Hold1 c r Er) as [E|[Hn _]]; [|contradiction].
        destruct (gi_split _ _ Hi c r E Hh) as (i & -> & Hcan & Hb). exists i. split; [reflexivity|]. split; [exact Hcan|].
        intros d Hd. destruct (Hb d Hd) as [Ht|Hg]; [auto|]. right. apply Hk1. auto. }
      assert (Hplain1 : forall c r, dget c g1 = Some r -> ~ hasch c -> choice_range G c = Ok r).
      { intros c r Er Hn. destruct (Hold1 c r Er) as [E|[_ E]]; [apply (gi_plain _ _ Hi); assumption|exact E]. }
      assert (Hkeys1 : forall c, In c (dkeys g1) -> In c (dkeys choices)).
      { intros c Hc. apply Hk1 in Hc. destruct Hc as [Hc|[Hc _]]; [apply (gi_keys _ _ Hi); exact Hc|apply Hids; exact Hc]. }
      destruct (filter (fun c => negb (mem c (dkeys g1))) top) as [|c rest] eqn:Efil.
      + exists ch, [g1]. split; [reflexivity|]. split; [exact Hs|]. split.
        * intros g' [<-|[]]. split; [exact Hext1|]. apply (Hentry top). split; assumption.
        * intros sigma Hv Hc. exists [], g1, []. split; [reflexivity|]. split; [apply Hcov1; assumption|].
          split; [|intros g' []]. apply closure_leaf; auto.
          intros c Hc'. destruct (mem c (dkeys g1)) eqn:Em; [apply mem_true in Em; exact Em|].
          assert (Hin : In c (filter (fun c => negb (mem c (dkeys g1))) top)).
          { apply filter_In. split; [exact Hc'|]. rewrite Em. reflexivity. }
          rewrite Efil in Hin. destruct Hin.
      + assert (Hrem : forall x, In x top -> In x (dkeys g1) \/ x = c \/ In x rest).
        { intros x Hx. destruct (mem x (dkeys g1)) eqn:Em; [left; apply mem_true in Em; exact Em|].
          right. assert (Hin : In x (filter (fun c => negb (mem c (dkeys g1))) top)).
          { apply filter_In. split; [exact Hx|]. rewrite Em. reflexivity. }
          rewrite Efil in Hin. destruct Hin as [<-|Hin]; auto. }
        assert (Hin0 : forall x, In x (c :: rest) -> In x top /\ ~ In x (dkeys g1)).
        { intros x Hx. rewrite <- Efil in Hx. apply filter_In in Hx. destruct Hx as [Hx Hm]. split; [exact Hx|].
          apply negb_true_iff in Hm. apply mem_false in Hm. exact Hm. }
        destruct (Hin0 c (or_introl eq_refl)) as [Hctop Hcg1].
        assert (Hcid : In c (dkeys choices)) by (apply Hids; exact Hctop).
        assert (Hch : hasch c).
        { destruct (hasch_dec c Hcid) as [Hh|Hn]; [exact Hh|]. exfalso. apply Hcg1. apply Hk1. auto. }
        destruct (range_spec c Hcid) as (r & Er & Hok & Hrl). rewrite Er.
        assert (El : exists l, r = Indices l).
        { unfold entry_ok in Hok. destruct Hch as (i & (n & k & En & _) & _). rewrite En in Hok.
          destruct Hok as (l & -> & _). eauto. }
        destruct El as [idxs ->]. destruct (Hrl idxs eq_refl) as [Hndi Hidx]. clear Hrl Hok Er.
        (* the loop over outcomes *)
        assert (Hloop : forall idxs', NoDup idxs' -> (forall i, In i idxs' -> can_be G c i) ->
          forall ch0, same_below ch0 -> exists ch' gs,
          (fix split (idxs : list nat) (ch : childdict) : childdict * res (list (grid V)) :=
                   match idxs with
                   | [] => (ch, Ok [])
                   | i :: idxs' =>
                       let (ch2, r) :=
                         expand G fuel (dset None (get_children c i ch ++ rest) ch)
                           (dset c (Indices [i]) g1) in
                       match r with
                       | Err e => (ch2, Err e)
                       | Ok gs =>
                           let (ch3, r') := split idxs' ch2 in
                           (ch3, let! gs' := r' in Ok (gs ++ gs'))
                       end
                   end) idxs' ch0 = (ch', Ok gs) /\ same_below ch' /\
          (forall g', In g' gs -> (forall x r, dget x g1 = Some r -> dget x g' = Some r) /\
             (exists i, In i idxs' /\ dget c g' = Some (Indices [i])) /\
             forall x r, dget x g' = Some r -> entry_ok G x r) /\
          forall sigma, valid G sigma -> covered sigma g1 -> In (sigma c) idxs' ->
            one_covers sigma (closure sigma top g) gs).
        { induction idxs' as [|i idxs' IHi]; intros Hnd Hcan ch0 Hs0.
          - exists ch0, []. split; [reflexivity|]. split; [exact Hs0|]. split; [intros g' []|].
            intros sigma _ _ [].
          - inversion Hnd as [|? ? Hni Hnd']; subst.
            set (ch1 := dset None (get_children c i ch0 ++ rest) ch0).
            assert (Hs1 : same_below ch1).
            { intros k. unfold ch1. rewrite dget_dset_neq; [apply Hs0|discriminate]. }
            assert (Et1 : dget None ch1 = Some (below G c i ++ rest)).
            { unfold ch1. rewrite dget_dset_eq. rewrite get_children_below; [reflexivity|exact Hs0]. }
            set (gi := dset c (Indices [i]) g1).
            assert (Hgi : forall x, In x (dkeys gi) <-> x = c \/ In x (dkeys g1)) by (intros x; apply dkeys_dset_iff).
            destruct (IH ch1 (below G c i ++ rest) gi Hs1 Et1) as (ch2 & gs & Ee & Hs2 & Hgs & Hone).
            { intros x Hx. apply in_app_iff in Hx. destruct Hx as [Hx|Hx].
              - apply (wf_below _ Hwf _ _ _ Hx).
              - apply Hids. apply Hin0. right. exact Hx. }
            { split.
              - apply dset_NoDup. exact Hnd1.
              - intros x Hx. apply Hgi in Hx. destruct Hx as [->|Hx]; [exact Hcid|apply Hkeys1; exact Hx].
              - intros x rx Ex Hn. unfold gi in Ex. rewrite dget_dset_if in Ex.
                destruct (eqd x c) as [->|Hne]; [contradiction|]. apply Hplain1; assumption.
              - intros x rx Ex Hh. unfold gi in Ex. rewrite dget_dset_if in Ex. destruct (eqd x c) as [->|Hne].
                + injection Ex as <-. exists i. split; [reflexivity|]. split; [apply Hcan; left; reflexivity|].
                  intros d Hd. left. apply in_app_iff. auto.
                + destruct (Hsplit1 x rx Ex Hh) as (j & -> & Hcj & Hb). exists j. split; [reflexivity|].
                  split; [exact Hcj|]. intros d Hd. destruct (Hb d Hd) as [Ht|Hg].
                  * destruct (Hrem d Ht) as [Hd1|[->|Hd1]].
                    -- right. apply Hgi. auto.
                    -- right. apply Hgi. auto.
                    -- left. apply in_app_iff. auto.
                  * right. apply Hgi. auto. }
            { unfold gi. rewrite dkeys_dset_notin; [|exact Hcg1]. rewrite app_length. simpl.
              assert (length (dkeys g) <= length (dkeys g1)); [|lia].
              apply NoDup_incl_length; [apply (gi_nodup _ _ Hi)|]. intros x Hx. apply Hk1. auto. }
            destruct (IHi Hnd' (fun j Hj => Hcan j (or_intror Hj)) ch2 Hs2) as (ch3 & gs' & Ee' & Hs3 & Hgs' & Hone').
            exists ch3, (gs ++ gs'). split; [|split; [exact Hs3|split]].
            + fold ch1. fold gi. rewrite Ee.
              rewrite Ee'. reflexivity.
            + intros g' Hg'. apply in_app_iff in Hg'. destruct Hg' as [Hg'|Hg'].
              * destruct (Hgs g' Hg') as [Ha Hb]. split; [|split; [|exact Hb]].
                -- intros x rx Ex. apply Ha. unfold gi. rewrite dget_dset_if.
                   destruct (eqd x c) as [->|Hne]; [|exact Ex]. exfalso. apply Hcg1. apply dget_in_keys. eauto.
                -- exists i. split; [left; reflexivity|]. apply Ha. unfold gi. apply dget_dset_eq.
              * destruct (Hgs' g' Hg') as (Ha & (j & Hj & Ej) & Hb). split; [exact Ha|]. split; [|exact Hb].
                exists j. split; [right; exact Hj|exact Ej].
            + intros sigma Hv Hc1 Hsc.
              destruct (Nat.eq_dec (sigma c) i) as [Hsi|Hsi].
              * assert (Hcovi : covered sigma gi).
                { intros x l Ex. unfold gi in Ex. rewrite dget_dset_if in Ex. destruct (eqd x c) as [->|Hne].
                  - injection Ex as <-. left. auto.
                  - eapply Hc1; eauto. }
                destruct (Hone sigma Hv Hcovi) as (l1 & g' & l2 & -> & Hcg & Hkg & Hother).
                exists l1, g', (l2 ++ gs'). split; [rewrite <- app_assoc; reflexivity|]. split; [exact Hcg|]. split.
                -- intros x. rewrite Hkg. split; intros Hx.
                   ++ induction Hx as [x Hx|x Hx|d x Hd IHd Hx].
                      ** apply Hgi in Hx. destruct Hx as [->|Hx]; [apply cl_top; exact Hctop|].
                         apply Hk1 in Hx. destruct Hx as [Hx|[Hx _]]; [apply cl_key|apply cl_top]; exact Hx.
                      ** apply in_app_iff in Hx. destruct Hx as [Hx|Hx].
                         --- apply (cl_step _ _ _ c); [apply cl_top; exact Hctop|]. rewrite Hsi. exact Hx.
                         --- apply cl_top. apply Hin0. right. exact Hx.
                      ** eapply cl_step; eauto.
                   ++ induction Hx as [x Hx|x Hx|d x Hd IHd Hx].
                      ** apply cl_key. apply Hgi. right. apply Hk1. auto.
                      ** destruct (Hrem x Hx) as [Hx1|[->|Hx1]].
                         --- apply cl_key. apply Hgi. auto.
                         --- apply cl_key. apply Hgi. auto.
                         --- apply cl_top. apply in_app_iff. auto.
                      ** eapply cl_step; eauto.
                -- intros g2 Hg2. rewrite app_assoc in Hg2. apply in_app_iff in Hg2. destruct Hg2 as [Hg2|Hg2]; [apply Hother; exact Hg2|].
                   destruct (Hgs' g2 Hg2) as (_ & (j & Hj & Ej) & _). intros Hcov. destruct (Hcov c [j] Ej) as [E|[]].
                   apply Hni. rewrite <- Hsi, <- E. exact Hj.
              * destruct Hsc as [E|Hsc]; [congruence|].
                destruct (Hone' sigma Hv Hc1 Hsc) as (l1 & g' & l2 & -> & Hcg & Hkg & Hother).
                exists (gs ++ l1), g', l2. split; [rewrite <- app_assoc; reflexivity|]. split; [exact Hcg|]. split; [exact Hkg|].
                intros g2 Hg2. rewrite <- app_assoc in Hg2. apply in_app_iff in Hg2. destruct Hg2 as [Hg2|Hg2]; [|apply Hother; exact Hg2].
                destruct (Hgs g2 Hg2) as [Ha _]. intros Hcov.
                assert (Ei : dget c g2 = Some (Indices [i])) by (apply Ha; unfold gi; apply dget_dset_eq).
                destruct (Hcov c [i] Ei) as [E|[]]. congruence. }
        destruct (Hloop idxs Hndi (fun i Hi' => proj1 (Hidx i) Hi') ch Hs) as (ch' & gs & Ee & Hs' & Hgs & Hone).
        exists ch', gs. split; [exact Ee|]. split; [exact Hs'|]. split.
        * intros g' Hg'. destruct (Hgs g' Hg') as (Ha & _ & Hb). split; [|exact Hb].
          intros x rx Ex. apply Ha. apply Hext1. exact Ex.
        * intros sigma Hv Hc. apply Hone; [exact Hv|apply Hcov1; assumption|]. apply Hidx.
          destruct Hch as (i & (n & k & En & _) & _). eapply Hv; eauto.
  Qed.

  Theorem param_grid_spec : exists gs, param_grid G = Ok gs /\
    (forall g c r, In g gs -> dget c g = Some r -> entry_ok G c r) /\
    forall sigma, valid G sigma -> one_covers sigma (active G sigma) gs.
  Proof.
    unfold param_grid.
    assert (Hnil : forall top, GInv top []).
    { intros top. split; cbn; [constructor|intros c []|discriminate|discriminate]. }
    assert (Hcov0 : forall sigma, covered sigma ([] : grid V)) by (intros sigma c l E; discriminate).
    destruct (dget None (cg_children G)) as [top|] eqn:Et.
    - destruct (expand_spec (S (length choices)) (cg_children G) top [] (fun _ => eq_refl) Et) as (ch' & gs & Ee & _ & Hgs & Hone).
      + intros c Hc. apply (wf_top _ Hwf). unfold at_top. rewrite Et. exact Hc.
      + apply Hnil.
      + unfold dkeys. rewrite map_length. simpl. lia.
      + exists gs. rewrite Ee. split; [reflexivity|]. split.
        * intros g c r Hg. apply (Hgs g Hg).
        * intros sigma Hv. destruct (Hone sigma Hv (Hcov0 sigma)) as (l1 & g & l2 & -> & Hcg & Hkg & Hother).
          exists l1, g, l2. split; [reflexivity|]. split; [exact Hcg|]. split; [|exact Hother].
          intros c. rewrite Hkg. split; intros Hx.
          -- induction Hx as [x Hx|x Hx|d x Hd IHd Hx]; [destruct Hx| |].
             ++ apply active_top. unfold at_top. rewrite Et. exact Hx.
             ++ eapply active_below; eauto.
          -- induction Hx as [x Hx|d x Hd IHd Hx].
             ++ apply cl_top. unfold at_top in Hx. rewrite Et in Hx. exact Hx.
             ++ eapply cl_step; eauto.
    - exists [[]]. cbn [expand]. rewrite Et. split; [reflexivity|]. split.
      + intros g c r [<-|[]] E. discriminate.
      + intros sigma Hv. exists [], [], []. split; [reflexivity|]. split; [apply Hcov0|]. split; [|intros g' []].
        intros c. split; [intros []|]. intros Hx. exfalso. induction Hx as [x Hx|d x Hd IHd Hx]; [|exact IHd].
        unfold at_top in Hx. rewrite Et in Hx. destruct Hx.
  Qed.
End Proofs.
