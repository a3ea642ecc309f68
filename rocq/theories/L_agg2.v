(** AggJoiner and AggTarget: specification and lemmas. *)
From Verif Require Import Base M_names M_oncols M_agg L_names L_leftjoin L_dict L_tablevec4 L_tablevec3 L_agg.
From Coq Require Import Permutation.
Open Scope string_scope.
Open Scope list_scope.
Open Scope nat_scope.

(** ** Names of the columns of the result *)
Definition untagged (s : string) : Prop := ~ SubString "__skrub_" s.

Lemma pick_untagged : forall draw l i f x, (forall s, In s l -> untagged s) ->
  In x (pick_from draw i l f) -> In x l \/ ~ untagged x.
Proof.
  intros draw. induction l as [|s l IH]; intros i f x Hl I; simpl in I; [destruct I|].
  destruct I as [<-|I].
  - rewrite (get_new_name_spec _ s s [] f (no_tag_Untag s (Hl s (or_introl eq_refl)))). simpl wanted.
    destruct (in_dec eqd s f); [|left; left; reflexivity]. right. intros U. apply U.
    exists s, (draw i ++ "__")%string. reflexivity.
  - destruct (IH (S i) (get_new_name (draw i) s f :: f) x) as [J|J].
    + intros s' I'. apply Hl. right. exact I'.
    + exact I.
    + left. right. exact J.
    + right. exact J.
Qed.

Lemma other_names_split : forall (key ns pk pn : list string), NoDup (key ++ ns) ->
  length pk = length key -> length pn = length ns ->
  other_names (key ++ ns) (pk ++ pn) key = pn.
Proof.
  intros key ns pk pn N Lk Ln.
  assert (D : forall c, In c ns -> mem c key = false).
  { intros c I. apply mem_false. intros I'. exact (NoDup_app_disj _ _ _ N I' I). }
  assert (G1 : forall (l p : list string), (forall c, In c l -> In c key) -> length p = length l ->
            forall l' p', other_names (l ++ l') (p ++ p') key = other_names l' p' key).
  { induction l as [|c l IH]; intros p Hl Lp l' p'; destruct p as [|n p]; try discriminate; [reflexivity|].
    unfold other_names in *. simpl. rewrite (proj2 (mem_true _ _) (Hl c (or_introl eq_refl))). simpl.
    apply IH; [intros c' I; apply Hl; right; exact I|simpl in Lp; lia]. }
  rewrite G1; [|auto|exact Lk]. clear -D Ln. revert pn Ln. induction ns as [|c ns IH]; intros pn Ln; destruct pn as [|n pn];
    try discriminate; [reflexivity|]. unfold other_names in *. simpl. rewrite D by (left; reflexivity). simpl. f_equal.
  apply IH; [intros c' I; apply D; right; exact I|simpl in Ln; lia].
Qed.

(** The names of the results, [Xcols] being the columns of the main table: as described, unless
    they are taken. *)
Lemma joined_names : forall draw (Xcols key ns : list string), NoDup (key ++ ns) ->
  let names := other_names (key ++ ns) (pick_column_names draw (key ++ ns) Xcols) key in
  length names = length ns /\
  ((forall c, In c (key ++ ns) -> untagged c) -> (forall c, In c ns -> ~ In c Xcols) -> names = ns).
Proof.
  intros draw Xcols key ns N names. unfold names, pick_column_names. rewrite pick_app.
  rewrite other_names_split; [|exact N|apply pick_length|apply pick_length].
  split; [apply pick_length|]. intros U D. apply pick_identity; [|apply NoDup_app_r in N; exact N].
  intros s I. split; [apply U, in_or_app; right; exact I|]. intros J. apply in_app_or in J.
  destruct J as [J|J]; [exact (D s I J)|].
  apply pick_untagged in J; [|intros s' I'; apply U, in_or_app; left; exact I'].
  destruct J as [J|J]; [exact (NoDup_app_disj _ _ _ N J I)|]. apply J, U, in_or_app. right. exact I.
Qed.

Section Joiners.
  Context {V : Type} {EV : EqD V}.
  Variable null : V.
  Variable isnull : V -> bool.
  Variable lib : library.
  Variable group_order : list (list V) -> list (list V).
  Variable aggf : string -> list V -> res V.
  Variable set_order : list string -> list string.

  Notation fit := (fit_transform null isnull lib group_order aggf set_order).
  Notation apply_fitted := (M_agg.transform null isnull lib).

  (** ** Specification *)

  (** the auxiliary table, the pairs of keys and the columns that the parameters designate *)
  Definition AuxIs (p : agg_params) (X aux : table V) : Prop :=
    (p_aux_table p = AuxX /\ aux = X) \/ p_aux_table p = AuxTable aux.
  Definition KeysAre (p : agg_params (V := V)) (mk ak : list string) : Prop :=
    (p_key p <> KNone /\ p_main_key p = KNone /\ p_aux_key p = KNone /\
     mk = atleast_1d_or_none (p_key p) /\ ak = atleast_1d_or_none (p_key p)) \/
    (p_key p = KNone /\ p_main_key p <> KNone /\ p_aux_key p <> KNone /\
     length mk = length ak /\
     mk = atleast_1d_or_none (p_main_key p) /\ ak = atleast_1d_or_none (p_aux_key p)).
  Definition ColsAre (p : agg_params (V := V)) (aux : table V) (ak cols : list string) : Prop :=
    (p_cols p = KNone /\ cols = set_order (other_columns (tcols aux) ak)) \/
    (p_cols p <> KNone /\ cols = atleast_1d_or_none (p_cols p)).
  Definition OpsAre (p : agg_params (V := V)) (ops : list string) : Prop :=
    ops = atleast_1d_or_none (p_operations p).

  (** The result of a join: the main rows in order, with values attached. *)
  Definition Joined (X aux : table V) (mk ak cols ops : list string) (suffix : string) (out : table V) : Prop :=
    (exists names, tcols out = tcols X ++ names /\ length names = length (list_prod cols ops) /\
       ((forall c, In c ak -> untagged c) ->
        (forall p, In p (list_prod cols ops) ->
           untagged (result_name suffix p) /\ ~ In (result_name suffix p) (tcols X)) ->
        names = map (result_name suffix) (list_prod cols ops))) /\
    NoDup (tcols out) /\
    Forall2 (fun l o => exists vals, o = l ++ vals /\
               Attached null isnull aggf X aux mk ak (list_prod cols ops) l vals)
            (trows X) (trows out).

  (** ** Lemmas *)
  Lemma check_key_iff : forall (p : agg_params (V := V)) mk ak,
    check_key (p_main_key p) (p_aux_key p) (p_key p) = Ok (mk, ak) <-> KeysAre p mk ak.
  Proof. intros p mk ak. apply check_key_spec. Qed.

  Lemma check_operations_ok : forall o ops, check_operations o = Ok ops ->
    ops = atleast_1d_or_none o /\ ops <> [] /\ (forall op, In op ops -> In op SUPPORTED_OPS).
  Proof.
    intros o ops E. unfold check_operations in E. destruct (atleast_1d_or_none o) as [|x l]; [discriminate|].
    destruct (forallb _ (x :: l)) eqn:Ef; [|discriminate]. injection E as <-.
    split; [reflexivity|]. split; [discriminate|]. intros op I.
    rewrite forallb_forall in Ef. apply mem_true, Ef, I.
  Qed.

  (** the steps of a fit *)
  Lemma fit_inv : forall draw is_numeric p X f out aux mk ak cols ops,
    fit draw is_numeric p X = Ok (f, out) ->
    AuxIs p X aux -> KeysAre p mk ak -> ColsAre p aux ak cols -> OpsAre p ops ->
    (forall c, In c mk -> In c (tcols X)) /\ (forall c, In c ak -> In c (tcols aux)) /\
    (forall c, In c cols -> In c (tcols aux)) /\
    ops <> [] /\ (forall op, In op ops -> In op SUPPORTED_OPS) /\
    exists agg, aggregate isnull lib group_order aggf is_numeric aux ak cols ops (p_suffix p) = Ok agg /\
      left_join null (keq isnull lib) draw X agg mk ak (fun c => c) = Ok out /\
      f = mk_agg_fitted (tcols X) mk ak agg (tcols out).
  Proof.
    intros draw is_numeric p X f out aux mk ak cols ops E HA HK HC HO. unfold fit_transform in E.
    assert (EA : match p_aux_table p with AuxX => Ok X | AuxTable t => Ok t | AuxOther => Err ValueError end = Ok aux).
    { destruct HA as [[-> ->]| ->]; reflexivity. }
    rewrite EA in E. cbn [bind] in E. apply check_key_iff in HK. rewrite HK in E. cbn [bind] in E.
    destruct (check_missing_columns (tcols X) mk) as [[]|] eqn:E1; cbn [bind] in E; [|discriminate].
    destruct (check_missing_columns (tcols aux) ak) as [[]|] eqn:E2; cbn [bind] in E; [|discriminate].
    assert (EC : (if is_none (p_cols p) then set_order (filter (fun c => negb (mem c ak)) (tcols aux))
                  else atleast_1d_or_none (p_cols p)) = cols).
    { destruct HC as [[-> ->]|[N ->]]; [reflexivity|]. destruct (p_cols p); [congruence|reflexivity..]. }
    cbv zeta in E. rewrite EC in E.
    destruct (check_missing_columns (tcols aux) cols) as [[]|] eqn:E3; cbn [bind] in E; [|discriminate].
    destruct (check_operations (p_operations p)) as [ops'|] eqn:E4; cbn [bind] in E; [|discriminate].
    apply check_operations_ok in E4. destruct E4 as (E4 & E5 & E6).
    unfold OpsAre in HO. rewrite <- HO in E4. subst ops'.
    destruct (aggregate _ _ _ _ _ _ _ _ _ _) as [agg|] eqn:Eg in E; cbn [bind] in E; [|discriminate].
    destruct (left_join _ _ _ _ _ _ _ _) as [res|] eqn:Ej in E; cbn [bind] in E; [|discriminate].
    injection E as <- <-.
    split; [apply (proj1 (check_missing_spec _ _)), E1|].
    split; [apply (proj1 (check_missing_spec _ _)), E2|].
    split; [apply (proj1 (check_missing_spec _ _)), E3|].
    split; [exact E5|]. split; [exact E6|].
    exists agg. auto.
  Qed.

  Lemma KeysAre_length : forall p mk ak, KeysAre p mk ak -> length mk = length ak.
  Proof. intros p mk ak [(_ & _ & _ & -> & ->)|(_ & _ & _ & L & _)]; [reflexivity|exact L]. Qed.

  Hypothesis group_order_perm : forall l, Permutation (group_order l) l.

  Lemma join_spec : forall draw is_numeric X aux mk ak cols ops suffix agg,
    WFTable X -> WFTable aux -> NoDup cols -> NoDup ops ->
    (forall op, In op ops -> In op SUPPORTED_OPS) ->
    (lib = Pandas -> forall p, In p (list_prod cols ops) -> ~ In (result_name suffix p) ak) ->
    (forall c, In c mk -> In c (tcols X)) -> length mk = length ak ->
    (forall c, In c ak -> In c (tcols aux)) ->
    Fresh draw (length ak + length (list_prod cols ops)) (ak ++ map (result_name suffix) (list_prod cols ops)) (tcols X) ->
    aggregate isnull lib group_order aggf is_numeric aux ak cols ops suffix = Ok agg ->
    exists out, left_join null (keq isnull lib) draw X agg mk ak (fun c => c) = Ok out /\
      Joined X aux mk ak cols ops suffix out.
  Proof.
    intros draw is_numeric X aux mk ak cols ops suffix agg WX WA Nc No Hs Hcl Hmk Hl Hak F Ea.
    destruct (aggregate_spec isnull lib group_order group_order_perm aggf is_numeric aux ak cols ops suffix agg
                (proj1 WA) Nc No Hs Hcl Ea) as (E1 & E2 & Hk & E3).
    destruct (join_attached null isnull lib aggf draw X aux mk ak cols ops suffix agg WX (proj1 WA) Hmk Hl Hak E1 E2)
      as (res & R1 & R2 & R3 & R4).
    - rewrite map_id, E1, app_length, map_length. exact F.
    - exact E3.
    - exists res. split; [exact R1|]. split; [|split; [exact R3|exact R4]].
      rewrite E1 in R2. eexists. split; [exact R2|].
      assert (N1 := E2). rewrite E1 in N1.
      destruct (joined_names draw (tcols X) ak (map (result_name suffix) (list_prod cols ops)) N1) as [L1 L2].
      split; [rewrite L1, map_length; reflexivity|]. intros U1 U2. apply L2.
      + intros c I. apply in_app_or in I. destruct I as [I|I]; [exact (U1 c I)|].
        apply in_map_iff in I. destruct I as (q & <- & I). exact (proj1 (U2 q I)).
      + intros c I. apply in_map_iff in I. destruct I as (q & <- & I). exact (proj2 (U2 q I)).
  Qed.

  Theorem fit_spec : forall draw is_numeric p X f out aux mk ak cols ops,
    fit draw is_numeric p X = Ok (f, out) ->
    AuxIs p X aux -> KeysAre p mk ak -> ColsAre p aux ak cols -> OpsAre p ops ->
    WFTable X -> WFTable aux -> NoDup cols -> NoDup ops ->
    (lib = Pandas -> forall q, In q (list_prod cols ops) -> ~ In (result_name (p_suffix p) q) ak) ->
    Fresh draw (length ak + length (list_prod cols ops))
          (ak ++ map (result_name (p_suffix p)) (list_prod cols ops)) (tcols X) ->
    Joined X aux mk ak cols ops (p_suffix p) out.
  Proof.
    intros draw is_numeric p X f out aux mk ak cols ops E HA HK HC HO WX WA Nc No Hcl F.
    destruct (fit_inv _ _ _ _ _ _ _ _ _ _ _ E HA HK HC HO) as (H1 & H2 & H3 & H4 & H5 & agg & E1 & E2 & E3).
    destruct (join_spec draw is_numeric X aux mk ak cols ops (p_suffix p) agg WX WA Nc No H5 Hcl H1
                (KeysAre_length _ _ _ HK) H2 F E1) as (out' & J1 & J2).
    assert (out' = out) by congruence. subst. exact J2.
  Qed.

  Lemma Attached_columns : forall X X' aux mk ak pairs l vals, tcols X' = tcols X ->
    Attached null isnull aggf X aux mk ak pairs l vals -> Attached null isnull aggf X' aux mk ak pairs l vals.
  Proof. intros X X' aux mk ak pairs l vals E (k & H1 & H2). exists k. rewrite E. auto. Qed.

  Theorem transform_spec : forall draw is_numeric p X f out aux mk ak cols ops draw' X',
    fit draw is_numeric p X = Ok (f, out) ->
    AuxIs p X aux -> KeysAre p mk ak -> ColsAre p aux ak cols -> OpsAre p ops ->
    WFTable X -> WFTable aux -> NoDup cols -> NoDup ops ->
    (lib = Pandas -> forall q, In q (list_prod cols ops) -> ~ In (result_name (p_suffix p) q) ak) ->
    Fresh draw (length ak + length (list_prod cols ops))
          (ak ++ map (result_name (p_suffix p)) (list_prod cols ops)) (tcols X) ->
    Fresh draw' (length ak + length (list_prod cols ops))
          (ak ++ map (result_name (p_suffix p)) (list_prod cols ops)) (tcols X) ->
    WFTable X' ->
    if eqd (tcols X') (tcols X) then
      exists out', apply_fitted draw' f X' = Ok out' /\ tcols out' = tcols out /\
        Forall2 (fun l o => exists vals, o = l ++ vals /\
               Attached null isnull aggf X' aux mk ak (list_prod cols ops) l vals)
            (trows X') (trows out')
    else apply_fitted draw' f X' = Err ValueError.
  Proof.
    intros draw is_numeric p X f out aux mk ak cols ops draw' X' E HA HK HC HO WX WA Nc No Hcl F F' WX'.
    pose proof (fit_spec _ _ _ _ _ _ _ _ _ _ _ E HA HK HC HO WX WA Nc No Hcl F) as ((names & J1 & J2 & _) & _).
    destruct (fit_inv _ _ _ _ _ _ _ _ _ _ _ E HA HK HC HO) as (H1 & H2 & H3 & H4 & H5 & agg & E1 & E2 & ->).
    unfold M_agg.transform. cbn [f_features_in f_aggregated f_main_key f_aux_key f_outputs].
    destruct (eqd (tcols X') (tcols X)) as [Ec|Nn].
    - rewrite <- Ec in F'.
      assert (H1' : forall c, In c mk -> In c (tcols X')) by (rewrite Ec; exact H1).
      destruct (join_spec draw' is_numeric X' aux mk ak cols ops (p_suffix p) agg WX' WA Nc No H5 Hcl H1'
                (KeysAre_length _ _ _ HK) H2 F' E1) as (out' & K1 & (names' & K2 & K3 & _) & _ & K4).
      rewrite (proj2 (eqb_of_true _ _) Ec). cbn [negb]. rewrite K1. cbn [bind]. unfold rename_all.
      rewrite K2, J1, !app_length, J2, K3, Ec, Nat.eqb_refl.
      eexists. split; [reflexivity|]. split; [reflexivity|]. exact K4.
    - rewrite (proj2 (eqb_of_false _ _) Nn). reflexivity.
  Qed.

  (** ** Success *)
  Definition numeric_if_needed (is_numeric : string -> bool) (ak cols ops : list string) : Prop :=
    (exists op, In op ops /\ In op ["sum"; "median"; "mean"; "std"]) ->
    forall c, In c cols -> ~ In c ak -> is_numeric c = true.

  Lemma aggregate_total : forall is_numeric t key cols ops suffix,
    WFTable t -> NoDup cols -> NoDup ops -> (forall op, In op ops -> In op SUPPORTED_OPS) ->
    key <> [] -> NoDup key -> cols <> [] -> ops <> [] ->
    (forall c, In c key -> In c (tcols t)) -> (forall c, In c cols -> In c (tcols t)) ->
    numeric_if_needed is_numeric key cols ops ->
    (forall q, In q (list_prod cols ops) -> ~ In (result_name "" q) key /\ ~ In (result_name suffix q) key) ->
    (forall op vs, In op ops -> vs <> [] -> exists v, aggf op vs = Ok v) ->
    exists agg, aggregate isnull lib group_order aggf is_numeric t key cols ops suffix = Ok agg.
  Proof.
    intros is_numeric t key cols ops suffix [ND W] Nc No Hs Hk Nk Hc Ho Hik Hic Hn Hcl Hagg.
    unfold aggregate.
    set (nn := filter (fun c => negb (is_numeric c)) _).
    set (no := filter (fun op => mem op NUM_ONLY_OPS) ops).
    match goal with |- exists agg, match nn with [] => ?x | _ => _ end = _ =>
      assert (E' : exists agg, x = Ok agg) end.
    2:{ destruct nn as [|c nn'] eqn:En; [exact E'|]. destruct no as [|op no'] eqn:Eo; [exact E'|]. exfalso.
        assert (Ic : In c nn) by (rewrite En; left; reflexivity).
        assert (Io : In op no) by (rewrite Eo; left; reflexivity).
        unfold nn in Ic. unfold no in Io. rewrite !filter_In in Ic. rewrite filter_In in Io.
        destruct Ic as [[[_ Ic1] Ic2] Ic3]. destruct Io as [Io1 Io2].
        rewrite negb_true_iff in Ic2, Ic3. apply mem_true in Io2. apply mem_false in Ic2.
        apply orb_true_iff in Ic1. destruct Ic1 as [Ic1|Ic1]; apply mem_true in Ic1; [contradiction|].
        assert (is_numeric c = true); [|congruence]. apply Hn; [|exact Ic1|exact Ic2]. exists op. auto. }
    assert (HPos : list_prod cols ops <> []).
    { destruct cols as [|c cs]; [congruence|]. destruct ops as [|o os]; [congruence|]. discriminate. }
    assert (Ep : exists g, perform_groupby isnull lib group_order aggf t key cols ops = Ok g /\
              tcols g = key ++ map output_key (list_prod cols ops)).
    { unfold perform_groupby.
      destruct (named_agg lib cols ops) as [named|e] eqn:En; [|unfold named_agg in En; destruct lib; discriminate].
      pose proof (named_agg_spec lib cols ops named Nc No Hs En) as Hnm. cbn [bind].
      destruct key as [|k0 key0]; [congruence|]. set (key := k0 :: key0) in *.
      destruct (keyed_rows isnull lib t key) as [rows|e] eqn:Ek.
      2:{ exfalso. unfold keyed_rows in Ek. destruct (mapM _ (trows t)) as [|e'] eqn:Em; [discriminate|].
          rewrite (mapM_total _ (fun r => (match row_key (tcols t) key r with Ok k => k | Err _ => [] end, r))) in Em; [discriminate|].
          intros r I. destruct (values_exist (tcols t) r key (W r I) Hik) as [k Hkr].
          apply (rk_spec _ _ _ _ ND) in Hkr. rewrite Hkr. reflexivity. }
      assert (E' : exists g, (let! rows := Ok rows in
        let! aggregated :=
          mapM (fun k =>
            let members := map snd (filter (fun kr => eqb_of (fst kr) k) rows) in
            let! vals := mapM (fun n => agg_cell aggf t members (snd n)) named in
            Ok (k ++ vals)) (group_keys group_order rows) in
        if has_dups (key ++ map fst named) then Err (duplicate_error lib)
        else Ok {| tcols := key ++ map fst named; trows := aggregated |}) = Ok g /\
        tcols g = key ++ map output_key (list_prod cols ops)).
      2:{ destruct lib; [|exact E']. destruct named as [|n named']; [|exact E'].
          destruct (list_prod cols ops); [congruence|discriminate]. }
      cbn [bind].
      destruct (mapM _ (group_keys group_order rows)) as [aggd|e] eqn:Em; cbn [bind].
      2:{ exfalso. revert Em. rewrite Hnm.
          match goal with |- mapM ?f _ = _ -> _ => set (fn := f) end.
          assert (G : forall ks, (forall k, In k ks -> exists b, fn k = Ok b) -> exists bs, mapM fn ks = Ok bs).
          { induction ks as [|k ks IH]; intros Hks; simpl; [eexists; reflexivity|].
            destruct (Hks k (or_introl eq_refl)) as [b Eb]. rewrite Eb. cbn [bind].
            destruct IH as [bs Ebs]; [intros k' I; apply Hks; right; exact I|]. rewrite Ebs. eexists. reflexivity. }
          destruct (G (group_keys group_order rows)) as [bs Ebs]; [|congruence].
          intros k I. unfold fn. cbv zeta.
          assert (Ik : In k (map fst rows)).
          { apply (nodup_In (eqd (A := list V))). apply (Permutation_in _ (group_order_perm _)). exact I. }
          set (members := map snd (filter (fun kr => eqb_of (fst kr) k) rows)).
          assert (Hm : members <> []).
          { apply in_map_iff in Ik. destruct Ik as ([k' r] & Er & Ir). cbn [fst] in Er. subst k'.
            intros Z. assert (In r members) as Im.
            { unfold members. apply in_map_iff. exists (k, r). split; [reflexivity|]. apply filter_In. split; [exact Ir|].
              apply eqb_of_refl. } rewrite Z in Im. destruct Im. }
          assert (Hin : forall r, In r members -> In r (trows t)).
          { intros r Im. unfold members in Im. apply in_map_iff in Im. destruct Im as ([k' r'] & Er & Ir).
            cbn [snd] in Er. subst r'. apply filter_In in Ir. destruct Ir as [Ir _].
            unfold keyed_rows in Ek. destruct (mapM _ (trows t)) as [all|] eqn:Ea; cbn [bind] in Ek; [|discriminate].
            assert (In (k', r) all) as Ia.
            { destruct lib; injection Ek as <-; [apply filter_In in Ir; tauto|exact Ir]. }
            apply mapM_Forall2 in Ea. destruct (Forall2_in_r _ _ _ _ Ea Ia) as (r0 & I0 & E0).
            destruct (row_key (tcols t) key r0); cbn [bind] in E0; [|discriminate]. injection E0 as _ <-. exact I0. }
          assert (Hv : exists vals, mapM (fun n : string * (string * string) => agg_cell aggf t members (snd n))
                         (map (fun p => (output_key p, p)) (list_prod cols ops)) = Ok vals).
          { rewrite mapM_map. cbn [snd].
            assert (G2 : forall ps, (forall q, In q ps -> In q (list_prod cols ops)) ->
                      exists vals, mapM (fun q => agg_cell aggf t members q) ps = Ok vals).
            { induction ps as [|q ps IH]; intros Hps; simpl; [eexists; reflexivity|].
              assert (Iq : In (fst q) cols /\ In (snd q) ops).
              { destruct q as [c o]. apply in_prod_iff. apply Hps. left. reflexivity. }
              destruct IH as [bs Ebs']; [intros q' I'; apply Hps; right; exact I'|]. unfold agg_cell.
              rewrite (mapM_total _ (fun r => match cell (tcols t) r (fst q) with Some v => v | None => null end)).
              2:{ intros r Im. destruct (values_exist (tcols t) r [fst q]) as [kk Hkk].
                  - apply W, Hin, Im.
                  - intros c [<-|[]]. apply Hic. tauto.
                  - inversion Hkk as [|? v ? ? Hv _]; subst. apply (cell_spec _ _ _ _ ND) in Hv. rewrite Hv. reflexivity. }
              cbn [bind].
              destruct (Hagg (snd q) (map (fun r => match cell (tcols t) r (fst q) with Some v => v | None => null end) members))
                as [v Ev]; [tauto|destruct members; [congruence|discriminate]|].
              rewrite Ev. cbn [bind]. unfold agg_cell in Ebs'. rewrite Ebs'. eexists. reflexivity. }
            destruct (G2 (list_prod cols ops)) as [vals Ev]; [auto|]. exists vals. exact Ev. }
          destruct Hv as [vals Ev]. rewrite Ev. eexists. reflexivity. }
      rewrite Hnm, map_map. cbn [fst].
      assert (N1 : NoDup (key ++ map (fun p => output_key p) (list_prod cols ops))).
      { apply NoDup_app_intro; [exact Nk| |].
        - pose proof (result_names_distinct "" cols ops Nc No Hs) as N.
          erewrite map_ext in N; [exact N|]. intros q. rewrite result_name_output, sapp_nil_r. reflexivity.
        - intros x I1 I2. apply in_map_iff in I2. destruct I2 as (q & <- & I2).
          apply (proj1 (Hcl q I2)). rewrite result_name_output, sapp_nil_r. exact I1. }
      rewrite (proj2 (has_dups_false _) N1). eexists. split; reflexivity. }
    destruct Ep as (g & Eg & Etg). rewrite Eg. cbn [bind]. destruct lib; [eexists; reflexivity|].
    rewrite (proj2 (has_dups_false _)); [eexists; reflexivity|]. rewrite Etg, map_app, map_map.
    apply NoDup_app_intro.
    - erewrite map_ext_in; [rewrite map_id; exact Nk|]. intros c I. apply mem_true in I. cbn beta. rewrite I. reflexivity.
    - pose proof (result_names_distinct suffix cols ops Nc No Hs) as N.
      erewrite map_ext_in in N; [exact N|]. intros q I. cbn beta.
      rewrite (proj2 (mem_false _ _)); [apply result_name_output|].
      intros J. apply (proj1 (Hcl q I)). rewrite result_name_output, sapp_nil_r. exact J.
    - intros x I1 I2. apply in_map_iff in I1. destruct I1 as (c & Ec & I1).
      rewrite (proj2 (mem_true _ _) I1) in Ec. subst x.
      apply in_map_iff in I2. destruct I2 as (q & Eq & I2).
      assert (En : mem (output_key q) key = false).
      { apply mem_false. intros J. apply (proj1 (Hcl q I2)). rewrite result_name_output, sapp_nil_r. exact J. }
      rewrite En in Eq. apply (proj2 (Hcl q I2)). rewrite result_name_output, Eq. exact I1.
  Qed.

  Theorem fit_succeeds : forall draw is_numeric p X aux mk ak cols ops,
    AuxIs p X aux -> KeysAre p mk ak -> ColsAre p aux ak cols -> OpsAre p ops ->
    WFTable X -> WFTable aux -> NoDup cols -> NoDup ops -> NoDup ak ->
    (forall op, In op ops -> In op SUPPORTED_OPS) ->
    ak <> [] -> cols <> [] -> ops <> [] ->
    (forall c, In c mk -> In c (tcols X)) -> (forall c, In c ak -> In c (tcols aux)) ->
    (forall c, In c cols -> In c (tcols aux)) ->
    numeric_if_needed is_numeric ak cols ops ->
    (forall q, In q (list_prod cols ops) -> ~ In (result_name "" q) ak /\ ~ In (result_name (p_suffix p) q) ak) ->
    (forall op vs, In op ops -> vs <> [] -> exists v, aggf op vs = Ok v) ->
    Fresh draw (length ak + length (list_prod cols ops))
          (ak ++ map (result_name (p_suffix p)) (list_prod cols ops)) (tcols X) ->
    exists f out, fit draw is_numeric p X = Ok (f, out).
  Proof.
    intros draw is_numeric p X aux mk ak cols ops HA HK HC HO WX WA Nc No Nk Hs Hak Hcols Hops I1 I2 I3 Hn Hcl Hagg F.
    destruct (aggregate_total is_numeric aux ak cols ops (p_suffix p) WA Nc No Hs Hak Nk Hcols Hops I2 I3 Hn Hcl Hagg)
      as [agg Ea].
    destruct (join_spec draw is_numeric X aux mk ak cols ops (p_suffix p) agg WX WA Nc No Hs
                (fun _ q Iq => proj2 (Hcl q Iq)) I1 (KeysAre_length _ _ _ HK) I2 F Ea) as (out & Ej & _).
    unfold fit_transform.
    assert (EA : match p_aux_table p with AuxX => Ok X | AuxTable t => Ok t | AuxOther => Err ValueError end = Ok aux).
    { destruct HA as [[-> ->]| ->]; reflexivity. }
    rewrite EA. cbn [bind]. apply check_key_iff in HK. rewrite HK. cbn [bind].
    rewrite (proj2 (proj1 (check_missing_spec _ _)) I1). cbn [bind].
    rewrite (proj2 (proj1 (check_missing_spec _ _)) I2). cbn [bind]. cbv zeta.
    assert (EC : (if is_none (p_cols p) then set_order (filter (fun c => negb (mem c ak)) (tcols aux))
                  else atleast_1d_or_none (p_cols p)) = cols).
    { destruct HC as [[-> ->]|[N ->]]; [reflexivity|]. destruct (p_cols p); [congruence|reflexivity..]. }
    rewrite EC. rewrite (proj2 (proj1 (check_missing_spec _ _)) I3). cbn [bind].
    unfold OpsAre in HO. unfold check_operations. rewrite <- HO. destruct ops as [|o ops']; [congruence|].
    replace (forallb (fun op => mem op SUPPORTED_OPS) (o :: ops')) with true.
    2:{ symmetry. apply forallb_forall. intros op I. apply mem_true, Hs, I. }
    cbn [bind]. rewrite Ea. cbn [bind]. rewrite Ej. cbn [bind]. eauto.
  Qed.

  (** ** Failures *)
  Theorem fit_refuses : forall draw is_numeric p X aux mk ak cols ops,
    (p_aux_table p = AuxOther -> fit draw is_numeric p X = Err ValueError) /\
    (AuxIs p X aux -> (forall m a, ~ KeysAre p m a) -> fit draw is_numeric p X = Err ValueError) /\
    (AuxIs p X aux -> KeysAre p mk ak -> ColsAre p aux ak cols -> OpsAre p ops ->
     ((exists c, In c mk /\ ~ In c (tcols X)) \/ (exists c, In c ak /\ ~ In c (tcols aux)) \/
      (exists c, In c cols /\ ~ In c (tcols aux)) \/ ops = [] \/
      (exists op, In op ops /\ ~ In op SUPPORTED_OPS)) ->
     fit draw is_numeric p X = Err ValueError) /\
    (AuxIs p X aux -> KeysAre p mk ak -> ColsAre p aux ak cols -> OpsAre p ops ->
     (forall c, In c mk -> In c (tcols X)) -> (forall c, In c ak -> In c (tcols aux)) ->
     (forall c, In c cols -> In c (tcols aux)) -> (forall op, In op ops -> In op SUPPORTED_OPS) ->
     (exists op, In op ops /\ In op ["sum"; "median"; "mean"; "std"]) ->
     (exists c, In c cols /\ ~ In c ak /\ is_numeric c = false) ->
     fit draw is_numeric p X = Err AttributeError).
  Proof.
    intros draw is_numeric p X aux mk ak cols ops.
    assert (EA : AuxIs p X aux ->
      match p_aux_table p with AuxX => Ok X | AuxTable t => Ok t | AuxOther => Err ValueError end = Ok aux).
    { intros [[-> ->]| ->]; reflexivity. }
    assert (EC : ColsAre p aux ak cols ->
      (if is_none (p_cols p) then set_order (filter (fun c => negb (mem c ak)) (tcols aux))
                  else atleast_1d_or_none (p_cols p)) = cols).
    { intros [[-> ->]|[N ->]]; [reflexivity|]. destruct (p_cols p); [congruence|reflexivity..]. }
    assert (CM : forall cs ks, check_missing_columns cs ks = Ok tt \/ check_missing_columns cs ks = Err ValueError).
    { intros cs ks. unfold check_missing_columns. destruct (filter _ ks); auto. }
    unfold fit_transform. split; [intros ->; reflexivity|]. split; [|split].
    - intros HA HN. rewrite (EA HA). cbn [bind].
      destruct (check_key (p_main_key p) (p_aux_key p) (p_key p)) as [[m a]|e] eqn:E.
      + exfalso. apply (HN m a). apply check_key_iff. exact E.
      + cbn [bind]. unfold check_key in E.
        destruct (p_main_key p), (p_aux_key p), (p_key p); cbn -[length] in E;
          try (destruct (_ =? _) in E; cbn -[length] in E); congruence.
    - intros HA HK HC HO HB. rewrite (EA HA). cbn [bind]. apply check_key_iff in HK. rewrite HK. cbn [bind].
      destruct (CM (tcols X) mk) as [E1|E1]; rewrite E1; cbn [bind]; [|reflexivity].
      destruct (CM (tcols aux) ak) as [E2|E2]; rewrite E2; cbn [bind]; [|reflexivity]. cbv zeta. rewrite (EC HC).
      destruct (CM (tcols aux) cols) as [E3|E3]; rewrite E3; cbn [bind]; [|reflexivity].
      pose proof (proj1 (proj1 (check_missing_spec _ _)) E1) as E1'.
      pose proof (proj1 (proj1 (check_missing_spec _ _)) E2) as E2'.
      pose proof (proj1 (proj1 (check_missing_spec _ _)) E3) as E3'.
      destruct HB as [(c & A & B)|[(c & A & B)|[(c & A & B)|HB]]].
      + exfalso. apply B, E1', A.
      + exfalso. apply B, E2', A.
      + exfalso. apply B, E3', A.
      + unfold check_operations. unfold OpsAre in HO. rewrite <- HO.
        destruct ops as [|o ops']; [reflexivity|]. destruct HB as [HB|(op & A & B)]; [discriminate|].
        destruct (forallb _ (o :: ops')) eqn:Ef; [|reflexivity]. exfalso. rewrite forallb_forall in Ef.
        apply B, mem_true, Ef, A.
    - intros HA HK HC HO I1 I2 I3 Hs (op & Io & Ho) (c & Ic & Nc & Hc).
      rewrite (EA HA). cbn [bind]. apply check_key_iff in HK. rewrite HK. cbn [bind].
      rewrite (proj2 (proj1 (check_missing_spec _ _)) I1). cbn [bind].
      rewrite (proj2 (proj1 (check_missing_spec _ _)) I2). cbn [bind]. cbv zeta. rewrite (EC HC).
      rewrite (proj2 (proj1 (check_missing_spec _ _)) I3). cbn [bind].
      unfold OpsAre in HO. unfold check_operations. rewrite <- HO. destruct ops as [|o ops']; [destruct Io|].
      replace (forallb (fun op => mem op SUPPORTED_OPS) (o :: ops')) with true.
      2:{ symmetry. apply forallb_forall. intros op' I. apply mem_true, Hs, I. }
      cbn [bind]. unfold aggregate.
      assert (In c (filter (fun c => negb (is_numeric c))
               (filter (fun c => negb (mem c ak)) (filter (fun c => mem c ak || mem c cols) (tcols aux))))) as J1.
      { rewrite !filter_In. split; [split; [split|]|].
        - apply I3, Ic.
        - rewrite (proj2 (mem_true _ _) Ic). apply orb_true_r.
        - rewrite (proj2 (mem_false _ _) Nc). reflexivity.
        - rewrite Hc. reflexivity. }
      assert (In op (filter (fun op => mem op NUM_ONLY_OPS) (o :: ops'))) as J2.
      { apply filter_In. split; [exact Io|]. apply mem_true. exact Ho. }
      cbv zeta. destruct (filter (fun c => negb (is_numeric c)) _) as [|x xs]; [destruct J1|].
      destruct (filter (fun op => mem op NUM_ONLY_OPS) (o :: ops')) as [|y ys]; [destruct J2|]. reflexivity.
  Qed.

  (** ** AggTarget *)
  Definition TAttached (X0 y X : table V) (mk : list string) (pairs : list (string * string)) (l vals : list V) : Prop :=
    exists k, ValuesAt (tcols X) l mk k /\
      ((NoNull isnull k /\
        exists sel, Selected (fun xy => ValuesAt (tcols X0) (fst xy) mk k) (combine (trows X0) (trows y)) sel /\
                    sel <> [] /\ Computed aggf y (map snd sel) pairs vals) \/
       ((~ NoNull isnull k \/ (forall r, In r (trows X0) -> ~ ValuesAt (tcols X0) r mk k)) /\
        vals = repeat null (length pairs))).

  Lemma set_cells_new : forall key k cols (row : list V), length row = length cols ->
    NoDup key -> (forall c, In c key -> ~ In c cols) -> length k = length key ->
    set_cells cols row (combine key k) = (cols ++ key, row ++ k).
  Proof.
    assert (G : forall cols (row : list V) c v, length row = length cols -> ~ In c cols ->
              set_cell cols row c v = (cols ++ [c], row ++ [v])).
    { induction cols as [|a cols IH]; intros row c v L N; destruct row as [|x row]; try discriminate; simpl; [reflexivity|].
      destruct (eqd c a) as [E|_]; [exfalso; apply N; left; congruence|].
      rewrite IH; [reflexivity|simpl in L; lia|intros I; apply N; right; exact I]. }
    unfold set_cells. induction key as [|c key IH]; intros k cols row L N D Lk; destruct k as [|v k]; try discriminate.
    - simpl. rewrite !app_nil_r. reflexivity.
    - cbn [combine fold_left fst snd]. rewrite G; [|exact L|apply D; left; reflexivity]. cbn [fst snd].
      inversion N as [|? ? N1 N2]; subst. rewrite IH.
      + rewrite <- !app_assoc. reflexivity.
      + rewrite !app_length. simpl. lia.
      + exact N2.
      + intros c' I J. apply in_app_or in J. destruct J as [J|[->|[]]]; [exact (D c' (or_intror I) J)|contradiction].
      + simpl in Lk. lia.
  Qed.

  Lemma target_table_spec : forall (X y : table V) mk, WFTable X -> WFTable y -> length (trows y) = length (trows X) ->
    NoDup mk -> (forall c, In c mk -> In c (tcols X)) -> (forall c, In c mk -> ~ In c (tcols y)) ->
    exists yk, target_table X y mk = Ok yk /\ tcols yk = tcols y ++ mk /\ WFTable yk /\
      Forall2 (fun xy r => exists k, ValuesAt (tcols X) (fst xy) mk k /\ r = snd xy ++ k)
              (combine (trows X) (trows y)) (trows yk).
  Proof.
    intros X y mk [NX WX] [NY WY] L Nk Hk Dk. unfold target_table. rewrite L, Nat.eqb_refl. cbn [negb].
    assert (HX : forall xy, In xy (combine (trows X) (trows y)) -> In (fst xy) (trows X) /\ In (snd xy) (trows y)).
    { intros [x yr] I. split; [apply in_combine_l in I|apply in_combine_r in I]; exact I. }
    set (K := fun x : list V => match row_key (tcols X) mk x with Ok k => k | Err _ => [] end).
    assert (HK : forall x, In x (trows X) -> row_key (tcols X) mk x = Ok (K x) /\ ValuesAt (tcols X) x mk (K x)).
    { intros x I. destruct (values_exist (tcols X) x mk (WX x I) Hk) as [k Hkx].
      pose proof Hkx as Hr. apply (rk_spec _ _ _ _ NX) in Hr. unfold K. rewrite Hr. auto. }
    rewrite (mapM_total _ (fun xy => snd xy ++ K (fst xy))).
    2:{ intros xy I. destruct (HX xy I) as [I1 I2]. destruct (HK _ I1) as [E1 E2]. rewrite E1. cbn [bind].
        rewrite set_cells_new; [reflexivity|apply WY, I2|exact Nk|exact Dk|].
        symmetry. apply (Forall2_len _ _ _ E2). }
    cbn [bind]. eexists. split; [reflexivity|]. cbn [tcols trows].
    assert (EF : nodup eqd (filter (fun k => negb (mem k (tcols y))) mk) = mk).
    { assert (E1 : filter (fun k => negb (mem k (tcols y))) mk = mk).
      { clear -Dk. induction mk as [|c l IH]; simpl; [reflexivity|].
        rewrite (proj2 (mem_false _ _) (Dk c (or_introl eq_refl))). simpl. f_equal. apply IH. intros c' I. apply Dk. right. exact I. }
      rewrite E1. apply nodup_fixed_point. exact Nk. }
    rewrite EF. split; [reflexivity|]. split.
    - split; cbn [tcols trows].
      + apply NoDup_app_intro; [exact NY|exact Nk|]. intros c I J. exact (Dk c J I).
      + intros r I. apply in_map_iff in I. destruct I as (xy & <- & I). destruct (HX xy I) as [I1 I2].
        rewrite !app_length, (WY _ I2). f_equal. symmetry. apply (Forall2_len _ _ _ (proj2 (HK _ I1))).
    - assert (G : forall l, (forall xy, In xy l -> In xy (combine (trows X) (trows y))) ->
               Forall2 (fun xy r => exists k, ValuesAt (tcols X) (fst xy) mk k /\ r = snd xy ++ k) l
                 (map (fun xy => snd xy ++ K (fst xy)) l)).
      { induction l as [|xy l IH]; intros Hl; simpl; constructor.
        - exists (K (fst xy)). split; [|reflexivity]. apply HK, HX, Hl. left. reflexivity.
        - apply IH. intros xy' I. apply Hl. right. exact I. }
      apply G. auto.
  Qed.

  Lemma attached_target : forall X0 y X mk pairs yk l vals, WFTable X0 -> WFTable y ->
    length (trows y) = length (trows X0) ->
    tcols yk = tcols y ++ mk -> WFTable yk -> (forall q, In q pairs -> In (fst q) (tcols y)) ->
    Forall2 (fun xy r => exists k, ValuesAt (tcols X0) (fst xy) mk k /\ r = snd xy ++ k)
              (combine (trows X0) (trows y)) (trows yk) ->
    Attached null isnull aggf X yk mk mk pairs l vals -> TAttached X0 y X mk pairs l vals.
  Proof.
    intros X0 y X mk pairs yk l vals WX WY L Et [NDk Wk] Hp F (k & Hkl & H). exists k. split; [exact Hkl|].
    assert (HX : forall xy, In xy (combine (trows X0) (trows y)) -> In (snd xy) (trows y)).
    { intros [x yr] I. apply in_combine_r in I. exact I. }
    assert (HK : forall xy r, In xy (combine (trows X0) (trows y)) ->
              (exists k, ValuesAt (tcols X0) (fst xy) mk k /\ r = snd xy ++ k) ->
              (forall k', ValuesAt (tcols X0) (fst xy) mk k' <-> ValuesAt (tcols yk) r mk k') /\
              (forall c v, In c (tcols y) -> ValueAt (tcols yk) r c v -> ValueAt (tcols y) (snd xy) c v)).
    { intros xy r I (k1 & H1 & ->). assert (L1 : length k1 = length mk) by (symmetry; apply (Forall2_len _ _ _ H1)).
      assert (L2 : length (snd xy) = length (tcols y)) by (apply (proj2 WY), HX, I).
      destruct (ValuesAt_split (tcols y) mk (snd xy) k1 L2 L1) as [_ S]. rewrite <- Et in S. split.
      - intros k'. split; intros H'.
        + assert (k' = k1) by (eapply ValuesAt_det; [exact (proj1 WX)|exact H'|exact H1]). subst. exact S.
        + assert (k' = k1) by (eapply ValuesAt_det; [exact NDk|exact H'|exact S]). subst. exact H1.
      - intros c v Ic (i & E1 & E2). destruct (In_nth_error _ _ Ic) as [j Ej].
        assert (Ej' : nth_error (tcols yk) j = Some c).
        { rewrite Et, nth_error_app1; [exact Ej|]. apply nth_error_Some. congruence. }
        assert (i = j).
        { apply (NoDup_nth_error (tcols yk)); [exact NDk|apply nth_error_Some; congruence|congruence]. }
        subst. exists j. split; [exact Ej|]. rewrite nth_error_app1 in E2; [exact E2|].
        rewrite L2. apply nth_error_Some. congruence. }
    destruct H as [(Hn & rows & HS & Hne & HC)|[HN ->]].
    - left. split; [exact Hn|].
      assert (G : forall xys rs, Forall2 (fun xy r => exists k, ValuesAt (tcols X0) (fst xy) mk k /\ r = snd xy ++ k) xys rs ->
                (forall xy, In xy xys -> In xy (combine (trows X0) (trows y))) ->
                forall rows, Selected (fun r => ValuesAt (tcols yk) r mk k) rs rows ->
                exists sel, Selected (fun xy => ValuesAt (tcols X0) (fst xy) mk k) xys sel /\
                  Forall2 (fun (xy : list V * list V) r => forall c v, In c (tcols y) -> ValueAt (tcols yk) r c v -> ValueAt (tcols y) (snd xy) c v) sel rows).
      { intros xys rs FF. induction FF as [|xy r xys rs Hxy FF IH]; intros Hin rows' HS'.
        - inversion HS'; subst. exists []. split; constructor.
        - destruct (HK xy r (Hin xy (or_introl eq_refl)) Hxy) as [K1 K2].
          inversion HS' as [|? ? s Px HS1|? ? s Px HS1]; subst.
          + destruct (IH (fun xy' I => Hin xy' (or_intror I)) s HS1) as (sel & S1 & S2).
            exists (xy :: sel). split; [constructor; [apply K1; exact Px|exact S1]|constructor; assumption].
          + destruct (IH (fun xy' I => Hin xy' (or_intror I)) rows' HS1) as (sel & S1 & S2).
            exists sel. split; [apply Sel_skip; [intros Q; apply Px, K1, Q|exact S1]|exact S2]. }
      destruct (G _ _ F (fun _ I => I) rows HS) as (sel & S1 & S2). exists sel. split; [exact S1|]. split.
      + intros ->. inversion S2; subst. congruence.
      + unfold Computed in *. apply (fun Hh => Forall2_impl_in _ _ _ _ Hh HC).
        intros q v Iq _ (vs & Hvs & Ev). exists vs. split; [|exact Ev].
        specialize (Hp q Iq). clear -Hvs S2 Hp. revert vs Hvs. induction S2 as [|xy r sel rows Hxy S2 IH]; intros vs Hvs;
          inversion Hvs; subst; simpl; constructor; auto.
    - right. split; [|reflexivity]. destruct HN as [HN|HN]; [left; exact HN|right].
      intros r Ir Hr. destruct (In_nth_error _ _ Ir) as [i Ei].
      destruct (nth_error (trows y) i) as [yr|] eqn:Ey.
      2:{ apply nth_error_None in Ey. assert (i < length (trows X0)) by (apply nth_error_Some; congruence). lia. }
      assert (Ic : In (r, yr) (combine (trows X0) (trows y))).
      { clear -Ei Ey. revert i Ei Ey. generalize (trows y). induction (trows X0) as [|a l IH]; intros l' i Ei Ey;
          [destruct i; discriminate|]. destruct l' as [|b l']; [destruct i; discriminate|].
        destruct i as [|i]; simpl in Ei, Ey; [left; congruence|]. right. eapply IH; eassumption. }
      destruct (Forall2_in_l _ _ _ _ F Ic) as (r' & Ir' & Hr').
      apply (HN r' Ir'). apply (proj1 (HK _ _ Ic Hr')). exact Hr.
  Qed.

  Theorem target_fit_spec : forall draw is_numeric p X y f out mk ops,
    target_fit_transform null isnull lib group_order aggf draw is_numeric p X y = Ok (f, out) ->
    mk = atleast_1d_or_none (t_main_key p) -> ops = atleast_1d_or_none (t_operations p) ->
    WFTable X -> WFTable y -> NoDup ops -> NoDup mk ->
    (forall c, In c mk -> ~ In c (tcols y)) ->
    (lib = Pandas -> forall q, In q (list_prod (tcols y) ops) -> ~ In (result_name (t_suffix p) q) mk) ->
    Fresh draw (length mk + length (list_prod (tcols y) ops))
          (mk ++ map (result_name (t_suffix p)) (list_prod (tcols y) ops)) (tcols X) ->
    (exists names, tcols out = tcols X ++ names /\ length names = length (list_prod (tcols y) ops)) /\
    NoDup (tcols out) /\
    Forall2 (fun l o => exists vals, o = l ++ vals /\
               TAttached X y X mk (list_prod (tcols y) ops) l vals)
            (trows X) (trows out) /\
    (forall draw' X', WFTable X' -> tcols X' = tcols X ->
       Fresh draw' (length mk + length (list_prod (tcols y) ops))
          (mk ++ map (result_name (t_suffix p)) (list_prod (tcols y) ops)) (tcols X) ->
       exists out', apply_fitted draw' f X' = Ok out' /\ tcols out' = tcols out /\
         Forall2 (fun l o => exists vals, o = l ++ vals /\
               TAttached X y X' mk (list_prod (tcols y) ops) l vals)
            (trows X') (trows out')).
  Proof.
    intros draw is_numeric p X y f out mk ops E Emk Eops WX WY No Nk Dk Hcl F.
    unfold target_fit_transform in E. cbv zeta in E. rewrite <- Emk in E.
    destruct (check_missing_columns (tcols X) mk) as [[]|] eqn:E1; cbn [bind] in E; [|discriminate].
    pose proof (proj1 (proj1 (check_missing_spec _ _)) E1) as Hmk.
    destruct (check_operations (t_operations p)) as [ops'|] eqn:E4; cbn [bind] in E; [|discriminate].
    apply check_operations_ok in E4. destruct E4 as (E4 & E5 & Hs).
    rewrite <- Eops in E4. subst ops'.
    destruct (target_table X y mk) as [yk|] eqn:Ey; cbn [bind] in E; [|discriminate].
    assert (L : length (trows y) = length (trows X)).
    { unfold target_table in Ey. destruct (length (trows y) =? length (trows X)) eqn:El; [|discriminate].
      apply Nat.eqb_eq. exact El. }
    destruct (target_table_spec X y mk WX WY L Nk Hmk Dk) as (yk' & Ey' & Tc & Wk & FF).
    assert (yk' = yk) by congruence. subst yk'.
    destruct (aggregate _ _ _ _ _ _ _ _ _ _) as [agg|] eqn:Eg in E; cbn [bind] in E; [|discriminate].
    destruct (left_join _ _ _ _ _ _ _ _) as [res|] eqn:Ej in E; cbn [bind] in E; [|discriminate].
    injection E as <- <-.
    assert (Hak : forall c, In c mk -> In c (tcols yk)).
    { intros c I. rewrite Tc. apply in_or_app. right. exact I. }
    assert (Hpairs : forall q, In q (list_prod (tcols y) ops) -> In (fst q) (tcols y)).
    { intros [a b] I. apply in_prod_iff in I. tauto. }
    destruct (join_spec draw is_numeric X yk mk mk (tcols y) ops (t_suffix p) agg WX Wk (proj1 WY) No Hs Hcl Hmk
                eq_refl Hak F Eg) as (out' & J1 & (names & J2 & J2' & _) & J3 & J4).
    assert (out' = res) by congruence. subst out'.
    split; [exists names; auto|]. split; [exact J3|]. split.
    - apply (fun Hh => Forall2_impl_in _ _ _ _ Hh J4). intros l o _ _ (vals & -> & HA). exists vals. split; [reflexivity|].
      eapply attached_target; eassumption.
    - intros draw' X' WX' Ec F'. rewrite <- Ec in F'.
      assert (Hmk' : forall c, In c mk -> In c (tcols X')) by (rewrite Ec; exact Hmk).
      destruct (join_spec draw' is_numeric X' yk mk mk (tcols y) ops (t_suffix p) agg WX' Wk (proj1 WY) No Hs Hcl Hmk'
                eq_refl Hak F' Eg) as (out' & K1 & (names' & K2 & K2' & _) & K3 & K4).
      unfold M_agg.transform. cbn [f_features_in f_aggregated f_main_key f_aux_key f_outputs].
      rewrite (proj2 (eqb_of_true _ _) Ec). cbn [negb]. rewrite K1. cbn [bind]. unfold rename_all.
      rewrite K2, J2, !app_length, J2', K2', Ec, Nat.eqb_refl.
      eexists. split; [reflexivity|]. split; [reflexivity|]. cbn [trows].
      apply (fun Hh => Forall2_impl_in _ _ _ _ Hh K4). intros l o _ _ (vals & -> & HA). exists vals. split; [reflexivity|].
      eapply attached_target; [exact WX|exact WY|exact L|exact Tc|exact Wk|exact Hpairs|exact FF|exact HA].
  Qed.
End Joiners.
