(** Specification of aggregation joins, and lemmas. *)
From Verif Require Import Base M_names M_oncols M_agg L_names L_leftjoin L_dict L_tablevec4 L_tablevec3.
From Coq Require Import Permutation.
Open Scope string_scope.
Open Scope list_scope.
Open Scope nat_scope.

(** ** Specification *)

(** [s] is the sublist of the elements of [l] that satisfy [P]. *)
Inductive Selected {A} (P : A -> Prop) : list A -> list A -> Prop :=
| Sel_nil : Selected P [] []
| Sel_keep x l s : P x -> Selected P l s -> Selected P (x :: l) (x :: s)
| Sel_skip x l s : ~ P x -> Selected P l s -> Selected P (x :: l) s.

(** The name given to the result of operation [snd p] on column [fst p]. *)
Definition result_name (suffix : string) (p : string * string) : string :=
  (fst p ++ "_" ++ snd p ++ suffix)%string.

Section Spec.
  Context {V : Type}.
  Variable null : V.
  Variable isnull : V -> bool.
  Variable aggf : string -> list V -> res V.

  Definition NoNull (k : list V) : Prop := forall v, In v k -> isnull v = false.

  (** The values computed from [rows] of [t], one by (column, operation). *)
  Definition Computed (t : table V) (rows : list (list V)) (pairs : list (string * string)) (vals : list V) : Prop :=
    Forall2 (fun p v => exists vs,
               Forall2 (fun r x => ValueAt (tcols t) r (fst p) x) rows vs /\ aggf (snd p) vs = Ok v)
            pairs vals.

  (** What is attached to the row [l] of the main table: values computed from exactly the rows
      of [aux] that have the same key, nulls if there is none. *)
  Definition Attached (X aux : table V) (mk ak : list string) (pairs : list (string * string)) (l vals : list V) : Prop :=
    exists k, ValuesAt (tcols X) l mk k /\
      ((NoNull k /\
        exists rows, Selected (fun r => ValuesAt (tcols aux) r ak k) (trows aux) rows /\
                     rows <> [] /\ Computed aux rows pairs vals) \/
       ((~ NoNull k \/ (forall r, In r (trows aux) -> ~ ValuesAt (tcols aux) r ak k)) /\
        vals = repeat null (length pairs))).
End Spec.

(** ** Names *)
Fixpoint no_underscore (s : string) : Prop :=
  match s with EmptyString => True | String c s' => c <> "_"%char /\ no_underscore s' end.

Lemma no_underscore_app : forall s t, ~ no_underscore (s ++ String "_" t)%string.
Proof. induction s as [|c s IH]; intros t; simpl; [tauto|]. intros [_ X]. exact (IH t X). Qed.

Lemma underscore_inj : forall c1 c2 o1 o2, no_underscore o1 -> no_underscore o2 ->
  (c1 ++ "_" ++ o1)%string = (c2 ++ "_" ++ o2)%string -> c1 = c2 /\ o1 = o2.
Proof.
  induction c1 as [|a c1 IH]; intros c2 o1 o2 N1 N2 E.
  - destruct c2 as [|b c2]; simpl in E; injection E.
    + auto.
    + intros E2 _. exfalso. rewrite E2 in N1. exact (no_underscore_app _ _ N1).
  - destruct c2 as [|b c2]; simpl in E; injection E.
    + intros E2 _. exfalso. rewrite <- E2 in N2. exact (no_underscore_app _ _ N2).
    + intros E2 ->. destruct (IH c2 o1 o2 N1 N2 E2) as [-> ->]. auto.
Qed.

Lemma supported_no_underscore : forall op, In op SUPPORTED_OPS -> no_underscore op.
Proof.
  intros op I. simpl in I. repeat (destruct I as [<-|I]; [simpl; repeat split; discriminate|]). destruct I.
Qed.

Lemma sapp_inj_r : forall s a b, (a ++ s)%string = (b ++ s)%string -> a = b.
Proof.
  assert (L : forall a b, String.length (a ++ b) = String.length a + String.length b).
  { induction a as [|c a IH]; intros b; simpl; [reflexivity|]. rewrite IH. reflexivity. }
  intros s. induction a as [|c a IH]; intros b E.
  - destruct b as [|d b]; [reflexivity|]. exfalso. apply (f_equal String.length) in E.
    rewrite !L in E. simpl in E. lia.
  - destruct b as [|d b].
    + exfalso. apply (f_equal String.length) in E. rewrite !L in E. simpl in E. lia.
    + simpl in E. injection E as -> E. f_equal. apply IH. exact E.
Qed.

Lemma result_name_output : forall suffix p, result_name suffix p = (output_key p ++ suffix)%string.
Proof. intros suffix [c o]. unfold result_name, output_key. cbn [fst snd]. rewrite !sapp_assoc. reflexivity. Qed.

Lemma result_name_inj : forall suffix p q, In (snd p) SUPPORTED_OPS -> In (snd q) SUPPORTED_OPS ->
  result_name suffix p = result_name suffix q -> p = q.
Proof.
  intros suffix p q Ip Iq E. rewrite !result_name_output in E. apply sapp_inj_r in E.
  unfold output_key in E. apply underscore_inj in E; [|apply supported_no_underscore; assumption..].
  destruct p, q. cbn [fst snd] in E. destruct E as [-> ->]. reflexivity.
Qed.

Lemma NoDup_list_prod : forall (A B : Type) (l : list A) (l' : list B), NoDup l -> NoDup l' -> NoDup (list_prod l l').
Proof.
  intros A B l l' N N'. induction N as [|x l Nx N IH]; simpl; [constructor|].
  apply NoDup_app_intro.
  - apply FinFun.Injective_map_NoDup; [|exact N']. intros a b E. congruence.
  - exact IH.
  - intros p I1 I2. apply in_map_iff in I1. destruct I1 as (y & <- & _).
    apply in_prod_iff in I2. tauto.
Qed.

Lemma NoDup_map_in : forall (A B : Type) (f : A -> B) l,
  (forall x y, In x l -> In y l -> f x = f y -> x = y) -> NoDup l -> NoDup (map f l).
Proof.
  intros A B f l Inj N. induction N as [|x l Nx N IH]; simpl; [constructor|]. constructor.
  - intros I. apply in_map_iff in I. destruct I as (y & E & I).
    apply Nx. rewrite (Inj x y); [exact I|left; reflexivity|right; exact I|congruence].
  - apply IH. intros a b Ia Ib. apply Inj; right; assumption.
Qed.

Lemma result_names_distinct : forall suffix cols ops, NoDup cols -> NoDup ops ->
  (forall op, In op ops -> In op SUPPORTED_OPS) ->
  NoDup (map (result_name suffix) (list_prod cols ops)).
Proof.
  intros suffix cols ops Nc No Hs. apply NoDup_map_in; [|apply NoDup_list_prod; assumption].
  intros [a b] [c d] I1 I2 E. apply in_prod_iff in I1, I2. apply (result_name_inj suffix); [..|exact E];
    apply Hs; tauto.
Qed.

Lemma product_list_prod : forall cols ops, product cols ops = list_prod cols ops.
Proof. intros cols ops. induction cols as [|c cols IH]; simpl; [reflexivity|]. f_equal. exact IH. Qed.

Lemma has_dups_false : forall l, has_dups l = false <-> NoDup l.
Proof.
  induction l as [|x l IH]; simpl; [split; [constructor|reflexivity]|].
  rewrite orb_false_iff, mem_false, IH. split; [intros [A B]; constructor; assumption|intros N; inversion N; auto].
Qed.

(** ** Selecting *)
Lemma Selected_filter : forall (A : Type) (P : A -> Prop) (f : A -> bool) l,
  (forall x, In x l -> (f x = true <-> P x)) -> Selected P l (filter f l).
Proof.
  intros A P f. induction l as [|x l IH]; intros Hf; simpl; [constructor|].
  assert (IH' : Selected P l (filter f l)) by (apply IH; intros y I; apply Hf; right; exact I).
  pose proof (Hf x (or_introl eq_refl)) as Hx. destruct (f x).
  - constructor; [apply Hx; reflexivity|exact IH'].
  - apply Sel_skip; [|exact IH']. intros Px. apply Hx in Px. discriminate.
Qed.

Lemma mapM_map : forall A B C (f : B -> res C) (g : A -> B) l, mapM f (map g l) = mapM (fun x => f (g x)) l.
Proof. intros A B C f g l. induction l as [|x l IH]; simpl; [reflexivity|]. rewrite IH. reflexivity. Qed.

Lemma rk_spec : forall {V} cols on row (k : list V), NoDup cols ->
  (row_key cols on row = Ok k <-> ValuesAt cols row on k).
Proof. intros V. exact (row_key_spec (fun _ _ => true)). Qed.
Lemma cell_spec : forall {V} cols row c (v : V), NoDup cols ->
  (cell cols row c = Some v <-> ValueAt cols row c v).
Proof. intros V. exact (cell_ValueAt (fun _ _ => true)). Qed.
Lemma values_exist : forall {V} cols (row : list V) on, length row = length cols ->
  (forall c, In c on -> In c cols) -> exists k, ValuesAt cols row on k.
Proof. intros V. exact (ValuesAt_exists (fun _ _ => true)). Qed.

Section Aggregate.
  Context {V : Type} {EV : EqD V}.
  Variable null : V.
  Variable isnull : V -> bool.
  Variable lib : library.
  Variable group_order : list (list V) -> list (list V).
  Hypothesis group_order_perm : forall l, Permutation (group_order l) l.
  Variable aggf : string -> list V -> res V.

  Notation agg := (aggregate isnull lib group_order aggf).

  Lemma NoNull_existsb : forall k, existsb isnull k = false <-> NoNull isnull k.
  Proof.
    unfold NoNull. induction k as [|v k IH]; simpl; [intuition|].
    rewrite orb_false_iff, IH. split.
    - intros [A B] w [<-|I]; auto.
    - intros A. split; [apply A; left; reflexivity|]. intros w I. apply A. right. exact I.
  Qed.

  (** the keys that have a group *)
  Definition HasGroup (t : table V) (key : list string) (k : list V) : Prop :=
    (exists r, In r (trows t) /\ ValuesAt (tcols t) r key k) /\ (lib = Pandas -> NoNull isnull k).

  Lemma named_agg_spec : forall cols ops named, NoDup cols -> NoDup ops ->
    (forall op, In op ops -> In op SUPPORTED_OPS) ->
    named_agg lib cols ops = Ok named ->
    named = map (fun p => (output_key p, p)) (list_prod cols ops).
  Proof.
    intros cols ops named Nc No Hs. unfold named_agg. rewrite product_list_prod.
    destruct lib; intros E; injection E as <-; [|reflexivity].
    assert (HN : NoDup (map output_key (list_prod cols ops))).
    { pose proof (result_names_distinct "" cols ops Nc No Hs) as N.
      erewrite map_ext in N; [exact N|]. intros p. rewrite result_name_output.
      rewrite sapp_nil_r. reflexivity. }
    assert (G : forall l d, NoDup (map output_key l) ->
              (forall p, In p l -> ~ In (output_key p) (dkeys d)) ->
              fold_left (fun d p => dset (output_key p) p d) l d = d ++ map (fun p => (output_key p, p)) l).
    { induction l as [|p l IH]; intros d N Hd; simpl; [rewrite app_nil_r; reflexivity|].
      simpl in N. inversion N as [|? ? N1 N2]; subst.
      assert (Ed : dset (output_key p) p d = d ++ [(output_key p, p)]).
      { specialize (Hd p (or_introl eq_refl)). clear -Hd. induction d as [|[a b] d IHd]; simpl; [reflexivity|].
        simpl in Hd. destruct (eqd (output_key p) a) as [E|N]; [exfalso; apply Hd; left; congruence|].
        rewrite IHd; [reflexivity|]. intros I. apply Hd. right. exact I. }
      rewrite Ed, IH, <- app_assoc; [reflexivity|exact N2|].
      intros q I Iq. unfold dkeys in Iq. rewrite map_app in Iq. apply in_app_or in Iq.
      destruct Iq as [Iq|Iq]; [exact (Hd q (or_intror I) Iq)|].
      simpl in Iq. destruct Iq as [E|[]]. apply N1. apply in_map_iff. exists q. split; [congruence|exact I]. }
    rewrite G; [reflexivity|exact HN|]. intros p _ [].
  Qed.

  Lemma keyed_rows_spec : forall t key rows, NoDup (tcols t) ->
    keyed_rows isnull lib t key = Ok rows ->
    forall k, Selected (fun r => ValuesAt (tcols t) r key k) (trows t)
                (if match lib with Pandas => existsb isnull k | Polars => false end then
                   filter (fun r => match row_key (tcols t) key r with Ok k' => eqb_of k' k | Err _ => false end) (trows t)
                 else map snd (filter (fun kr => eqb_of (fst kr) k) rows)) /\
              (In k (map fst rows) <-> HasGroup t key k).
  Proof.
    intros t key rows ND E k. unfold keyed_rows in E.
    destruct (mapM _ (trows t)) as [all|e] eqn:Em; cbn [bind] in E; [|discriminate].
    apply mapM_Forall2 in Em.
    assert (HK : forall r, In r (trows t) -> exists k', row_key (tcols t) key r = Ok k' /\ In (k', r) all).
    { intros r I. destruct (Forall2_in_l _ _ _ _ Em I) as ([k' r'] & I' & Er).
      destruct (row_key (tcols t) key r) as [k''|] eqn:Ek; cbn [bind] in Er; [|discriminate].
      injection Er as -> ->. eauto. }
    assert (HK' : forall kr, In kr all -> In (snd kr) (trows t) /\ row_key (tcols t) key (snd kr) = Ok (fst kr)).
    { intros kr I. destruct (Forall2_in_r _ _ _ _ Em I) as (r & I' & Er).
      destruct (row_key (tcols t) key r) as [k''|] eqn:Ek; cbn [bind] in Er; [|discriminate].
      injection Er as <-. cbn [fst snd]. auto. }
    assert (EF : forall l : list (list V), (forall r, In r l -> In r (trows t)) ->
              Selected (fun r => ValuesAt (tcols t) r key k) l
              (filter (fun r => match row_key (tcols t) key r with Ok k' => eqb_of k' k | Err _ => false end) l)).
    { intros l Hl. apply Selected_filter. intros r I. rewrite <- (rk_spec (tcols t) key r k ND).
      destruct (HK r (Hl r I)) as (k' & Ek & _). rewrite Ek. rewrite eqb_of_true. split; congruence. }
    assert (EA : map snd (filter (fun kr => eqb_of (fst kr) k) all) =
                 filter (fun r => match row_key (tcols t) key r with Ok k' => eqb_of k' k | Err _ => false end) (trows t)).
    { clear -Em. induction Em as [|r kr l l' Er F IH]; [reflexivity|]. simpl.
      destruct (row_key (tcols t) key r) as [k'|] eqn:Ek; cbn [bind] in Er; [|discriminate].
      injection Er as <-. cbn [fst snd]. destruct (eqb_of k' k); simpl; congruence. }
    split.
    - destruct lib.
      + destruct (existsb isnull k) eqn:En; [apply EF; auto|]. injection E as <-.
        replace (filter (fun kr => eqb_of (fst kr) k) (filter _ all))
          with (filter (fun kr : list V * list V => eqb_of (fst kr) k) all).
        * rewrite EA. apply EF; auto.
        * clear -En. induction all as [|kr all IH]; [reflexivity|]. simpl.
          destruct (eqb_of (fst kr) k) eqn:Ek.
          -- apply (proj1 (eqb_of_true _ _)) in Ek. rewrite Ek, En. simpl. rewrite Ek, eqb_of_refl. f_equal. exact IH.
          -- destruct (negb (existsb isnull (fst kr))); simpl; rewrite ?Ek; exact IH.
      + injection E as <-. rewrite EA. apply EF; auto.
    - assert (G : forall P : Prop, (In k (map fst all) /\ P) <->
              ((exists r, In r (trows t) /\ ValuesAt (tcols t) r key k) /\ P)).
      { intros P. split; intros [A B]; (split; [|exact B]).
        - apply in_map_iff in A. destruct A as ([k' r] & Ek & I). cbn [fst] in Ek. subst.
          destruct (HK' _ I) as [Ir Er]. exists r. split; [exact Ir|]. apply (rk_spec _ _ _ _ ND). exact Er.
        - destruct A as (r & Ir & Hr). destruct (HK r Ir) as (k' & Ek & I).
          apply (rk_spec _ _ _ _ ND) in Hr. assert (k' = k) by congruence. subst.
          apply in_map_iff. exists (k, r). auto. }
      unfold HasGroup. rewrite <- G. destruct lib; injection E as <-.
      + rewrite !in_map_iff. split.
        * intros ([k' r] & Ek & I). apply filter_In in I. destruct I as [I Hn]. cbn [fst] in *. subst.
          split; [exists (k, r); auto|]. intros _. apply NoNull_existsb. apply negb_true_iff. exact Hn.
        * intros [([k' r] & Ek & I) Hn]. cbn [fst] in *. subst. exists (k, r). split; [reflexivity|].
          apply filter_In. split; [exact I|]. apply negb_true_iff, NoNull_existsb, Hn. reflexivity.
      + split; [intros A; split; [exact A|discriminate]|tauto].
  Qed.

  Lemma perform_groupby_spec : forall t key cols ops out, NoDup (tcols t) ->
    NoDup cols -> NoDup ops -> (forall op, In op ops -> In op SUPPORTED_OPS) ->
    perform_groupby isnull lib group_order aggf t key cols ops = Ok out ->
    tcols out = key ++ map output_key (list_prod cols ops) /\ NoDup (tcols out) /\ key <> [] /\
    exists keys, NoDup keys /\ (forall k, In k keys <-> HasGroup t key k) /\
      Forall2 (fun k row => exists rows vals, row = k ++ vals /\
                 Selected (fun r => ValuesAt (tcols t) r key k) (trows t) rows /\
                 Computed aggf t rows (list_prod cols ops) vals)
              keys (trows out).
  Proof.
    intros t key cols ops out ND Nc No Hs E. unfold perform_groupby in E.
    destruct (named_agg lib cols ops) as [named|] eqn:En; cbn [bind] in E; [|discriminate].
    pose proof (named_agg_spec cols ops named Nc No Hs En) as Hn. clear En.
    destruct key as [|k0 key0]; [discriminate|]. set (key := k0 :: key0) in *.
    assert (E' : (let! rows := keyed_rows isnull lib t key in
      let! aggregated :=
        mapM (fun k =>
          let members := map snd (filter (fun kr => eqb_of (fst kr) k) rows) in
          let! vals := mapM (fun n => agg_cell aggf t members (snd n)) named in
          Ok (k ++ vals)) (group_keys group_order rows) in
      if has_dups (key ++ map fst named) then Err (duplicate_error lib)
      else Ok {| tcols := key ++ map fst named; trows := aggregated |}) = Ok out).
    { destruct lib; [|exact E]. destruct named; [discriminate|exact E]. }
    clear E. destruct (keyed_rows isnull lib t key) as [rows|] eqn:Ek; cbn [bind] in E'; [|discriminate].
    destruct (mapM _ (group_keys group_order rows)) as [aggd|] eqn:Ea; cbn [bind] in E'; [|discriminate].
    destruct (has_dups (key ++ map fst named)) eqn:Ed; [discriminate|]. injection E' as <-. cbn [tcols trows].
    apply has_dups_false in Ed. rewrite Hn, map_map in Ed. cbn [fst] in Ed.
    split; [rewrite Hn, map_map; reflexivity|]. split; [rewrite Hn, map_map; exact Ed|]. split; [discriminate|].
    pose proof (group_order_perm (nodup (eqd (A := list V)) (map fst rows))) as Hp.
    fold (group_keys group_order rows) in Hp.
    exists (group_keys group_order rows). split; [|split].
    - apply (Permutation_NoDup (Permutation_sym Hp)). apply NoDup_nodup.
    - intros k. destruct (keyed_rows_spec t key rows ND Ek k) as [_ <-].
      rewrite <- (nodup_In (eqd (A := list V)) (map fst rows)). split; apply Permutation_in; [exact Hp|apply Permutation_sym; exact Hp].
    - apply mapM_Forall2 in Ea. apply (fun Hh => Forall2_impl_in _ _ _ _ Hh Ea). intros k row I _ Er.
      cbv zeta in Er. destruct (mapM _ named) as [vals|] eqn:Ev; cbn [bind] in Er; [|discriminate].
      injection Er as <-.
      destruct (keyed_rows_spec t key rows ND Ek k) as [HS HG].
      assert (IG : HasGroup t key k).
      { apply HG. rewrite <- (nodup_In (eqd (A := list V))). apply (Permutation_in _ Hp). exact I. }
      assert (Hb : match lib with Pandas => existsb isnull k | Polars => false end = false).
      { destruct IG as [_ IG]. destruct lib; [|reflexivity]. apply NoNull_existsb, IG. reflexivity. }
      rewrite Hb in HS. eexists _, vals. split; [reflexivity|]. split; [exact HS|].
      rewrite Hn, mapM_map in Ev. apply mapM_Forall2 in Ev. unfold Computed.
      apply (fun Hh => Forall2_impl_in _ _ _ _ Hh Ev). intros p v _ _ Ep. cbn [snd] in Ep. unfold agg_cell in Ep.
      destruct (mapM _ _) as [vs|] eqn:Em in Ep; cbn [bind] in Ep; [|discriminate].
      exists vs. split; [|exact Ep]. apply mapM_Forall2 in Em.
      apply (fun Hh => Forall2_impl_in _ _ _ _ Hh Em). intros r x _ _ Ex.
      destruct (cell (tcols t) r (fst p)) as [x'|] eqn:Ec; [|discriminate]. injection Ex as ->.
      apply (cell_spec _ _ _ _ ND). exact Ec.
  Qed.

  Lemma aggregate_spec : forall is_numeric t key cols ops suffix out, NoDup (tcols t) ->
    NoDup cols -> NoDup ops -> (forall op, In op ops -> In op SUPPORTED_OPS) ->
    (lib = Pandas -> forall p, In p (list_prod cols ops) -> ~ In (result_name suffix p) key) ->
    agg is_numeric t key cols ops suffix = Ok out ->
    tcols out = key ++ map (result_name suffix) (list_prod cols ops) /\ NoDup (tcols out) /\ key <> [] /\
    exists keys, NoDup keys /\ (forall k, In k keys <-> HasGroup t key k) /\
      Forall2 (fun k row => exists rows vals, row = k ++ vals /\
                 Selected (fun r => ValuesAt (tcols t) r key k) (trows t) rows /\
                 Computed aggf t rows (list_prod cols ops) vals)
              keys (trows out).
  Proof.
    intros is_numeric t key cols ops suffix out ND Nc No Hs Hcl E. unfold aggregate in E.
    set (nn := filter (fun c => negb (is_numeric c)) _) in E.
    set (no := filter (fun op => mem op NUM_ONLY_OPS) ops) in E.
    match type of E with match nn with [] => ?x | _ => _ end = _ => assert (E' : x = Ok out) end.
    { destruct nn; [exact E|]. destruct no; [exact E|discriminate]. }
    clear E. destruct (perform_groupby isnull lib group_order aggf t key cols ops) as [g|] eqn:Eg;
      cbn [bind] in E'; [|discriminate].
    destruct (perform_groupby_spec t key cols ops g ND Nc No Hs Eg) as (E1 & N1 & Hk & keys & E2).
    rewrite E1 in *.
    assert (EN : map (fun c => if mem c key then c else (c ++ suffix)%string) (key ++ map output_key (list_prod cols ops)) =
                 key ++ map (result_name suffix) (list_prod cols ops)).
    { rewrite map_app, map_map. f_equal.
      - rewrite <- (map_id key) at 2. apply map_ext_in. intros c I. apply mem_true in I. rewrite I. reflexivity.
      - apply map_ext_in. intros p I. rewrite result_name_output.
        assert (Em : mem (output_key p) key = false).
        { apply mem_false. intros I'. apply (NoDup_app_disj _ _ _ N1 I'). apply in_map. exact I. }
        rewrite Em. reflexivity. }
    rewrite EN in E'.
    assert (EO : out = {| tcols := key ++ map (result_name suffix) (list_prod cols ops); trows := trows g |} /\
                 NoDup (key ++ map (result_name suffix) (list_prod cols ops))).
    { destruct lib eqn:El.
      - injection E' as <-. split; [reflexivity|]. apply NoDup_app_intro.
        + apply NoDup_app_l in N1. exact N1.
        + apply result_names_distinct; assumption.
        + intros x I1 I2. apply in_map_iff in I2. destruct I2 as (p & <- & I2). exact (Hcl eq_refl p I2 I1).
      - destruct (has_dups _) eqn:Ed; [discriminate|]. injection E' as <-. apply has_dups_false in Ed. auto. }
    destruct EO as [-> NO]. cbn [tcols trows]. split; [reflexivity|]. split; [exact NO|]. split; [exact Hk|].
    exists keys. exact E2.
  Qed.

  (** *** Joining *)
  Lemma ValuesAt_det : forall cols (row : list V) on a b, NoDup cols ->
    ValuesAt cols row on a -> ValuesAt cols row on b -> a = b.
  Proof.
    intros cols row on a b ND Ha Hb. apply (rk_spec _ _ _ _ ND) in Ha, Hb. congruence.
  Qed.

  Lemma ValuesAt_split : forall (a b : list string) (x y : list V), length x = length a -> length y = length b ->
    ValuesAt (a ++ b) (x ++ y) a x /\ ValuesAt (a ++ b) (x ++ y) b y.
  Proof.
    assert (G : forall (p : list string) (px : list V) a x q qx, length px = length p -> length x = length a ->
              ValuesAt (p ++ a ++ q) (px ++ x ++ qx) a x).
    { unfold ValuesAt. intros p px a. revert p px. induction a as [|c a IH]; intros p px x q qx L1 L2;
        destruct x as [|v x]; try discriminate; constructor.
      - exists (length p). split.
        + rewrite nth_error_app2, Nat.sub_diag by lia. reflexivity.
        + rewrite <- L1, nth_error_app2, Nat.sub_diag by lia. reflexivity.
      - specialize (IH (p ++ [c]) (px ++ [v]) x q qx). rewrite <- !app_assoc in IH. simpl in IH. apply IH.
        + rewrite !app_length. simpl. lia.
        + simpl in L2. lia. }
    intros a b x y La Lb. split.
    - apply (G [] [] a x b y); [reflexivity|exact La].
    - pose proof (G a x b y [] [] La Lb) as P. rewrite !app_nil_r in P. exact P.
  Qed.

  Lemma other_columns_app : forall (key names : list string), NoDup (key ++ names) ->
    other_columns (key ++ names) key = names.
  Proof.
    intros key names N. unfold other_columns. rewrite filter_app.
    replace (filter _ key) with (@nil string).
    - simpl. assert (D : forall c, In c names -> mem c key = false).
      { intros c I. apply mem_false. intros I'. exact (NoDup_app_disj _ _ _ N I' I). }
      clear N. induction names as [|c names IH]; simpl; [reflexivity|].
      rewrite D by (left; reflexivity). simpl. f_equal. apply IH. intros c' I. apply D. right. exact I.
    - symmetry. assert (G : forall l, (forall c, In c l -> In c key) -> filter (fun c => negb (mem c key)) l = []).
      { induction l as [|c l IH]; intros Hl; simpl; [reflexivity|].
        rewrite (proj2 (mem_true _ _) (Hl c (or_introl eq_refl))). simpl. apply IH. intros c' I. apply Hl. right. exact I. }
      apply G. auto.
  Qed.

  Lemma Computed_length : forall t rows pairs vals, Computed aggf t rows pairs vals -> length vals = length pairs.
  Proof. intros t rows pairs vals F. symmetry. apply (Forall2_len _ _ _ F). Qed.

  Lemma join_attached : forall draw X aux mk ak cols ops suffix out,
    WFTable X -> NoDup (tcols aux) ->
    (forall c, In c mk -> In c (tcols X)) -> length mk = length ak ->
    (forall c, In c ak -> In c (tcols aux)) ->
    tcols out = ak ++ map (result_name suffix) (list_prod cols ops) -> NoDup (tcols out) ->
    Fresh draw (length (tcols out)) (map (fun c => c) (tcols out)) (tcols X) ->
    (exists keys, NoDup keys /\ (forall k, In k keys <-> HasGroup aux ak k) /\
      Forall2 (fun k row => exists rows vals, row = k ++ vals /\
                 Selected (fun r => ValuesAt (tcols aux) r ak k) (trows aux) rows /\
                 Computed aggf aux rows (list_prod cols ops) vals)
              keys (trows out)) ->
    exists res,
      left_join null (keq isnull lib) draw X out mk ak (fun c => c) = Ok res /\
      tcols res = tcols X ++ other_names (tcols out) (pick_column_names draw (tcols out) (tcols X)) ak /\
      NoDup (tcols res) /\
      Forall2 (fun l o => exists vals, o = l ++ vals /\
                 Attached null isnull aggf X aux mk ak (list_prod cols ops) l vals)
              (trows X) (trows res).
  Proof.
    intros draw X aux mk ak cols ops suffix out WX ND Hmk Hl Hak Et No F (keys & Nk & Hk & HF).
    set (pairs := list_prod cols ops) in *.
    assert (LK : forall k, In k keys -> length k = length ak).
    { intros k I. apply Hk in I. destruct I as [(r & _ & Hr) _]. symmetry. apply (Forall2_len _ _ _ Hr). }
    assert (HR : forall i row, nth_error (trows out) i = Some row ->
              exists k rows vals, nth_error keys i = Some k /\ row = k ++ vals /\
                 Selected (fun r => ValuesAt (tcols aux) r ak k) (trows aux) rows /\
                 Computed aggf aux rows pairs vals /\
                 ValuesAt (tcols out) row ak k /\
                 ValuesAt (tcols out) row (map (result_name suffix) pairs) vals).
    { intros i row Ei.
      assert (G : forall (ks : list (list V)) rs, Forall2 (fun k row => exists rows vals, row = k ++ vals /\
                 Selected (fun r => ValuesAt (tcols aux) r ak k) (trows aux) rows /\
                 Computed aggf aux rows pairs vals) ks rs ->
               forall i row, nth_error rs i = Some row ->
               exists k, nth_error ks i = Some k /\ exists rows vals, row = k ++ vals /\
                 Selected (fun r => ValuesAt (tcols aux) r ak k) (trows aux) rows /\
                 Computed aggf aux rows pairs vals).
      { intros ks rs FF. induction FF as [|a b l l' Hab FF IH]; intros j rw Ej; [destruct j; discriminate|].
        destruct j as [|j]; simpl in Ej; [injection Ej as <-; exists a; auto|]. apply IH. exact Ej. }
      destruct (G _ _ HF i row Ei) as (k & Ek & rows & vals & -> & HS & HC).
      exists k, rows, vals. split; [exact Ek|]. split; [reflexivity|]. split; [exact HS|]. split; [exact HC|].
      rewrite Et. apply ValuesAt_split; [apply LK, (nth_error_In _ _ Ek)|].
      rewrite map_length. apply (Computed_length _ _ _ _ HC). }
    assert (WO : WFTable out).
    { split; [exact No|]. intros r I. apply In_nth_error in I. destruct I as [i Ei].
      destruct (HR i r Ei) as (k & rows & vals & Ek & -> & _ & HC & _).
      rewrite Et, !app_length, map_length, (LK k (nth_error_In _ _ Ek)), (Computed_length _ _ _ _ HC). reflexivity. }
    assert (KE : forall a b, keq isnull lib a b = true <-> a = b /\ (lib = Polars -> NoNull isnull a)).
    { intros a b. unfold keq. rewrite andb_true_iff, eqb_of_true, <- NoNull_existsb.
      destruct lib; [|rewrite negb_true_iff]; intuition discriminate. }
    assert (HM : forall l i r k, In l (trows X) -> nth_error (trows out) i = Some r ->
               ValuesAt (tcols X) l mk k -> Matches (keq isnull lib) X out mk ak l r ->
               nth_error keys i = Some k /\ NoNull isnull k).
    { intros l i r k Il Ei Hkl (kl & kr & A & B & D).
      destruct (HR i r Ei) as (k' & rows & vals & Ek & -> & _ & _ & HV & _).
      assert (kr = k') by (eapply ValuesAt_det; [exact No|exact B|exact HV]). subst.
      assert (kl = k) by (eapply ValuesAt_det; [exact (proj1 WX)|exact A|exact Hkl]). subst.
      apply KE in D. destruct D as [-> D]. split; [exact Ek|].
      apply nth_error_In, Hk in Ek. destruct Ek as [_ Ek]. destruct lib; auto. }
    destruct (left_join_ok null (keq isnull lib) draw X out mk ak (fun c => c)) as (res & E1 & E2 & E3 & E4).
    - exact WX.
    - exact WO.
    - exact Hmk.
    - intros c I. rewrite Et. apply in_or_app. left. exact I.
    - exact F.
    - intros l i j ri rj Il Ei Ej Mi Mj.
      destruct (values_exist (tcols X) l mk (proj2 WX l Il) Hmk) as [k Hkl].
      destruct (HM l i ri k Il Ei Hkl Mi) as [Ki _]. destruct (HM l j rj k Il Ej Hkl Mj) as [Kj _].
      apply (NoDup_nth_error keys); [exact Nk|apply nth_error_Some; congruence|congruence].
    - exists res. rewrite map_id in E2. split; [exact E1|]. split; [exact E2|]. split; [exact E3|].
      apply (fun Hh => Forall2_impl_in _ _ _ _ Hh E4). intros l o Il _ (vals & -> & HC). exists vals. split; [reflexivity|].
      destruct (values_exist (tcols X) l mk (proj2 WX l Il) Hmk) as [k Hkl].
      exists k. split; [exact Hkl|]. unfold Completion in HC.
      assert (OC : other_columns (tcols out) ak = map (result_name suffix) pairs).
      { rewrite Et. apply other_columns_app. rewrite <- Et. exact No. }
      rewrite OC, map_length in HC. destruct HC as [[HN ->]|(r & Ir & M & HV)].
      + right. split; [|reflexivity].
        destruct (existsb isnull k) eqn:En.
        { left. intros N. apply NoNull_existsb in N. congruence. }
        apply NoNull_existsb in En. right. intros r Ir Hr.
        assert (IG : In k keys) by (apply Hk; split; [exists r; auto|auto]).
        destruct (In_nth_error _ _ IG) as [i Ei].
        destruct (nth_error (trows out) i) as [row|] eqn:Erow.
        2:{ apply nth_error_None in Erow. rewrite <- (Forall2_len _ _ _ HF) in Erow.
            assert (i < length keys) by (apply nth_error_Some; congruence). lia. }
        destruct (HR i row Erow) as (k' & rows & vals & Ek & Erw & _ & _ & HV & _).
        assert (k' = k) by congruence. subst k'.
        apply (HN row (nth_error_In _ _ Erow)). exists k, k. split; [exact Hkl|]. split; [exact HV|].
        apply KE. auto.
      + left. destruct (In_nth_error _ _ Ir) as [i Ei].
        destruct (HM l i r k Il Ei Hkl M) as [Ki Hn]. split; [exact Hn|].
        destruct (HR i r Ei) as (k' & rows & vals' & Ek & -> & HS & HC & _ & HV').
        assert (k' = k) by congruence. subst k'.
        assert (vals = vals') by (eapply ValuesAt_det; [exact No|exact HV|exact HV']). subst.
        exists rows. split; [exact HS|]. split; [|exact HC].
        apply nth_error_In, Hk in Ki. destruct Ki as [(r0 & I0 & H0) _].
        intros ->. clear -HS I0 H0. remember (@nil (list V)) as e eqn:Ee. induction HS as [|x l s Px HS IH|x l s Px HS IH];
          [destruct I0|discriminate|]. destruct I0 as [<-|I0]; [contradiction|]. apply IH; assumption.
  Qed.
End Aggregate.
