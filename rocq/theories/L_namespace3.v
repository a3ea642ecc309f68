(** Copies of a step with another name, description or mark; operators and calls. *)
From Verif Require Import Base L_dict M_traverse L_traverse M_expr L_expr1 L_expr2 L_expr3 L_expr4 L_expr5 L_expr6 L_expr7.
From Verif Require Import M_grid M_choicegraph L_conflicts M_clone M_check M_namespace L_estimator1 L_estimator2 L_namespace L_namespace2.
From Coq Require Import Relations.Relation_Operators Relations.Operators_Properties.
Open Scope string_scope.
Open Scope list_scope.
Open Scope nat_scope.
Set Default Proof Using "Type".

(** ** Specification *)
Section Spec.
  Context {V K : Type}.

  (** [h'] has the objects of [h] and perhaps others. *)
  Definition extends (h h' : heap V K) (size : nat) : Prop := forall x, x < size -> h' x = h x.

  (** The environment gives the same to the objects [o] of [h] and [o'] of [h']: directly, or,
      for a variable, under its name. *)
  Definition given_alike (h h' : heap V K) (e : env V) (o o' : oid) : Prop :=
    given h e o = given h' e o' /\
    match h o, h' o' with
    | OExpr (IVar _) name _ _, OExpr (IVar _) name' _ _ =>
        match name with Some n => dget n e | None => None end
        = match name' with Some n => dget n e | None => None end
    | _, _ => True
    end.

  (** What the environment must not tell apart for a change to have no effect: the mark that is
      set; for a variable, the old and the new name, which must be given the same value; for
      another step, neither name is given. *)
  Definition indifferent (c : change) (ob : obj V K) (e : env V) : Prop :=
    match c, ob with
    | Describe, _ => True
    | MarkX, _ => dget "_skrub_X" e = None
    | MarkY, _ => dget "_skrub_y" e = None
    | Rename n', OExpr (IVar _) n _ _ =>
        match n with Some k => dget k e | None => None end = match n' with Some k => dget k e | None => None end
    | Rename n', OExpr _ n _ _ => forall k, n = Some k \/ n' = Some k -> dget k e = None
    | Rename _, _ => False
    end.

  (** No other mark comes first, and the step is not a variable (which looks its name up when
      it is computed). *)
  Definition replaceable (c : change) (ob : obj V K) (e : env V) : Prop :=
    match c, ob with
    | MarkX, _ => True
    | MarkY, OExpr _ _ x _ => x = true -> dget "_skrub_X" e = None
    | Rename _, OExpr i _ x y =>
        is_var i = false /\ (x = true -> dget "_skrub_X" e = None) /\ (y = true -> dget "_skrub_y" e = None)
    | _, _ => False
    end.

  (** The name or mark under which the environment can then give the value of the step. *)
  Definition key_of_change (c : change) : option string :=
    match c with Rename n => n | Describe => None | MarkX => Some "_skrub_X" | MarkY => Some "_skrub_y" end.
End Spec.

Section Copy.
  Context {V K F : Type} `{EqD K}.
  Variable ext : externals V K F.
  Variables h h' : heap V K.
  Variable size : nat.
  Hypothesis Hc : closed h size.
  Hypothesis Hext : extends h h' size.

  Lemma part_extend o x : o < size -> part_of h o x -> x < size.
  Proof using Hc. intros Ho Hx. eapply closed_part; eauto. Qed.

  Section Den.
    Variable e : env V.
    Variable mode : string.
    Variables f f' : oid -> option (fit_attr V F).
    Hypothesis Hf : forall x, x < size -> f' x = f x.

    Lemma den_extend c : c < size -> forall d r, den ext h e mode f d c = Some r -> den ext h' e mode f' d c = Some r.
    Proof using Hc Hext Hf.
      intros Hlt d r Ed. eapply (agree_den ext mode h h' e e f f' c); [|constructor|exact Ed].
      intros o Ho. apply needed_part in Ho.
      assert (Hol : o < size) by (eapply part_extend; eauto).
      pose proof (Hext o Hol) as Eo. split; [symmetry; apply Hf; exact Hol|].
      assert (Eg : given h' e o = given h e o) by (unfold given; rewrite Eo; reflexivity).
      destruct (given h e o) as [v|] eqn:G; [left; eauto|]. right.
      split; [symmetry; exact Eo|]. split; [reflexivity|]. split; [exact Eg|]. split.
      - intros t Ht. symmetry. apply Hext. apply (Hc o t Hol). unfold table in Ht.
        destruct (h o) as [[]| | | | | | | |]; try contradiction; subst t; simpl; auto.
        destruct default; simpl; auto.
      - unfold same_reads. destruct (h o) as [[]| | | | | | | |]; auto. repeat split; auto.
    Qed.

    (** What an object gives, without its fitted attributes. *)
    Definition vsim (x y : dres (V * option (fit_attr V F))) : Prop :=
      match x with
      | None => True
      | Some (Ok a) => exists b, y = Some (Ok b) /\ fst a = fst b
      | Some (Err ex) => y = Some (Err ex)
      end.
    Lemma vsim_bind {A} (x y : dres A) k k' : (forall r, x = Some r -> y = Some r) ->
      (forall a, vsim (k a) (k' a)) -> vsim (dbind x k) (dbind y k').
    Proof.
      intros Hx Hk. destruct x as [r|]; [|exact I]. rewrite (Hx r eq_refl). destruct r; cbn; auto.
    Qed.

    Variables o n : oid.
    Hypothesis Ho : o < size.
    Variable i : impl.
    Variables name name' : option string.
    Variables isX isX' isY isY' : bool.
    Hypothesis Eo : h o = OExpr i name isX isY.
    Hypothesis En : h' n = OExpr i name' isX' isY'.
    Hypothesis Hg : given_alike h h' e o n.
    Hypothesis Hslot : fit_mode mode = true \/ f' n = f o.

    Lemma vsim_slot (r : res V) : vsim (Some (shown ext mode (with_slot f o r))) (Some (shown ext mode (with_slot f' n r))).
    Proof. destruct r; cbn; eauto. Qed.
    Lemma vsim_plain (x y : dres V) : (forall r, x = Some r -> y = Some r) ->
      vsim (dbind x (fun v => Some (Ok (v, f o)))) (dbind y (fun v => Some (Ok (v, f' n)))).
    Proof. intros Hx. apply vsim_bind; [exact Hx|]. intros a. cbn. eauto. Qed.

    Lemma copy_den d : vsim (den ext h e mode f d o) (den ext h' e mode f' d n).
    Proof using Hc Hext Hf Ho Eo En Hg Hslot.
      destruct d as [|d]; [exact I|]. cbn [den]. rewrite Eo, En.
      destruct Hg as [Hg1 Hg2]. unfold given in Hg1. rewrite Eo, En in Hg1, Hg2. rewrite <- Hg1.
      destruct (provided e i name isX isY) as [v|]; [cbn; eauto|].
      assert (Hlt : forall c, In c (children (h o)) -> c < size) by (intros c Hin; eapply Hc; eauto).
      rewrite Eo in Hlt.
      assert (Hev : forall c, c < size ->
        dle (dbind (den ext h e mode f d c) (fun vf => Some (Ok (fst vf))))
            (dbind (den ext h' e mode f' d c) (fun vf => Some (Ok (fst vf))))).
      { intros c Hlc. apply (dle_bind _ _ _ _ (den_extend c Hlc d)). intros a. apply dle_refl. }
      assert (Hec : forall c, In c (children (OExpr (V := V) (K := K) i name isX isY)) ->
        dle (dbind (den ext h e mode f d c) (fun vf => Some (Ok (fst vf))))
            (dbind (den ext h' e mode f' d c) (fun vf => Some (Ok (fst vf))))).
      { intros c Hin. apply Hev. apply Hlt. exact Hin. }
      assert (Hargs : forall l : list (string * oid), (forall nc, In nc l -> In (snd nc) (children (OExpr (V := V) (K := K) i name isX isY))) ->
        dle (dmapM (fun nc => dbind (dbind (den ext h e mode f d (snd nc)) (fun vf => Some (Ok (fst vf)))) (fun v => Some (Ok (fst nc, v)))) l)
            (dmapM (fun nc => dbind (dbind (den ext h' e mode f' d (snd nc)) (fun vf => Some (Ok (fst vf)))) (fun v => Some (Ok (fst nc, v)))) l)).
      { induction l as [|nc l IH]; intros Hl; [apply dle_refl|]. cbn [dmapM]. apply dle_bind.
        - apply dle_bind; [apply (Hec (snd nc)); apply Hl; left; reflexivity|]. intros a. apply dle_refl.
        - intros b. apply dle_bind; [apply IH; intros; apply Hl; right; assumption|]. intros bs. apply dle_refl. }
      assert (Hsame : forall r : res (V * option (fit_attr V F)), vsim (Some (shown ext mode r)) (Some (shown ext mode r))).
      { intros [a|x]; cbn; eauto. }
      destruct i as [value|value|cnd it fa|q tg default|tgt|X est y cols how allow unsup|tgt|fi ot|op fs].
      - assert (Esv : forall v, spec_var ext e mode name v = spec_var ext e mode name' v).
        { intros v. unfold spec_var. rewrite Hg2. reflexivity. }
        destruct value as [c|]; [|rewrite Esv; apply vsim_slot].
        apply vsim_bind; [apply Hec; simpl; auto|]. intros a. rewrite Esv. apply vsim_slot.
      - apply vsim_plain. apply Hec. simpl. auto.
      - apply vsim_bind; [apply Hec; simpl; auto|]. intros cv. apply vsim_bind; [auto|]. intros b.
        apply vsim_plain. apply Hec. destruct b; simpl; auto.
      - apply vsim_bind; [apply Hec; destruct default; simpl; auto|]. intros qv. apply vsim_bind; [auto|]. intros key.
        assert (Htg : tg < size) by (apply Hlt; destruct default; simpl; auto).
        apply vsim_plain. rewrite (Hext tg Htg). destruct (h tg) eqn:Etg; auto.
        destruct (dget key items) as [t|] eqn:Ed.
        + apply Hev. apply (Hc tg t Htg). rewrite Etg. simpl. eapply in_dget; eauto.
        + destruct default; auto. apply Hec. simpl. auto.
      - destruct (fit_mode mode) eqn:Em.
        + apply vsim_bind; [apply Hec; simpl; auto|]. intros v. cbn. eauto.
        + destruct Hslot as [Hs|Hs]; [discriminate|]. rewrite Hs. apply Hsame.
      - destruct (fit_mode mode) eqn:Em.
        + apply vsim_bind; [|intros a; apply Hsame]. apply Hargs. intros [m t] Hin. cbn [snd fst]. simpl in Hin |- *.
          destruct unsup; simpl in Hin; intuition congruence.
        + destruct Hslot as [Hs|Hs]; [discriminate|]. rewrite Hs.
          apply vsim_bind.
          * apply Hargs. intros [m t] Hin. simpl in Hin |- *. destruct (eqb_of mode "score"); simpl in Hin; intuition congruence.
          * intros a. destruct (apply_use ext mode (fitted_with (f o)) a); cbn; eauto.
      - assert (Ht : tgt < size) by (apply Hlt; simpl; auto). rewrite (Hext tgt Ht).
        apply vsim_bind; [apply den_extend; exact Ht|]. intros vf.
        destruct (h tgt) as [[]| | | | | | | |]; try (apply (Hsame (Err AttributeError))).
        destruct (fitted_with (snd vf)); [|apply (Hsame (Err AttributeError))]. cbn. eauto.
      - apply vsim_bind; [apply Hargs; intros [m t] Hin; simpl in *; intuition congruence|]. intros a.
        destruct (fit_mode mode) eqn:Em; [apply Hsame|]. destruct Hslot as [Hs|Hs]; [discriminate|]. rewrite Hs.
        destruct (concat_use ext (fitted_with (f o)) a); cbn; eauto.
      - apply vsim_bind; [apply Hargs; intros nc Hin; simpl; apply in_map; exact Hin|]. intros a. apply vsim_slot.
    Qed.
  End Den.
End Copy.

Section Modify.
  Context {V K F : Type} `{EqD K}.
  Variable ext : externals V K F.

  Lemma extend_old (h : heap V K) size objs x : x < size -> extend h size objs x = h x.
  Proof. intros Hx. unfold extend. apply Nat.ltb_lt in Hx. rewrite Hx. reflexivity. Qed.
  Lemma extend_new (h : heap V K) size ob : extend h size [ob] size = ob.
  Proof. unfold extend. rewrite Nat.ltb_irrefl, Nat.sub_diag. reflexivity. Qed.

  Lemma extends_extend (h : heap V K) size objs : extends h (extend h size objs) size.
  Proof. intros x Hx. apply extend_old. exact Hx. Qed.

  Lemma closed_extend (h : heap V K) size ob : closed h size ->
    (forall c, In c (children ob) -> c < size) -> closed (extend h size [ob]) (S size).
  Proof.
    intros Hc Hob o c Ho Hin. destruct (Nat.eq_dec o size) as [->|Hne].
    - rewrite extend_new in Hin. apply Hob in Hin. lia.
    - assert (Hlt : o < size) by lia. rewrite extend_old in Hin by exact Hlt. pose proof (Hc o c Hlt Hin). lia.
  Qed.

  Lemma part_of_extend (h : heap V K) size ob x y : closed h size -> x < size ->
    part_of (extend h size [ob]) x y -> part_of h x y /\ y < size.
  Proof.
    intros Hc Hx Hp. induction Hp as [x|x c y Hs Hin _ IH]; [split; [constructor|exact Hx]|].
    rewrite extend_old in Hin by exact Hx. pose proof (Hc x c Hx Hin) as Hcl.
    destruct (IH Hcl) as [Hpt Hlt]. split; [|exact Hlt]. econstructor; eauto.
  Qed.

  Lemma acyclic_extend (h : heap V K) size ob : closed h size ->
    (forall c, In c (children ob) -> c < size /\ acyclic h c) -> acyclic (extend h size [ob]) size.
  Proof.
    intros Hc Hob x Hx (c & Hin & Hcx).
    assert (Hcase : x = size \/ (x < size /\ exists c0, In c0 (children ob) /\ part_of h c0 x)).
    { inversion Hx as [y|y c0 z Hs Hin0 Hr]; subst; [left; reflexivity|]. right.
      rewrite extend_new in Hin0. destruct (Hob c0 Hin0) as [Hl _].
      destruct (part_of_extend h size ob c0 x Hc Hl Hr). eauto. }
    destruct Hcase as [->|(Hl & c0 & Hin0 & Hp)].
    - rewrite extend_new in Hin. destruct (Hob c Hin) as [Hl _].
      destruct (part_of_extend h size ob c size Hc Hl Hcx). lia.
    - destruct (Hob c0 Hin0) as [_ Ha]. apply (Ha x Hp). rewrite extend_old in Hin by exact Hl.
      exists c. split; [exact Hin|]. eapply part_of_extend; eauto.
  Qed.

  Lemma changed_fields c (ob ob' : obj V K) : changed c ob = Ok ob' ->
    exists i name isX isY name' isX' isY', ob = OExpr i name isX isY /\ ob' = OExpr i name' isX' isY' /\
      match c with
      | Rename n => name' = n /\ isX' = isX /\ isY' = isY
      | Describe => name' = name /\ isX' = isX /\ isY' = isY
      | MarkX => name' = name /\ isX' = true /\ isY' = isY
      | MarkY => name' = name /\ isX' = isX /\ isY' = true
      end.
  Proof.
    intros E. destruct ob as [i name isX isY| | | | | | | |]; try discriminate.
    destruct c as [n| | |]; cbn [changed] in E.
    - destruct (check_name n (is_var i)); [|discriminate]. injection E as <-. eauto 12.
    - injection E as <-. eauto 12.
    - injection E as <-. eauto 12.
    - injection E as <-. eauto 12.
  Qed.

  Lemma valid_copy (h : heap V K) size o i n x y n' x' y' : valid h size o -> h o = OExpr i n x y ->
    valid (extend h size [OExpr i n' x' y']) (S size) size.
  Proof.
    intros (Hc & Ho & Ha) Eo.
    assert (Hch : forall c, In c (children (OExpr (V := V) (K := K) i n' x' y')) -> c < size /\ acyclic h c).
    { intros c Hin. assert (Hino : In c (children (h o))) by (rewrite Eo; exact Hin).
      split; [eapply Hc; eauto|]. intros z Hz. apply Ha. econstructor; [intros []|exact Hino|exact Hz]. }
    split; [apply closed_extend; [exact Hc|intros c Hin; apply Hch; exact Hin]|]. split; [lia|].
    apply acyclic_extend; assumption.
  Qed.

  Lemma provided_nil (e : env V) l : (forall n, In n l -> dget n e = None) -> first_provided e l = None.
  Proof.
    induction l as [|n l IH]; intros Hl; [reflexivity|]. cbn. rewrite (Hl n (or_introl eq_refl)).
    apply IH. intros; apply Hl; right; assumption.
  Qed.
  Lemma provided_skip (e : env V) n l : dget n e = None -> first_provided e (n :: l) = first_provided e l.
  Proof. intros E. cbn. rewrite E. reflexivity. Qed.
  Lemma provided_app (e : env V) l1 l1' l2 l2' : first_provided e l1 = first_provided e l1' ->
    first_provided e l2 = first_provided e l2' -> first_provided e (l1 ++ l2) = first_provided e (l1' ++ l2').
  Proof.
    assert (Ha : forall l l', first_provided e (l ++ l') = match first_provided e l with Some v => Some v | None => first_provided e l' end).
    { induction l as [|n l IH]; intros l'; [reflexivity|]. cbn. rewrite IH. destruct (dget n e); reflexivity. }
    intros E1 E2. rewrite !Ha, E1, E2. reflexivity.
  Qed.

  Lemma indifferent_alike c (h : heap V K) size o ob e : o < size -> changed c (h o) = Ok ob -> indifferent c (h o) e ->
    given_alike h (extend h size [ob]) e o size.
  Proof.
    intros Ho E Hi. destruct (changed_fields c (h o) ob E) as (i & n & x & y & n' & x' & y' & Eo & -> & Hc).
    unfold given_alike, given. rewrite extend_new, Eo. rewrite Eo in Hi. unfold provided.
    destruct c as [nn| | |]; cbn [indifferent] in Hi; destruct Hc as (-> & -> & ->).
    - split.
      + apply provided_app; [reflexivity|]. apply provided_app; [reflexivity|].
        assert (Hz : forall m, (m = n \/ m = nn) -> (forall k, n = Some k \/ nn = Some k -> dget k e = None) ->
          first_provided e (match m with Some k => [k] | None => [] end) = None).
        { intros m Hm Hall. destruct m as [k|]; [|reflexivity]. cbn. rewrite Hall; [reflexivity|]. destruct Hm; auto. }
        destruct i; try reflexivity; (etransitivity; [apply (Hz n); auto|symmetry; apply (Hz nn); auto]).
      + destruct i; auto.
    - split; [reflexivity|]. destruct i; auto.
    - split; [|destruct i; auto]. apply provided_app; [|reflexivity]. destruct x; [reflexivity|]. cbn. rewrite Hi. reflexivity.
    - split; [|destruct i; auto]. apply provided_app; [reflexivity|]. apply provided_app; [|reflexivity].
      destruct y; [reflexivity|]. cbn. rewrite Hi. reflexivity.
  Qed.

  (** The copy is evaluated like the step. *)
  Lemma copy_evaluates c (h : heap V K) size o ob requested e (s s' : st V F) :
    valid h size o -> changed c (h o) = Ok ob ->
    (forall x, x < size -> fitted s' x = fitted s x) ->
    (fit_mode (real_mode requested) = true \/ fitted s' size = fitted s o) ->
    indifferent c (h o) e ->
    snd (evaluate ext (extend h size [ob]) (S size) size requested e true s')
    = snd (evaluate ext h size o requested e true s).
  Proof.
    intros Hval E Hf Hm Hi. pose proof Hval as (Hc & Ho & Ha).
    pose proof (indifferent_alike c h size o ob e Ho E Hi) as Hg.
    destruct (changed_fields c (h o) ob E) as (i & n & x & y & n' & x' & y' & Eo & -> & _).
    destruct (valid_copy h size o i n x y n' x' y' Hval Eo) as (Hc' & Ho' & Ha').
    destruct (evaluate_value ext h size o e requested s Hc Ho Ha) as (r & [d D] & ->).
    destruct (evaluate_value ext (extend h size [OExpr i n' x' y']) (S size) size e requested s' Hc' Ho' Ha') as (r' & D' & ->).
    pose proof (copy_den ext h (extend h size [OExpr i n' x' y']) size Hc (extends_extend _ _ _) e (real_mode requested)
      (fitted s) (fitted s') Hf o size Ho i n n' x x' y y' Eo (extend_new _ _ _) Hg Hm d) as Hv.
    rewrite D in Hv. destruct r as [[v a]|ex]; cbn [vsim] in Hv.
    - destruct Hv as ([v2 a2] & E2 & Ev). cbn in Ev. subst v2.
      assert (r' = Ok (v, a2)) as -> by (eapply Den_det; [exact D'|exists d; exact E2]). reflexivity.
    - assert (r' = Err ex) as -> by (eapply Den_det; [exact D'|exists d; exact Hv]). reflexivity.
  Qed.

  (** A value given under the new name or mark replaces the copy. *)
  Lemma copy_given c (h : heap V K) size o ob requested e k v (s : st V F) :
    valid h size o -> changed c (h o) = Ok ob -> key_of_change c = Some k -> dget k e = Some v ->
    replaceable c (h o) e ->
    snd (evaluate ext (extend h size [ob]) (S size) size requested e true s)
    = Ok (if eqb_of requested "fit" then TheExpr else TheValue v).
  Proof.
    intros Hval E Hk Hd Hx.
    destruct (changed_fields c (h o) ob E) as (i & n & x & y & n' & x' & y' & Eo & -> & Hcf).
    destruct (valid_copy h size o i n x y n' x' y' Hval Eo) as (Hc' & Ho' & Ha').
    destruct (evaluate_value ext (extend h size [OExpr i n' x' y']) (S size) size e requested s Hc' Ho' Ha') as (r' & D' & ->).
    assert (Hp : provided e i n' x' y' = Some v).
    { rewrite Eo in Hx. destruct c as [nn| | |]; cbn in Hk; try discriminate; destruct Hcf as (-> & -> & ->); cbn in Hx.
      - subst nn. destruct Hx as (H1 & H2 & H3). unfold provided.
        assert (Hsk : forall l, first_provided e ((if x then ["_skrub_X"] else []) ++ (if y then ["_skrub_y"] else []) ++ l) = first_provided e l).
        { intros l. destruct x, y; cbn [app]; rewrite ?provided_skip; auto. }
        rewrite Hsk. destruct i; try discriminate; cbn; rewrite Hd; reflexivity.
      - injection Hk as <-. unfold provided. cbn. rewrite Hd. reflexivity.
      - injection Hk as <-. unfold provided.
        destruct x; cbn [app]; rewrite ?provided_skip by auto; cbn; rewrite Hd; reflexivity. }
    assert (r' = Ok (v, fitted s size)) as ->; [|reflexivity]. eapply Den_det; [exact D'|].
    exists 1. cbn. rewrite extend_new, Hp. reflexivity.
  Qed.

  (** *** The new expression *)
  Variable hash_obj : oid -> res K.
  Variable is_df : V -> bool.

  Lemma visit_kept (h : heap V K) size root i n x y v (s : st V F) : h root = OExpr i n x y ->
    results s root "preview" = Some v ->
    evaluate ext h (S size) root "preview" [] false s = (s, Ok (TheValue v)).
  Proof.
    intros Eo Er. unfold evaluate. change (eqb_of "preview" "fit") with false. cbv iota.
    cbn [visit]. unfold eval_handler at 2. rewrite Eo. cbn [run_gen].
    assert (Ef : fetch [] "preview" s root i n x y = Some v).
    { unfold fetch, fetch_env. cbn. destruct x, y, (is_var i), n; exact Er. }
    cbn [run_gen]. unfold fetch_env. rewrite Ef. reflexivity.
  Qed.

  (** If the step has a preview, the new expression has it too; nothing is computed and nothing
      is changed elsewhere. *)
  Lemma modify_kept (h h' : heap V K) size o c (s s2 : st V F) v : o < size ->
    results s o "preview" = Some v -> modify ext hash_obj is_df h size o c s = (s2, Ok h') ->
    (exists ob, changed c (h o) = Ok ob /\ h' = extend h size [ob]) /\
    results s2 size = results s o /\ errors s2 size = errors s o /\ fitted s2 size = None /\ trace s2 = trace s /\
    (forall x, x < size -> results s2 x = results s x /\ errors s2 x = errors s x /\ fitted s2 x = fitted s x).
  Proof.
    intros Ho Er Em. unfold modify in Em. destruct (changed c (h o)) as [ob|] eqn:Ec; [|discriminate].
    assert (Hold : forall A (f : oid -> A) a x, x < size -> upd f size a x = f x).
    { intros A f a x Hx. unfold upd. match goal with |- context [if ?b then _ else _] => destruct b as [Exy|]; [unfold oid in *; lia|reflexivity] end. }
    assert (Hnew : forall A (f : oid -> A) a, upd f size a size = a).
    { intros A f a. unfold upd. match goal with |- context [if ?b then _ else _] => destruct b as [|Hne]; [reflexivity|contradiction] end. }
    assert (Hgoal : s2 = copy_attributes s o size /\ h' = extend h size [ob]).
    { destruct (changed_fields c (h o) ob Ec) as (i & n & x & y & n' & x' & y' & Eo & -> & _).
      assert (Hck : forall s3 r, check_expr ext hash_obj is_df (extend h size [OExpr i n' x' y']) (S size) size (copy_attributes s o size) = (s3, r) ->
        s3 = copy_attributes s o size).
      { intros s3 r. unfold check_expr.
        destruct (find_conflicts _ _ _) as [[|]|]; try congruence. destruct (find_arg _ _ _ _) as [[|]|]; try congruence.
        destruct (choice_graph _ _ _ _); try congruence.
        rewrite (visit_kept _ size size i n' x' y' v); [congruence|apply extend_new|].
        unfold copy_attributes. cbn. rewrite Hnew. exact Er. }
      destruct (check_expr ext hash_obj is_df (extend h size [OExpr i n' x' y']) (S size) size (copy_attributes s o size)) as [s3 r] eqn:Ek.
      specialize (Hck s3 r eq_refl). subst s3.
      destruct c; [|injection Em as <- <-; auto| |]; destruct r; cbn in Em; inversion Em; auto. }
    destruct Hgoal as [-> ->]. unfold copy_attributes. cbn. rewrite !Hnew.
    repeat split; try reflexivity; try (rewrite Hold by assumption; reflexivity). eauto.
  Qed.

  (** *** Operators and calls *)
  Lemma op_value (h : heap V K) size op fs vs requested e (s : st V F) :
    closed h size -> (forall nc, In nc fs -> snd nc < size /\ acyclic h (snd nc)) ->
    Forall2 (fun nc nv => fst nc = fst nv /\ DenV ext h e (real_mode requested) (fitted s) (snd nc) (Ok (snd nv))) fs vs ->
    snd (evaluate ext (extend h size [OExpr (IOp op fs) None false false]) (S size) size requested e true s)
    = match shown ext (real_mode requested) (op_sem ext op (real_mode requested) vs) with
      | Ok v => Ok (if eqb_of requested "fit" then TheExpr else TheValue v)
      | Err ex => Err ex
      end.
  Proof.
    intros Hc Hfs Hvs. set (ob := OExpr (IOp op fs) None false false).
    assert (Hch : forall c, In c (children ob) -> c < size /\ acyclic h c).
    { intros c Hin. cbn in Hin. apply in_map_iff in Hin. destruct Hin as (nc & <- & Hin). apply Hfs. exact Hin. }
    destruct (evaluate_value ext (extend h size [ob]) (S size) size e requested s) as (r & D & ->).
    { apply closed_extend; [exact Hc|]. intros c Hin. apply Hch. exact Hin. }
    { lia. }
    { apply acyclic_extend; assumption. }
    assert (Hd : exists d, dmapM (fun nc => dbind (dbind (den ext (extend h size [ob]) e (real_mode requested) (fitted s) d (snd nc)) (fun vf => Some (Ok (fst vf)))) (fun v => Some (Ok (fst nc, v)))) fs = Some (Ok vs)).
    { clear D r. clearbody ob. clear Hch. induction Hvs as [|[n c] [n' v] fs vs [En [d1 E1]] Hr IH]; [exists 0; reflexivity|].
      destruct IH as [d2 E2]; [intros nc Hin; apply Hfs; right; exact Hin|].
      cbn in En, E1. unfold ev in E1. subst n'. exists (d1 + d2). cbn [dmapM fst snd].
      destruct (den ext h e (real_mode requested) (fitted s) d1 c) as [[[v1 a1]|]|] eqn:Ed; cbn in E1; try discriminate.
      injection E1 as ->.
      assert (Hlc : c < size) by (apply (Hfs (n, c)); left; reflexivity).
      apply (den_extend ext h (extend h size [ob]) size Hc (extends_extend _ _ _) e _ (fitted s) (fitted s) (fun _ _ => eq_refl) c Hlc) in Ed.
      apply (den_mono _ _ _ _ _ d1 (d1 + d2)) in Ed; [|lia]. rewrite Ed. cbn [dbind fst].
      assert (Hmono : forall l d d' r, d <= d' ->
        dmapM (fun nc : string * oid => dbind (dbind (den ext (extend h size [ob]) e (real_mode requested) (fitted s) d (snd nc)) (fun vf => Some (Ok (fst vf)))) (fun v => Some (Ok (fst nc, v)))) l = Some r ->
        dmapM (fun nc : string * oid => dbind (dbind (den ext (extend h size [ob]) e (real_mode requested) (fitted s) d' (snd nc)) (fun vf => Some (Ok (fst vf)))) (fun v => Some (Ok (fst nc, v)))) l = Some r).
      { intros l d d' r Hle. revert r. change (dle (dmapM (fun nc : string * oid => dbind (dbind (den ext (extend h size [ob]) e (real_mode requested) (fitted s) d (snd nc)) (fun vf => Some (Ok (fst vf)))) (fun v => Some (Ok (fst nc, v)))) l)
          (dmapM (fun nc : string * oid => dbind (dbind (den ext (extend h size [ob]) e (real_mode requested) (fitted s) d' (snd nc)) (fun vf => Some (Ok (fst vf)))) (fun v => Some (Ok (fst nc, v)))) l)).
        induction l as [|nc l IHl]; [apply dle_refl|]. cbn [dmapM]. apply dle_bind.
        - apply dle_bind; [|intros; apply dle_refl]. apply dle_bind; [|intros; apply dle_refl].
          intros r Er. eapply den_mono; eauto.
        - intros b. apply dle_bind; [exact IHl|]. intros; apply dle_refl. }
      rewrite (Hmono fs d2 (d1 + d2) (Ok vs)); [reflexivity|lia|exact E2]. }
    destruct Hd as [d Ed].
    assert (r = match shown ext (real_mode requested) (op_sem ext op (real_mode requested) vs) with
                | Ok v => Ok (v, fitted s size) | Err ex => Err ex end) as ->.
    { eapply Den_det; [exact D|]. exists (S d). cbn [den]. rewrite extend_new. cbn [provided app first_provided].
      unfold ob at 1. change (provided e (IOp op fs) None false false) with (@None V). cbv iota.
      rewrite Ed. cbn [dbind]. destruct (op_sem ext op (real_mode requested) vs); reflexivity. }
    destruct (op_sem ext op (real_mode requested) vs); reflexivity.
  Qed.

  (** A comparison gives the same as the swapped one on swapped operands. *)
  Definition mirrored (mode : string) : Prop :=
    forall op op' a b, In (op, op') [("lt", "gt"); ("gt", "lt"); ("le", "ge"); ("ge", "le"); ("eq", "eq"); ("ne", "ne")] ->
      op_sem ext ("BinOp " ++ op') mode [("left", b); ("right", a)] = op_sem ext ("BinOp " ++ op) mode [("left", a); ("right", b)].

  (** Calling a method is getting the attribute and calling it. *)
  Definition method_is_call (mode : string) : Prop :=
    forall obj name args kwargs,
      op_sem ext "CallMethod" mode [("obj", obj); ("method_name", name); ("args", args); ("kwargs", kwargs)]
      = match op_sem ext "GetAttr" mode [("source_object", obj); ("attr_name", name)] with
        | Ok f => op_sem ext "Call" mode [("func", f); ("args", args); ("kwargs", kwargs)]
        | Err ex => Err ex
        end.

  Lemma binary_node own (h : heap V K) op left right :
    (exists i, binary own h op left right = Node i) <->
    In op bin_ops /\ (is_expr (h left) = true \/ own op left right = None).
  Proof.
    unfold binary. split.
    - intros [i E]. destruct (mem op bin_ops) eqn:Em; [|discriminate]. apply mem_true in Em. split; [exact Em|].
      destruct (is_expr (h left)); [auto|]. destruct (own op left right); [discriminate|auto].
    - intros [Hin Hx]. apply mem_true in Hin. rewrite Hin. destruct (is_expr (h left)); [eauto|].
      destruct Hx as [Hx|Hx]; [discriminate|]. rewrite Hx. destruct (swapped op); eauto.
  Qed.

  Lemma binary_value own (h : heap V K) size op left right i requested e (s : st V F) va vb :
    closed h size -> left < size -> right < size -> acyclic h left -> acyclic h right ->
    mirrored (real_mode requested) -> binary own h op left right = Node i ->
    DenV ext h e (real_mode requested) (fitted s) left (Ok va) ->
    DenV ext h e (real_mode requested) (fitted s) right (Ok vb) ->
    snd (evaluate ext (extend h size [OExpr i None false false]) (S size) size requested e true s)
    = match shown ext (real_mode requested) (op_sem ext ("BinOp " ++ op) (real_mode requested) [("left", va); ("right", vb)]) with
      | Ok v => Ok (if eqb_of requested "fit" then TheExpr else TheValue v)
      | Err ex => Err ex
      end.
  Proof.
    intros Hc Hl Hr Hal Har Hm Hb Da Db. unfold binary in Hb.
    destruct (mem op bin_ops); [|discriminate].
    assert (Hstraight : snd (evaluate ext (extend h size [OExpr (bin_op op left right) None false false]) (S size) size requested e true s)
      = match shown ext (real_mode requested) (op_sem ext ("BinOp " ++ op) (real_mode requested) [("left", va); ("right", vb)]) with
        | Ok v => Ok (if eqb_of requested "fit" then TheExpr else TheValue v)
        | Err ex => Err ex
        end).
    { apply op_value; [exact Hc| |].
      - intros nc [<-|[<-|[]]]; cbn; auto.
      - repeat constructor; assumption. }
    destruct (is_expr (h left)); [injection Hb as <-; exact Hstraight|].
    destruct (own op left right); [discriminate|].
    destruct (swapped op) as [op'|] eqn:Es; injection Hb as <-; [|exact Hstraight].
    apply dget_In_weak in Es. rewrite <- (Hm op op' va vb Es).
    apply op_value; [exact Hc| |].
    - intros nc [<-|[<-|[]]]; cbn; auto.
    - repeat constructor; assumption.
  Qed.

  (** The value of a call is that of calling the value of the step, unless the step has a name
      or a mark. *)
  Lemma call_value (h : heap V K) size o args kwargs requested e (s : st V F) va vk fv :
    closed h size -> o < size -> args < size -> kwargs < size -> acyclic h o -> acyclic h args -> acyclic h kwargs ->
    method_is_call (real_mode requested) ->
    (forall src name n x y, h o = OExpr (IOp "GetAttr" [("source_object", src); ("attr_name", name)]) n x y ->
       given h e o = None /\ exists vs vn,
       DenV ext h e (real_mode requested) (fitted s) src (Ok vs) /\ DenV ext h e (real_mode requested) (fitted s) name (Ok vn)) ->
    (forall fs n x y, h o = OExpr (IOp "GetAttr" fs) n x y -> exists src name, fs = [("source_object", src); ("attr_name", name)]) ->
    DenV ext h e (real_mode requested) (fitted s) o (Ok fv) ->
    DenV ext h e (real_mode requested) (fitted s) args (Ok va) ->
    DenV ext h e (real_mode requested) (fitted s) kwargs (Ok vk) ->
    snd (evaluate ext (extend h size [OExpr (call_node h o args kwargs) None false false]) (S size) size requested e true s)
    = match shown ext (real_mode requested) (op_sem ext "Call" (real_mode requested) [("func", fv); ("args", va); ("kwargs", vk)]) with
      | Ok v => Ok (if eqb_of requested "fit" then TheExpr else TheValue v)
      | Err ex => Err ex
      end.
  Proof.
    intros Hc Ho Hla Hlk Hao Haa Hak Hm Hget Hshape Do Da Dk.
    assert (Hcall : snd (evaluate ext (extend h size [OExpr (IOp "Call" [("func", o); ("args", args); ("kwargs", kwargs)]) None false false]) (S size) size requested e true s)
      = match shown ext (real_mode requested) (op_sem ext "Call" (real_mode requested) [("func", fv); ("args", va); ("kwargs", vk)]) with
        | Ok v => Ok (if eqb_of requested "fit" then TheExpr else TheValue v)
        | Err ex => Err ex
        end).
    { apply op_value; [exact Hc| |].
      - intros nc [<-|[<-|[<-|[]]]]; cbn; auto.
      - repeat constructor; assumption. }
    unfold call_node. destruct (h o) as [i n x y| | | | | | | |] eqn:Eo; try exact Hcall.
    destruct i as [| | | | | | | |op fs]; try exact Hcall.
    destruct (eqb_of op "GetAttr") eqn:Eop; [|exact Hcall]. apply (proj1 (eqb_of_true _ _)) in Eop. subst op.
    destruct (Hshape fs n x y eq_refl) as (src & name & ->).
    destruct (Hget src name n x y eq_refl) as (Hgiven & vs & vn & Ds & Dn).
    change (dget "source_object" [("source_object", src); ("attr_name", name)]) with (Some src).
    change (dget "attr_name" [("source_object", src); ("attr_name", name)]) with (Some name). cbv iota.
    assert (Hchild : forall c, In c [src; name] -> c < size /\ acyclic h c).
    { intros c Hin. assert (Hin' : In c (children (h o))) by (rewrite Eo; exact Hin). split; [exact (Hc o c Ho Hin')|].
      intros z Hz. apply Hao. econstructor; [intros []|exact Hin'|exact Hz]. }
    rewrite (op_value h size "CallMethod" _ [("obj", vs); ("method_name", vn); ("args", va); ("kwargs", vk)]); [|exact Hc| |].
    2:{ intros nc [<-|[<-|[<-|[<-|[]]]]]; cbn; auto; apply Hchild; simpl; auto. }
    2:{ repeat constructor; assumption. }
    rewrite Hm.
    assert (Hop : op_sem ext "GetAttr" (real_mode requested) [("source_object", vs); ("attr_name", vn)] = Ok fv).
    { destruct Do as [d Do]. unfold ev in Do. destruct (den ext h e (real_mode requested) (fitted s) d o) as [[[v1 a1]|]|] eqn:Ed; cbn in Do; try discriminate.
      injection Do as ->. destruct d as [|d]; [discriminate|]. cbn [den] in Ed. rewrite Eo in Ed.
      unfold given in Hgiven. rewrite Eo in Hgiven. rewrite Hgiven in Ed.
      destruct (dmapM _ _) as [[l|]|] eqn:El in Ed; cbn in Ed; try discriminate.
      assert (l = [("source_object", vs); ("attr_name", vn)]) as ->.
      { destruct Ds as [d1 E1], Dn as [d2 E2]. unfold ev in E1, E2. cbn [dmapM fst snd] in El.
        destruct (den ext h e (real_mode requested) (fitted s) d src) as [[[w1 b1]|]|] eqn:F1; cbn in El; try discriminate.
        destruct (den ext h e (real_mode requested) (fitted s) d name) as [[[w2 b2]|]|] eqn:F2; cbn in El; try discriminate.
        destruct (den ext h e (real_mode requested) (fitted s) d1 src) as [[[u1 c1]|]|] eqn:G1; cbn in E1; try discriminate.
        destruct (den ext h e (real_mode requested) (fitted s) d2 name) as [[[u2 c2]|]|] eqn:G2; cbn in E2; try discriminate.
        injection E1 as ->. injection E2 as ->. injection El as <-.
        assert (Q1 : Ok (w1, b1) = Ok (vs, c1)) by (eapply Den_det; eexists; eassumption).
        assert (Q2 : Ok (w2, b2) = Ok (vn, c2)) by (eapply Den_det; eexists; eassumption).
        congruence. }
      destruct (op_sem ext "GetAttr" _ _) as [w|ex]; cbn in Ed; [congruence|].
      discriminate. }
    rewrite Hop. reflexivity.
  Qed.
End Modify.
