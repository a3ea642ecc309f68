(** The kind and the classes of a pipeline. *)
From Verif Require Import Base L_dict M_traverse L_traverse M_expr L_expr1 L_expr2 L_expr3 L_expr4 L_expr5 L_expr6 L_expr7.
From Verif Require Import M_grid M_choicegraph L_conflicts L_choicegraph L_choicegraph2 M_clone L_clone2 M_check L_check L_namespace3.
From Verif Require Import L_estimator1 M_estimator L_estimator3 L_estimator4 L_kind M_kind L_kind2.
Open Scope string_scope.
Open Scope list_scope.
Open Scope nat_scope.
Set Default Proof Using "Type".

(** ** Specification *)
Section Spec.
  Context {V K : Type} `{EqD K}.
  Variable hash_obj : oid -> res K.
  Variable h : heap V K.

  (** What is used for [e] when nothing was chosen, looking at one choice. *)
  Definition picks (e t : oid) : Prop :=
    match h e with
    | OChoice _ outs _ => exists ty items, h outs = OSeq ty items /\ nth_error items 0 = Some t
    | OChoiceMatch c m => exists items w, has_outcomes h c items /\ nth_error items 0 = Some w /\ maps hash_obj h m w t
    | ONumChoice _ _ _ => False
    | _ => t = e
    end.
  (** ... looking at all of them: [t] is not a choice. *)
  Inductive settles : oid -> oid -> Prop :=
  | settles_self e : (match h e with OChoice _ _ _ | OChoiceMatch _ _ | ONumChoice _ _ _ => False | _ => True end) -> settles e e
  | settles_more e t u : e <> t -> picks e t -> settles t u -> settles e u.

  (** The estimator given to the apply step [a]. *)
  Definition applies (a e : oid) : Prop :=
    match h a with OExpr (IApply _ est _ _ _ _ _) _ _ _ => est = e | _ => False end.

  (** A variable without a value. *)
  Definition unset_variable (x : oid) : Prop :=
    match h x with OExpr (IVar None) _ _ _ => True | _ => False end.
End Spec.

(** ** What cannot be computed because of what it needs *)
Section Fails.
  Context {V K F : Type} `{EqD K}.
  Variable ext : externals V K F.
  Variable h : heap V K.
  Variable e : env V.
  Variable mode : string.
  Variable f0 : oid -> option (fit_attr V F).
  Notation ev := (ev ext h e mode f0).
  Notation DenV := (DenV ext h e mode f0).

  Lemma dbind_ok {A B} (x : dres A) (k : A -> dres B) b : dbind x k = Some (Ok b) ->
    exists a, x = Some (Ok a) /\ k a = Some (Ok b).
  Proof. destruct x as [[a|ex]|]; cbn; intros E; try discriminate. eauto. Qed.
  Lemma dmapM_ok {A B} (f : A -> dres B) : forall l bs, dmapM f l = Some (Ok bs) ->
    forall a, In a l -> exists b, f a = Some (Ok b).
  Proof.
    induction l as [|x l IH]; intros bs E a Ha; [destruct Ha|]. cbn [dmapM] in E.
    apply dbind_ok in E. destruct E as (b & Eb & E). apply dbind_ok in E. destruct E as (bs' & Ebs & _).
    destruct Ha as [<-|Ha]; eauto.
  Qed.
  Lemma args_ok_in d (l : list (string * oid)) vs t :
    dmapM (fun nc => dbind (dbind (den ext h e mode f0 d (snd nc)) (fun vf => Some (Ok (fst vf)))) (fun v => Some (Ok (fst nc, v)))) l = Some (Ok vs) ->
    In t (map snd l) -> exists v, DenV t (Ok v).
  Proof.
    intros E Ht. apply in_map_iff in Ht. destruct Ht as ([m c] & <- & Hin).
    destruct (dmapM_ok _ _ _ E _ Hin) as [b Eb]. apply dbind_ok in Eb. destruct Eb as (v & Ev & _).
    exists v. exists d. exact Ev.
  Qed.

  Lemma needs_ok o r t : Den ext h e mode f0 o (Ok r) -> needs ext h e mode f0 o t -> exists v, DenV t (Ok v).
  Proof.
    intros [d E] Hn. destruct d as [|d]; [discriminate|]. cbn [den] in E. unfold needs in Hn.
    assert (Hdet : forall c v w, DenV c (Ok v) -> dbind (den ext h e mode f0 d c) (fun vf => Some (Ok (fst vf))) = Some (Ok w) -> v = w).
    { intros c v w Hv Hw. assert (Hd : DenV c (Ok w)) by (exists d; exact Hw).
      pose proof (DenV_det ext h e mode f0 c _ _ Hv Hd) as E1. congruence. }
    destruct (h o) as [i name isX isY|ty items|ty items|a b c|name outs ch|name df ch|c m|cls p|w] eqn:Eo.
    - destruct Hn as [Hp Hn]. rewrite Hp in E.
      destruct i as [value|value|cnd it fa|q tg default|tgt|X est y cols how allow unsup|tgt|fi ot|op fs].
      + destruct value as [c|]; [|destruct Hn]. apply dbind_ok in E. destruct E as (v & Ev & _).
        destruct Hn as [<-|[]]. exists v, d. exact Ev.
      + apply dbind_ok in E. destruct E as (v & Ev & _). destruct Hn as [<-|[]]. exists v, d. exact Ev.
      + apply dbind_ok in E. destruct E as (cv & Ec & E). apply dbind_ok in E. destruct E as (b & Eb & E).
        apply dbind_ok in E. destruct E as (v & Ev & _). injection Eb as Eb.
        destruct Hn as [->|(cv' & Hcv & Hb)]; [exists cv, d; exact Ec|].
        rewrite (Hdet _ _ _ Hcv Ec) in Hb. destruct Hb as [[Hb ->]|[Hb ->]]; rewrite Hb in Eb; injection Eb as <-; exists v, d; exact Ev.
      + apply dbind_ok in E. destruct E as (qv & Eq & E). apply dbind_ok in E. destruct E as (key & Ek & E).
        apply dbind_ok in E. destruct E as (v & Ev & _). injection Ek as Ek.
        destruct Hn as [->|(qv' & key' & ty & items & Hq & Hk & Htg & Hd)]; [exists qv, d; exact Eq|].
        rewrite (Hdet _ _ _ Hq Eq) in Hk. rewrite Hk in Ek. injection Ek as <-. rewrite Htg in Ev.
        destruct Hd as [Hd|[Hd ->]]; rewrite Hd in Ev; exists v, d; exact Ev.
      + destruct Hn as [Hm ->]. rewrite Hm in E. apply dbind_ok in E. destruct E as (v & Ev & _). exists v, d. exact Ev.
      + unfold used_by_apply in Hn. destruct (fit_mode mode); apply dbind_ok in E; destruct E as (vs & Evs & _);
          eapply args_ok_in; try exact Evs.
        * destruct unsup; simpl in *; intuition.
        * destruct (eqb_of mode "score"); simpl in *; intuition.
      + apply dbind_ok in E. destruct E as ([v f] & Ev & _). destruct Hn as [<-|[]]. exists v. apply (Den_V ext h e mode f0 _ v f). exists d. exact Ev.
      + apply dbind_ok in E. destruct E as (vs & Evs & _). eapply args_ok_in; [exact Evs|]. exact Hn.
      + apply dbind_ok in E. destruct E as (vs & Evs & _). eapply args_ok_in; [exact Evs|]. exact Hn.
    - apply dbind_ok in E. destruct E as (v & E & _). apply dbind_ok in E. destruct E as (kvs & Ek & _). simpl in Hn.
      apply in_map_iff in Hn. destruct Hn as ([k c] & <- & Hin). destruct (dmapM_ok _ _ _ Ek _ Hin) as [b Eb].
      apply dbind_ok in Eb. destruct Eb as (w & Ew & _). exists w, d. exact Ew.
    - apply dbind_ok in E. destruct E as (v & E & _). apply dbind_ok in E. destruct E as (vs & Ek & _). simpl in Hn.
      destruct (dmapM_ok _ _ _ Ek _ Hn) as [b Eb]. exists b, d. exact Eb.
    - apply dbind_ok in E. destruct E as (v & E & _). apply dbind_ok in E. destruct E as (x & Ex & E).
      apply dbind_ok in E. destruct E as (y & Ey & E). apply dbind_ok in E. destruct E as (z & Ez & _).
      destruct Hn as [<-|[<-|[<-|[]]]]; eexists; exists d; eassumption.
    - destruct Hn as [Hnm (ty & items & Ho & Hnth)]. rewrite Hnm, Ho, Hnth in E. apply dbind_ok in E.
      destruct E as (v & Ev & _). exists v, d. exact Ev.
    - destruct Hn.
    - apply dbind_ok in E. destruct E as (cv & Ec & E). apply dbind_ok in E. destruct E as (key & Ek & E).
      apply dbind_ok in E. destruct E as (v & Ev & _). injection Ek as Ek.
      destruct Hn as [->|(cv' & key' & ty & items & Hc & Hk & Hm & Hd)]; [exists cv, d; exact Ec|].
      rewrite (Hdet _ _ _ Hc Ec) in Hk. rewrite Hk in Ek. injection Ek as <-. rewrite Hm, Hd in Ev. exists v, d. exact Ev.
    - apply dbind_ok in E. destruct E as (v & E & _). apply dbind_ok in E. destruct E as (ps & Ep & _).
      destruct Hn as [<-|[]]. exists ps, d. exact Ep.
    - destruct Hn.
  Qed.

  Variable size : nat.
  Variable root : oid.
  Hypothesis Hclosed : closed h size.
  Hypothesis Hroot : root < size.
  Hypothesis Hacyclic : acyclic h root.

  Lemma total x : part_of h root x -> mode <> "fit" -> exists r, Den ext h e mode f0 x r.
  Proof using Hclosed Hroot Hacyclic.
    intros Hx Hm. pose proof (part_lt h size root Hclosed Hroot x Hx) as Hl.
    pose proof (part_acyclic h root Hacyclic x Hx) as Ha.
    set (s := mk_st (fun _ _ => None) (fun _ _ => None) f0 [] : st V F).
    destruct (evaluate_value ext h size x e mode s Hclosed Hl Ha) as (r & D & _).
    assert (Er : real_mode mode = mode).
    { unfold real_mode. destruct (eqb_of mode "fit") eqn:E; [|reflexivity]. apply (proj1 (eqb_of_true _ _)) in E. contradiction. }
    rewrite Er in D. eauto.
  Qed.

  Lemma needed_fails o x ex : part_of h root o -> mode <> "fit" -> needed ext h e mode f0 o x -> DenV x (Err ex) ->
    exists ex', DenV o (Err ex').
  Proof using Hclosed Hroot Hacyclic.
    intros Ho Hm Hn. revert ex. induction Hn as [|x t Hn IH Ht]; intros ex Hd; [eauto|].
    assert (Hx : part_of h root x).
    { eapply reach_trans; [exact Ho|]. eapply needed_part. exact Hn. }
    destruct (total x Hx Hm) as [[[v f]|ex'] D].
    - destruct (needs_ok x (v, f) t D Ht) as [w Hw]. pose proof (DenV_det ext h e mode f0 t _ _ Hd Hw). discriminate.
    - eapply IH. apply Den_V_err. exact D.
  Qed.
End Fails.

(** ** Classes *)
Section Classes.
  Context {V K F : Type} `{EqD K}.
  Variable ext : externals V K F.
  Variable hash_obj : oid -> res K.
  Variable is_df : V -> bool.
  Variable kind_of_class : string -> option string.
  Variable kind_of_value : V -> option string.
  Variable classes_of : F -> option V.
  Variable str : string -> V.
  Variable h : heap V K.
  Variable size : nat.
  Variable root : oid.
  Hypothesis Hclosed : closed h size.
  Hypothesis Hroot : root < size.
  Hypothesis Hacyclic : acyclic h root.
  Hypothesis Hstr : forall name, is_df (str name) = false.
  Notation get_classes := (get_classes ext hash_obj is_df classes_of str h size).
  Notation after_asking := (after_asking ext hash_obj is_df classes_of str h size).
  Notation search_classes := (search_classes ext hash_obj is_df classes_of str h size).
  Notation estimator_type := (estimator_type ext hash_obj is_df kind_of_class kind_of_value str h size).

  (** The expression was accepted when it was created. *)
  Definition accepted : Prop :=
    no_conflict h root /\ (forall d, ~ bare_dataframe is_df h root d) /\
    L_choicegraph.choices_ok hash_obj h root /\ L_estimator3.choices_ok h root.

  (** Each step that keeps something needs a variable without a value, and so does the whole. *)
  Definition waits_for_data (f : oid -> option (fit_attr V F)) : Prop :=
    (forall o, part_of h root o -> stateful h o ->
       exists x, x <> o /\ needed ext h [] "preview" f o x /\ unset_variable h x) /\
    DenV ext h [] "preview" f root (Err UninitializedVariable).

  Lemma unset_fails f x : unset_variable h x -> DenV ext h [] "preview" f x (Err UninitializedVariable).
  Proof.
    unfold unset_variable. intros Hx. apply Den_V_err. exists 1. cbn [den].
    destruct (h x) as [[[|]| | | | | | | |] nm isX isY| | | | | | | |]; try contradiction.
    assert (Hp : forall l, first_provided (V := V) [] l = None) by (induction l; auto).
    unfold provided. rewrite Hp. reflexivity.
  Qed.

  Lemma waits_nothing f : waits_for_data f -> nothing_fitted ext h [] "preview" f root.
  Proof using Hclosed Hroot Hacyclic.
    intros [Hw _] o Ho Hst. destruct (Hw o Ho Hst) as (x & Hne & Hn & Hx).
    destruct (needed_first _ _ _ _ _ _ _ Hn) as [E|(b & Hb & Hbx)]; [congruence|].
    assert (Hpb : part_of h root b).
    { eapply reach_trans; [exact Ho|]. apply edge_part. eapply needs_edge. exact Hb. }
    destruct (needed_fails ext h [] "preview" f size root Hclosed Hroot Hacyclic b x UninitializedVariable Hpb) as [ex' Hd]; [discriminate|exact Hbx|apply unset_fails; exact Hx|].
    exists b, ex'. auto.
  Qed.

  Lemma ask_inv s0 f : accepted -> waits_for_data f ->
    Inv ext (with_attr str h size root "expr") [] "preview" f (S size) s0 ->
    forall k, (forall x, fitted (after_asking k root s0) x = fitted s0 x) /\
      Inv ext (with_attr str h size root "expr") [] "preview" f (S size) (after_asking k root s0).
  Proof using Hclosed Hroot Hacyclic Hstr.
    intros (A1 & A2 & A3 & A4) Hw Hi k. revert s0 Hi. induction k as [|k IH]; intros s0 Hi; [split; [reflexivity|exact Hi]|].
    destruct (getattr_calm ext hash_obj is_df str h size root "expr" Hclosed Hroot Hacyclic (Hstr _) f s0 A1 A2 A3 (waits_nothing f Hw) (proj2 Hw) Hi) as (Er & Hf & Hi').
    assert (Es : fst (get_classes root s0) = fst (getattr_expr ext hash_obj is_df str h size root "expr" s0)).
    { unfold M_kind.get_classes. destruct (getattr_expr _ _ _ _ _ _ _ _ s0) as [s1 [u|ex]]; reflexivity. }
    cbn [M_kind.after_asking]. rewrite Es. destruct (IH _ Hi') as [H1 H2]. split; [|exact H2].
    intros x. rewrite H1. apply Hf.
  Qed.

  Lemma classes_answer s : accepted -> waits_for_data (fitted s) -> (forall o, results s o "preview" = None) ->
    forall k, let s' := after_asking k root s in
    (forall x, fitted s' x = fitted s x) /\
    search_classes (Some root) s' = get_classes root s' /\
    ((exists a, in_use h root a /\ is_apply h a /\ (is_apply h root -> a = root) /\
        (forall g c, fitted s a = Some (FittedWith g) -> classes_of g = Some c -> snd (get_classes root s') = Ok c) /\
        ((forall g c, fitted s a = Some (FittedWith g) -> classes_of g <> Some c) ->
           snd (get_classes root s') = Err AttributeError)) \/
     ((forall a, in_use h root a -> ~ is_apply h a) /\ snd (get_classes root s') = Err AttributeError)).
  Proof using Hclosed Hroot Hacyclic Hstr.
    intros Hacc Hw Hs k s'.
    assert (Hi : Inv ext (with_attr str h size root "expr") [] "preview" (fitted s) (S size) s).
    { split; [intros o v _ _ _ E; rewrite Hs in E; discriminate|auto]. }
    destruct (ask_inv s (fitted s) Hacc Hw Hi k) as [Hf Hi']. fold s' in Hf, Hi'.
    split; [exact Hf|]. split; [reflexivity|].
    destruct Hacc as (A1 & A2 & A3 & A4).
    destruct (getattr_calm ext hash_obj is_df str h size root "expr" Hclosed Hroot Hacyclic (Hstr _) (fitted s) s' A1 A2 A3 (waits_nothing _ Hw) (proj2 Hw) Hi') as (Er & Hf2 & _).
    assert (Hfind := find2 str h size root "expr" Hclosed Hroot Hacyclic A4).
    assert (Hans : forall first, find_first_apply h size root = Ok first ->
      snd (get_classes root s') = match first with
        | None => Err AttributeError
        | Some a => match fitted_with (fitted s a) with
                    | None => Err AttributeError
                    | Some g => match classes_of g with Some c => Ok c | None => Err AttributeError end
                    end
        end).
    { intros first Ef. unfold M_kind.get_classes.
      destruct (getattr_expr ext hash_obj is_df str h size root "expr" s') as [s2 r] eqn:Eg. cbn [fst snd] in Er, Hf2. subst r.
      cbn [snd]. rewrite Hfind, Ef. cbn [bind]. destruct first as [a|]; [|reflexivity]. rewrite Hf2, Hf. reflexivity. }
    destruct (find_first_ok h size root Hclosed Hroot Hacyclic A4) as [(a & Ea & Hu & Ha)|(Ea & Hno)].
    - left. exists a. split; [exact Hu|]. split; [exact Ha|]. split; [|split].
      + intros Hr. unfold find_first_apply, find_with in Ea. destruct size as [|sz]; [lia|].
        cbn [visit] in Ea. unfold first_apply_handler at 2 in Ea. unfold is_apply in Hr.
        destruct (h root) as [[] ? ? ?| | | | | | | |]; try contradiction. cbn in Ea. congruence.
      + intros g c Eg Ec. rewrite (Hans _ Ea), Eg. cbn. rewrite Ec. reflexivity.
      + intros Hno. rewrite (Hans _ Ea). destruct (fitted s a) as [[v|g]|] eqn:Eg; try reflexivity. cbn.
        destruct (classes_of g) as [c|] eqn:Ec; [|reflexivity]. exfalso. exact (Hno g c eq_refl Ec).
    - right. split; [exact Hno|]. rewrite (Hans _ Ea). reflexivity.
  Qed.

  (** ** Kind *)
  Lemma picks_default e t : picks hash_obj h e t -> get_default ext hash_obj h e = Ok (GObj t).
  Proof.
    unfold picks, get_default, default_of. destruct (h e) as [| | | |nm outs ch|nm df ch|c m| |] eqn:Ee; try (intros ->; reflexivity).
    - intros (ty & items & Eo & En). unfold nth_outcome. rewrite Eo, En. reflexivity.
    - contradiction.
    - intros (items & w & (nm & outs & ch & ty & Ec & Eo) & En & (key & ty' & entries & Ek & Em & Ed)).
      rewrite Ec. unfold nth_outcome. rewrite Eo, En. cbn [bind got_key]. rewrite Ek. cbn [bind].
      unfold map_lookup. rewrite Em, Ed. reflexivity.
  Qed.

  Lemma kind_answer s : L_estimator3.choices_ok h root ->
    (exists a, in_use h root a /\ is_apply h a /\ (is_apply h root -> a = root) /\
       forall e t, applies h a e -> picks hash_obj h e t ->
         (forall cls p, h t = OEstimator cls p ->
            estimator_type root s = (s, Ok (KindIs (match kind_of_class cls with Some k => k | None => "transformer" end)))) /\
         (forall v, h t = OValue v ->
            estimator_type root s = (s, Ok (KindIs (match kind_of_value v with Some k => k | None => "transformer" end))))) \/
    ((forall a, in_use h root a -> ~ is_apply h a) /\ estimator_type root s = (s, Ok (KindIs "transformer"))).
  Proof using Hclosed Hroot Hacyclic.
    intros A4. destruct (find_first_ok h size root Hclosed Hroot Hacyclic A4) as [(a & Ea & Hu & Ha)|(Ea & Hno)].
    - left. exists a. split; [exact Hu|]. split; [exact Ha|]. split.
      + intros Hr. unfold find_first_apply, find_with in Ea. destruct size as [|sz]; [lia|].
        cbn [visit] in Ea. unfold first_apply_handler at 2 in Ea. unfold is_apply in Hr.
        destruct (h root) as [[] ? ? ?| | | | | | | |]; try contradiction. cbn in Ea. congruence.
      + intros e t He Hp. apply picks_default in Hp. unfold M_kind.estimator_type. rewrite Ea. unfold applies in He.
        destruct (h a) as [[] ? ? ?| | | | | | | |]; try contradiction. subst. rewrite Hp.
        split; intros * Et; rewrite Et.
        * destruct (kind_of_class cls); reflexivity.
        * destruct (kind_of_value v); reflexivity.
    - right. split; [exact Hno|]. unfold M_kind.estimator_type. rewrite Ea. reflexivity.
  Qed.
End Classes.

(** ** Examples
    Values are numbers. A fitted step remembers its input; using it adds what it remembers. The
    classes are 1 more than what is remembered. Nothing has an attribute "expr". *)
Definition kx_arg (args : list (string * nat)) : nat :=
  match dget "X" args with Some x => x | None => 0 end.
Definition kx_ext : externals nat nat nat := {|
  truthy v := Ok (negb (v =? 0));
  key_of v := Ok v;
  mk_seq _ vs := Ok (fold_right plus 0 vs);
  mk_map _ kvs := Ok (fold_right (fun a b => snd a + b) 0 kvs);
  mk_slice a b c := a + b + c;
  mk_estimator cls p := Ok p;
  op_sem op mode args := if eqb_of op "GetAttr" then Err AttributeError else Ok (kx_arg args);
  apply_fit args _ := Ok (kx_arg args, kx_arg args);
  apply_failed _ _ f := f;
  apply_use mode f args :=
    match f with Some n => Ok (n + kx_arg args) | None => Err NotFittedError end;
  concat_fit args := Ok (kx_arg args, 0);
  concat_use _ args := Ok (kx_arg args);
  applied f := f;
  has_add_note := true |}.

(** [source]: what is marked as X, a variable or data. 7 applies a classifier, the outcome of a
    choice, to the output of a vectorizer; the target is a variable. 8 and 9 apply an outcome of
    a choice of choices. *)
Definition kx_heap (source : impl) : heap nat nat := fun o =>
  match o with
  | 0 => OValue 5
  | 1 => OExpr source (Some "X") true false
  | 2 => OExpr (IVar None) (Some "y") false true
  | 3 => OEstimator "Vectorizer" 4
  | 4 => OMap "dict" []
  | 5 => OExpr (IApply 1 3 0 0 0 0 true) None false false
  | 6 => OEstimator "LogisticRegression" 4
  | 7 => OExpr (IApply 5 10 2 0 0 0 false) None false false
  | 8 => OExpr (IApply 5 12 2 0 0 0 false) None false false
  | 9 => OEstimator "Ridge" 4
  | 10 => OChoice (Some "classifier") 11 None
  | 11 => OSeq "list" [6; 9]
  | 12 => OChoice (Some "any") 13 None
  | 13 => OSeq "list" [10; 9]
  | 14 => OExpr (IApply 5 15 2 0 0 0 false) None false false
  | 15 => OChoice (Some "chosen") 11 (Some 1)
  | 16 => OExpr (IApply 5 6 0 0 0 0 true) None false false
  | _ => OValue 0
  end.
Definition kx_size := 17.
Definition kx_hash (o : oid) : res nat := Ok o.
Definition kx_df (v : nat) : bool := false.
Definition kx_kind (cls : string) : option string :=
  if eqb_of cls "LogisticRegression" then Some "classifier"
  else if eqb_of cls "Ridge" then Some "regressor" else None.
Definition kx_classes (f : nat) : option nat := Some (f + 1).
Definition kx_str (s : string) : nat := 77.
Definition kx_new : st nat nat := mk_st (fun _ _ => None) (fun _ _ => None) (fun _ => None) [].
Definition kx_ask src := get_classes kx_ext kx_hash kx_df kx_classes kx_str (kx_heap src) kx_size.
Definition kx_type src := estimator_type kx_ext kx_hash kx_df kx_kind (fun _ => None) kx_str (kx_heap src) kx_size.
Definition kx_eval src := evaluate kx_ext (kx_heap src) kx_size.
Definition kx_fitted src root (x : nat) : st nat nat :=
  fst (kx_eval src root "fit" [("_skrub_X", x); ("_skrub_y", 1)] true kx_new).
