(** Building a pipeline follows the run on the values. *)
From Verif Require Import Base L_dict M_traverse L_traverse M_expr L_expr1 L_expr2 L_expr3 L_expr4 L_expr5 L_expr6 L_expr7.
From Verif Require Import M_grid M_choicegraph L_conflicts M_clone M_check M_namespace L_estimator1 L_estimator2 L_namespace L_namespace2 L_namespace3 M_staging L_staging.
Open Scope string_scope.
Open Scope list_scope.
Open Scope nat_scope.
Set Default Proof Using "Type".

Section Build.
  Context {V K F : Type} {HK : EqD K}.
  Variable ext : externals V K F.
  Variable e : env V.
  Variable mode : string.
  Variable f : oid -> option (fit_attr V F).
  Notation mem_st := (@mem_st V K).
  Notation DV := (DV ext e mode f).
  Notation brel := (brel ext e mode f).
  Notation failing := (failing ext e mode f).

  Variable prim : string -> list (string * V) -> res V.
  Variable truth : V -> res bool.
  Variable iter : V -> res (list V).
  Variable is_none : V -> bool.
  Variable of_bool : bool -> V.
  Variable of_string : string -> V.
  Variable tuple1 : V -> V.
  Variable no_kwargs : V.
  Variable own : string -> oid -> oid -> option (res V).
  Variable foreign : string -> V -> oid -> res V.

  Definition good (m : mem_st) (r : res (bval V * mem_st)) : Prop :=
    match r with
    | Ok (b, m') => okm m' /\ grows m m' /\ wfb m' b
    | Err _ => True
    end.
  Definition sim (m : mem_st) (r : res (bval V * mem_st)) (d : res V) : Prop :=
    match r, d with
    | Ok (b, m'), Ok v => brel m' b v
    | Ok (b, m'), Err ex => failing m m' ex
    | Err ex, Ok _ => ex = TypeError \/ ex = AttributeError
    | Err _, Err _ => True
    end.

  Lemma good_widen m m1 r : grows m m1 -> good m1 r -> good m r.
  Proof. destruct r as [[b m']|]; [|auto]. intros Hg (H1 & H2 & H3). split; [exact H1|]. split; [eapply grows_trans; eauto|exact H3]. Qed.
  Lemma sim_widen m m1 r d : grows m m1 -> good m1 r -> sim m1 r d -> sim m r d.
  Proof.
    intros Hg. destruct r as [[b m']|], d as [v|ex]; cbn; auto. intros (H1 & H2 & H3) Hf.
    eapply failing_later; [exact H1|exact Hg|apply grows_refl|exact Hf].
  Qed.

  Lemma good_bind m r k : good m r ->
    (forall b m1, r = Ok (b, m1) -> okm m1 -> grows m m1 -> wfb m1 b -> good m1 (k b m1)) ->
    good m (let! (b, m1) := r in k b m1).
  Proof.
    destruct r as [[b m1]|]; [|auto]. intros (H1 & H2 & H3) Hk. eapply good_widen; [exact H2|]. apply Hk; auto.
  Qed.
  Lemma sim_bind m r d k kd : good m r -> sim m r d ->
    (forall b m1, r = Ok (b, m1) -> okm m1 -> grows m m1 -> wfb m1 b -> good m1 (k b m1)) ->
    (forall b m1 v, r = Ok (b, m1) -> d = Ok v -> okm m1 -> grows m m1 -> wfb m1 b -> brel m1 b v -> sim m1 (k b m1) (kd v)) ->
    sim m (let! (b, m1) := r in k b m1) (let! v := d in kd v).
  Proof.
    intros Hg Hs Hk Hkd. destruct r as [[b m1]|ex].
    - destruct Hg as (H1 & H2 & H3). specialize (Hk b m1 eq_refl H1 H2 H3). destruct d as [v|ex]; cbn in Hs |- *.
      + eapply sim_widen; [exact H2|exact Hk|]. apply Hkd; auto.
      + unfold sim. destruct (k b m1) as [[b' m']|]; [|exact I]. destruct Hk as (K1 & K2 & K3).
        eapply failing_later; [exact H1|apply grows_refl|exact K2|exact Hs].
    - destruct d as [v|]; cbn in *; [|exact I]. destruct (kd v); auto.
  Qed.

  (** *** The names *)
  Definition wfL (m : mem_st) (L : list (string * bval V)) : Prop := Forall (fun a => wfb m (snd a)) L.
  Definition lrel (m : mem_st) (L : list (string * bval V)) (D : list (string * V)) : Prop :=
    Forall2 (fun a b => fst a = fst b /\ brel m (snd a) (snd b)) L D.

  Lemma wfL_grow m m' L : okm m -> grows m m' -> wfL m L -> wfL m' L.
  Proof. intros Hm Hg. apply Forall_impl. intros a. apply wfb_grow; assumption. Qed.
  Lemma lrel_grow m m' L D : okm m -> grows m m' -> wfL m L -> lrel m L D -> lrel m' L D.
  Proof.
    intros Hm Hg Hw HL. induction HL as [|a b L D [E1 E2] _ IH]; [constructor|]. inversion Hw; subst.
    constructor; [|apply IH; assumption]. split; [exact E1|]. eapply brel_grow; eauto.
  Qed.
  Lemma wfL_get m L x b : wfL m L -> dget x L = Some b -> wfb m b.
  Proof.
    intros Hw. induction Hw as [|[y c] L H1 _ IH]; cbn; [discriminate|].
    destruct (eqd x y); [intros E; injection E as <-; exact H1|exact IH].
  Qed.
  Lemma wfL_set m L x b : wfL m L -> wfb m b -> wfL m (dset x b L).
  Proof.
    intros Hw Hb. induction Hw as [|[y c] L H1 H2 IH]; cbn; [constructor; [exact Hb|constructor]|].
    destruct (eqd x y); constructor; auto.
  Qed.
  Lemma lrel_get m L D x : lrel m L D ->
    match dget x L, dget x D with Some b, Some v => brel m b v | None, None => True | _, _ => False end.
  Proof.
    intros HL. induction HL as [|[y b] [z v] L D [E1 E2] _ IH]; cbn; [exact I|].
    cbn in E1. subst z. destruct (eqd x y); [exact E2|exact IH].
  Qed.
  Lemma lrel_set m L D x b v : lrel m L D -> brel m b v -> lrel m (dset x b L) (dset x v D).
  Proof.
    intros HL Hb. induction HL as [|[y c] [z w] L D [E1 E2] HL IH]; cbn; [constructor; [auto|constructor]|].
    cbn in E1. subst z. destruct (eqd x y); constructor; auto.
  Qed.

  (** *** The operations *)
  Notation build_bin := (build_bin (K:=K) prim own).
  Notation build_un := (build_un (K:=K) prim).
  Notation build_item := (build_item (K:=K) prim foreign).
  Notation build_attr := (build_attr (K:=K) prim of_string).
  Notation build_call := (build_call (K:=K) prim tuple1 no_kwargs foreign).
  Notation build_truth := (build_truth truth).
  Notation build := (build (K:=K) prim truth is_none of_bool of_string tuple1 no_kwargs own foreign).
  Notation value_of := (value_of prim truth is_none of_bool of_string tuple1 no_kwargs).

  Lemma eta2 {A B} (p : A * B) : p = (fst p, snd p).
  Proof. destruct p; reflexivity. Qed.

  (** A plain result: nothing is built. *)
  Lemma plain_good m (r : res V) : okm m -> good m (let! v := r in Ok (BPlain v, m)).
  Proof. destruct r; cbn; [|auto]. intros Hm. split; [exact Hm|]. split; [apply grows_refl|exact I]. Qed.
  Lemma plain_sim m (r : res V) : sim m (let! v := r in Ok (BPlain v, m)) r.
  Proof. destruct r; cbn; auto. Qed.

  (** A node on fields that have been stored. *)
  Lemma node_good m m1 op fs : okm m1 -> grows m m1 -> (forall nc, In nc fs -> there m1 (snd nc)) ->
    (op = "GetAttr" -> exists src name, fs = [("source_object", src); ("attr_name", name)]) ->
    good m (Ok (new_expr (IOp op fs) m1)).
  Proof using ext e mode f HK.
    intros Hm Hg Hfs Hgt. destruct (new_ok ext e mode f m1 op fs Hm Hfs Hgt) as (H1 & H2 & H3 & _).
    rewrite (eta2 (new_expr (IOp op fs) m1)). cbn [good]. split; [exact H1|]. split; [eapply grows_trans; eauto|exact H3].
  Qed.
  Lemma node_sim m m1 op fs vs r : okm m1 -> grows m m1 -> (forall nc, In nc fs -> there m1 (snd nc)) ->
    (op = "GetAttr" -> exists src name, fs = [("source_object", src); ("attr_name", name)]) ->
    Forall2 (fun (nc : string * oid) (nv : string * V) => fst nc = fst nv /\ DV m1 (snd nc) (Ok (snd nv))) fs vs ->
    op_sem ext op mode vs = r -> sim m (Ok (new_expr (IOp op fs) m1)) r.
  Proof.
    intros Hm Hg Hfs Hgt Hvs <-. destruct (new_ok ext e mode f m1 op fs Hm Hfs Hgt) as (H1 & H2 & H3 & H4).
    specialize (H4 vs Hvs). rewrite (eta2 (new_expr (IOp op fs) m1)). unfold sim.
    destruct (op_sem ext op mode vs); [exact H4|].
    eapply failing_later; [exact H1|exact Hg|apply grows_refl|exact H4].
  Qed.

  Lemma bin_good op a b m : okm m -> wfb m a -> wfb m b -> good m (build_bin op a b m).
  Proof using ext e mode f HK.
    intros Hm Ha Hb. unfold M_staging.build_bin. 
    assert (Hgen : good m (let (l, m1) := stored a m in let (r, m2) := stored b m1 in
        match binary own (fst m2) op l r with
        | Node i => Ok (new_expr i m2)
        | Other r => let! v := r in Ok (BPlain v, m2)
        end)).
    { destruct (stored_ok ext e mode f m a Hm Ha) as (A1 & A2 & A3 & _). rewrite (eta2 (stored a m)).
      pose proof (wfb_grow m _ b Hm A2 Hb) as Hb'.
      destruct (stored_ok ext e mode f _ b A1 Hb') as (B1 & B2 & B3 & _). rewrite (eta2 (stored b (snd (stored a m)))).
      set (m1 := snd (stored a m)) in *. set (l := fst (stored a m)) in *.
      set (m2 := snd (stored b m1)) in *. set (r := fst (stored b m1)) in *.
      pose proof (there_grow m1 m2 l A1 B2 A3) as A3'.
      assert (Hg : grows m m2) by (eapply grows_trans; eauto).
      assert (Hany : forall op' x y, there m2 x -> there m2 y -> good m (Ok (new_expr (bin_op op' x y) m2))).
      { intros op' x y Hx Hy. apply node_good; [exact B1|exact Hg| |discriminate].
        intros nc [<-|[<-|[]]]; assumption. }
      unfold binary. destruct (mem op bin_ops).
      - destruct (is_expr (fst m2 l)); [apply Hany; assumption|].
        destruct (own op l r) as [rv|]; [|destruct (swapped op); apply Hany; assumption].
        destruct rv; cbn; [|exact I]. split; [exact B1|]. split; [exact Hg|exact I].
      - exact I. }
    destruct a, b; try exact Hgen. apply plain_good. exact Hm.
  Qed.

  Lemma un_good op a m : okm m -> wfb m a -> good m (build_un op a m).
  Proof using ext e mode f HK.
    intros Hm Ha. destruct a as [v|o]; cbn [M_staging.build_un]; [apply plain_good; exact Hm|].
    destruct (mem op un_ops); [|exact I]. apply node_good; [exact Hm|apply grows_refl| |discriminate].
    intros nc [<-|[]]. apply Ha.
  Qed.

  Lemma item_good a b m : okm m -> wfb m a -> wfb m b -> good m (build_item a b m).
  Proof using ext e mode f HK.
    intros Hm Ha Hb. destruct a as [va|o]; cbn [M_staging.build_item]; [destruct b; apply plain_good; exact Hm|].
    destruct (stored_ok ext e mode f m b Hm Hb) as (B1 & B2 & B3 & _). rewrite (eta2 (stored b m)).
    apply node_good; [exact B1|exact B2| |discriminate].
    intros nc [<-|[<-|[]]]; [|exact B3]. eapply there_grow; [exact Hm|exact B2|apply Ha].
  Qed.

  Lemma attr_good a name m : okm m -> wfb m a -> good m (build_attr a name m).
  Proof using ext e mode f HK.
    intros Hm Ha. destruct a as [v|o]; cbn [M_staging.build_attr]; [apply plain_good; exact Hm|].
    destruct (refused_attr name); [exact I|].
    destruct (stored_ok ext e mode f m (BPlain (of_string name)) Hm I) as (B1 & B2 & B3 & _).
    cbn [stored] in *. rewrite (eta2 (add (OValue (of_string name)) m)).
    apply node_good; [exact B1|exact B2| |eauto].
    intros nc [<-|[<-|[]]]; [|exact B3]. eapply there_grow; [exact Hm|exact B2|apply Ha].
  Qed.

  Lemma dict_den (h : heap V K) o : h o = OMap "dict" [] -> mk_map ext "dict" [] = Ok no_kwargs ->
    DenV ext h e mode f o (Ok no_kwargs).
  Proof. intros Eo Hd. exists 1. unfold ev. cbn [den]. rewrite Eo. cbn [dmapM dbind]. rewrite Hd. reflexivity. Qed.

  (** The arguments of a call. *)
  Lemma args_ok a m : okm m -> wfb m a ->
    let p := stored a m in
    let q := add (OSeq "tuple" [fst p]) (snd p) in
    let k := add (OMap "dict" []) (snd q) in
    okm (snd k) /\ grows m (snd k) /\ there (snd k) (fst q) /\ there (snd k) (fst k) /\
    (computes ext prim tuple1 no_kwargs mode -> forall v, brel m a v ->
       DV (snd k) (fst q) (Ok (tuple1 v)) /\ DV (snd k) (fst k) (Ok no_kwargs)).
  Proof using ext e mode f HK.
    intros Hm Ha p q k.
    destruct (stored_ok ext e mode f m a Hm Ha) as (B1 & B2 & B3 & B4). fold p in B1, B2, B3, B4.
    destruct (add_ok (snd p) (OSeq "tuple" [fst p]) B1) as (C1 & C2 & C3 & C4 & C5 & C6).
    { intros c [<-|[]]. exact B3. } { intros fs n x y Ex. discriminate. }
    fold q in C1, C2, C3, C4, C5, C6.
    destruct (add_ok (snd q) (OMap "dict" []) C1) as (D1 & D2 & D3 & D4 & D5 & D6).
    { intros c []. } { intros fs n x y Ex. discriminate. }
    fold k in D1, D2, D3, D4, D5, D6.
    split; [exact D1|]. split; [eapply grows_trans; [eapply grows_trans; [exact B2|exact C2]|exact D2]|].
    split; [exact (there_grow _ _ _ C1 D2 C6)|]. split; [exact D6|].
    intros (_ & Ht & Hd) v Hv. split.
    - change (fst q) with (snd (snd p)). eapply DV_grow; [exact C1|exact D2|apply C6|].
      specialize (B4 v Hv). pose proof (DV_grow ext e mode f _ _ _ _ B1 C2 (proj1 B3) B4) as B5.
      destruct (DV_ev _ _ _ _ _ _ _ B5) as [d Ed]. exists (S d). clearbody q. destruct q as [q1 [hq sq]]. cbn [fst snd] in *.
      unfold ev at 1. cbn [den]. rewrite C5. specialize (Ed d (le_n d)). unfold ev in Ed. cbn [dmapM]. rewrite Ed. cbn [dbind].
      rewrite Ht. reflexivity.
    - exact (dict_den (fst (snd k)) (snd (snd q)) D5 Hd).
  Qed.

  Lemma call_shape (m : mem_st) o args kwargs : okm m -> o < snd m ->
    call_node (fst m) o args kwargs = IOp "Call" [("func", o); ("args", args); ("kwargs", kwargs)] \/
    exists src name, fst m o = OExpr (IOp "GetAttr" [("source_object", src); ("attr_name", name)]) None false false /\
      call_node (fst m) o args kwargs = IOp "CallMethod" [("obj", src); ("method_name", name); ("args", args); ("kwargs", kwargs)].
  Proof.
    intros [_ Hp] Ho. unfold call_node. destruct (fst m o) as [i n x y| | | | | | | |] eqn:Eo; auto.
    destruct i as [| | | | | | | |op fs]; auto.
    destruct (eqb_of op "GetAttr") eqn:Eop; [|auto]. apply (proj1 (eqb_of_true _ _)) in Eop. subst op.
    destruct (Hp o fs n x y Ho Eo) as (-> & -> & -> & src & name & ->). right. exists src, name. split; reflexivity.
  Qed.

  Lemma child_there (m : mem_st) o i n x y c : okm m -> there m o -> fst m o = OExpr i n x y -> In c (map snd (fields i)) -> there m c.
  Proof.
    intros Hm [Ho Ha] Eo Hin. assert (Hin' : In c (children (fst m o))) by (rewrite Eo; exact Hin).
    split; [exact (proj1 Hm o c Ho Hin')|]. intros z Hz. apply Ha. econstructor; [intros []|exact Hin'|exact Hz].
  Qed.

  Lemma call_good g a m : okm m -> wfb m g -> wfb m a -> good m (build_call g a m).
  Proof using ext e mode f HK.
    intros Hm Hg Ha. destruct g as [vg|o]; cbn [M_staging.build_call]; [destruct a; apply plain_good; exact Hm|].
    destruct (args_ok a m Hm Ha) as (A1 & A2 & A3 & A4 & _). cbv zeta in *.
    rewrite (eta2 (stored a m)), (eta2 (add (OSeq "tuple" [fst (stored a m)]) (snd (stored a m)))),
      (eta2 (add (OMap "dict" []) (snd (add (OSeq "tuple" [fst (stored a m)]) (snd (stored a m)))))).
    set (k := add (OMap "dict" []) (snd (add (OSeq "tuple" [fst (stored a m)]) (snd (stored a m))))) in *.
    set (q := fst (add (OSeq "tuple" [fst (stored a m)]) (snd (stored a m)))) in *. clearbody k q.
    pose proof (there_grow m (snd k) o Hm A2 (proj1 Hg)) as Ho.
    destruct (call_shape (snd k) o q (fst k) A1 (proj1 Ho)) as [->|(src & name & Eo & ->)].
    - apply node_good; [exact A1|exact A2| |discriminate]. intros nc [<-|[<-|[<-|[]]]]; assumption.
    - apply node_good; [exact A1|exact A2| |discriminate]. intros nc [<-|[<-|[<-|[<-|[]]]]]; try assumption;
        eapply child_there; try exact Eo; try exact A1; try exact Ho; simpl; auto.
  Qed.

  Lemma contains_good a b m : okm m -> good m (build_contains (K:=K) prim foreign a b m).
  Proof. intros Hm. destruct a, b; cbn [build_contains]; try exact I; apply plain_good; exact Hm. Qed.
  Lemma len_good a m : okm m -> good m (build_len (K:=K) prim a m).
  Proof. intros Hm. destruct a; cbn [build_len]; [apply plain_good; exact Hm|exact I]. Qed.

  Ltac nxt := let b := fresh "b" in let m1 := fresh "m" in let E := fresh "E" in let Hm := fresh "Hm" in
    let Hg := fresh "Hg" in let Hw := fresh "Hw" in intros b m1 E Hm Hg Hw.

  Lemma build_good c : forall L m, okm m -> wfL m L -> good m (build L c m).
  Proof using ext e mode f HK.
    induction c as [v|x|op a IHa b IHb|op a IHa|a IHa b IHb|a IHa name|a IHa b IHb|a IHa b IHb|a IHa b IHb|a IHa|a IHa|a IHa b IHb|a IHa];
      intros L m Hm HL; cbn [M_staging.build].
    - split; [exact Hm|]. split; [apply grows_refl|exact I].
    - destruct (dget x L) as [b|] eqn:E; [|exact I]. split; [exact Hm|]. split; [apply grows_refl|]. eapply wfL_get; eauto.
    - apply good_bind; [auto|]. nxt. apply good_bind; [apply IHb; [assumption|eapply wfL_grow; [exact Hm|eassumption|exact HL]]|]. nxt.
      apply bin_good; [assumption| |assumption]. eapply wfb_grow; [exact Hm0| |]; assumption.
    - apply good_bind; [auto|]. nxt. apply un_good; assumption.
    - apply good_bind; [auto|]. nxt. apply good_bind; [apply IHb; [assumption|eapply wfL_grow; [exact Hm|eassumption|exact HL]]|]. nxt.
      apply item_good; [assumption| |assumption]. eapply wfb_grow; [exact Hm0| |]; assumption.
    - apply good_bind; [auto|]. nxt. apply attr_good; assumption.
    - apply good_bind; [auto|]. nxt. apply good_bind; [apply IHb; [assumption|eapply wfL_grow; [exact Hm|eassumption|exact HL]]|]. nxt.
      apply call_good; [assumption| |assumption]. eapply wfb_grow; [exact Hm0| |]; assumption.
    - apply good_bind; [auto|]. nxt. destruct (build_truth b0) as [[|]|]; cbn [bind]; [| |exact I].
      + apply IHb; [assumption|eapply wfL_grow; [exact Hm|eassumption|exact HL]].
      + split; [assumption|]. split; [apply grows_refl|assumption].
    - apply good_bind; [auto|]. nxt. destruct (build_truth b0) as [[|]|]; cbn [bind]; [| |exact I].
      + split; [assumption|]. split; [apply grows_refl|assumption].
      + apply IHb; [assumption|eapply wfL_grow; [exact Hm|eassumption|exact HL]].
    - apply good_bind; [auto|]. nxt. destruct (build_truth b) as [t|]; cbn [bind]; [|exact I].
      split; [assumption|]. split; [apply grows_refl|exact I].
    - apply good_bind; [auto|]. nxt. split; [assumption|]. split; [apply grows_refl|exact I].
    - apply good_bind; [auto|]. nxt. apply good_bind; [apply IHa; [assumption|eapply wfL_grow; [exact Hm|eassumption|exact HL]]|]. nxt.
      apply contains_good; assumption.
    - apply good_bind; [auto|]. nxt. apply len_good; assumption.
  Qed.

  (** *** Values *)
  Hypothesis Hcomp : computes ext prim tuple1 no_kwargs mode.
  Hypothesis Hmir : mirrored ext mode.
  Hypothesis Hmeth : method_is_call ext mode.
  Hypothesis Hown : forall op l r, own op l r = None.
  Hypothesis Hfor : forall op v o, foreign op v o = Err TypeError.

  Lemma refused_sim m d : sim m (Err TypeError) d.
  Proof. destruct d; cbn; auto. Qed.

  Lemma bin_sim op a b m va vb : okm m -> wfb m a -> wfb m b -> brel m a va -> brel m b vb ->
    sim m (build_bin op a b m) (prim ("BinOp " ++ op) [("left", va); ("right", vb)]).
  Proof using Hcomp Hmir Hown.
    intros Hm Ha Hb Ra Rb. unfold M_staging.build_bin.
    assert (Hp : forall o args, op_sem ext ("BinOp " ++ o) mode args = prim ("BinOp " ++ o) args).
    { intros o args. apply (proj1 Hcomp). right. exists o. left. reflexivity. }
    assert (Hgen : sim m (let (l, m1) := stored a m in let (r, m2) := stored b m1 in
        match binary own (fst m2) op l r with
        | Node i => Ok (new_expr i m2)
        | Other r => let! v := r in Ok (BPlain v, m2)
        end) (prim ("BinOp " ++ op) [("left", va); ("right", vb)])).
    { destruct (stored_ok ext e mode f m a Hm Ha) as (A1 & A2 & A3 & A4). rewrite (eta2 (stored a m)).
      pose proof (wfb_grow m _ b Hm A2 Hb) as Hb'.
      destruct (stored_ok ext e mode f _ b A1 Hb') as (B1 & B2 & B3 & B4). rewrite (eta2 (stored b (snd (stored a m)))).
      specialize (A4 va Ra). specialize (B4 vb (brel_grow ext e mode f _ _ _ _ Hm A2 Hb Rb)).
      set (m1 := snd (stored a m)) in *. set (l := fst (stored a m)) in *.
      set (m2 := snd (stored b m1)) in *. set (r := fst (stored b m1)) in *.
      pose proof (there_grow m1 m2 l A1 B2 A3) as A3'.
      pose proof (DV_grow ext e mode f _ _ _ _ A1 B2 (proj1 A3) A4) as A4'.
      assert (Hg : grows m m2) by (eapply grows_trans; eauto).
      assert (Hstraight : sim m (Ok (new_expr (bin_op op l r) m2)) (prim ("BinOp " ++ op) [("left", va); ("right", vb)])).
      { apply (node_sim m m2 _ _ [("left", va); ("right", vb)]); [exact B1|exact Hg| |discriminate| |apply Hp].
        - intros nc [<-|[<-|[]]]; assumption.
        - repeat constructor; assumption. }
      unfold binary. destruct (mem op bin_ops); [|apply refused_sim].
      destruct (is_expr (fst m2 l)); [exact Hstraight|]. rewrite Hown.
      destruct (swapped op) as [op'|] eqn:Es; [|exact Hstraight]. apply dget_In_weak in Es.
      apply (node_sim m m2 _ _ [("left", vb); ("right", va)]); [exact B1|exact Hg| |discriminate| |].
      - intros nc [<-|[<-|[]]]; assumption.
      - repeat constructor; assumption.
      - rewrite (Hmir op op' va vb Es). apply Hp. }
    destruct a, b; try exact Hgen. cbn in Ra, Rb. subst. apply plain_sim.
  Qed.

  Lemma un_sim op a m v : okm m -> wfb m a -> brel m a v ->
    sim m (build_un op a m) (prim ("UnaryOp " ++ op) [("operand", v)]).
  Proof using Hcomp.
    intros Hm Ha Ra. destruct a as [w|o]; cbn [M_staging.build_un]; [cbn in Ra; subst; apply plain_sim|].
    destruct (mem op un_ops); [|apply refused_sim].
    apply (node_sim m m _ _ [("operand", v)]); [exact Hm|apply grows_refl| |discriminate| |].
    - intros nc [<-|[]]. apply Ha.
    - repeat constructor. exact Ra.
    - apply (proj1 Hcomp). right. exists op. right. reflexivity.
  Qed.

  Lemma item_sim a b m va vb : okm m -> wfb m a -> wfb m b -> brel m a va -> brel m b vb ->
    sim m (build_item a b m) (prim "GetItem" [("container", va); ("key", vb)]).
  Proof using Hcomp Hfor.
    intros Hm Ha Hb Ra Rb. destruct a as [w|o]; cbn [M_staging.build_item].
    - destruct b as [w'|]; [cbn in Ra, Rb; subst; apply plain_sim|]. rewrite Hfor. apply refused_sim.
    - destruct (stored_ok ext e mode f m b Hm Hb) as (B1 & B2 & B3 & B4). rewrite (eta2 (stored b m)).
      apply (node_sim m _ _ _ [("container", va); ("key", vb)]); [exact B1|exact B2| |discriminate| |].
      + intros nc [<-|[<-|[]]]; [|exact B3]. eapply there_grow; [exact Hm|exact B2|apply Ha].
      + constructor; [split; [reflexivity|]|constructor; [split; [reflexivity|]|constructor]].
        * eapply DV_grow; [exact Hm|exact B2|apply Ha|exact Ra].
        * apply B4. exact Rb.
      + apply (proj1 Hcomp). left. simpl. auto.
  Qed.

  Lemma attr_sim a name m v : okm m -> wfb m a -> brel m a v ->
    sim m (build_attr a name m) (prim "GetAttr" [("source_object", v); ("attr_name", of_string name)]).
  Proof using Hcomp.
    intros Hm Ha Ra. destruct a as [w|o]; cbn [M_staging.build_attr]; [cbn in Ra; subst; apply plain_sim|].
    destruct (refused_attr name).
    { destruct (prim "GetAttr" _); cbn; auto. }
    destruct (stored_ok ext e mode f m (BPlain (of_string name)) Hm I) as (B1 & B2 & B3 & B4).
    cbn [stored] in *. rewrite (eta2 (add (OValue (of_string name)) m)).
    apply (node_sim m _ _ _ [("source_object", v); ("attr_name", of_string name)]); [exact B1|exact B2| |eauto| |].
    - intros nc [<-|[<-|[]]]; [|exact B3]. eapply there_grow; [exact Hm|exact B2|apply Ha].
    - constructor; [split; [reflexivity|]|constructor; [split; [reflexivity|]|constructor]].
      + eapply DV_grow; [exact Hm|exact B2|apply Ha|exact Ra].
      + apply B4. reflexivity.
    - apply (proj1 Hcomp). left. simpl. auto.
  Qed.

  Lemma call_sim g a m vg va : okm m -> wfb m g -> wfb m a -> brel m g vg -> brel m a va ->
    sim m (build_call g a m) (prim "Call" [("func", vg); ("args", tuple1 va); ("kwargs", no_kwargs)]).
  Proof using Hcomp Hmeth Hfor.
    intros Hm Hg Ha Rg Ra. destruct g as [w|o]; cbn [M_staging.build_call].
    { destruct a as [w'|]; [cbn in Rg, Ra; subst; apply plain_sim|]. rewrite Hfor. apply refused_sim. }
    destruct (args_ok a m Hm Ha) as (A1 & A2 & A3 & A4 & A5). cbv zeta in *. destruct (A5 Hcomp va Ra) as [A6 A7]. clear A5.
    rewrite (eta2 (stored a m)), (eta2 (add (OSeq "tuple" [fst (stored a m)]) (snd (stored a m)))),
      (eta2 (add (OMap "dict" []) (snd (add (OSeq "tuple" [fst (stored a m)]) (snd (stored a m)))))).
    set (k := add (OMap "dict" []) (snd (add (OSeq "tuple" [fst (stored a m)]) (snd (stored a m))))) in *.
    set (q := fst (add (OSeq "tuple" [fst (stored a m)]) (snd (stored a m)))) in *. clearbody k q.
    pose proof (there_grow m (snd k) o Hm A2 (proj1 Hg)) as Ho.
    pose proof (DV_grow ext e mode f _ _ _ _ Hm A2 (proj1 (proj1 Hg)) Rg) as Rg'.
    assert (Hcall : op_sem ext "Call" mode [("func", vg); ("args", tuple1 va); ("kwargs", no_kwargs)]
      = prim "Call" [("func", vg); ("args", tuple1 va); ("kwargs", no_kwargs)]).
    { apply (proj1 Hcomp). left. simpl. auto. }
    destruct (call_shape (snd k) o q (fst k) A1 (proj1 Ho)) as [->|(src & name & Eo & ->)].
    - apply (node_sim m _ _ _ [("func", vg); ("args", tuple1 va); ("kwargs", no_kwargs)]); [exact A1|exact A2| |discriminate| |exact Hcall].
      + intros nc [<-|[<-|[<-|[]]]]; assumption.
      + repeat constructor; assumption.
    - destruct (getattr_inv ext e mode f (snd k) o src name vg A1 Eo Rg') as (vs & vn & Ds & Dn & Eg).
      apply (node_sim m _ _ _ [("obj", vs); ("method_name", vn); ("args", tuple1 va); ("kwargs", no_kwargs)]); [exact A1|exact A2| |discriminate| |].
      + intros nc [<-|[<-|[<-|[<-|[]]]]]; try assumption;
          eapply child_there; try exact Eo; try exact A1; try exact Ho; simpl; auto.
      + repeat constructor; assumption.
      + rewrite Hmeth, Eg. exact Hcall.
  Qed.

  Lemma build_sim c : ~ asks_none c -> forall L D m, okm m -> wfL m L -> lrel m L D -> sim m (build L c m) (value_of D c).
  Proof using Hcomp Hmir Hmeth Hown Hfor.
    assert (G : forall c L m m1, okm m -> wfL m L -> okm m1 -> grows m m1 -> good m1 (build L c m1)).
    { intros c' L m m1 Hm HL Hm1 Hg. apply build_good; [exact Hm1|]. eapply wfL_grow; [exact Hm|exact Hg|exact HL]. }
    induction c as [v|x|op a IHa b IHb|op a IHa|a IHa b IHb|a IHa name|a IHa b IHb|a IHa b IHb|a IHa b IHb|a IHa|a IHa|a IHa b IHb|a IHa];
      intros Hn L D m Hm HL HR; cbn [M_staging.build L_staging.value_of asks_none] in *.
    - reflexivity.
    - pose proof (lrel_get m L D x HR) as Hx. destruct (dget x L), (dget x D); cbn; auto; contradiction.
    - apply sim_bind; [apply build_good; assumption|apply IHa; auto| |].
      { nxt. apply good_bind; [eapply G; [exact Hm|exact HL| |]; assumption|]. nxt. apply bin_good; [assumption| |assumption]. eapply wfb_grow; [exact Hm0| |]; assumption. }
      intros ba m1 va Ea Da H1 H2 H3 H4. apply sim_bind; [eapply G; [exact Hm|exact HL| |]; assumption| | |].
      { apply IHb; [auto|exact H1|eapply wfL_grow; [exact Hm| |]; assumption|eapply lrel_grow; [exact Hm| | |]; assumption]. }
      { nxt. apply bin_good; [assumption| |assumption]. eapply wfb_grow; [exact H1| |]; assumption. }
      intros bb m2 vb Eb Db K1 K2 K3 K4. apply bin_sim; [assumption|eapply wfb_grow; [exact H1| |]; assumption|assumption|eapply brel_grow; [exact H1| | |]; assumption|assumption].
    - apply sim_bind; [apply build_good; assumption|apply IHa; auto| |].
      { nxt. apply un_good; assumption. }
      intros ba m1 va Ea Da H1 H2 H3 H4. apply un_sim; assumption.
    - apply sim_bind; [apply build_good; assumption|apply IHa; auto| |].
      { nxt. apply good_bind; [eapply G; [exact Hm|exact HL| |]; assumption|]. nxt. apply item_good; [assumption| |assumption]. eapply wfb_grow; [exact Hm0| |]; assumption. }
      intros ba m1 va Ea Da H1 H2 H3 H4. apply sim_bind; [eapply G; [exact Hm|exact HL| |]; assumption| | |].
      { apply IHb; [auto|exact H1|eapply wfL_grow; [exact Hm| |]; assumption|eapply lrel_grow; [exact Hm| | |]; assumption]. }
      { nxt. apply item_good; [assumption| |assumption]. eapply wfb_grow; [exact H1| |]; assumption. }
      intros bb m2 vb Eb Db K1 K2 K3 K4. apply item_sim; [assumption|eapply wfb_grow; [exact H1| |]; assumption|assumption|eapply brel_grow; [exact H1| | |]; assumption|assumption].
    - apply sim_bind; [apply build_good; assumption|apply IHa; auto| |].
      { nxt. apply attr_good; assumption. }
      intros ba m1 va Ea Da H1 H2 H3 H4. apply attr_sim; assumption.
    - apply sim_bind; [apply build_good; assumption|apply IHa; auto| |].
      { nxt. apply good_bind; [eapply G; [exact Hm|exact HL| |]; assumption|]. nxt. apply call_good; [assumption| |assumption]. eapply wfb_grow; [exact Hm0| |]; assumption. }
      intros ba m1 va Ea Da H1 H2 H3 H4. apply sim_bind; [eapply G; [exact Hm|exact HL| |]; assumption| | |].
      { apply IHb; [auto|exact H1|eapply wfL_grow; [exact Hm| |]; assumption|eapply lrel_grow; [exact Hm| | |]; assumption]. }
      { nxt. apply call_good; [assumption| |assumption]. eapply wfb_grow; [exact H1| |]; assumption. }
      intros bb m2 vb Eb Db K1 K2 K3 K4. apply call_sim; [assumption|eapply wfb_grow; [exact H1| |]; assumption|assumption|eapply brel_grow; [exact H1| | |]; assumption|assumption].
    - apply sim_bind; [apply build_good; assumption|apply IHa; auto| |].
      { nxt. destruct (build_truth b0) as [[|]|]; cbn [bind]; [eapply G; [exact Hm|exact HL| |]; assumption| |exact I]. split; [assumption|]. split; [apply grows_refl|assumption]. }
      intros ba m1 va Ea Da H1 H2 H3 H4. destruct ba as [w|o]; cbn [M_staging.build_truth bind]; [|apply refused_sim].
      cbn in H4. subst w. destruct (truth va) as [[|]|]; cbn [bind]; [| |exact I].
      + apply IHb; [auto|exact H1|eapply wfL_grow; [exact Hm| |]; assumption|eapply lrel_grow; [exact Hm| | |]; assumption].
      + reflexivity.
    - apply sim_bind; [apply build_good; assumption|apply IHa; auto| |].
      { nxt. destruct (build_truth b0) as [[|]|]; cbn [bind]; [|eapply G; [exact Hm|exact HL| |]; assumption|exact I]. split; [assumption|]. split; [apply grows_refl|assumption]. }
      intros ba m1 va Ea Da H1 H2 H3 H4. destruct ba as [w|o]; cbn [M_staging.build_truth bind]; [|apply refused_sim].
      cbn in H4. subst w. destruct (truth va) as [[|]|]; cbn [bind]; [| |exact I].
      + reflexivity.
      + apply IHb; [auto|exact H1|eapply wfL_grow; [exact Hm| |]; assumption|eapply lrel_grow; [exact Hm| | |]; assumption].
    - apply sim_bind; [apply build_good; assumption|apply IHa; auto| |].
      { nxt. destruct (build_truth b) as [t|]; cbn [bind]; [|exact I]. split; [assumption|]. split; [apply grows_refl|exact I]. }
      intros ba m1 va Ea Da H1 H2 H3 H4. destruct ba as [w|o]; cbn [M_staging.build_truth bind]; [|apply refused_sim].
      cbn in H4. subst w. destruct (truth va) as [t|]; cbn [bind]; [reflexivity|exact I].
    - contradiction (Hn I).
    - apply sim_bind; [apply build_good; assumption|apply IHb; auto| |].
      { nxt. apply good_bind; [eapply G; [exact Hm|exact HL| |]; assumption|]. nxt. apply contains_good; assumption. }
      intros bb m1 vb Eb Db H1 H2 H3 H4. apply sim_bind; [eapply G; [exact Hm|exact HL| |]; assumption| | |].
      { apply IHa; [auto|exact H1|eapply wfL_grow; [exact Hm| |]; assumption|eapply lrel_grow; [exact Hm| | |]; assumption]. }
      { nxt. apply contains_good; assumption. }
      intros ba m2 va Ea Da K1 K2 K3 K4. destruct ba as [w|o]; cbn [build_contains]; [|destruct bb; apply refused_sim].
      destruct bb as [w'|o']; [cbn in H4, K4; subst; apply plain_sim|]. rewrite Hfor. apply refused_sim.
    - apply sim_bind; [apply build_good; assumption|apply IHa; auto| |].
      { nxt. apply len_good; assumption. }
      intros ba m1 va Ea Da H1 H2 H3 H4. destruct ba as [w|o]; cbn [build_len]; [cbn in H4; subst; apply plain_sim|apply refused_sim].
  Qed.
End Build.
