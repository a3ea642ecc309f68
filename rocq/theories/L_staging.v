(** Running code on the values instead of the expressions; simulation. *)
From Verif Require Import Base L_dict M_traverse L_traverse M_expr L_expr1 L_expr2 L_expr3 L_expr4 L_expr5 L_expr6 L_expr7.
From Verif Require Import M_grid M_choicegraph L_conflicts M_clone M_check M_namespace L_estimator1 L_estimator2 L_namespace L_namespace2 L_namespace3 M_staging.
Open Scope string_scope.
Open Scope list_scope.
Open Scope nat_scope.
Set Default Proof Using "Type".

(** ** Specification: the same code on plain values *)
Section Direct.
  Context {V : Type}.
  Variable prim : string -> list (string * V) -> res V.
  Variable truth : V -> res bool.
  Variable iter : V -> res (list V).
  Variable is_none : V -> bool.
  Variable of_bool : bool -> V.
  Variable of_string : string -> V.
  Variable tuple1 : V -> V.
  Variable no_kwargs : V.

  Fixpoint value_of (D : list (string * V)) (c : code V) : res V :=
    match c with
    | Lit v => Ok v
    | Local x => match dget x D with Some v => Ok v | None => Err UnboundLocalError end
    | Bin op a b => let! x := value_of D a in let! y := value_of D b in prim ("BinOp " ++ op) [("left", x); ("right", y)]
    | Un op a => let! x := value_of D a in prim ("UnaryOp " ++ op) [("operand", x)]
    | Item a b => let! x := value_of D a in let! y := value_of D b in prim "GetItem" [("container", x); ("key", y)]
    | Attr a name => let! x := value_of D a in prim "GetAttr" [("source_object", x); ("attr_name", of_string name)]
    | CallC f a => let! g := value_of D f in let! x := value_of D a in
                   prim "Call" [("func", g); ("args", tuple1 x); ("kwargs", no_kwargs)]
    | And a b => let! x := value_of D a in let! t := truth x in if t then value_of D b else Ok x
    | Or a b => let! x := value_of D a in let! t := truth x in if t then Ok x else value_of D b
    | Not a => let! x := value_of D a in let! t := truth x in Ok (of_bool (negb t))
    | IsNone a => let! x := value_of D a in Ok (of_bool (is_none x))
    | Contains a b => let! y := value_of D b in let! x := value_of D a in prim "contains" [("container", x); ("item", y)]
    | Len a => let! x := value_of D a in prim "len" [("operand", x)]
    end.

  Definition names : Type := list (string * V).

  Fixpoint repeat_while (k : nat) (test : names -> res bool) (body : names -> option (res names)) (D : names)
    : option (res names) :=
    match k with
    | 0 => None
    | S k' => match test D with
              | Ok true => match body D with Some (Ok D') => repeat_while k' test body D' | r => r end
              | Ok false => Some (Ok D)
              | Err ex => Some (Err ex)
              end
    end.
  Fixpoint for_each (x : string) (body : names -> option (res names)) (l : list V) (D : names) : option (res names) :=
    match l with
    | [] => Some (Ok D)
    | v :: l' => match body (dset x v D) with Some (Ok D') => for_each x body l' D' | r => r end
    end.

  Fixpoint run (n : nat) (s : stmt V) (D : names) : option (res names) :=
    match s with
    | Skip => Some (Ok D)
    | Assign x a => Some (let! v := value_of D a in Ok (dset x v D))
    | SetItem x k a =>
        Some (let! v := value_of D a in
              match dget x D with
              | Some c => let! key := value_of D k in
                          let! c' := prim "setitem" [("container", c); ("key", key); ("value", v)] in Ok (dset x c' D)
              | None => Err UnboundLocalError
              end)
    | Seq s1 s2 => match run n s1 D with Some (Ok D') => run n s2 D' | r => r end
    | If a s1 s2 =>
        match (let! v := value_of D a in truth v) with
        | Ok t => run n (if t then s1 else s2) D
        | Err ex => Some (Err ex)
        end
    | While a s1 => repeat_while n (fun D => let! v := value_of D a in truth v) (run n s1) D
    | For x a s1 =>
        match (let! v := value_of D a in iter v) with
        | Ok l => for_each x (run n s1) l D
        | Err ex => Some (Err ex)
        end
    end.
End Direct.

(** The code does not ask [is None]. *)
Fixpoint asks_none {V} (c : code V) : Prop :=
  match c with
  | IsNone _ => True
  | Lit _ | Local _ => False
  | Un _ a | Attr a _ | Not a | Len a => asks_none a
  | Bin _ a b | Item a b | CallC a b | And a b | Or a b | Contains a b => asks_none a \/ asks_none b
  end.
Fixpoint stmt_asks_none {V} (s : stmt V) : Prop :=
  match s with
  | Skip => False
  | Assign _ a => asks_none a
  | SetItem _ k a => asks_none k \/ asks_none a
  | Seq s1 s2 => stmt_asks_none s1 \/ stmt_asks_none s2
  | If a s1 s2 => asks_none a \/ stmt_asks_none s1 \/ stmt_asks_none s2
  | While a s | For _ a s => asks_none a \/ stmt_asks_none s
  end.

Section Spec2.
  Context {V K F : Type} {HK : EqD K}.
  Variable ext : externals V K F.
  Variable requested : string.
  Variable e : env V.
  Variable s : st V F.

  (** Evaluating the expression [o] gives [r]. *)
  Definition gives (h : heap V K) (size : nat) (o : oid) (r : res V) : Prop :=
    snd (evaluate ext h size o requested e true s) = match r with Ok v => Ok (TheValue v) | Err ex => Err ex end.

  (** A name stands for a plain value or for an expression that gives it. *)
  Definition stands_for (h : heap V K) (size : nat) (b : bval V) (v : V) : Prop :=
    match b with
    | BPlain w => w = v
    | BNode o => o < size /\ is_expr (h o) = true /\ acyclic h o /\ gives h size o (Ok v)
    end.
  Definition stand_for (h : heap V K) (size : nat) (L : list (string * bval V)) (D : list (string * V)) : Prop :=
    Forall2 (fun a b => fst a = fst b /\ stands_for h size (snd a) (snd b)) L D.
End Spec2.

(** Attributes of expressions that are already there: they have no name and no mark. *)
Definition plain_attrs {V K} (h : heap V K) (size : nat) : Prop :=
  forall o fs n x y, o < size -> h o = OExpr (IOp "GetAttr" fs) n x y ->
    n = None /\ x = false /\ y = false /\ exists src name, fs = [("source_object", src); ("attr_name", name)].

(** The nodes compute what Python computes. *)
Definition computes {V K F} (ext : externals V K F) (prim : string -> list (string * V) -> res V)
  (tuple1 : V -> V) (no_kwargs : V) (mode : string) : Prop :=
  (forall op args, In op ["GetItem"; "GetAttr"; "Call"] \/ (exists o, op = ("BinOp " ++ o)%string \/ op = ("UnaryOp " ++ o)%string) ->
     op_sem ext op mode args = prim op args) /\
  (forall v, mk_seq ext "tuple" [v] = Ok (tuple1 v)) /\ mk_map ext "dict" [] = Ok no_kwargs.

(** ** Lemmas *)
Section Sim.
  Context {V K F : Type} {HK : EqD K}.
  Variable ext : externals V K F.
  Variable e : env V.
  Variable mode : string.
  Variable f : oid -> option (fit_attr V F).
  Notation mem_st := (@mem_st V K).

  Definition DV (m : mem_st) (o : oid) (r : res V) : Prop := DenV ext (fst m) e mode f o r.
  Definition okm (m : mem_st) : Prop := closed (fst m) (snd m) /\ plain_attrs (fst m) (snd m).
  Definition there (m : mem_st) (o : oid) : Prop := o < snd m /\ acyclic (fst m) o.
  Definition grows (m m' : mem_st) : Prop := snd m <= snd m' /\ extends (fst m) (fst m') (snd m).
  Definition wfb (m : mem_st) (b : bval V) : Prop :=
    match b with BPlain _ => True | BNode o => there m o /\ is_expr (fst m o) = true end.
  Definition brel (m : mem_st) (b : bval V) (v : V) : Prop :=
    match b with BPlain w => w = v | BNode o => DV m o (Ok v) end.
  Definition failing (m m' : mem_st) (ex : exn) : Prop :=
    exists o, snd m <= o /\ there m' o /\ DV m' o (shown ext mode (Err ex)).

  Lemma grows_refl m : grows m m.
  Proof. split; [lia|]. intros x _. reflexivity. Qed.
  Lemma grows_trans m1 m2 m3 : grows m1 m2 -> grows m2 m3 -> grows m1 m3.
  Proof. intros [H1 E1] [H2 E2]. split; [lia|]. intros x Hx. rewrite E2 by lia. apply E1. exact Hx. Qed.

  Lemma part_grow (m m' : mem_st) x y : okm m -> grows m m' -> x < snd m -> part_of (fst m') x y ->
    part_of (fst m) x y /\ y < snd m.
  Proof.
    intros [Hc _] [_ He] Hx Hp. induction Hp as [x|x c y Hs Hin _ IH]; [split; [constructor|exact Hx]|].
    rewrite He in Hin by exact Hx. pose proof (Hc x c Hx Hin) as Hcl.
    destruct (IH Hcl) as [Hpt Hlt]. split; [|exact Hlt]. econstructor; eauto.
  Qed.
  Lemma there_grow m m' o : okm m -> grows m m' -> there m o -> there m' o.
  Proof.
    intros Hm Hg [Ho Ha]. split; [destruct Hg; lia|]. intros x Hx (c & Hin & Hcx).
    destruct (part_grow m m' o x Hm Hg Ho Hx) as [Hp Hl]. apply (Ha x Hp).
    destruct Hg as [Hle He]. rewrite He in Hin by exact Hl. exists c. split; [exact Hin|].
    destruct (part_grow m m' c x Hm (conj Hle He)); auto. apply (proj1 Hm x c Hl Hin).
  Qed.
  Lemma DV_grow m m' o r : okm m -> grows m m' -> o < snd m -> DV m o r -> DV m' o r.
  Proof.
    intros [Hc _] [_ He] Ho [d E]. exists d. unfold ev in *.
    destruct (den ext (fst m) e mode f d o) as [x|] eqn:Ed; [|discriminate].
    rewrite (den_extend ext (fst m) (fst m') (snd m) Hc He e mode f f (fun _ _ => eq_refl) o Ho d x Ed). exact E.
  Qed.
  Lemma wfb_grow m m' b : okm m -> grows m m' -> wfb m b -> wfb m' b.
  Proof.
    intros Hm Hg. destruct b as [|o]; [auto|]. intros [Ht Hx]. split; [eapply there_grow; eauto|].
    rewrite (proj2 Hg) by apply Ht. exact Hx.
  Qed.
  Lemma brel_grow m m' b v : okm m -> grows m m' -> wfb m b -> brel m b v -> brel m' b v.
  Proof. intros Hm Hg. destruct b as [|o]; [auto|]. intros [[Ho _] _]. apply DV_grow; assumption. Qed.
  Lemma failing_later m1 m2 m3 m4 ex : okm m3 -> grows m1 m2 -> grows m3 m4 -> failing m2 m3 ex -> failing m1 m4 ex.
  Proof.
    intros Hm [Hle _] Hg (o & Ho & Ht & Hd). exists o. split; [lia|]. split; [eapply there_grow; eauto|].
    eapply DV_grow; eauto. apply Ht.
  Qed.

  (** *** New objects *)
  Definition clean (ob : obj V K) : Prop :=
    forall fs n x y, ob = OExpr (IOp "GetAttr" fs) n x y ->
      n = None /\ x = false /\ y = false /\ exists src name, fs = [("source_object", src); ("attr_name", name)].

  Lemma add_ok m ob : okm m -> (forall c, In c (children ob) -> there m c) -> clean ob ->
    let m' := snd (add ob m) in okm m' /\ grows m m' /\ fst (add ob m) = snd m /\ snd m' = S (snd m) /\
      fst m' (snd m) = ob /\ there m' (snd m).
  Proof.
    intros [Hc Hp] Hch Hcl. cbn. split; [split|]; cbn.
    - apply closed_extend; [exact Hc|]. intros c Hin. apply (Hch c Hin).
    - intros o fs n x y Ho Eo. destruct (Nat.eq_dec o (snd m)) as [->|Hne].
      + rewrite extend_new in Eo. exact (Hcl fs n x y Eo).
      + rewrite extend_old in Eo by lia. apply (Hp o fs n x y); [lia|exact Eo].
    - split; [split; [cbn; lia|apply extends_extend]|]. split; [reflexivity|]. split; [reflexivity|].
      split; [apply extend_new|]. split; [cbn; lia|]. cbn. apply acyclic_extend; [exact Hc|exact Hch].
  Qed.

  Lemma stored_ok m b : okm m -> wfb m b ->
    let o := fst (stored b m) in let m' := snd (stored b m) in
    okm m' /\ grows m m' /\ there m' o /\ (forall v, brel m b v -> DV m' o (Ok v)).
  Proof.
    intros Hm Hw. destruct b as [w|o]; cbn [stored].
    - destruct (add_ok m (OValue w) Hm) as (H1 & H2 & H3 & H4 & H5 & H6).
      { intros c []. } { intros fs n x y Ex. discriminate. }
      split; [exact H1|]. split; [exact H2|]. split; [rewrite H3; exact H6|].
      intros v <-. exists 1. unfold ev. cbn [den]. rewrite H3, H5. reflexivity.
    - cbn. split; [exact Hm|]. split; [apply grows_refl|]. split; [apply Hw|]. intros v Hv. exact Hv.
  Qed.

  Lemma DV_ev m o v : DV m o (Ok v) -> exists d, forall d', d <= d' -> ev ext (fst m) e mode f d' o = Some (Ok v).
  Proof. intros [d E]. exists d. intros d' Hle. eapply ev_mono; eauto. Qed.

  Lemma args_ev m fs vs : Forall2 (fun (nc : string * oid) (nv : string * V) => fst nc = fst nv /\ DV m (snd nc) (Ok (snd nv))) fs vs ->
    exists d, forall d', d <= d' ->
      dmapM (fun nc => dbind (ev ext (fst m) e mode f d' (snd nc)) (fun v => Some (Ok (fst nc, v)))) fs = Some (Ok vs).
  Proof.
    intros H. induction H as [|[n c] [n' v] fs vs [En Ec] _ [d2 IH]]; [exists 0; reflexivity|].
    cbn in En, Ec. subst n'. destruct (DV_ev _ _ _ Ec) as [d1 E1]. exists (d1 + d2). intros d' Hle.
    cbn [dmapM fst snd]. rewrite E1 by lia. cbn [dbind]. rewrite IH by lia. reflexivity.
  Qed.

  (** The node [IOp op fs], whose fields have values. *)
  Lemma node_den m op fs vs o : fst m o = OExpr (IOp op fs) None false false ->
    Forall2 (fun (nc : string * oid) (nv : string * V) => fst nc = fst nv /\ DV m (snd nc) (Ok (snd nv))) fs vs ->
    DV m o (shown ext mode (op_sem ext op mode vs)).
  Proof.
    intros Eo H. destruct (args_ev m fs vs H) as [d Ed]. destruct m as [h size]. unfold DV. cbn [fst] in *.
    exists (S d). unfold ev at 1. cbn [den]. rewrite Eo.
    change (provided e (IOp op fs) None false false) with (@None V). cbv iota.
    specialize (Ed d (le_n d)). unfold ev in Ed. rewrite Ed. cbn [dbind].
    destruct (op_sem ext op mode vs); reflexivity.
  Qed.

  Lemma new_ok m op fs : okm m -> (forall nc, In nc fs -> there m (snd nc)) ->
    (op = "GetAttr" -> exists src name, fs = [("source_object", src); ("attr_name", name)]) ->
    let b := fst (new_expr (IOp op fs) m) in let m' := snd (new_expr (IOp op fs) m) in
    okm m' /\ grows m m' /\ wfb m' b /\
    forall vs, Forall2 (fun (nc : string * oid) (nv : string * V) => fst nc = fst nv /\ DV m (snd nc) (Ok (snd nv))) fs vs ->
      match op_sem ext op mode vs with
      | Ok v => brel m' b v
      | Err ex => failing m m' ex
      end.
  Proof.
    intros Hm Hfs Hg.
    destruct (add_ok m (OExpr (IOp op fs) None false false) Hm) as (H1 & H2 & H3 & H4 & H5 & H6).
    { intros c Hin. cbn in Hin. apply in_map_iff in Hin. destruct Hin as (nc & <- & Hin). apply Hfs. exact Hin. }
    { intros fs' n x y Ex. injection Ex as -> -> <- <- <-. split; [reflexivity|]. split; [reflexivity|]. split; [reflexivity|]. auto. }
    change (new_expr (IOp op fs) m) with (BNode (V:=V) (fst (add (OExpr (IOp op fs) None false false) m)), snd (add (OExpr (IOp op fs) None false false) m)).
    cbn [fst snd]. rewrite H3. split; [exact H1|]. split; [exact H2|].
    split; [split; [exact H6|]; rewrite H5; reflexivity|].
    clear Hg. intros vs Hvs. assert (Hd : DV (snd (add (OExpr (IOp op fs) None false false) m)) (snd m) (shown ext mode (op_sem ext op mode vs))).
    { apply (node_den _ op fs vs); [exact H5|].
      generalize dependent (snd (add (OExpr (IOp op fs) None false false) m)). intros m' _ H2 _ _ _.
      clear -Hvs Hfs H2 Hm. induction Hvs as [|nc nv fs vs [En Ec] _ IH]; [constructor|].
      constructor; [|apply IH; intros; apply Hfs; right; assumption]. split; [exact En|].
      eapply DV_grow; eauto. apply (Hfs nc). left. reflexivity. }
    destruct (op_sem ext op mode vs) as [v|ex]; [exact Hd|]. exists (snd m). auto.
  Qed.

  Lemma getattr_inv m o src name fv : okm m ->
    fst m o = OExpr (IOp "GetAttr" [("source_object", src); ("attr_name", name)]) None false false ->
    DV m o (Ok fv) -> exists vs vn, DV m src (Ok vs) /\ DV m name (Ok vn) /\
      op_sem ext "GetAttr" mode [("source_object", vs); ("attr_name", vn)] = Ok fv.
  Proof.
    intros Hm Eo [d Ed]. destruct m as [h size]. cbn [fst] in *. unfold DV. cbn [fst]. unfold ev in Ed. destruct d as [|d]; [discriminate|]. cbn [den] in Ed. rewrite Eo in Ed.
    change (provided e _ None false false) with (@None V) in Ed. cbv iota in Ed. cbn [dmapM fst snd] in Ed.
    destruct (den ext h e mode f d src) as [[[w1 b1]|]|] eqn:F1; cbn in Ed; try discriminate.
    destruct (den ext h e mode f d name) as [[[w2 b2]|]|] eqn:F2; cbn in Ed; try discriminate.
    exists w1, w2. split; [exists d; unfold ev; rewrite F1; reflexivity|].
    split; [exists d; unfold ev; rewrite F2; reflexivity|].
    destruct (op_sem ext "GetAttr" mode _) as [w|]; cbn in Ed; [congruence|discriminate].
  Qed.
End Sim.
