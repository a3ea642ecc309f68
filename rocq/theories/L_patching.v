(** Replacing the display of dataframes: specification and lemmas. *)
From Verif Require Import Base M_patching L_dict.
Open Scope string_scope.
Open Scope list_scope.

Section Patching.
  Context {meth params : Type}.
  Notation attr := (attr meth params).
  Notation cls := (cls meth params).
  Notation op := (op params).

  (** ** Specification *)
  (** What an operation asks for one of the libraries: [None] nothing, [Some None] the original display,
      [Some (Some p)] reports. *)
  Definition asks_pandas (o : op) : option (option params) :=
    match o with PatchDisplay true _ p => Some (Some p) | UnpatchDisplay true _ => Some None | _ => None end.
  Definition asks_polars (o : op) : option (option params) :=
    match o with PatchDisplay _ true p => Some (Some p) | UnpatchDisplay _ true => Some None | _ => None end.
  (** What was asked last. *)
  Fixpoint asked_last (asks : op -> option (option params)) (ops : list op) (before : option params) : option params :=
    match ops with
    | [] => before
    | o :: ops' => asked_last asks ops' (match asks o with Some x => x | None => before end)
    end.
  (** The attribute that a class should have. *)
  Definition Displays (c0 : cls) (last : option params) (n : string) : option attr :=
    match last with
    | Some p => if mem n METHODS_TO_PATCH
                then match get_some c0 n with Some _ => Some (Report n p) | None => getattr c0 n end
                else getattr c0 n
    | None => getattr c0 n
    end.
  Definition Unstashed (c : cls) : Prop := forall n, In n METHODS_TO_PATCH -> getattr c (stashed_name n) = None.

  (** ** Lemmas *)
  Lemma get_set_eq : forall (c : cls) n a, getattr (setattr c n a) n = Some a.
  Proof. intros c n a. unfold getattr, setattr. simpl. rewrite dget_dset_eq. reflexivity. Qed.
  Lemma get_set_neq : forall (c : cls) n m a, m <> n -> getattr (setattr c n a) m = getattr c m.
  Proof. intros c n m a Ne. unfold getattr, setattr. simpl. rewrite dget_dset_neq by exact Ne. reflexivity. Qed.

  Lemma stash_inj : forall n m, stashed_name n = stashed_name m -> n = m.
  Proof. intros n m E. unfold stashed_name in E. simpl in E. congruence. Qed.
  Lemma stash_method : forall n m, In n METHODS_TO_PATCH -> stashed_name m <> n.
  Proof. intros n m [<-|[<-|[]]]; discriminate. Qed.
  Definition is_stash (n : string) : bool := existsb (fun m => eqb_of n (stashed_name m)) METHODS_TO_PATCH.
  Lemma is_stash_false : forall n m, is_stash n = false -> In m METHODS_TO_PATCH -> n <> stashed_name m.
  Proof.
    intros n m E I ->. unfold is_stash in E. assert (X : existsb (fun m0 => eqb_of (stashed_name m) (stashed_name m0)) METHODS_TO_PATCH = true).
    { apply existsb_exists. exists m. split; [exact I|]. apply eqb_of_true. reflexivity. }
    congruence.
  Qed.

  (** The state of one method: patched or not. *)
  Definition MethInv (c0 c : cls) (last : option params) (n : string) : Prop :=
    getattr c n = Displays c0 last n /\
    match get_some c0 n with
    | None => getattr c (stashed_name n) = None
    | Some a => getattr c (stashed_name n) = Some a \/ (getattr c (stashed_name n) = None /\ last = None)
    end.

  Lemma get_some_getattr : forall (c : cls) n a, get_some c n = Some a -> getattr c n = Some a /\ a <> PyNone.
  Proof. intros c n a E. unfold get_some in E. destruct (getattr c n) as [[| |]|]; try discriminate; injection E as <-; split; congruence. Qed.

  Lemma patch_own : forall c0 c last p n, In n METHODS_TO_PATCH -> MethInv c0 c last n -> MethInv c0 (patch p c n) (Some p) n.
  Proof.
    intros c0 c last p n I (H1 & H2). assert (Mn : mem n METHODS_TO_PATCH = true) by (apply mem_true, I). unfold MethInv, Displays in *. rewrite Mn in *.
    destruct (get_some c0 n) as [a|] eqn:E0.
    - destruct (get_some_getattr _ _ _ E0) as (Ea & Na).
      assert (Ex : exists x, get_some c n = Some x /\ (last = None -> x = a)).
      { unfold get_some. rewrite H1. destruct last as [q|].
        - exists (Report n q). split; [reflexivity|discriminate].
        - rewrite Ea. exists a. split; [destruct a; [reflexivity|reflexivity|congruence]|auto]. }
      destruct Ex as (x & Ex & Hx). unfold patch. rewrite Ex.
      destruct (getattr c (stashed_name n)) as [b|] eqn:Es.
      + split; [apply get_set_eq|]. left. destruct H2 as [H2|(H2 & _)]; [|congruence].
        rewrite get_set_neq by (apply stash_method, I). rewrite Es. exact H2.
      + destruct H2 as [H2|(_ & HL)]; [congruence|]. rewrite (Hx HL). split; [apply get_set_eq|]. left.
        rewrite get_set_neq by (apply stash_method, I). apply get_set_eq.
    - assert (Ex : get_some c n = None) by (unfold get_some in *; rewrite H1; destruct last; exact E0).
      unfold patch. rewrite Ex. split; [destruct last; exact H1|exact H2].
  Qed.
  Lemma unpatch_own : forall c0 c last n, In n METHODS_TO_PATCH -> MethInv c0 c last n -> MethInv c0 (unpatch c n) None n.
  Proof.
    intros c0 c last n I (H1 & H2). assert (Mn : mem n METHODS_TO_PATCH = true) by (apply mem_true, I). unfold MethInv, Displays in *. rewrite Mn in *.
    assert (Gs : get_some c (stashed_name n) = match getattr c (stashed_name n) with Some PyNone => None | x => x end) by reflexivity.
    destruct (get_some c0 n) as [a|] eqn:E0.
    - destruct (get_some_getattr _ _ _ E0) as (Ea & Na). destruct H2 as [H2|(H2 & HL)]; rewrite H2 in Gs; unfold unpatch; rewrite Gs.
      + destruct a; [| |congruence]; (split; [rewrite get_set_eq; congruence|]); left; rewrite get_set_neq by (apply stash_method, I); exact H2.
      + subst last. split; [exact H1|]. right. auto.
    - rewrite H2 in Gs. unfold unpatch. rewrite Gs. split; [|exact H2]. destruct last; exact H1.
  Qed.

  Lemma other_inv : forall c0 c last n m, In n METHODS_TO_PATCH -> In m METHODS_TO_PATCH -> m <> n -> MethInv c0 c last m ->
    (forall p, MethInv c0 (patch p c n) last m) /\ MethInv c0 (unpatch c n) last m.
  Proof.
    intros c0 c last n m In_ Im Ne (H1 & H2).
    assert (G : forall x, getattr (setattr c n x) m = getattr c m /\ getattr (setattr c n x) (stashed_name m) = getattr c (stashed_name m)).
    { intros x. split; apply get_set_neq; [exact Ne|apply stash_method, In_]. }
    assert (G2 : forall x y, getattr (setattr (setattr c (stashed_name n) y) n x) m = getattr c m /\
                   getattr (setattr (setattr c (stashed_name n) y) n x) (stashed_name m) = getattr c (stashed_name m)).
    { intros x y. split.
      - rewrite get_set_neq by exact Ne. apply get_set_neq. intros E. symmetry in E. revert E. apply stash_method, Im.
      - rewrite get_set_neq by (apply stash_method, In_). apply get_set_neq. intros E. apply stash_inj in E. congruence. }
    unfold MethInv, patch, unpatch. split.
    - intros p. destruct (get_some c n) as [x|]; [|split; assumption]. destruct (getattr c (stashed_name n)) eqn:E.
      + destruct (G (Report n p)) as (A & B). rewrite A, B. split; assumption.
      + destruct (G2 (Report n p) x) as (A & B). rewrite A, B. split; assumption.
    - destruct (get_some c (stashed_name n)) as [x|]; [|split; assumption]. destruct (G x) as (A & B). rewrite A, B. split; assumption.
  Qed.
  Lemma others_same : forall c n m, mem m METHODS_TO_PATCH = false -> is_stash m = false -> In n METHODS_TO_PATCH ->
    (forall p, getattr (patch p c n) m = getattr c m) /\ getattr (unpatch c n) m = getattr (c : cls) m.
  Proof.
    intros c n m Mm Sm In_. apply mem_false in Mm. assert (N1 : m <> n) by (intros ->; contradiction). pose proof (is_stash_false m n Sm In_) as N2. unfold patch, unpatch. split.
    - intros p. destruct (get_some c n) as [x|]; [|reflexivity]. rewrite get_set_neq by exact N1. destruct (getattr c (stashed_name n)); [reflexivity|].
      apply get_set_neq. exact N2.
    - destruct (get_some c (stashed_name n)); [|reflexivity]. apply get_set_neq, N1.
  Qed.

  Definition ClsInv (c0 c : cls) (last : option params) : Prop :=
    (forall n, In n METHODS_TO_PATCH -> MethInv c0 c last n) /\
    (forall m, mem m METHODS_TO_PATCH = false -> is_stash m = false -> getattr c m = getattr c0 m).

  Lemma inv_init : forall c0, Unstashed c0 -> ClsInv c0 c0 None.
  Proof.
    intros c0 HU. split; [|reflexivity]. intros n I. split; [reflexivity|]. destruct (get_some c0 n); [right; split; [apply HU, I|reflexivity]|apply HU, I].
  Qed.

  Lemma fold_inv : forall (f : cls -> string -> cls) c0 c last last',
    (forall c n, In n METHODS_TO_PATCH -> forall l, MethInv c0 c l n -> MethInv c0 (f c n) last' n) ->
    (forall c n m l, In n METHODS_TO_PATCH -> In m METHODS_TO_PATCH -> m <> n -> MethInv c0 c l m -> MethInv c0 (f c n) l m) ->
    (forall c n m, mem m METHODS_TO_PATCH = false -> is_stash m = false -> In n METHODS_TO_PATCH -> getattr (f c n) m = getattr c m) ->
    ClsInv c0 c last -> ClsInv c0 (fold_left f METHODS_TO_PATCH c) last'.
  Proof.
    intros f c0 c last last' Hown Hoth Hsame (H1 & H2). simpl.
    assert (I1 : In "_repr_mimebundle_" METHODS_TO_PATCH) by (left; reflexivity). assert (I2 : In "_repr_html_" METHODS_TO_PATCH) by (right; left; reflexivity).
    split.
    - intros n [<-|[<-|[]]].
      + apply Hoth; [exact I2|exact I1|discriminate|]. apply (Hown c _ I1 last). apply H1, I1.
      + apply (Hown _ _ I2 last). apply Hoth; [exact I1|exact I2|discriminate|]. apply H1, I2.
    - intros m Mm Sm. rewrite (Hsame _ _ _ Mm Sm I2), (Hsame _ _ _ Mm Sm I1). apply H2; assumption.
  Qed.

  Lemma change_patch_inv : forall c0 c last p, ClsInv c0 c last -> ClsInv c0 (fold_left (patch p) METHODS_TO_PATCH c) (Some p).
  Proof.
    intros c0 c last p. apply fold_inv.
    - intros. eapply patch_own; eassumption.
    - intros c1 n m l In_ Im Ne HM. destruct (other_inv c0 c1 l n m In_ Im Ne HM) as (A & _). apply A.
    - intros c1 n m Mm Sm In_. destruct (others_same c1 n m Mm Sm In_) as (A & _). apply A.
  Qed.
  Lemma change_unpatch_inv : forall c0 c last, ClsInv c0 c last -> ClsInv c0 (fold_left unpatch METHODS_TO_PATCH c) None.
  Proof.
    intros c0 c last. apply fold_inv.
    - intros. eapply unpatch_own; eassumption.
    - intros c1 n m l In_ Im Ne HM. destruct (other_inv c0 c1 l n m In_ Im Ne HM) as (_ & A). exact A.
    - intros c1 n m Mm Sm In_. destruct (others_same c1 n m Mm Sm In_) as (_ & A). exact A.
  Qed.

  Definition LibInv (c0 c : option cls) (last : option params) : Prop :=
    match c0, c with Some c0, Some c => ClsInv c0 c last | None, None => True | _, _ => False end.

  Lemma step_inv : forall pd0 pl0 (w : world meth params) o l1 l2, LibInv pd0 (pandas w) l1 -> LibInv pl0 (polars w) l2 ->
    LibInv pd0 (pandas (step w o)) (match asks_pandas o with Some x => x | None => l1 end) /\
    LibInv pl0 (polars (step w o)) (match asks_polars o with Some x => x | None => l2 end).
  Proof.
    intros pd0 pl0 w o l1 l2 H1 H2. destruct o as [pd pl p|pd pl]; simpl; split; unfold change.
    - destruct (pandas w) as [c|], pd0 as [c0|]; simpl in *; try tauto. destruct pd; [apply (change_patch_inv c0 c l1 p H1)|exact H1].
    - destruct (polars w) as [c|], pl0 as [c0|]; simpl in *; try tauto. destruct pl, pd; try exact H2; apply (change_patch_inv c0 c l2 p H2).
    - destruct (pandas w) as [c|], pd0 as [c0|]; simpl in *; try tauto. destruct pd; [apply (change_unpatch_inv c0 c l1 H1)|exact H1].
    - destruct (polars w) as [c|], pl0 as [c0|]; simpl in *; try tauto. destruct pl, pd; try exact H2; apply (change_unpatch_inv c0 c l2 H2).
  Qed.

  Lemma steps_inv : forall ops pd0 pl0 (w : world meth params) l1 l2, LibInv pd0 (pandas w) l1 -> LibInv pl0 (polars w) l2 ->
    LibInv pd0 (pandas (steps w ops)) (asked_last asks_pandas ops l1) /\ LibInv pl0 (polars (steps w ops)) (asked_last asks_polars ops l2).
  Proof.
    induction ops as [|o ops IH]; intros pd0 pl0 w l1 l2 H1 H2; [split; assumption|]. simpl.
    destruct (step_inv pd0 pl0 w o l1 l2 H1 H2) as (A & B). exact (IH pd0 pl0 (step w o) _ _ A B).
  Qed.

  Theorem displays : forall (w : world meth params) ops,
    (forall c, pandas w = Some c -> Unstashed c) -> (forall c, polars w = Some c -> Unstashed c) ->
    let shows (lib : world meth params -> option cls) asks :=
      match lib w, lib (steps w ops) with
      | Some c0, Some c => forall n, is_stash n = false -> getattr c n = Displays c0 (asked_last asks ops None) n
      | None, None => True
      | _, _ => False
      end in
    shows pandas asks_pandas /\ shows polars asks_polars.
  Proof.
    intros w ops U1 U2 shows.
    assert (G1 : LibInv (pandas w) (pandas w) None) by (unfold LibInv; destruct (pandas w); [apply inv_init, U1; reflexivity|exact I]).
    assert (G2 : LibInv (polars w) (polars w) None) by (unfold LibInv; destruct (polars w); [apply inv_init, U2; reflexivity|exact I]).
    destruct (steps_inv ops _ _ w None None G1 G2) as (A & B).
    assert (F : forall c0 c last, ClsInv c0 c last -> forall n, is_stash n = false -> getattr c n = Displays c0 last n).
    { intros c0 c last (H1 & H2) n Sn. destruct (mem n METHODS_TO_PATCH) eqn:Mn; [apply H1, mem_true, Mn|].
      rewrite (H2 n Mn Sn). unfold Displays. rewrite Mn. destruct last; reflexivity. }
    unfold shows. split.
    - unfold LibInv in A. destruct (pandas w), (pandas (steps w ops)); try exact A. apply F, A.
    - unfold LibInv in B. destruct (polars w), (polars (steps w ops)); try exact B. apply F, B.
  Qed.

  Lemma asked_last_app : forall asks ops o l, asked_last asks (ops ++ [o]) l = match asks o with Some x => x | None => asked_last asks ops l end.
  Proof. intros asks ops. induction ops as [|o' ops IH]; intros o l; [reflexivity|]. simpl. apply IH. Qed.

  Theorem unpatched : forall (w : world meth params) ops,
    (forall c, pandas w = Some c -> Unstashed c) -> (forall c, polars w = Some c -> Unstashed c) ->
    let w' := steps w (ops ++ [UnpatchDisplay true true]) in
    forall n, is_stash n = false ->
      option_map (fun c => getattr c n) (pandas w') = option_map (fun c => getattr c n) (pandas w) /\
      option_map (fun c => getattr c n) (polars w') = option_map (fun c => getattr c n) (polars w).
  Proof.
    intros w ops U1 U2 w' n Sn. destruct (displays w (ops ++ [UnpatchDisplay true true]) U1 U2) as (A & B). fold w' in A, B.
    rewrite asked_last_app in A, B. simpl in A, B. split.
    - destruct (pandas w), (pandas w'); try contradiction; [simpl; f_equal; exact (A n Sn)|reflexivity].
    - destruct (polars w), (polars w'); try contradiction; [simpl; f_equal; exact (B n Sn)|reflexivity].
  Qed.
End Patching.
