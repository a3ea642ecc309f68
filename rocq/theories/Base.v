(** Common vocabulary of the model: Python exceptions as values, dictionaries as
    association lists in insertion order, membership tests. *)
From Coq Require Export String Ascii Arith ZArith Lia Bool Permutation List.
Export ListNotations.
Open Scope list_scope.
Open Scope nat_scope.

(** Python exceptions that the modelled code raises. *)
Inductive exn :=
| KeyError | ValueError | TypeError | IndexError | AttributeError | RuntimeError
| AssertionError | OSError | FileNotFoundError | ZeroDivisionError | UnboundLocalError
| RejectColumn | NotFittedError | DuplicateError | UserError (code : nat).

Inductive res (A : Type) : Type :=
| Ok (a : A)
| Err (e : exn).
Arguments Ok {A} a.
Arguments Err {A} e.

Definition bind {A B} (x : res A) (f : A -> res B) : res B :=
  match x with Ok a => f a | Err e => Err e end.
Notation "'let!' x ':=' e1 'in' e2" := (bind e1 (fun x => e2))
  (at level 61, x pattern, e1 at next level, right associativity).

(** Decidable equality. *)
Class EqD (A : Type) := eqd : forall x y : A, {x = y} + {x <> y}.
#[global] Instance EqD_nat : EqD nat := Nat.eq_dec.
#[global] Instance EqD_string : EqD string := string_dec.
#[global] Instance EqD_bool : EqD bool := Bool.bool_dec.
#[global] Instance EqD_ascii : EqD ascii := ascii_dec.
#[global] Instance EqD_Z : EqD Z := Z.eq_dec.
#[global] Instance EqD_pair {A B} `{EqD A} `{EqD B} : EqD (A * B).
Proof.
  intros [a b] [a' b']. destruct (eqd a a') as [Ha|Ha].
  - destruct (eqd b b') as [Hb|Hb].
    + left. congruence.
    + right. congruence.
  - right. congruence.
Defined.
#[global] Instance EqD_option {A} `{EqD A} : EqD (option A).
Proof.
  intros [a|] [b|].
  - destruct (eqd a b) as [Ha|Ha]; [left | right]; congruence.
  - right; discriminate.
  - right; discriminate.
  - left; reflexivity.
Defined.
#[global] Instance EqD_list {A} `{EqD A} : EqD (list A) := list_eq_dec eqd.

Definition eqb_of {A} `{EqD A} (x y : A) : bool := if eqd x y then true else false.
(** Python [x in l] *)
Definition mem {A} `{EqD A} (x : A) (l : list A) : bool :=
  if in_dec eqd x l then true else false.

Lemma eqb_of_true {A} `{EqD A} (x y : A) : eqb_of x y = true <-> x = y.
Proof. unfold eqb_of. destruct (eqd x y); split; congruence. Qed.
Lemma eqb_of_false {A} `{EqD A} (x y : A) : eqb_of x y = false <-> x <> y.
Proof. unfold eqb_of. destruct (eqd x y); split; congruence. Qed.
Lemma eqb_of_refl {A} `{EqD A} (x : A) : eqb_of x x = true.
Proof. apply eqb_of_true. reflexivity. Qed.
Lemma mem_true {A} `{EqD A} (x : A) l : mem x l = true <-> In x l.
Proof. unfold mem. destruct (in_dec eqd x l); split; congruence. Qed.
Lemma mem_false {A} `{EqD A} (x : A) l : mem x l = false <-> ~ In x l.
Proof. unfold mem. destruct (in_dec eqd x l); split; congruence. Qed.

(** Python dictionaries: association lists, keys in insertion order. *)
Section Dict.
  Context {K V : Type} `{EqD K}.
  Definition dict := list (K * V).
  Fixpoint dget (k : K) (d : dict) : option V :=
    match d with
    | [] => None
    | (k', v) :: d' => if eqd k k' then Some v else dget k d'
    end.
  (** [d[k] = v]: an existing key keeps its position, a new one goes last. *)
  Fixpoint dset (k : K) (v : V) (d : dict) : dict :=
    match d with
    | [] => [(k, v)]
    | (k', v') :: d' => if eqd k k' then (k', v) :: d' else (k', v') :: dset k v d'
    end.
  Definition dmem (k : K) (d : dict) : bool :=
    match dget k d with Some _ => true | None => false end.
  Fixpoint ddel (k : K) (d : dict) : dict :=
    match d with
    | [] => []
    | (k', v') :: d' => if eqd k k' then d' else (k', v') :: ddel k d'
    end.
  Definition dkeys (d : dict) : list K := map fst d.
End Dict.
Arguments dict K V : clear implicits.

Lemma eqb_of_eq {A} `{EqD A} (x y : A) : eqb_of x y = true -> x = y.
Proof. apply eqb_of_true. Qed.
Lemma eqb_of_neq {A} `{EqD A} (x y : A) : eqb_of x y = false -> x <> y.
Proof. apply eqb_of_false. Qed.

(** A Python loop [\[f(a) for a in l\]] where [f] may raise. *)
Fixpoint mapM {A B} (f : A -> res B) (l : list A) : res (list B) :=
  match l with
  | [] => Ok []
  | a :: l' => let! b := f a in let! bs := mapM f l' in Ok (b :: bs)
  end.

Lemma mapM_Forall2 {A B} (f : A -> res B) : forall l bs,
  mapM f l = Ok bs <-> Forall2 (fun a b => f a = Ok b) l bs.
Proof.
  induction l as [|a l IH]; intros bs; simpl.
  - split; [intros E; injection E as <-; constructor|intros F; inversion F; reflexivity].
  - split.
    + destruct (f a) as [b|] eqn:E; simpl; [|discriminate].
      destruct (mapM f l) as [bs'|] eqn:E'; simpl; [|discriminate].
      intros X. injection X as <-. constructor; [exact E|]. apply IH. reflexivity.
    + intros F. inversion F as [|? b ? bs' E1 E2]; subst. rewrite E1. simpl.
      apply IH in E2. rewrite E2. reflexivity.
Qed.

Lemma mapM_ext {A B} (f g : A -> res B) : forall l,
  (forall a, In a l -> f a = g a) -> mapM f l = mapM g l.
Proof.
  induction l as [|a l IH]; intros Hfg; simpl; [reflexivity|].
  rewrite (Hfg a) by (left; reflexivity). rewrite IH; [reflexivity|].
  intros x I. apply Hfg. right; exact I.
Qed.

Lemma mapM_total {A B} (f : A -> res B) (g : A -> B) : forall l,
  (forall a, In a l -> f a = Ok (g a)) -> mapM f l = Ok (map g l).
Proof.
  induction l as [|a l IH]; intros Hf; simpl; [reflexivity|].
  rewrite (Hf a) by (left; reflexivity). simpl. rewrite IH; [reflexivity|].
  intros x I. apply Hf. right; exact I.
Qed.

(** ** Strings *)
Lemma sapp_nil_r : forall s, (s ++ "")%string = s.
Proof. induction s as [|c s IH]; simpl; congruence. Qed.
Lemma sapp_assoc : forall a b c, ((a ++ b) ++ c = a ++ (b ++ c))%string.
Proof. induction a as [|x a IH]; intros b c; simpl; [reflexivity|]. rewrite IH. reflexivity. Qed.
Lemma sapp_length : forall a b, String.length (a ++ b) = String.length a + String.length b.
Proof. induction a as [|x a IH]; intros b; simpl; [reflexivity|]. rewrite IH. reflexivity. Qed.
Lemma sapp_inv_len : forall a b a' b', String.length a = String.length a' ->
  (a ++ b)%string = (a' ++ b')%string -> a = a' /\ b = b'.
Proof.
  induction a as [|x a IH]; intros b [|x' a'] b' L E; simpl in *; try discriminate.
  - split; [reflexivity|exact E].
  - injection E as -> E. injection L as L. destruct (IH b a' b' L E) as [-> ->]. split; reflexivity.
Qed.
Lemma sapp_inv_len_r : forall a b a' b', String.length b = String.length b' ->
  (a ++ b)%string = (a' ++ b')%string -> a = a' /\ b = b'.
Proof.
  intros a b a' b' L E. apply sapp_inv_len; [|exact E].
  apply (f_equal String.length) in E. rewrite !sapp_length in E. lia.
Qed.
Lemma sapp_inj_l : forall a b b', (a ++ b)%string = (a ++ b')%string -> b = b'.
Proof. intros a b b' E. apply sapp_inv_len in E; [tauto|reflexivity]. Qed.
Lemma sapp_inj_r : forall a a' b, (a ++ b)%string = (a' ++ b)%string -> a = a'.
Proof. intros a a' b E. apply sapp_inv_len_r in E; [tauto|reflexivity]. Qed.

(** ** Lists *)
Lemma NoDup_app_intro : forall {A} (l1 l2 : list A), NoDup l1 -> NoDup l2 ->
  (forall x, In x l1 -> ~ In x l2) -> NoDup (l1 ++ l2).
Proof.
  induction l1 as [|a l1 IH]; intros l2 N1 N2 D; simpl; [exact N2|].
  inversion N1; subst. constructor.
  - intros I. apply in_app_or in I. destruct I as [I|I]; [contradiction|].
    apply (D a); [left; reflexivity|exact I].
  - apply IH; [assumption|exact N2|]. intros x I. apply D. right. exact I.
Qed.
Lemma NoDup_app_l : forall {A} (l1 l2 : list A), NoDup (l1 ++ l2) -> NoDup l1.
Proof.
  induction l1 as [|a l1 IH]; intros l2 N; [constructor|]. simpl in N. inversion N; subst.
  constructor; [|eapply IH; eassumption]. intros I. apply H1. apply in_or_app. left. exact I.
Qed.
Lemma NoDup_app_r : forall {A} (l1 l2 : list A), NoDup (l1 ++ l2) -> NoDup l2.
Proof. induction l1 as [|a l1 IH]; intros l2 N; [exact N|]. simpl in N. inversion N; subst. auto. Qed.
Lemma NoDup_app_disj : forall {A} (l1 l2 : list A) x, NoDup (l1 ++ l2) -> In x l1 -> ~ In x l2.
Proof.
  induction l1 as [|a l1 IH]; intros l2 x N I; [destruct I|]. simpl in N. inversion N; subst.
  destruct I as [E|I]; [|apply IH; assumption]. subst. intros I. apply H1. apply in_or_app. right. exact I.
Qed.

Lemma Forall2_len : forall {A B} (R : A -> B -> Prop) l l', Forall2 R l l' -> length l = length l'.
Proof. intros A B R l l' F. induction F; simpl; congruence. Qed.
