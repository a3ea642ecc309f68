(** Numbered feature names: independent specification and lemmas. *)
From Coq Require Import DecimalString DecimalNat DecimalFacts.
From Verif Require Import Base M_str M_numnames L_str.
Open Scope string_scope.
Open Scope list_scope.
Open Scope nat_scope.

(** Alphabetical order. *)
Fixpoint before (s t : string) : Prop :=
  match s, t with
  | EmptyString, String _ _ => True
  | String a s', String b t' => nat_of_ascii a < nat_of_ascii b \/ (a = b /\ before s' t')
  | _, EmptyString => False
  end.

Lemma before_irrefl : forall s, ~ before s s.
Proof. induction s as [|a s IH]; simpl; [tauto|]. intros [L|(_ & B)]; [lia|auto]. Qed.
Lemma before_app : forall p s t, before s t -> before (p ++ s) (p ++ t).
Proof. induction p as [|a p IH]; intros s t B; simpl; [exact B|]. right. auto. Qed.

(** The value of a string of digits. *)
Definition digit (c : ascii) : nat := nat_of_ascii c - 48.
Fixpoint value (acc : nat) (s : string) : nat := match s with EmptyString => acc | String c s' => value (10 * acc + digit c) s' end.
Fixpoint digits (s : string) : Prop := match s with EmptyString => True | String c s' => 48 <= nat_of_ascii c <= 57 /\ digits s' end.

Lemma value_acc : forall s acc, value acc s = acc * 10 ^ String.length s + value 0 s.
Proof.
  induction s as [|c s IH]; intros acc; cbn [value String.length]; [simpl; lia|].
  rewrite IH, (IH (10 * 0 + digit c)). rewrite Nat.pow_succ_r'. lia.
Qed.
Lemma value_bound : forall s, digits s -> value 0 s < 10 ^ String.length s.
Proof.
  induction s as [|c s IH]; intros D; cbn [value String.length]; [simpl; lia|]. destruct D as (C & D). specialize (IH D).
  rewrite value_acc, Nat.pow_succ_r'. unfold digit. nia.
Qed.
Lemma value_before : forall s t, digits s -> digits t -> String.length s = String.length t -> value 0 s < value 0 t -> before s t.
Proof.
  induction s as [|a s IH]; intros [|b t] DS DT L V; try discriminate; [simpl in V; lia|].
  destruct DS as (A & DS), DT as (B & DT). simpl in L. injection L as L. cbn [value] in V.
  rewrite value_acc, (value_acc t), L in V. pose proof (value_bound s DS) as BS. pose proof (value_bound t DT) as BT. rewrite L in BS. simpl.
  unfold digit in V. destruct (lt_eq_lt_dec (nat_of_ascii a) (nat_of_ascii b)) as [[C|C]|C]; [left; exact C| |].
  - right. assert (a = b) by (rewrite <- (ascii_nat_embedding a), <- (ascii_nat_embedding b), C; reflexivity). split; [assumption|].
    apply IH; try assumption. rewrite C in V. lia.
  - exfalso. nia.
Qed.

Lemma string_of_uint_value : forall d acc, value acc (NilEmpty.string_of_uint d) = Nat.of_uint_acc d acc.
Proof.
  induction d; intros acc; cbn [NilEmpty.string_of_uint value Nat.of_uint_acc]; [reflexivity|..];
    rewrite IHd; f_equal; rewrite Nat.tail_mul_spec; cbv [digit nat_of_ascii]; simpl; lia.
Qed.
Lemma string_of_uint_digits : forall d, digits (NilEmpty.string_of_uint d).
Proof. induction d; simpl; auto; split; try assumption; vm_compute; lia. Qed.

Lemma str_nat_empty : forall n, str_nat n = NilEmpty.string_of_uint (Nat.to_uint n).
Proof. intros n. unfold str_nat, NilZero.string_of_uint. pose proof (to_uint_not_nil n). destruct (Nat.to_uint n); [congruence|..]; reflexivity. Qed.
Lemma str_nat_digits : forall n, digits (str_nat n).
Proof. intros n. rewrite str_nat_empty. apply string_of_uint_digits. Qed.
Lemma str_nat_value : forall n, value 0 (str_nat n) = n.
Proof. intros n. rewrite str_nat_empty, string_of_uint_value. apply (Unsigned.of_to n). Qed.
Lemma str_nat_nonempty : forall n, str_nat n <> "".
Proof. intros n. rewrite str_nat_empty. pose proof (to_uint_not_nil n). destruct (Nat.to_uint n); simpl; congruence. Qed.
(** There are no leading zeros. *)
Lemma str_nat_head : forall n c s, str_nat n = String c s -> s <> "" -> 48 < nat_of_ascii c.
Proof.
  intros n c s E N. rewrite str_nat_empty in E.
  assert (NF : Decimal.unorm (Nat.to_uint n) = Nat.to_uint n) by (rewrite <- Unsigned.to_of, Unsigned.of_to; reflexivity).
  destruct (Nat.to_uint n) as [|d|d|d|d|d|d|d|d|d|d]; simpl in E; try discriminate; injection E as <- <-; try (vm_compute; lia).
  exfalso. unfold Decimal.unorm in NF. simpl in NF. destruct (Decimal.nzhead d) eqn:Z; try discriminate.
  - injection NF as <-. apply N. reflexivity.
  - exact (nzhead_nonzero _ _ Z).
Qed.
Lemma str_nat_length : forall i n, i <= n -> String.length (str_nat i) <= String.length (str_nat n).
Proof.
  intros i n L. destruct (le_lt_dec (String.length (str_nat i)) (String.length (str_nat n))) as [C|C]; [exact C|exfalso].
  pose proof (value_bound _ (str_nat_digits n)) as B. rewrite str_nat_value in B.
  pose proof (str_nat_value i) as V. pose proof (str_nat_digits i) as D. pose proof (str_nat_head i) as H. pose proof (str_nat_nonempty n) as NE.
  destruct (str_nat i) as [|c s]; [simpl in C; lia|]. assert (NS : s <> "").
  { intros ->. destruct (str_nat n); [congruence|]. simpl in C. lia. }
  specialize (H c s eq_refl NS). cbn [value] in V. rewrite value_acc in V. simpl in C.
  assert (10 ^ String.length (str_nat n) <= 10 ^ String.length s) by (apply Nat.pow_le_mono_r; lia).
  unfold digit in V. nia.
Qed.

Lemma zfill_length : forall w s, String.length s <= w -> String.length (zfill w s) = w.
Proof.
  intros w s L. unfold zfill. assert (R : forall k, String.length (repeat_char "0" k ++ s) = k + String.length s) by (induction k; simpl; congruence).
  rewrite R. lia.
Qed.
Lemma zfill_digits : forall w s, digits s -> digits (zfill w s).
Proof. intros w s D. unfold zfill. induction (w - String.length s) as [|k IH]; simpl; [exact D|]. split; [vm_compute; lia|exact IH]. Qed.
Lemma zfill_value : forall w s, value 0 (zfill w s) = value 0 s.
Proof. intros w s. unfold zfill. induction (w - String.length s) as [|k IH]; simpl; [reflexivity|exact IH]. Qed.

(** What is wanted of a list of names. *)
Definition Ordered (l : list string) : Prop :=
  NoDup l /\
  (forall i j s t, i < j -> nth_error l i = Some s -> nth_error l j = Some t -> before s t) /\
  (forall s t, In s l -> In t l -> String.length s = String.length t).

Lemma zfill_before : forall w i j, i < j -> String.length (str_nat j) <= w -> before (zfill w (str_nat i)) (zfill w (str_nat j)).
Proof.
  intros w i j L W. assert (LI : String.length (str_nat i) <= String.length (str_nat j)) by (apply str_nat_length; lia).
  apply value_before; try (apply zfill_digits, str_nat_digits).
  - rewrite !zfill_length; lia.
  - rewrite !zfill_value, !str_nat_value. exact L.
Qed.

Lemma slength_app : forall a b : string, String.length (a ++ b) = String.length a + String.length b.
Proof. induction a; intros b; simpl; congruence. Qed.

Lemma numbered_ordered : forall name w start n, (forall i, i < start + n -> String.length (str_nat i) <= w) ->
  Ordered (map (fun i => (name ++ "_" ++ zfill w (str_nat i))%string) (seq start n)).
Proof.
  intros name w start n W.
  assert (B : forall i j s t, i < j -> nth_error (map (fun i => (name ++ "_" ++ zfill w (str_nat i))%string) (seq start n)) i = Some s ->
     nth_error (map (fun i => (name ++ "_" ++ zfill w (str_nat i))%string) (seq start n)) j = Some t -> before s t).
  { intros i j s t L Ei Ej. rewrite nth_error_map in Ei, Ej.
    destruct (nth_error (seq start n) i) as [a|] eqn:Ea; [|discriminate]. destruct (nth_error (seq start n) j) as [b|] eqn:Eb; [|discriminate].
    simpl in Ei, Ej. injection Ei as <-. injection Ej as <-.
    assert (Li : i < n) by (rewrite <- (seq_length n start); apply nth_error_Some; congruence).
    assert (Lj : j < n) by (rewrite <- (seq_length n start); apply nth_error_Some; congruence).
    apply nth_error_nth with (d := 0) in Ea. apply nth_error_nth with (d := 0) in Eb. rewrite seq_nth in Ea, Eb by assumption. subst a b.
    apply before_app. apply (before_app "_"). apply zfill_before; [lia|]. apply W. lia. }
  split; [|split; [exact B|]].
  - apply NoDup_nth_error. intros i j Li E. destruct (nth_error _ i) as [s|] eqn:Ei; [|apply nth_error_None in Ei; lia].
    symmetry in E. destruct (lt_eq_lt_dec i j) as [[C|C]|C]; [exfalso|exact C|exfalso].
    + exact (before_irrefl s (B i j s s C Ei E)).
    + exact (before_irrefl s (B j i s s C E Ei)).
  - assert (L : forall s, In s (map (fun i => (name ++ "_" ++ zfill w (str_nat i))%string) (seq start n)) -> String.length s = String.length name + S w).
    { intros s I. apply in_map_iff in I. destruct I as (i & <- & I). apply in_seq in I. rewrite !slength_app. simpl. rewrite zfill_length; [lia|]. apply W. lia. }
    intros s t Is It. rewrite (L s Is), (L t It). reflexivity.
Qed.

Lemma minhash_ordered : forall name n, length (minhash_names name n) = n /\ Ordered (minhash_names name n).
Proof.
  intros name n. unfold minhash_names. split; [rewrite map_length; apply seq_length|].
  apply numbered_ordered. intros i L. apply str_nat_length. lia.
Qed.
Lemma text_ordered : forall name n, length (text_names name n) = n /\ Ordered (text_names name n).
Proof.
  intros name n. unfold text_names. split; [rewrite map_length; apply seq_length|].
  apply numbered_ordered. intros i L. apply str_nat_length. lia.
Qed.
