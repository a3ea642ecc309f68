(** The unit in which durations are summarized. *)
From Coq Require Import QArith Qabs Lqa.
From Verif Require Import Base M_matching L_matching M_summary L_summary.
Open Scope string_scope.
Open Scope list_scope.
Open Scope nat_scope.
Set Default Proof Using "Type".

(** Lengths of time, in seconds, that suit a unit: from one unit to one of the next; microseconds suit all that is shorter. *)
Definition Suits (u : unit_) (q : Q) : Prop :=
  match u with
  | Microsecond => q < 1 # 1000
  | Millisecond => 1 # 1000 <= q /\ q < 1
  | Second => 1 <= q /\ q < 3600
  | Hour => 3600 <= q /\ q < 24 * 3600
  | Day => 24 * 3600 <= q /\ q < (3652425 # 10000) * (24 * 3600)
  | Year => (3652425 # 10000) * (24 * 3600) <= q
  end%Q.

Section Unit.
  Context {V : Type} `{EqD V}.
  Variable num : V -> Q.
  Variable seconds : V -> Q.
  Variable leb : V -> V -> bool.
  Variable scale : unit_ -> Q -> Q.
  Variable qidx : lib -> Q -> nat -> nat.
  Variable sort_counts : list (V * nat) -> list (V * nat).
  Hypothesis qidx_ok : QidxOk qidx.

  Lemma unit_suits : forall l vs, Suits (duration_unit seconds qidx l vs) (quantile qidx l (map (fun v => Qabs (seconds v)) vs) (9 # 10)).
  Proof.
    intros l vs. unfold duration_unit. cbv zeta. generalize (quantile qidx l (map (fun v => Qabs (seconds v)) vs) (9 # 10)). intros q. unfold Qlt_bool.
    repeat match goal with |- context [Qle_bool ?a q] =>
      let B := fresh "B" in destruct (Qle_bool a q) eqn:B;
        [apply Qle_bool_iff in B|assert (q < a)%Q by (apply Qnot_le_lt; rewrite <- Qle_bool_iff, B; discriminate); clear B]; cbn [negb] end;
      cbn [Suits]; try split; lra.
  Qed.
  Lemma summary_unit : forall n wp od col s u, WF n col -> summarize_column num seconds leb scale qidx sort_counts n wp od col = Ok s -> unit_of s = Some u ->
    ckind col = KDuration /\ exists v, Occurs col v /\ Suits u (Qabs (seconds v)).
  Proof using qidx_ok.
    intros n wp od col s u W E U.
    destruct (Nat.eq_dec (count_nulls col) n) as [N|N].
    { unfold summarize_column in E. rewrite N, Nat.eqb_refl in E. injection E as <-. discriminate. }
    assert (K : ckind col = KDuration).
    { unfold summarize_column in E. destruct (Nat.eqb_spec (count_nulls col) n) as [|_]; [contradiction|]. destruct (cells col); [discriminate|]. cbv zeta in E.
      destruct (ckind col); try reflexivity;
        first [destruct (add_value_counts _ _ _) as [[[[? ?] ?] ?]|]; cbn [bind] in E; [|discriminate E]
              |destruct (values _) in E; [discriminate E|]|idtac];
        injection E as <-; discriminate U. }
    split; [exact K|].
    assert (Nu : Numeric col) by (unfold Numeric; rewrite K; exact Logic.I).
    destruct (summary_numeric num seconds leb scale qidx sort_counts n wp od col W Nu N) as (f & _ & E'). cbv zeta in E'. rewrite E' in E. injection E as <-.
    cbn [unit_of] in U. rewrite K in U. injection U as <-.
    destruct (has_value n col W N) as [X _].
    set (xs := map (fun v => Qabs (seconds v)) (values (cells col))).
    assert (I : In (quantile qidx (clib col) xs (9 # 10)) xs).
    { apply (quantile_in qidx qidx_ok); [unfold xs; destruct (values (cells col)); [contradiction|discriminate]|split; discriminate]. }
    unfold xs in I. apply in_map_iff in I. destruct I as (v & Ev & I). exists v. split; [apply values_in; exact I|]. rewrite Ev. apply unit_suits.
  Qed.
End Unit.
