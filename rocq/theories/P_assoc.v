(** Theorems about the associations of columns (C55). *)
From Coq Require Import QArith Permutation Sorted.
From Verif Require Import Base M_names L_names L_leftjoin M_assoc L_assoc L_assoc2 L_assoc3.
Open Scope string_scope.
Open Scope list_scope.
Open Scope nat_scope.

Section Theorems.
  (** numbers of the output, and the square root *)
  Context {num : Type} (zero one nan : num) (root : Q -> num) (le : num -> num -> Prop).
  Hypothesis root_eq : forall p q, (p == q)%Q -> root p = root q.
  Hypothesis root_0 : root 0 = zero.
  Hypothesis root_1 : root 1 = one.
  Hypothesis root_le : forall p q, (p <= q)%Q -> le (root p) (root q).
  (** columns and values *)
  Context {C V : Type} `{EqD V}.
  Variable is_duration is_numeric is_any_date : C -> bool.
  Variable total_seconds : C -> C.
  Variable to_float32 to_string : C -> res C.
  Variable n_unique : C -> nat.
  Variable to_numpy : C -> list V.
  Variable floating : C -> bool.
  Variable clip : V -> V.
  Variable isfinite : V -> bool.
  Variable zero_value : V.
  Variable one_hot kbins : nat -> list V -> res (nat * list (list bool)).
  Hypothesis one_hot_total : forall n vals, 0 < n -> vals <> [] -> exists r, one_hot n vals = Ok r.
  Hypothesis kbins_total : forall n vals, 0 < n -> vals <> [] -> exists r, kbins n vals = Ok r.
  Hypothesis one_hot_ok : OneHotOk one_hot.
  Hypothesis kbins_ok : KBinsOk kbins.
  Hypothesis n_unique_ok : forall c u, incl (to_numpy c) u -> n_unique c <= length u.
  Variable str : pyname -> string.
  Hypothesis str_str : forall s, str (PStr s) = s.
  Variable argsort : list num -> list nat.
  Hypothesis argsort_perm : forall l, Permutation (argsort l) (seq 0 (length l)).
  Hypothesis argsort_sorted : forall l, StronglySorted (fun a b => forall x y, nth_error l a = Some x -> nth_error l b = Some y -> le x y) (argsort l).
  Variable corr_numeric : C -> bool.
  Variable corr : C -> C -> num.
  Variable draw : nat -> string.
  Notation encode := (onehot_encode is_duration is_numeric is_any_date total_seconds to_float32 to_string n_unique to_numpy floating clip isfinite zero_value one_hot kbins).
  Notation converted_ := (converted is_duration is_numeric is_any_date total_seconds to_float32 to_string).
  Notation Bins := (BinsOf is_duration is_numeric is_any_date total_seconds to_float32 to_string to_numpy floating clip).
  Notation associations := (column_associations zero nan root encode str argsort corr_numeric corr draw).
  Notation Score_ := (Score root Bins).

  (** C55: one row for each pair of columns, with Cramer's V of their bins (and the correlation of columns of numbers), by decreasing scores. *)
  Theorem C55_table : forall n_rows df, 0 < n_rows ->
    (forall nc, In nc df -> exists c, converted_ (snd nc) = Ok c /\ length (to_numpy c) = n_rows) ->
    (forall nc, In nc df -> exists s, fst nc = PStr s) -> NoDup (map fst df) ->
    exists t ps, associations n_rows df = Ok t /\
      tcols t = ["left_column_name"; "left_column_idx"; "right_column_name"; "right_column_idx"; "cramer_v"; "pearson_corr"] /\
      NoDup ps /\ (forall i j, In (i, j) ps <-> i < j < length df) /\
      Forall2 (RowOf root corr_numeric corr Bins df n_rows) ps (trows t) /\ StronglySorted (Decreasing le) (trows t).
  Proof using root_eq root_0 one_hot_total kbins_total one_hot_ok kbins_ok n_unique_ok str_str argsort_perm argsort_sorted.
    intros n_rows df Pn Conv Names ND.
    apply (associations_ok zero nan root le root_eq root_0 encode str argsort str_str argsort_perm argsort_sorted corr_numeric corr draw Bins
             (encode_spec is_duration is_numeric is_any_date total_seconds to_float32 to_string n_unique to_numpy floating clip isfinite zero_value one_hot kbins
                one_hot_ok kbins_ok n_unique_ok) n_rows df Pn); try assumption.
    - intros nc xs I (c & h & Ec & -> & _). rewrite map_length. destruct (Conv nc I) as (c' & Ec' & L). congruence.
    - intros nc I. destruct (Conv nc I) as (c & Ec & L).
      apply (encode_total is_duration is_numeric is_any_date total_seconds to_float32 to_string n_unique to_numpy floating clip isfinite zero_value one_hot kbins
                one_hot_ok kbins_ok one_hot_total kbins_total _ c Ec). intros E0. rewrite E0 in L. cbn in L. lia.
  Qed.

  (** C55: scores are between 0 and 1 and do not depend on the order of the columns. *)
  Theorem C55_bounds : forall n_rows ci cj v, Score_ n_rows ci cj v -> le zero v /\ le v one.
  Proof using root_0 root_1 root_le. exact (score_bounds zero one root le root_0 root_1 root_le Bins). Qed.
  Theorem C55_symmetric : forall n_rows ci cj v, Score_ n_rows ci cj v -> Score_ n_rows cj ci v.
  Proof using root_eq. exact (score_symmetric root root_eq Bins). Qed.

  (** C55: for columns with at most 10 values, the score is Cramer's V of these values. *)
  Theorem C55_exact : forall n_rows ci cj v di dj, Score_ n_rows ci cj v ->
    converted_ ci = Ok di -> converted_ cj = Ok dj -> Few to_numpy di -> Few to_numpy dj ->
    v = root (cramer2 (data to_numpy floating clip di dj)).
  Proof using root_eq. exact (exact_score root root_eq is_duration is_numeric is_any_date total_seconds to_float32 to_string to_numpy floating clip). Qed.

  Hypothesis root_inj : forall p q, root p = root q -> (p == q)%Q.
  (** ... then 0 means independence and 1 means that one column determines the other one. *)
  Theorem C55_zero : forall n_rows ci cj v di dj, Score_ n_rows ci cj v ->
    converted_ ci = Ok di -> converted_ cj = Ok dj -> Few to_numpy di -> Few to_numpy dj -> let l := data to_numpy floating clip di dj in
    1 < length (lefts l) -> 1 < length (rights l) -> (v = zero <-> Independent l).
  Proof using root_eq root_0 root_inj. exact (exact_zero zero root root_eq root_0 root_inj is_duration is_numeric is_any_date total_seconds to_float32 to_string to_numpy floating clip). Qed.
  Theorem C55_one : forall n_rows ci cj v di dj, Score_ n_rows ci cj v ->
    converted_ ci = Ok di -> converted_ cj = Ok dj -> Few to_numpy di -> Few to_numpy dj -> let l := data to_numpy floating clip di dj in
    (v = one <-> 1 < Nat.min (length (lefts l)) (length (rights l)) /\
       (length (rights l) <= length (lefts l) /\ Determines l \/ length (lefts l) <= length (rights l) /\ Determined l)).
  Proof using root_eq root_1 root_inj. exact (exact_one one root root_eq root_1 root_inj is_duration is_numeric is_any_date total_seconds to_float32 to_string to_numpy floating clip). Qed.
End Theorems.

(** ** Columns with the same name, or with integers as names (pandas) *)
(** columns of small numbers, one bin for each *)
Fixpoint ex_index (u : list nat) (v : nat) : nat := match u with [] => 0 | x :: u' => if v =? x then 0 else S (ex_index u' v) end.
(** the last category is for the values that do not have their own *)
Definition ex_onehot (n : nat) (vals : list nat) : res (nat * list (list bool)) :=
  let u := nodup Nat.eq_dec vals in
  let w := Nat.min n (length u) in
  if n =? 0 then Err ValueError else Ok (w, map (fun v => map (fun b => Nat.min (n - 1) (ex_index u v) =? b) (seq 0 w)) vals).
Definition ex_encode := onehot_encode (C := list nat) (fun _ => false) (fun _ => true) (fun _ => false) (fun c => c) (fun c => Ok c) (fun c => Ok c)
  (fun c => length (nodup Nat.eq_dec c)) (fun c => c) (fun _ => false) (fun v => v) (fun _ => true) 0 ex_onehot ex_onehot.
Definition ex_str (n : pyname) : string := match n with PStr s => s | PInt n => "0" end.
Fixpoint ex_insert (x : list Q) (i : nat) (l : list nat) : list nat :=
  match l with [] => [i] | j :: l' => if Qle_bool (nth i x 0%Q) (nth j x 0%Q) then i :: l else j :: ex_insert x i l' end.
Definition ex_argsort (x : list Q) : list nat := fold_right (ex_insert x) [] (seq 0 (length x)).
Definition ex_associations := column_associations 0%Q (-1)%Q Qred ex_encode ex_str ex_argsort (fun _ => true) (fun _ _ => 1%Q) (fun _ => "00000000").

(** C55 is wrong for columns that have the same name: the pair is repeated. *)
Theorem C55_duplicates_refuted : exists t, ex_associations 3 [(PStr "a", [0; 1; 0]); (PStr "a", [1; 1; 0])] = Ok t /\
  map (fun r => (nth_error r 1, nth_error r 3)) (trows t) = repeat (Some (AIdx 0), Some (AIdx 1)) 4.
Proof. eexists. split; vm_compute; reflexivity. Qed.
(** C55 is wrong when all columns have integers as names: an exception. *)
Theorem C55_integers_refuted : ex_associations 3 [(PInt 0, [0; 1; 0]); (PInt 1, [1; 1; 0])] = Err ValueError.
Proof. vm_compute. reflexivity. Qed.

Print Assumptions C55_table.
Print Assumptions C55_bounds.
Print Assumptions C55_symmetric.
Print Assumptions C55_exact.
Print Assumptions C55_zero.
Print Assumptions C55_one.
Print Assumptions C55_duplicates_refuted.
Print Assumptions C55_integers_refuted.

(** ** Examples: the hypotheses hold *)
Lemma ex_index_lt : forall u v, In v u -> ex_index u v < length u.
Proof.
  induction u as [|x u IH]; intros v I; [destruct I|]. cbn. destruct (Nat.eqb_spec v x) as [->|N]; [lia|].
  destruct I as [->|I]; [contradiction|]. specialize (IH v I). lia.
Qed.
Lemma ex_index_inj : forall u v v', In v u -> In v' u -> ex_index u v = ex_index u v' -> v = v'.
Proof.
  induction u as [|x u IH]; intros v v' I I' E; [destruct I|]. cbn in E.
  destruct (Nat.eqb_spec v x) as [->|N], (Nat.eqb_spec v' x) as [->|N']; try reflexivity; try discriminate.
  destruct I as [->|I]; [contradiction|]. destruct I' as [->|I']; [contradiction|]. apply IH; [exact I|exact I'|]. congruence.
Qed.
Lemma ex_onehot_ok : OneHotOk ex_onehot.
Proof.
  intros n vals w rows E. unfold ex_onehot in E. destruct (n =? 0) eqn:En; [discriminate|]. apply Nat.eqb_neq in En.
  set (u := nodup Nat.eq_dec vals) in *. assert (Ew : w = Nat.min n (length u)) by congruence.
  assert (IU : forall v, In v vals -> In v u) by (intros v I; apply nodup_In; exact I). split; [lia|].
  exists (fun v => Nat.min (n - 1) (ex_index u v)). split; [|split].
  - intros v I. pose proof (ex_index_lt u v (IU v I)). lia.
  - rewrite Ew. congruence.
  - intros (x & Lx & Ix) v v' I I' E0. apply (ex_index_inj u); [apply IU; exact I|apply IU; exact I'|].
    assert (length u <= n). { apply Nat.le_trans with (length x); [|exact Lx]. apply NoDup_incl_length; [apply NoDup_nodup|]. intros y Iy. apply Ix. apply nodup_In in Iy. exact Iy. }
    pose proof (ex_index_lt u v (IU v I)). pose proof (ex_index_lt u v' (IU v' I')). lia.
Qed.
Lemma ex_kbins_ok : KBinsOk ex_onehot.
Proof. intros n vals w rows E. destruct (ex_onehot_ok n vals w rows E) as (L & f & B & R & _). split; [exact L|]. exists f. tauto. Qed.
Lemma ex_total : forall n vals, 0 < n -> vals <> [] -> exists r, ex_onehot n vals = Ok r.
Proof. intros n vals P _. unfold ex_onehot. destruct (Nat.eqb_spec n 0); [lia|]. eexists; reflexivity. Qed.
Lemma ex_unique_ok : forall (c u : list nat), incl c u -> length (nodup Nat.eq_dec c) <= length u.
Proof. intros c u I. apply NoDup_incl_length; [apply NoDup_nodup|]. intros x Ix. apply I. apply nodup_In in Ix. exact Ix. Qed.
Lemma ex_sort_perm : forall l, Permutation (ex_argsort l) (seq 0 (length l)).
Proof.
  intros x. assert (G : forall l, Permutation (fold_right (ex_insert x) [] l) l); [|exact (G _)].
  induction l as [|i l IH]; [constructor|]. cbn [fold_right].
  apply Permutation_trans with (i :: fold_right (ex_insert x) [] l); [|apply perm_skip; exact IH].
  generalize (fold_right (ex_insert x) [] l). clear. induction l as [|j l IH]; [reflexivity|]. cbn [ex_insert].
  destruct (Qle_bool _ _); [reflexivity|]. eapply Permutation_trans; [apply perm_skip; exact IH|]. apply perm_swap.
Qed.
Lemma ex_sort_sorted : forall l, StronglySorted (fun a b => forall x y, nth_error l a = Some x -> nth_error l b = Some y -> (x <= y)%Q) (ex_argsort l).
Proof.
  intros x. assert (G : forall l, StronglySorted (fun a b => (nth a x 0 <= nth b x 0)%Q) (fold_right (ex_insert x) [] l)).
  { induction l as [|i l IH]; [constructor|]. cbn [fold_right]. revert IH. generalize (fold_right (ex_insert x) [] l). clear.
    assert (IN : forall l k y, In y (ex_insert x k l) -> y = k \/ In y l).
    { induction l as [|j l IH]; intros k y I; cbn in I; [destruct I as [<-|[]]; tauto|]. destruct (Qle_bool _ _); [destruct I as [<-|I]; tauto|].
      destruct I as [<-|I]; [right; left; reflexivity|]. destruct (IH k y I); [tauto|right; right; assumption]. }
    induction l as [|j l IH]; intros S; cbn [ex_insert]; [repeat constructor|]. inversion S as [|? ? S1 S2]; subst.
    destruct (Qle_bool (nth i x 0%Q) (nth j x 0%Q)) eqn:El.
    - apply Qle_bool_iff in El. constructor; [exact S|]. constructor; [exact El|]. rewrite Forall_forall in *. intros y I.
      apply Qle_trans with (nth j x 0%Q); [exact El|apply S2; exact I].
    - constructor; [apply IH; exact S1|]. rewrite Forall_forall in *. intros y I. apply IN in I. destruct I as [->|I]; [|apply S2; exact I].
      apply Qlt_le_weak. apply Qnot_le_lt. intros L. apply Qle_bool_iff in L. congruence. }
  specialize (G (seq 0 (length x))). fold (ex_argsort x) in G. induction G as [|a l S IH F]; constructor; [exact IH|].
  rewrite Forall_forall in *. intros b I u v Eu Ev. apply F in I. rewrite (nth_error_nth x a 0%Q Eu), (nth_error_nth x b 0%Q Ev) in I. exact I.
Qed.

(** C55_table: "a" determines "b", and "c" is independent of "b". *)
Definition ex_df : list (pyname * list nat) := [(PStr "a", [0; 1; 2; 0]); (PStr "b", [0; 1; 0; 0]); (PStr "c", [4; 4; 4; 4])].
Example ex_C55 : exists t, ex_associations 4 ex_df = Ok t /\
  map (fun r => (nth_error r 0, nth_error r 2, nth_error r 4)) (trows t) =
    [(Some (AName (PStr "a")), Some (AName (PStr "b")), Some (ANum 1%Q)); (Some (AName (PStr "b")), Some (AName (PStr "c")), Some (ANum 0%Q));
     (Some (AName (PStr "a")), Some (AName (PStr "c")), Some (ANum 0%Q))].
Proof. eexists. split; vm_compute; reflexivity. Qed.
Example ex_C55_table : exists t ps, ex_associations 4 ex_df = Ok t /\
  NoDup ps /\ (forall i j, In (i, j) ps <-> i < j < 3) /\ StronglySorted (Decreasing Qle) (trows t).
Proof.
  destruct (C55_table 0%Q (-1)%Q Qred Qle Qred_complete eq_refl (C := list nat) (fun _ => false) (fun _ => true) (fun _ => false) (fun c => c) (fun c => Ok c) (fun c => Ok c)
    (fun c => length (nodup Nat.eq_dec c)) (fun c => c) (fun _ => false) (fun v => v) (fun _ => true) 0 ex_onehot ex_onehot ex_total ex_total ex_onehot_ok ex_kbins_ok ex_unique_ok
    ex_str (fun s => eq_refl) ex_argsort ex_sort_perm ex_sort_sorted (fun _ => true) (fun _ _ => 1%Q) (fun _ => "00000000") 4 ex_df) as (t & ps & E & _ & ND & I & _ & S).
  - lia.
  - intros nc I. eexists. split; [reflexivity|]. destruct I as [<-|[<-|[<-|[]]]]; reflexivity.
  - intros nc [<-|[<-|[<-|[]]]]; eexists; reflexivity.
  - repeat constructor; cbn; intuition discriminate.
  - exists t, ps. tauto.
Qed.
(** C55_exact, C55_zero, C55_one: independent columns, and columns that determine each other. *)
Definition ex_l1 : list (nat * nat) := combine [0; 0; 1; 1] [0; 1; 0; 1].
Definition ex_l2 : list (nat * nat) := combine [0; 1; 2; 0] [0; 1; 0; 0].
Definition ex_l3 : list (nat * nat) := combine [0; 0; 0; 1] [0; 0; 1; 1].
Example ex_C55_scores : Independent ex_l1 /\ (cramer2 ex_l1 == 0)%Q /\
  Determines ex_l2 /\ (cramer2 ex_l2 == 1)%Q /\
  (cramer2 ex_l3 == 1 # 3)%Q.
Proof.
  split; [apply cramer2_zero; [cbn; lia|reflexivity]|]. split; [reflexivity|]. split; [|split; reflexivity].
  intros p q Ip Iq. cbn in Ip, Iq. destruct Ip as [<-|[<-|[<-|[<-|[]]]]], Iq as [<-|[<-|[<-|[<-|[]]]]]; cbn; congruence.
Qed.
