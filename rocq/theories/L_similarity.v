(** String similarities: independent specification and lemmas. *)
From Verif Require Import Base M_sampletable M_similarity L_dict L_sampletable.
From Coq Require Import QArith Lqa Permutation.
Open Scope list_scope.
Open Scope nat_scope.

(** ** Specification *)
Section Spec.
  Context {C : Type}.
  Variable space : C.
  Variable is_space : C -> bool.
  (** The substrings of length [n], from left to right. *)
  Fixpoint substrings (n : nat) (s : list C) : list (list C) :=
    if n <=? length s then firstn n s :: match s with [] => [] | _ :: s' => substrings n s' end else [].
  (** The substrings of all lengths of a range. *)
  Definition grams (min_n max_n : nat) (s : list C) : list (list C) :=
    concat (map (fun n => substrings n s) (seq min_n (S max_n - min_n))).
  (** [k] elements can be matched between the two lists, and no more. *)
  Definition Common {A} (l1 l2 : list A) (k : nat) : Prop :=
    exists c r1 r2, Permutation l1 (c ++ r1) /\ Permutation l2 (c ++ r2) /\ (forall x, In x r1 -> ~ In x r2) /\ length c = k.
  (** [q] is the size of the intersection over the size of the union (0 if both are empty). *)
  Definition Jaccard {A} (l1 l2 : list A) (q : Q) : Prop :=
    exists k, Common l1 l2 k /\
      (q == inject_Z (Z.of_nat k) / inject_Z (Z.of_nat (length l1 + length l2 - k)))%Q.

  Definition all_space (s : list C) : Prop := forall c, In c s -> is_space c = true.
  Definition starts_with (b : bool) (s : list C) : Prop := match s with [] => True | c :: _ => is_space c = b end.
  (** The words of a text. *)
  Inductive Words : list C -> list (list C) -> Prop :=
  | words_end : forall s, all_space s -> Words s []
  | words_more : forall sep w rest ws, all_space sep -> w <> [] -> (forall c, In c w -> is_space c = false) ->
      starts_with true rest -> Words rest ws -> Words (sep ++ w ++ rest) (w :: ws).
  (** The words separated by single spaces, with a space on each side. *)
  Definition spaced (ws : list (list C)) : list C :=
    match ws with [] => [space; space] | _ => flat_map (cons space) ws ++ [space] end.
  (** The text where several white spaces in a row are replaced by one space. *)
  Inductive Squeezed : list C -> list C -> Prop :=
  | sq_nil : Squeezed [] []
  | sq_char : forall c s t, is_space c = false -> Squeezed s t -> Squeezed (c :: s) (c :: t)
  | sq_one : forall c s t, is_space c = true -> starts_with false s -> Squeezed s t -> Squeezed (c :: s) (c :: t)
  | sq_run : forall w s t, 2 <= length w -> all_space w -> starts_with false s -> Squeezed s t -> Squeezed (w ++ s) (space :: t).
End Spec.

(** ** Counting *)
Section Counting.
  Context {A : Type} `{EqD A}.
  Notation cnt l g := (count_occ eqd l g).

  Lemma cnt_app : forall (l1 l2 : list A) g, cnt (l1 ++ l2) g = cnt l1 g + cnt l2 g.
  Proof. intros. apply count_occ_app. Qed.
  Lemma cnt_perm : forall (l1 l2 : list A), Permutation l1 l2 -> forall g, cnt l1 g = cnt l2 g.
  Proof. intros l1 l2 P. apply Permutation_count_occ. exact P. Qed.
  Lemma cnt_0 : forall (l : list A) g, cnt l g = 0 <-> ~ In g l.
  Proof. intros. symmetry. apply count_occ_not_In. Qed.

  Lemma common_exists : forall l1 l2 : list A, exists k, Common l1 l2 k.
  Proof.
    induction l1 as [|x l1 IH]; intro l2.
    - exists 0, [], [], l2. repeat split; [constructor|apply Permutation_refl|]. intros x [].
    - destruct (in_dec eqd x l2) as [I|I].
      + apply in_split in I. destruct I as (a & b & ->). destruct (IH (a ++ b)) as (k & c & r1 & r2 & P1 & P2 & D & L).
        exists (S k), (x :: c), r1, r2. split; [simpl; constructor; exact P1|]. split; [|split; [exact D|simpl; congruence]].
        eapply Permutation_trans; [apply Permutation_sym, Permutation_middle|]. simpl. constructor. exact P2.
      + destruct (IH l2) as (k & c & r1 & r2 & P1 & P2 & D & L). exists k, c, (x :: r1), r2.
        split; [eapply Permutation_trans; [constructor; exact P1|apply Permutation_middle]|]. split; [exact P2|]. split; [|exact L].
        intros y [<-|J]; [|apply D; exact J]. intro K. apply I. apply (Permutation_in _ (Permutation_sym P2)). apply in_or_app. right. exact K.
  Qed.
  Lemma common_count : forall (l1 l2 c r1 r2 : list A), Permutation l1 (c ++ r1) -> Permutation l2 (c ++ r2) -> (forall x, In x r1 -> ~ In x r2) ->
    forall g, cnt c g = Nat.min (cnt l1 g) (cnt l2 g).
  Proof.
    intros l1 l2 c r1 r2 P1 P2 D g. rewrite (cnt_perm _ _ P1), (cnt_perm _ _ P2), !cnt_app.
    destruct (in_dec eqd g r1) as [I|I].
    - apply D, cnt_0 in I. rewrite I. lia.
    - apply cnt_0 in I. rewrite I. lia.
  Qed.
  Lemma common_unique : forall (l1 l2 : list A) k k', Common l1 l2 k -> Common l1 l2 k' -> k = k'.
  Proof.
    intros l1 l2 k k' (c & r1 & r2 & P1 & P2 & D & L) (c' & r1' & r2' & P1' & P2' & D' & L'). subst.
    apply Permutation_length. apply (Permutation_count_occ eqd). intro g.
    rewrite (common_count _ _ _ _ _ P1 P2 D), (common_count _ _ _ _ _ P1' P2' D'). reflexivity.
  Qed.
  Lemma common_sym : forall (l1 l2 : list A) k, Common l1 l2 k -> Common l2 l1 k.
  Proof. intros l1 l2 k (c & r1 & r2 & P1 & P2 & D & L). exists c, r2, r1. repeat split; try assumption. intros x I J. exact (D x J I). Qed.
  Lemma common_same : forall l : list A, Common l l (length l).
  Proof. intro l. exists l, [], []. rewrite app_nil_r. repeat split; auto. Qed.
  Lemma common_le : forall (l1 l2 : list A) k, Common l1 l2 k -> k <= length l1 /\ k <= length l2.
  Proof.
    intros l1 l2 k (c & r1 & r2 & P1 & P2 & D & L). rewrite (Permutation_length P1), (Permutation_length P2), !app_length. lia.
  Qed.

  (** The number of elements from the counts. *)
  Lemma sum_app : forall a b, sum (a ++ b) = sum a + sum b.
  Proof. intros. unfold sum. induction a as [|x a IH]; simpl; [reflexivity|]. rewrite IH. lia. Qed.
  Lemma sum_add : forall (f g : A -> nat) V, sum (map (fun x => f x + g x) V) = sum (map f V) + sum (map g V).
  Proof. intros. induction V as [|x V IH]; simpl; [reflexivity|]. unfold sum in *. lia. Qed.
  Lemma sum_cons : forall x l, sum (x :: l) = x + sum l.
  Proof. reflexivity. Qed.
  Lemma sum_one : forall V x, NoDup V -> In x V -> sum (map (fun g => if eqd x g then 1 else 0) V) = 1.
  Proof.
    induction V as [|y V IH]; intros x N I; [destruct I|]. inversion_clear N as [|? ? NI N']. cbn [map]. rewrite sum_cons. destruct (eqd x y) as [E|E].
    - subst y. assert (Z : sum (map (fun g => if eqd x g then 1 else 0) V) = 0).
      { clear - NI. induction V as [|y V IH]; [reflexivity|]. cbn [map]. rewrite sum_cons. destruct (eqd x y) as [E|E]; [subst; exfalso; apply NI; left; reflexivity|].
        apply IH. intro I. apply NI. right. exact I. }
      rewrite Z. reflexivity.
    - destruct I as [I|I]; [congruence|]. apply IH; assumption.
  Qed.
  Lemma sum_zero : forall V : list A, sum (map (fun _ => 0) V) = 0.
  Proof. induction V; simpl; auto. Qed.
  Lemma length_counts : forall V (l : list A), NoDup V -> incl l V -> sum (map (fun g => cnt l g) V) = length l.
  Proof.
    intros V l N. induction l as [|x l IH]; intro I; [apply sum_zero|].
    assert (E : map (fun g => cnt (x :: l) g) V = map (fun g => (if eqd x g then 1 else 0) + cnt l g) V).
    { apply map_ext. intro g. simpl. destruct (eqd x g); reflexivity. }
    rewrite E, (sum_add (fun g => if eqd x g then 1 else 0) (fun g => cnt l g)), IH by (intros y J; apply I; right; exact J). rewrite sum_one; [reflexivity|exact N|apply I; left; reflexivity].
  Qed.
  (** The size of the intersection, from the counts on a vocabulary that contains one of the lists. *)
  Lemma sum_min : forall V (l1 l2 : list A) k, NoDup V -> incl l2 V -> Common l1 l2 k ->
    sum (map (fun g => Nat.min (cnt l1 g) (cnt l2 g)) V) = k.
  Proof.
    intros V l1 l2 k N I (c & r1 & r2 & P1 & P2 & D & L).
    rewrite (map_ext _ (fun g => cnt c g)) by (intro g; symmetry; eapply common_count; eassumption).
    rewrite <- L. apply length_counts; [exact N|]. intros g J. apply I. apply (Permutation_in _ (Permutation_sym P2)).
    apply in_or_app. left. exact J.
  Qed.

  Lemma jaccard_bounds : forall (l1 l2 : list A) q, Jaccard l1 l2 q -> (0 <= q <= 1)%Q.
  Proof.
    intros l1 l2 q (k & K & E). destruct (common_le _ _ _ K) as [B1 B2]. rewrite E.
    destruct (Nat.eq_dec (length l1 + length l2 - k) 0) as [Z|Z].
    - rewrite Z. change (inject_Z (Z.of_nat 0)) with 0%Q. unfold Qdiv. change (/ 0)%Q with 0%Q. rewrite Qmult_0_r. split; discriminate.
    - assert (P : (0 < inject_Z (Z.of_nat (length l1 + length l2 - k)))%Q). { change 0%Q with (inject_Z 0). rewrite <- Zlt_Qlt. lia. }
      split.
      + apply Qle_shift_div_l; [exact P|]. rewrite Qmult_0_l. change 0%Q with (inject_Z 0). rewrite <- Zle_Qle. lia.
      + apply Qle_shift_div_r; [exact P|]. rewrite Qmult_1_l. rewrite <- Zle_Qle. lia.
  Qed.
  Lemma jaccard_unique : forall (l1 l2 : list A) q q', Jaccard l1 l2 q -> Jaccard l1 l2 q' -> (q == q')%Q.
  Proof. intros l1 l2 q q' (k & K & E) (k' & K' & E'). rewrite (common_unique _ _ _ _ K K') in E. rewrite E, E'. reflexivity. Qed.
  Lemma jaccard_sym : forall (l1 l2 : list A) q, Jaccard l1 l2 q -> Jaccard l2 l1 q.
  Proof. intros l1 l2 q (k & K & E). exists k. split; [apply common_sym; exact K|]. rewrite (Nat.add_comm (length l2)). exact E. Qed.
  Lemma jaccard_same : forall (l : list A) q, l <> [] -> Jaccard l l q -> (q == 1)%Q.
  Proof.
    intros l q N (k & K & E). rewrite (common_unique _ _ _ _ K (common_same l)) in E. rewrite E.
    replace (length l + length l - length l) with (length l) by lia. apply Qmult_inv_r. intro Z.
    assert (Z0 : (inject_Z (Z.of_nat (length l)) == inject_Z 0)%Q) by exact Z. apply (proj1 (inject_Z_injective _ _)) in Z0.
    apply N. apply length_zero_iff_nil. lia.
  Qed.
  Lemma jaccard_1 : forall (l1 l2 : list A) q, Jaccard l1 l2 q -> (q == 1)%Q -> Permutation l1 l2.
  Proof.
    intros l1 l2 q (k & (c & r1 & r2 & P1 & P2 & D & L) & E) Q1. rewrite Q1 in E.
    assert (Ln : length l1 + length l2 - k = length r1 + length r2 + k).
    { rewrite (Permutation_length P1), (Permutation_length P2), !app_length. lia. }
    rewrite Ln in E. destruct (Nat.eq_dec (length r1 + length r2 + k) 0) as [Z|Z].
    - rewrite Z in E. change (inject_Z (Z.of_nat 0)) with 0%Q in E. unfold Qdiv in E. change (/ 0)%Q with 0%Q in E. rewrite Qmult_0_r in E. discriminate.
    - assert (P : ~ (inject_Z (Z.of_nat (length r1 + length r2 + k)) == 0)%Q).
      { intro X. assert (X0 : (inject_Z (Z.of_nat (length r1 + length r2 + k)) == inject_Z 0)%Q) by exact X. apply (proj1 (inject_Z_injective _ _)) in X0. lia. }
      assert (X : (inject_Z (Z.of_nat (length r1 + length r2 + k)) == inject_Z (Z.of_nat k))%Q).
      { rewrite <- (Qmult_1_l (inject_Z (Z.of_nat (length r1 + length r2 + k)))), E. field. exact P. }
      apply (proj1 (inject_Z_injective _ _)) in X. assert (r1 = []) by (destruct r1; [reflexivity|simpl in X; lia]).
      assert (r2 = []) by (destruct r2; [reflexivity|simpl in X; lia]). subst. rewrite app_nil_r in *.
      eapply Permutation_trans; [exact P1|apply Permutation_sym; exact P2].
  Qed.
End Counting.

(** ** n-grams *)
Section Grams.
  Context {C : Type} `{EqD C}.
  Variable space : C.
  Variable is_space : C -> bool.
  Variable lower : list C -> list C.

  Lemma substrings_windows : forall n (s : list C), windows n s = substrings n s.
  Proof.
    intros n s. unfold windows. induction s as [|c s IH].
    - cbn [length substrings]. destruct (Nat.leb_spec n 0) as [L|L].
      + replace n with 0 by lia. reflexivity.
      + replace (1 - n) with 0 by lia. reflexivity.
    - cbn [substrings]. cbn [length]. destruct (Nat.leb_spec n (S (length s))) as [L|L].
      + replace (S (S (length s)) - n) with (S (S (length s) - n)) by lia. cbn [seq map]. f_equal.
        rewrite <- seq_shift, map_map. cbn [skipn]. exact IH.
      + replace (S (S (length s)) - n) with 0 by lia. reflexivity.
  Qed.
  Lemma substrings_length : forall n (s : list C), length (substrings n s) = S (length s) - n.
  Proof. intros. rewrite <- substrings_windows. unfold windows. rewrite map_length, seq_length. reflexivity. Qed.

  Lemma zip_rows_cons : forall {A} (r r2 : list A) rest, zip_rows (r :: r2 :: rest) = map (fun q => fst q :: snd q) (combine r (zip_rows (r2 :: rest))).
  Proof. reflexivity. Qed.
  Lemma zip_tails : forall n k (s : list C),
    zip_rows (map (fun i => skipn i s) (seq k (S n))) = map (fun i => firstn (S n) (skipn (k + i) s)) (seq 0 (length s - k - n)).
  Proof.
    assert (Skip : forall (s : list C) k c r, skipn k s = c :: r -> skipn (S k) s = r).
    { induction s as [|x s IH]; intros k c r E; [rewrite skipn_nil in E; discriminate|]. destruct k as [|k]; simpl in *; [congruence|]. eapply IH; eassumption. }
    assert (One : forall s : list C, map (fun x => [x]) s = map (fun i => firstn 1 (skipn i s)) (seq 0 (length s))).
    { induction s as [|x s IH]; [reflexivity|]. cbn [length seq map]. f_equal. rewrite <- seq_shift, map_map. cbn [skipn]. exact IH. }
    assert (Comb : forall n (s : list C) m, m <= length s ->
              map (fun q => fst q :: snd q) (combine s (map (fun i => firstn (S n) (skipn (S i) s)) (seq 0 (m - 1 - n)))) =
              map (fun i => firstn (S (S n)) (skipn i s)) (seq 0 (m - 1 - n))).
    { intros n. induction s as [|x s IH]; intros m L; [simpl in L; replace (m - 1 - n) with 0 by lia; reflexivity|].
      destruct (m - 1 - n) as [|p] eqn:Ep; [reflexivity|]. cbn [seq map combine]. f_equal.
      rewrite <- seq_shift, !map_map. cbn [skipn]. cbn [length] in L. specialize (IH (S (p + n)) ltac:(lia)).
      replace (S (p + n) - 1 - n) with p in IH by lia. exact IH. }
    induction n as [|n IH]; intros k s.
    - cbn [seq map]. cbn [zip_rows]. rewrite One, skipn_length. rewrite Nat.sub_0_r. apply map_ext. intro i. rewrite skipn_twice. reflexivity.
    - cbn [seq map]. specialize (IH (S k) s). cbn [seq map] in IH. rewrite zip_rows_cons, IH.
      rewrite (map_ext (fun i => firstn (S n) (skipn (S k + i) s)) (fun i => firstn (S n) (skipn (S i) (skipn k s)))).
      2:{ intro i. rewrite skipn_twice. f_equal. f_equal. lia. }
      replace (length s - S k - n) with (length s - k - 1 - n) by lia.
      rewrite (Comb n (skipn k s) (length s - k)) by (rewrite skipn_length; lia).
      replace (length s - k - S n) with (length s - k - 1 - n) by lia.
      apply map_ext. intro i. rewrite skipn_twice. reflexivity.
  Qed.
  Lemma get_ngrams_spec : forall s n, 1 <= n -> get_ngrams space is_space lower s n = substrings n (padded space is_space lower s).
  Proof.
    intros s n L. destruct n as [|n]; [lia|]. unfold get_ngrams. rewrite zip_tails, <- substrings_windows. unfold windows.
    replace (length (padded space is_space lower s) - 0 - n) with (S (length (padded space is_space lower s)) - S n) by lia. reflexivity.
  Qed.

  (** Words. *)
  Lemma Words_app_space : forall c s ws, is_space c = true -> Words is_space s ws -> Words is_space (c :: s) ws.
  Proof.
    intros c s ws S W. inversion W as [s' A|sep w rest ws' A N F T W']; subst.
    - constructor. intros x [<-|I]; [exact S|apply A; exact I].
    - change (c :: sep ++ w ++ rest) with ((c :: sep) ++ w ++ rest). constructor; try assumption. intros x [<-|I]; [exact S|apply A; exact I].
  Qed.
  Lemma words_run_spec : forall s word, (forall c, In c word -> is_space c = false) -> Words is_space (word ++ s) (words_run is_space word s).
  Proof.
    induction s as [|c s IH]; intros word F; simpl.
    - rewrite app_nil_r. destruct word as [|a word]; [constructor; intros x []|].
      replace (a :: word) with ([] ++ (a :: word) ++ []) at 1 by (rewrite app_nil_r; reflexivity).
      constructor; [intros x []|discriminate|exact F|exact I|constructor; intros x []].
    - destruct (is_space c) eqn:S.
      + destruct word as [|a word].
        * simpl. apply Words_app_space; [exact S|]. apply (IH []). intros x [].
        * change ((a :: word) ++ c :: s) with ([] ++ (a :: word) ++ (c :: s)).
          constructor; [intros x []|discriminate|exact F|exact S|]. apply Words_app_space; [exact S|]. apply (IH []). intros x [].
      + replace (word ++ c :: s) with ((word ++ [c]) ++ s) by (rewrite <- app_assoc; reflexivity). apply IH.
        intros x I. apply in_app_or in I. destruct I as [I|[<-|[]]]; [apply F; exact I|exact S].
  Qed.
  Lemma prefix_unique : forall (P : C -> bool) w1 r1 w2 r2, (forall c, In c w1 -> P c = true) -> (forall c, In c w2 -> P c = true) ->
    match r1 with [] => True | c :: _ => P c = false end -> match r2 with [] => True | c :: _ => P c = false end ->
    w1 ++ r1 = w2 ++ r2 -> w1 = w2 /\ r1 = r2.
  Proof.
    intros P w1 r1. induction w1 as [|a w1 IH]; intros w2 r2 F1 F2 T1 T2 E; destruct w2 as [|b w2]; simpl in E.
    - split; [reflexivity|exact E].
    - subst r1. rewrite F2 in T1 by (left; reflexivity). discriminate.
    - subst r2. rewrite F1 in T2 by (left; reflexivity). discriminate.
    - injection E as <- E. destruct (IH w2 r2) as [-> ->]; auto.
      + intros c I. apply F1. right. exact I.
      + intros c I. apply F2. right. exact I.
  Qed.
  Lemma Words_unique : forall s ws ws', Words is_space s ws -> Words is_space s ws' -> ws = ws'.
  Proof.
    intros s ws ws' W. revert ws'. induction W as [s A|sep w rest ws A N F T W IH]; intros ws' W'.
    - inversion W' as [|sep w rest ws A' N' F' T' W'' E]; subst; [reflexivity|]. destruct w as [|c w]; [contradiction|].
      assert (X : is_space c = true) by (apply A; apply in_or_app; right; left; reflexivity). rewrite F' in X by (left; reflexivity). discriminate.
    - remember (sep ++ w ++ rest) as s eqn:Es. destruct W' as [s A'|sep' w' rest' ws' A' N' F' T' W'].
      + exfalso. subst s. destruct w as [|c w]; [contradiction|].
        assert (X : is_space c = true) by (apply A'; apply in_or_app; right; left; reflexivity). rewrite F in X by (left; reflexivity). discriminate.
      + assert (Hd : forall v (r : list C), v <> [] -> (forall c, In c v -> is_space c = false) -> match v ++ r with [] => True | c :: _ => is_space c = false end).
        { intros v r Nv Fv. destruct v as [|c v]; [contradiction|]. simpl. apply Fv. left. reflexivity. }
        destruct (prefix_unique is_space sep' (w' ++ rest') sep (w ++ rest) A' A (Hd _ _ N' F') (Hd _ _ N F) Es) as [-> E2].
        destruct (prefix_unique (fun c => negb (is_space c)) w' rest' w rest) as [-> ->].
        * intros c I. rewrite F' by exact I. reflexivity.
        * intros c I. rewrite F by exact I. reflexivity.
        * destruct rest'; [exact Logic.I|]. simpl in T'. rewrite T'. reflexivity.
        * destruct rest; [exact Logic.I|]. simpl in T. rewrite T. reflexivity.
        * exact E2.
        * f_equal. apply IH. exact W'.
  Qed.
  Lemma join_spaced : forall ws, space :: join space ws ++ [space] = spaced space ws.
  Proof.
    assert (J : forall ws, ws <> [] -> space :: join space ws = flat_map (cons space) ws).
    { induction ws as [|w ws IH]; intro N; [contradiction|]. destruct ws as [|w2 ws].
      - simpl. rewrite app_nil_r. reflexivity.
      - cbn [flat_map]. rewrite <- app_comm_cons. f_equal. change (join space (w :: w2 :: ws)) with (w ++ space :: join space (w2 :: ws)).
        f_equal. apply IH. discriminate. }
    intros [|w ws]; [reflexivity|]. unfold spaced. rewrite <- J by discriminate. reflexivity.
  Qed.
  Lemma padded_spec : forall s ws, Words is_space (lower s) ws -> padded space is_space lower s = spaced space ws.
  Proof.
    intros s ws W. unfold padded, split. rewrite (Words_unique _ _ _ W (words_run_spec (lower s) [] ltac:(intros x []))). apply join_spaced.
  Qed.
  Lemma Words_total : forall s, exists ws, Words is_space s ws.
  Proof. intro s. exists (words_run is_space [] s). apply (words_run_spec s []). intros x []. Qed.

  (** [samegrams] is the size of the intersection. *)
  Lemma counter_get : forall (l : list (list C)) g, In g l -> dget g (counter l) = Some (count_occ eqd l g).
  Proof.
    intros l g I. unfold counter. apply (nodup_In eqd) in I. revert I. generalize (nodup eqd l). intros V I.
    induction V as [|x V IH]; [destruct I|]. simpl. destruct (eqd g x) as [E|E].
    - subst x. reflexivity.
    - destruct I as [I|I]; [congruence|]. apply IH. exact I.
  Qed.
  Lemma counter_get_none : forall (l : list (list C)) g, ~ In g l -> dget g (counter l) = None.
  Proof.
    intros l g I. unfold counter. assert (J : ~ In g (nodup eqd l)) by (rewrite nodup_In; exact I). clear I. revert J. generalize (nodup eqd l). intros V J.
    induction V as [|x V IH]; [reflexivity|]. simpl. destruct (eqd g x) as [E|E].
    - subst x. exfalso. apply J. left. reflexivity.
    - apply IH. intro I. apply J. right. exact I.
  Qed.
  Lemma sum_filter_pos : forall l, sum (filter (fun k => 0 <? k) l) = sum l.
  Proof. induction l as [|x l IH]; [reflexivity|]. simpl. destruct (Nat.ltb_spec 0 x); simpl; unfold sum in *; simpl; lia. Qed.
  Lemma samegrams_spec : forall l1 l2 k, Common l1 l2 k -> sum (counter_and (counter l1) (counter l2)) = k.
  Proof.
    intros l1 l2 k K. unfold counter_and. rewrite sum_filter_pos. unfold counter at 2. rewrite map_map. cbn [fst snd].
    rewrite (map_ext _ (fun g => Nat.min (count_occ eqd l2 g) (count_occ eqd l1 g))).
    - apply sum_min; [apply NoDup_nodup|intros g I; apply nodup_In; exact I|apply common_sym; exact K].
    - intro g. rewrite Nat.min_comm. f_equal. destruct (in_dec eqd g l2) as [I|I].
      + rewrite counter_get by exact I. reflexivity.
      + rewrite counter_get_none by exact I. symmetry. apply count_occ_not_In. exact I.
  Qed.

  (** The similarity of two strings. *)
  Definition prep (b : bool) (s : list C) : list C := if b then preprocess space is_space s else s.
  Lemma similarity_grams : forall s1 s2 n b k, let l1 := get_ngrams space is_space lower (prep b s1) n in let l2 := get_ngrams space is_space lower (prep b s2) n in
    Common l1 l2 k ->
    ngram_similarity space is_space lower s1 s2 n b =
      if length l1 + length l2 =? 0 then Err ZeroDivisionError
      else Ok (inject_Z (Z.of_nat k) / inject_Z (Z.of_nat (length l1 + length l2 - k)))%Q.
  Proof.
    intros s1 s2 n b k l1 l2 K. unfold ngram_similarity. fold (prep b s1) (prep b s2). fold l1 l2. rewrite (samegrams_spec _ _ _ K).
    destruct (common_le _ _ _ K) as [B1 B2]. unfold div. rewrite <- Nat2Z.inj_sub by lia.
    destruct (Z.eqb_spec (Z.of_nat (length l1 + length l2 - k)) 0) as [Z|Z]; destruct (Nat.eqb_spec (length l1 + length l2) 0) as [Z'|Z']; try reflexivity; lia.
  Qed.
  Theorem similarity_spec : forall s1 s2 n b ws1 ws2, 1 <= n ->
    Words is_space (lower (prep b s1)) ws1 -> Words is_space (lower (prep b s2)) ws2 ->
    if (length (spaced space ws1) <? n) && (length (spaced space ws2) <? n) then
      ngram_similarity space is_space lower s1 s2 n b = Err ZeroDivisionError
    else exists q, ngram_similarity space is_space lower s1 s2 n b = Ok q /\
      Jaccard (substrings n (spaced space ws1)) (substrings n (spaced space ws2)) q.
  Proof.
    intros s1 s2 n b ws1 ws2 L W1 W2. destruct (common_exists (substrings n (spaced space ws1)) (substrings n (spaced space ws2))) as [k K].
    pose proof (similarity_grams s1 s2 n b k) as HS. cbv zeta in HS. rewrite !get_ngrams_spec in HS by exact L.
    rewrite (padded_spec _ _ W1), (padded_spec _ _ W2) in HS. specialize (HS K). rewrite HS. rewrite !substrings_length.
    destruct (Nat.ltb_spec (length (spaced space ws1)) n) as [H1|H1]; destruct (Nat.ltb_spec (length (spaced space ws2)) n) as [H2|H2]; cbn [andb].
    1: replace (S (length (spaced space ws1)) - n + (S (length (spaced space ws2)) - n)) with 0 by lia; reflexivity.
    all: match goal with |- exists q, (if ?x =? 0 then _ else _) = _ /\ _ => destruct (Nat.eqb_spec x 0) as [Z|Z]; [lia|] end.
    all: eexists; (split; [reflexivity|]); exists k; (split; [exact K|]); rewrite !substrings_length; reflexivity.
  Qed.
  Theorem similarity_score : forall s1 s2 n b q, ngram_similarity space is_space lower s1 s2 n b = Ok q ->
    (0 <= q <= 1)%Q /\ (s1 = s2 -> (q == 1)%Q) /\ exists q', ngram_similarity space is_space lower s2 s1 n b = Ok q' /\ (q' == q)%Q.
  Proof.
    intros s1 s2 n b q E.
    destruct (common_exists (get_ngrams space is_space lower (prep b s1) n) (get_ngrams space is_space lower (prep b s2) n)) as [k K].
    rewrite (similarity_grams _ _ _ _ _ K) in E. destruct (Nat.eqb_spec (length (get_ngrams space is_space lower (prep b s1) n) + length (get_ngrams space is_space lower (prep b s2) n)) 0) as [Z|Z]; [discriminate|].
    injection E as E. assert (J : Jaccard (get_ngrams space is_space lower (prep b s1) n) (get_ngrams space is_space lower (prep b s2) n) q).
    { exists k. split; [exact K|]. rewrite <- E. reflexivity. }
    split; [eapply jaccard_bounds; exact J|]. split.
    - intros <-. refine (@jaccard_same (list C) _ _ q _ J). intro X. rewrite X in Z. apply Z. reflexivity.
    - rewrite (similarity_grams _ _ _ _ _ (common_sym _ _ _ K)). rewrite (Nat.add_comm (length (get_ngrams space is_space lower (prep b s2) n))).
      destruct (Nat.eqb_spec (length (get_ngrams space is_space lower (prep b s1) n) + length (get_ngrams space is_space lower (prep b s2) n)) 0) as [Z'|Z']; [contradiction|].
      eexists. split; [reflexivity|]. rewrite <- E. reflexivity.
  Qed.
End Grams.

(** ** The encoder *)
Section Encoder.
  Context {C : Type} `{EqD C}.
  Variable space : C.
  Variable is_space : C -> bool.
  Hypothesis space_is_space : is_space space = true.

  Lemma squeeze_run_app : forall w s run, all_space is_space w -> squeeze_run space is_space run (w ++ s) = squeeze_run space is_space (run ++ w) s.
  Proof.
    induction w as [|c w IH]; intros s run A; simpl; [rewrite app_nil_r; reflexivity|]. rewrite A by (left; reflexivity).
    rewrite IH by (intros x I; apply A; right; exact I). rewrite <- app_assoc. reflexivity.
  Qed.
  Lemma squeeze_run_flush : forall s run, starts_with is_space false s -> squeeze_run space is_space run s = flush space run ++ squeeze space is_space s.
  Proof. intros [|c s] run T; simpl; [rewrite app_nil_r; reflexivity|]. unfold squeeze. simpl in *. rewrite T. reflexivity. Qed.
  Lemma squeeze_of : forall s t, Squeezed space is_space s t -> squeeze space is_space s = t.
  Proof.
    intros s t Q. induction Q as [|c s t N Q IH|c s t S T Q IH|w s t L A T Q IH]; unfold squeeze in *; simpl.
    - reflexivity.
    - rewrite N. simpl. f_equal. exact IH.
    - rewrite S. rewrite squeeze_run_flush by exact T. simpl. f_equal. exact IH.
    - rewrite squeeze_run_app by exact A. simpl. rewrite squeeze_run_flush by exact T. unfold squeeze. rewrite IH.
      destruct w as [|a [|b w]]; simpl in L; try lia. reflexivity.
  Qed.
  Lemma squeeze_run_total : forall s run, all_space is_space run -> Squeezed space is_space (run ++ s) (squeeze_run space is_space run s).
  Proof.
    assert (Fl : forall run s t, all_space is_space run -> starts_with is_space false s -> Squeezed space is_space s t -> Squeezed space is_space (run ++ s) (flush space run ++ t)).
    { intros run s t A T Q. destruct run as [|a [|b run]]; simpl.
      - exact Q.
      - apply sq_one; [apply A; left; reflexivity|exact T|exact Q].
      - change (a :: b :: run ++ s) with ((a :: b :: run) ++ s). apply sq_run; [simpl; lia|exact A|exact T|exact Q]. }
    induction s as [|c s IH]; intros run A; simpl.
    - rewrite <- (app_nil_r (flush space run)). apply Fl; [exact A|exact I|constructor].
    - destruct (is_space c) eqn:S.
      + replace (run ++ c :: s) with ((run ++ [c]) ++ s) by (rewrite <- app_assoc; reflexivity). apply IH.
        intros x J. apply in_app_or in J. destruct J as [J|[<-|[]]]; [apply A; exact J|exact S].
      + apply Fl; [exact A|exact S|]. apply sq_char; [exact S|]. apply (IH []). intros x [].
  Qed.
  Lemma squeeze_total : forall s, Squeezed space is_space s (squeeze space is_space s).
  Proof. intro s. apply (squeeze_run_total s []). intros x []. Qed.
  Lemma Squeezed_starts : forall s t, Squeezed space is_space s t -> starts_with is_space false s -> starts_with is_space false t.
  Proof.
    intros s t Q T. destruct Q as [|c s t N Q|c s t S T' Q|w s t L A T' Q]; simpl in *; try assumption.
    destruct w as [|a w]; [simpl in L; lia|]. simpl in T. rewrite A in T by (left; reflexivity). discriminate.
  Qed.
  Lemma Squeezed_idem : forall s t, Squeezed space is_space s t -> Squeezed space is_space t t.
  Proof.
    intros s t Q. induction Q as [|c s t N Q IH|c s t S T Q IH|w s t L A T Q IH].
    - constructor.
    - apply sq_char; assumption.
    - apply sq_one; [exact S|exact (Squeezed_starts _ _ Q T)|exact IH].
    - apply sq_one; [exact space_is_space|exact (Squeezed_starts _ _ Q T)|exact IH].
  Qed.

  (** Lower-casing that acts on each character. *)
  Variable lc : C -> C.
  Hypothesis lc_space : lc space = space.
  Hypothesis lc_is_space : forall c, is_space (lc c) = is_space c.
  Notation lower := (map lc).

  Lemma Squeezed_map : forall s t, Squeezed space is_space s t -> Squeezed space is_space (map lc s) (map lc t).
  Proof.
    assert (St : forall b s, starts_with is_space b s -> starts_with is_space b (map lc s)).
    { intros b [|c s] T; simpl in *; [exact T|]. rewrite lc_is_space. exact T. }
    intros s t Q. induction Q as [|c s t N Q IH|c s t S T Q IH|w s t L A T Q IH]; simpl.
    - constructor.
    - apply sq_char; [rewrite lc_is_space; exact N|exact IH].
    - apply sq_one; [rewrite lc_is_space; exact S|apply St; exact T|exact IH].
    - rewrite lc_space, map_app. apply sq_run; [rewrite map_length; exact L| |apply St; exact T|exact IH].
      intros c I. apply in_map_iff in I. destruct I as (d & <- & I). rewrite lc_is_space. apply A. exact I.
  Qed.

  (** The text compared by the encoder. *)
  Definition TextOf (x t : list C) : Prop := exists u, Squeezed space is_space (space :: x ++ [space]) u /\ t = map lc u.
  Definition text (x : list C) : list C := map lc (preprocess space is_space x).
  Lemma text_spec : forall x t, TextOf x t <-> t = text x.
  Proof.
    intros x t. unfold text, preprocess. split.
    - intros (u & Q & ->). rewrite (squeeze_of _ _ Q). reflexivity.
    - intros ->. eexists. split; [apply squeeze_total|reflexivity].
  Qed.
  Lemma text_length : forall x, length (text x) = length (preprocess space is_space x).
  Proof. intro. apply map_length. Qed.

  Lemma analyze_grams : forall min_n max_n doc, analyze space is_space lower min_n max_n doc = grams min_n max_n (squeeze space is_space (map lc doc)).
  Proof.
    intros min_n max_n doc. unfold analyze, grams. set (t := squeeze space is_space (map lc doc)).
    rewrite flat_map_concat_map. set (a := Nat.min (S max_n) (S (length t)) - min_n).
    replace (S max_n - min_n) with (a + (S max_n - min_n - a)) by (unfold a; lia). rewrite seq_app, map_app, concat_app.
    assert (Z : concat (map (fun n => substrings n t) (seq (min_n + a) (S max_n - min_n - a))) = []).
    { assert (G : forall l : list nat, (forall n, In n l -> length t < n) -> concat (map (fun n => substrings n t) l) = []).
      { induction l as [|n l IH]; intro G; [reflexivity|]. simpl. rewrite IH by (intros k I; apply G; right; exact I). rewrite app_nil_r.
        apply length_zero_iff_nil. rewrite substrings_length. specialize (G n (or_introl eq_refl)). lia. }
      apply G. intros n I. apply in_seq in I. unfold a in I. lia. }
    rewrite Z, app_nil_r. f_equal. apply map_ext. intro n. apply substrings_windows.
  Qed.
  Lemma analyze_preprocess : forall min_n max_n x, analyze space is_space lower min_n max_n (preprocess space is_space x) = grams min_n max_n (text x).
  Proof.
    intros. rewrite analyze_grams. f_equal. apply squeeze_of. apply Squeezed_map. eapply Squeezed_idem. apply squeeze_total.
  Qed.
  Lemma analyze_pad : forall min_n max_n x, analyze space is_space lower min_n max_n (pad space x) = grams min_n max_n (text x).
  Proof. intros. rewrite analyze_grams. f_equal. apply squeeze_of. apply Squeezed_map. apply squeeze_total. Qed.

  Lemma ngram_count_spec : forall min_n max_n x, max_n <= S (length (text x)) ->
    get_ngram_count (preprocess space is_space x) min_n max_n = Z.of_nat (length (grams min_n max_n (text x))).
  Proof.
    intros min_n max_n x L. unfold get_ngram_count, grams. rewrite <- text_length.
    assert (G : forall l : list nat, (forall n, In n l -> n <= max_n) ->
              fold_right Z.add 0%Z (map (fun i => Z.of_nat (length (text x)) - Z.of_nat i + 1)%Z l) = Z.of_nat (length (concat (map (fun n => substrings n (text x)) l)))).
    { induction l as [|n l IH]; intro G; [reflexivity|]. cbn [map fold_right concat]. rewrite IH by (intros k I; apply G; right; exact I).
      rewrite app_length, substrings_length. specialize (G n (or_introl eq_refl)). lia. }
    apply G. intros n I. apply in_seq in I. lia.
  Qed.

  Lemma same_grams_spec : forall V (l1 l2 : list (list C)) k, NoDup V -> incl l2 V -> Common l1 l2 k ->
    same_grams (map (count_occ eqd l1) V) (map (count_occ eqd l2) V) = k.
  Proof.
    intros V l1 l2 k N I K. rewrite <- (sum_min V l1 l2 k N I K). unfold same_grams. clear. induction V as [|g V IH]; [reflexivity|].
    cbn [map combine filter]. cbn [fst]. destruct (Nat.eqb_spec (count_occ eqd l1 g) 0) as [Z|Z]; cbn [negb map]; rewrite ?sum_cons, <- IH; cbn [fst snd]; lia.
  Qed.

  Lemma vocabulary_spec : forall min_n max_n docs V, fit_vocabulary space is_space lower min_n max_n docs = Ok V ->
    NoDup V /\ forall d, In d docs -> incl (analyze space is_space lower min_n max_n d) V.
  Proof.
    intros min_n max_n docs V E. unfold fit_vocabulary in E.
    assert (V = nodup eqd (flat_map (analyze space is_space lower min_n max_n) docs)).
    { destruct (nodup eqd (flat_map (analyze space is_space lower min_n max_n) docs)); [discriminate|]. injection E as <-. reflexivity. }
    subst V. split; [apply NoDup_nodup|]. intros d I g J. apply nodup_In. apply in_flat_map. exists d. split; assumption.
  Qed.
  Lemma vocabulary_ok : forall min_n max_n docs d g, In d docs -> In g (analyze space is_space lower min_n max_n d) ->
    exists V, fit_vocabulary space is_space lower min_n max_n docs = Ok V.
  Proof.
    intros min_n max_n docs d g I J. unfold fit_vocabulary.
    assert (K : In g (nodup eqd (flat_map (analyze space is_space lower min_n max_n) docs))) by (apply nodup_In, in_flat_map; exists d; split; assumption).
    destruct (nodup eqd (flat_map (analyze space is_space lower min_n max_n) docs)) as [|v V]; [destruct K|]. eexists. reflexivity.
  Qed.

  Lemma divide0_jaccard : forall (l1 l2 : list (list C)) k, Common l1 l2 k ->
    Jaccard l1 l2 (divide0 (Z.of_nat k) (Z.of_nat (length l1) + Z.of_nat (length l2) - Z.of_nat k)%Z).
  Proof.
    intros l1 l2 k K. exists k. split; [exact K|]. destruct (common_le _ _ _ K) as [B1 B2].
    replace (Z.of_nat (length l1) + Z.of_nat (length l2) - Z.of_nat k)%Z with (Z.of_nat (length l1 + length l2 - k)) by lia.
    unfold divide0. destruct (Z.eqb_spec (Z.of_nat (length l1 + length l2 - k)) 0) as [Z|Z]; [|reflexivity].
    rewrite Z. change (inject_Z 0) with 0%Q. unfold Qdiv. change (/ 0)%Q with 0%Q. rewrite Qmult_0_r. reflexivity.
  Qed.

  Lemma rows_ok : forall (F : list C -> list Q) X,
    mapM (fun x => match dget x (map (fun y => (y, F y)) (nodup eqd X)) with Some row => Ok row | None => Err KeyError end) X = Ok (map F X).
  Proof.
    intros F X. assert (G : forall V x, In x V -> dget x (map (fun y => (y, F y)) V) = Some (F x)).
    { induction V as [|y V IH]; intros x I; [destruct I|]. simpl. destruct (eqd x y) as [E|E]; [subst; reflexivity|]. destruct I as [I|I]; [congruence|]. apply IH. exact I. }
    assert (M : forall l, (forall x, In x l -> In x X) -> mapM (fun x => match dget x (map (fun y => (y, F y)) (nodup eqd X)) with Some row => Ok row | None => Err KeyError end) l = Ok (map F l)).
    { induction l as [|x l IH]; intro I; [reflexivity|]. cbn [mapM map]. rewrite (G _ x) by (apply nodup_In; apply I; left; reflexivity). cbn [bind].
      rewrite IH by (intros y J; apply I; right; exact J). reflexivity. }
    apply M. auto.
  Qed.
  Lemma Forall2_map_r : forall {A B} (R : A -> B -> Prop) (F : A -> B) l, (forall x, In x l -> R x (F x)) -> Forall2 R l (map F l).
  Proof. induction l as [|x l IH]; intro G; simpl; constructor; [apply G; left; reflexivity|]. apply IH. intros y I. apply G. right. exact I. Qed.
  Lemma combine_maps : forall {A B D} (F : A -> B) (G : A -> D) l, combine (map F l) (map G l) = map (fun x => (F x, G x)) l.
  Proof. induction l as [|x l IH]; simpl; [reflexivity|]. f_equal. exact IH. Qed.

  (** The value for a string and a category. *)
  Definition Similar (min_n max_n : nat) (x c : list C) (q : Q) : Prop :=
    forall tx tc, TextOf x tx -> TextOf c tc ->
      Jaccard (grams min_n max_n tx) (grams min_n max_n tc) q /\ (0 <= q <= 1)%Q /\
      (x = c -> grams min_n max_n tx <> [] -> (q == 1)%Q).
  Lemma Similar_of : forall min_n max_n x c q, Jaccard (grams min_n max_n (text x)) (grams min_n max_n (text c)) q -> Similar min_n max_n x c q.
  Proof.
    intros min_n max_n x c q J tx tc Tx Tc. apply text_spec in Tx, Tc. subst. split; [exact J|]. split; [eapply jaccard_bounds; exact J|].
    intros <- N. exact (@jaccard_same (list C) _ _ q N J).
  Qed.

  Lemma fast_spec : forall min_n max_n cats f X, fit space is_space lower min_n max_n cats = Ok f ->
    (forall s t, In s (cats ++ X) -> TextOf s t -> max_n <= S (length t)) ->
    exists rows, transform_fast space is_space lower f min_n max_n X = Ok rows /\
      Forall2 (fun x row => Forall2 (Similar min_n max_n x) cats row) X rows.
  Proof.
    intros min_n max_n cats f X E L. unfold fit in E.
    destruct (fit_vocabulary space is_space lower min_n max_n (map (preprocess space is_space) cats)) as [V|e] eqn:Ev; cbn [bind] in E; [|discriminate].
    injection E as <-. destruct (vocabulary_spec _ _ _ _ Ev) as [N I].
    unfold transform_fast. rewrite rows_ok. eexists. split; [reflexivity|]. apply Forall2_map_r. intros x Ix. unfold one_sample. cbn [vocabulary counts ngram_counts].
    rewrite combine_maps, map_map. apply Forall2_map_r. intros c Ic. cbn [fst snd]. apply Similar_of. unfold count_vector. rewrite !analyze_preprocess.
    destruct (common_exists (grams min_n max_n (text x)) (grams min_n max_n (text c))) as [k K].
    rewrite (same_grams_spec V _ _ k N) by (try exact K; rewrite <- analyze_preprocess; apply I; apply in_map; exact Ic).
    rewrite !ngram_count_spec.
    - apply divide0_jaccard. exact K.
    - apply (L c); [apply in_or_app; left; exact Ic|]. apply text_spec. reflexivity.
    - apply (L x); [apply in_or_app; right; exact Ix|]. apply text_spec. reflexivity.
  Qed.
  Lemma slow_spec : forall min_n max_n cats f X, fit space is_space lower min_n max_n cats = Ok f ->
    exists rows, transform_slow space is_space lower min_n max_n cats X = Ok rows /\
      Forall2 (fun x row => Forall2 (Similar min_n max_n x) cats row) X rows.
  Proof.
    intros min_n max_n cats f X E. unfold fit in E.
    destruct (fit_vocabulary space is_space lower min_n max_n (map (preprocess space is_space) cats)) as [V0|e] eqn:Ev0; cbn [bind] in E; [|discriminate]. clear E f.
    assert (G : exists d g, In d (map (pad space) cats ++ map (pad space) (nodup eqd X)) /\ In g (analyze space is_space lower min_n max_n d)).
    { unfold fit_vocabulary in Ev0. destruct (nodup eqd (flat_map (analyze space is_space lower min_n max_n) (map (preprocess space is_space) cats))) as [|g V] eqn:En; [discriminate|].
      assert (J : In g (flat_map (analyze space is_space lower min_n max_n) (map (preprocess space is_space) cats))) by (apply (nodup_In eqd); rewrite En; left; reflexivity).
      apply in_flat_map in J. destruct J as (d & Id & Ig). apply in_map_iff in Id. destruct Id as (c & <- & Ic). exists (pad space c), g.
      split; [apply in_or_app; left; apply in_map; exact Ic|]. rewrite analyze_pad, <- analyze_preprocess. exact Ig. }
    destruct G as (d & g & Id & Ig). destruct (vocabulary_ok _ _ _ _ _ Id Ig) as [V Ev]. clear Ev0 V0 d g Id Ig.
    destruct (vocabulary_spec _ _ _ _ Ev) as [N I]. unfold transform_slow. rewrite Ev. cbn [bind]. rewrite rows_ok.
    eexists. split; [reflexivity|]. apply Forall2_map_r. intros x Ix. rewrite map_map, combine_maps, map_map. apply Forall2_map_r. intros c Ic. cbn [fst snd].
    apply Similar_of. unfold count_vector. rewrite !analyze_pad. destruct (common_exists (grams min_n max_n (text x)) (grams min_n max_n (text c))) as [k K].
    assert (Ic' : incl (grams min_n max_n (text c)) V) by (rewrite <- analyze_pad; apply I, in_or_app; left; apply in_map; exact Ic).
    assert (Ix' : incl (grams min_n max_n (text x)) V) by (rewrite <- analyze_pad; apply I, in_or_app; right; apply in_map; apply nodup_In; exact Ix).
    rewrite (same_grams_spec V _ _ k N Ic' K).
    change (map (count_occ eqd (grams min_n max_n (text x))) V) with (map (fun g => count_occ eqd (grams min_n max_n (text x)) g) V).
    change (map (count_occ eqd (grams min_n max_n (text c))) V) with (map (fun g => count_occ eqd (grams min_n max_n (text c)) g) V).
    rewrite !length_counts by assumption. apply divide0_jaccard. exact K.
  Qed.
  Theorem encoder_spec : forall min_n max_n cats f X unknown_error fast, fit space is_space lower min_n max_n cats = Ok f ->
    (fast = true -> forall s t, In s (cats ++ X) -> TextOf s t -> max_n <= S (length t)) ->
    (unknown_error = true -> forall x, In x X -> In x cats) ->
    exists rows, transform space is_space lower f min_n max_n unknown_error fast X = Ok rows /\
      Forall2 (fun x row => Forall2 (Similar min_n max_n x) cats row) X rows.
  Proof.
    intros min_n max_n cats f X ue fast E L U. unfold transform.
    assert (Ec : categories f = cats).
    { unfold fit in E. destruct (fit_vocabulary space is_space lower min_n max_n (map (preprocess space is_space) cats)); cbn [bind] in E; [|discriminate]. injection E as <-. reflexivity. }
    assert (B : ue && negb (forallb (fun x => mem x (categories f)) X) = false).
    { destruct ue; [|reflexivity]. rewrite Ec. cbn [andb]. apply negb_false_iff. apply forallb_forall. intros x I. apply mem_true. apply U; [reflexivity|exact I]. }
    rewrite B, Ec. destruct fast; [eapply fast_spec; eauto|eapply slow_spec; eauto].
  Qed.
End Encoder.

Lemma unknown_refused {C} {E : EqD C} (space : C) is_space lower min_n max_n cats f X fast x :
  fit space is_space lower min_n max_n cats = Ok f -> In x X -> ~ In x cats ->
  transform space is_space lower f min_n max_n true fast X = Err ValueError.
Proof.
  intros F I N. unfold transform.
  assert (Ec : categories f = cats).
  { unfold fit in F. destruct (fit_vocabulary _ _ _ _ _ _); cbn [bind] in F; [|discriminate]. injection F as <-. reflexivity. }
  rewrite Ec. destruct (forallb (fun y => mem y cats) X) eqn:B; [|reflexivity].
  rewrite forallb_forall in B. destruct N. apply mem_true. exact (B x I).
Qed.

(** ASCII characters, for the examples and the counter-examples. *)
Definition ascii_is_space (c : ascii) : bool := mem c [" "; "009"; "010"; "011"; "012"; "013"]%char.
Definition ascii_lower (c : ascii) : ascii :=
  let n := nat_of_ascii c in if (65 <=? n) && (n <=? 90) then ascii_of_nat (n + 32) else c.
Definition chars (s : string) : list ascii := list_ascii_of_string s.
(** A letter whose lower case is two characters long, like U+0130. *)
Definition expanding_lower (s : list ascii) : list ascii :=
  flat_map (fun c => if eqb_of c "^"%char then ["i"; "'"]%char else [ascii_lower c]) s.

Theorem encoder_refuted : exists f q,
  fit " "%char ascii_is_space (map ascii_lower) 2 5 [chars "a"] = Ok f /\
  transform " "%char ascii_is_space (map ascii_lower) f 2 5 true true [chars "a"] = Ok [[q]] /\ (1 < q)%Q.
Proof. eexists. eexists. split; [vm_compute; reflexivity|]. split; [vm_compute; reflexivity|]. reflexivity. Qed.
Theorem encoder_expanding : exists f q,
  fit " "%char ascii_is_space expanding_lower 2 4 [chars "^"] = Ok f /\
  transform " "%char ascii_is_space expanding_lower f 2 4 true true [chars "^"] = Ok [[q]] /\ (q == 0)%Q.
Proof. eexists. eexists. split; [vm_compute; reflexivity|]. split; [vm_compute; reflexivity|]. reflexivity. Qed.
