(** What the codes of StringEncoder are to be, and proofs about the model. *)
From Coq Require Import Permutation.
From Verif Require Import Base L_dict M_labels M_strenc.
From Coq Require Import NArith Lia.
Open Scope list_scope.
Open Scope nat_scope.
Set Default Proof Using "Type".

(** * Specification *)
Section Spec.
  Variable is_space : N -> bool.
  Definition Spaces (s : text) : Prop := forall c, In c s -> is_space c = true.
  Definition Word (w : text) : Prop := w <> [] /\ forall c, In c w -> is_space c = false.
  (** the words of a text *)
  Inductive Words : text -> list text -> Prop :=
  | W_none : forall s, Spaces s -> Words s []
  | W_last : forall s w, Spaces s -> Word w -> Words (s ++ w) [w]
  | W_cons : forall s w c t ws, Spaces s -> Word w -> is_space c = true -> Words t ws -> Words (s ++ w ++ c :: t) (w :: ws).
  (** some character is not a space *)
  Definition HasWord (t : text) : Prop := exists c, In c t /\ is_space c = false.
End Spec.
(** the text that stands for an entry *)
Definition Stands (x : entry) (t : text) : Prop := x = EText t \/ (x = ENull /\ t = []).
Definition Textual (X : list entry) : Prop := ~ In EOther X.
(** [l]: the distinct tokens of the column, in some order *)
Definition Distinct (analyze : text -> list text) (X : list entry) (l : list text) : Prop :=
  NoDup l /\ forall g, In g l <-> exists x t, In x X /\ Stands x t /\ In g (analyze t).

(** the order of texts: the beginning of a text is before it, else the first different character decides *)
Definition Before (a b : text) : Prop :=
  (exists s, s <> [] /\ b = a ++ s) \/ exists p x y s s', a = p ++ x :: s /\ b = p ++ y :: s' /\ (x < y)%N.
Fixpoint Increasing (l : list text) : Prop := match l with [] => True | x :: l' => (forall y, In y l' -> Before x y) /\ Increasing l' end.
(** [l]: the places where [g] begins in [p] *)
Definition Places (g p : text) (l : list nat) : Prop :=
  NoDup l /\ forall i, In i l <-> exists pre post, p = pre ++ g ++ post /\ length pre = i.
(** [k]: how often the n-gram [g], of [a] to [b] characters, is counted for a word: the word is set between two spaces, and counts once as a whole if that is
    shorter than [a] *)
Definition Times (a b : nat) (g w : text) (k : nat) : Prop :=
  let p := [32%N] ++ w ++ [32%N] in
  (length p < a /\ g = p /\ k = 1) \/ (length p < a /\ g <> p /\ k = 0) \/
  (a <= length p /\ a <= length g <= b /\ exists l, Places g p l /\ length l = k) \/
  (a <= length p /\ ~ (a <= length g <= b) /\ k = 0).

(** * Lemmas *)
Lemma filled_ok : forall x t, filled x = Ok t <-> Stands x t.
Proof.
  intros [u| |] t; unfold Stands; cbn; split; intros H; try discriminate H.
  - injection H as ->. left. reflexivity.
  - destruct H as [H|[H _]]; congruence.
  - injection H as <-. right. split; reflexivity.
  - destruct H as [H|[_ ->]]; [discriminate H|reflexivity].
  - destruct H as [H|[H _]]; discriminate H.
Qed.
Lemma filled_all : forall X, (Textual X -> exists docs, mapM filled X = Ok docs) /\ (~ Textual X -> mapM filled X = Err AttributeError).
Proof.
  induction X as [|x X [IH1 IH2]]; split; intros T.
  - exists []. reflexivity.
  - destruct T. intros [].
  - cbn. destruct x as [t| |]; cbn; [| |destruct T; left; reflexivity].
    + destruct IH1 as (docs & ->); [intros I; apply T; right; exact I|]. eexists. reflexivity.
    + destruct IH1 as (docs & ->); [intros I; apply T; right; exact I|]. eexists. reflexivity.
  - cbn. destruct x as [t| |]; cbn; [| |reflexivity].
    + rewrite IH2; [reflexivity|]. intros T'. apply T. intros [E|I]; [discriminate E|exact (T' I)].
    + rewrite IH2; [reflexivity|]. intros T'. apply T. intros [E|I]; [discriminate E|exact (T' I)].
Qed.
Lemma filled_stands : forall X docs, mapM filled X = Ok docs -> Forall2 Stands X docs.
Proof.
  induction X as [|x X IH]; intros docs E; cbn in E; [injection E as <-; constructor|].
  destruct (filled x) as [t|] eqn:Ex; [|discriminate E]. cbn in E. destruct (mapM filled X) as [ts|]; [|discriminate E]. cbn in E. injection E as <-.
  constructor; [apply filled_ok; exact Ex|apply IH; reflexivity].
Qed.

(** ** Vocabularies *)
Lemma insert_in : forall x l y, In y (insert x l) <-> y = x \/ In y l.
Proof.
  induction l as [|z l IH]; intros y; cbn; [intuition auto|].
  destruct (eqb_of x z) eqn:E; [pose proof (proj1 (eqb_of_true _ _) E) as E'; subst z; cbn; intuition auto|].
  destruct (lexle x z); cbn; [intuition auto|]. rewrite IH. intuition auto.
Qed.
Lemma lexle_refl : forall a, lexle a a = true.
Proof. induction a as [|x a IH]; [reflexivity|]. cbn. rewrite N.eqb_refl. exact IH. Qed.
Lemma lexle_trans : forall a b c, lexle a b = true -> lexle b c = true -> lexle a c = true.
Proof.
  induction a as [|x a IH]; intros [|y b] [|z c] H1 H2; try reflexivity; try discriminate. cbn in *.
  destruct (x =? y)%N eqn:E1; [apply N.eqb_eq in E1; subst y|].
  - destruct (x =? z)%N; [exact (IH b c H1 H2)|exact H2].
  - apply N.ltb_lt in H1. destruct (y =? z)%N eqn:E2; [apply N.eqb_eq in E2; subst z|].
    + rewrite E1. apply N.ltb_lt. exact H1.
    + apply N.ltb_lt in H2. destruct (x =? z)%N eqn:E3; [apply N.eqb_eq in E3; lia|]. apply N.ltb_lt. lia.
Qed.
Lemma lexle_antisym : forall a b, lexle a b = true -> lexle b a = true -> a = b.
Proof.
  induction a as [|x a IH]; intros [|y b] H1 H2; try reflexivity; try discriminate. cbn in *.
  destruct (x =? y)%N eqn:E1; [apply N.eqb_eq in E1; subst y; rewrite N.eqb_refl in H2; f_equal; exact (IH b H1 H2)|].
  rewrite N.eqb_sym, E1 in H2. apply N.ltb_lt in H1, H2. lia.
Qed.
Lemma lexle_total : forall a b, lexle a b = false -> lexle b a = true.
Proof.
  induction a as [|x a IH]; intros [|y b] H; try reflexivity; try discriminate. cbn in *. rewrite N.eqb_sym.
  destruct (x =? y)%N eqn:E; [exact (IH b H)|]. apply N.ltb_ge in H. apply N.eqb_neq in E. apply N.ltb_lt. lia.
Qed.
Fixpoint increasing (l : list text) : Prop :=
  match l with [] => True | x :: l' => (forall y, In y l' -> lexle x y = true /\ x <> y) /\ increasing l' end.
Lemma insert_increasing : forall x l, increasing l -> increasing (insert x l).
Proof.
  induction l as [|z l IH]; intros I; [cbn; split; [intros y []|exact Logic.I]|]. cbn [insert].
  destruct (eqb_of x z) eqn:E; [exact I|]. pose proof (proj1 (eqb_of_false _ _) E) as N.
  destruct I as [I1 I2]. destruct (lexle x z) eqn:L.
  - cbn. split; [|split; assumption]. intros y [<-|Iy]; [split; assumption|]. destruct (I1 y Iy) as [A B]. split; [exact (lexle_trans _ _ _ L A)|].
    intros <-. apply N. apply lexle_antisym; assumption.
  - cbn. split; [|exact (IH I2)]. intros y Iy. apply insert_in in Iy. destruct Iy as [->|Iy]; [|exact (I1 y Iy)].
    split; [exact (lexle_total _ _ L)|]. intros ->. apply N. reflexivity.
Qed.
Lemma increasing_nodup : forall l, increasing l -> NoDup l.
Proof.
  induction l as [|x l IH]; intros I; constructor; destruct I as [I1 I2]; [|exact (IH I2)]. intros H. destruct (I1 x H) as [_ N]. apply N. reflexivity.
Qed.
Lemma vocabulary_in : forall l x, In x (vocabulary l) <-> In x l.
Proof. induction l as [|y l IH]; intros x; cbn; [tauto|]. rewrite insert_in, IH. intuition auto. Qed.
Lemma vocabulary_increasing : forall l, increasing (vocabulary l).
Proof. induction l as [|y l IH]; cbn; [exact Logic.I|]. apply insert_increasing. exact IH. Qed.
Lemma lexle_before : forall a b, lexle a b = true -> a <> b -> Before a b.
Proof.
  induction a as [|x a IH]; intros b L N.
  - left. exists b. split; [intros ->; apply N; reflexivity|reflexivity].
  - destruct b as [|y b]; [discriminate L|]. cbn in L. destruct (x =? y)%N eqn:E.
    + apply N.eqb_eq in E. subst y. destruct (IH b L) as [(s & Ns & ->)|(p & c & d & s & s' & -> & -> & H)]; [congruence| |].
      * left. exists s. split; [exact Ns|reflexivity].
      * right. exists (x :: p), c, d, s, s'. split; [reflexivity|]. split; [reflexivity|exact H].
    + right. exists [], x, y, a, b. split; [reflexivity|]. split; [reflexivity|]. apply N.ltb_lt. exact L.
Qed.
Lemma increasing_sorted : forall l, increasing l -> Increasing l.
Proof.
  induction l as [|x l IH]; intros I; [exact Logic.I|]. destruct I as [I1 I2]. split; [|exact (IH I2)]. intros y Iy. destruct (I1 y Iy) as [A B]. exact (lexle_before x y A B).
Qed.
Lemma distinct_vocabulary : forall analyze X docs, mapM filled X = Ok docs -> Distinct analyze X (vocabulary (flat_map analyze docs)).
Proof.
  intros analyze X docs E. apply filled_stands in E. split; [apply increasing_nodup, vocabulary_increasing|]. intros g. rewrite vocabulary_in, in_flat_map.
  split.
  - intros (t & It & Ig). clear - E It Ig. induction E as [|x t' X docs S E IH]; [destruct It|]. destruct It as [->|It].
    + exists x, t. split; [left; reflexivity|]. split; assumption.
    + destruct (IH It) as (x' & t'' & A & B). exists x', t''. split; [right; exact A|exact B].
  - intros (x & t & Ix & S & Ig). exists t. split; [|exact Ig]. clear - E Ix S. induction E as [|x' t' X docs S' E IH]; [destruct Ix|].
    destruct Ix as [->|Ix]; [left|right; exact (IH Ix)].
    destruct S as [->|[-> ->]]; destruct S' as [S'|[S' ->]]; congruence.
Qed.
Lemma distinct_length : forall analyze X a b, Distinct analyze X a -> Distinct analyze X b -> length a = length b.
Proof.
  intros analyze X a b [Na Ha] [Nb Hb]. apply Permutation_length. apply NoDup_Permutation; [exact Na|exact Nb|]. intros g. rewrite Ha, Hb. reflexivity.
Qed.

(** ** Words *)
Section Words.
  Variable is_space : N -> bool.
  Lemma split_skip : forall s t, Spaces is_space s -> split is_space [] (s ++ t) = split is_space [] t.
  Proof.
    induction s as [|c s IH]; intros t S; [reflexivity|]. cbn. rewrite (S c (or_introl eq_refl)). apply IH. intros x I. apply S. right. exact I.
  Qed.
  Lemma split_read : forall w acc t, (forall c, In c w -> is_space c = false) -> split is_space acc (w ++ t) = split is_space (rev w ++ acc) t.
  Proof.
    induction w as [|c w IH]; intros acc t H; [reflexivity|]. cbn. rewrite (H c (or_introl eq_refl)), IH.
    - rewrite <- app_assoc. reflexivity.
    - intros x I. apply H. right. exact I.
  Qed.
  Lemma rev_nil_inv : forall w : text, rev w = [] -> w = [].
  Proof. intros w E. apply (f_equal (@rev N)) in E. rewrite rev_involutive in E. exact E. Qed.
  Lemma words_split : forall t ws, Words is_space t ws -> split is_space [] t = ws.
  Proof.
    intros t ws W. induction W as [s S|s w S [Nw Hw]|s w c t ws S [Nw Hw] C W IH].
    - rewrite <- (app_nil_r s), (split_skip s [] S). reflexivity.
    - rewrite (split_skip s w S). rewrite <- (app_nil_r w) at 1. rewrite (split_read w [] [] Hw), app_nil_r. cbn.
      destruct (rev w) as [|x r] eqn:E; [apply rev_nil_inv in E; congruence|]. rewrite <- E, rev_involutive. reflexivity.
    - rewrite (split_skip s _ S), (split_read w [] _ Hw), app_nil_r. cbn. rewrite C.
      destruct (rev w) as [|x r] eqn:E; [apply rev_nil_inv in E; congruence|]. rewrite <- E, rev_involutive, IH. reflexivity.
  Qed.
  Lemma split_nil : forall t, split is_space [] t = [] <-> ~ HasWord is_space t.
  Proof.
    assert (X : forall t w, w <> [] -> split is_space w t <> []).
    { induction t as [|c t IH]; intros w N; cbn; [destruct w; [congruence|discriminate]|].
      destruct (is_space c); [destruct w; [congruence|discriminate]|]. apply IH. discriminate. }
    induction t as [|c t IH]; cbn.
    - split; [intros _ (c & [] & _)|reflexivity].
    - destruct (is_space c) eqn:E.
      + rewrite IH. split; intros H (x & I & Ex); apply H.
        * destruct I as [->|I]; [congruence|]. exists x. split; assumption.
        * exists x. split; [right; exact I|exact Ex].
      + split; intros H.
        * destruct (X t [c] ltac:(discriminate) H).
        * destruct H. exists c. split; [left; reflexivity|exact E].
  Qed.
  Variable lower : text -> text.
  Lemma grams_nonempty : forall ns w, ns <> [] -> word_grams ns w <> [].
  Proof. intros [|n ns] w H; [congruence|]. cbn. discriminate. Qed.
  Lemma char_wb_nil : forall a b t, a <= b -> (char_wb is_space lower a b t = [] <-> ~ HasWord is_space (lower t)).
  Proof.
    intros a b t L. rewrite <- split_nil. unfold char_wb. split; intros H; [|rewrite H; reflexivity].
    destruct (split is_space [] (lower t)) as [|w ws]; [reflexivity|]. exfalso. cbn [flat_map] in H. apply app_eq_nil in H. destruct H as [H _].
    revert H. apply grams_nonempty. replace (S b - a) with (S (b - a)) by lia. discriminate.
  Qed.
  Lemma char_wb_perm : forall a b t t' ws ws', Words is_space (lower t) ws -> Words is_space (lower t') ws' -> Permutation ws ws' ->
    Permutation (char_wb is_space lower a b t) (char_wb is_space lower a b t').
  Proof.
    intros a b t t' ws ws' W W' P. unfold char_wb. rewrite (words_split _ _ W), (words_split _ _ W'). apply Permutation_flat_map. exact P.
  Qed.
End Words.
Lemma count_perm : forall v l l', Permutation l l' -> count v l = count v l'.
Proof.
  intros v l l' P. unfold count. induction P as [|x l l' P IH|x y l|l l' l'' P1 IH1 P2 IH2]; [reflexivity| | |congruence].
  - cbn. destruct (eqb_of x v); cbn; congruence.
  - cbn. destruct (eqb_of x v), (eqb_of y v); reflexivity.
Qed.

(** ** Counts of n-grams *)
Lemma count_app : forall v l l', count v (l ++ l') = count v l + count v l'.
Proof. intros v l l'. unfold count. rewrite filter_app, app_length. reflexivity. Qed.
Lemma count_zero : forall v l, ~ In v l -> count v l = 0.
Proof.
  unfold count. induction l as [|x l IH]; intros N; [reflexivity|]. cbn. destruct (eqb_of x v) eqn:E.
  - apply (proj1 (eqb_of_true _ _)) in E. destruct N. left. exact E.
  - apply IH. intros I. apply N. right. exact I.
Qed.
Lemma pieces_other : forall n p g, n <= length p -> length g <> n -> count g (pieces n p) = 0.
Proof.
  intros n p g L N. apply count_zero. intros I. unfold pieces in I. apply in_map_iff in I.
  destruct I as (i & <- & I). apply in_seq in I. apply N. rewrite firstn_length, skipn_length. lia.
Qed.
Lemma filter_mapped : forall {A B} (f : A -> B) P l, filter P (map f l) = map f (filter (fun x => P (f x)) l).
Proof. induction l as [|x l IH]; [reflexivity|]. cbn. destruct (P (f x)); cbn; rewrite IH; reflexivity. Qed.
Lemma pieces_places : forall p g, length g <= length p -> exists l, Places g p l /\ count g (pieces (length g) p) = length l.
Proof.
  intros p g L. exists (filter (fun i => eqb_of (firstn (length g) (skipn i p)) g) (seq 0 (1 + (length p - length g)))). split.
  - split; [apply NoDup_filter, seq_NoDup|]. intros i. rewrite filter_In, in_seq. split.
    + intros [R E]. apply (proj1 (eqb_of_true _ _)) in E. exists (firstn i p), (skipn (length g) (skipn i p)). split.
      * rewrite <- E at 1. rewrite firstn_skipn, firstn_skipn. reflexivity.
      * rewrite firstn_length. lia.
    + intros (pre & post & -> & <-). rewrite !app_length. split; [lia|]. apply (proj2 (eqb_of_true _ _)).
      rewrite skipn_app, skipn_all, Nat.sub_diag. cbn [skipn app]. rewrite firstn_app, firstn_all, Nat.sub_diag. cbn [firstn]. apply app_nil_r.
  - unfold count, pieces. rewrite <- (map_length (fun i => firstn (length g) (skipn i p)) (filter _ _)). f_equal.
    apply (filter_mapped (fun i => firstn (length g) (skipn i p)) (fun t : text => eqb_of t g)).
Qed.
Lemma places_length : forall g p l l', Places g p l -> Places g p l' -> length l = length l'.
Proof.
  intros g p l l' [N1 H1] [N2 H2]. apply Permutation_length. apply NoDup_Permutation; [exact N1|exact N2|]. intros i. rewrite H1, H2. reflexivity.
Qed.
Lemma word_grams_count : forall m a p g, a <= length p ->
  (a <= length g < a + m -> length g <= length p -> exists l, Places g p l /\ count g (word_grams (seq a m) p) = length l) /\
  (~ (a <= length g < a + m) \/ length p < length g -> count g (word_grams (seq a m) p) = 0).
Proof.
  induction m as [|m IH]; intros a p g L; (split; [intros R Lg|intros R]); [lia|reflexivity| |].
  - cbn [seq word_grams]. rewrite count_app. destruct (Nat.eq_dec (length g) a) as [E|N].
    + subst a. destruct (pieces_places p g Lg) as (l & P & E). exists l. split; [exact P|]. rewrite E.
      destruct (length p <=? length g) eqn:EL; [rewrite Nat.add_0_r; reflexivity|]. apply Nat.leb_gt in EL.
      destruct (IH (S (length g)) p g EL) as [_ X]. rewrite X; [lia|]. left. lia.
    + rewrite (pieces_other a p g L N). destruct (length p <=? a) eqn:EL; [apply Nat.leb_le in EL; lia|]. apply Nat.leb_gt in EL.
      destruct (IH (S a) p g EL) as [X _]. apply X; lia.
  - cbn [seq word_grams]. rewrite count_app. rewrite (pieces_other a p g L) by lia.
    destruct (length p <=? a) eqn:EL; [reflexivity|]. apply Nat.leb_gt in EL. destruct (IH (S a) p g EL) as [_ X]. apply X. lia.
Qed.
Lemma word_count : forall a b g w k, a <= b -> Times a b g w k -> count g (word_grams (seq a (S b - a)) (32%N :: w ++ [32%N])) = k.
Proof.
  intros a b g w k L T. unfold Times in T. cbv zeta in T. change ([32%N] ++ w ++ [32%N]) with (32%N :: w ++ [32%N]) in T.
  set (p := 32%N :: w ++ [32%N]) in *. clearbody p.
  assert (Short : length p < a -> word_grams (seq a (S b - a)) p = [p]).
  { intros H. replace (S b - a) with (S (b - a)) by lia. cbn [seq word_grams]. replace (length p <=? a) with true by (symmetry; apply Nat.leb_le; lia).
    unfold pieces. replace (length p - a) with 0 by lia. cbn [seq map Nat.add skipn]. rewrite firstn_all2 by lia. apply app_nil_r. }
  destruct T as [(H & -> & ->)|[(H & N & ->)|[(H & R & l & P & <-)|(H & R & ->)]]].
  - rewrite (Short H). unfold count. cbn. rewrite (proj2 (eqb_of_true p p) eq_refl). reflexivity.
  - rewrite (Short H). apply count_zero. intros [E|[]]. apply N. symmetry. exact E.
  - destruct (word_grams_count (S b - a) a p g H) as [X1 X2]. destruct (le_lt_dec (length g) (length p)) as [Lg|Lg].
    + destruct (X1 ltac:(lia) Lg) as (l' & P' & ->). exact (places_length g p l' l P' P).
    + rewrite X2 by (right; exact Lg). destruct l as [|i l]; [reflexivity|]. exfalso. destruct (proj1 (proj2 P i) (or_introl eq_refl)) as (pre & post & E & _).
      rewrite E, !app_length in Lg. lia.
  - apply (proj2 (word_grams_count (S b - a) a p g H)). left. lia.
Qed.
(** the count of an n-gram in a text is the sum of its counts in the words *)
Theorem grams_ok : forall is_space lower a b t ws g ks, a <= b -> Words is_space (lower t) ws -> Forall2 (Times a b g) ws ks ->
  length (filter (fun x => eqb_of x g) (char_wb is_space lower a b t)) = list_sum ks.
Proof.
  intros is_space lower a b t ws g ks L W F. unfold char_wb. rewrite (words_split is_space _ _ W). clear W. change (fun x => eqb_of x g) with (fun x : text => eqb_of x g).
  fold (count g (flat_map (fun w => word_grams (seq a (S b - a)) (32%N :: w ++ [32%N])) ws)).
  induction F as [|w k ws ks T F IH]; [reflexivity|]. cbn [flat_map list_sum fold_right]. rewrite count_app, (word_count a b g w k L T). f_equal. exact IH.
Qed.

Section Encoder.
  Variable K : Type.
  Variable of_nat : nat -> K.
  Variable float32 : K -> K.
  Variable reweigh : list (list K) -> list K -> list K.
  Variable hash_width : nat.
  Variable hashed : list text -> list K.
  Variable svd : nat -> list (list K) -> list K -> list K.

  (** what is asked of scikit-learn *)
  Record SkLib : Prop := {
    reweigh_length : forall M r, length (reweigh M r) = length r;
    hashed_length : forall l, length (hashed l) = hash_width;
    hashed_perm : forall l l', Permutation l l' -> hashed l = hashed l';
    svd_length : forall n M r, length (svd n M r) = n }.

  (** ** Fits and later calls agree *)
  Section Any.
    Variable analyze : text -> list text.
    Notation fit := (M_strenc.fit_transform K of_nat float32 analyze reweigh hash_width hashed svd).
    Notation trans := (M_strenc.transform K of_nat float32 analyze reweigh hashed svd).

    Lemma row_length : SkLib -> forall k voc base t, length (row_of K of_nat float32 analyze reweigh hashed k voc base t) = width hash_width k voc.
    Proof.
      intros Lib k voc base t. unfold row_of. rewrite map_length, (reweigh_length Lib). destruct k; cbn; [apply map_length|apply (hashed_length Lib)|apply map_length].
    Qed.
    Lemma firstn_wide : forall n (l : list K), length l <= n -> firstn n l = l.
    Proof. intros n l H. apply firstn_all2. exact H. Qed.
    Theorem fit_is_transform : SkLib -> forall k n X f out, fit k n X = Ok (f, out) -> trans f n X = Ok out.
    Proof.
      intros Lib k n X f out E. unfold M_strenc.fit_transform in E. destruct k; [| |discriminate E];
        (destruct (mapM filled X) as [docs|] eqn:ED; [|discriminate E]; cbn [bind] in E; cbv zeta in E).
      - destruct (length (vocabulary (flat_map analyze docs)) =? 0) eqn:E0; [discriminate E|].
        assert (D0 : (length docs =? 0) = false) by (destruct docs; [discriminate E0|reflexivity]).
        unfold M_strenc.transform. rewrite ED. cbn [bind]. rewrite D0.
        destruct (n <? _); [destruct (n =? 0); [discriminate E|]; injection E as <- <-; reflexivity|].
        destruct (_ =? n) eqn:EW; injection E as <- <-; cbn [kind vocab counted decomposed]; [|reflexivity].
        f_equal. rewrite <- (map_id (map _ docs)) at 2. apply map_ext_in. intros r I. apply in_map_iff in I. destruct I as (t & <- & _).
        apply firstn_wide. rewrite (row_length Lib). apply Nat.eqb_eq in EW. rewrite <- EW. apply le_n.
      - destruct (length docs =? 0) eqn:D0; [discriminate E|].
        unfold M_strenc.transform. rewrite ED. cbn [bind]. rewrite D0.
        destruct (n <? _); [destruct (n =? 0); [discriminate E|]; injection E as <- <-; reflexivity|].
        destruct (_ =? n) eqn:EW; injection E as <- <-; cbn [kind vocab counted decomposed]; [|reflexivity].
        f_equal. rewrite <- (map_id (map _ docs)) at 2. apply map_ext_in. intros r I. apply in_map_iff in I. destruct I as (t & <- & _).
        apply firstn_wide. rewrite (row_length Lib). apply Nat.eqb_eq in EW. rewrite <- EW. apply le_n.
    Qed.

    (** ** Sizes *)
    Definition Columns (k : vectorizer) (X : list entry) (d : nat) : Prop :=
      match k with Tfidf => exists l, Distinct analyze X l /\ length l = d | _ => d = hash_width end.
    Theorem outputs_ok : SkLib -> forall k n X f out d, fit k n X = Ok (f, out) -> Columns k X d ->
      outputs f = Nat.min n d /\
      forall Y out', trans f n Y = Ok out' -> length out' = length Y /\ forall r, In r out' -> length r = outputs f.
    Proof.
      intros Lib k n X f out d E C.
      assert (G : exists voc, width hash_width k voc = d /\ kind f = k /\ vocab f = voc /\
                  ((decomposed f <> None /\ n < d /\ outputs f = n) \/ (decomposed f = None /\ outputs f = Nat.min n d))).
      { unfold M_strenc.fit_transform in E. destruct k; [| |discriminate E];
          (destruct (mapM filled X) as [docs|] eqn:ED; [|discriminate E]; cbn [bind] in E; cbv zeta in E).
        - destruct C as (l & Dl & <-). pose proof (distinct_length _ _ _ _ (distinct_vocabulary analyze X docs ED) Dl) as EL.
          exists (vocabulary (flat_map analyze docs)). cbn [width] in *. split; [exact EL|].
          destruct (length (vocabulary (flat_map analyze docs)) =? 0); [discriminate E|].
          destruct (n <? _) eqn:En; [destruct (n =? 0); [discriminate E|]; injection E as <- <-; cbn; split; [reflexivity|]; split; [reflexivity|];
            left; apply Nat.ltb_lt in En; split; [discriminate|split; [lia|reflexivity]]|].
          destruct (_ =? n) eqn:EW; injection E as <- <-; cbn; (split; [reflexivity|]; split; [reflexivity|]; right; split; [reflexivity|]).
          + apply Nat.eqb_eq in EW. lia.
          + lia.
        - exists (vocabulary (flat_map analyze docs)). cbn [width] in *. unfold Columns in C. split; [symmetry; exact C|].
          destruct (length docs =? 0); [discriminate E|].
          destruct (n <? _) eqn:En; [destruct (n =? 0); [discriminate E|]; injection E as <- <-; cbn; split; [reflexivity|]; split; [reflexivity|];
            left; apply Nat.ltb_lt in En; split; [discriminate|split; [lia|reflexivity]]|].
          destruct (_ =? n) eqn:EW; injection E as <- <-; cbn; (split; [reflexivity|]; split; [reflexivity|]; right; split; [reflexivity|]).
          + apply Nat.eqb_eq in EW. lia.
          + lia. }
      destruct G as (voc & Ew & Ek & Ev & G). split; [destruct G as [(_ & A & B)|(_ & B)]; lia|].
      intros Y out' T. unfold M_strenc.transform in T. destruct (mapM filled Y) as [docs|] eqn:ED; [|discriminate T]. cbn [bind] in T.
      destruct (length docs =? 0); [discriminate T|]. cbv zeta in T.
      assert (EL : length docs = length Y) by (apply filled_stands in ED; symmetry; apply (Forall2_len _ _ _ ED)).
      destruct G as [(A & B & D)|(A & D)].
      - destruct (decomposed f) as [M|]; [|congruence]. injection T as <-. split; [rewrite !map_length; exact EL|].
        intros r I. apply in_map_iff in I. destruct I as (r' & <- & _). rewrite (svd_length Lib). symmetry. exact D.
      - rewrite A in T. injection T as <-. split; [rewrite !map_length; exact EL|].
        intros r I. apply in_map_iff in I. destruct I as (r' & <- & I). apply in_map_iff in I. destruct I as (t & <- & _).
        rewrite firstn_length, (row_length Lib), Ek, Ev, Ew. symmetry. exact D.
    Qed.

    (** ** Errors *)
    Theorem fit_not_text : forall k n X, k <> Unknown -> ~ Textual X -> fit k n X = Err AttributeError.
    Proof. intros k n X Nk T. unfold M_strenc.fit_transform. rewrite (proj2 (filled_all X) T). destruct k; [reflexivity|reflexivity|congruence]. Qed.
    Theorem fit_defined : forall k n X, k <> Unknown -> 0 < n -> Textual X ->
      ((exists f out, fit k n X = Ok (f, out)) <->
       match k with Tfidf => exists x t g, In x X /\ Stands x t /\ In g (analyze t) | _ => X <> [] end).
    Proof.
      intros k n X Nk Hn T. destruct (proj1 (filled_all X) T) as (docs & ED). unfold M_strenc.fit_transform. rewrite ED. cbn [bind]. cbv zeta.
      pose proof (distinct_vocabulary analyze X docs ED) as [_ DV]. set (voc := vocabulary (flat_map analyze docs)) in *. clearbody voc.
      assert (EL : length docs = length X) by (apply filled_stands in ED; symmetry; apply (Forall2_len _ _ _ ED)).
      assert (N0 : (n =? 0) = false) by (apply Nat.eqb_neq; lia).
      destruct k; [| |congruence].
      - destruct voc as [|v voc].
        + cbn. split; [intros (f & out & E); discriminate E|]. intros (x & t & g & Ix & S & Ig). destruct (proj2 (DV g)). exists x, t. split; [exact Ix|split; assumption].
        + change (length (v :: voc) =? 0) with false. cbv iota. rewrite N0. split; [intros _|].
          * destruct (proj1 (DV v) (or_introl eq_refl)) as (x & t & A & B & C). exists x, t, v. split; [exact A|split; assumption].
          * intros _. destruct (n <? _); [do 2 eexists; reflexivity|]. destruct (_ =? n); do 2 eexists; reflexivity.
      - destruct (length docs =? 0) eqn:E0.
        + apply Nat.eqb_eq in E0. rewrite EL in E0. destruct X; [|discriminate E0]. split; [intros (f & out & E); discriminate E|congruence].
        + apply Nat.eqb_neq in E0. rewrite EL in E0. rewrite N0. split; [intros _ ->; exact (E0 eq_refl)|]. intros _.
          destruct (n <? _); [do 2 eexists; reflexivity|]. destruct (_ =? n); do 2 eexists; reflexivity.
    Qed.
    Theorem fit_error : forall k n X e, Textual X -> fit k n X = Err e -> e = ValueError.
    Proof.
      intros k n X e T E. destruct (proj1 (filled_all X) T) as (docs & ED). unfold M_strenc.fit_transform in E. rewrite ED in E. cbn [bind] in E. cbv zeta in E.
      destruct k; [| |congruence].
      - destruct (_ =? 0); [congruence|]. destruct (n <? _); [destruct (n =? 0); congruence|]. destruct (_ =? n); congruence.
      - destruct (_ =? 0); [congruence|]. destruct (n <? _); [destruct (n =? 0); congruence|]. destruct (_ =? n); congruence.
    Qed.
    Theorem transform_defined : forall f n Y, (exists out, trans f n Y = Ok out) <-> (Textual Y /\ Y <> []).
    Proof.
      intros f n Y. unfold M_strenc.transform. split.
      - intros (out & E). destruct (mapM filled Y) as [docs|] eqn:ED; [|discriminate E]. split.
        + intros I. destruct (filled_all Y) as [_ X]. rewrite X in ED; [discriminate ED|]. intros T. exact (T I).
        + intros ->. injection ED as <-. discriminate E.
      - intros [T N]. destruct (proj1 (filled_all Y) T) as (docs & ED). rewrite ED. cbn [bind].
        destruct docs as [|t docs]; [exfalso; apply filled_stands, Forall2_len in ED; destruct Y; [apply N; reflexivity|discriminate ED]|].
        change (length (t :: docs) =? 0) with false. cbv iota zeta. destruct (decomposed f); eexists; reflexivity.
    Qed.
    (** ** Each row is a function of the tokens of its entry *)
    Definition coded (f : fitted K) (n : nat) (t : text) : list K :=
      let r := row_of K of_nat float32 analyze reweigh hashed (kind f) (vocab f) (counted f) t in
      match decomposed f with Some M => svd n M r | None => firstn n r end.
    Lemma transform_coded : forall f n Y out, trans f n Y = Ok out -> exists docs, mapM filled Y = Ok docs /\ out = map (coded f n) docs.
    Proof.
      intros f n Y out E. unfold M_strenc.transform in E. destruct (mapM filled Y) as [docs|]; [|discriminate E]. cbn [bind] in E.
      destruct (length docs =? 0); [discriminate E|]. cbv zeta in E. exists docs. split; [reflexivity|]. unfold coded.
      destruct (decomposed f); injection E as <-; rewrite map_map; reflexivity.
    Qed.
    Lemma coded_perm : SkLib -> forall f n t t', Permutation (analyze t) (analyze t') -> coded f n t = coded f n t'.
    Proof.
      intros Lib f n t t' P. unfold coded. replace (row_of K of_nat float32 analyze reweigh hashed (kind f) (vocab f) (counted f) t') with (row_of K of_nat float32 analyze reweigh hashed (kind f) (vocab f) (counted f) t); [reflexivity|].
      unfold row_of. f_equal. f_equal. unfold base_row. destruct (kind f).
      - apply map_ext. intros v. f_equal. apply count_perm. exact P.
      - apply (hashed_perm Lib). exact P.
      - apply map_ext. intros v. f_equal. apply count_perm. exact P.
    Qed.
    Lemma forall2_map : forall (P : entry -> list K -> Prop) f n Y out, trans f n Y = Ok out ->
      (forall x t, In x Y -> Stands x t -> P x (coded f n t)) -> Forall2 P Y out.
    Proof.
      intros P f n Y out E H. destruct (transform_coded f n Y out E) as (docs & ED & ->). apply filled_stands in ED. clear E.
      induction ED as [|x t Y docs S F IH]; cbn; constructor; [apply H; [left; reflexivity|exact S]|]. apply IH. intros x' t' I. apply H. right. exact I.
    Qed.
    (** entries without a token of the fitted column are coded like the empty text *)
    Theorem unknown_ok : forall n X f out, fit Tfidf n X = Ok (f, out) ->
      exists blank, forall Y out', trans f n Y = Ok out' ->
        Forall2 (fun y row => forall t, Stands y t -> (forall g x u, In g (analyze t) -> In x X -> Stands x u -> ~ In g (analyze u)) -> row = blank) Y out'.
    Proof.
      intros n X f out E.
      assert (G : kind f = Tfidf /\ Distinct analyze X (vocab f)).
      { unfold M_strenc.fit_transform in E. destruct (mapM filled X) as [docs|] eqn:ED; [|discriminate E]. cbn [bind] in E. cbv zeta in E.
        pose proof (distinct_vocabulary analyze X docs ED) as DV.
        destruct (_ =? 0); [discriminate E|]. destruct (n <? _); [destruct (n =? 0); [discriminate E|]; injection E as <- <-; split; [reflexivity|exact DV]|].
        destruct (_ =? n); injection E as <- <-; (split; [reflexivity|exact DV]). }
      destruct G as [Ek [_ DV]].
      set (r := map float32 (reweigh (counted f) (map (fun _ => of_nat 0) (vocab f)))).
      exists (match decomposed f with Some M => svd n M r | None => firstn n r end).
      intros Y out' T. apply (forall2_map _ f n Y out' T). intros y t _ S t' S' U.
      assert (t' = t) as -> by (destruct S as [->|[-> ->]]; destruct S' as [S'|[S' ->]]; congruence).
      unfold coded. replace (row_of K of_nat float32 analyze reweigh hashed (kind f) (vocab f) (counted f) t) with r; [reflexivity|].
      unfold row_of, r. f_equal. f_equal. rewrite Ek. cbn [base_row]. apply map_ext_in. intros v Iv. f_equal. symmetry.
      apply DV in Iv. destruct Iv as (x & u & Ix & Su & Iu). unfold count.
      replace (filter (fun t0 => eqb_of t0 v) (analyze t)) with (@nil text); [reflexivity|]. symmetry.
      destruct (filter (fun t0 => eqb_of t0 v) (analyze t)) as [|g l] eqn:EF; [reflexivity|]. exfalso.
      assert (I : In g (filter (fun t0 => eqb_of t0 v) (analyze t))) by (rewrite EF; left; reflexivity).
      apply filter_In in I. destruct I as [I Eg]. apply (proj1 (eqb_of_true _ _)) in Eg. subst g. exact (U v x u I Ix Su Iu).
    Qed.
  End Any.

  (** ** Without a decomposition the codes are the weighed counts, the first ones of them *)
  Section Values.
    Variable analyze : text -> list text.
    Notation fit := (M_strenc.fit_transform K of_nat float32 analyze reweigh hash_width hashed svd).
    Definition Counts (voc : list text) (x : entry) (r : list K) : Prop :=
      forall t, Stands x t -> Forall2 (fun g v => v = of_nat (length (filter (fun u => eqb_of u g) (analyze t)))) voc r.
    Theorem values_ok : SkLib -> forall n X f out l, fit Tfidf n X = Ok (f, out) -> Distinct analyze X l -> length X <= n \/ length l <= n ->
      exists voc M, Increasing voc /\ Distinct analyze X voc /\ Forall2 (Counts voc) X M /\
        Forall2 (fun r o => o = firstn n (map float32 (reweigh M r))) M out.
    Proof.
      intros Lib n X f out l E Dl Small. pose proof E as E'. unfold M_strenc.fit_transform in E. destruct (mapM filled X) as [docs|] eqn:ED; [|discriminate E]. cbn [bind] in E. cbv zeta in E.
      pose proof (distinct_vocabulary analyze X docs ED) as DV. pose proof (distinct_length _ _ _ _ DV Dl) as EL.
      pose proof (increasing_sorted _ (vocabulary_increasing (flat_map analyze docs))) as Inc.
      pose proof (filled_stands X docs ED) as FS. pose proof (Forall2_len _ _ _ FS) as LD.
      set (voc := vocabulary (flat_map analyze docs)) in *. exists voc, (map (base_row K of_nat analyze hashed Tfidf voc) docs).
      split; [exact Inc|]. split; [exact DV|]. split.
      - clearbody voc. clear - FS. induction FS as [|x t X docs S F IH]; cbn [map]; constructor; [|exact IH].
        intros t' S'. assert (t' = t) as -> by (destruct S as [->|[-> ->]]; destruct S' as [S'|[S' ->]]; congruence).
        cbn [base_row]. clear. induction voc as [|g voc IH]; cbn [map]; constructor; [reflexivity|exact IH].
      - assert (O : out = map (firstn n) (map (row_of K of_nat float32 analyze reweigh hashed Tfidf voc (map (base_row K of_nat analyze hashed Tfidf voc) docs)) docs)).
        { destruct (length voc =? 0); [discriminate E|]. cbn [width] in E. replace (n <? Nat.min (length docs) (length voc)) with false in E by (symmetry; apply Nat.ltb_ge; lia).
          destruct (length voc =? n) eqn:EW; injection E as <- <-; [|reflexivity].
          rewrite <- (map_id (map _ docs)) at 1. apply map_ext_in. intros r I. apply in_map_iff in I. destruct I as (t & <- & _).
          symmetry. apply firstn_wide. rewrite (row_length analyze Lib). apply Nat.eqb_eq in EW. rewrite <- EW. apply le_n. }
        rewrite O.
        assert (G : forall B, Forall2 (fun r o => o = firstn n (map float32 (reweigh B r))) (map (base_row K of_nat analyze hashed Tfidf voc) docs)
                                (map (firstn n) (map (row_of K of_nat float32 analyze reweigh hashed Tfidf voc B) docs)));
          [|apply G]. intros B. clearbody voc. clear. induction docs as [|t docs IH]; cbn [map]; constructor; [reflexivity|exact IH].
    Qed.
  End Values.
  Lemma zeros_kept : forall n M r, (forall M r i, nth_error r i = Some (of_nat 0) -> nth_error (reweigh M r) i = Some (of_nat 0)) ->
    firstn n r = repeat (of_nat 0) n -> firstn n (map float32 (reweigh M r)) = repeat (float32 (of_nat 0)) n.
  Proof.
    intros n M r Z E. rewrite firstn_map. replace (repeat (float32 (of_nat 0)) n) with (map float32 (repeat (of_nat 0) n)) by (clear; induction n as [|n IH]; cbn; congruence). f_equal.
    assert (H : forall i, i < n -> nth_error (reweigh M r) i = Some (of_nat 0)).
    { intros i L. apply Z. assert (X : nth_error (firstn n r) i = Some (of_nat 0)).
      { rewrite E. clear - L. revert i L. induction n as [|n IH]; intros [|i] L; [lia|lia|reflexivity|]. cbn. apply IH. lia. }
      rewrite <- (firstn_skipn n r). rewrite nth_error_app1; [exact X|]. apply nth_error_Some. congruence. }
    revert H. generalize (reweigh M r). clear. induction n as [|n IH]; intros l H; [reflexivity|].
    destruct l as [|v l]; [specialize (H 0 ltac:(lia)); discriminate H|]. cbn. f_equal; [specialize (H 0 ltac:(lia)); injection H as ->; reflexivity|].
    apply IH. intros i L. apply (H (S i)). lia.
  Qed.

  (** ** Character n-grams within words *)
  Section CharWb.
    Variable is_space : N -> bool.
    Variable lower : text -> text.
    Variable a b : nat.
    Notation analyze := (char_wb is_space lower a b).
    Notation fit := (M_strenc.fit_transform K of_nat float32 analyze reweigh hash_width hashed svd).
    Notation trans := (M_strenc.transform K of_nat float32 analyze reweigh hashed svd).
    Theorem words_ok : SkLib -> forall k n X f out i j x y t u ws us, fit k n X = Ok (f, out) ->
      nth_error X i = Some x -> Stands x t -> Words is_space (lower t) ws ->
      forall Y out', trans f n Y = Ok out' ->
      nth_error Y j = Some y -> Stands y u -> Words is_space (lower u) us ->
      Permutation ws us ->
      exists row, nth_error out i = Some row /\ nth_error out' j = Some row.
    Proof.
      intros Lib k n X f out i j x y t u ws us E Ix Sx Wx Y out' T Iy Sy Wy P.
      pose proof (fit_is_transform analyze Lib k n X f out E) as T0.
      assert (G : forall Z o m z v, trans f n Z = Ok o -> nth_error Z m = Some z -> Stands z v -> nth_error o m = Some (coded analyze f n v)).
      { clear. intros Z o m z v E I S. destruct (transform_coded analyze f n Z o E) as (docs & ED & ->). apply filled_stands in ED. clear E.
        revert m I. induction ED as [|z' v' Z docs S' F IH]; intros [|m] I; try discriminate I; cbn in *.
        - injection I as ->. f_equal. f_equal. destruct S as [->|[-> ->]]; destruct S' as [S'|[S' ->]]; congruence.
        - apply IH. exact I. }
      exists (coded analyze f n t). split; [exact (G _ _ _ _ _ T0 Ix Sx)|].
      rewrite (coded_perm analyze Lib f n t u (char_wb_perm is_space lower a b t u ws us Wx Wy P)). exact (G _ _ _ _ _ T Iy Sy).
    Qed.
    Theorem blank_columns : a <= b -> lower [] = [] -> forall n X, 0 < n -> Textual X ->
      ((exists f out, fit Tfidf n X = Ok (f, out)) <-> exists t, In (EText t) X /\ HasWord is_space (lower t)).
    Proof.
      intros L L0 n X Hn T. rewrite (fit_defined analyze Tfidf n X ltac:(discriminate) Hn T). split.
      - intros (x & t & g & I & S & Ig). destruct S as [->|[-> ->]].
        + exists t. split; [exact I|]. destruct (split is_space [] (lower t)) as [|w ws] eqn:E; [unfold char_wb in Ig; rewrite E in Ig; destruct Ig|].
          assert (X0 : forall t, split is_space [] t <> [] -> HasWord is_space t).
          { clear. induction t as [|c t IH]; intros H; [destruct H; reflexivity|]. cbn in H. destruct (is_space c) eqn:E.
            - destruct (IH H) as (d & I & Ed). exists d. split; [right; exact I|exact Ed].
            - exists c. split; [left; reflexivity|exact E]. }
          apply X0. rewrite E. discriminate.
        + unfold char_wb in Ig. rewrite L0 in Ig. destruct Ig.
      - intros (t & I & H). destruct (analyze t) as [|g l] eqn:E.
        + exfalso. apply (proj1 (char_wb_nil is_space lower a b t L) E). exact H.
        + exists (EText t), t, g. split; [exact I|]. split; [left; reflexivity|]. rewrite E. left. reflexivity.
    Qed.
  End CharWb.
End Encoder.
