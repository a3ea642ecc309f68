(** What the sample table of a report is to show, and proofs about the model. *)
From Coq Require Import Permutation.
From Verif Require Import Base M_sampletable L_sampletable M_tablegrid.
From Coq Require Import ZArith Lia Sorted.
Open Scope list_scope.
Open Scope nat_scope.
Set Default Proof Using "Type".

(** * Specification *)
Section Spec.
  Context {V D : Type}.
  Variable eqv : V -> V -> bool.
  Notation cell := (@cell V D).
  Notation table := (@table V D).
  Notation frame := (@frame V D).

  (** the positions a cell covers *)
  Definition covers (i j : Z) (c : cell) : bool :=
    ((ci c <=? i) && (i <? ci c + Z.of_nat (rspan c)) && (cj c <=? j) && (j <? cj c + Z.of_nat (cspan c)))%Z.
  Definition part_rows (p : @tpart V D) : list (list cell) := match p with THead r => r | TBody r => r | TEllipsis => [] end.
  (** the rows of the table, from the top *)
  Definition trs (t : table) : list (list cell) := flat_map part_rows (parts t).
  Definition cells (t : table) : list cell := concat (trs t).

  Record WF (f : frame) : Prop := {
    wf_cl : 0 < col_levels f; wf_il : 0 < idx_levels f;
    wf_ci : Forall (fun it => length it = col_levels f) (col_items f);
    wf_ii : Forall (fun it => length it = idx_levels f) (idx_items f);
    wf_cn : length (col_names f) = col_levels f; wf_in : length (idx_names f) = idx_levels f;
    wf_n : length (idx_items f) = length (data f);
    wf_d : Forall (fun r => length r = length (col_items f)) (data f) }.
  (** the rows of the dataframe that are shown *)
  Definition Shown (n top bottom : nat) : list nat := if n <=? top + bottom then seq 0 n else seq 0 top ++ seq (n - bottom) bottom.
  (** equal labels *)
  Definition Alike (v w : V) : Prop := v = w \/ eqv v w = true.
  Definition Named (names : list (option V)) : Prop := exists v, In (Some v) names.
  (** what the cell that covers a position is to be *)
  Definition RightData (f : frame) (r : nat) (j : nat) (c : cell) : Prop :=
    exists d, Entry (data f) r j d /\ shows c = Datum d /\ column c = Some j /\ crole c = Data /\ rspan c = 1 /\ cspan c = 1.
  Definition RightIndex (f : frame) (r l : nat) (c : cell) : Prop :=
    exists v w, Entry (idx_items f) r l w /\ shows c = Label v /\ Alike v w /\ crole c = IndexValue /\ column c = None /\ cspan c = 1.
  Definition RightColumn (f : frame) (l j : nat) (c : cell) : Prop :=
    exists v w, Entry (col_items f) j l w /\ shows c = Label v /\ Alike v w /\ crole c = ColumnValue /\
      (S l = col_levels f -> v = w /\ column c = Some j /\ cspan c = 1).
  (** [k]: the row from the top; [l]: the level of the index; the last two rows of the head are one for columns *)
  Definition RightCorner (f : frame) (k l : nat) (c : cell) : Prop :=
    column c = None /\
    ((Named (col_names f) /\ (k < col_levels f \/ ~ Named (idx_names f)) /\
        exists n, nth_error (col_names f) (Nat.min k (col_levels f - 1)) = Some n /\ shows c = name_content n /\ crole c = ColumnName) \/
     (Named (idx_names f) /\ (k = col_levels f \/ ~ Named (col_names f)) /\
        exists n, nth_error (idx_names f) l = Some n /\ shows c = name_content n /\ crole c = IndexName) \/
     (~ Named (col_names f) /\ ~ Named (idx_names f) /\ shows c = Nothing /\ crole c = Padding)).
  (** positions: [k] rows from the top, [l] columns from the left *)
  Definition Right (f : frame) (sh : list nat) (k l : nat) (c : cell) : Prop :=
    if k <=? col_levels f then
      if l <? idx_levels f then RightCorner f k l c else RightColumn f (Nat.min k (col_levels f - 1)) (l - idx_levels f) c
    else forall r, nth_error sh (k - S (col_levels f)) = Some r ->
      if l <? idx_levels f then RightIndex f r l c else RightData f r (l - idx_levels f) c.
End Spec.

(** * Lemmas *)
Lemma filter_map_comm : forall {A B} (f : A -> B) P l, filter P (map f l) = map f (filter (fun x => P (f x)) l).
Proof. induction l as [|x l IH]; [reflexivity|]. cbn. destruct (P (f x)); cbn; rewrite IH; reflexivity. Qed.
Lemma filter_concat : forall {A} P (l : list (list A)), filter P (concat l) = flat_map (filter P) l.
Proof. induction l as [|x l IH]; [reflexivity|]. cbn. rewrite filter_app, IH. reflexivity. Qed.
Lemma filter_ext' : forall {A} (P Q : A -> bool) l, (forall x, P x = Q x) -> filter P l = filter Q l.
Proof. intros A P Q l H. apply filter_ext. exact H. Qed.
Lemma filter_none : forall {A} (P : A -> bool) l, (forall x, In x l -> P x = false) -> filter P l = [].
Proof. induction l as [|x l IH]; intros H; [reflexivity|]. cbn. rewrite (H x (or_introl eq_refl)). apply IH. intros y I. apply H. right. exact I. Qed.
Lemma flat_map_none : forall {A B} (g : A -> list B) l, (forall x, In x l -> g x = []) -> flat_map g l = [].
Proof. induction l as [|x l IH]; intros H; [reflexivity|]. cbn. rewrite (H x (or_introl eq_refl)). apply IH. intros y I. apply H. right. exact I. Qed.
Lemma flat_map_single : forall {A B} (g : A -> list B) l m x, nth_error l m = Some x ->
  (forall k y, nth_error l k = Some y -> k <> m -> g y = []) -> flat_map g l = g x.
Proof.
  induction l as [|a l IH]; intros [|m] x E H; try discriminate E.
  - injection E as ->. cbn. rewrite (flat_map_none g l); [apply app_nil_r|]. intros y I. apply In_nth_error in I. destruct I as (k & Ek). apply (H (S k) y Ek). discriminate.
  - cbn. rewrite (H 0 a eq_refl) by discriminate. apply (IH m x E). intros k y Ek N. apply (H (S k) y Ek). congruence.
Qed.
Lemma perm_filter : forall {A} (P : A -> bool) l l', Permutation l l' -> Permutation (filter P l) (filter P l').
Proof.
  intros A P l l' H. induction H as [|x l l' H IH|x y l|l l' l'' H1 IH1 H2 IH2]; cbn.
  - constructor.
  - destruct (P x); [constructor; exact IH|exact IH].
  - destruct (P x), (P y); try apply Permutation_refl. apply perm_swap.
  - exact (perm_trans IH1 IH2).
Qed.
Lemma nth_error_combine : forall {A B} (l : list A) (m : list B) k,
  nth_error (combine l m) k = match nth_error l k, nth_error m k with Some a, Some b => Some (a, b) | _, _ => None end.
Proof.
  induction l as [|a l IH]; intros [|b m] [|k]; cbn; try reflexivity; [destruct (nth_error l k); reflexivity|]. apply IH.
Qed.
Lemma nth_error_seq : forall n a k, k < n -> nth_error (seq a n) k = Some (a + k).
Proof. induction n as [|n IH]; intros a [|k] L; [lia|lia|cbn; f_equal; lia|]. cbn. rewrite IH by lia. f_equal. lia. Qed.
Lemma nth_error_lt : forall {A} (l : list A) k x, nth_error l k = Some x -> k < length l.
Proof. intros A l k x E. apply nth_error_Some. congruence. Qed.
Lemma zrange_nth : forall a n k, k < n -> nth_error (zrange a n) k = Some (a + Z.of_nat k)%Z.
Proof. intros a n k L. unfold zrange. rewrite nth_error_map, (nth_error_seq n 0 k L). reflexivity. Qed.
Lemma zrange_length : forall a n, length (zrange a n) = n.
Proof. intros a n. unfold zrange. rewrite map_length. apply seq_length. Qed.
Lemma zrange_S : forall a n, zrange a (S n) = a :: zrange (a + 1) n.
Proof.
  intros a n. unfold zrange. cbn [seq map]. f_equal; [lia|]. rewrite <- seq_shift, map_map. apply map_ext. intros k. cbn [Nat.add]. lia.
Qed.

(** ** One level of headers *)
Section Level.
  Context {V : Type}.
  Variable eqv : V -> V -> bool.
  Fixpoint placed (k : nat) (col : list (option (th V))) : list (nat * th V) :=
    match col with [] => [] | None :: c => placed (S k) c | Some t :: c => (k, t) :: placed (S k) c end.
  Definition at_q (q : nat) (p : nat * th V) : bool := (fst p <=? q) && (q <? fst p + th_span (snd p)).
  Lemma placed_app : forall a b k, placed k (a ++ b) = placed k a ++ placed (k + length a) b.
  Proof.
    induction a as [|x a IH]; intros b k; [cbn; rewrite Nat.add_0_r; reflexivity|]. cbn [app length]. replace (k + S (length a)) with (S k + length a) by lia.
    destruct x; cbn [placed app]; rewrite IH; reflexivity.
  Qed.
  Lemma placed_none : forall n k, placed k (repeat None n) = [].
  Proof. induction n as [|n IH]; intros k; [reflexivity|]. cbn. apply IH. Qed.
  Lemma placed_ge : forall col k p, In p (placed k col) -> k <= fst p < k + length col.
  Proof.
    induction col as [|x col IH]; intros k p I; [destruct I|]. cbn [length]. destruct x as [t|]; cbn in I.
    - destruct I as [<-|I]; [cbn; lia|]. apply IH in I. lia.
    - apply IH in I. lia.
  Qed.
  Definition group_cells (g : V * list V) : list (option (th V)) := Some (group_cell g) :: repeat None (length (snd g)).
  Lemma group_cells_length : forall gs, length (concat (map group_cells gs)) = length (concat (map group_values gs)).
  Proof. induction gs as [|g gs IH]; [reflexivity|]. cbn. rewrite !app_length, repeat_length, IH. reflexivity. Qed.
  Lemma groups_cover : forall gs k q, Forall (fun g => Forall (fun v => eqv (fst g) v = true) (snd g)) gs ->
    (q < k \/ k + length (concat (map group_values gs)) <= q -> filter (at_q q) (placed k (concat (map group_cells gs))) = []) /\
    (k <= q < k + length (concat (map group_values gs)) -> exists p t w, filter (at_q q) (placed k (concat (map group_cells gs))) = [(p, t)] /\
        nth_error (concat (map group_values gs)) (q - k) = Some w /\ Alike eqv (th_value t) w).
  Proof.
    induction gs as [|g gs IH]; intros k q F; [split; [reflexivity|cbn; lia]|]. inversion F as [|? ? Fg F']; subst.
    cbn [map concat]. rewrite placed_app, filter_app.
    replace (placed k (group_cells g)) with [(k, group_cell g)] by (unfold group_cells; cbn; rewrite placed_none; reflexivity).
    replace (k + length (group_cells g)) with (k + S (length (snd g))) by (unfold group_cells; cbn; rewrite repeat_length; reflexivity).
    rewrite app_length. replace (length (group_values g)) with (S (length (snd g))) by reflexivity. cbn [filter].
    replace (at_q q (k, group_cell g)) with ((k <=? q) && (q <? k + S (length (snd g)))) by reflexivity.
    destruct (IH (k + S (length (snd g))) q F') as [IH1 IH2]. split.
    - intros H. rewrite (proj2 (andb_false_iff _ _)); [apply IH1; lia|]. destruct H as [H|H]; [left; apply Nat.leb_gt; lia|right; apply Nat.ltb_ge; lia].
    - intros H. destruct (le_lt_dec (k + S (length (snd g))) q) as [G|G].
      + destruct (IH2 ltac:(lia)) as (p & t & w & E & N & A). exists p, t, w. rewrite (proj2 (andb_false_iff _ _)) by (right; apply Nat.ltb_ge; lia).
        split; [exact E|]. split; [|exact A]. rewrite nth_error_app2 by (cbn; lia). rewrite <- N. f_equal. cbn. lia.
      + exists k, (group_cell g). rewrite (proj2 (andb_true_iff _ _)) by (split; [apply Nat.leb_le|apply Nat.ltb_lt]; lia).
        rewrite IH1 by lia. destruct (nth_error (group_values g) (q - k)) as [w|] eqn:E; [|apply nth_error_None in E; cbn in E; lia].
        exists w. split; [reflexivity|]. split; [rewrite nth_error_app1 by (cbn; lia); exact E|].
        cbn [group_cell th_value]. unfold group_values in E. destruct (q - k) as [|m]; cbn in E; [injection E as <-; left; reflexivity|].
        right. rewrite Forall_forall in Fg. apply Fg. apply nth_error_In in E. exact E.
  Qed.
  (** a level with headers that tile it *)
  Lemma tiled_cover : forall items rows l col q, Tiled eqv items rows l -> Column rows l col ->
    (length items <= q -> filter (at_q q) (placed 0 col) = []) /\
    (q < length items -> exists p t w, filter (at_q q) (placed 0 col) = [(p, t)] /\ Entry items q l w /\ Alike eqv (th_value t) w).
  Proof.
    intros items rows l col q (gs & Ci & Cr & F) Cc.
    assert (col = concat (map group_cells gs)) as ->.
    { clear - Cr Cc. unfold Column in *. change (fun g => Some (group_cell g) :: repeat None (length (snd g))) with group_cells in Cr.
      revert Cr. generalize (concat (map group_cells gs)). induction Cc as [|r x rows col E Cc IH]; intros c Cr; inversion Cr as [|? y ? c' E' Cr']; subst; [reflexivity|].
      f_equal; [congruence|]. apply IH. exact Cr'. }
    pose proof (Forall2_len _ _ _ Ci) as L. destruct (groups_cover gs 0 q F) as [G1 G2]. split.
    - intros H. apply G1. lia.
    - intros H. destruct (G2 ltac:(lia)) as (p & t & w & E & N & A). exists p, t, w. split; [exact E|]. split; [|exact A].
      apply (proj2 (Column_entry items l _ q w Ci)). rewrite Nat.sub_0_r in N. exact N.
  Qed.
  Lemma enum_placed : forall {B} (mk : nat -> th V -> B) col k,
    flat_map (fun q => match snd q with None => [] | Some t => [mk (fst q) t] end) (combine (seq k (length col)) col) = map (fun p => mk (fst p) (snd p)) (placed k col).
  Proof. intros B mk. induction col as [|x col IH]; intros k; [reflexivity|]. cbn. destruct x as [t|]; cbn; rewrite IH; reflexivity. Qed.
End Level.

Lemma placed_in : forall {V} (col : list (option (th V))) k p t, nth_error col p = Some (Some t) -> In (k + p, t) (placed k col).
Proof.
  induction col as [|x col IH]; intros k [|p] t E; try discriminate E; cbn in E.
  - injection E as ->. cbn. left. f_equal. lia.
  - replace (k + S p) with (S k + p) by lia. destruct x; cbn [placed]; [right|]; apply IH; exact E.
Qed.
Lemma column_of_entries : forall {A} (rows : list (list A)) l col, length rows = length col -> (forall p x, nth_error col p = Some x -> Entry rows p l x) -> Column rows l col.
Proof.
  unfold Column. induction rows as [|r rows IH]; intros l [|x col] L H; try discriminate L; constructor.
  - destruct (H 0 x eq_refl) as (r' & E & E'). injection E as <-. exact E'.
  - apply IH; [injection L as L; exact L|]. intros p y E. destruct (H (S p) y E) as (r' & Er & E'). exists r'. split; assumption.
Qed.
Lemma column_exists : forall {A} (rows : list (list A)) l n, Forall (fun r => length r = n) rows -> l < n -> exists col, Column rows l col.
Proof.
  intros A rows l n F L. induction F as [|r rows E F (col & IH)]; [exists []; constructor|].
  destruct (nth_error r l) as [x|] eqn:Ex; [|apply nth_error_None in Ex; lia]. exists (x :: col). constructor; assumption.
Qed.

Section Grid.
  Context {V D : Type}.
  Variable eqv : V -> V -> bool.
  Variable sym : forall a b, eqv a b = true -> eqv b a = true.
  Variable trans : forall a b c, eqv a b = true -> eqv b c = true -> eqv a c = true.
  Notation cell := (@cell V D).
  Notation frame := (@frame V D).

  (** ** The head without its corner *)
  Definition si (f : frame) : Z := (- Z.of_nat (col_levels f) - 1)%Z.
  Definition sj (f : frame) : Z := (- Z.of_nat (idx_levels f))%Z.
  Definition levels (f : frame) (ths : list (list (option (th V)))) : list (list cell) :=
    map (fun q => head_row (fst q) (snd q)) (combine (zrange (si f) (col_levels f)) ths).
  Lemma head_row_placed : forall i ths, @head_row V D i ths =
    map (fun p => mk_cell i (Z.of_nat (fst p)) (if (i =? -2)%Z then 2 else 1) (th_span (snd p)) (Label (th_value (snd p))) ColumnValue (if (i =? -2)%Z then Some (fst p) else None)) (placed 0 ths).
  Proof. intros i ths. unfold head_row. rewrite (enum_placed (fun k t => mk_cell i (Z.of_nat k) (if (i =? -2)%Z then 2 else 1) (th_span t) (Label (th_value t)) ColumnValue (if (i =? -2)%Z then Some k else None))). reflexivity. Qed.
  Lemma head_row_out : forall i0 ths i j, (i < i0 \/ i0 + (if (i0 =? -2)%Z then 2 else 1) <= i \/ j < 0)%Z -> filter (covers i j) (@head_row V D i0 ths) = [].
  Proof.
    intros i0 ths i j H. rewrite head_row_placed, filter_map_comm, filter_none; [reflexivity|]. intros p _. unfold covers. cbn [ci cj rspan cspan].
    destruct (i0 <=? i)%Z eqn:E1; [|reflexivity]. apply Z.leb_le in E1.
    destruct (i <? i0 + Z.of_nat (if (i0 =? -2)%Z then 2 else 1))%Z eqn:E2; [|reflexivity]. apply Z.ltb_lt in E2.
    destruct (Z.of_nat (fst p) <=? j)%Z eqn:E3; [|reflexivity]. apply Z.leb_le in E3. destruct (i0 =? -2)%Z; lia.
  Qed.
  Lemma head_row_in : forall i0 ths i q, (i0 <= i < i0 + (if (i0 =? -2)%Z then 2 else 1))%Z -> filter (covers i (Z.of_nat q)) (@head_row V D i0 ths) =
    map (fun p => mk_cell i0 (Z.of_nat (fst p)) (if (i0 =? -2)%Z then 2 else 1) (th_span (snd p)) (Label (th_value (snd p))) ColumnValue (if (i0 =? -2)%Z then Some (fst p) else None)) (filter (at_q q) (placed 0 ths)).
  Proof.
    intros i0 ths i q H. rewrite head_row_placed, filter_map_comm. f_equal. apply filter_ext'. intros p. unfold covers, at_q. cbn [ci cj rspan cspan].
    replace (i0 <=? i)%Z with true by (symmetry; apply Z.leb_le; lia).
    replace (i <? i0 + Z.of_nat (if (i0 =? -2)%Z then 2 else 1))%Z with true by (symmetry; apply Z.ltb_lt; destruct (i0 =? -2)%Z; lia). cbn [andb].
    f_equal; [destruct (Nat.leb_spec (fst p) q); [apply Z.leb_le|apply Z.leb_gt]; lia|].
    destruct (Nat.ltb_spec q (fst p + th_span (snd p))); [apply Z.ltb_lt|apply Z.ltb_ge]; lia.
  Qed.
  Lemma levels_nth : forall f ths l, length ths = col_levels f -> l < col_levels f -> exists col, nth_error ths l = Some col /\
    nth_error (levels f ths) l = Some (head_row (si f + Z.of_nat l) col).
  Proof.
    intros f ths l E L. destruct (nth_error ths l) as [col|] eqn:Ec; [|apply nth_error_None in Ec; lia]. exists col. split; [reflexivity|].
    unfold levels. rewrite nth_error_map, nth_error_combine, (zrange_nth _ _ _ L), Ec. reflexivity.
  Qed.
  Lemma levels_length : forall f ths, length ths = col_levels f -> length (levels f ths) = col_levels f.
  Proof. intros f ths E. unfold levels. rewrite map_length, combine_length, zrange_length, E. apply Nat.min_id. Qed.
  Theorem head_cover : forall f, WF f -> col_items f <> [] -> exists ths, horizontal_headers eqv (col_levels f) (col_items f) = Ok ths /\ length ths = col_levels f /\
    (forall i j, (i < si f \/ 0 <= i \/ j < 0 \/ Z.of_nat (length (col_items f)) <= j)%Z -> filter (covers i j) (concat (levels f ths)) = []) /\
    (forall k q, k <= col_levels f -> q < length (col_items f) -> exists c, filter (covers (si f + Z.of_nat k) (Z.of_nat q)) (concat (levels f ths)) = [c] /\
       RightColumn eqv f (Nat.min k (col_levels f - 1)) q c).
  Proof using sym trans.
    intros f W N. set (L := col_levels f). pose proof (wf_cl f W) as HL. fold L in HL.
    destruct (vertical_spec eqv L HL sym trans (col_items f) (wf_ci f W)) as (rows & Ev & Lr & Fr & Ti & Inn & _).
    destruct (horizontal_spec eqv L (col_items f) rows HL N (wf_ci f W) Ev Lr Fr) as (ths & Eh & Lt & Ft & HE).
    exists ths. split; [exact Eh|]. split; [exact Lt|].
    assert (Cols : forall l col, nth_error ths l = Some col -> Column rows l col).
    { intros l col E. apply column_of_entries.
      - rewrite Lr. symmetry. rewrite Forall_forall in Ft. apply Ft. exact (nth_error_In _ _ E).
      - intros p x Ex. apply HE. exists col. split; assumption. }
    split.
    - intros i j H. rewrite filter_concat. apply flat_map_none. intros r I. apply In_nth_error in I. destruct I as (l & El).
      pose proof (nth_error_lt _ _ _ El) as Ll. rewrite levels_length in Ll by exact Lt.
      destruct (levels_nth f ths l Lt Ll) as (col & Ec & El'). rewrite El' in El. injection El as <-.
      unfold si in *. fold L in H, Ll |- *.
      destruct (Z_lt_dec j (Z.of_nat (length (col_items f)))) as [Hj|Hj]; [apply head_row_out; destruct (- Z.of_nat L - 1 + Z.of_nat l =? -2)%Z eqn:E2; [apply Z.eqb_eq in E2|apply Z.eqb_neq in E2]; lia|].
      rewrite <- (Z2Nat.id j) by lia.
      destruct (tiled_cover eqv (col_items f) rows l col (Z.to_nat j) (Ti l Ll) (Cols l col Ec)) as [T _].
      destruct (Z_le_dec (- Z.of_nat L - 1 + Z.of_nat l) i) as [H1|H1]; [|apply head_row_out; lia].
      destruct (Z_lt_dec i (- Z.of_nat L - 1 + Z.of_nat l + (if (- Z.of_nat L - 1 + Z.of_nat l =? -2)%Z then 2 else 1))%Z) as [H2|H2]; [|apply head_row_out; lia].
      rewrite head_row_in by lia. rewrite T by lia. reflexivity.
    - intros k q Hk Hq. fold L in Hk |- *. set (l := Nat.min k (L - 1)). assert (Hl : l < L) by lia.
      destruct (levels_nth f ths l Lt Hl) as (col & Ec & El).
      rewrite filter_concat, (flat_map_single _ (levels f ths) l _ El).
      2:{ intros m r Em Nm. pose proof (nth_error_lt _ _ _ Em) as Lm. rewrite levels_length in Lm by exact Lt. destruct (levels_nth f ths m Lt Lm) as (col' & _ & Em').
          rewrite Em' in Em. injection Em as <-. apply head_row_out. unfold si. fold L in Lm |- *. destruct (- Z.of_nat L - 1 + Z.of_nat m =? -2)%Z eqn:E2; [apply Z.eqb_eq in E2|apply Z.eqb_neq in E2]; lia. }
      rewrite head_row_in.
      2:{ unfold si. fold L. destruct (- Z.of_nat L - 1 + Z.of_nat l =? -2)%Z eqn:E2; [apply Z.eqb_eq in E2|apply Z.eqb_neq in E2]; lia. }
      destruct (tiled_cover eqv (col_items f) rows l col q (Ti l Hl) (Cols l col Ec)) as [_ T]. destruct (T Hq) as (p & t & w & E & Ew & A).
      rewrite E. cbn [map fst snd]. eexists. split; [reflexivity|]. exists (th_value t), w. cbn [shows crole column cspan].
      split; [exact Ew|]. split; [reflexivity|]. split; [exact A|]. split; [reflexivity|].
      intros El1. fold L in El1. assert (l = L - 1) as El2 by lia.
      assert (Et : Entry rows q (L - 1) (Some (mk_th w 1))) by (apply Inn; rewrite <- El2; exact Ew).
      assert (I : In (q, mk_th w 1) (filter (at_q q) (placed 0 col))).
      { apply filter_In. split.
        - apply (placed_in col 0 q). apply (proj1 (Column_entry rows l col q _ (Cols l col Ec))). rewrite El2. exact Et.
        - unfold at_q. cbn. apply andb_true_iff. split; [apply Nat.leb_le; lia|apply Nat.ltb_lt; lia]. }
      rewrite E in I. destruct I as [I|[]]. injection I as -> ->. cbn.
      replace (si f + Z.of_nat l =? -2)%Z with true by (symmetry; apply Z.eqb_eq; unfold si; fold L; lia). split; [reflexivity|]. split; reflexivity.
  Qed.

  (** ** The corner *)
  Definition zipapp {A} (cs rows : list (list A)) : list (list A) := map (fun q => fst q ++ snd q) (combine cs rows).
  Lemma zipapp_perm : forall {A} (cs rows : list (list A)), length cs = length rows -> Permutation (concat (zipapp cs rows)) (concat cs ++ concat rows).
  Proof.
    intros A. induction cs as [|c cs IH]; intros [|r rows] L; try discriminate L; [constructor|]. unfold zipapp in *. cbn.
    rewrite <- !app_assoc. apply Permutation_app_head. injection L as L. eapply perm_trans; [apply Permutation_app_head, (IH rows L)|].
    rewrite !app_assoc. apply Permutation_app_tail. apply Permutation_app_comm.
  Qed.
  Lemma zipapp_nils : forall {A} n (rows : list (list A)), length rows = n -> zipapp (repeat [] n) rows = rows.
  Proof. intros A. induction n as [|n IH]; intros [|r rows] L; try discriminate L; [reflexivity|]. unfold zipapp in *. cbn. f_equal. apply IH. injection L as L. exact L. Qed.
  Lemma concat_nils : forall {A} n, concat (repeat (@nil A) n) = [].
  Proof. induction n as [|n IH]; [reflexivity|exact IH]. Qed.
  Lemma concat_single : forall {A} (l : list A), concat (map (fun c => [c]) l) = l.
  Proof. induction l as [|x l IH]; [reflexivity|]. cbn. f_equal. exact IH. Qed.
  Lemma filter_single : forall {A} (P : A -> bool) l m x, nth_error l m = Some x -> P x = true ->
    (forall k y, nth_error l k = Some y -> k <> m -> P y = false) -> filter P l = [x].
  Proof.
    intros A P. induction l as [|a l IH]; intros [|m] x E H N; try discriminate E.
    - injection E as ->. cbn. rewrite H, filter_none; [reflexivity|]. intros y I. apply In_nth_error in I. destruct I as (k & Ek). apply (N (S k) y Ek). discriminate.
    - cbn. rewrite (N 0 a eq_refl) by discriminate. apply (IH m x E H). intros k y Ek Nk. apply (N (S k) y Ek). congruence.
  Qed.
  Definition name_cell (f : frame) (last : nat) (q : Z * option V) : cell :=
    mk_cell (fst q) (sj f) (if (fst q =? -2)%Z then last else 1) (idx_levels f) (name_content (snd q)) ColumnName None.
  Definition col_cells (f : frame) (last : nat) : list cell := map (name_cell f last) (combine (zrange (si f) (col_levels f)) (col_names f)).
  Definition padding (f : frame) : cell := mk_cell (si f) (sj f) (S (col_levels f)) (idx_levels f) Nothing Padding None.
  Definition corner_parts (f : frame) : list (list cell) :=
    match is_named (idx_names f), is_named (col_names f) with
    | false, false => [padding f] :: repeat [] (col_levels f)
    | false, true => map (fun c => [c]) (col_cells f 2) ++ [[]]
    | true, true => map (fun c => [c]) (col_cells f 1) ++ [index_names f (-1) 1]
    | true, false => index_names f (si f) (S (col_levels f)) :: repeat [] (col_levels f)
    end.
  Definition mk_names (s : Z) (I last : nat) (q : Z * option V) : list cell := [mk_cell (fst q) s (if (fst q =? -2)%Z then last else 1) I (name_content (snd q)) ColumnName None].
  Lemma insert_names_zip : forall s I names rows i, length rows = length names -> i = (- Z.of_nat (length names) - 1)%Z ->
    insert_names i s I names (rows ++ [[]]) = zipapp (map (mk_names s I 2) (combine (zrange i (length names)) names) ++ [[]]) (rows ++ [@nil cell]).
  Proof.
    intros s I. induction names as [|n names IH]; intros [|r rows] i L E; try discriminate L; [reflexivity|].
    cbn [length] in *. injection L as L. cbn [insert_names app]. replace (i <? -1)%Z with true by (symmetry; apply Z.ltb_lt; lia).
    rewrite (IH rows (i + 1)%Z L) by lia. rewrite zrange_S. reflexivity.
  Qed.
  Lemma under_cons : forall tr (r : list cell) rows, 2 <= length rows -> under_columns tr (r :: rows) = let! rest := under_columns tr rows in Ok (r :: rest).
  Proof. intros tr r rows L. destruct rows as [|a [|b rows]]; cbn in L; [lia|lia|]. destruct r; reflexivity. Qed.
  Lemma zipapp_length : forall {A} (cs rows : list (list A)), length cs = length rows -> length (zipapp cs rows) = length rows.
  Proof. intros A cs rows L. unfold zipapp. rewrite map_length, combine_length. lia. Qed.
  Lemma under_zip : forall s I tr names rows i, length rows = length names -> names <> [] -> i = (- Z.of_nat (length names) - 1)%Z ->
    under_columns tr (insert_names i s I names (rows ++ [[]])) = Ok (zipapp (map (mk_names s I 1) (combine (zrange i (length names)) names) ++ [tr]) (rows ++ [@nil cell])).
  Proof.
    intros s I tr. induction names as [|n names IH]; intros [|r rows] i L N E; try discriminate L; [congruence|].
    cbn [length] in *. injection L as L. cbn [insert_names app]. replace (i <? -1)%Z with true by (symmetry; apply Z.ltb_lt; lia).
    destruct names as [|n' names].
    - destruct rows; [|discriminate L]. cbn in E. subst i. cbn. rewrite app_nil_r. reflexivity.
    - rewrite under_cons.
      2:{ rewrite (insert_names_zip s I (n' :: names) rows (i + 1)%Z L) by (cbn [length] in *; lia). rewrite zipapp_length; [rewrite app_length, L; cbn; lia|].
          rewrite !app_length, map_length, combine_length, zrange_length, L. cbn [length]. lia. }
      rewrite (IH rows (i + 1)%Z L) by (try discriminate; cbn [length] in *; lia). cbn [bind]. rewrite (zrange_S i). cbn [combine map app zipapp fst snd].
      unfold mk_names at 2. cbn [fst snd]. replace (i =? -2)%Z with false by (symmetry; apply Z.eqb_neq; cbn [length] in E; lia). reflexivity.
  Qed.
  Lemma corner_parts_length : forall f, WF f -> length (corner_parts f) = S (col_levels f).
  Proof.
    intros f W. unfold corner_parts. destruct (is_named (idx_names f)), (is_named (col_names f));
      try (cbn [length]; rewrite repeat_length; reflexivity);
      rewrite app_length, map_length; unfold col_cells; rewrite map_length, combine_length, zrange_length, (wf_cn f W); cbn; lia.
  Qed.
  Lemma corner_spec : forall f rows, WF f -> length rows = col_levels f -> corner f (rows ++ [[]]) = Ok (zipapp (corner_parts f) (rows ++ [[]])).
  Proof.
    intros f rows W L. unfold corner, corner_parts. fold (si f). fold (sj f). cbv zeta.
    assert (Z0 : (si f = - Z.of_nat (length (col_names f)) - 1)%Z) by (unfold si; rewrite (wf_cn f W); reflexivity).
    assert (M : forall last, map (fun c => [c]) (col_cells f last) = map (mk_names (sj f) (idx_levels f) last) (combine (zrange (si f) (length (col_names f))) (col_names f))).
    { intros last. unfold col_cells. rewrite map_map, (wf_cn f W). reflexivity. }
    assert (L' : length rows = length (col_names f)) by (rewrite (wf_cn f W); exact L).
    destruct (is_named (idx_names f)), (is_named (col_names f)); cbn [negb andb].
    - rewrite M. apply under_zip; [exact L'| |exact Z0]. intros E. pose proof (wf_cl f W). pose proof (wf_cn f W) as X. rewrite E in X. cbn in X. lia.
    - destruct rows as [|r rows]; [cbn in L; pose proof (wf_cl f W); lia|]. cbn [at_first app]. unfold zipapp. cbn [combine map fst snd]. f_equal. f_equal.
      fold (zipapp (repeat (@nil cell) (col_levels f)) (rows ++ [[]])). symmetry. apply zipapp_nils. rewrite app_length. cbn in *. lia.
    - rewrite M. f_equal. apply insert_names_zip; [exact L'|exact Z0].
    - destruct rows as [|r rows]; [cbn in L; pose proof (wf_cl f W); lia|]. cbn [at_first app]. unfold zipapp. cbn [combine map fst snd app]. f_equal. f_equal.
      fold (zipapp (repeat (@nil cell) (col_levels f)) (rows ++ [[]])). symmetry. apply zipapp_nils. rewrite app_length. cbn in *. lia.
  Qed.
  Lemma is_named_ok : forall names : list (option V), is_named names = true <-> Named names.
  Proof.
    intros names. unfold is_named, Named. rewrite existsb_exists. split.
    - intros ([v|] & I & E); [exists v; exact I|discriminate E].
    - intros (v & I). exists (Some v). split; [exact I|reflexivity].
  Qed.
  Lemma col_cells_nth : forall f last m c, WF f -> nth_error (col_cells f last) m = Some c ->
    m < col_levels f /\ exists n, nth_error (col_names f) m = Some n /\ c = name_cell f last (si f + Z.of_nat m, n)%Z.
  Proof.
    intros f last m c W E. unfold col_cells in E. rewrite nth_error_map in E. destruct (nth_error (combine _ _) m) as [q|] eqn:Eq; [|discriminate E]. injection E as <-.
    pose proof (nth_error_lt _ _ _ Eq) as L. rewrite combine_length, zrange_length, (wf_cn f W), Nat.min_id in L. split; [exact L|].
    rewrite nth_error_combine, (zrange_nth _ _ _ L) in Eq. destruct (nth_error (col_names f) m) as [n|]; [|discriminate Eq]. injection Eq as <-. exists n. split; reflexivity.
  Qed.
  Lemma col_cells_get : forall f last m, WF f -> m < col_levels f -> exists n, nth_error (col_names f) m = Some n /\
    nth_error (col_cells f last) m = Some (name_cell f last (si f + Z.of_nat m, n)%Z).
  Proof.
    intros f last m W L. destruct (nth_error (col_names f) m) as [n|] eqn:E; [|apply nth_error_None in E; rewrite (wf_cn f W) in E; lia]. exists n. split; [reflexivity|].
    unfold col_cells. rewrite nth_error_map, nth_error_combine, (zrange_nth _ _ _ L), E. reflexivity.
  Qed.
  Definition index_name_cell (f : frame) (i : Z) (span m : nat) (n : option V) : cell := mk_cell i (sj f + Z.of_nat m)%Z span 1 (name_content n) IndexName None.
  Lemma index_names_nth : forall f i span m c, WF f -> nth_error (index_names f i span) m = Some c ->
    m < idx_levels f /\ exists n, nth_error (idx_names f) m = Some n /\ c = index_name_cell f i span m n.
  Proof.
    intros f i span m c W E. unfold index_names in E. rewrite nth_error_map in E. destruct (nth_error (combine _ _) m) as [q|] eqn:Eq; [|discriminate E]. injection E as <-.
    pose proof (nth_error_lt _ _ _ Eq) as L. rewrite combine_length, zrange_length, (wf_in f W), Nat.min_id in L. split; [exact L|].
    rewrite nth_error_combine, (zrange_nth _ _ _ L) in Eq. destruct (nth_error (idx_names f) m) as [n|]; [|discriminate Eq]. injection Eq as <-. exists n. split; reflexivity.
  Qed.
  Lemma index_names_get : forall f i span m, WF f -> m < idx_levels f -> exists n, nth_error (idx_names f) m = Some n /\
    nth_error (index_names f i span) m = Some (index_name_cell f i span m n).
  Proof.
    intros f i span m W L. destruct (nth_error (idx_names f) m) as [n|] eqn:E; [|apply nth_error_None in E; rewrite (wf_in f W) in E; lia]. exists n. split; [reflexivity|].
    unfold index_names. rewrite nth_error_map, nth_error_combine, (zrange_nth _ _ _ L), E. reflexivity.
  Qed.
  Lemma covers_true : forall i j (c : cell), covers i j c = true <-> (ci c <= i < ci c + Z.of_nat (rspan c) /\ cj c <= j < cj c + Z.of_nat (cspan c))%Z.
  Proof. intros i j c. unfold covers. rewrite !andb_true_iff, !Z.leb_le, !Z.ltb_lt. lia. Qed.
  Lemma covers_false : forall i j (c : cell), ~ (ci c <= i < ci c + Z.of_nat (rspan c) /\ cj c <= j < cj c + Z.of_nat (cspan c))%Z -> covers i j c = false.
  Proof. intros i j c H. destruct (covers i j c) eqn:E; [apply covers_true in E; contradiction|reflexivity]. Qed.
  Definition corner_cells (f : frame) : list cell := concat (corner_parts f).
  Lemma corner_cells_eq : forall f, corner_cells f =
    match is_named (idx_names f), is_named (col_names f) with
    | false, false => [padding f]
    | false, true => col_cells f 2
    | true, true => col_cells f 1 ++ index_names f (-1) 1
    | true, false => index_names f (si f) (S (col_levels f))
    end.
  Proof.
    intros f. unfold corner_cells, corner_parts. destruct (is_named (idx_names f)), (is_named (col_names f)); cbn [concat].
    - rewrite concat_app, concat_single. cbn. rewrite app_nil_r. reflexivity.
    - rewrite concat_nils. apply app_nil_r.
    - rewrite concat_app, concat_single. cbn. apply app_nil_r.
    - rewrite concat_nils. reflexivity.
  Qed.
  Theorem corner_cover : forall f, WF f ->
    (forall i j, (i < si f \/ 0 <= i \/ j < sj f \/ 0 <= j)%Z -> filter (covers i j) (corner_cells f) = []) /\
    (forall k l, k <= col_levels f -> l < idx_levels f -> exists c, filter (covers (si f + Z.of_nat k) (sj f + Z.of_nat l)) (corner_cells f) = [c] /\ RightCorner f k l c).
  Proof.
    intros f W. pose proof (wf_cl f W) as HL. pose proof (wf_il f W) as HI.
    assert (Out1 : forall last i j, (last = 1 \/ last = 2) -> (i < si f \/ -2 + Z.of_nat last <= i \/ j < sj f \/ 0 <= j)%Z -> filter (covers i j) (col_cells f last) = []).
    { intros last i j Hl H. apply filter_none. intros c I. apply In_nth_error in I. destruct I as (m & Em). destruct (col_cells_nth f last m c W Em) as (Lm & n & _ & ->).
      apply covers_false. unfold name_cell, si, sj in *. cbn [ci cj rspan cspan fst].
      destruct (- Z.of_nat (col_levels f) - 1 + Z.of_nat m =? -2)%Z eqn:E2; [apply Z.eqb_eq in E2|apply Z.eqb_neq in E2]; lia. }
    assert (Out2 : forall i0 span i j, (i < i0 \/ i0 + Z.of_nat span <= i \/ j < sj f \/ 0 <= j)%Z -> filter (covers i j) (index_names f i0 span) = []).
    { intros i0 span i j H. apply filter_none. intros c I. apply In_nth_error in I. destruct I as (m & Em). destruct (index_names_nth f i0 span m c W Em) as (Lm & n & _ & ->).
      apply covers_false. unfold index_name_cell, sj in *. cbn [ci cj rspan cspan]. lia. }
    assert (In1 : forall last k l, (last = 1 \/ last = 2) -> k < col_levels f + (last - 1) -> l < idx_levels f ->
      exists n, nth_error (col_names f) (Nat.min k (col_levels f - 1)) = Some n /\
        filter (covers (si f + Z.of_nat k) (sj f + Z.of_nat l)) (col_cells f last) = [name_cell f last (si f + Z.of_nat (Nat.min k (col_levels f - 1)), n)%Z]).
    { intros last k l Hlast Hk Hl. destruct (col_cells_get f last (Nat.min k (col_levels f - 1)) W ltac:(lia)) as (n & En & Ec). exists n. split; [exact En|].
      apply (filter_single _ _ _ _ Ec).
      - apply covers_true. unfold name_cell, si, sj. cbn [ci cj rspan cspan fst].
        destruct (- Z.of_nat (col_levels f) - 1 + Z.of_nat (Nat.min k (col_levels f - 1)) =? -2)%Z eqn:E2; [apply Z.eqb_eq in E2|apply Z.eqb_neq in E2]; lia.
      - intros m y Em Nm. destruct (col_cells_nth f last m y W Em) as (Lm & n' & _ & ->). apply covers_false. unfold name_cell, si, sj. cbn [ci cj rspan cspan fst].
        destruct (- Z.of_nat (col_levels f) - 1 + Z.of_nat m =? -2)%Z eqn:E2; [apply Z.eqb_eq in E2|apply Z.eqb_neq in E2]; lia. }
    assert (In2 : forall i0 span i l, (i0 <= i < i0 + Z.of_nat span)%Z -> l < idx_levels f ->
      exists n, nth_error (idx_names f) l = Some n /\ filter (covers i (sj f + Z.of_nat l)) (index_names f i0 span) = [index_name_cell f i0 span l n]).
    { intros i0 span i l Hi Hl. destruct (index_names_get f i0 span l W Hl) as (n & En & Ec). exists n. split; [exact En|]. apply (filter_single _ _ _ _ Ec).
      - apply covers_true. unfold index_name_cell. cbn [ci cj rspan cspan]. lia.
      - intros m y Em Nm. destruct (index_names_nth f i0 span m y W Em) as (Lm & n' & _ & ->). apply covers_false. unfold index_name_cell. cbn [ci cj rspan cspan]. lia. }
    rewrite corner_cells_eq.
    assert (NI : is_named (idx_names f) = false -> ~ Named (idx_names f)) by (intros E X; apply is_named_ok in X; congruence).
    assert (NC : is_named (col_names f) = false -> ~ Named (col_names f)) by (intros E X; apply is_named_ok in X; congruence).
    assert (Es : (si f = - Z.of_nat (col_levels f) - 1)%Z) by reflexivity.
    destruct (is_named (idx_names f)) eqn:EI, (is_named (col_names f)) eqn:EC; split.
    - intros i j H. rewrite filter_app, Out1, Out2; [reflexivity|lia|left; reflexivity|cbn; lia].
    - intros k l Hk Hl. rewrite filter_app. apply is_named_ok in EI, EC. destruct (Nat.eq_dec k (col_levels f)) as [->|Nk].
      + rewrite Out1 by (first [left; reflexivity|cbn; lia]). destruct (In2 (-1)%Z 1 (si f + Z.of_nat (col_levels f))%Z l ltac:(lia) Hl) as (n & En & E). rewrite E.
        eexists. split; [reflexivity|]. split; [reflexivity|]. right. left. split; [exact EI|]. split; [left; reflexivity|]. exists n. split; [exact En|]. split; reflexivity.
      + rewrite Out2 by lia. destruct (In1 1 k l (or_introl eq_refl) ltac:(lia) Hl) as (n & En & E). rewrite E.
        eexists. split; [reflexivity|]. split; [reflexivity|]. left. split; [exact EC|]. split; [left; lia|]. exists n. split; [exact En|]. split; reflexivity.
    - intros i j H. apply Out2. lia.
    - intros k l Hk Hl. apply is_named_ok in EI. destruct (In2 (si f) (S (col_levels f)) (si f + Z.of_nat k)%Z l ltac:(lia) Hl) as (n & En & E). rewrite E.
      eexists. split; [reflexivity|]. split; [reflexivity|]. right. left. split; [exact EI|]. split; [right; apply NC; reflexivity|]. exists n. split; [exact En|]. split; reflexivity.
    - intros i j H. apply Out1; [right; reflexivity|cbn; lia].
    - intros k l Hk Hl. apply is_named_ok in EC. destruct (In1 2 k l (or_intror eq_refl) ltac:(lia) Hl) as (n & En & E). rewrite E.
      eexists. split; [reflexivity|]. split; [reflexivity|]. left. split; [exact EC|]. split; [right; apply NI; reflexivity|]. exists n. split; [exact En|]. split; reflexivity.
    - intros i j H. cbn [filter]. rewrite covers_false; [reflexivity|]. unfold padding. cbn [ci cj rspan cspan]. unfold sj in *. lia.
    - intros k l Hk Hl. cbn [filter]. rewrite (proj2 (covers_true _ _ _)).
      2:{ unfold padding. cbn [ci cj rspan cspan]. unfold sj. lia. }
      eexists. split; [reflexivity|]. split; [reflexivity|]. right. right. split; [apply NC; reflexivity|]. split; [apply NI; reflexivity|]. split; reflexivity.
  Qed.

  (** ** Order in rows *)
  Definition RowOk (i : Z) (row : list cell) : Prop := (forall c, In c row -> ci c = i) /\ StronglySorted (fun a b => (cj a < cj b)%Z) row.
  Lemma sorted_app : forall {A} (R : A -> A -> Prop) a b, StronglySorted R a -> StronglySorted R b -> (forall x y, In x a -> In y b -> R x y) -> StronglySorted R (a ++ b).
  Proof.
    intros A R. induction a as [|x a IH]; intros b Sa Sb H; [exact Sb|]. inversion Sa as [|? ? Sa' Fa]; subst. cbn. constructor.
    - apply IH; [exact Sa'|exact Sb|]. intros u v Iu Iv. apply H; [right; exact Iu|exact Iv].
    - apply Forall_app. split; [exact Fa|]. apply Forall_forall. intros v Iv. apply H; [left; reflexivity|exact Iv].
  Qed.
  Lemma sorted_map : forall {A B} (R : A -> A -> Prop) (S : B -> B -> Prop) (g : A -> B) l, (forall x y, R x y -> S (g x) (g y)) -> StronglySorted R l -> StronglySorted S (map g l).
  Proof.
    intros A B R S g l H X. induction X as [|x l X IH F]; cbn; constructor; [exact IH|]. apply Forall_forall. intros y I. apply in_map_iff in I. destruct I as (z & <- & I).
    apply H. rewrite Forall_forall in F. exact (F z I).
  Qed.
  Lemma placed_sorted : forall (col : list (option (th V))) k, StronglySorted (fun a b => fst a < fst b) (placed k col).
  Proof.
    induction col as [|x col IH]; intros k; [constructor|]. destruct x as [t|]; cbn [placed]; [|apply IH]. constructor; [apply IH|].
    apply Forall_forall. intros p I. apply placed_ge in I. cbn. lia.
  Qed.
  Lemma enum_sorted : forall {A} (l : list A) k, StronglySorted (fun a b => fst a < fst b) (combine (seq k (length l)) l).
  Proof.
    induction l as [|x l IH]; intros k; [constructor|]. cbn. constructor; [apply IH|]. apply Forall_forall. intros [m y] I. apply in_combine_l in I. apply in_seq in I. cbn. lia.
  Qed.
  Lemma zrange_sorted : forall {A} n a (l : list A), StronglySorted (fun x y => (fst x < fst y)%Z) (combine (zrange a n) l).
  Proof.
    intros A. induction n as [|n IH]; intros a l; [constructor|]. rewrite zrange_S. destruct l as [|x l]; [constructor|]. cbn. constructor; [apply IH|].
    apply Forall_forall. intros [m y] I. apply in_combine_l in I. unfold zrange in I. apply in_map_iff in I. destruct I as (k & <- & _). cbn. lia.
  Qed.

  (** ** The body *)
  Lemma index_cells_placed : forall i s row, @index_cells V D i s row =
    map (fun p => mk_cell i (s + Z.of_nat (fst p))%Z (th_span (snd p)) 1 (Label (th_value (snd p))) IndexValue None) (placed 0 row).
  Proof. intros i s row. unfold index_cells. apply (enum_placed (fun k t => mk_cell i (s + Z.of_nat k)%Z (th_span t) 1 (Label (th_value t)) IndexValue None)). Qed.
  Lemma placed_at : forall (row : list (option (th V))) l k, filter (fun p => fst p =? k + l) (placed k row) = match nth_error row l with Some (Some t) => [(k + l, t)] | _ => [] end.
  Proof.
    induction row as [|x row IH]; intros [|l] k; try reflexivity.
    - rewrite Nat.add_0_r. assert (H : forall m, filter (fun p : nat * th V => fst p =? k) (placed (S (k + m)) row) = []).
      { intros m. apply filter_none. intros p I. apply placed_ge in I. apply Nat.eqb_neq. lia. }
      specialize (H 0). rewrite Nat.add_0_r in H. destruct x as [t|]; cbn [placed filter nth_error fst]; [rewrite Nat.eqb_refl, H; reflexivity|exact H].
    - replace (k + S l) with (S k + l) by lia. destruct x as [t|]; cbn [placed filter nth_error fst]; [|apply IH].
      replace (k =? S k + l) with false by (symmetry; apply Nat.eqb_neq; lia). apply IH.
  Qed.
  Lemma filter_and : forall {A} (P Q : A -> bool) l, filter (fun x => P x && Q x) l = filter Q (filter P l).
  Proof. induction l as [|x l IH]; [reflexivity|]. cbn. destruct (P x); cbn; rewrite IH; reflexivity. Qed.
  Lemma index_row_filter : forall start s row p q l, filter (covers (start + Z.of_nat q) (s + Z.of_nat l)) (@index_cells V D (start + Z.of_nat p) s row) =
    match nth_error row l with
    | Some (Some t) => if at_q q (p, t) then [mk_cell (start + Z.of_nat p)%Z (s + Z.of_nat l)%Z (th_span t) 1 (Label (th_value t)) IndexValue None] else []
    | _ => [] end.
  Proof.
    intros start s row p q l. rewrite index_cells_placed, filter_map_comm.
    rewrite (filter_ext' _ (fun x => (fst x =? 0 + l) && at_q q (p, snd x))).
    - rewrite filter_and, placed_at. destruct (nth_error row l) as [[t|]|]; try reflexivity. cbn [filter snd]. destruct (at_q q (p, t)); reflexivity.
    - intros x. unfold covers, at_q. cbn [ci cj rspan cspan fst snd]. apply Bool.eq_true_iff_eq. rewrite !andb_true_iff, Nat.eqb_eq, !Z.leb_le, !Z.ltb_lt, Nat.leb_le, Nat.ltb_lt. lia.
  Qed.
  Lemma index_filter : forall start s q l (ths : list (list (option (th V)))) (ds : list (list D)) col k, Column ths l col -> length ds = length ths ->
    flat_map (fun x => filter (covers (start + Z.of_nat q) (s + Z.of_nat l)) (index_cells (start + Z.of_nat (fst x)) s (fst (snd x)))) (combine (seq k (length ths)) (combine ths ds)) =
    map (fun p => @mk_cell V D (start + Z.of_nat (fst p))%Z (s + Z.of_nat l)%Z (th_span (snd p)) 1 (Label (th_value (snd p))) IndexValue None) (filter (at_q q) (placed k col)).
  Proof.
    intros start s q l ths ds col k C. revert ds k. induction C as [|row x ths col E C IH]; intros [|d ds] k L; try discriminate L; [reflexivity|].
    injection L as L. cbn [length seq combine flat_map fst snd]. rewrite (IH ds (S k) L), index_row_filter, E.
    destruct x as [t|]; cbn [placed filter]; [|reflexivity]. destruct (at_q q (k, t)); reflexivity.
  Qed.
  Lemma data_cells_nth : forall i (row : list D) m c, nth_error (@data_cells V D i row) m = Some c <->
    exists d, nth_error row m = Some d /\ c = mk_cell i (Z.of_nat m) 1 1 (Datum d) Data (Some m).
  Proof.
    intros i row m c. unfold data_cells. rewrite nth_error_map, nth_error_combine.
    destruct (nth_error row m) as [d|] eqn:E.
    - rewrite (nth_error_seq (length row) 0 m (nth_error_lt _ _ _ E)). cbn. split.
      + intros X. injection X as <-. exists d. split; reflexivity.
      + intros (d' & X & ->). injection X as <-. reflexivity.
    - split; [destruct (nth_error (seq 0 (length row)) m); discriminate|]. intros (d & X & _). discriminate X.
  Qed.
  Lemma data_out : forall i0 (row : list D) i j, (i <> i0 \/ j < 0 \/ Z.of_nat (length row) <= j)%Z -> filter (covers i j) (@data_cells V D i0 row) = [].
  Proof.
    intros i0 row i j H. apply filter_none. intros c I. apply In_nth_error in I. destruct I as (m & Em). apply data_cells_nth in Em. destruct Em as (d & Ed & ->).
    apply nth_error_lt in Ed. apply covers_false. cbn [ci cj rspan cspan]. lia.
  Qed.
  Lemma data_in : forall i (row : list D) m d, nth_error row m = Some d -> filter (covers i (Z.of_nat m)) (@data_cells V D i row) = [mk_cell i (Z.of_nat m) 1 1 (Datum d) Data (Some m)].
  Proof.
    intros i row m d E. assert (Em : nth_error (@data_cells V D i row) m = Some (mk_cell i (Z.of_nat m) 1 1 (Datum d) Data (Some m))) by (apply data_cells_nth; exists d; split; [exact E|reflexivity]).
    apply (filter_single _ _ _ _ Em); [apply covers_true; cbn [ci cj rspan cspan]; lia|].
    intros k y Ek N. apply data_cells_nth in Ek. destruct Ek as (d' & _ & ->). apply covers_false. cbn [ci cj rspan cspan]. lia.
  Qed.
  Definition ncols (f : frame) : nat := length (col_items f).
  Theorem body_cover : forall f start rows, WF f -> col_items f <> [] -> Forall (fun x => length (fst x) = idx_levels f /\ length (snd x) = ncols f) rows ->
    exists r, body_rows eqv f start rows = Ok r /\ length r = length rows /\
      (forall p row, nth_error r p = Some row -> RowOk (start + Z.of_nat p) row) /\
      (forall i j, (i < start \/ start + Z.of_nat (length rows) <= i \/ j < sj f \/ Z.of_nat (ncols f) <= j)%Z -> filter (covers i j) (concat r) = []) /\
      (forall q x l, nth_error rows q = Some x -> l < idx_levels f + ncols f -> exists c, filter (covers (start + Z.of_nat q) (sj f + Z.of_nat l)) (concat r) = [c] /\
         if l <? idx_levels f then exists v w, nth_error (fst x) l = Some w /\ shows c = Label v /\ Alike eqv v w /\ crole c = IndexValue /\ column c = None /\ cspan c = 1
         else exists d, nth_error (snd x) (l - idx_levels f) = Some d /\ shows c = Datum d /\ column c = Some (l - idx_levels f) /\ crole c = Data /\ rspan c = 1 /\ cspan c = 1).
  Proof using sym trans.
    intros f start rows W N F. set (I := idx_levels f) in *. pose proof (wf_il f W) as HI. fold I in HI.
    assert (Fi : Forall (fun it => length it = I) (map fst rows)).
    { apply Forall_forall. intros it X. apply in_map_iff in X. destruct X as (x & <- & X). rewrite Forall_forall in F. exact (proj1 (F x X)). }
    destruct (vertical_spec eqv I HI sym trans (map fst rows) Fi) as (ths & Ev & Lr & Fr & Ti & _ & _). rewrite map_length in Lr.
    unfold body_rows. fold I. rewrite Ev. cbn [bind]. replace (length (col_items f) =? 0) with false by (destruct (col_items f); [congruence|reflexivity]). cbv zeta iota.
    eexists. split; [reflexivity|]. set (enum := combine (seq 0 (length rows)) (combine ths (map snd rows))).
    assert (Len : length enum = length rows) by (unfold enum; rewrite !combine_length, seq_length, map_length; lia).
    assert (Nth : forall p y, nth_error enum p = Some y -> exists th x, y = (p, (th, snd x)) /\ nth_error ths p = Some th /\ nth_error rows p = Some x /\ length th = I /\ length (snd x) = ncols f).
    { intros p y E. pose proof (nth_error_lt _ _ _ E) as Lp. rewrite Len in Lp. unfold enum in E. rewrite !nth_error_combine, (nth_error_seq (length rows) 0 p Lp), nth_error_map in E.
      destruct (nth_error ths p) as [th|] eqn:Et; [|discriminate E]. destruct (nth_error rows p) as [x|] eqn:Ex; [|discriminate E]. cbn in E. injection E as <-.
      exists th, x. split; [reflexivity|]. split; [reflexivity|]. split; [reflexivity|]. rewrite Forall_forall in Fr, F. split; [apply Fr; exact (nth_error_In _ _ Et)|apply F; exact (nth_error_In _ _ Ex)]. }
    split; [rewrite map_length; exact Len|].
    set (mk := fun q : nat * (list (option (th V)) * list D) => index_cells (start + Z.of_nat (fst q)) (- Z.of_nat I) (fst (snd q)) ++ data_cells (start + Z.of_nat (fst q)) (snd (snd q))).
    split; [|split].
    - intros p row E. rewrite nth_error_map in E. destruct (nth_error enum p) as [y|] eqn:Ey; [|discriminate E]. injection E as <-.
      destruct (Nth p y Ey) as (th & x & -> & _ & _ & Lt & _). unfold mk. cbn [fst snd]. rewrite index_cells_placed. split.
      + intros c X. apply in_app_or in X. destruct X as [X|X]; [apply in_map_iff in X; destruct X as (z & <- & _); reflexivity|].
        apply In_nth_error in X. destruct X as (m & Em). apply data_cells_nth in Em. destruct Em as (d & _ & ->). reflexivity.
      + apply sorted_app.
        * apply (sorted_map (fun a b => fst a < fst b)); [cbn; intros; lia|apply placed_sorted].
        * unfold data_cells. apply (sorted_map (fun a b => fst a < fst b)); [cbn; intros; lia|apply enum_sorted].
        * intros c c' X X'. apply in_map_iff in X. destruct X as (z & <- & X). apply placed_ge in X. apply In_nth_error in X'. destruct X' as (m & Em). apply data_cells_nth in Em.
          destruct Em as (d & _ & ->). cbn [cj]. lia.
    - intros i j H. rewrite filter_concat. apply flat_map_none. intros row X. apply in_map_iff in X. destruct X as (y & <- & X). apply In_nth_error in X. destruct X as (p & Ep).
      destruct (Nth p y Ep) as (th & x & -> & Et & Ex & Lt & Lx). unfold mk. cbn [fst snd]. rewrite filter_app.
      pose proof (nth_error_lt _ _ _ Ex) as Lp.
      rewrite data_out by (unfold sj in H; fold I in H; lia). rewrite app_nil_r.
      destruct (Z_lt_dec j (sj f)) as [Hj|Hj].
      { rewrite index_cells_placed, filter_map_comm, filter_none; [reflexivity|]. intros z Z0. apply covers_false. cbn [ci cj rspan cspan]. unfold sj in Hj. fold I in Hj. lia. }
      destruct (Z_lt_dec i start) as [Hi|Hi].
      { rewrite index_cells_placed, filter_map_comm, filter_none; [reflexivity|]. intros z Z0. apply covers_false. cbn [ci cj rspan cspan]. lia. }
      destruct (Z_le_dec (Z.of_nat (ncols f)) j) as [Hj2|Hj2].
      { rewrite index_cells_placed, filter_map_comm, filter_none; [reflexivity|]. intros z Z0. apply placed_ge in Z0. apply covers_false. cbn [ci cj rspan cspan]. lia. }
      set (q := Z.to_nat (i - start)). replace i with (start + Z.of_nat q)%Z by lia.
      set (l := Z.to_nat (j - sj f)). assert (Esj : sj f = (- Z.of_nat I)%Z) by reflexivity. replace j with (- Z.of_nat I + Z.of_nat l)%Z by lia.
      rewrite index_row_filter. destruct (nth_error th l) as [[t|]|] eqn:El; try reflexivity.
      pose proof (nth_error_lt _ _ _ El) as Ll. rewrite Lt in Ll.
      destruct (column_exists ths l I Fr Ll) as (col & C).
      destruct (tiled_cover eqv (map fst rows) ths l col q (Ti l Ll) C) as [T _]. rewrite map_length in T. specialize (T ltac:(lia)).
      destruct (at_q q (p, t)) eqn:Ea; [|reflexivity]. exfalso.
      assert (X : In (p, t) (filter (at_q q) (placed 0 col))).
      { apply filter_In. split; [|exact Ea]. apply (placed_in col 0 p t). apply (proj1 (Column_entry ths l col p _ C)). exists th. split; assumption. }
      rewrite T in X. destruct X.
    - intros q x l Ex Hl. pose proof (nth_error_lt _ _ _ Ex) as Lq. rewrite filter_concat. unfold sj. fold I.
      rewrite flat_map_concat_map, map_map, <- flat_map_concat_map.
      assert (Split : forall y, In y enum -> filter (covers (start + Z.of_nat q) (- Z.of_nat I + Z.of_nat l)) (mk y) =
                filter (covers (start + Z.of_nat q) (- Z.of_nat I + Z.of_nat l)) (index_cells (start + Z.of_nat (fst y)) (- Z.of_nat I) (fst (snd y))) ++
                filter (covers (start + Z.of_nat q) (- Z.of_nat I + Z.of_nat l)) (data_cells (start + Z.of_nat (fst y)) (snd (snd y)))) by (intros y _; unfold mk; apply filter_app).
      destruct (l <? I) eqn:El.
      + apply Nat.ltb_lt in El.
        assert (E : flat_map (fun y => filter (covers (start + Z.of_nat q) (- Z.of_nat I + Z.of_nat l)) (mk y)) enum =
                    flat_map (fun y => filter (covers (start + Z.of_nat q) (- Z.of_nat I + Z.of_nat l)) (index_cells (start + Z.of_nat (fst y)) (- Z.of_nat I) (fst (snd y)))) enum).
        { rewrite !flat_map_concat_map. f_equal. apply map_ext_in. intros y Y. rewrite (Split y Y), data_out by lia. apply app_nil_r. }
        rewrite E. destruct (column_exists ths l I Fr El) as (col & C). unfold enum. rewrite <- Lr.
        rewrite (index_filter start (- Z.of_nat I) q l ths (map snd rows) col 0 C) by (rewrite map_length; lia).
        destruct (tiled_cover eqv (map fst rows) ths l col q (Ti l El) C) as [_ T]. rewrite map_length in T. destruct (T Lq) as (p & t & w & Ep & Ew & A).
        rewrite Ep. cbn [map fst snd]. eexists. split; [reflexivity|]. exists (th_value t), w. cbn [shows crole column cspan].
        split; [|split; [reflexivity|split; [exact A|split; [reflexivity|split; reflexivity]]]].
        destruct Ew as (it & E1 & E2). rewrite nth_error_map, Ex in E1. injection E1 as <-. exact E2.
      + apply Nat.ltb_ge in El.
        assert (Hd : exists th, nth_error enum q = Some (q, (th, snd x))).
        { destruct (nth_error enum q) as [y|] eqn:Ey; [|apply nth_error_None in Ey; lia]. destruct (Nth q y Ey) as (th & x' & -> & _ & Ex' & _). exists th. congruence. }
        destruct Hd as (th & Eq). destruct (Nth q _ Eq) as (th' & x' & Ey & Eth & Ex' & Lth & Lx). injection Ey as <- Ed'. rewrite <- Ed' in Lx.
        rewrite (flat_map_single _ enum q _ Eq).
        2:{ intros p y Ey Np. rewrite (Split y (nth_error_In _ _ Ey)). destruct (Nth p y Ey) as (th2 & x2 & -> & _ & _ & Lt2 & _). cbn [fst snd].
            rewrite index_row_filter. rewrite (proj2 (nth_error_None th2 l)) by lia. cbn [app]. apply data_out. lia. }
        rewrite (Split _ (nth_error_In _ _ Eq)). cbn [fst snd]. rewrite index_row_filter, (proj2 (nth_error_None th l)) by lia. cbn [app].
        destruct (nth_error (snd x) (l - I)) as [d|] eqn:Ed; [|apply nth_error_None in Ed; lia].
        replace (- Z.of_nat I + Z.of_nat l)%Z with (Z.of_nat (l - I)) by lia. rewrite (data_in _ _ _ d Ed). eexists. split; [reflexivity|]. exists d.
        split; [reflexivity|]. cbn. repeat split.
  Qed.

  (** ** The whole table *)
  Lemma corner_row_ok : forall f k row, WF f -> nth_error (corner_parts f) k = Some row -> RowOk (si f + Z.of_nat k) row /\ forall c, In c row -> (cj c < 0)%Z.
  Proof.
    intros f k row W E. pose proof (wf_il f W) as HI.
    assert (Names : forall i span, RowOk i (index_names f i span) /\ forall c, In c (index_names f i span) -> (cj c < 0)%Z).
    { intros i span. split; [split|].
      - intros c X. apply In_nth_error in X. destruct X as (m & Em). destruct (index_names_nth f i span m c W Em) as (_ & n & _ & ->). reflexivity.
      - unfold index_names. apply (sorted_map (fun a b => (fst a < fst b)%Z)); [cbn; intros; assumption|apply zrange_sorted].
      - intros c X. apply In_nth_error in X. destruct X as (m & Em). destruct (index_names_nth f i span m c W Em) as (Lm & n & _ & ->). cbn. unfold sj. lia. }
    assert (One : forall i (c : cell), ci c = i -> (cj c < 0)%Z -> RowOk i [c] /\ forall c', In c' [c] -> (cj c' < 0)%Z).
    { intros i c E1 E2. split; [split; [intros c' [<-|[]]; exact E1|constructor; constructor]|intros c' [<-|[]]; exact E2]. }
    assert (Nil : forall i, RowOk i [] /\ forall c, In c [] -> (@cj V D c < 0)%Z) by (intros i; split; [split; [intros c []|constructor]|intros c []]).
    assert (Nils : forall m r, nth_error (repeat (@nil cell) (col_levels f)) m = Some r -> r = []) by (intros m r X; apply nth_error_In, repeat_spec in X; exact X).
    assert (Cols : forall last tr i, nth_error (map (fun c => [c]) (col_cells f last) ++ [tr]) k = Some row -> i = (si f + Z.of_nat (col_levels f))%Z ->
                   (RowOk i tr /\ forall c, In c tr -> (cj c < 0)%Z) -> RowOk (si f + Z.of_nat k) row /\ forall c, In c row -> (cj c < 0)%Z).
    { intros last tr i X Ei H. assert (Lc : length (map (fun c => [c]) (col_cells f last)) = col_levels f) by (unfold col_cells; rewrite !map_length, combine_length, zrange_length, (wf_cn f W); lia).
      destruct (lt_dec k (col_levels f)) as [Lk|Lk].
      - rewrite nth_error_app1, nth_error_map in X by lia. destruct (nth_error (col_cells f last) k) as [c|] eqn:Ec; [|discriminate X]. injection X as <-.
        destruct (col_cells_nth f last k c W Ec) as (_ & n & _ & ->). apply One; [reflexivity|]. cbn. unfold sj. lia.
      - rewrite nth_error_app2, Lc in X by lia. destruct (k - col_levels f) as [|m] eqn:Ek; [|destruct m; discriminate X]. injection X as <-. replace k with (col_levels f) by lia. rewrite <- Ei. exact H. }
    unfold corner_parts in E. destruct (is_named (idx_names f)), (is_named (col_names f)).
    - apply (Cols 1 (index_names f (-1) 1) (-1)%Z E); [unfold si; lia|apply Names].
    - destruct k as [|k]; cbn in E; [injection E as <-; rewrite Z.add_0_r; apply Names|]. apply Nils in E. subst row. apply Nil.
    - apply (Cols 2 [] _ E eq_refl). apply Nil.
    - destruct k as [|k]; cbn in E; [injection E as <-|apply Nils in E; subst row; apply Nil]. apply One; [cbn; lia|]. cbn. unfold sj. lia.
  Qed.
  Lemma head_rows_ok : forall f ths k row, WF f -> length ths = col_levels f -> nth_error (zipapp (corner_parts f) (levels f ths ++ [[]])) k = Some row -> RowOk (si f + Z.of_nat k) row.
  Proof.
    intros f ths k row W Lt E. unfold zipapp in E. rewrite nth_error_map, nth_error_combine in E.
    destruct (nth_error (corner_parts f) k) as [a|] eqn:Ea; [|discriminate E]. destruct (nth_error (levels f ths ++ [[]]) k) as [b|] eqn:Eb; [|discriminate E]. injection E as <-. cbn [fst snd].
    destruct (corner_row_ok f k a W Ea) as ([A1 A2] & A3).
    assert (B : RowOk (si f + Z.of_nat k) b /\ forall c, In c b -> (0 <= cj c)%Z).
    { destruct (lt_dec k (col_levels f)) as [Lk|Lk].
      - rewrite nth_error_app1 in Eb by (rewrite levels_length; assumption). destruct (levels_nth f ths k Lt Lk) as (col & _ & El). rewrite El in Eb. injection Eb as <-. rewrite head_row_placed. split; [split|].
        + intros c X. apply in_map_iff in X. destruct X as (p & <- & _). reflexivity.
        + apply (sorted_map (fun a b => fst a < fst b)); [cbn; intros; lia|apply placed_sorted].
        + intros c X. apply in_map_iff in X. destruct X as (p & <- & _). cbn. lia.
      - rewrite nth_error_app2 in Eb by (rewrite levels_length by exact Lt; lia). destruct (k - length (levels f ths)) as [|m]; [|destruct m; discriminate Eb]. injection Eb as <-.
        split; [split; [intros c []|constructor]|intros c []]. }
    destruct B as ([B1 B2] & B3). split.
    - intros c X. apply in_app_or in X. destruct X as [X|X]; [exact (A1 c X)|exact (B1 c X)].
    - apply sorted_app; [exact A2|exact B2|]. intros x y X Y. specialize (A3 x X). specialize (B3 y Y). lia.
  Qed.
  (** what the rows of slices are *)
  Lemma slices_eq : forall {A} (rows : list A) top bottom, df_slices rows (Z.of_nat top) (Z.of_nat bottom) =
    if length rows <=? top + bottom then [PRows rows 0%Z]
    else PRows (firstn top rows) 0%Z :: PEllipsis :: if bottom =? 0 then [] else [PRows (skipn (length rows - bottom) rows) (Z.of_nat top)].
  Proof.
    intros A rows top bottom. unfold df_slices, pick_slice_sizes. destruct (Nat.leb_spec (length rows) (top + bottom)) as [H|H].
    - replace (Z.of_nat (length rows) <=? Z.of_nat top + Z.of_nat bottom)%Z with true by (symmetry; apply Z.leb_le; lia). cbn. do 2 f_equal.
      unfold slice_to, py_index. replace (Z.of_nat (length rows) <? 0)%Z with false by (symmetry; apply Z.ltb_ge; lia). apply firstn_all2. lia.
    - replace (Z.of_nat (length rows) <=? Z.of_nat top + Z.of_nat bottom)%Z with false by (symmetry; apply Z.leb_gt; lia). cbn [app]. f_equal.
      + f_equal. unfold slice_to, py_index. replace (Z.of_nat top <? 0)%Z with false by (symmetry; apply Z.ltb_ge; lia). f_equal. lia.
      + f_equal. destruct bottom as [|b]; [reflexivity|]. replace (Z.of_nat (S b) =? 0)%Z with false by (symmetry; apply Z.eqb_neq; lia). cbn [Nat.eqb]. do 2 f_equal.
        unfold slice_from, py_index. replace (- Z.of_nat (S b) <? 0)%Z with true by (symmetry; apply Z.ltb_lt; lia). f_equal. lia.
  Qed.
  Lemma shown_length : forall n top bottom, length (Shown n top bottom) = if n <=? top + bottom then n else top + bottom.
  Proof. intros n top bottom. unfold Shown. destruct (n <=? top + bottom); [apply seq_length|]. rewrite app_length, !seq_length. reflexivity. Qed.
  Lemma nth_firstn : forall {A} (l : list A) n k, k < n -> nth_error (firstn n l) k = nth_error l k.
  Proof. intros A l n. revert l. induction n as [|n IH]; intros [|x l] [|k] H; try lia; try reflexivity. cbn. apply IH. lia. Qed.
  Lemma nth_skipn : forall {A} (l : list A) n k, nth_error (skipn n l) k = nth_error l (n + k).
  Proof. intros A l n. revert l. induction n as [|n IH]; intros [|x l] k; try reflexivity; [destruct k; reflexivity|]. cbn. apply IH. Qed.
  (** slices with their rows: the body as one list of rows *)
  Theorem body_parts_cover : forall (f : frame) top bottom, WF f -> col_items f <> [] -> let sh := Shown (length (data f)) top bottom in
    exists body, mapM (body_part eqv f) (df_slices (combine (idx_items f) (data f)) (Z.of_nat top) (Z.of_nat bottom)) = Ok body /\
      let r := flat_map part_rows body in length r = length sh /\
      (forall p row, nth_error r p = Some row -> RowOk (Z.of_nat p) row) /\
      (forall i j, (i < 0 \/ Z.of_nat (length sh) <= i \/ j < sj f \/ Z.of_nat (ncols f) <= j)%Z -> filter (covers i j) (concat r) = []) /\
      (forall q x l, nth_error sh q = Some x -> l < idx_levels f + ncols f -> exists c, filter (covers (Z.of_nat q) (sj f + Z.of_nat l)) (concat r) = [c] /\
         if l <? idx_levels f then RightIndex eqv f x l c else RightData f x (l - idx_levels f) c).
  Proof using sym trans.
    intros f top bottom W N sh. set (rows := combine (idx_items f) (data f)).
    assert (Lrows : length rows = length (data f)) by (unfold rows; rewrite combine_length, (wf_n f W); lia).
    assert (Fx : forall x, In x rows -> length (fst x) = idx_levels f /\ length (snd x) = ncols f).
    { intros [a b] X. pose proof (in_combine_l _ _ _ _ X) as Xa. pose proof (in_combine_r _ _ _ _ X) as Xb. pose proof (wf_ii f W) as A. pose proof (wf_d f W) as B.
      rewrite Forall_forall in A, B. split; [exact (A a Xa)|exact (B b Xb)]. }
    assert (Fst : Forall (fun x => length (fst x) = idx_levels f /\ length (snd x) = ncols f) (firstn top rows)).
    { apply Forall_forall. intros x X. apply Fx. rewrite <- (firstn_skipn top rows). apply in_or_app. left. exact X. }
    assert (Skp : forall k, Forall (fun x => length (fst x) = idx_levels f /\ length (snd x) = ncols f) (skipn k rows)).
    { intros k. apply Forall_forall. intros x X. apply Fx. rewrite <- (firstn_skipn k rows). apply in_or_app. right. exact X. }
    assert (Tr : forall x y l c, nth_error rows x = Some y ->
      (if l <? idx_levels f then exists v w, nth_error (fst y) l = Some w /\ shows c = Label v /\ Alike eqv v w /\ crole c = IndexValue /\ column c = None /\ cspan c = 1
       else exists d, nth_error (snd y) (l - idx_levels f) = Some d /\ shows c = Datum d /\ column c = Some (l - idx_levels f) /\ crole c = Data /\ rspan c = 1 /\ cspan c = 1) ->
      if l <? idx_levels f then RightIndex eqv f x l c else RightData f x (l - idx_levels f) c).
    { intros x y l c E H. unfold rows in E. rewrite nth_error_combine in E. destruct (nth_error (idx_items f) x) as [a|] eqn:Ea; [|discriminate E].
      destruct (nth_error (data f) x) as [b|] eqn:Eb; [|discriminate E]. injection E as <-. cbn [fst snd] in H. destruct (l <? idx_levels f).
      - destruct H as (v & w & Hw & H). exists v, w. split; [exists a; split; assumption|exact H].
      - destruct H as (d & Hd & H). exists d. split; [exists b; split; assumption|exact H]. }
    rewrite slices_eq. unfold sh. pose proof (shown_length (length (data f)) top bottom) as SL. unfold Shown in *. rewrite <- Lrows in *. destruct (length rows <=? top + bottom) eqn:EN.
    - destruct (body_cover f 0%Z rows W N (Skp 0)) as (r & Er & Lr & R1 & R2 & R3). cbn [mapM body_part]. rewrite Er. cbn [bind]. eexists. split; [reflexivity|]. cbv zeta. cbn [flat_map part_rows]. rewrite app_nil_r.
      rewrite seq_length. split; [exact Lr|]. split; [intros p row E; specialize (R1 p row E); exact R1|]. split; [intros i j H; apply R2; lia|].
      intros q x l Ex Hl. pose proof (nth_error_lt _ _ _ Ex) as Lq. rewrite seq_length in Lq. rewrite (nth_error_seq _ 0 q Lq) in Ex. injection Ex as <-.
      destruct (nth_error rows q) as [y|] eqn:Ey; [|apply nth_error_None in Ey; lia]. destruct (R3 q y l Ey Hl) as (c & Ec & Hc). exists c. split; [exact Ec|]. exact (Tr q y l c Ey Hc).
    - apply Nat.leb_gt in EN.
      destruct (body_cover f 0%Z (firstn top rows) W N Fst) as (r & Er & Lr & R1 & R2 & R3). rewrite firstn_length in Lr. replace (Nat.min top (length rows)) with top in Lr by lia.
      destruct (body_cover f (Z.of_nat top) (skipn (length rows - bottom) rows) W N (Skp _)) as (r' & Er' & Lr' & R1' & R2' & R3'). rewrite skipn_length in Lr'. replace (length rows - (length rows - bottom)) with bottom in Lr' by lia.
      assert (Hb : exists body, mapM (body_part eqv f) (PRows (firstn top rows) 0%Z :: PEllipsis :: (if bottom =? 0 then [] else [PRows (skipn (length rows - bottom) rows) (Z.of_nat top)])) = Ok body /\ flat_map part_rows body = r ++ r').
      { destruct (bottom =? 0) eqn:Eb.
        - apply Nat.eqb_eq in Eb. cbn [mapM body_part]. rewrite Er. cbn [bind]. eexists. split; [reflexivity|]. cbn [flat_map part_rows]. destruct r'; [reflexivity|cbn in Lr'; lia].
        - cbn [mapM body_part]. rewrite Er, Er'. cbn [bind]. eexists. split; [reflexivity|]. cbn [flat_map part_rows app]. rewrite app_nil_r. reflexivity. }
      destruct Hb as (body & Eb & Fb). exists body. split; [exact Eb|]. cbv zeta. rewrite Fb. rewrite !app_length, !seq_length, Lr, Lr'. rewrite app_length, !seq_length in SL. split; [reflexivity|].
      rewrite firstn_length in R2. replace (Nat.min top (length rows)) with top in R2 by lia. rewrite skipn_length in R2'. replace (length rows - (length rows - bottom)) with bottom in R2' by lia.
      split; [|split].
      + intros p row E. destruct (lt_dec p top) as [Lp|Lp].
        * rewrite nth_error_app1 in E by lia. specialize (R1 p row E). exact R1.
        * rewrite nth_error_app2 in E by lia. specialize (R1' _ row E). rewrite Lr in R1'. replace (Z.of_nat top + Z.of_nat (p - top))%Z with (Z.of_nat p) in R1' by lia. exact R1'.
      + intros i j H. rewrite concat_app, filter_app, R2, R2'; [reflexivity|lia|lia].
      + intros q x l Ex Hl. rewrite concat_app, filter_app. destruct (lt_dec q top) as [Lq|Lq].
        * rewrite nth_error_app1, (nth_error_seq _ 0 q Lq) in Ex by (rewrite seq_length; lia). injection Ex as <-.
          destruct (nth_error rows q) as [y|] eqn:Ey; [|apply nth_error_None in Ey; lia].
          destruct (R3 q y l ltac:(rewrite nth_firstn by exact Lq; exact Ey) Hl) as (c & Ec & Hc). rewrite Z.add_0_l in Ec. exists c. rewrite Ec, R2' by lia. split; [reflexivity|]. exact (Tr q y l c Ey Hc).
        * pose proof (nth_error_lt _ _ _ Ex) as Lq'. rewrite app_length, !seq_length in Lq'. rewrite nth_error_app2 in Ex by (rewrite seq_length; lia). rewrite seq_length, nth_error_seq in Ex by lia. injection Ex as <-.
          destruct (nth_error rows (length rows - bottom + (q - top))) as [y|] eqn:Ey; [|apply nth_error_None in Ey; lia].
          destruct (R3' (q - top) y l ltac:(rewrite nth_skipn; exact Ey) Hl) as (c & Ec & Hc). replace (Z.of_nat top + Z.of_nat (q - top))%Z with (Z.of_nat q) in Ec by lia.
          exists c. rewrite Ec, R2 by lia. split; [reflexivity|]. exact (Tr _ y l c Ey Hc).
  Qed.
  Theorem grid_ok : forall (f : frame) top bottom, WF f -> col_items f <> [] -> let sh := Shown (length (data f)) top bottom in
    exists t, make_table eqv f (Z.of_nat top) (Z.of_nat bottom) = Ok t /\
      start_i t = (- Z.of_nat (col_levels f) - 1)%Z /\ stop_i t = Z.of_nat (length sh) /\ start_j t = (- Z.of_nat (idx_levels f))%Z /\ stop_j t = Z.of_nat (length (col_items f)) /\
      (forall k l, k < S (col_levels f) + length sh -> l < idx_levels f + length (col_items f) ->
         exists c, filter (covers (start_i t + Z.of_nat k) (start_j t + Z.of_nat l)) (cells t) = [c] /\ Right eqv f sh k l c) /\
      (forall i j, ~ (start_i t <= i < stop_i t /\ start_j t <= j < stop_j t)%Z -> filter (covers i j) (cells t) = []) /\
      length (trs t) = S (col_levels f) + length sh /\
      (forall k row, nth_error (trs t) k = Some row -> (forall c, In c row -> ci c = (start_i t + Z.of_nat k)%Z) /\ StronglySorted (fun a b => (cj a < cj b)%Z) row).
  Proof using sym trans.
    intros f top bottom W N sh. destruct (head_cover f W N) as (ths & Eh & Lt & H1 & H2). destruct (corner_cover f W) as (C1 & C2).
    destruct (body_parts_cover f top bottom W N) as (body & Eb & Lr & B1 & B2 & B3). fold sh in Lr, B2, B3. set (r := flat_map part_rows body) in *.
    pose proof (corner_spec f (levels f ths) W (levels_length f ths Lt)) as Ec.
    assert (Eth : table_head eqv f = Ok (zipapp (corner_parts f) (levels f ths ++ [[]]))) by (unfold table_head; rewrite Eh; cbn [bind]; exact Ec).
    unfold make_table. cbv zeta. rewrite Eth. cbn [bind]. rewrite Eb. cbn [bind]. eexists. split; [reflexivity|]. cbn [start_i start_j stop_i stop_j]. fold (si f). fold (sj f).
    split; [reflexivity|]. split.
    { rewrite combine_length, (wf_n f W), Nat.min_id. unfold sh. rewrite shown_length. unfold pick_slice_sizes.
      destruct (Nat.leb_spec (length (data f)) (top + bottom)) as [H|H].
      - replace (Z.of_nat (length (data f)) <=? Z.of_nat top + Z.of_nat bottom)%Z with true by (symmetry; apply Z.leb_le; lia). cbn. lia.
      - replace (Z.of_nat (length (data f)) <=? Z.of_nat top + Z.of_nat bottom)%Z with false by (symmetry; apply Z.leb_gt; lia). cbn. lia. }
    split; [reflexivity|]. split; [reflexivity|].
    unfold cells, trs. cbn [parts flat_map part_rows]. fold r. set (head := zipapp (corner_parts f) (levels f ths ++ [[]])) in *.
    assert (P : Permutation (concat head) (corner_cells f ++ concat (levels f ths))).
    { unfold head, corner_cells. eapply perm_trans; [apply zipapp_perm; rewrite corner_parts_length, app_length, levels_length by assumption; cbn; lia|].
      rewrite concat_app. cbn. rewrite app_nil_r. apply Permutation_refl. }
    assert (PN : forall i j, filter (covers i j) (corner_cells f) = [] -> filter (covers i j) (concat (levels f ths)) = [] -> filter (covers i j) (concat head) = []).
    { intros i j A B. pose proof (perm_filter (covers i j) _ _ P) as X. rewrite filter_app, A, B in X. apply Permutation_sym, Permutation_nil in X. exact X. }
    assert (P1 : forall i j c, filter (covers i j) (corner_cells f) ++ filter (covers i j) (concat (levels f ths)) = [c] -> filter (covers i j) (concat head) = [c]).
    { intros i j c A. pose proof (perm_filter (covers i j) _ _ P) as X. rewrite filter_app, A in X. apply Permutation_sym, Permutation_length_1_inv in X. exact X. }
    assert (Lh : length head = S (col_levels f)) by (unfold head; rewrite zipapp_length; [rewrite app_length, levels_length by exact Lt; cbn; lia|rewrite corner_parts_length, app_length, levels_length by assumption; cbn; lia]).
    assert (Es : (si f = - Z.of_nat (col_levels f) - 1)%Z) by reflexivity. assert (Esj : (sj f = - Z.of_nat (idx_levels f))%Z) by reflexivity. unfold ncols in *.
    split; [|split; [|split]].
    - intros k l Hk Hl. rewrite concat_app, filter_app. unfold Right. destruct (Nat.leb_spec k (col_levels f)) as [Lk|Lk].
      + rewrite B2 by lia. rewrite app_nil_r. destruct (Nat.ltb_spec l (idx_levels f)) as [Ll|Ll].
        * destruct (C2 k l Lk Ll) as (c & E & Hc). exists c. split; [|exact Hc]. apply P1. rewrite E, H1 by lia. reflexivity.
        * destruct (H2 k (l - idx_levels f) Lk ltac:(lia)) as (c & E & Hc). exists c. split; [|exact Hc]. apply P1. replace (Z.of_nat (l - idx_levels f)) with (sj f + Z.of_nat l)%Z in E by lia. rewrite E, C1 by lia. reflexivity.
      + rewrite PN by (first [apply C1; lia|apply H1; lia]). cbn [app].
        destruct (nth_error sh (k - S (col_levels f))) as [x|] eqn:Ex; [|apply nth_error_None in Ex; lia].
        destruct (B3 _ x l Ex Hl) as (c & E & Hc). exists c. replace (si f + Z.of_nat k)%Z with (Z.of_nat (k - S (col_levels f))) by lia. split; [exact E|]. intros r0 Er0. injection Er0 as <-. exact Hc.
    - intros i j H. rewrite concat_app, filter_app. rewrite combine_length, (wf_n f W), Nat.min_id in H.
      replace (fst (fst (pick_slice_sizes (length (data f)) (Z.of_nat top) (Z.of_nat bottom))) + snd (fst (pick_slice_sizes (length (data f)) (Z.of_nat top) (Z.of_nat bottom))))%Z with (Z.of_nat (length sh)) in H.
      2:{ unfold sh. rewrite shown_length. unfold pick_slice_sizes. destruct (Nat.leb_spec (length (data f)) (top + bottom)) as [X|X].
          - replace (Z.of_nat (length (data f)) <=? Z.of_nat top + Z.of_nat bottom)%Z with true by (symmetry; apply Z.leb_le; lia). cbn. lia.
          - replace (Z.of_nat (length (data f)) <=? Z.of_nat top + Z.of_nat bottom)%Z with false by (symmetry; apply Z.leb_gt; lia). cbn. lia. }
      assert (A : filter (covers i j) (concat head) = []).
      { destruct (Z_lt_dec i (si f)) as [A|A]; [apply PN; [apply C1|apply H1]; lia|]. destruct (Z_le_dec 0 i) as [A'|A']; [apply PN; [apply C1|apply H1]; lia|].
        apply PN; [apply C1|apply H1]; lia. }
      rewrite A. cbn [app]. apply B2. lia.
    - rewrite app_length. lia.
    - intros k row E. destruct (lt_dec k (S (col_levels f))) as [Lk|Lk].
      + rewrite nth_error_app1 in E by lia. exact (head_rows_ok f ths k row W Lt E).
      + rewrite nth_error_app2 in E by lia. apply B1 in E. rewrite Lh in E. replace (si f + Z.of_nat k)%Z with (Z.of_nat (k - S (col_levels f))) by lia. exact E.
  Qed.

  (** ** Dataframes without columns *)
  Theorem no_columns : forall (f : frame) top bottom, WF f -> col_items f = [] ->
    ((Named (col_names f) /\ Named (idx_names f)) -> make_table eqv f (Z.of_nat top) (Z.of_nat bottom) = Err IndexError) /\
    (~ (Named (col_names f) /\ Named (idx_names f)) -> exists t, make_table eqv f (Z.of_nat top) (Z.of_nat bottom) = Ok t).
  Proof using sym trans.
    intros f top bottom W E. unfold make_table. cbv zeta. unfold table_head. rewrite E.
    assert (Hh : horizontal_headers eqv (col_levels f) [] = Ok []) by reflexivity. rewrite Hh. cbn [bind].
    assert (Hr : head_rows f [] = [[]]) by (unfold head_rows; destruct (zrange (- Z.of_nat (col_levels f) - 1) (col_levels f)); reflexivity). rewrite Hr. unfold corner. cbv zeta.
    assert (Body : forall start rows, Forall (fun x => length (fst x) = idx_levels f) rows -> exists r, body_rows eqv f start rows = Ok r).
    { intros start rows F. unfold body_rows. destruct (vertical_spec eqv (idx_levels f) (wf_il f W) sym trans (map fst rows)) as (ths & -> & _).
      - apply Forall_forall. intros it X. apply in_map_iff in X. destruct X as (x & <- & X). rewrite Forall_forall in F. exact (F x X).
      - cbn [bind]. eexists. reflexivity. }
    assert (Bodies : exists body, mapM (body_part eqv f) (df_slices (combine (idx_items f) (data f)) (Z.of_nat top) (Z.of_nat bottom)) = Ok body).
    { set (rows := combine (idx_items f) (data f)). assert (F : forall x, In x rows -> length (fst x) = idx_levels f).
      { intros [a b] X. apply in_combine_l in X. pose proof (wf_ii f W) as A. rewrite Forall_forall in A. exact (A a X). }
      rewrite slices_eq. destruct (length rows <=? top + bottom).
      - cbn [mapM body_part]. destruct (Body 0%Z rows) as (r & ->); [apply Forall_forall; exact F|]. eexists. reflexivity.
      - destruct (Body 0%Z (firstn top rows)) as (r & Er); [apply Forall_forall; intros x X; apply F; rewrite <- (firstn_skipn top rows); apply in_or_app; left; exact X|].
        destruct (Body (Z.of_nat top) (skipn (length rows - bottom) rows)) as (r' & Er'); [apply Forall_forall; intros x X; apply F; rewrite <- (firstn_skipn (length rows - bottom) rows); apply in_or_app; right; exact X|].
        cbn [mapM body_part]. rewrite Er. cbn [bind]. destruct (bottom =? 0); cbn [mapM body_part]; [eexists; reflexivity|]. rewrite Er'. cbn [bind]. eexists. reflexivity. }
    destruct Bodies as (body & Eb). rewrite Eb.
    pose proof (is_named_ok (idx_names f)) as NI. pose proof (is_named_ok (col_names f)) as NC.
    destruct (is_named (idx_names f)), (is_named (col_names f)); cbn [negb andb]; split; intros H.
    - destruct (col_names f) as [|n names] eqn:En; [pose proof (wf_cn f W) as X; pose proof (wf_cl f W); rewrite En in X; cbn in X; lia|]. cbn [insert_names].
      destruct (- Z.of_nat (col_levels f) - 1 <? -1)%Z; [destruct names|]; reflexivity.
    - destruct H. split; [apply NC|apply NI]; reflexivity.
    - destruct H as [X _]. apply NC in X. discriminate X.
    - cbn [at_first bind]. eexists. reflexivity.
    - destruct H as [_ X]. apply NI in X. discriminate X.
    - cbn [bind]. eexists. reflexivity.
    - destruct H as [X _]. apply NC in X. discriminate X.
    - cbn [at_first bind]. eexists. reflexivity.
  Qed.

  (** ** polars *)
  Definition RightPolars (names : list V) (rows : list (list D)) (sh : list nat) (k j : nat) (c : cell) : Prop :=
    rspan c = 1 /\ cspan c = 1 /\ column c = Some j /\
    match k with
    | 0 => exists v, nth_error names j = Some v /\ shows c = Label v /\ crole c = ColumnHead
    | S q => exists r d, nth_error sh q = Some r /\ Entry rows r j d /\ shows c = Datum d /\ crole c = Data
    end.
  Definition polars_rows (start : Z) (rs : list (list D)) : list (list cell) := map (fun q => data_cells (start + Z.of_nat (fst q)) (snd q)) (combine (seq 0 (length rs)) rs).
  Lemma polars_rows_nth : forall start rs p row, nth_error (polars_rows start rs) p = Some row <-> exists r, nth_error rs p = Some r /\ row = data_cells (start + Z.of_nat p) r.
  Proof.
    intros start rs p row. unfold polars_rows. rewrite nth_error_map, nth_error_combine. destruct (nth_error rs p) as [r|] eqn:E.
    - rewrite (nth_error_seq _ 0 p (nth_error_lt _ _ _ E)). cbn. split; [intros X; injection X as <-; exists r; split; reflexivity|]. intros (r' & X & ->). injection X as <-. reflexivity.
    - split; [destruct (nth_error (seq 0 (length rs)) p); discriminate|]. intros (r & X & _). discriminate X.
  Qed.
  Lemma polars_rows_length : forall start rs, length (polars_rows start rs) = length rs.
  Proof. intros start rs. unfold polars_rows. rewrite map_length, combine_length, seq_length. apply Nat.min_id. Qed.
  Lemma list_ext : forall {A} (l l' : list A), (forall p, nth_error l p = nth_error l' p) -> l = l'.
  Proof.
    induction l as [|x l IH]; intros [|y l'] H; [reflexivity|specialize (H 0); discriminate H|specialize (H 0); discriminate H|].
    f_equal; [specialize (H 0); injection H as ->; reflexivity|]. apply IH. intros p. exact (H (S p)).
  Qed.
  Lemma polars_rows_app : forall start a b, polars_rows start (a ++ b) = polars_rows start a ++ polars_rows (start + Z.of_nat (length a)) b.
  Proof.
    intros start a b. apply list_ext. intros p. destruct (lt_dec p (length a)) as [L|L].
    - rewrite nth_error_app1 by (rewrite polars_rows_length; exact L). destruct (nth_error (polars_rows start a) p) as [row|] eqn:E.
      + apply polars_rows_nth in E. destruct E as (r & Er & ->). apply polars_rows_nth. exists r. split; [rewrite nth_error_app1 by exact L; exact Er|reflexivity].
      + apply nth_error_None in E. rewrite polars_rows_length in E. lia.
    - rewrite nth_error_app2 by (rewrite polars_rows_length; lia). rewrite polars_rows_length. destruct (nth_error (polars_rows (start + Z.of_nat (length a)) b) (p - length a)) as [row|] eqn:E.
      + apply polars_rows_nth in E. destruct E as (r & Er & ->). apply polars_rows_nth. exists r. split; [rewrite nth_error_app2 by lia; exact Er|]. f_equal. lia.
      + apply nth_error_None. apply nth_error_None in E. rewrite polars_rows_length, app_length in *. lia.
  Qed.

  Definition picked (rows : list (list D)) (top bottom : nat) : list (list D) :=
    if length rows <=? top + bottom then rows else firstn top rows ++ skipn (length rows - bottom) rows.
  Lemma picked_nth : forall rows top bottom q, nth_error (picked rows top bottom) q =
    match nth_error (Shown (length rows) top bottom) q with Some r => nth_error rows r | None => None end.
  Proof.
    intros rows top bottom q. unfold picked, Shown. destruct (Nat.leb_spec (length rows) (top + bottom)) as [H|H].
    - destruct (lt_dec q (length rows)) as [L|L]; [rewrite (nth_error_seq _ 0 q L); reflexivity|].
      rewrite (proj2 (nth_error_None _ _)) by lia. rewrite (proj2 (nth_error_None (seq 0 _) _)) by (rewrite seq_length; lia). reflexivity.
    - destruct (lt_dec q top) as [L|L].
      + rewrite nth_error_app1 by (rewrite firstn_length; lia). rewrite nth_firstn by exact L. rewrite nth_error_app1 by (rewrite seq_length; exact L). rewrite (nth_error_seq _ 0 q L). reflexivity.
      + rewrite nth_error_app2 by (rewrite firstn_length; lia). rewrite firstn_length, nth_skipn, nth_error_app2 by (rewrite seq_length; lia). rewrite seq_length.
        replace (Nat.min top (length rows)) with top by lia. destruct (lt_dec (q - top) bottom) as [L2|L2]; [rewrite (nth_error_seq _ _ _ L2); reflexivity|].
        rewrite (proj2 (nth_error_None (seq _ _) _)) by (rewrite seq_length; lia). apply nth_error_None. lia.
  Qed.
  Lemma picked_length : forall rows top bottom, length (picked rows top bottom) = length (Shown (length rows) top bottom).
  Proof.
    intros rows top bottom. rewrite shown_length. unfold picked. destruct (Nat.leb_spec (length rows) (top + bottom)) as [H|H]; [reflexivity|].
    rewrite app_length, firstn_length, skipn_length. lia.
  Qed.
  Theorem polars_ok : forall (names : list V) (rows : list (list D)) top bottom, Forall (fun r => length r = length names) rows ->
    let sh := Shown (length rows) top bottom in
    let t := make_table_polars names rows (Z.of_nat top) (Z.of_nat bottom) in
    start_i t = (-1)%Z /\ stop_i t = Z.of_nat (length sh) /\ start_j t = 0%Z /\ stop_j t = Z.of_nat (length names) /\
    (forall k j, k < S (length sh) -> j < length names -> exists c, filter (covers (start_i t + Z.of_nat k) (Z.of_nat j)) (cells t) = [c] /\ RightPolars names rows sh k j c) /\
    (forall i j, ~ (start_i t <= i < stop_i t /\ start_j t <= j < stop_j t)%Z -> filter (covers i j) (cells t) = []) /\
    length (trs t) = S (length sh) /\
    (forall k row, nth_error (trs t) k = Some row -> (forall c, In c row -> ci c = (start_i t + Z.of_nat k)%Z) /\ StronglySorted (fun a b => (cj a < cj b)%Z) row).
  Proof.
    intros names rows top bottom F sh t.
    set (head := map (fun q => mk_cell (-1)%Z (Z.of_nat (fst q)) 1 1 (Label (snd q)) ColumnHead (Some (fst q))) (combine (seq 0 (length names)) names) : list cell).
    assert (Et : trs t = head :: polars_rows 0 (picked rows top bottom)).
    { unfold t, make_table_polars, trs. cbv zeta. cbn [parts flat_map part_rows app]. fold head. f_equal. rewrite slices_eq. unfold picked.
      destruct (Nat.leb_spec (length rows) (top + bottom)) as [H|H]; [cbn; apply app_nil_r|].
      rewrite polars_rows_app, firstn_length. replace (Nat.min top (length rows)) with top by lia. cbn [map flat_map part_rows app]. fold (polars_rows 0 (firstn top rows)). f_equal.
      destruct bottom as [|b]; [rewrite Nat.sub_0_r, skipn_all; reflexivity|]. cbn [Nat.eqb map flat_map part_rows]. rewrite app_nil_r. reflexivity. }
    assert (Es : stop_i t = Z.of_nat (length sh)).
    { unfold t, make_table_polars. cbv zeta. cbn [stop_i]. unfold sh. rewrite shown_length. unfold pick_slice_sizes. destruct (Nat.leb_spec (length rows) (top + bottom)) as [X|X].
      - replace (Z.of_nat (length rows) <=? Z.of_nat top + Z.of_nat bottom)%Z with true by (symmetry; apply Z.leb_le; lia). cbn. lia.
      - replace (Z.of_nat (length rows) <=? Z.of_nat top + Z.of_nat bottom)%Z with false by (symmetry; apply Z.leb_gt; lia). cbn. lia. }
    split; [reflexivity|]. split; [exact Es|]. split; [reflexivity|]. split; [reflexivity|]. rewrite Es. change (start_i t) with (-1)%Z. change (start_j t) with 0%Z. change (stop_j t) with (Z.of_nat (length names)).
    unfold cells. rewrite Et. cbn [concat].
    assert (Hn : forall m c, nth_error head m = Some c <-> exists v, nth_error names m = Some v /\ c = mk_cell (-1)%Z (Z.of_nat m) 1 1 (Label v) ColumnHead (Some m)).
    { intros m c. unfold head. rewrite nth_error_map, nth_error_combine. destruct (nth_error names m) as [v|] eqn:E.
      - rewrite (nth_error_seq _ 0 m (nth_error_lt _ _ _ E)). cbn. split; [intros X; injection X as <-; exists v; split; reflexivity|]. intros (v' & X & ->). injection X as <-. reflexivity.
      - split; [destruct (nth_error (seq 0 (length names)) m); discriminate|]. intros (v & X & _). discriminate X. }
    assert (Hout : forall i j, (i <> -1 \/ j < 0 \/ Z.of_nat (length names) <= j)%Z -> filter (covers i j) head = []).
    { intros i j H. apply filter_none. intros c X. apply In_nth_error in X. destruct X as (m & Em). apply Hn in Em. destruct Em as (v & Ev & ->). apply nth_error_lt in Ev. apply covers_false. cbn [ci cj rspan cspan]. lia. }
    assert (Wd : forall p r, nth_error (picked rows top bottom) p = Some r -> length r = length names).
    { intros p r E. rewrite picked_nth in E. destruct (nth_error (Shown (length rows) top bottom) p) as [x|]; [|discriminate E]. rewrite Forall_forall in F. apply F. exact (nth_error_In _ _ E). }
    assert (Bout : forall i j, (i < 0 \/ Z.of_nat (length sh) <= i \/ j < 0 \/ Z.of_nat (length names) <= j)%Z -> filter (covers i j) (concat (polars_rows 0 (picked rows top bottom))) = []).
    { intros i j H. rewrite filter_concat. apply flat_map_none. intros row X. apply In_nth_error in X. destruct X as (p & Ep). apply polars_rows_nth in Ep. destruct Ep as (r & Er & ->).
      pose proof (nth_error_lt _ _ _ Er) as Lp. rewrite picked_length in Lp. fold sh in Lp. apply data_out. rewrite (Wd p r Er). lia. }
    split; [|split; [|split]].
    - intros k j Hk Hj. rewrite filter_app. destruct k as [|q].
      + rewrite Bout by lia. rewrite app_nil_r. destruct (nth_error names j) as [v|] eqn:Ev; [|apply nth_error_None in Ev; lia].
        assert (Em : nth_error head j = Some (mk_cell (-1)%Z (Z.of_nat j) 1 1 (Label v) ColumnHead (Some j))) by (apply Hn; exists v; split; [exact Ev|reflexivity]).
        eexists. split; [apply (filter_single _ _ _ _ Em)|].
        * apply covers_true. cbn [ci cj rspan cspan]. lia.
        * intros m y Ey Nm. apply Hn in Ey. destruct Ey as (v' & _ & ->). apply covers_false. cbn [ci cj rspan cspan]. lia.
        * split; [reflexivity|]. split; [reflexivity|]. split; [reflexivity|]. exists v. split; [exact Ev|]. split; reflexivity.
      + rewrite Hout by lia. cbn [app]. destruct (nth_error (picked rows top bottom) q) as [r|] eqn:Er; [|apply nth_error_None in Er; rewrite picked_length in Er; fold sh in Er; lia].
        rewrite filter_concat. assert (Eq : nth_error (polars_rows 0 (picked rows top bottom)) q = Some (data_cells (0 + Z.of_nat q) r)) by (apply polars_rows_nth; exists r; split; [exact Er|reflexivity]).
        rewrite (flat_map_single _ _ q _ Eq).
        2:{ intros p row Ep Np. apply polars_rows_nth in Ep. destruct Ep as (r' & _ & ->). apply data_out. lia. }
        replace (-1 + Z.of_nat (S q))%Z with (0 + Z.of_nat q)%Z by lia.
        destruct (nth_error r j) as [d|] eqn:Ed; [|apply nth_error_None in Ed; rewrite (Wd q r Er) in Ed; lia]. rewrite (data_in _ _ _ d Ed). eexists. split; [reflexivity|].
        split; [reflexivity|]. split; [reflexivity|]. split; [reflexivity|]. rewrite picked_nth in Er. fold sh in Er. destruct (nth_error sh q) as [x|]; [|discriminate Er].
        exists x, d. split; [reflexivity|]. split; [exists r; split; assumption|]. split; reflexivity.
    - intros i j H. rewrite filter_app, Hout, Bout; [reflexivity|lia|lia].
    - cbn [length]. rewrite polars_rows_length, picked_length. reflexivity.
    - intros [|k] row E; cbn in E.
      + injection E as <-. split.
        * intros c X. apply In_nth_error in X. destruct X as (m & Em). apply Hn in Em. destruct Em as (v & _ & ->). reflexivity.
        * unfold head. apply (sorted_map (fun a b => fst a < fst b)); [cbn; intros; lia|apply enum_sorted].
      + apply polars_rows_nth in E. destruct E as (r & _ & ->). split.
        * intros c X. apply In_nth_error in X. destruct X as (m & Em). apply data_cells_nth in Em. destruct Em as (d & _ & ->). cbn [ci]. lia.
        * unfold data_cells. apply (sorted_map (fun a b => fst a < fst b)); [cbn; intros; lia|apply enum_sorted].
  Qed.
End Grid.
