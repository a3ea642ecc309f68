(** C53, C54, C65, C66, C67: GapEncoder. *)
From Coq Require Import QArith Qabs Permutation.
From Verif Require Import Base L_dict M_names M_str M_lru L_minhash M_gap L_gap L_gap2 L_gap3 L_gap4.
Open Scope string_scope.
Open Scope list_scope.
Open Scope nat_scope.

Section Statements.
  (** numbers, vectorizers, random generators *)
  Variable N : arith.
  Context {Z R : Type}.
  Variable vec_fit : bool -> bool -> list string -> res Z.
  Variable vec_counts : Z -> string -> list (nat * num N).
  Variable vec_width : Z -> nat.
  Variable vec_names : Z -> list string.
  Variable draw_w : @gcfg N R -> Z -> option Z -> R -> list (list (nat * num N)) -> list (option string) -> res (list (list (num N)) * R).
  Variable divergence : list (list (nat * num N)) -> list (list (num N)) -> list (list (num N)) -> num N.
  Variable words_of : list string -> res (list string).
  Variable chars_of : list string -> res (list string).
  Variable argsort : list (num N) -> list nat.
  Notation transform := (transform N vec_counts vec_width words_of chars_of argsort).
  Notation get_feature_names_out := (get_feature_names_out N vec_counts vec_width words_of chars_of argsort).
  Notation partial_fit := (partial_fit N vec_fit vec_counts vec_width vec_names draw_w).
  Notation score := (score N vec_counts vec_width divergence).
  Notation gstate := (@gstate N Z R).
  Notation gcfg := (@gcfg N R).

  (** C53: transforming, even when it fails, changes no attribute. *)
  Theorem C53_unchanged : forall (c : gcfg) (st : gstate) X, 0 < batch_size N c -> fst (transform c st X) = st.
  Proof. exact (transform_unchanged N vec_counts vec_width words_of chars_of argsort). Qed.

  (** C53: two rows with the same text have the same encoding, in columns, batches and encoders that may differ, if the encoders have the same
      topics and vectorizers and remember the same of this text. *)
  Theorem C53_rowwise : forall (c : gcfg) b (st1 st2 : gstate) X1 X2 st1' st2' f1 f2 i j v1 v2,
    NamesOk words_of chars_of -> SortOk argsort -> 0 < batch_size N c -> 0 < b ->
    ngrams_count_ N st1 = ngrams_count_ N st2 -> word_count_ N st1 = word_count_ N st2 -> W_ N st1 = W_ N st2 ->
    transform c st1 X1 = (st1', Ok f1) -> transform (with_batch b c) st2 X2 = (st2', Ok f2) ->
    nth_error (values X1) i = Some v1 -> nth_error (values X2) j = Some v2 -> as_text v1 = as_text v2 ->
    remembered st1 (as_text v1) = remembered st2 (as_text v2) ->
    row_of f1 i = row_of f2 j.
  Proof.
    intros c b st1 st2 X1 X2 st1' st2' f1 f2 i j v1 v2 Hn Hs.
    exact (transform_rowwise N vec_counts vec_width words_of chars_of argsort Hn Hs c b st1 st2 X1 X2 st1' st2' f1 f2 i j v1 v2).
  Qed.

  (** C53: after any calls of [transform] and [score], the encodings are the same; after calls of [transform] everything is. *)
  Theorem C53_history : forall (c : gcfg) ops (st : gstate) X st1 f1 st2 f2 i, NamesOk words_of chars_of -> SortOk argsort -> 0 < batch_size N c ->
    transform c st X = (st1, Ok f1) ->
    transform c (fold_left (call_state N vec_counts vec_width divergence words_of chars_of argsort c) ops st) X = (st2, Ok f2) ->
    row_of f1 i = row_of f2 i.
  Proof.
    intros c ops st X st1 f1 st2 f2 i Hn Hs.
    exact (calls_rows N vec_counts vec_width divergence words_of chars_of argsort Hn Hs c ops st X st1 f1 st2 f2 i).
  Qed.
  Theorem C53_transforms : forall (c : gcfg) ops (st : gstate), 0 < batch_size N c -> (forall o, In o ops -> exists X, o = Transform X) ->
    fold_left (call_state N vec_counts vec_width divergence words_of chars_of argsort c) ops st = st.
  Proof. exact (transforms_unchanged N vec_counts vec_width divergence words_of chars_of argsort). Qed.

  (** C65: the output has one column per component, with distinct names that are those advertised, and one value per row. *)
  Theorem C65_frame : forall (c : gcfg) (st : gstate) X st' f, NamesOk words_of chars_of -> SortOk argsort -> 0 < batch_size N c ->
    transform c st X = (st', Ok f) ->
    NoDup (column_names f) /\ length f = n_components N c /\ (forall col, In col (column_data f) -> length col = length (values X)) /\
    get_feature_names_out c st 3 = (st, Ok (column_names f)).
  Proof.
    intros c st X st' f Hn Hs. exact (transform_shape N vec_counts vec_width words_of chars_of argsort Hn Hs c st X st' f).
  Qed.

  (** C66: [score] changes neither the topics nor the encodings. *)
  Theorem C66_values : forall (c : gcfg) (st : gstate) X, 0 < batch_size N c ->
    W_ N (fst (score c st X)) = W_ N st /\
    forall Y, snd (transform_ N vec_counts vec_width c (fst (score c st X)) Y) = snd (transform_ N vec_counts vec_width c st Y).
  Proof.
    intros c st X B. destruct (score_extends N vec_counts vec_width divergence c st X B) as (_ & _ & E & F). split; [symmetry; exact E|exact F].
  Qed.

  (** C67: fitting forgets: whatever the encoder was before, the outputs are those of a new encoder fitted on the same column. *)
  Theorem C67_fit_forgets : forall (c : gcfg) (st : gstate) X st',
    (forall c z z2 z2' r V X, add_words N c = false -> draw_w c z z2 r V X = draw_w c z z2' r V X) ->
    M_gap.fit N vec_fit vec_counts vec_width vec_names draw_w divergence c st X = Ok st' ->
    exists new : gstate, M_gap.fit N vec_fit vec_counts vec_width vec_names draw_w divergence c (g_new N) X = Ok new /\
      (forall Y, snd (transform c st' Y) = snd (transform c new Y)) /\
      (forall n, snd (get_feature_names_out c st' n) = snd (get_feature_names_out c new n)) /\
      (hashing N c = false -> vocabulary N st' = vocabulary N new).
  Proof.
    intros c st X st' D.
    exact (refit_outputs N vec_fit vec_counts vec_width vec_names draw_w divergence words_of chars_of argsort D c st (g_new N) X st').
  Qed.

  (** C54, without hashing: after partial fits, the texts that are remembered are those of all the batches. *)
  Theorem C54_known : forall (c : gcfg) bs (ss : list gstate), hashing N c = false -> Successive (partial_fit c) (g_new N) bs ss ->
    forall x, remembered (last ss (g_new N)) x <> None <-> exists X, In X bs /\ In x (texts X).
  Proof.
    intros c bs ss H Su x.
    pose proof (successive_known N vec_fit vec_counts vec_width vec_names draw_w c bs (g_new N) ss (new_sane N vec_counts vec_width c) (fun _ _ => eq_refl) H Su x) as K.
    unfold Known in K. rewrite K. split; [intros [A|A]; [exfalso; apply A; reflexivity|exact A]|right; assumption].
  Qed.

  (** C54, with hashing: each partial fit starts from scratch. *)
  Theorem C54_hashing_forgets : forall (c : gcfg) bs (ss : list gstate) X st, hashing N c = true -> Successive (partial_fit c) (g_new N) bs ss ->
    partial_fit c (last ss (g_new N)) X = Ok st ->
    (exists st', partial_fit c (only_generator N (last ss (g_new N))) X = Ok st' /\ same_results N st st') /\
    forall x, remembered st x <> None <-> In x (texts X).
  Proof.
    intros c bs ss X st H Su E. split.
    - exact (hashing_forgets N vec_fit vec_counts vec_width vec_names draw_w c bs ss X st H Su E).
    - exact (hashing_known N vec_fit vec_counts vec_width vec_names draw_w c bs ss X st H Su E).
  Qed.
End Statements.

(** C54, without hashing, in exact arithmetic: the topics are the quotients of sums over all the batches, weighted by [rho] to the power of their age. *)
Theorem C54_statistics : forall pow_ tiny_ tol_ (Z R : Type) vec_fit vec_counts vec_width vec_names draw_w
  (c : @gcfg (Qarith pow_ tiny_ tol_) R) X bs (s1 : @gstate (Qarith pow_ tiny_ tol_) Z R) ss,
  (forall c z z2 r V X W r', draw_w c z z2 r V X = Ok (W, r') -> length W = n_components (Qarith pow_ tiny_ tol_) c) ->
  hashing _ c = false -> rescale_W _ c = false -> rescale_rho _ c = false ->
  Successive (partial_fit _ vec_fit vec_counts vec_width vec_names draw_w c) (g_new _) (X :: bs) (s1 :: ss) ->
  exists W0 w,
    (forall k j, k < n_components _ c -> j < w ->
      (cell (A_ _ (last ss s1)) k j == weighted (rho _ c) tiny_ (gainsA pow_ tiny_ tol_ vec_counts vec_width c W0 (s1 :: ss) (X :: bs) k j))%Q /\
      (cell (B_ _ (last ss s1)) k j == weighted (rho _ c) tiny_ (gainsB pow_ tiny_ tol_ (s1 :: ss) (X :: bs) k))%Q /\
      cell (W_ _ (last ss s1)) k j = (cell (A_ _ (last ss s1)) k j / cell (B_ _ (last ss s1)) k j)%Q) /\
    length W0 = n_components _ c /\
    exists z, vec_fit false false (fst (unique_strings (values X))) = Ok z /\
      if add_words _ c then exists z2, vec_fit false true (fst (unique_strings (values X))) = Ok z2 /\ w = vec_width z + vec_width z2 else w = vec_width z.
Proof.
  intros pow_ tiny_ tol_ Z R vec_fit vec_counts vec_width vec_names draw_w c X bs s1 ss D.
  exact (stats_new pow_ tiny_ tol_ vec_fit vec_counts vec_width vec_names draw_w D c X bs s1 ss).
Qed.

(** ** Examples *)
(** Fixed-point numbers with 3 decimals; features are characters; [W] is drawn without using the generator. *)
Definition unit_ : Z := 1000%Z.
Definition fixed : arith :=
  {| num := Z; add := Z.add; sub := Z.sub; mul := fun a b => (a * b / unit_)%Z; div := fun a b => (a * unit_ / b)%Z; leb := Z.leb;
     pow := fun a _ => a; absn := Z.abs; of_nat := fun n => (Z.of_nat n * unit_)%Z; tiny := 1%Z; tol := 1%Z |}.
Definition ex_fit (hash words : bool) (xs : list string) : res (list ascii) :=
  if hash then Ok ["a"; "b"; "c"; "d"]%char
  else match nodup ascii_dec (flat_map list_ascii_of_string xs) with [] => Err ValueError | l => Ok l end.
Definition ex_counts (N : arith) (z : list ascii) (x : string) : list (nat * num N) :=
  filter (fun e => negb (leb N (snd e) (zero N))) (combine (seq 0 (length z)) (map (fun a => of_nat N (count_occ ascii_dec (list_ascii_of_string x) a)) z)).
Definition ex_draw (N : arith) (c : @gcfg N nat) (z : list ascii) (z2 : option (list ascii)) (r : nat) (V : list (list (nat * num N))) (X : list (option string))
  : res (list (list (num N)) * nat) :=
  Ok (map (fun k => map (fun j => of_nat N (1 + (k + j) mod 2)) (seq 0 (length z))) (seq 0 (n_components N c)), r).
Definition ex_divergence (N : arith) (V : list (list (nat * num N))) (H W : list (list (num N))) : num N := zero N.
Definition ex_words (keys : list string) : res (list string) :=
  match filter (fun w => (2 <=? String.length w) && negb (mem "("%char (list_ascii_of_string w))) keys with [] => Err ValueError | l => Ok (np_unique l) end.
Definition ex_chars (keys : list string) : res (list string) :=
  match flat_map (fun k => map (fun a => String a "") (list_ascii_of_string k)) keys with [] => Err ValueError | l => Ok (np_unique l) end.
Fixpoint ex_insert (x : list Z) (i : nat) (l : list nat) : list nat :=
  match l with [] => [i] | j :: l' => if (nth j x 0 <=? nth i x 0)%Z then i :: l else j :: ex_insert x i l' end.
Definition ex_argsort (x : list Z) : list nat := fold_right (ex_insert x) [] (seq 0 (length x)).

Lemma ex_names_ok : NamesOk ex_words ex_chars.
Proof.
  split.
  - intros keys l E w I. unfold ex_words in E.
    assert (I' : In w (filter (fun w => (2 <=? String.length w) && negb (mem "("%char (list_ascii_of_string w))) keys)).
    { destruct (filter _ keys) as [|a f]; [discriminate|]. injection E as <-. apply (proj1 (np_unique_In _ _)). exact I. }
    apply filter_In in I'. destruct I' as [_ F]. apply andb_true_iff in F. destruct F as [_ F]. apply Bool.negb_true_iff in F. apply mem_false in F. exact F.
  - intros keys l E w I. unfold ex_chars in E.
    assert (I' : In w (flat_map (fun k => map (fun a => String a "") (list_ascii_of_string k)) keys)).
    { destruct (flat_map _ keys) as [|a f]; [discriminate|]. injection E as <-. apply (proj1 (np_unique_In _ _)). exact I. }
    apply in_flat_map in I'. destruct I' as (k & _ & I'). apply in_map_iff in I'. destruct I' as (a & <- & _). reflexivity.
Qed.
Lemma ex_sort_ok : @SortOk fixed ex_argsort.
Proof.
  intros x. assert (G : forall l, Permutation (fold_right (ex_insert x) [] l) l); [|exact (G _)].
  induction l as [|i l IH]; [constructor|]. cbn [fold_right].
  apply Permutation_trans with (i :: fold_right (ex_insert x) [] l); [|apply perm_skip; exact IH].
  generalize (fold_right (ex_insert x) [] l). clear. induction l as [|j l IH]; [reflexivity|]. cbn [ex_insert].
  match goal with |- context [if ?b then _ else _] => destruct b end; [reflexivity|]. eapply Permutation_trans; [apply perm_skip; exact IH|]. apply perm_swap.
Qed.

Definition ex_cfg (N : arith) (hash : bool) (b iters : nat) : @gcfg N nat :=
  {| n_components := 2; batch_size := b; gamma_shape_prior := div N (of_nat N 11) (of_nat N 10); gamma_scale_prior := of_nat N 1;
     rho := div N (of_nat N 19) (of_nat N 20); rescale_rho := false; hashing := hash; add_words := false; rescale_W := false; max_iter := 1;
     max_iter_e_step := iters; max_no_improvement := Some 5; seed := 0 |}.
Definition col (l : list (option string)) : gcolumn := {| textual := true; cname := Some "c"; values := l |}.
Definition fx_fit := fit fixed ex_fit (ex_counts fixed) (@length ascii) (fun _ => []) (ex_draw fixed) (ex_divergence fixed).
Definition fx_partial := partial_fit fixed ex_fit (ex_counts fixed) (@length ascii) (fun _ => []) (ex_draw fixed).
Definition fx_transform := transform (R := nat) fixed (ex_counts fixed) (@length ascii) ex_words ex_chars ex_argsort.
Definition fx_score := score (R := nat) fixed (ex_counts fixed) (@length ascii) (ex_divergence fixed).
Definition X1 : gcolumn := col [Some "aab"; None; Some "bc"; Some "aab"; Some "cc"].
Definition X2 : gcolumn := col [Some "bd"; Some "bc"].
(** the attributes, computed *)
Ltac freeze N st :=
  let a := eval vm_compute in (ngrams_count_ N st : option (list ascii)) in let b := eval vm_compute in (word_count_ N st : option (list ascii)) in
  let c := eval vm_compute in (vocabulary N st : option (list string)) in let d := eval vm_compute in (H_dict_ N st : option (dict string (list Z))) in
  let e := eval vm_compute in (W_ N st : list (list Z)) in let f := eval vm_compute in (A_ N st : list (list Z)) in
  let g := eval vm_compute in (B_ N st : list (list Z)) in let h := eval vm_compute in (rho_ N st : option Z) in
  let i := eval vm_compute in (random_state_ N st : option nat) in let j := eval vm_compute in (input_name N st : option (option string)) in
  exact (@Build_gstate N (list ascii) nat a b c d e f g h i j).
Definition state_of (r : res (@gstate fixed (list ascii) nat)) : @gstate fixed (list ascii) nat := match r with Ok st => st | Err _ => g_new fixed end.
Definition fitted : @gstate fixed (list ascii) nat := ltac:(freeze fixed (state_of (fx_fit (ex_cfg fixed false 2 2) (g_new fixed) X1))).
Definition output (r : @gstate fixed (list ascii) nat * res (frame (list Z))) : frame (list Z) := match snd r with Ok f => f | Err _ => [] end.

Definition out1 : frame (list Z) := Eval vm_compute in (output (fx_transform (ex_cfg fixed false 2 2) fitted X1)).
Definition out2 : frame (list Z) := Eval vm_compute in (output (fx_transform (ex_cfg fixed false 2 2) (fst (fx_score (ex_cfg fixed false 2 2) fitted X2)) X1)).

(** C66, the names: after scoring another column, the columns of the output have other names. *)
Theorem C66_names_refuted : exists (c : @gcfg fixed nat) st f f',
  0 < batch_size fixed c /\ fx_fit c (g_new fixed) X1 = Ok st /\
  snd (fx_transform c st X1) = Ok f /\ snd (fx_transform c (fst (fx_score c st X2)) X1) = Ok f' /\ column_names f <> column_names f'.
Proof.
  exists (ex_cfg fixed false 2 2), fitted, out1, out2.
  split; [cbn; lia|]. do 3 (split; [match goal with |- _ = ?r => vm_cast_no_check (eq_refl r) end|]). vm_compute. discriminate.
Qed.

(** C54, with hashing: after two batches everything is as after the second alone, which is not so without hashing. *)
Definition h1 : @gstate fixed (list ascii) nat := ltac:(freeze fixed (state_of (fx_partial (ex_cfg fixed true 2 2) (g_new fixed) X1))).
Definition h2 : @gstate fixed (list ascii) nat := ltac:(freeze fixed (state_of (fx_partial (ex_cfg fixed true 2 2) h1 X2))).
Definition n1 : @gstate fixed (list ascii) nat := ltac:(freeze fixed (state_of (fx_partial (ex_cfg fixed false 2 2) (g_new fixed) X1))).
Definition n2 : @gstate fixed (list ascii) nat := ltac:(freeze fixed (state_of (fx_partial (ex_cfg fixed false 2 2) n1 X2))).
Definition n0 : @gstate fixed (list ascii) nat := ltac:(freeze fixed (state_of (fx_partial (ex_cfg fixed false 2 2) (g_new fixed) X2))).
Theorem C54_hashing_refuted : exists s1 s2 t1 t2 t,
  fx_partial (ex_cfg fixed true 2 2) (g_new fixed) X1 = Ok s1 /\ fx_partial (ex_cfg fixed true 2 2) s1 X2 = Ok s2 /\
  fx_partial (ex_cfg fixed true 2 2) (g_new fixed) X2 = Ok s2 /\ remembered s2 "aab" = None /\
  fx_partial (ex_cfg fixed false 2 2) (g_new fixed) X1 = Ok t1 /\ fx_partial (ex_cfg fixed false 2 2) t1 X2 = Ok t2 /\
  fx_partial (ex_cfg fixed false 2 2) (g_new fixed) X2 = Ok t /\ remembered t2 "aab" <> None /\ W_ fixed t <> W_ fixed t2.
Proof.
  exists h1, h2, n1, n2, n0. do 7 (split; [match goal with |- _ = ?r => vm_cast_no_check (eq_refl r) end|]). split; vm_compute; discriminate.
Qed.

Print Assumptions C53_unchanged.
Print Assumptions C53_rowwise.
Print Assumptions C53_history.
Print Assumptions C53_transforms.
Print Assumptions C65_frame.
Print Assumptions C66_values.
Print Assumptions C66_names_refuted.
Print Assumptions C67_fit_forgets.
Print Assumptions C54_known.
Print Assumptions C54_hashing_forgets.
Print Assumptions C54_hashing_refuted.
Print Assumptions C54_statistics.

(** C53_rowwise: rows 0 of [X1] (batches of 2) and 1 of another column (batches of 3). *)
Definition X3 : gcolumn := col [Some "zz"; Some "aab"; Some ""].
Definition out3 : frame (list Z) := Eval vm_compute in (output (fx_transform (with_batch 3 (ex_cfg fixed false 2 2)) fitted X3)).
Example ex_C53 : exists f1 f2, fx_transform (ex_cfg fixed false 2 2) fitted X1 = (fitted, Ok f1) /\
  fx_transform (with_batch 3 (ex_cfg fixed false 2 2)) fitted X3 = (fitted, Ok f2) /\ row_of f1 0 = row_of f2 1 /\ row_of f1 0 <> row_of f1 2 /\
  column_names f1 = ["c: bc, cc, aab"; "c: aab, cc, bc"] /\ row_of f1 1 = row_of f2 2.
Proof.
  exists out1, out3.
  do 2 (split; [match goal with |- _ = ?r => vm_cast_no_check (eq_refl r) end|]). split; [reflexivity|]. split; [discriminate|]. split; reflexivity.
Qed.
(** C67: refitting on another column. *)
Definition refitted : @gstate fixed (list ascii) nat := ltac:(freeze fixed (state_of (fx_fit (ex_cfg fixed false 2 2) fitted X2))).
Definition out4 : frame (list Z) := Eval vm_compute in (output (fx_transform (ex_cfg fixed false 2 2) refitted X1)).
Example ex_C67 : exists st f, fx_fit (ex_cfg fixed false 2 2) fitted X2 = Ok st /\ snd (fx_transform (ex_cfg fixed false 2 2) st X1) = Ok f /\
  column_names f <> column_names (output (fx_transform (ex_cfg fixed false 2 2) fitted X1)).
Proof.
  exists refitted, out4.
  do 2 (split; [match goal with |- _ = ?r => vm_cast_no_check (eq_refl r) end|]). vm_compute. discriminate.
Qed.
(** C54_statistics: two batches with rational numbers. *)
Definition qa : arith := Qarith (fun a _ => a) (1 # 10000000000) (1 # 1000).
Definition q_partial := partial_fit qa ex_fit (ex_counts qa) (@length ascii) (fun _ => []) (ex_draw qa).
Definition q_cfg : @gcfg qa nat := @Build_gcfg qa nat 1 1 (11 # 10)%Q 1%Q (19 # 20)%Q false false false false 1 1 None 0.
Definition q_get (r : res (@gstate qa (list ascii) nat)) : @gstate qa (list ascii) nat := match r with Ok s => s | Err _ => g_new qa end.
Definition q1 := q_get (q_partial q_cfg (g_new qa) (col [Some "ab"])).
Definition q2 := q_get (q_partial q_cfg q1 (col [Some "b"])).
Example ex_C54 : Successive (q_partial q_cfg) (g_new qa) [col [Some "ab"]; col [Some "b"]] [q1; q2] /\ length (B_ qa q2) = 1 /\ length (nth 0 (B_ qa q2) []) = 2 /\
  (~ (cell (B_ qa q1) 0 0 == cell (B_ qa q2) 0 0)%Q).
Proof.
  split; [|vm_compute; split; [reflexivity|split; [reflexivity|discriminate]]].
  do 2 (econstructor; [match goal with |- _ = ?r => vm_cast_no_check (eq_refl r) end|]). constructor.
Qed.
