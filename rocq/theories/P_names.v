(** C03, C04, C05: picked column names; C17, C18: join keys and the left join. *)
From Verif Require Import Base M_names L_names L_leftjoin.
Open Scope string_scope.
Open Scope list_scope.
Open Scope nat_scope.

(** C03. With fresh draws the picked names are as many as the suggestions, pairwise
    distinct, and none is forbidden. *)
Theorem C03_pick_distinct :
  forall draw suggested forbidden,
    Fresh draw (length suggested) suggested forbidden ->
    let names := pick_column_names draw suggested forbidden in
    length names = length suggested /\ NoDup names /\
    (forall x, In x names -> ~ In x forbidden).
Proof. exact pick_distinct. Qed.
Print Assumptions C03_pick_distinct.

Example C03_pick_distinct_ex :
  Fresh example_draw 4 ["A"; "A"; "B"; "C"] ["B"; "D"] /\
  pick_column_names example_draw ["A"; "A"; "B"; "C"] ["B"; "D"]
  = ["A"; "A__skrub_00000001__"; "B__skrub_00000002__"; "C"].
Proof.
  split; [|reflexivity]. apply example_draw_fresh; [repeat constructor|].
  simpl. intros s I. repeat (destruct I as [<-|I]; [simpl; repeat constructor|]). destruct I.
Qed.

(** C03. Each name without a tag is kept exactly when it is neither forbidden nor used
    earlier; otherwise the drawn tag is appended to it. (No freshness needed.) *)
Theorem C03_pick_each_untagged :
  forall draw l1 s l2 forbidden, ~ SubString "__skrub_" s ->
  exists p1 p p2,
    pick_column_names draw (l1 ++ s :: l2) forbidden = p1 ++ p :: p2 /\
    length p1 = length l1 /\
    (~ In s forbidden -> ~ In s p1 -> p = s) /\
    (In s forbidden \/ In s p1 -> p = (s ++ "__skrub_" ++ draw (length l1) ++ "__")%string).
Proof. exact pick_each_untagged. Qed.
Print Assumptions C03_pick_each_untagged.

Example C03_pick_each_untagged_ex : ~ SubString "__skrub_" "A_b".
Proof. intros S. apply SubString_length in S. simpl in S. lia. Qed.

(** C03. In general, when removing the tags [ts] of [s] leaves [u], the name used is
    [u] with the single tag at the end (or [u] if there is not exactly one tag), or [u] and
    the drawn tag if that name is taken. *)
Theorem C03_pick_each :
  forall draw l1 s l2 forbidden u ts, Untag s u ts ->
  exists p1 p p2,
    pick_column_names draw (l1 ++ s :: l2) forbidden = p1 ++ p :: p2 /\
    length p1 = length l1 /\
    (~ In (wanted u ts) forbidden -> ~ In (wanted u ts) p1 -> p = wanted u ts) /\
    (In (wanted u ts) forbidden \/ In (wanted u ts) p1 ->
       p = (u ++ "__skrub_" ++ draw (length l1) ++ "__")%string).
Proof. exact pick_each. Qed.
Print Assumptions C03_pick_each.

Example C03_pick_each_ex :
  Untag "A__skrub_750a0b7c___year" "A_year" ["__skrub_750a0b7c__"] /\
  pick_column_names (fun _ => "37dd63aa")
    ["A__skrub_750a0b7c___year"; "concat_A__skrub_750a0b7c___A__skrub_b1eeb4f7__"; "B"] ["B"]
  = ["A_year__skrub_750a0b7c__"; "concat_A_A"; "B__skrub_37dd63aa__"].
Proof. split; [apply Untag_scan|]; reflexivity. Qed.

(** C03. The scan of the model is the regular-expression semantics: every string has
    exactly one decomposition. *)
Theorem C03_untag_unique :
  forall s, exists u ts, Untag s u ts /\ forall u' ts', Untag s u' ts' -> u' = u /\ ts' = ts.
Proof.
  exact (fun s => ex_intro _ _ (ex_intro _ _ (conj (scan_Untag s)
    (fun u' ts' U' => Untag_det _ _ _ U' _ _ (scan_Untag s))))).
Qed.
Print Assumptions C03_untag_unique.

(** C04 is false: draws are not checked against the names in use, so that a name that
    already carries the tag that is drawn is produced twice. *)
Theorem C04_pick_distinct_all_draws_refuted :
  exists (draw : nat -> string) suggested,
    (forall i, hex8 (draw i)) /\ ~ NoDup (pick_column_names draw suggested []).
Proof. exact pick_collision. Qed.
Print Assumptions C04_pick_distinct_all_draws_refuted.

(** C04, what does hold for every draw: if the suggestions are distinct, untagged and not
    forbidden, they are all kept. *)
Theorem C04_pick_identity_partial :
  forall draw suggested i forbidden,
    (forall s, In s suggested -> ~ SubString "__skrub_" s /\ ~ In s forbidden) ->
    NoDup suggested ->
    pick_from draw i suggested forbidden = suggested.
Proof. exact pick_identity. Qed.
Print Assumptions C04_pick_identity_partial.

Example C04_pick_identity_partial_ex :
  pick_from (fun _ => "00000000") 0 ["a"; "b_c"; "d"] ["e"] = ["a"; "b_c"; "d"].
Proof. reflexivity. Qed.

(** C05. Concatenation keeps all the data in order and names are distinct. *)
Theorem C05_concat_horizontal :
  forall (C : Type) draw (dfs : list (frame C)), dfs <> [] ->
    Fresh draw (length (column_names (concat dfs))) (column_names (concat dfs)) [] ->
    exists out, concat_horizontal draw dfs = Ok out /\
      column_data out = concat (map column_data dfs) /\ NoDup (column_names out).
Proof. exact @concat_ok. Qed.
Print Assumptions C05_concat_horizontal.

Example C05_concat_horizontal_ex :
  concat_horizontal example_draw [[("A", 1); ("B", 2)]; [("B", 3)]; [("A", 4); ("C", 5)]]
  = Ok [("A", 1); ("B", 2); ("B__skrub_00000002__", 3); ("A__skrub_00000003__", 4); ("C", 5)].
Proof. reflexivity. Qed.

(** C05. Column by column: a name without tag is unchanged unless a column on its left
    already has it, in which case a tag is appended; the data is unchanged. *)
Theorem C05_concat_each_column :
  forall (C : Type) draw (dfs : list (frame C)) out c1 name d c2,
    concat_horizontal draw dfs = Ok out ->
    concat dfs = c1 ++ (name, d) :: c2 -> ~ SubString "__skrub_" name ->
    exists o1 name' o2, out = o1 ++ (name', d) :: o2 /\ length o1 = length c1 /\
      (~ In name (column_names o1) -> name' = name) /\
      (In name (column_names o1) ->
         exists token, name' = (name ++ "__skrub_" ++ token ++ "__")%string).
Proof. exact @concat_unchanged. Qed.
Print Assumptions C05_concat_each_column.

(** C05. The first dataframe is not touched if its names are distinct and untagged,
    whatever comes after and whatever the draws. *)
Theorem C05_concat_first_unchanged :
  forall (C : Type) draw (df : frame C) dfs,
    NoDup (column_names df) -> (forall s, In s (column_names df) -> ~ SubString "__skrub_" s) ->
    exists rest, concat_horizontal draw (df :: dfs) = Ok (df ++ rest).
Proof. exact @concat_first. Qed.
Print Assumptions C05_concat_first_unchanged.

Example C05_concat_first_unchanged_ex :
  NoDup (column_names [("A", 1); ("B", 2)]) /\
  (forall s, In s (column_names [("A", 1); ("B", 2)]) -> ~ SubString "__skrub_" s).
Proof.
  split.
  - repeat constructor; simpl; intuition discriminate.
  - simpl. intros s [<-|[<-|[]]] S; apply SubString_length in S; simpl in S; lia.
Qed.

(** C17. The accepted key arguments, and the resulting pairs of key columns. *)
Theorem C17_check_key :
  forall main aux key m a,
    check_key main aux key = Ok (m, a) <->
    (key <> KNone /\ main = KNone /\ aux = KNone /\
     m = atleast_1d_or_none key /\ a = atleast_1d_or_none key) \/
    (key = KNone /\ main <> KNone /\ aux <> KNone /\ length m = length a /\
     m = atleast_1d_or_none main /\ a = atleast_1d_or_none aux).
Proof. exact check_key_spec. Qed.
Print Assumptions C17_check_key.

Example C17_check_key_ex :
  check_key (KStr "a") (KList ["b"]) KNone = Ok (["a"], ["b"]) /\
  check_key KNone KNone (KList ["a"; "b"]) = Ok (["a"; "b"], ["a"; "b"]) /\
  check_key (KStr "a") (KList ["b"; "c"]) KNone = Err ValueError /\
  check_key (KStr "a") KNone (KStr "a") = Err ValueError.
Proof. repeat split. Qed.

(** C17. Missing columns are reported exactly when a key column is absent. *)
Theorem C17_check_missing_columns :
  forall cols key,
    (check_missing_columns cols key = Ok tt <-> forall k, In k key -> In k cols) /\
    (check_missing_columns cols key = Err ValueError <-> exists k, In k key /\ ~ In k cols).
Proof. exact check_missing_spec. Qed.
Print Assumptions C17_check_missing_columns.

(** C18. The left join. *)
Theorem C18_left_join :
  forall (V : Type) (null : V) (keq : list V -> list V -> bool)
         draw left right left_on right_on rename,
    WFTable left -> WFTable right ->
    (forall c, In c left_on -> In c (tcols left)) ->
    (forall c, In c right_on -> In c (tcols right)) ->
    Fresh draw (length (tcols right)) (map rename (tcols right)) (tcols left) ->
    AtMostOneMatch keq left right left_on right_on ->
    exists out,
      left_join null keq draw left right left_on right_on rename = Ok out /\
      tcols out = tcols left ++
        other_names (tcols right)
          (pick_column_names draw (map rename (tcols right)) (tcols left)) right_on /\
      NoDup (tcols out) /\
      Forall2 (fun l o => exists vals, o = l ++ vals /\
                 Completion null keq left right left_on right_on l vals)
              (trows left) (trows out).
Proof. exact @left_join_ok. Qed.
Print Assumptions C18_left_join.

Definition C18_left : table nat :=
  {| tcols := ["id"; "x"]; trows := [[1; 10]; [2; 20]; [1; 30]; [7; 40]] |}.
Definition C18_right : table nat :=
  {| tcols := ["x"; "key"]; trows := [[100; 2]; [200; 1]] |}.
Definition C18_keq (a b : list nat) : bool := if eqd a b then true else false.

Example C18_left_join_ex :
  WFTable C18_left /\ WFTable C18_right /\
  Fresh example_draw 2 (map (fun s => s) (tcols C18_right)) (tcols C18_left) /\
  AtMostOneMatch C18_keq C18_left C18_right ["id"] ["key"] /\
  left_join 0 C18_keq example_draw C18_left C18_right ["id"] ["key"] (fun s => s)
  = Ok {| tcols := ["id"; "x"; "x__skrub_00000000__"];
          trows := [[1; 10; 200]; [2; 20; 100]; [1; 30; 200]; [7; 40; 0]] |}.
Proof.
  split; [|split; [|split; [|split; [|reflexivity]]]].
  - split; [repeat constructor; simpl; intuition discriminate|].
    simpl. intros r I. repeat (destruct I as [<-|I]; [reflexivity|]). destruct I.
  - split; [repeat constructor; simpl; intuition discriminate|].
    simpl. intros r I. repeat (destruct I as [<-|I]; [reflexivity|]). destruct I.
  - apply example_draw_fresh; [repeat constructor|].
    simpl. intros s I. repeat (destruct I as [<-|I]; [simpl; repeat constructor|]). destruct I.
  - assert (K : forall r k, In r (trows C18_right) ->
        ValuesAt (tcols C18_right) r ["key"] k -> k = tl r).
    { intros r k I F. apply (row_key_spec C18_keq (tcols C18_right) ["key"] r k) in F.
      - simpl in I. destruct I as [<-|[<-|[]]]; simpl in F; injection F as <-; reflexivity.
      - repeat constructor; simpl; intuition discriminate. }
    intros l i j ri rj Il Ei Ej (kl & kr & A & B & D) (kl' & kr' & A' & B' & D').
    apply (K _ _ (nth_error_In _ _ Ei)) in B. apply (K _ _ (nth_error_In _ _ Ej)) in B'.
    assert (kl' = kl).
    { apply (row_key_spec C18_keq (tcols C18_left) ["id"] l) in A;
        [|repeat constructor; simpl; intuition discriminate].
      apply (row_key_spec C18_keq (tcols C18_left) ["id"] l) in A';
        [|repeat constructor; simpl; intuition discriminate]. congruence. }
    unfold C18_keq in D, D'. destruct (eqd kl kr); [|discriminate].
    destruct (eqd kl' kr'); [|discriminate]. subst.
    destruct i as [|[|i]]; destruct j as [|[|j]]; simpl in Ei, Ej; try reflexivity;
      try (destruct i; discriminate); try (destruct j; discriminate);
      injection Ei as <-; injection Ej as <-; simpl in *; congruence.
Qed.
