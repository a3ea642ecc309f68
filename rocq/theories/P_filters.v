(** Theorems about the menu of column filters of reports (C119). *)
From Coq Require Import Sorted.
From Verif Require Import Base M_names M_select M_clean M_filters L_filters.
Open Scope string_scope.
Open Scope list_scope.
Open Scope nat_scope.

Section Theorems.
  Context {N TZ O K : Type}.
  Notation column := (@M_clean.column N TZ O K).
  Variable empty_is_string : bool.
  Context {num : Type}.
  Variable above : num -> bool.
  Notation Announced_ := (@Announced N TZ O K empty_is_string num above).

  (** C119: without custom filters, the menu has the expected entries, and selecting one shows the columns that it announces, and their number. *)
  Theorem C119_default : forall (df : frame column) (top : option (list (asso num))),
    (forall l, top = Some l -> AssoOk above (length df) l) ->
    exists d, report_filters empty_is_string above df top None = Ok d /\
      menu d = Menu (length df) (match top with Some _ => true | None => false end) /\
      forall k name, In (k, name) (menu d) -> exists l, select_entry d (length df) k = Ok (l, length l) /\
        Exactly (length df) (fun i => forall n c, nth_error df i = Some (n, c) -> Announced_ top i c name) l.
  Proof. exact (default_ok empty_is_string above). Qed.

  (** C119: custom filters come first, replace the default ones that have the same key, and show the columns whose positions they give;
      the others are as without custom filters. *)
  Theorem C119_custom : forall (df : frame column) (top : option (list (asso num))) custom,
    (forall l, top = Some l -> AssoOk above (length df) l) -> NoDup (dkeys custom) ->
    exists d, report_filters empty_is_string above df top (Some custom) = Ok d /\
      menu d = menu custom ++ filter (fun kn => negb (mem (fst kn) (dkeys custom))) (Menu (length df) (match top with Some _ => true | None => false end)) /\
      NoDup (map fst (menu d)) /\
      (forall k f, In (k, f) custom -> exists l, select_entry d (length df) k = Ok (l, length (nodup eqd (fcolumns f))) /\
         Exactly (length df) (fun i => In (RIdx i) (fcolumns f)) l) /\
      (forall k name, In (k, name) (Menu (length df) (match top with Some _ => true | None => false end)) -> ~ In k (dkeys custom) ->
         exists l, select_entry d (length df) k = Ok (l, length l) /\
           Exactly (length df) (fun i => forall n c, nth_error df i = Some (n, c) -> Announced_ top i c name) l).
  Proof. exact (custom_ok empty_is_string above). Qed.

  (** C119: the associations of a report: only columns that are similar to another one, and all of them if there are at most 20 similar pairs. *)
  Theorem C119_similar : forall n_rows n m (associations : list (asso num)), 0 < n_rows -> 0 < n -> AllPairs above n associations ->
    match m with None => True | Some m => (Z.of_nat n <= m)%Z end ->
    exists top, top_associations n_rows n m (Ok associations) = Ok (Some top) /\ AssoOk above n top /\
      (forall i, Similar above top i -> Similar above associations i) /\
      (length (filter (fun a => above (score a)) associations) <= 20 -> forall i, Similar above associations i -> Similar above top i).
  Proof. exact (top_ok above). Qed.
End Theorems.
Print Assumptions C119_default.
Print Assumptions C119_custom.
Print Assumptions C119_similar.

(** ** Examples *)
Definition ex_col : Type := @M_clean.column nat unit nat nat.
Definition ex_mk (t : @M_clean.dtype nat unit nat nat) (l : list (@M_clean.cell nat nat)) : ex_col := {| M_clean.clib := M_todt.Pandas; cdtype := t; cells := l |}.
Definition ex_df : frame ex_col :=
    [("height", ex_mk (TNum false) [CNum 3; CNull M_nullstr.NaN]); ("name", ex_mk TObj [CStr [104; 105]; CNull M_nullstr.NaN]); ("size", ex_mk (TNum true) [CNum 3; CNum 4])].
Definition ex_ab (x : nat) : bool := 90 <? x.
Definition ex_top : list (asso nat) :=
    [{| left_idx := 0; right_idx := 2; score := 95 |}; {| left_idx := 0; right_idx := 1; score := 50 |}; {| left_idx := 1; right_idx := 2; score := 10 |}].
Example ex_meets : AssoOk ex_ab 3 ex_top /\ AllPairs ex_ab 3 ex_top /\ length (filter (fun a => ex_ab (score a)) ex_top) <= 20.
Proof.
    assert (S : StronglySorted (fun a b => ex_ab (score b) = true -> ex_ab (score a) = true) ex_top)
      by (unfold ex_top; repeat constructor; simpl; unfold ex_ab; simpl; intros E; try discriminate; try reflexivity).
    split; [split; [repeat constructor|exact S]|]. split; [split; [|exact S]|vm_compute; lia].
    intros i j. split.
    - intros (a & [<-|[<-|[<-|[]]]] & <- & <-); simpl; lia.
    - intros L. assert (D : (i = 0 /\ j = 2) \/ (i = 0 /\ j = 1) \/ (i = 1 /\ j = 2)) by lia.
      destruct D as [[-> ->]|[[-> ->]|[-> ->]]]; [exists (nth 0 ex_top (Build_asso 0 0 0))|exists (nth 1 ex_top (Build_asso 0 0 0))|exists (nth 2 ex_top (Build_asso 0 0 0))]; simpl; auto.
Qed.
Definition ex_shown (custom : option (dict string colfilter)) (k : string) : res (list nat * nat) :=
    let! d := report_filters true ex_ab ex_df (Some ex_top) custom in select_entry d 3 k.
Example ex_entries : map (ex_shown None) ["all()"; "has_nulls()"; "(~has_nulls())"; "numeric()"; "(~numeric())"; "string()"; "(~any_date())"; "high_association"]
    = [Ok ([0; 1; 2], 3); Ok ([0; 1], 2); Ok ([2], 1); Ok ([0; 2], 2); Ok ([1], 1); Ok ([1], 1); Ok ([0; 1; 2], 3); Ok ([0; 2], 2)].
Proof. vm_compute. reflexivity. Qed.
Definition ex_by_position : dict string colfilter := [("mine", {| display_name := "Mine"; fcolumns := [RIdx 2; RIdx 1] |})].
Example ex_custom_position : NoDup (dkeys ex_by_position) /\ ex_shown (Some ex_by_position) "mine" = Ok ([1; 2], 2).
Proof. split; [repeat constructor; intros []|vm_compute; reflexivity]. Qed.

(** ** Refutations *)
(** C119: the documentation says that custom filters contain names of columns; such a filter shows no column, and announces their number. *)
Definition ex_by_name : dict string colfilter := [("mine", {| display_name := "Mine"; fcolumns := [RName "size"; RName "name"] |})].
Definition ex_nine : list (nat * nat) := flat_map (fun i => map (pair i) (seq (S i) (8 - i))) (seq 0 9).
(** seven columns that are all similar, and two others *)
Definition ex_of_nine (ij : nat * nat) : asso nat :=
    {| left_idx := fst ij; right_idx := snd ij; score := if snd ij <? 7 then 100 else if fst ij =? 7 then 95 else 0 |}.
Definition ex_asso9 : list (asso nat) :=
    map ex_of_nine (filter (fun ij => snd ij <? 7) ex_nine) ++ map ex_of_nine (filter (fun ij => negb (snd ij <? 7) && (fst ij =? 7)) ex_nine) ++
    map ex_of_nine (filter (fun ij => negb (snd ij <? 7) && negb (fst ij =? 7)) ex_nine).

(** C119: a custom filter with names of columns, as documented, shows none of them. *)
Theorem C119_names_refuted : exists (df : frame ex_col) (custom : dict string colfilter) d,
  (forall k f r, In (k, f) custom -> In r (fcolumns f) -> exists name, r = RName name /\ In name (map fst df)) /\
  report_filters true ex_ab df None (Some custom) = Ok d /\
  select_entry d (length df) "mine" = Ok ([], 2).
Proof.
  exists ex_df, ex_by_name. eexists. split; [|split; vm_compute; reflexivity].
  intros k f r [E|[]] I. injection E as <- <-. destruct I as [<-|[<-|[]]]; eexists; (split; [reflexivity|]); simpl; auto.
Qed.
Print Assumptions C119_names_refuted.

(** C119: a custom filter whose key is "all()" takes the place of the one that the Reset button selects. *)
Theorem C119_reset_refuted : exists (df : frame ex_col) (custom : dict string colfilter) d,
  report_filters true ex_ab df None (Some custom) = Ok d /\ reset d (length df) = Ok ([1], 1) /\ length df = 3.
Proof.
  exists ex_df, [("all()", {| display_name := "All the ones I like"; fcolumns := [RIdx 1] |})]. eexists.
  split; [vm_compute; reflexivity|]. split; vm_compute; reflexivity.
Qed.
Print Assumptions C119_reset_refuted.

(** C119: with more than 20 similar pairs, columns that are similar to another one may be missing from "High similarity". *)
Theorem C119_similar_refuted : exists n (associations top : list (asso nat)),
  AllPairs ex_ab n associations /\ top_associations 5 n (Some 30%Z) (Ok associations) = Ok (Some top) /\
  Similar ex_ab associations 8 /\ ~ Similar ex_ab top 8.
Proof.
  exists 9, ex_asso9, (firstn 20 ex_asso9). split; [split|split; [reflexivity|split]].
  - intros i j. split.
    + intros (a & I & <- & <-).
      assert (F : forallb (fun a => (left_idx a <? right_idx a) && (right_idx a <? 9)) ex_asso9 = true) by (vm_compute; reflexivity).
      rewrite forallb_forall in F. specialize (F a I). apply andb_true_iff in F. destruct F as [F1 F2]. apply Nat.ltb_lt in F1. apply Nat.ltb_lt in F2. lia.
    + intros L. assert (F : forallb (fun ij => existsb (fun a => (left_idx a =? fst ij) && (right_idx a =? snd ij)) ex_asso9) ex_nine = true) by (vm_compute; reflexivity).
      rewrite forallb_forall in F. assert (I : In (i, j) ex_nine).
      { unfold ex_nine. apply in_flat_map. exists i. split; [apply in_seq; lia|]. apply in_map. apply in_seq. lia. }
      specialize (F _ I). apply existsb_exists in F. destruct F as (a & Ia & E). apply andb_true_iff in E. destruct E as [E1 E2].
      apply Nat.eqb_eq in E1. apply Nat.eqb_eq in E2. exists a. auto.
  - apply (forallb2_sorted _ (fun a b => implb (ex_ab (score b)) (ex_ab (score a)))); [|vm_compute; reflexivity].
    intros a b E Eb. rewrite Eb in E. exact E.
  - exists {| left_idx := 7; right_idx := 8; score := 95 |}. split; [vm_compute; tauto|]. split; [reflexivity|]. right. reflexivity.
  - intros (a & I & _ & D).
    assert (F : forallb (fun a => negb (left_idx a =? 8) && negb (right_idx a =? 8)) (firstn 20 ex_asso9) = true) by (vm_compute; reflexivity).
    rewrite forallb_forall in F. specialize (F a I). destruct D as [D|D]; rewrite D, Nat.eqb_refl in F; [|rewrite andb_false_r in F]; discriminate.
Qed.
Print Assumptions C119_similar_refuted.
