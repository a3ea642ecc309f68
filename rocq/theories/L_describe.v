(** Descriptions of parameter grids. *)
From Verif Require Import Base L_dict M_labels M_grid L_grid M_describe.
From Coq Require Import NArith List Lia.
Import ListNotations.
Open Scope string_scope.
Open Scope list_scope.
Open Scope nat_scope.
Set Default Proof Using "Type".

(** ** Specification: reading a description *)
(** lines, and blocks of lines: a line that starts with a dash starts a block *)
Fixpoint lines (t : text) : list text :=
  match t with
  | [] => []
  | c :: t' =>
      if (c =? 10)%N then [] :: lines t'
      else match lines t' with [] => [] | l :: ls => (c :: l) :: ls end
  end.
Definition blocks (ls : list text) : list (list text) :=
  snd (fold_right (fun l (acc : list text * list (list text)) =>
         if match l with c :: _ => (c =? 45)%N | [] => false end
         then ([], (skipn 2 l :: fst acc) :: snd acc)
         else (skipn 2 l :: fst acc, snd acc)) ([], []) ls).
Definition block : Type := list text.
Definition reading (t : text) : list block := blocks (lines t).

(** items: a string between quotes, with the escape sequences of python, or something else *)
Inductive item : Type := Quoted (s : text) | Bare (s : text).

Definition unhex_digit (c : N) : N := (if c <? 58 then c - 48 else c - 87)%N.
Definition unhex (l : text) : N := fold_left (fun a c => a * 16 + unhex_digit c)%N l 0%N.
Fixpoint unquote (fuel : nat) (q : N) (l : text) : option (text * text) :=
  match fuel with
  | 0 => None
  | S f =>
    let add x l := match unquote f q l with Some (s, r) => Some (x :: s, r) | None => None end in
    match l with
    | [] => None
    | c :: l1 =>
        if (c =? q)%N then Some ([], l1)
        else if (c =? 92)%N then
          match l1 with
          | [] => None
          | e :: l2 =>
              if (e =? 116)%N then add 9%N l2
              else if (e =? 110)%N then add 10%N l2
              else if (e =? 114)%N then add 13%N l2
              else if (e =? 120)%N then add (unhex (firstn 2 l2)) (skipn 2 l2)
              else if (e =? 117)%N then add (unhex (firstn 4 l2)) (skipn 4 l2)
              else if (e =? 85)%N then add (unhex (firstn 8 l2)) (skipn 8 l2)
              else add e l2
          end
        else add c l1
    end
  end.
Definition is_quote (c : N) : bool := (c =? 39)%N || (c =? 34)%N.
Fixpoint until_end (l : text) : text * text :=
  match l with
  | [] => ([], [])
  | c :: l' => if (c =? 44)%N || (c =? 93)%N then ([], l) else let (a, b) := until_end l' in (c :: a, b)
  end.
Definition read_item (l : text) : option (item * text) :=
  match l with
  | [] => None
  | c :: l' =>
      if is_quote c then match unquote (length l') c l' with Some (s, r) => Some (Quoted s, r) | None => None end
      else let (a, b) := until_end l in Some (Bare a, b)
  end.
Fixpoint read_list (fuel : nat) (l : text) : option (list item) :=
  match fuel with
  | 0 => None
  | S f =>
      match read_item l with
      | None => None
      | Some (i, r) =>
          match r with
          | [c] => if (c =? 93)%N then Some [i] else None
          | c :: d :: r' =>
              if (c =? 44)%N && (d =? 32)%N then
                match read_list f r' with Some is => Some (i :: is) | None => None end
              else None
          | [] => None
          end
      end
  end.
(** a list between brackets, or one item *)
Definition read_items (d : text) : option (list item) :=
  match d with
  | [] => None
  | c :: d' =>
      if (c =? 91)%N then read_list (length d) d'
      else if is_quote c then
        match unquote (length d') c d' with Some (s, []) => Some [Quoted s] | _ => None end
      else Some [Bare d]
  end.

Definition code_point (c : N) : Prop := (c < 1114112)%N.
Definition valid_text (t : text) : Prop := Forall code_point t.
(** texts that are items by themselves *)
Definition bare (r : text) : Prop :=
  (exists c r', r = c :: r' /\ is_quote c = false /\ c <> 91%N) /\ ~ In 44%N r /\ ~ In 93%N r.
(** the name of a choice followed by a text *)
Definition name_line (n d : text) : text := n ++ [58; 32]%N ++ d.

(** ** Strings *)
Section Strings.
  Variable printable : N -> bool.

  Lemma unhex_hex_digit d : (d < 16)%N -> unhex_digit (hex_digit d) = d.
  Proof.
    intros H. unfold unhex_digit, hex_digit.
    destruct (N.ltb_spec d 10); destruct (N.ltb_spec (if (d <? 10)%N then 48 + d else 87 + d) 58);
      destruct (N.ltb_spec d 10); try lia;
      match goal with |- context [(?a <? 58)%N] => destruct (N.ltb_spec a 58) end; lia.
  Qed.
  Lemma hex_length k : forall n, length (hex k n) = k.
  Proof. induction k as [|k IH]; intros n; [reflexivity|]. cbn [hex]. rewrite app_length, IH. cbn. lia. Qed.
  Lemma unhex_hex k : forall n, (n < 16 ^ N.of_nat k)%N -> unhex (hex k n) = n.
  Proof.
    induction k as [|k IH]; intros n H.
    - cbn in H. cbn. lia.
    - cbn [hex]. unfold unhex. rewrite fold_left_app. cbn [fold_left].
      fold (unhex (hex k (n / 16))). rewrite IH.
      + rewrite unhex_hex_digit by (apply N.mod_lt; lia). rewrite (N.mul_comm _ 16). symmetry. apply N.div_mod. lia.
      + rewrite Nat2N.inj_succ, N.pow_succ_r' in H. apply N.div_lt_upper_bound; lia.
  Qed.

  Definition is_q (q : N) : Prop := q = 39%N \/ q = 34%N.
  Definition add_char (x : N) (r : option (text * text)) : option (text * text) :=
    match r with Some (s, r) => Some (x :: s, r) | None => None end.

  Lemma firstn_hex k n l : firstn k (hex k n ++ l) = hex k n.
  Proof. rewrite firstn_app, hex_length, Nat.sub_diag, firstn_O, app_nil_r. rewrite <- (hex_length k n) at 1. apply firstn_all. Qed.
  Lemma skipn_hex k n l : skipn k (hex k n ++ l) = l.
  Proof. rewrite skipn_app, hex_length, Nat.sub_diag, skipn_O. rewrite skipn_all2 by (rewrite hex_length; lia). reflexivity. Qed.

  Lemma hex_case f q e k c l : is_q q -> (e = 120%N /\ k = 2 \/ e = 117%N /\ k = 4 \/ e = 85%N /\ k = 8) ->
    (c < 16 ^ N.of_nat k)%N ->
    unquote (S f) q ((92%N :: e :: hex k c) ++ l) = add_char c (unquote f q l).
  Proof.
    intros Hq He Hc. cbn [unquote app].
    assert (E : (92 =? q)%N = false) by (destruct Hq as [-> | ->]; reflexivity). rewrite E.
    change (92 =? 92)%N with true. cbv iota.
    destruct He as [[-> ->]|[[-> ->]|[-> ->]]].
    - change (120 =? 116)%N with false. change (120 =? 110)%N with false. change (120 =? 114)%N with false.
      change (120 =? 120)%N with true. cbv iota zeta. rewrite firstn_hex, skipn_hex, unhex_hex by exact Hc. reflexivity.
    - change (117 =? 116)%N with false. change (117 =? 110)%N with false. change (117 =? 114)%N with false.
      change (117 =? 120)%N with false. change (117 =? 117)%N with true. cbv iota zeta.
      rewrite firstn_hex, skipn_hex, unhex_hex by exact Hc. reflexivity.
    - change (85 =? 116)%N with false. change (85 =? 110)%N with false. change (85 =? 114)%N with false.
      change (85 =? 120)%N with false. change (85 =? 117)%N with false. change (85 =? 85)%N with true. cbv iota zeta.
      rewrite firstn_hex, skipn_hex, unhex_hex by exact Hc. reflexivity.
  Qed.

  Lemma unquote_char f q c l : is_q q -> code_point c ->
    unquote (S f) q (escape_char printable q c ++ l) = add_char c (unquote f q l).
  Proof.
    intros Hq Hc. unfold code_point in Hc. unfold escape_char.
    assert (E92 : (92 =? q)%N = false) by (destruct Hq as [-> | ->]; reflexivity).
    destruct (N.eqb_spec c q) as [->|Hcq].
    { cbn [orb app unquote]. rewrite E92. change (92 =? 92)%N with true. cbv iota zeta.
      destruct Hq as [-> | ->]; reflexivity. }
    destruct (N.eqb_spec c 92) as [->|H92].
    { cbn [orb app unquote]. rewrite E92. reflexivity. }
    cbn [orb].
    destruct (N.eqb_spec c 9) as [->|H9]; [cbn [app unquote]; rewrite E92; reflexivity|].
    destruct (N.eqb_spec c 10) as [->|H10]; [cbn [app unquote]; rewrite E92; reflexivity|].
    destruct (N.eqb_spec c 13) as [->|H13]; [cbn [app unquote]; rewrite E92; reflexivity|].
    destruct ((c <? 32) || (c =? 127))%N eqn:Elow.
    { apply hex_case; [exact Hq|auto|]. apply Bool.orb_true_iff in Elow.
      destruct Elow as [E|E]; [apply N.ltb_lt in E|apply N.eqb_eq in E]; change (16 ^ N.of_nat 2)%N with 256%N; lia. }
    assert (Hplain : unquote (S f) q ([c] ++ l) = add_char c (unquote f q l)).
    { cbn [app unquote]. rewrite (proj2 (N.eqb_neq c q) Hcq), (proj2 (N.eqb_neq c 92) H92). reflexivity. }
    destruct (c <? 127)%N; [exact Hplain|]. destruct (printable c); [exact Hplain|].
    destruct (N.ltb_spec c 256); [apply hex_case; [exact Hq|auto|change (16 ^ N.of_nat 2)%N with 256%N; lia]|].
    destruct (N.ltb_spec c 65536); [apply hex_case; [exact Hq|auto|change (16 ^ N.of_nat 4)%N with 65536%N; lia]|].
    apply hex_case; [exact Hq|auto|]. change (16 ^ N.of_nat 8)%N with 4294967296%N. lia.
  Qed.

  Lemma escape_nonempty q c : 1 <= length (escape_char printable q c).
  Proof. unfold escape_char. repeat match goal with |- context [if ?b then _ else _] => destruct b end; cbn; lia. Qed.
  Lemma escape_length q s : length s <= length (flat_map (escape_char printable q) s).
  Proof.
    induction s as [|c s IH]; [cbn; lia|]. cbn [flat_map]. rewrite app_length.
    pose proof (escape_nonempty q c). cbn [length]. lia.
  Qed.

  Lemma unquote_escape q rest : is_q q -> forall s f, valid_text s -> length s < f ->
    unquote f q (flat_map (escape_char printable q) s ++ q :: rest) = Some (s, rest).
  Proof.
    intros Hq. induction s as [|c s IH]; intros f Hs Hf.
    - destruct f as [|f]; [cbn in Hf; lia|]. cbn. rewrite N.eqb_refl. reflexivity.
    - destruct f as [|f]; [cbn in Hf; lia|]. cbn [flat_map]. rewrite <- app_assoc. inversion Hs; subst.
      rewrite unquote_char by assumption. rewrite IH by (auto; cbn in Hf; lia). reflexivity.
  Qed.

  Lemma quote_is_q s : is_q (quote_of s).
  Proof. unfold quote_of, is_q. destruct (mem 39%N s && negb (mem 34%N s)); auto. Qed.
  Lemma is_q_quote q : is_q q -> is_quote q = true.
  Proof. intros [-> | ->]; reflexivity. Qed.

  Lemma repr_str_unfold s rest : repr_str printable s ++ rest =
    quote_of s :: flat_map (escape_char printable (quote_of s)) s ++ quote_of s :: rest.
  Proof. unfold repr_str. cbn [app]. rewrite <- app_assoc. reflexivity. Qed.

  Lemma read_item_quoted s rest : valid_text s ->
    read_item (repr_str printable s ++ rest) = Some (Quoted s, rest).
  Proof.
    intros Hs. rewrite repr_str_unfold. cbn [read_item]. rewrite is_q_quote by apply quote_is_q.
    rewrite unquote_escape; [reflexivity|apply quote_is_q|exact Hs|].
    rewrite app_length. pose proof (escape_length (quote_of s) s). cbn [length]. lia.
  Qed.

  Lemma until_end_bare r c rest : ~ In 44%N r -> ~ In 93%N r -> (c = 44 \/ c = 93)%N ->
    until_end (r ++ c :: rest) = (r, c :: rest).
  Proof.
    intros H1 H2 Hc. induction r as [|x r IH].
    - cbn. destruct Hc as [-> | ->]; reflexivity.
    - cbn [app until_end].
      destruct (N.eqb_spec x 44) as [->|]; [exfalso; apply H1; left; reflexivity|].
      destruct (N.eqb_spec x 93) as [->|]; [exfalso; apply H2; left; reflexivity|]. cbn [orb].
      rewrite IH; [|intros Hin; apply H1; right; exact Hin|intros Hin; apply H2; right; exact Hin]. reflexivity.
  Qed.

  (** a text shows an item *)
  Inductive shows_item : item -> text -> Prop :=
  | shows_quoted s : valid_text s -> shows_item (Quoted s) (repr_str printable s)
  | shows_bare r : bare r -> shows_item (Bare r) r.

  Lemma read_item_shows i d c rest : shows_item i d -> (c = 44 \/ c = 93)%N ->
    read_item (d ++ c :: rest) = Some (i, c :: rest).
  Proof.
    intros H Hc. destruct H as [s Hs|r Hr].
    - apply read_item_quoted. exact Hs.
    - destruct Hr as ((x & r' & -> & Hx & _) & H1 & H2). cbn [app read_item]. rewrite Hx.
      change (x :: r' ++ c :: rest) with ((x :: r') ++ c :: rest). rewrite until_end_bare by assumption. reflexivity.
  Qed.

  Lemma read_list_shows is : forall ds f, Forall2 shows_item is ds -> is <> [] -> length is <= f ->
    read_list f (join comma ds ++ [93%N]) = Some is.
  Proof.
    induction is as [|i is IH]; intros ds f H Hne Hf; [congruence|].
    inversion H as [|? d ? ds' Hid Hrest]; subst. destruct f as [|f]; [cbn in Hf; lia|].
    destruct is as [|i2 is].
    - inversion Hrest; subst. cbn [join read_list].
      rewrite (read_item_shows i d 93%N []) by auto. cbn. reflexivity.
    - inversion Hrest as [|? d2 ? ds2 Hid2 Hrest2]; subst.
      assert (E : join comma (d :: d2 :: ds2) ++ [93%N] = d ++ 44%N :: 32%N :: (join comma (d2 :: ds2) ++ [93%N])).
      { change (join comma (d :: d2 :: ds2)) with (d ++ comma ++ join comma (d2 :: ds2)).
        rewrite <- !app_assoc. reflexivity. }
      rewrite E. clear E. cbn [read_list].
      rewrite (read_item_shows i d 44%N _ Hid) by auto.
      change ((44 =? 44) && (32 =? 32))%N%bool with true. cbv iota.
      rewrite IH; [reflexivity|constructor; assumption|discriminate|cbn in Hf |- *; lia].
  Qed.

  Lemma shows_nonempty i d : shows_item i d -> 1 <= length d.
  Proof.
    intros [s Hs|r Hr].
    - unfold repr_str. cbn. lia.
    - destruct Hr as ((x & r' & -> & _) & _). cbn. lia.
  Qed.
  Lemma join_length is : forall ds, Forall2 shows_item is ds -> length is <= length (join comma ds).
  Proof.
    induction is as [|i is IH]; intros ds H; [cbn; lia|]. inversion H as [|? d ? ds' Hid Hrest]; subst.
    pose proof (shows_nonempty _ _ Hid). specialize (IH _ Hrest).
    destruct ds' as [|d2 ds2].
    - inversion Hrest; subst. cbn [join length]. lia.
    - change (join comma (d :: d2 :: ds2)) with (d ++ comma ++ join comma (d2 :: ds2)).
      rewrite !app_length. cbn [length] in *. lia.
  Qed.

  Lemma read_items_list is ds : Forall2 shows_item is ds -> is <> [] ->
    read_items (of_string "[" ++ join comma ds ++ of_string "]") = Some is.
  Proof.
    intros H Hne. change (of_string "[") with [91%N]. change (of_string "]") with [93%N].
    cbn [app read_items]. change (91 =? 91)%N with true. cbv iota.
    apply read_list_shows; [exact H|exact Hne|]. cbn [length]. rewrite app_length. pose proof (join_length _ _ H). lia.
  Qed.

  Lemma read_items_one i d : shows_item i d -> read_items d = Some [i].
  Proof.
    intros [s Hs|r Hr].
    - rewrite <- (app_nil_r (repr_str printable s)), repr_str_unfold. cbn [read_items].
      assert (E : (quote_of s =? 91)%N = false) by (destruct (quote_is_q s) as [-> | ->]; reflexivity). rewrite E.
      rewrite is_q_quote by apply quote_is_q.
      rewrite unquote_escape; [reflexivity|apply quote_is_q|exact Hs|].
      rewrite app_length. pose proof (escape_length (quote_of s) s). cbn [length]. lia.
    - destruct Hr as ((x & r' & -> & Hx & Hb) & _). cbn [read_items].
      rewrite (proj2 (N.eqb_neq x 91) Hb), Hx. reflexivity.
  Qed.

  (** no line breaks *)
  Lemma hex_digit_no_newline d : (d < 16)%N -> hex_digit d <> 10%N.
  Proof. intros H. unfold hex_digit. destruct (d <? 10)%N; lia. Qed.
  Lemma hex_no_newline k : forall n, ~ In 10%N (hex k n).
  Proof.
    induction k as [|k IH]; intros n H; [destruct H|]. cbn [hex] in H. apply in_app_or in H.
    destruct H as [H|[H|[]]]; [exact (IH _ H)|]. apply (hex_digit_no_newline (n mod 16)); [apply N.mod_lt; lia|exact H].
  Qed.
  Lemma escape_no_newline q c : is_q q -> ~ In 10%N (escape_char printable q c).
  Proof.
    intros Hq. unfold escape_char.
    destruct (N.eqb_spec c q) as [->|Hcq].
    { cbn [orb In]. destruct Hq as [-> | ->]; intuition discriminate. }
    destruct (N.eqb_spec c 92) as [->|H92]; [cbn; intuition discriminate|]. cbn [orb].
    destruct (N.eqb_spec c 9) as [->|H9]; [cbn; intuition discriminate|].
    destruct (N.eqb_spec c 10) as [->|H10]; [cbn; intuition discriminate|].
    destruct (N.eqb_spec c 13) as [->|H13]; [cbn; intuition discriminate|].
    assert (Hh : forall e k, e <> 10%N -> ~ In 10%N (92%N :: e :: hex k c)).
    { intros e k He [H|[H|H]]; [discriminate|congruence|exact (hex_no_newline _ _ H)]. }
    destruct ((c <? 32) || (c =? 127))%N; [apply Hh; discriminate|].
    destruct (c <? 127)%N; [intros [H|[]]; congruence|].
    destruct (printable c); [intros [H|[]]; congruence|].
    destruct (c <? 256)%N; [apply Hh; discriminate|]. destruct (c <? 65536)%N; apply Hh; discriminate.
  Qed.
  Lemma repr_str_no_newline s : ~ In 10%N (repr_str printable s).
  Proof.
    unfold repr_str. pose proof (quote_is_q s) as Hq. intros [H|H].
    - destruct Hq as [E|E]; rewrite E in H; discriminate.
    - apply in_app_or in H. destruct H as [H|[H|[]]].
      + apply in_flat_map in H. destruct H as (c & _ & H). exact (escape_no_newline _ _ Hq H).
      + destruct Hq as [E|E]; rewrite E in H; discriminate.
  Qed.
End Strings.

(** ** Lines and blocks *)
Lemma lines_app l t : ~ In 10%N l -> lines (l ++ 10%N :: t) = l :: lines t.
Proof.
  intros H. induction l as [|c l IH]; [reflexivity|]. cbn [app lines].
  destruct (N.eqb_spec c 10) as [->|_]; [exfalso; apply H; left; reflexivity|].
  rewrite IH by (intros Hin; apply H; right; exact Hin). reflexivity.
Qed.

Definition block_step (l : text) (acc : list text * list (list text)) : list text * list (list text) :=
  if match l with c :: _ => (c =? 45)%N | [] => false end
  then ([], (skipn 2 l :: fst acc) :: snd acc)
  else (skipn 2 l :: fst acc, snd acc).
Lemma block_tail bodies acc : fold_right block_step acc (map (fun b => of_string "  " ++ b) bodies) =
  (bodies ++ fst acc, snd acc).
Proof.
  induction bodies as [|b bodies IH]; [destruct acc; reflexivity|]. cbn [map fold_right]. rewrite IH. reflexivity.
Qed.
Lemma block_whole b bodies acc :
  fold_right block_step acc ((of_string "- " ++ b) :: map (fun b => of_string "  " ++ b) bodies) =
  ([], (b :: bodies ++ fst acc) :: snd acc).
Proof. cbn [fold_right]. rewrite block_tail. reflexivity. Qed.

(** what a description is made of: blocks of pairs of a name and a text *)
Definition body (nd : text * text) : text := name_line (fst nd) (snd nd).
Definition line_text (prefix : text) (nd : text * text) : text := prefix ++ body nd ++ [10%N].
Definition block_text (b : list (text * text)) : text :=
  match b with [] => [] | nd :: b' => line_text (of_string "- ") nd ++ flat_map (line_text (of_string "  ")) b' end.
Definition clear_block (b : list (text * text)) : Prop := Forall (fun nd => ~ In 10%N (fst nd) /\ ~ In 10%N (snd nd)) b.

Lemma body_no_newline nd : ~ In 10%N (fst nd) -> ~ In 10%N (snd nd) -> ~ In 10%N (body nd).
Proof.
  intros H1 H2 H. unfold body, name_line in H. apply in_app_or in H. destruct H as [H|H]; [auto|].
  cbn in H. destruct H as [H|[H|H]]; [discriminate|discriminate|auto].
Qed.
Lemma lines_line p nd t : ~ In 10%N p -> ~ In 10%N (fst nd) -> ~ In 10%N (snd nd) ->
  lines (line_text p nd ++ t) = (p ++ body nd) :: lines t.
Proof.
  intros Hp H1 H2. unfold line_text. rewrite <- !app_assoc. rewrite app_assoc. cbn [app]. apply lines_app.
  intros H. apply in_app_or in H. destruct H as [H|H]; [auto|]. exact (body_no_newline nd H1 H2 H).
Qed.
Lemma lines_tail b t : clear_block b ->
  lines (flat_map (line_text (of_string "  ")) b ++ t) = map (fun nd => of_string "  " ++ body nd) b ++ lines t.
Proof.
  intros H. induction H as [|nd b [H1 H2] _ IH]; [reflexivity|]. cbn [flat_map map]. rewrite <- app_assoc.
  rewrite lines_line by (auto; cbn; intuition discriminate). rewrite IH. reflexivity.
Qed.
Lemma lines_block b t : clear_block b -> b <> [] ->
  lines (block_text b ++ t) =
  match b with [] => [] | nd :: b' => (of_string "- " ++ body nd) :: map (fun nd => of_string "  " ++ body nd) b' end ++ lines t.
Proof.
  intros H Hne. destruct b as [|nd b]; [congruence|]. inversion H as [|? ? [H1 H2] Hb]; subst.
  cbn [block_text]. rewrite <- app_assoc. rewrite lines_line by (auto; cbn; intuition discriminate).
  rewrite lines_tail by exact Hb. reflexivity.
Qed.

Lemma blocks_lines bs : Forall clear_block bs -> Forall (fun b => b <> []) bs ->
  fold_right block_step ([], []) (lines (flat_map block_text bs)) = ([], map (map body) bs).
Proof.
  intros H1 H2. induction bs as [|b bs IH]; [reflexivity|]. inversion H1; subst. inversion H2; subst.
  cbn [flat_map map]. rewrite lines_block by assumption. rewrite fold_right_app.
  match goal with |- fold_right _ ?x _ = _ => replace x with (@nil text, map (map body) bs) by (symmetry; apply IH; assumption) end.
  destruct b as [|nd b]; [congruence|].
  rewrite <- (map_map body (fun x => of_string "  " ++ x) b). rewrite block_whole. cbn [fst snd]. rewrite app_nil_r. reflexivity.
Qed.

Lemma reading_blocks bs : Forall clear_block bs -> Forall (fun b => b <> []) bs ->
  reading (flat_map block_text bs) = map (map body) bs.
Proof.
  intros H1 H2. unfold reading.
  change (blocks (lines (flat_map block_text bs))) with (snd (fold_right block_step ([], []) (lines (flat_map block_text bs)))).
  rewrite blocks_lines by assumption. reflexivity.
Qed.

(** ** Descriptions *)
Lemma Ok_inj {A} (a b : A) : Ok a = Ok b -> a = b.
Proof. congruence. Qed.

Section Desc.
  Variable printable : N -> bool.
  Context {V : Type}.
  Variable show_value : V -> text.
  Variable choices : dict nat info.
  Variable names : dict nat text.
  Notation describe_range := (describe_range printable show_value).
  Notation describe_subgrid := (describe_subgrid printable show_value choices names).
  Notation describe_grid := (describe_grid printable show_value choices names).

  (** the name and the text shown for an entry of a sub-grid *)
  Definition entry_line (kv : nat * range V) (nd : text * text) : Prop :=
    exists c, dget (fst kv) choices = Some c /\ dget (fst kv) names = Some (fst nd) /\ describe_range c (snd kv) = Ok (snd nd).

  Lemma subgrid_tail g : forall t, describe_subgrid (of_string "  ") g = Ok t ->
    exists b, Forall2 entry_line g b /\ t = flat_map (line_text (of_string "  ")) b.
  Proof.
    induction g as [|[k v] g IH]; intros t E.
    - injection E as <-. exists []. split; [constructor|reflexivity].
    - cbn [M_describe.describe_subgrid] in E. destruct (dget k choices) as [c|] eqn:Ec; [|discriminate].
      destruct (dget k names) as [n|] eqn:En; [|discriminate].
      destruct (describe_range c v) as [d|] eqn:Ed; [|discriminate]. cbn [bind] in E.
      destruct (describe_subgrid (of_string "  ") g) as [rest|] eqn:Er; [|discriminate]. cbn [bind] in E.
      apply Ok_inj in E. subst t. destruct (IH _ eq_refl) as (b & Hb & ->). exists ((n, d) :: b). split.
      + constructor; [|exact Hb]. exists c. auto.
      + cbn [flat_map]. unfold line_text, body, name_line. cbn [fst snd]. rewrite <- !app_assoc. reflexivity.
  Qed.
  Lemma subgrid_block g t : describe_subgrid (of_string "- ") g = Ok t ->
    exists b, Forall2 entry_line g b /\ t = block_text b.
  Proof.
    destruct g as [|[k v] g]; intros E.
    - injection E as <-. exists []. split; [constructor|reflexivity].
    - cbn [M_describe.describe_subgrid] in E. destruct (dget k choices) as [c|] eqn:Ec; [|discriminate].
      destruct (dget k names) as [n|] eqn:En; [|discriminate].
      destruct (describe_range c v) as [d|] eqn:Ed; [|discriminate]. cbn [bind] in E.
      destruct (describe_subgrid (of_string "  ") g) as [rest|] eqn:Er; [|discriminate]. cbn [bind] in E.
      apply Ok_inj in E. subst t. destruct (subgrid_tail _ _ Er) as (b & Hb & ->). exists ((n, d) :: b). split.
      + constructor; [|exact Hb]. exists c. auto.
      + cbn [block_text]. unfold line_text at 2; unfold body, name_line. cbn [fst snd]. rewrite <- !app_assoc. reflexivity.
  Qed.

  Definition empty_text : text := of_string "<empty parameter grid>" ++ [10%N].

  (** the text is made of one block for each sub-grid, or says that the grid is empty *)
  Lemma describe_grid_blocks gs t : describe_grid gs = Ok t ->
    exists bs, Forall2 (Forall2 entry_line) gs bs /\
      t = match flat_map block_text bs with [] => empty_text | t => t end.
  Proof.
    unfold M_describe.describe_grid. destruct (mapM _ gs) as [ts|] eqn:E; [|discriminate]. cbn [bind].
    intros H. injection H as <-. apply mapM_Forall2 in E.
    assert (Hbs : exists bs, Forall2 (Forall2 entry_line) gs bs /\ ts = map block_text bs).
    { induction E as [|g t gs ts Hg _ IH]; [exists []; split; [constructor|reflexivity]|].
      destruct (subgrid_block _ _ Hg) as (b & Hb & ->). destruct IH as (bs & H1 & ->).
      exists (b :: bs). split; [constructor; assumption|reflexivity]. }
    destruct Hbs as (bs & H1 & ->). exists bs. split; [exact H1|]. rewrite <- flat_map_concat_map. reflexivity.
  Qed.

  Definition nonempty_block {A} (b : list A) : bool := match b with [] => false | _ => true end.
  Lemma flat_map_nonempty bs : flat_map block_text (filter nonempty_block bs) = flat_map block_text bs.
  Proof. induction bs as [|[|nd b] bs IH]; [reflexivity|exact IH|]. cbn [filter nonempty_block flat_map]. rewrite IH. reflexivity. Qed.
  Lemma Forall2_nonempty gs bs : Forall2 (Forall2 entry_line) gs bs ->
    Forall2 (Forall2 entry_line) (filter nonempty_block gs) (filter nonempty_block bs).
  Proof.
    induction 1 as [|g b gs bs Hgb _ IH]; [constructor|]. destruct Hgb; cbn [filter nonempty_block]; [exact IH|].
    constructor; [constructor; assumption|exact IH].
  Qed.

  (** names and texts that fit on a line *)
  Definition clear_names : Prop := forall k n, dget k names = Some n -> ~ In 10%N n.
  Definition clear_texts (gs : list (grid V)) : Prop := forall g k v c d, In g gs -> In (k, v) g ->
    dget k choices = Some c -> describe_range c v = Ok d -> ~ In 10%N d.

  Lemma Forall2_clear (Hnames : clear_names) gs bs : clear_texts gs ->
    Forall2 (Forall2 entry_line) gs bs -> Forall clear_block bs.
  Proof.
    intros Ht H. induction H as [|g b gs bs Hgb _ IH]; [constructor|]. constructor.
    - assert (Hg : forall k v c d, In (k, v) g -> dget k choices = Some c -> describe_range c v = Ok d -> ~ In 10%N d).
      { intros k v c d Hin. apply (Ht g k v c d); [left; reflexivity|exact Hin]. }
      clear IH Ht. induction Hgb as [|[k v] [n d] g b (c & H1 & H2 & H3) _ IH]; [constructor|]. constructor.
      + cbn [fst snd] in *. split; [exact (Hnames _ _ H2)|]. apply (Hg k v c d); [left; reflexivity|exact H1|exact H3].
      + apply IH. intros k' v' c' d' Hin. apply Hg. right. exact Hin.
    - apply IH. intros g' k v c d Hin. apply (Ht g' k v c d). right. exact Hin.
  Qed.

  Lemma reading_empty : reading empty_text = [].
  Proof. vm_compute. reflexivity. Qed.

  Lemma block_text_cons nd b : exists x t, block_text (nd :: b) = x :: t /\ x = 45%N.
  Proof. eexists. eexists. split; [reflexivity|reflexivity]. Qed.

  Lemma flat_map_block_nil bs : flat_map block_text bs = [] -> filter nonempty_block bs = [].
  Proof.
    induction bs as [|[|nd b] bs IH]; intros H; [reflexivity|exact (IH H)|].
    cbn [flat_map] in H. apply app_eq_nil in H. destruct H as [H _].
    destruct (block_text_cons nd b) as (x & t & E & _). congruence.
  Qed.

  Theorem reading_describe (Hnames : clear_names) gs t : clear_texts gs -> describe_grid gs = Ok t ->
    exists bs, reading t = map (map body) bs /\ Forall2 (Forall2 entry_line) (filter nonempty_block gs) bs.
  Proof.
    intros Ht E. apply describe_grid_blocks in E. destruct E as (bs & Hbs & ->).
    exists (filter nonempty_block bs). split; [|apply Forall2_nonempty; exact Hbs].
    destruct (flat_map block_text bs) as [|x t] eqn:Ef.
    - rewrite reading_empty. rewrite (flat_map_block_nil _ Ef). reflexivity.
    - rewrite <- Ef, <- flat_map_nonempty. apply reading_blocks.
      + apply Forall_forall. intros b Hb. apply filter_In in Hb. destruct Hb as [Hb _].
        exact (proj1 (Forall_forall _ _) (Forall2_clear Hnames gs bs Ht Hbs) b Hb).
      + apply Forall_forall. intros b Hb Eb. apply filter_In in Hb. subst. destruct Hb as [_ Hb]. discriminate.
  Qed.

  Theorem empty_described gs t : describe_grid gs = Ok t -> (t = empty_text <-> forall g, In g gs -> g = []).
  Proof.
    intros E. apply describe_grid_blocks in E. destruct E as (bs & Hbs & ->). split.
    - intros E g Hg.
      assert (Hb : filter nonempty_block bs = []).
      { apply flat_map_block_nil. destruct (filter nonempty_block bs) as [|[|nd b] bs'] eqn:Eb.
        - rewrite <- flat_map_nonempty, Eb. reflexivity.
        - assert (Hin : In [] (filter nonempty_block bs)) by (rewrite Eb; left; reflexivity).
          apply filter_In in Hin. destruct Hin as [_ Hin]. discriminate.
        - rewrite <- flat_map_nonempty, Eb in E. cbn [flat_map] in E.
          destruct (block_text_cons nd b) as (x & t & Ex & ->). rewrite Ex in E. cbn [app] in E.
          unfold empty_text in E. cbn in E. discriminate. }
      pose proof (Forall2_nonempty _ _ Hbs) as H. rewrite Hb in H. inversion H as [Hf|]. destruct g as [|kv g]; [reflexivity|].
      assert (Hin : In (kv :: g) (filter nonempty_block gs)) by (apply filter_In; split; [exact Hg|reflexivity]).
      rewrite <- Hf in Hin. destruct Hin.
    - intros H. assert (E : flat_map block_text bs = []).
      { induction Hbs as [|g b gs bs Hgb _ IH]; [reflexivity|].
        rewrite (H g (or_introl eq_refl)) in Hgb. inversion Hgb; subst. cbn [flat_map block_text app].
        apply IH. intros g' Hg'. apply H. right. exact Hg'. }
      rewrite E. reflexivity.
  Qed.
End Desc.
