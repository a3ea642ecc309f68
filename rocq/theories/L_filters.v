(** Lemmas about the menu of column filters of a report. *)
From Coq Require Import Sorted.
From Verif Require Import Base M_names M_select M_clean M_filters L_dict.
Open Scope string_scope.
Open Scope list_scope.
Open Scope nat_scope.
Set Default Proof Using "Type".

Section Filters.
  Context {N TZ O K : Type}.
  Notation column := (@M_clean.column N TZ O K).
  Variable empty_is_string : bool.
  Context {num : Type}.
  Variable above : num -> bool.

  (** ** What the entries of the menu announce, for a column at position [i] *)
  Definition HasNull (c : column) : Prop := exists n, In (CNull n) (cells c).
  Definition Numbers (c : column) : Prop := exists b, cdtype c = TNum b.
  (** strings, or objects of pandas that are strings or null *)
  Definition Strings (c : column) : Prop :=
    cdtype c = TStr \/
    (M_clean.clib c = M_todt.Pandas /\ cdtype c = TObj /\ (forall x, In x (cells c) -> (exists n, x = CNull n) \/ exists s, x = CStr s) /\
     ((exists s, In (CStr s) (cells c)) \/ empty_is_string = true)).
  Definition Categories (c : column) : Prop := exists k, cdtype c = TCat k.
  Definition Dates (c : column) : Prop := exists d, cdtype c = TTime d.
  (** associated with another column, in one of the associations of the report *)
  Definition Similar (top : list (asso num)) (i : nat) : Prop :=
    exists a, In a top /\ above (score a) = true /\ (left_idx a = i \/ right_idx a = i).
  Inductive Announced (top : option (list (asso num))) (i : nat) (c : column) : string -> Prop :=
  | An_all : Announced top i c "All columns"
  | An_first : i < 10 -> Announced top i c "First 10"
  | An_similar l : top = Some l -> Similar l i -> Announced top i c "High similarity"
  | An_nulls : HasNull c -> Announced top i c "With nulls"
  | An_no_nulls : ~ HasNull c -> Announced top i c "Without nulls"
  | An_numeric : Numbers c -> Announced top i c "Numeric"
  | An_not_numeric : ~ Numbers c -> Announced top i c "Non-numeric"
  | An_string : Strings c -> Announced top i c "String"
  | An_not_string : ~ Strings c -> Announced top i c "Non-string"
  | An_categorical : Categories c -> Announced top i c "Categorical"
  | An_not_categorical : ~ Categories c -> Announced top i c "Non-categorical"
  | An_date : Dates c -> Announced top i c "Datetime"
  | An_not_date : ~ Dates c -> Announced top i c "Non-datetime".

  (** the associations of a report: positions of columns, by decreasing scores *)
  Definition AssoOk (n : nat) (l : list (asso num)) : Prop :=
    Forall (fun a => left_idx a < n /\ right_idx a < n) l /\
    StronglySorted (fun a b => above (score b) = true -> above (score a) = true) l.
  (** positions, in order, that satisfy [P] *)
  Definition Exactly (n : nat) (P : nat -> Prop) (l : list nat) : Prop :=
    StronglySorted lt l /\ forall i, In i l <-> i < n /\ P i.

  (** ** Predicates *)
  Lemma has_nulls_spec : forall c : column, has_nulls c = true <-> HasNull c.
  Proof.
    intros c. unfold has_nulls, HasNull. rewrite existsb_exists. split.
    - intros (x & I & E). destruct x; try discriminate. eauto.
    - intros (n & I). exists (CNull n). auto.
  Qed.
  Lemma numbers_spec : forall c : column, is_numeric c = true <-> Numbers c.
  Proof. intros c. unfold is_numeric, Numbers. destruct (cdtype c); split; try discriminate; try (intros [b E]; discriminate); eauto. Qed.
  Lemma categories_spec : forall c : column, is_categorical c = true <-> Categories c.
  Proof. intros c. unfold is_categorical, Categories. destruct (cdtype c); split; try discriminate; try (intros [b E]; discriminate); eauto. Qed.
  Lemma dates_spec : forall c : column, is_any_date c = true <-> Dates c.
  Proof. intros c. unfold is_any_date, Dates. destruct (cdtype c); split; try discriminate; try (intros [b E]; discriminate); eauto. Qed.
  Lemma strings_spec : forall c : column, is_string empty_is_string c = true <-> Strings c.
  Proof.
    intros c. unfold is_string, Strings. destruct (cdtype c) eqn:Et.
    1: { split; auto. }
    2-7: destruct (M_clean.clib c); split; try discriminate; intros [E|(_ & E & _)]; discriminate.
    destruct (M_clean.clib c) eqn:El.
    2: { split; [discriminate|]. intros [E|(E & _)]; discriminate. }
    transitivity ((forall x, In x (cells c) -> (exists n, x = CNull n) \/ exists s, x = CStr s) /\
                  ((exists s, In (CStr s) (cells c)) \/ empty_is_string = true)).
    2: { split; [intros H; right; auto|]. intros [E|(_ & _ & H)]; [discriminate|exact H]. }
    induction (cells c) as [|x l IH]; simpl.
    - split; [intros ->; split; [intros x []|right; reflexivity]|]. intros [_ [(s & [])|E]]. exact E.
    - destruct x as [n| | |s| | |]; simpl.
      1: { rewrite IH. split.
           - intros [A B]. split; [intros y [<-|I]; [left; eauto|apply A; exact I]|]. destruct B as [(s & I)|E]; [left; eauto|right; exact E].
           - intros [A B]. split; [intros y I; apply A; auto|]. destruct B as [(s & [E|I])|E]; [discriminate|left; eauto|right; exact E]. }
      1,2,4,5,6: split; [discriminate|]; intros [A _]; exfalso; destruct (A _ (or_introl eq_refl)) as [(n & E)|(s & E)]; discriminate.
      rewrite forallb_forall. split.
      + intros F. split; [|left; eauto]. intros y [<-|I]; [right; eauto|]. destruct (is_null y) eqn:En.
        * left. destruct y; try discriminate. eauto.
        * right. assert (S : is_str y = true) by (apply F; apply filter_In; split; [exact I|rewrite En; reflexivity]).
          destruct y; try discriminate. eauto.
      + intros [A _] y I. apply filter_In in I. destruct I as [I En]. destruct (A y (or_intror I)) as [(n & ->)|(s' & ->)]; [discriminate|reflexivity].
  Qed.

  (** ** Positions *)
  Lemma sorted_seq : forall n s, StronglySorted lt (seq s n).
  Proof.
    induction n as [|n IH]; intros s; simpl; constructor; [apply IH|]. apply Forall_forall. intros i I. apply in_seq in I. lia.
  Qed.
  Lemma sorted_filter : forall (p : nat -> bool) l, StronglySorted lt l -> StronglySorted lt (filter p l).
  Proof.
    intros p l S. induction S as [|i l S IH F]; simpl; [constructor|]. destruct (p i); [|exact IH]. constructor; [exact IH|].
    apply Forall_forall. intros j I. apply filter_In in I. rewrite Forall_forall in F. apply F. apply I.
  Qed.
  Lemma sorted_nodup : forall l, StronglySorted lt l -> NoDup l.
  Proof.
    intros l S. induction S as [|i l S IH F]; constructor; [|exact IH]. intros I. rewrite Forall_forall in F. specialize (F i I). lia.
  Qed.

  Lemma expand_index_from_spec : forall (p : column -> bool) (neg : bool) (df : frame column) s,
    exists l, expand_index_from (if neg then SInv (of_pred p) else of_pred p) s df = Ok l /\
      forall i, In i l <-> exists n c, nth_error df (i - s) = Some (n, c) /\ s <= i /\ xorb neg (p c) = true.
  Proof.
    intros p neg. induction df as [|[n c] df IH]; intros s.
    - exists []. split; [destruct neg; reflexivity|]. intros i. split; [intros []|]. intros (m & d & E & _). destruct (i - s); discriminate.
    - destruct (IH (S s)) as (l & E & G). exists (if xorb neg (p c) then s :: l else l). split.
      + destruct neg; cbn [expand_index_from matches of_pred py_not bind xorb] in *; rewrite E; cbn [bind]; destruct (p c); reflexivity.
      + intros i. assert (H : In i l <-> exists m d, nth_error ((n, c) :: df) (i - s) = Some (m, d) /\ s < i /\ xorb neg (p d) = true).
        { rewrite G. split; intros (m & d & A & B & C); exists m, d.
          - split; [|split; [lia|exact C]]. replace (i - s) with (S (i - S s)) by lia. exact A.
          - split; [|split; [lia|exact C]]. replace (i - s) with (S (i - S s)) in A by lia. exact A. }
        split.
        * intros I. assert (D : i = s /\ xorb neg (p c) = true \/ In i l) by (destruct (xorb neg (p c)); [destruct I as [<-|I]; auto|auto]).
          destruct D as [[-> X]|I'].
          -- exists n, c. rewrite Nat.sub_diag. auto.
          -- apply H in I'. destruct I' as (m & d & A & B & C). exists m, d. split; [exact A|]. split; [lia|exact C].
        * intros (m & d & A & B & C). destruct (Nat.eq_dec i s) as [->|Ne].
          -- rewrite Nat.sub_diag in A. injection A as <- <-. rewrite C. left. reflexivity.
          -- assert (I' : In i l) by (apply H; exists m, d; split; [exact A|split; [lia|exact C]]). destruct (xorb neg (p c)); [right|]; exact I'.
  Qed.

  (** ** The default filters *)
  (** [cols] are the positions in [Some i < n] that satisfy [P] *)
  Definition FilterOk (n : nat) (P : nat -> Prop) (f : colfilter) : Prop :=
    exists cols, fcolumns f = map RIdx cols /\ forall i, In i cols <-> i < n /\ P i.
  Lemma select_FilterOk : forall d n k f P, dget k d = Some f -> FilterOk n P f ->
    exists l, select_entry d n k = Ok (l, length l) /\ Exactly n P l.
  Proof.
    intros d n k f P E (cols & Ef & G). unfold select_entry. rewrite E, Ef.
    set (l := filter (fun i => mem (RIdx i) (map RIdx cols)) (seq 0 n)).
    assert (S : StronglySorted lt l) by (apply sorted_filter, sorted_seq).
    assert (M : forall i, In i l <-> In i cols).
    { intros i. unfold l. rewrite filter_In, in_seq, mem_true, in_map_iff. split.
      - intros [_ (j & Ej & I)]. injection Ej as ->. exact I.
      - intros I. split; [apply G in I; lia|]. exists i. auto. }
    exists l. split; [|split; [exact S|]].
    - f_equal. f_equal. rewrite <- (map_length RIdx l). apply Permutation_length. apply NoDup_Permutation.
      + apply NoDup_nodup.
      + apply FinFun.Injective_map_NoDup; [intros a b Eab; congruence|apply sorted_nodup; exact S].
      + intros r. rewrite nodup_In, !in_map_iff. split; intros (i & <- & I); exists i; split; try reflexivity; apply M; exact I.
    - intros i. rewrite M. apply G.
  Qed.

  Lemma high_spec : forall l, StronglySorted (fun a b => above (score b) = true -> above (score a) = true) l ->
    forall i, In i (high_association_columns above l) <-> Similar l i.
  Proof.
    intros l S. induction S as [|a l S IH F]; intros i; simpl.
    - split; [intros []|]. intros (a & [] & _).
    - destruct (above (score a)) eqn:Ea.
      + simpl. rewrite IH. split.
        * intros [E|[E|(b & I & B)]]; [exists a; simpl; auto|exists a; simpl; auto|exists b; simpl; tauto].
        * intros (b & [<-|I] & Eb & D); [destruct D; auto|]. right. right. exists b. auto.
      + split; [intros []|]. intros (b & [<-|I] & Eb & _); [congruence|]. rewrite Forall_forall in F. pose proof (F b I Eb) as Ea'. congruence.
  Qed.

  Definition Menu (n : nat) (with_top : bool) : list (string * string) :=
    [("all()", "All columns")] ++ (if 10 <? n then [("first_10", "First 10")] else []) ++
    (if with_top then [("high_association", "High similarity")] else []) ++
    [("has_nulls()", "With nulls"); ("(~has_nulls())", "Without nulls"); ("numeric()", "Numeric"); ("(~numeric())", "Non-numeric");
     ("string()", "String"); ("(~string())", "Non-string"); ("categorical()", "Categorical"); ("(~categorical())", "Non-categorical");
     ("any_date()", "Datetime"); ("(~any_date())", "Non-datetime")].

  Lemma FilterOk_ext : forall n P Q f, (forall i, i < n -> (P i <-> Q i)) -> FilterOk n P f -> FilterOk n Q f.
  Proof.
    intros n P Q f H (cols & E & G). exists cols. split; [exact E|]. intros i. rewrite G. split; intros [L X]; split; try exact L; apply (H i L); exact X.
  Qed.
  (** the filter of a selector *)
  Lemma selector_ok : forall (p : column -> bool) (Q : column -> Prop) (neg : bool) (df : frame column) name,
    (forall c, p c = true <-> Q c) ->
    exists cols, expand_index (if neg then SInv (of_pred p) else of_pred p) df = Ok cols /\
      FilterOk (length df) (fun i => forall n c, nth_error df i = Some (n, c) -> if neg then ~ Q c else Q c)
        {| display_name := name; fcolumns := map RIdx cols |}.
  Proof.
    intros p Q neg df name H. destruct (expand_index_from_spec p neg df 0) as (l & E & G).
    exists l. split; [exact E|]. exists l. split; [reflexivity|]. intros i. rewrite G, Nat.sub_0_r. split.
    - intros (n & c & A & _ & B). split; [apply nth_error_Some; congruence|]. intros n' c' A'. rewrite A in A'. injection A' as <- <-.
      destruct neg; [|apply H; destruct (p c); [reflexivity|discriminate]].
      intros X. apply H in X. rewrite X in B. discriminate.
    - intros [L X]. destruct (nth_error df i) as [[n c]|] eqn:A; [|apply nth_error_None in A; lia].
      exists n, c. split; [reflexivity|]. split; [lia|]. specialize (X n c eq_refl). destruct neg; simpl.
      + destruct (p c) eqn:Ep; [|reflexivity]. exfalso. apply X, H. exact Ep.
      + apply H in X. rewrite X. reflexivity.
  Qed.

  (** each entry of the menu of [d], with its filter *)
  Definition MenuOk (df : frame column) (top : option (list (asso num))) (kv : string * colfilter) : Prop :=
    FilterOk (length df) (fun i => forall n c, nth_error df i = Some (n, c) -> Announced top i c (display_name (snd kv))) (snd kv).

  Lemma add_selectors_spec : forall (l : list (string * selector column)) df d,
    (forall k s, In (k, s) l -> exists cols nm, expand_index s df = Ok cols /\ dget k FILTER_NAMES = Some nm) ->
    NoDup (map fst l) -> (forall k, In k (map fst l) -> ~ In k (dkeys d)) ->
    exists extra, add_selectors l df d = Ok (d ++ extra) /\
      Forall2 (fun ks kf => fst ks = fst kf /\ exists cols nm, expand_index (snd ks) df = Ok cols /\ dget (fst ks) FILTER_NAMES = Some nm /\
                 snd kf = {| display_name := nm; fcolumns := map RIdx cols |}) l extra.
  Proof.
    induction l as [|[k s] l IH]; intros df d Ok_ ND Fr.
    - exists []. rewrite app_nil_r. split; [reflexivity|constructor].
    - destruct (Ok_ k s (or_introl eq_refl)) as (cols & nm & E1 & E2).
      cbn [add_selectors]. rewrite E1. cbn [bind]. unfold add_filter at 1, filter_name. rewrite E2. cbn [bind].
      assert (Ed : dset k {| display_name := nm; fcolumns := map RIdx cols |} d = d ++ [(k, {| display_name := nm; fcolumns := map RIdx cols |})]).
      { assert (Nk : ~ In k (dkeys d)) by (apply Fr; left; reflexivity). clear - Nk. induction d as [|[a b] d IH]; simpl; [reflexivity|].
        destruct (eqd k a) as [->|]; [exfalso; apply Nk; left; reflexivity|]. rewrite IH; [reflexivity|]. intros I. apply Nk. right. exact I. }
      rewrite Ed. inversion ND as [|? ? N1 N2]; subst.
      destruct (IH df (d ++ [(k, {| display_name := nm; fcolumns := map RIdx cols |})])) as (extra & E & F2).
      + intros k' s' I. apply (Ok_ k' s'). right. exact I.
      + exact N2.
      + intros k' I. unfold dkeys. rewrite map_app, in_app_iff. simpl. intros [J|[J|[]]].
        * revert J. apply Fr. right. exact I.
        * subst k'. contradiction.
      + rewrite E. exists ((k, {| display_name := nm; fcolumns := map RIdx cols |}) :: extra). rewrite <- app_assoc. split; [reflexivity|].
        constructor; [|exact F2]. split; [reflexivity|]. exists cols, nm. auto.
  Qed.

  Lemma selectors_ok : forall (df : frame column) top d,
    (forall k, In k (map fst (@selectors N TZ O K empty_is_string)) -> ~ In k (dkeys d)) ->
    exists extra, add_selectors (selectors empty_is_string) df d = Ok (d ++ extra) /\ Forall (MenuOk df top) extra /\
      menu extra = [("has_nulls()", "With nulls"); ("(~has_nulls())", "Without nulls"); ("numeric()", "Numeric"); ("(~numeric())", "Non-numeric");
        ("string()", "String"); ("(~string())", "Non-string"); ("categorical()", "Categorical"); ("(~categorical())", "Non-categorical");
        ("any_date()", "Datetime"); ("(~any_date())", "Non-datetime")].
  Proof.
    intros df top d Fr.
    destruct (add_selectors_spec (selectors empty_is_string) df d) as (extra & E & F2).
    { intros k s I.
      assert (H : exists (p : column -> bool) (neg : bool) (nm : string), s = (if neg then SInv (of_pred p) else of_pred p) /\ dget k FILTER_NAMES = Some nm).
      { cbn in I. repeat (destruct I as [I|I]; [injection I as <- <-; first [eexists _, false, _; split; [reflexivity|vm_compute; reflexivity]|eexists _, true, _; split; [reflexivity|vm_compute; reflexivity]]|]). destruct I. }
      destruct H as (p & neg & nm & -> & En). destruct (expand_index_from_spec p neg df 0) as (l & El & _).
      exists l, nm. split; [exact El|exact En]. }
    { cbn. repeat (constructor; [intros I; repeat (destruct I as [I|I]; [discriminate|]); exact I|]). constructor. }
    { exact Fr. }
    exists extra. split; [exact E|].
    cbn [selectors flat_map app fst snd] in F2.
    repeat match goal with F : Forall2 _ (_ :: _) _ |- _ => inversion F; clear F; subst end.
    match goal with F : Forall2 _ [] _ |- _ => inversion F; clear F; subst end.
    repeat match goal with x : (string * colfilter)%type |- _ => destruct x end. cbn [fst snd] in *.
    repeat match goal with H : _ /\ exists _ _, _ |- _ => destruct H as (? & ? & ? & ? & ? & ?) end. subst.
    repeat match goal with H : dget _ FILTER_NAMES = Some _ |- _ => vm_compute in H; injection H as <- end.
    split; [|reflexivity].
    assert (G : forall (p : column -> bool) (Q : column -> Prop) (neg : bool) k name cols, (forall c, p c = true <-> Q c) ->
              expand_index (if neg then SInv (of_pred p) else of_pred p) df = Ok cols ->
              (forall i c, (if neg then ~ Q c else Q c) <-> Announced top i c name) ->
              MenuOk df top (k, {| display_name := name; fcolumns := map RIdx cols |})).
    { intros p Q neg k name cols Hp Ec Ha. destruct (selector_ok p Q neg df name Hp) as (cols' & Ec' & FO). rewrite Ec in Ec'. injection Ec' as <-.
      unfold MenuOk. cbn [snd display_name]. revert FO. apply FilterOk_ext. intros i L. split; intros X n c A; [apply (proj1 (Ha i c))|apply (proj2 (Ha i c))]; apply (X n c A). }
    repeat (constructor; [first
      [ refine (G has_nulls HasNull false _ _ _ has_nulls_spec ltac:(eassumption) _); intros i c; split; [intros A; constructor; exact A|intros A; inversion A; assumption]
      | refine (G has_nulls HasNull true _ _ _ has_nulls_spec ltac:(eassumption) _); intros i c; split; [intros A; constructor; exact A|intros A; inversion A; assumption]
      | refine (G is_numeric Numbers false _ _ _ numbers_spec ltac:(eassumption) _); intros i c; split; [intros A; constructor; exact A|intros A; inversion A; assumption]
      | refine (G is_numeric Numbers true _ _ _ numbers_spec ltac:(eassumption) _); intros i c; split; [intros A; constructor; exact A|intros A; inversion A; assumption]
      | refine (G (is_string empty_is_string) Strings false _ _ _ strings_spec ltac:(eassumption) _); intros i c; split; [intros A; constructor; exact A|intros A; inversion A; assumption]
      | refine (G (is_string empty_is_string) Strings true _ _ _ strings_spec ltac:(eassumption) _); intros i c; split; [intros A; constructor; exact A|intros A; inversion A; assumption]
      | refine (G is_categorical Categories false _ _ _ categories_spec ltac:(eassumption) _); intros i c; split; [intros A; constructor; exact A|intros A; inversion A; assumption]
      | refine (G is_categorical Categories true _ _ _ categories_spec ltac:(eassumption) _); intros i c; split; [intros A; constructor; exact A|intros A; inversion A; assumption]
      | refine (G is_any_date Dates false _ _ _ dates_spec ltac:(eassumption) _); intros i c; split; [intros A; constructor; exact A|intros A; inversion A; assumption]
      | refine (G is_any_date Dates true _ _ _ dates_spec ltac:(eassumption) _); intros i c; split; [intros A; constructor; exact A|intros A; inversion A; assumption] ]|]).
    constructor.
  Qed.

  Theorem filters_ok : forall (df : frame column) top, (forall l, top = Some l -> AssoOk (length df) l) ->
    exists d, get_column_filters empty_is_string above df top = Ok d /\
      menu d = Menu (length df) (match top with Some _ => true | None => false end) /\ Forall (MenuOk df top) d.
  Proof.
    intros df top Ht. unfold get_column_filters. cbv zeta.
    set (all := ("all()", {| display_name := "All columns"; fcolumns := map RIdx (seq 0 (length df)) |})).
    set (first := ("first_10", {| display_name := "First 10"; fcolumns := map RIdx (seq 0 10) |})).
    set (high := fun l => ("high_association", {| display_name := "High similarity"; fcolumns := map RIdx (high_association_columns above l) |})).
    assert (A1 : add_filter "all()" (seq 0 (length df)) [] = Ok [all]) by reflexivity.
    rewrite A1. cbn [bind].
    assert (M1 : MenuOk df top all).
    { exists (seq 0 (length df)). split; [reflexivity|]. intros i. rewrite in_seq. split; [|lia]. intros I. split; [lia|]. intros n c _. constructor. }
    set (l1 := if 10 <? length df then [first] else []).
    assert (A2 : (if 10 <? length df then add_filter "first_10" (seq 0 10) [all] else @Ok (dict string colfilter) [all]) = Ok ([all] ++ l1)).
    { unfold l1. destruct (10 <? length df); reflexivity. }
    rewrite A2. cbn [bind].
    assert (M2 : Forall (MenuOk df top) l1).
    { unfold l1. destruct (Nat.ltb_spec 10 (length df)) as [L|]; constructor; [|constructor].
      exists (seq 0 10). split; [reflexivity|]. intros i. rewrite in_seq. split.
      - intros I. split; [lia|]. intros n c _. constructor. lia.
      - intros [Li A]. destruct (nth_error df i) as [[n c]|] eqn:E; [|apply nth_error_None in E; lia].
        specialize (A n c eq_refl). inversion A; lia. }
    set (l2 := match top with Some l => [high l] | None => [] end).
    assert (A3 : match top with Some l => add_filter "high_association" (high_association_columns above l) ([all] ++ l1) | None => @Ok (dict string colfilter) ([all] ++ l1) end
                 = Ok ([all] ++ l1 ++ l2)).
    { unfold l2, l1. destruct top as [l|]; [|rewrite app_nil_r; reflexivity]. destruct (10 <? length df); reflexivity. }
    rewrite A3. cbn [bind].
    assert (M3 : Forall (MenuOk df top) l2).
    { unfold l2. destruct top as [l|]; constructor; [|constructor]. destruct (Ht l eq_refl) as [Hb Hs].
      exists (high_association_columns above l). split; [reflexivity|]. intros i. rewrite (high_spec l Hs). split.
      - intros Sm. split.
        + destruct Sm as (a & I & _ & D). rewrite Forall_forall in Hb. specialize (Hb a I). lia.
        + intros n c _. apply An_similar with l; [reflexivity|exact Sm].
      - intros [Li A]. destruct (nth_error df i) as [[n c]|] eqn:E; [|apply nth_error_None in E; lia].
        specialize (A n c eq_refl). inversion A; congruence. }
    destruct (selectors_ok df top ([all] ++ l1 ++ l2)) as (extra & E & M4 & Em).
    { intros k I. unfold l1, l2. destruct (10 <? length df), top; cbn in I |- *;
        intros J; repeat (destruct J as [J|J]; [subst k; repeat (destruct I as [I|I]; [discriminate|]); exact I|]); exact J. }
    rewrite E. eexists. split; [reflexivity|]. split.
    - unfold menu in *. rewrite !map_app, Em. unfold Menu, l1, l2. rewrite <- !app_assoc. destruct (10 <? length df), top; reflexivity.
    - rewrite !Forall_app. repeat split; try assumption. repeat constructor. exact M1.
  Qed.

  Lemma menu_keys : forall d, dkeys d = map fst (menu d).
  Proof. intros d. unfold dkeys, menu. rewrite map_map. reflexivity. Qed.
  Lemma Menu_NoDup : forall n b, NoDup (map fst (Menu n b)).
  Proof.
    intros n b. unfold Menu. destruct (10 <? n), b; cbn;
      repeat (constructor; [intros I; repeat (destruct I as [I|I]; [discriminate|]); exact I|]); constructor.
  Qed.

  (** an entry is listed if its filter is in the dictionary *)
  Lemma menu_in : forall d k name, In (k, name) (menu d) <-> exists f, In (k, f) d /\ display_name f = name.
  Proof.
    intros d k name. unfold menu. rewrite in_map_iff. split.
    - intros ([k' f] & E & I). injection E as -> <-. exists f. auto.
    - intros (f & I & <-). exists (k, f). auto.
  Qed.

  Theorem default_ok : forall (df : frame column) top, (forall l, top = Some l -> AssoOk (length df) l) ->
    exists d, report_filters empty_is_string above df top None = Ok d /\
      menu d = Menu (length df) (match top with Some _ => true | None => false end) /\
      forall k name, In (k, name) (menu d) -> exists l, select_entry d (length df) k = Ok (l, length l) /\
        Exactly (length df) (fun i => forall n c, nth_error df i = Some (n, c) -> Announced top i c name) l.
  Proof.
    intros df top Ht. destruct (filters_ok df top Ht) as (d & E & Em & F). exists d.
    assert (ND : NoDup (dkeys d)) by (rewrite menu_keys, Em; apply Menu_NoDup).
    split; [|split; [exact Em|]].
    - unfold report_filters. rewrite E. cbn [bind]. unfold merge. simpl. f_equal. clear. induction d as [|x d IH]; simpl; [reflexivity|].
      f_equal. exact IH.
    - intros k name I. apply menu_in in I. destruct I as (f & I & <-). rewrite Forall_forall in F. specialize (F _ I).
      apply dget_In_iff in I; [|exact ND]. exact (select_FilterOk d (length df) k f _ I F).
  Qed.

  (** ** Custom filters *)
  Theorem custom_ok : forall (df : frame column) top custom, (forall l, top = Some l -> AssoOk (length df) l) -> NoDup (dkeys custom) ->
    exists d, report_filters empty_is_string above df top (Some custom) = Ok d /\
      menu d = menu custom ++ filter (fun kn => negb (mem (fst kn) (dkeys custom))) (Menu (length df) (match top with Some _ => true | None => false end)) /\
      NoDup (map fst (menu d)) /\
      (forall k f, In (k, f) custom -> exists l, select_entry d (length df) k = Ok (l, length (nodup eqd (fcolumns f))) /\
         Exactly (length df) (fun i => In (RIdx i) (fcolumns f)) l) /\
      (forall k name, In (k, name) (Menu (length df) (match top with Some _ => true | None => false end)) -> ~ In k (dkeys custom) ->
         exists l, select_entry d (length df) k = Ok (l, length l) /\
           Exactly (length df) (fun i => forall n c, nth_error df i = Some (n, c) -> Announced top i c name) l).
  Proof.
    intros df top custom Ht NDc. destruct (filters_ok df top Ht) as (d & E & Em & F).
    assert (ND : NoDup (dkeys d)) by (rewrite menu_keys, Em; apply Menu_NoDup).
    exists (merge custom d).
    assert (Emm : menu (merge custom d) = menu custom ++ filter (fun kn => negb (mem (fst kn) (dkeys custom))) (menu d)).
    { unfold menu, merge. rewrite map_app. f_equal. clear. induction d as [|[k f] d IH]; simpl; [reflexivity|].
      destruct (mem k (dkeys custom)); simpl; [exact IH|]. f_equal. exact IH. }
    assert (NDm : NoDup (map fst (menu (merge custom d)))).
    { rewrite Emm, map_app. apply NoDup_app_intro.
      - rewrite <- menu_keys. exact NDc.
      - clear - ND. rewrite menu_keys in ND. induction (menu d) as [|[k x] m IH]; simpl in *; [constructor|]. inversion ND as [|? ? N1 N2]; subst.
        destruct (mem k (dkeys custom)); simpl; [apply IH; exact N2|]. constructor; [|apply IH; exact N2].
        intros I. apply N1. apply in_map_iff in I. destruct I as ([k' x'] & <- & I). apply filter_In in I. apply in_map_iff. exists (k', x'). tauto.
      - intros k I J. apply in_map_iff in J. destruct J as ([k' x] & <- & J). apply filter_In in J. destruct J as [_ J]. simpl in *.
        rewrite <- menu_keys in I. apply mem_true in I. rewrite I in J. discriminate. }
    split; [unfold report_filters; rewrite E; reflexivity|]. split; [rewrite Emm, Em; reflexivity|]. split; [exact NDm|].
    rewrite <- menu_keys in NDm. split.
    - intros k f I.
      assert (Eg : dget k (merge custom d) = Some f) by (apply dget_In_iff; [exact NDm|unfold merge; apply in_or_app; left; exact I]).
      unfold select_entry. rewrite Eg. eexists. split; [reflexivity|]. split; [apply sorted_filter, sorted_seq|].
      intros i. rewrite filter_In, in_seq, mem_true. intuition lia.
    - intros k name I Nk. rewrite <- Em in I. apply menu_in in I. destruct I as (f & I & <-).
      rewrite Forall_forall in F. specialize (F _ I).
      assert (Eg : dget k (merge custom d) = Some f).
      { apply dget_In_iff; [exact NDm|]. unfold merge. apply in_or_app. right. apply filter_In. split; [exact I|]. simpl.
        apply mem_false in Nk. rewrite Nk. reflexivity. }
      exact (select_FilterOk _ (length df) k f _ Eg F).
  Qed.

  (** ** The associations that are kept *)
  Definition AllPairs (n : nat) (l : list (asso num)) : Prop :=
    (forall i j, (exists a, In a l /\ left_idx a = i /\ right_idx a = j) <-> i < j < n) /\
    StronglySorted (fun a b => above (score b) = true -> above (score a) = true) l.
  Lemma sorted_firstn : forall A (R : A -> A -> Prop) k l, StronglySorted R l -> StronglySorted R (firstn k l).
  Proof.
    intros A R. induction k as [|k IH]; intros l S; simpl; [constructor|]. destruct S as [|a l S F]; constructor; [apply IH; exact S|].
    apply Forall_forall. intros b I. rewrite Forall_forall in F. apply F. rewrite <- (firstn_skipn k l). apply in_or_app. left. exact I.
  Qed.
  Lemma sorted_filter_prefix : forall l, StronglySorted (fun a b => above (score b) = true -> above (score a) = true) l ->
    forall a, In a l -> above (score a) = true -> In a (firstn (length (filter (fun a => above (score a)) l)) l).
  Proof.
    intros l S. induction S as [|b l S IH F]; intros a I Ea; [destruct I|]. simpl.
    assert (Eb : above (score b) = true).
    { destruct I as [<-|I]; [exact Ea|]. rewrite Forall_forall in F. apply (F a I Ea). }
    rewrite Eb. simpl. destruct I as [<-|I]; [left; reflexivity|]. right. apply IH; assumption.
  Qed.
  Lemma firstn_mono : forall A (l : list A) p q a, p <= q -> In a (firstn p l) -> In a (firstn q l).
  Proof.
    intros A l p q a L I. rewrite <- (firstn_skipn p (firstn q l)). apply in_or_app. left. rewrite firstn_firstn, Nat.min_l by exact L. exact I.
  Qed.
  Theorem top_ok : forall n_rows n m associations, 0 < n_rows -> 0 < n -> AllPairs n associations ->
    match m with None => True | Some m => (Z.of_nat n <= m)%Z end ->
    exists top, top_associations n_rows n m (Ok associations) = Ok (Some top) /\ AssoOk n top /\
      (forall i, Similar top i -> Similar associations i) /\
      (length (filter (fun a => above (score a)) associations) <= 20 -> forall i, Similar associations i -> Similar top i).
  Proof.
    intros n_rows n m l Hr Hn [Hp Hs] Hm. exists (firstn N_TOP_ASSOCIATIONS l).
    assert (Hin : forall a, In a (firstn N_TOP_ASSOCIATIONS l) -> In a l).
    { intros a I. rewrite <- (firstn_skipn N_TOP_ASSOCIATIONS l). apply in_or_app. left. exact I. }
    split; [|split; [split|split]].
    - unfold top_associations.
      assert (E : match m with Some m => (m >=? Z.of_nat n)%Z | None => true end = true) by (destruct m; [apply Z.geb_le; lia|reflexivity]).
      rewrite E. apply Nat.ltb_lt in Hr. apply Nat.ltb_lt in Hn. rewrite Hr, Hn. reflexivity.
    - apply Forall_forall. intros a I. destruct (Hp (left_idx a) (right_idx a)) as [H _].
      assert (P : left_idx a < right_idx a < n) by (apply H; exists a; auto). lia.
    - apply sorted_firstn. exact Hs.
    - intros i (a & I & R). exists a. split; [apply Hin; exact I|exact R].
    - intros L i (a & I & Ea & D). exists a. split; [|auto]. apply (firstn_mono _ l (length (filter (fun a => above (score a)) l))); [exact L|].
      apply sorted_filter_prefix; assumption.
  Qed.
End Filters.

Lemma forallb2_sorted : forall A (p : A -> A -> bool) (R : A -> A -> Prop) l, (forall a b, p a b = true -> R a b) ->
  (fix go l := match l with [] => true | a :: l' => forallb (p a) l' && go l' end) l = true -> StronglySorted R l.
Proof.
  intros A p R l H. induction l as [|a l IH]; intros E; [constructor|]. apply andb_true_iff in E. destruct E as [E1 E2].
  constructor; [apply IH; exact E2|]. rewrite forallb_forall in E1. apply Forall_forall. intros b I. apply H, E1, I.
Qed.
