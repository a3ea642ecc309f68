(** The sample table of a report: specification and lemmas. *)
From Verif Require Import Base M_sampletable.
Open Scope list_scope.
Open Scope nat_scope.

Section Headers.
  Context {V : Type}.
  Variable eqv : V -> V -> bool.

  (** ** Specification *)
  Definition Entry {A} (rows : list (list A)) (p l : nat) (x : A) : Prop :=
    exists row, nth_error rows p = Some row /\ nth_error row l = Some x.
  Definition Column {A} (rows : list (list A)) (l : nat) (col : list A) : Prop :=
    Forall2 (fun row x => nth_error row l = Some x) rows col.
  (** A group of consecutive items: the first and the others. *)
  Definition group_values (g : V * list V) : list V := fst g :: snd g.
  Definition group_cell (g : V * list V) : th V := mk_th (fst g) (S (length (snd g))).
  (** The headers of a level tile the table: a header stands at the first item of each group and spans the group. *)
  Definition Tiled (items : list (list V)) (rows : list (list (option (th V)))) (l : nat) : Prop :=
    exists groups, Column items l (concat (map group_values groups)) /\
      Column rows l (concat (map (fun g => Some (group_cell g) :: repeat None (length (snd g))) groups)) /\
      Forall (fun g => Forall (fun v => eqv (fst g) v = true) (snd g)) groups.
  (** The items from [p] to [q] are under the same header of level [l]: no header starts after [p]. *)
  Definition SameHeader {A} (rows : list (list (option A))) (l p q : nat) : Prop :=
    forall r, p < r <= q -> Entry rows r l None.
  (** Two items have equal values at a level. *)
  Definition EqAt (items : list (list V)) (p r l : nat) : Prop :=
    exists a b, Entry items p l a /\ Entry items r l b /\ eqv a b = true.

  (** ** Lemmas *)
  Lemma Entry_fun : forall {A} (rows : list (list A)) p l x y, Entry rows p l x -> Entry rows p l y -> x = y.
  Proof. intros A rows p l x y (r & E1 & E2) (r' & E1' & E2'). congruence. Qed.
  Lemma Entry_snoc_old : forall {A} (rows : list (list A)) row p l x, p < length rows -> Entry (rows ++ [row]) p l x <-> Entry rows p l x.
  Proof. intros A rows row p l x L. unfold Entry. rewrite nth_error_app1 by exact L. reflexivity. Qed.
  Lemma Entry_snoc_new : forall {A} (rows : list (list A)) row l x, Entry (rows ++ [row]) (length rows) l x <-> nth_error row l = Some x.
  Proof.
    intros A rows row l x. unfold Entry. rewrite nth_error_app2 by lia. rewrite Nat.sub_diag. simpl. split.
    - intros (r & E & E'). congruence.
    - intros E. eauto.
  Qed.
  Lemma Column_snoc : forall {A} (rows : list (list A)) col row x l, Column rows l col -> nth_error row l = Some x -> Column (rows ++ [row]) l (col ++ [x]).
  Proof. intros A rows col row x l C E. apply Forall2_app; [exact C|]. constructor; [exact E|constructor]. Qed.

  Definition Quiet (row : list (option nat)) (l : nat) : Prop := forall l', l' < l -> nth_error row l' = Some None.
  Definition Extends (c : counter V) (v : V) : Prop := current c = true /\ exists t rest, opened c = t :: rest /\ eqv (th_value t) v = true.

  Lemma get_ths_spec : forall cs item, length item = length cs ->
    exists cs' row, get_ths eqv cs item = Ok (cs', row) /\ length cs' = length cs /\ length row = length cs /\
      forall l c v, nth_error cs l = Some c -> nth_error item l = Some v ->
        exists c', nth_error cs' l = Some c' /\ current c' = true /\
          ((nth_error row l = Some None /\ Quiet row l /\ Extends c v /\
              exists t rest, opened c = t :: rest /\ opened c' = mk_th (th_value t) (S (th_span t)) :: rest) \/
           (nth_error row l = Some (Some (length (opened c))) /\ opened c' = mk_th v 1 :: opened c /\ ~ (Quiet row l /\ Extends c v))).
  Proof.
    intros cs. remember (length cs) as n eqn:En. revert cs En. induction n as [|n IH]; intros cs En item L.
    - destruct cs; [|discriminate]. destruct item; [|discriminate]. exists [], []. split; [reflexivity|]. split; [reflexivity|]. split; [reflexivity|]. intros [|l] c v E; discriminate.
    - destruct cs as [|c cs]; [discriminate|]. destruct item as [|v item]; [discriminate|]. simpl in En, L.
      cbn [get_ths]. destruct (get_th eqv v c) as [c1 cell] eqn:Eg.
      assert (G : current c1 = true /\
        ((cell = None /\ Extends c v /\ exists t rest, opened c = t :: rest /\ opened c1 = mk_th (th_value t) (S (th_span t)) :: rest) \/
         (cell = Some (length (opened c)) /\ opened c1 = mk_th v 1 :: opened c /\ ~ Extends c v))).
      { unfold get_th in Eg. destruct (opened c) as [|t rest] eqn:Eo.
        - injection Eg as <- <-. split; [reflexivity|]. right. repeat split. intros (_ & t & r & E & _). congruence.
        - destruct (current c) eqn:Ecur; simpl in Eg; [destruct (eqv (th_value t) v) eqn:Ev|]; injection Eg as <- <-; (split; [reflexivity|]).
          + left. split; [reflexivity|]. split; [split; [exact Ecur|eauto]|eauto].
          + right. repeat split. intros (_ & t' & r & E & Ev'). assert (t' = t) by congruence. subst t'. congruence.
          + right. repeat split. intros (X & _). congruence. }
      destruct G as (Gc & G). set (children := match cell with Some _ => map start_new_th cs | None => cs end).
      assert (Lc : n = length children) by (unfold children; destruct cell; rewrite ?map_length; congruence).
      destruct (IH children Lc item ltac:(congruence)) as (cs' & row & E & Lcs & Lrow & HS). rewrite E. cbn [bind].
      exists (c1 :: cs'), (cell :: row). split; [reflexivity|]. split; [simpl; congruence|]. split; [simpl; congruence|].
      intros [|l] c0 v0 Ec Ev; simpl in Ec, Ev.
      + injection Ec as <-. injection Ev as <-. exists c1. split; [reflexivity|]. split; [exact Gc|].
        destruct G as [(-> & HE & HO)|(-> & HO & HN)].
        * left. split; [reflexivity|]. split; [intros l' Hl'; lia|]. split; assumption.
        * right. split; [reflexivity|]. split; [exact HO|]. tauto.
      + assert (Q : Quiet (cell :: row) (S l) <-> cell = None /\ Quiet row l).
        { split.
          - intros Hq. split; [specialize (Hq 0 ltac:(lia)); simpl in Hq; congruence|]. intros l' Hl'. exact (Hq (S l') ltac:(lia)).
          - intros (-> & Hq) [|l'] Hl'; [reflexivity|]. apply Hq. lia. }
        destruct G as [(-> & _ & _)|(-> & _ & _)]; unfold children in HS.
        * destruct (HS l c0 v0 Ec Ev) as (c' & E' & Hc' & HD). exists c'. split; [exact E'|]. split; [exact Hc'|].
          destruct HD as [(R & Hq & HE & HO)|(R & HO & HN)]; [left|right].
          -- split; [exact R|]. split; [apply Q; auto|]. split; assumption.
          -- split; [exact R|]. split; [exact HO|]. rewrite Q. tauto.
        * assert (Ec2 : nth_error (map start_new_th cs) l = Some (start_new_th c0)) by (rewrite nth_error_map, Ec; reflexivity).
          destruct (HS l _ v0 Ec2 Ev) as (c' & E' & Hc' & HD). exists c'. split; [exact E'|]. split; [exact Hc'|].
          destruct HD as [(R & Hq & (X & _) & HO)|(R & HO & HN)]; [discriminate|]. right.
          split; [exact R|]. split; [exact HO|]. rewrite Q. intros ((X & _) & _). discriminate.
  Qed.

  Lemma start_last_spec : forall cs, cs <> [] -> exists cs1, start_last cs = Ok cs1 /\ length cs1 = length cs /\
    forall l (c : counter V), nth_error cs l = Some c -> nth_error cs1 l = Some (if S l =? length cs then start_new_th c else c).
  Proof.
    induction cs as [|c cs IH]; intros Hn; [congruence|]. destruct cs as [|c2 cs].
    - exists [start_new_th c]. split; [reflexivity|]. split; [reflexivity|]. intros [|[|l]] c0 E; simpl in E; try discriminate. injection E as <-. reflexivity.
    - destruct (IH ltac:(discriminate)) as (cs1 & E & L & HS). exists (c :: cs1). split.
      + change (bind (start_last (c2 :: cs)) (fun out => Ok (c :: out)) = Ok (c :: cs1)). rewrite E. reflexivity.
      + split; [simpl in *; congruence|]. intros [|l] c0 E0.
        * simpl in E0. injection E0 as <-. reflexivity.
        * change (nth_error cs1 l = Some (if S l =? length (c2 :: cs) then start_new_th c0 else c0)). apply HS. exact E0.
  Qed.

  Lemma header_rows_snoc : forall items cs it, header_rows eqv cs (items ++ [it]) =
    (let! out := header_rows eqv cs items in
     let! cs1 := start_last (fst out) in
     let! r := get_ths eqv cs1 it in
     Ok (fst r, snd out ++ [snd r])).
  Proof.
    induction items as [|x items IH]; intros cs it; cbn [header_rows app bind].
    - cbn [fst snd app]. destruct (start_last cs) as [cs1|e]; [|reflexivity]. cbn [bind]. destruct (get_ths eqv cs1 it); reflexivity.
    - destruct (start_last cs) as [cs1|e]; [|reflexivity]. cbn [bind]. destruct (get_ths eqv cs1 x) as [out|e]; [|reflexivity]. cbn [bind].
      rewrite IH. destruct (header_rows eqv (fst out) items) as [rest|e]; [|reflexivity]. cbn [bind fst snd].
      destruct (start_last (fst rest)) as [cs2|e]; [|reflexivity]. cbn [bind]. destruct (get_ths eqv cs2 it) as [r|e]; reflexivity.
  Qed.

  Fixpoint numbered (k : nat) (gs : list (V * list V)) : list (option nat) :=
    match gs with [] => [] | g :: gs' => Some k :: repeat None (length (snd g)) ++ numbered (S k) gs' end.
  Lemma numbered_app : forall gs gs' k, numbered k (gs ++ gs') = numbered k gs ++ numbered (k + length gs) gs'.
  Proof.
    induction gs as [|g gs IH]; intros gs' k; simpl; [rewrite Nat.add_0_r; reflexivity|]. rewrite IH, app_assoc. do 3 f_equal. lia.
  Qed.
  Lemma numbered_deref : forall gs k pre, length pre = k ->
    map (fun x => match x with None => None | Some j => nth_error (pre ++ map group_cell gs) j end) (numbered k gs) =
    concat (map (fun g => Some (group_cell g) :: repeat None (length (snd g))) gs).
  Proof.
    induction gs as [|g gs IH]; intros k pre Lp; [reflexivity|]. simpl. rewrite nth_error_app2 by lia. rewrite <- Lp, Nat.sub_diag. simpl. f_equal.
    rewrite map_app. f_equal.
    - induction (length (snd g)) as [|m IHm]; [reflexivity|]. simpl. f_equal. exact IHm.
    - specialize (IH (S k) (pre ++ [group_cell g])). rewrite <- app_assoc in IH. simpl in IH. rewrite Lp. apply IH. rewrite app_length. simpl. lia.
  Qed.
  Lemma numbered_bound : forall gs k j, In (Some j) (numbered k gs) -> j < k + length gs.
  Proof.
    induction gs as [|g gs IH]; intros k j I; simpl in I; [destruct I|]. destruct I as [E|I]; [injection E as ->; simpl; lia|].
    apply in_app_iff in I. destruct I as [I|I]; [apply repeat_spec in I; discriminate|]. apply IH in I. simpl. lia.
  Qed.

  Variable L : nat.
  Hypothesis L_pos : L > 0.

  Record HInv (items : list (list V)) (rows : list (list (option nat))) (cs : list (counter V)) : Prop := mk_HInv {
    hi_cs : length cs = L;
    hi_rows : length rows = length items;
    hi_width : Forall (fun r => length r = L) rows;
    hi_quiet : forall r l l', Entry rows r l None -> l' <= l -> Entry rows r l' None;
    hi_last : forall r l, Entry rows r l None -> S l < L;
    hi_level : forall l, l < L -> exists c groups, nth_error cs l = Some c /\ (items <> [] -> current c = true) /\ (items = [] -> groups = []) /\
      opened c = rev (map group_cell groups) /\ Column items l (concat (map group_values groups)) /\ Column rows l (numbered 0 groups) /\
      Forall (fun g => Forall (fun v => eqv (fst g) v = true) (snd g)) groups }.

  Lemma hinv_nil : HInv [] [] (repeat new_counter L).
  Proof.
    constructor.
    - apply repeat_length.
    - reflexivity.
    - constructor.
    - intros r l l' (row & E & _). destruct r; discriminate.
    - intros r l (row & E & _). destruct r; discriminate.
    - intros l Ll. exists new_counter, []. repeat split; try congruence; try constructor. apply nth_error_repeat, Ll.
  Qed.

  Lemma hinv_step : forall items rows cs it, HInv items rows cs -> length it = L ->
    exists cs1 cs' row, start_last cs = Ok cs1 /\ get_ths eqv cs1 it = Ok (cs', row) /\ HInv (items ++ [it]) (rows ++ [row]) cs' /\
      (forall l, l < L -> exists c v c', nth_error cs l = Some c /\ nth_error it l = Some v /\ nth_error cs' l = Some c' /\
         ((nth_error row l = Some None /\ S l < L /\ Quiet row l /\ Extends c v /\
              exists t t' rest rest', opened c = t :: rest /\ opened c' = t' :: rest' /\ th_value t' = th_value t) \/
          ((exists k, nth_error row l = Some (Some k)) /\ (exists rest', opened c' = mk_th v 1 :: rest') /\ ~ (S l < L /\ Quiet row l /\ Extends c v)))).
  Proof.
    intros items rows cs it [H1 H2 H3 H4 H5 H6] Lit.
    destruct (start_last_spec cs) as (cs1 & Es & Ls & Hs); [intros ->; simpl in H1; lia|].
    destruct (get_ths_spec cs1 it ltac:(congruence)) as (cs' & row & Eg & Lcs & Lrow & Hg).
    exists cs1, cs', row. split; [exact Es|]. split; [exact Eg|].
    assert (Hlev : forall l, l < L -> exists c v c', nth_error cs l = Some c /\ nth_error it l = Some v /\ nth_error cs' l = Some c' /\ current c' = true /\
         ((nth_error row l = Some None /\ S l < L /\ Quiet row l /\ Extends c v /\
              exists t rest, opened c = t :: rest /\ opened c' = mk_th (th_value t) (S (th_span t)) :: rest) \/
          (nth_error row l = Some (Some (length (opened c))) /\ opened c' = mk_th v 1 :: opened c /\ ~ (S l < L /\ Quiet row l /\ Extends c v)))).
    { intros l Ll. destruct (H6 l Ll) as (c & _ & Ec & _). destruct (nth_error it l) as [v|] eqn:Ev.
      2:{ apply nth_error_None in Ev. lia. }
      pose proof (Hs l c Ec) as Ec1. destruct (Hg l _ v Ec1 Ev) as (c' & Ec' & Cc' & HD). exists c, v, c'.
      split; [exact Ec|]. split; [reflexivity|]. split; [exact Ec'|]. split; [exact Cc'|].
      destruct (S l =? length cs) eqn:El.
      - apply Nat.eqb_eq in El. destruct HD as [(_ & _ & (X & _) & _)|(R & HO & HN)]; [discriminate|]. right. split; [exact R|]. split; [exact HO|]. lia.
      - apply Nat.eqb_neq in El. destruct HD as [(R & Hq & HE & HO)|(R & HO & HN)]; [left|right].
        + split; [exact R|]. split; [lia|]. auto.
        + split; [exact R|]. split; [exact HO|]. tauto. }
    split.
    - constructor.
      + congruence.
      + rewrite !app_length. simpl. congruence.
      + apply Forall_app. split; [exact H3|]. constructor; [congruence|constructor].
      + intros r l l' (rw & E1 & E2) Hl. destruct (Nat.lt_ge_cases r (length rows)) as [Lr|Lr].
        * apply Entry_snoc_old; [exact Lr|]. apply (H4 r l l'); [|exact Hl]. exists rw. split; [|exact E2]. rewrite nth_error_app1 in E1 by exact Lr. exact E1.
        * assert (r = length rows). { apply Nat.le_antisymm; [|exact Lr]. assert (r < length (rows ++ [row])) by (apply nth_error_Some; congruence). rewrite app_length in H; simpl in H. lia. }
          subst r. rewrite nth_error_app2, Nat.sub_diag in E1 by lia. injection E1 as <-. apply Entry_snoc_new.
          assert (Ll : l < L) by (rewrite <- H1, <- Ls, <- Lrow; apply nth_error_Some; congruence).
          destruct (Nat.eq_dec l' l) as [->|Ne]; [exact E2|]. destruct (Hlev l Ll) as (c & v & c' & _ & _ & _ & _ & HD).
          destruct HD as [(_ & _ & Hq & _)|(R & _)]; [apply Hq; lia|]. rewrite E2 in R. discriminate.
      + intros r l (rw & E1 & E2). destruct (Nat.lt_ge_cases r (length rows)) as [Lr|Lr].
        * apply (H5 r l). exists rw. split; [|exact E2]. rewrite nth_error_app1 in E1 by exact Lr. exact E1.
        * assert (r = length rows). { apply Nat.le_antisymm; [|exact Lr]. assert (r < length (rows ++ [row])) by (apply nth_error_Some; congruence). rewrite app_length in H; simpl in H. lia. }
          subst r. rewrite nth_error_app2, Nat.sub_diag in E1 by lia. injection E1 as <-.
          assert (Ll : l < L) by (rewrite <- H1, <- Ls, <- Lrow; apply nth_error_Some; congruence).
          destruct (Hlev l Ll) as (c & v & c' & _ & _ & _ & _ & HD). destruct HD as [(_ & X & _)|(R & _)]; [exact X|]. rewrite E2 in R. discriminate.
      + intros l Ll. destruct (H6 l Ll) as (c & gs & Ec & _ & _ & Eo & Ci & Cr & F). destruct (Hlev l Ll) as (c0 & v & c' & Ec0 & Ev & Ec' & Cc' & HD).
        assert (c0 = c) by congruence. subst c0. destruct HD as [(R & _ & _ & (_ & t & rest & Et & Hv) & HO)|(R & HO & HN)].
        * destruct HO as (t1 & rest1 & Et1 & HO). assert (t1 = t /\ rest1 = rest) as [-> ->] by (split; congruence). clear Et1.
          destruct gs as [|g0 gs0] using rev_ind; [rewrite Eo in Et; discriminate|]. clear IHgs0. rename g0 into g.
          rewrite map_app, rev_app_distr in Eo. simpl in Eo. rewrite Eo in Et. injection Et as <- <-. destruct g as [a r]. simpl in Hv, HO.
          exists c', (gs0 ++ [(a, r ++ [v])]). split; [exact Ec'|]. split; [auto|]. split; [intros X; destruct items; discriminate|]. split; [|split; [|split]].
          -- rewrite HO, map_app, rev_app_distr. simpl. unfold group_cell. simpl. rewrite app_length. simpl. do 2 f_equal. lia.
          -- assert (Eq : concat (map group_values (gs0 ++ [(a, r ++ [v])])) = concat (map group_values (gs0 ++ [(a, r)])) ++ [v]).
             { rewrite !map_app, !concat_app. simpl. rewrite !app_nil_r, <- app_assoc. reflexivity. }
             rewrite Eq. apply Column_snoc; assumption.
          -- assert (Eq : numbered 0 (gs0 ++ [(a, r ++ [v])]) = numbered 0 (gs0 ++ [(a, r)]) ++ [None]).
             { rewrite !numbered_app. simpl. rewrite !app_nil_r, <- app_assoc. f_equal. simpl. f_equal. rewrite app_length. simpl. rewrite Nat.add_1_r.
               apply (repeat_cons (length r) (None : option nat)). }
             rewrite Eq. apply Column_snoc; assumption.
          -- apply Forall_app in F. destruct F as (F1 & F2). apply Forall_app. split; [exact F1|]. inversion F2 as [|? ? F3 _]; subst. constructor; [|constructor].
             simpl in F3 |- *. apply Forall_app. split; [exact F3|]. constructor; [exact Hv|constructor].
        * exists c', (gs ++ [(v, [])]). split; [exact Ec'|]. split; [auto|]. split; [intros X; destruct items; discriminate|]. split; [|split; [|split]].
          -- rewrite HO, Eo, map_app, rev_app_distr. reflexivity.
          -- rewrite map_app, concat_app. simpl. apply Column_snoc; assumption.
          -- rewrite numbered_app. simpl. apply Column_snoc; [exact Cr|]. rewrite R, Eo, rev_length, map_length. reflexivity.
          -- apply Forall_app. split; [exact F|]. constructor; [constructor|constructor].
    - intros l Ll. destruct (Hlev l Ll) as (c & v & c' & Ec & Ev & Ec' & _ & HD). exists c, v, c'. split; [exact Ec|]. split; [exact Ev|]. split; [exact Ec'|].
      destruct HD as [(R & X & Hq & HE & t & rest & E1 & E2)|(R & HO & HN)]; [left|right].
      + split; [exact R|]. split; [exact X|]. split; [exact Hq|]. split; [exact HE|]. exists t, (mk_th (th_value t) (S (th_span t))), rest, rest. auto.
      + split; [eauto|]. split; [eauto|exact HN].
  Qed.

  Lemma hinv_run : forall items, Forall (fun it => length it = L) items ->
    exists rows cs, header_rows eqv (repeat new_counter L) items = Ok (cs, rows) /\ HInv items rows cs.
  Proof.
    induction items as [|it items IH] using rev_ind; intros F.
    - exists [], (repeat new_counter L). split; [reflexivity|exact hinv_nil].
    - apply Forall_app in F. destruct F as (F1 & F2). inversion F2 as [|? ? F3 _]; subst x l. destruct (IH F1) as (rows & cs & E & HI).
      destruct (hinv_step items rows cs it HI F3) as (cs1 & cs' & row & E1 & E2 & HI' & _). exists (rows ++ [row]), cs'. split; [|exact HI'].
      rewrite header_rows_snoc, E. cbn [bind fst snd]. rewrite E1. cbn [bind]. rewrite E2. reflexivity.
  Qed.

  (** *** The headers once the spans are counted *)
  Lemma deref_entry : forall items rows cs r l, HInv items rows cs -> forall x, Entry rows r l x ->
    exists c, nth_error cs l = Some c /\ Entry (map (deref_row cs) rows) r l (deref c x) /\ (deref c x = None -> x = None).
  Proof.
    intros items rows cs r l HI x (row & E1 & E2). assert (Ll : l < L).
    { pose proof (hi_width _ _ _ HI) as F. rewrite Forall_forall in F. rewrite <- (F row (nth_error_In _ _ E1)). apply nth_error_Some. congruence. }
    destruct (hi_level _ _ _ HI l Ll) as (c & gs & Ec & _ & _ & Eo & _ & Cr & _). exists c. split; [exact Ec|]. split.
    - exists (deref_row cs row). split; [rewrite nth_error_map, E1; reflexivity|]. unfold deref_row. rewrite nth_error_map.
      assert (Ecomb : nth_error (combine cs row) l = Some (c, x)).
      { clear - Ec E2. revert cs row Ec E2. induction l as [|l IH]; intros [|c0 cs] [|x0 row] Ec E2; simpl in *; try discriminate; [congruence|]. apply IH; assumption. }
      rewrite Ecomb. reflexivity.
    - intros Ed. destruct x as [k|]; [|reflexivity]. exfalso. simpl in Ed. rewrite Eo, rev_involutive in Ed. apply nth_error_None in Ed. rewrite map_length in Ed.
      assert (I : In (Some k) (numbered 0 gs)).
      { clear - Cr E1 E2. unfold Column in Cr. revert r E1. induction Cr as [|row' x' rows' col' Hx Cr IH]; intros [|r] E1; simpl in E1; try discriminate.
        - injection E1 as ->. left. congruence.
        - right. exact (IH r E1). }
      apply numbered_bound in I. simpl in I. lia.
  Qed.
  Lemma deref_column : forall items rows cs l c col, HInv items rows cs -> nth_error cs l = Some c -> Column rows l col ->
    Column (map (deref_row cs) rows) l (map (deref c) col).
  Proof.
    intros items rows cs l c col _ Ec Cr. unfold Column in *. induction Cr as [|row x rows col Hx Cr IH]; simpl; constructor; [|exact IH].
    unfold deref_row. rewrite nth_error_map.
    assert (Ecomb : nth_error (combine cs row) l = Some (c, x)).
    { clear - Ec Hx. revert cs row Ec Hx. induction l as [|l IH]; intros [|c0 cs] [|x0 row] Ec E2; simpl in *; try discriminate; [congruence|]. apply IH; assumption. }
    rewrite Ecomb. reflexivity.
  Qed.
  Lemma deref_none : forall items rows cs r l, HInv items rows cs -> Entry (map (deref_row cs) rows) r l None <-> Entry rows r l None.
  Proof.
    intros items rows cs r l HI. split.
    - intros (row' & E1 & E2). rewrite nth_error_map in E1. destruct (nth_error rows r) as [row|] eqn:Er; [|discriminate]. injection E1 as <-.
      assert (Ex : exists x, nth_error row l = Some x).
      { destruct (nth_error row l) eqn:En; [eauto|]. exfalso. apply nth_error_None in En. assert (X : l < length (deref_row cs row)) by (apply nth_error_Some; congruence).
        unfold deref_row in X. rewrite map_length, combine_length in X. lia. }
      destruct Ex as (x & Ex). assert (HE : Entry rows r l x) by (exists row; auto). destruct (deref_entry items rows cs r l HI x HE) as (c & Ec & HE' & HN).
      assert (deref c x = None). { eapply Entry_fun; [exact HE'|]. exists (deref_row cs row). split; [rewrite nth_error_map, Er; reflexivity|exact E2]. }
      rewrite (HN H) in HE. exact HE.
    - intros HE. destruct (deref_entry items rows cs r l HI None HE) as (c & Ec & HE' & _). exact HE'.
  Qed.
  Lemma tiled_final : forall items rows cs l, HInv items rows cs -> l < L -> Tiled items (map (deref_row cs) rows) l.
  Proof.
    intros items rows cs l HI Ll. destruct (hi_level _ _ _ HI l Ll) as (c & gs & Ec & _ & _ & Eo & Ci & Cr & F). exists gs. split; [exact Ci|]. split; [|exact F].
    rewrite <- (numbered_deref gs 0 [] eq_refl). simpl. pose proof (deref_column items rows cs l c _ HI Ec Cr) as X.
    rewrite (map_ext _ (deref c)); [exact X|]. intros [k|]; simpl; [rewrite Eo, rev_involutive; reflexivity|reflexivity].
  Qed.

  Definition Innermost (items : list (list V)) (rows : list (list (option (th V)))) : Prop :=
    forall p v, Entry items p (L - 1) v -> Entry rows p (L - 1) (Some (mk_th v 1)).
  Lemma Column_entry : forall {A} (rows : list (list A)) l col p x, Column rows l col -> Entry rows p l x <-> nth_error col p = Some x.
  Proof.
    intros A rows l col p x C. revert p. unfold Column in C. induction C as [|row y rows col Hy C IH]; intros p.
    - split; [intros (r & E & _); destruct p; discriminate|destruct p; discriminate].
    - destruct p as [|p]; simpl.
      + split; [intros (r & E & E'); simpl in E; congruence|intros E; exists row; simpl; split; congruence].
      + rewrite <- IH. reflexivity.
  Qed.
  Lemma innermost_final : forall items rows cs, HInv items rows cs -> Innermost items (map (deref_row cs) rows).
  Proof.
    intros items rows cs HI p v HE. assert (Ll : L - 1 < L) by lia.
    destruct (tiled_final items rows cs (L - 1) HI Ll) as (gs & Ci & Cr & _).
    assert (HN : forall p, ~ nth_error (concat (map (fun g => Some (group_cell g) :: repeat None (length (snd g))) gs)) p = Some None).
    { intros p0 E. apply (Column_entry _ _ _ _ _ Cr) in E. apply (deref_none items rows cs p0 (L - 1) HI) in E. apply (hi_last _ _ _ HI) in E. lia. }
    apply (Column_entry _ _ _ _ _ Cr). apply (Column_entry _ _ _ _ _ Ci) in HE. clear - HE HN. revert p HE.
    induction gs as [|[a r] gs IH]; intros p HE; [destruct p; discriminate|].
    destruct r as [|b r]; [|exfalso; apply (HN 1); reflexivity]. destruct p as [|p]; [simpl in HE; injection HE as ->; reflexivity|].
    apply IH; [|exact HE]. intros q. exact (HN (S q)).
  Qed.

  (** *** Which items share a header *)
  Hypothesis eqv_sym : forall a b, eqv a b = true -> eqv b a = true.
  Hypothesis eqv_trans : forall a b c, eqv a b = true -> eqv b c = true -> eqv a c = true.

  Definition Current (items : list (list V)) (rows : list (list (option nat))) (cs : list (counter V)) : Prop :=
    forall l p, l < L -> p < length items -> SameHeader rows l p (length items - 1) ->
    exists c t rest a, nth_error cs l = Some c /\ opened c = t :: rest /\ Entry items p l a /\ (th_value t = a \/ eqv (th_value t) a = true).
  Definition SameSpec (items : list (list V)) (rows : list (list (option nat))) : Prop :=
    forall l p q, l < L -> p < q -> q < length items ->
    (SameHeader rows l p q <-> S l < L /\ forall r, p < r <= q -> forall l', l' <= l -> EqAt items p r l').

  Lemma same_run : forall items, Forall (fun it => length it = L) items ->
    exists rows cs, header_rows eqv (repeat new_counter L) items = Ok (cs, rows) /\ HInv items rows cs /\ Current items rows cs /\ SameSpec items rows.
  Proof.
    induction items as [|it items IH] using rev_ind; intros F.
    - exists [], (repeat new_counter L). split; [reflexivity|]. split; [exact hinv_nil|]. split; [intros l p _ X; simpl in X; lia|intros l p q _ _ X; simpl in X; lia].
    - apply Forall_app in F. destruct F as (F1 & F2). inversion F2 as [|? ? F3 _]; subst x l. destruct (IH F1) as (rows & cs & E & HI & HC & HS).
      destruct (hinv_step items rows cs it HI F3) as (cs1 & cs' & row & E1 & E2 & HI' & HL). exists (rows ++ [row]), cs'.
      split. { rewrite header_rows_snoc, E. cbn [bind fst snd]. rewrite E1. cbn [bind]. rewrite E2. reflexivity. }
      split; [exact HI'|]. pose proof (hi_rows _ _ _ HI) as Lr. clear E E1 E2 IH.
      set (n := length items) in *.
      assert (Enew : forall l x, Entry (rows ++ [row]) n l x <-> nth_error row l = Some x) by (intros; rewrite <- Lr; apply Entry_snoc_new).
      assert (Eold : forall r l x, r < n -> Entry (rows ++ [row]) r l x <-> Entry rows r l x) by (intros; apply Entry_snoc_old; lia).
      assert (Iold : forall r l a, r < n -> Entry (items ++ [it]) r l a <-> Entry items r l a) by (intros; apply Entry_snoc_old; assumption).
      assert (Inew : forall l a, Entry (items ++ [it]) n l a <-> nth_error it l = Some a) by (intros; apply Entry_snoc_new).
      assert (Sold : forall l p q, q < n -> SameHeader (rows ++ [row]) l p q <-> SameHeader rows l p q).
      { intros l p q Lq. split; intros X r Hr; [apply Eold; [lia|]|apply Eold; [lia|]]; apply X, Hr. }
      assert (Snew : forall l p, p < n -> SameHeader (rows ++ [row]) l p n <-> SameHeader rows l p (n - 1) /\ nth_error row l = Some None).
      { intros l p Lp. split.
        - intros X. split; [|apply Enew, X; lia]. apply Sold; [lia|]. intros r Hr. apply X. lia.
        - intros (X & Y) r Hr. destruct (Nat.eq_dec r n) as [->|Ne]; [apply Enew, Y|]. apply Eold; [lia|]. apply X. lia. }
      assert (Eqold : forall p r l, p < n -> r < n -> EqAt (items ++ [it]) p r l <-> EqAt items p r l).
      { intros p r l Lp Lr'. unfold EqAt. split; intros (a & b & X & Y & Z); exists a, b; [rewrite Iold in X, Y by assumption|rewrite !Iold by assumption]; auto. }
      split.
      + (* Current *)
        intros l p Ll Lp HSH. rewrite app_length in Lp, HSH. simpl in Lp, HSH. fold n in Lp, HSH. replace (n + 1 - 1) with n in HSH by lia.
        destruct (HL l Ll) as (c & v & c' & Ec & Ev & Ec' & HD). destruct (Nat.eq_dec p n) as [->|Ne].
        * destruct HD as [(R & _ & _ & (_ & t & rest & Et & Hv) & t0 & t' & r0 & r' & Et0 & Et' & Etv)|(_ & (r' & Et') & _)].
          -- exists c', t', r', v. split; [exact Ec'|]. split; [exact Et'|]. split; [apply Inew, Ev|]. right. rewrite Etv. assert (t0 = t) by congruence. subst t0. exact Hv.
          -- exists c', (mk_th v 1), r', v. split; [exact Ec'|]. split; [exact Et'|]. split; [apply Inew, Ev|]. left. reflexivity.
        * assert (Lp' : p < n) by lia. apply (Snew l p Lp') in HSH. destruct HSH as (X & Y).
          destruct (HC l p Ll Lp' X) as (c0 & t & rest & a & Ec0 & Et & Ia & Ha). assert (c0 = c) by congruence. subst c0.
          destruct HD as [(_ & _ & _ & _ & t0 & t' & r0 & r' & Et0 & Et' & Etv)|((k & R) & _)]; [|congruence].
          exists c', t', r', a. split; [exact Ec'|]. split; [exact Et'|]. split; [apply Iold; assumption|]. assert (t0 = t) by congruence. subst t0. rewrite Etv. exact Ha.
      + (* SameSpec *)
        intros l p q Ll Lpq Lq. rewrite app_length in Lq. simpl in Lq. fold n in Lq. destruct (Nat.eq_dec q n) as [->|Ne].
        2:{ rewrite Sold by lia. rewrite (HS l p q) by lia. apply and_iff_compat_l. split; intros X r Hr l' Hl'; apply Eqold; try lia; apply X; assumption. }
        assert (Lp : p < n) by lia. rewrite Snew by exact Lp. split.
        * intros (X & Y). assert (Hlast : S l < L) by (apply (hi_last _ _ _ HI' n l), Enew, Y).
          split; [exact Hlast|]. intros r Hr l' Hl'.
          assert (Ll' : l' < L) by lia.
          assert (X' : SameHeader rows l' p (n - 1)).
          { intros r' Hr'. apply (hi_quiet _ _ _ HI r' l l'); [apply X, Hr'|exact Hl']. }
          destruct (Nat.eq_dec r n) as [->|Nr].
          -- destruct (HL l' Ll') as (c & v & c' & Ec & Ev & Ec' & HD).
             assert (Y' : nth_error row l' = Some None) by (apply Enew, (hi_quiet _ _ _ HI' n l l'); [apply Enew, Y|exact Hl']).
             destruct HD as [(_ & _ & _ & (_ & t & rest & Et & Hv) & _)|((k & R) & _)]; [|congruence].
             destruct (HC l' p Ll' Lp X') as (c0 & t0 & r0 & a & Ec0 & Et0 & Ia & Ha). assert (c0 = c) by congruence. subst c0. assert (t0 = t) by congruence. subst t0.
             exists a, v. split; [apply Iold; assumption|]. split; [apply Inew, Ev|]. destruct Ha as [<-|Ha]; [exact Hv|]. apply (eqv_trans a (th_value t)); [apply eqv_sym, Ha|exact Hv].
          -- apply Eqold; [lia|lia|]. apply (HS l' p (n - 1)); [lia|lia|fold n; lia|exact X'|lia|lia].
        * intros (Hlast & HE).
          assert (X : forall l', l' <= l -> SameHeader rows l' p (n - 1)).
          { intros l' Hl'. destruct (Nat.eq_dec p (n - 1)) as [Ep|Np]; [intros r Hr; lia|].
            apply HS; [lia|lia|fold n; lia|]. split; [lia|]. intros r Hr l'' Hl''. apply Eqold; [lia|lia|]. apply HE; lia. }
          split; [apply X; lia|].
          assert (G : forall m l', l' <= m -> l' <= l -> nth_error row l' = Some None).
          { induction m as [|m IHm]; intros l' Hm Hl'.
            - assert (l' = 0) by lia. subst l'. destruct (HL 0 ltac:(lia)) as (c & v & c' & Ec & Ev & Ec' & HD).
              destruct HD as [(R & _)|(_ & _ & HN)]; [exact R|]. exfalso. apply HN. split; [lia|]. split; [intros l'' Hx; lia|].
              destruct (HC 0 p ltac:(lia) Lp (X 0 ltac:(lia))) as (c0 & t & rest & a & Ec0 & Et & Ia & Ha). assert (c0 = c) by congruence. subst c0.
              destruct (HE n ltac:(lia) 0 ltac:(lia)) as (a0 & b & A1 & A2 & A3). apply Iold in A1; [|exact Lp]. apply Inew in A2.
              assert (a0 = a) by (eapply Entry_fun; eassumption). subst a0. assert (b = v) by congruence. subst b.
              destruct (hi_level _ _ _ HI 0 ltac:(lia)) as (c0 & gs & Ec1 & Cc & _). assert (c0 = c) by congruence. subst c0.
              split; [apply Cc; intros Z; unfold n in Lp; rewrite Z in Lp; simpl in Lp; lia|]. exists t, rest. split; [exact Et|].
              destruct Ha as [->|Ha]; [exact A3|]. apply (eqv_trans _ a); assumption.
            - destruct (Nat.eq_dec l' (S m)) as [->|Nm]; [|apply IHm; lia]. destruct (HL (S m) ltac:(lia)) as (c & v & c' & Ec & Ev & Ec' & HD).
              destruct HD as [(R & _)|(_ & _ & HN)]; [exact R|]. exfalso. apply HN. split; [lia|]. split; [intros l'' Hx; apply IHm; lia|].
              destruct (HC (S m) p ltac:(lia) Lp (X (S m) ltac:(lia))) as (c0 & t & rest & a & Ec0 & Et & Ia & Ha). assert (c0 = c) by congruence. subst c0.
              destruct (HE n ltac:(lia) (S m) ltac:(lia)) as (a0 & b & A1 & A2 & A3). apply Iold in A1; [|exact Lp]. apply Inew in A2.
              assert (a0 = a) by (eapply Entry_fun; eassumption). subst a0. assert (b = v) by congruence. subst b.
              destruct (hi_level _ _ _ HI (S m) ltac:(lia)) as (c0 & gs & Ec1 & Cc & _). assert (c0 = c) by congruence. subst c0.
              split; [apply Cc; intros Z; unfold n in Lp; rewrite Z in Lp; simpl in Lp; lia|]. exists t, rest. split; [exact Et|].
              destruct Ha as [->|Ha]; [exact A3|]. apply (eqv_trans _ a); assumption. }
          apply (G l l); lia.
  Qed.

  Theorem vertical_spec : forall items, Forall (fun it => length it = L) items ->
    exists rows, vertical_headers eqv L items = Ok rows /\ length rows = length items /\ Forall (fun r => length r = L) rows /\
      (forall l, l < L -> Tiled items rows l) /\ Innermost items rows /\
      forall l p q, l < L -> p < q -> q < length items ->
        (SameHeader rows l p q <-> S l < L /\ forall r, p < r <= q -> forall l', l' <= l -> EqAt items p r l').
  Proof.
    intros items F. destruct (same_run items F) as (rows & cs & E & HI & _ & HS). exists (map (deref_row cs) rows).
    split; [unfold vertical_headers; rewrite E; reflexivity|]. split; [rewrite map_length; apply (hi_rows _ _ _ HI)|]. split.
    { apply Forall_forall. intros r I. apply in_map_iff in I. destruct I as (r0 & <- & I). unfold deref_row. rewrite map_length, combine_length, (hi_cs _ _ _ HI).
      pose proof (hi_width _ _ _ HI) as W. rewrite Forall_forall in W. rewrite (W r0 I). lia. }
    split; [intros l Ll; apply tiled_final; assumption|]. split; [apply innermost_final, HI|].
    intros l p q Ll Lpq Lq. rewrite <- (HS l p q Ll Lpq Lq). unfold SameHeader. split; intros X r Hr; apply (deref_none items rows cs r l HI), X, Hr.
  Qed.
End Headers.

Definition span_of {V} (x : option (th V)) : nat := match x with Some t => th_span t | None => 0 end.
Lemma tiled_sum : forall {V} (eqv : V -> V -> bool) items rows l, Tiled eqv items rows l ->
  exists col, Column rows l col /\ list_sum (map span_of col) = length items.
Proof.
  intros V eqv items rows l (gs & Ci & Cr & _). eexists. split; [exact Cr|]. rewrite (Forall2_len _ _ _ Ci).
  clear. induction gs as [|[a r] gs IH]; [reflexivity|]. simpl. rewrite map_app, list_sum_app, app_length, IH. 
  assert (X : list_sum (map span_of (repeat (@None (th V)) (length r))) = 0) by (clear; induction (length r); simpl; auto). rewrite X. lia.
Qed.

Lemma zip_rows_spec : forall {A} (rows : list (list A)) n, rows <> [] -> Forall (fun r => length r = n) rows ->
  length (zip_rows rows) = n /\ Forall (fun c => length c = length rows) (zip_rows rows) /\ forall l p x, Entry (zip_rows rows) l p x <-> Entry rows p l x.
Proof.
  intros A rows n. induction rows as [|r rows IH]; intros Hn F; [congruence|]. inversion F as [|? ? Fr F']; subst. destruct rows as [|r2 rows].
  - simpl. split; [apply map_length|]. split; [apply Forall_forall; intros c I; apply in_map_iff in I; destruct I as (x & <- & _); reflexivity|].
    intros l p x. unfold Entry. split.
    + intros (row & E1 & E2). rewrite nth_error_map in E1. destruct (nth_error r l) as [y|] eqn:Er; [|discriminate]. injection E1 as <-.
      destruct p as [|[|p]]; simpl in E2; try discriminate. exists r. simpl. split; congruence.
    + intros (row & E1 & E2). destruct p as [|[|p]]; simpl in E1; try discriminate. injection E1 as <-. exists [x]. rewrite nth_error_map, E2. split; reflexivity.
  - destruct (IH ltac:(discriminate) F') as (L1 & L2 & HE). 
    change (zip_rows (r :: r2 :: rows)) with (map (fun q : A * list A => fst q :: snd q) (combine r (zip_rows (r2 :: rows)))).
    split; [rewrite map_length, combine_length, L1; lia|]. split.
    + apply Forall_forall. intros c I. apply in_map_iff in I. destruct I as ((x & c0) & <- & I). apply in_combine_r in I. rewrite Forall_forall in L2. simpl. f_equal. apply L2, I.
    + assert (Hc : forall l, nth_error (combine r (zip_rows (r2 :: rows))) l = match nth_error r l, nth_error (zip_rows (r2 :: rows)) l with Some x, Some c => Some (x, c) | _, _ => None end).
      { clear. generalize (zip_rows (r2 :: rows)) as z. induction r as [|a r IH]; intros [|c z] [|l]; simpl; try reflexivity; [destruct (nth_error r l); reflexivity|]. apply IH. }
      intros l p x. split.
      * intros (row & E1 & E2). rewrite nth_error_map, Hc in E1. destruct (nth_error r l) as [y|] eqn:Er; [|discriminate].
        destruct (nth_error (zip_rows (r2 :: rows)) l) as [c|] eqn:Ez; [|discriminate]. injection E1 as <-. destruct p as [|p]; simpl in E2.
        -- exists r. simpl. split; congruence.
        -- assert (X : Entry (zip_rows (r2 :: rows)) l p x) by (exists c; auto). apply HE in X. destruct X as (row & X1 & X2). exists row. auto.
      * intros (row & E1 & E2). destruct p as [|p]; simpl in E1.
        -- injection E1 as <-. destruct (nth_error (zip_rows (r2 :: rows)) l) as [c|] eqn:Ez.
           2:{ apply nth_error_None in Ez. assert (l < length r) by (apply nth_error_Some; congruence). lia. }
           exists (x :: c). rewrite nth_error_map, Hc, E2, Ez. split; reflexivity.
        -- assert (X : Entry (r2 :: rows) p l x) by (exists row; auto). apply HE in X. destruct X as (c & X1 & X2).
           destruct (nth_error r l) as [y|] eqn:Er.
           2:{ apply nth_error_None in Er. assert (l < length (zip_rows (r2 :: rows))) by (apply nth_error_Some; congruence). lia. }
           exists (y :: c). rewrite nth_error_map, Hc, Er, X1. split; [reflexivity|exact X2].
Qed.

Theorem horizontal_spec : forall {V} (eqv : V -> V -> bool) n_levels items rows, n_levels > 0 -> items <> [] -> Forall (fun it => length it = n_levels) items ->
  vertical_headers eqv n_levels items = Ok rows -> length rows = length items -> Forall (fun r => length r = n_levels) rows ->
  exists cols, horizontal_headers eqv n_levels items = Ok cols /\ length cols = n_levels /\ Forall (fun c => length c = length items) cols /\
    forall l p x, Entry cols l p x <-> Entry rows p l x.
Proof.
  intros V eqv n items rows _ Hi _ E L F. assert (Hr : rows <> []) by (intros ->; destruct items; [congruence|discriminate]).
  destruct (zip_rows_spec rows n Hr F) as (H1 & H2 & H3). exists (zip_rows rows). unfold horizontal_headers. rewrite E. split; [reflexivity|].
  split; [exact H1|]. rewrite <- L. split; [exact H2|exact H3].
Qed.

(** ** Slices *)
Lemma skipn_twice : forall {A} a b (l : list A), skipn a (skipn b l) = skipn (b + a) l.
Proof. intros A a b. induction b as [|b IH]; intros l; [reflexivity|]. destruct l as [|x l]; [simpl; rewrite skipn_nil; reflexivity|]. simpl. apply IH. Qed.
Definition shown {A} (p : part A) : list A := match p with PRows rows _ => rows | PEllipsis => [] end.
Definition is_ellipsis {A} (p : part A) : bool := match p with PEllipsis => true | _ => false end.

Lemma report_sizes_spec : forall n_rows, let m := Z.to_nat (Z.max 1 n_rows) in
  report_sizes n_rows = (Z.of_nat (m - m / 2), Z.of_nat (m / 2)).
Proof.
  intros n_rows m. unfold report_sizes. set (n := Z.max 1 n_rows) in *. assert (Hn : (n >= 1)%Z) by (unfold n; lia). clearbody n.
  assert (Em : n = Z.of_nat m) by (unfold m; lia). clearbody m. subst n.
  assert (E2 : (Z.of_nat m / 2 = Z.of_nat (m / 2))%Z) by (rewrite Nat2Z.inj_div; reflexivity). rewrite E2. f_equal.
  pose proof (Nat.div_mod m 2 ltac:(lia)) as D. pose proof (Nat.mod_upper_bound m 2 ltac:(lia)).
  assert (Q : (Z.of_nat m / -2 = - Z.of_nat (m - m / 2))%Z).
  { symmetry. destruct (Nat.eq_dec (m mod 2) 0) as [E|E].
    - apply (Z.div_unique_neg _ _ _ 0); lia.
    - apply (Z.div_unique_neg _ _ _ (-1)); lia. }
  rewrite Q. lia.
Qed.

Theorem report_slices_spec : forall {A} (rows : list A) n_rows, let m := Z.to_nat (Z.max 1 n_rows) in
  if length rows <=? m
  then report_slices rows n_rows = [PRows rows 0%Z]
  else exists top hidden bottom, rows = top ++ hidden ++ bottom /\ hidden <> [] /\ length top = m - m / 2 /\ length bottom = m / 2 /\
         report_slices rows n_rows = PRows top 0%Z :: PEllipsis :: match bottom with [] => [] | _ => [PRows bottom (Z.of_nat (length top))] end.
Proof.
  intros A rows n_rows m. unfold report_slices. rewrite report_sizes_spec. fold m. cbn [fst snd].
  assert (Hm : m >= 1) by (unfold m; lia). clearbody m. unfold df_slices, pick_slice_sizes.
  assert (D : m / 2 <= m) by (apply Nat.div_le_upper_bound; lia).
  replace (Z.of_nat (m - m / 2) + Z.of_nat (m / 2))%Z with (Z.of_nat m) by lia.
  destruct (length rows <=? m) eqn:E.
  - apply Nat.leb_le in E. assert (E' : (Z.of_nat (length rows) <=? Z.of_nat m)%Z = true) by (apply Z.leb_le; lia). rewrite E'. simpl. do 2 f_equal.
    unfold slice_to, py_index. assert (X : (Z.of_nat (length rows) <? 0)%Z = false) by (apply Z.ltb_ge; lia). rewrite X. apply firstn_all2. lia.
  - apply Nat.leb_gt in E. assert (E' : (Z.of_nat (length rows) <=? Z.of_nat m)%Z = false) by (apply Z.leb_gt; lia). rewrite E'.
    set (t := m - m / 2). set (b := m / 2) in *. assert (Htb : t + b = m) by (unfold t; lia).
    exists (firstn t rows), (firstn (length rows - m) (skipn t rows)), (skipn (length rows - b) rows).
    split.
    { rewrite <- (firstn_skipn t rows) at 1. f_equal. rewrite <- (firstn_skipn (length rows - m) (skipn t rows)) at 1. f_equal.
      rewrite skipn_twice. f_equal. lia. }
    split. { intros X. apply (f_equal (@length A)) in X. rewrite firstn_length, skipn_length in X. simpl in X. lia. }
    assert (Lt : length (firstn t rows) = t) by (rewrite firstn_length; lia).
    assert (Lb : length (skipn (length rows - b) rows) = b) by (rewrite skipn_length; lia).
    split; [exact Lt|]. split; [exact Lb|].
    assert (S1 : slice_to rows (Z.of_nat t) = firstn t rows).
    { unfold slice_to, py_index. assert (X : (Z.of_nat t <? 0)%Z = false) by (apply Z.ltb_ge; lia). rewrite X. f_equal. lia. }
    rewrite S1. simpl. rewrite Lt. do 2 f_equal. destruct (Z.of_nat b =? 0)%Z eqn:Eb.
    + apply Z.eqb_eq in Eb. destruct (skipn (length rows - b) rows); [reflexivity|simpl in Lb; lia].
    + apply Z.eqb_neq in Eb. assert (S2 : slice_from rows (- Z.of_nat b) = skipn (length rows - b) rows).
      { unfold slice_from, py_index. assert (X : (- Z.of_nat b <? 0)%Z = true) by (apply Z.ltb_lt; lia). rewrite X. f_equal. lia. }
      rewrite S2. destruct (skipn (length rows - b) rows); [simpl in Lb; lia|reflexivity].
Qed.
