(** What fetching embeddings is to give, and proofs about the model. *)
From Coq Require Import Permutation.
From Verif Require Import Base L_dict M_str L_str M_labels M_ken.
From Coq Require Import String NArith Lia QArith List.
Open Scope string_scope.
Open Scope list_scope.
Open Scope nat_scope.
Set Default Proof Using "Type".

(** * Specification *)
Section Spec.
  Context {num : Type}.
  Variable compile : text -> res (text -> bool).
  Variable search exclude : option text.

  (** a text without its first and last characters *)
  Definition Inner (T t : text) : Prop := (exists a b, T = a :: t ++ [b]) \/ (length T < 2 /\ t = []).
  (** the types asked for *)
  Definition Wanted (T : text) : Prop :=
    (forall p, search = Some p -> exists m, compile p = Ok m /\ m T = true) /\ (forall p, exclude = Some p -> exists m, compile p = Ok m /\ m T = false).
  Definition Patterns : Prop := (forall p, search = Some p -> exists m, compile p = Ok m) /\ (forall p, exclude = Some p -> exists m, compile p = Ok m).
  (** the first type of an entity among those asked for *)
  Definition FirstType (types : list (text * text)) (E T : text) : Prop :=
    exists pre post, types = pre ++ (E, T) :: post /\ Wanted T /\ forall T', In (E, T') pre -> ~ Wanted T'.
  (** what an entry of a file gives: a row, or nothing when no type of the entity is asked for *)
  Definition Gives (types : list (text * text)) (x : text * list num) (o : list ((text * text) * list num)) : Prop :=
    (exists T e t, FirstType types (fst x) T /\ Inner (fst x) e /\ Inner T t /\ o = [((e, t), snd x)]) \/
    (o = [] /\ forall T, In (fst x, T) types -> ~ Wanted T).
  (** the rows from a file: one per entry of the file whose entity has a type asked for *)
  Definition Piece (types : list (text * text)) (file : list (text * list num)) (piece : list ((text * text) * list num)) : Prop :=
    exists given, Forall2 (Gives types) file given /\ Permutation (concat given) piece.
End Spec.

(** regular expressions of ordinary characters and groups *)
Definition ordinary (c : N) : bool := negb (existsb (N.eqb c) (map (fun a => Ascii.N_of_ascii a) (list_ascii_of_string ".^$*+?{}[]\|()"))).
Definition is_paren (c : N) : bool := (c =? 40)%N || (c =? 41)%N.
Fixpoint balanced (depth : nat) (p : text) : bool :=
  match p with
  | [] => depth =? 0
  | c :: p' => if (c =? 40)%N then balanced (S depth) p' else if (c =? 41)%N then match depth with 0 => false | S d => balanced d p' end else balanced depth p'
  end.
Definition Occurs (p t : text) : Prop := exists a b, t = a ++ p ++ b.
Definition Regular (compile : text -> res (text -> bool)) : Prop :=
  forall p, Forall (fun c => ordinary c = true \/ is_paren c = true) p -> balanced 0 p = true ->
  exists m, compile p = Ok m /\ forall t, m t = true <-> Occurs (filter (fun c => negb (is_paren c)) p) t.

(** the PCA of a single column: the column minus its mean, or the opposite *)
Definition qmean (l : list Q) : Q := (fold_right Qplus 0 l / inject_Z (Z.of_nat (length l)))%Q.
Definition OneColumn (pca : nat -> list (list Q) -> list (list Q)) : Prop :=
  forall l, l <> [] -> exists s, (s == 1 \/ s == - (1))%Q /\ Forall2 (fun x v => exists c, v = [c] /\ (c == s * (x - qmean l))%Q) l (pca 1 (map (fun x => [x]) l)).

(** * Lemmas *)
Lemma inside_inner : forall T, Inner T (inside T).
Proof.
  intros [|a T]; [right; split; [cbn; lia|reflexivity]|]. destruct (list_eq_dec N.eq_dec T []) as [->|N]; [right; split; [cbn; lia|reflexivity]|].
  left. exists a, (last T 0%N). unfold inside. cbn [tl]. rewrite <- (app_removelast_last 0%N N). reflexivity.
Qed.
Lemma inner_inside : forall T t, Inner T t -> t = inside T.
Proof.
  intros T t [[a [b ->]]|[H ->]]; unfold inside; cbn [tl]; [rewrite removelast_last; reflexivity|].
  destruct T as [|a [|b T]]; cbn in *; try reflexivity. lia.
Qed.

Section Ken.
  Context {num : Type}.
  Variable compile : text -> res (text -> bool).
  Variable pca : nat -> list (list num) -> list (list num).
  Variable search exclude : option text.
  Notation Wanted := (Wanted compile search exclude).
  Notation FirstType := (FirstType compile search exclude).
  Notation Gives := (@Gives num compile search exclude).
  Notation Piece := (@Piece num compile search exclude).

  (** the filter as a function *)
  Definition passes (p : option text) (b : bool) (T : text) : bool :=
    match p with None => true | Some p => match compile p with Ok m => Bool.eqb (m T) b | Err _ => false end end.
  Definition wanted (T : text) : bool := passes search true T && passes exclude false T.
  Lemma wanted_iff : forall T, wanted T = true <-> Wanted T.
  Proof.
    intros T. unfold wanted, passes, L_ken.Wanted. rewrite andb_true_iff. split.
    - intros [A B]. split; intros p ->.
      + destruct (compile p) as [m|e]; [|discriminate A]. exists m. split; [reflexivity|]. destruct (m T); [reflexivity|discriminate A].
      + destruct (compile p) as [m|e]; [|discriminate B]. exists m. split; [reflexivity|]. destruct (m T); [discriminate B|reflexivity].
    - intros [A B]. split.
      + destruct search as [p|]; [|reflexivity]. destruct (A p eq_refl) as [m [-> ->]]. reflexivity.
      + destruct exclude as [p|]; [|reflexivity]. destruct (B p eq_refl) as [m [-> ->]]. reflexivity.
  Qed.
  Lemma filter_true : forall {A} (l : list A), filter (fun _ => true) l = l.
  Proof. induction l as [|x l IH]; [reflexivity|]. cbn. rewrite IH. reflexivity. Qed.
  Lemma filter_filter' : forall {A} (f g : A -> bool) l, filter g (filter f l) = filter (fun x => f x && g x) l.
  Proof. induction l as [|x l IH]; [reflexivity|]. cbn. destruct (f x); cbn; [destruct (g x); rewrite IH; reflexivity|exact IH]. Qed.
  Lemma keep_ok : forall {R} (ty : R -> text) p b rows out, keep compile ty p b rows = Ok out ->
    out = filter (fun r => passes p b (ty r)) rows /\ (forall q, p = Some q -> exists m, compile q = Ok m).
  Proof.
    intros R ty [p|] b rows out H; unfold keep, passes in *.
    - destruct (compile p) as [m|e] eqn:E; [|discriminate H]. injection H as <-. split; [reflexivity|]. intros q [= <-]. exists m. exact E.
    - injection H as <-. split; [rewrite filter_true; reflexivity|]. intros q [=].
  Qed.
  Lemma select_ok : forall {R} (ty : R -> text) rows out, select compile ty search exclude rows = Ok out ->
    out = filter (fun r => wanted (ty r)) rows /\ Patterns compile search exclude.
  Proof.
    intros R ty rows out H. unfold select in H. destruct (keep compile ty search true rows) as [k|e] eqn:E; [|discriminate H].
    destruct (keep_ok _ _ _ _ _ E) as [-> A]. cbn in H. destruct (keep_ok _ _ _ _ _ H) as [-> B]. split; [|split; assumption].
    rewrite filter_filter'. reflexivity.
  Qed.
  Lemma select_total : forall {R} (ty : R -> text) rows, Patterns compile search exclude -> select compile ty search exclude rows = Ok (filter (fun r => wanted (ty r)) rows).
  Proof.
    intros R ty rows [A B]. destruct (select compile ty search exclude rows) as [o|e] eqn:E; [destruct (select_ok _ _ _ E) as [-> _]; reflexivity|].
    exfalso. unfold select, keep in E. destruct search as [p|]; [destruct (A p eq_refl) as [m Hm]; rewrite Hm in E|]; cbn in E;
      (destruct exclude as [q|]; [destruct (B q eq_refl) as [m' Hm']; rewrite Hm' in E|]); discriminate E.
  Qed.

  (** first rows *)
  Lemma first_rows_in : forall rows seen E T, In (E, T) (first_rows seen rows) <-> (~ In E seen /\ exists pre post, rows = pre ++ (E, T) :: post /\ forall T', ~ In (E, T') pre).
  Proof.
    induction rows as [|[E0 T0] rows IH]; intros seen E T; cbn [first_rows fst].
    - split; [intros []|]. intros [_ [pre [post [H _]]]]. destruct pre; discriminate H.
    - destruct (mem E0 seen) eqn:M.
      + apply mem_true in M. rewrite IH. split.
        * intros [N [pre [post [-> H]]]]. split; [exact N|]. exists ((E0, T0) :: pre), post. split; [reflexivity|].
          intros T' [[= -> _]|I]; [exact (N M)|exact (H T' I)].
        * intros [N [[|x pre] [post [H Q]]]]; [injection H as -> -> ->; contradiction|]. injection H as <- ->. split; [exact N|].
          exists pre, post. split; [reflexivity|]. intros T' I. exact (Q T' (or_intror I)).
      + apply mem_false in M. cbn [In]. rewrite IH. split.
        * intros [[= -> ->]|[N [pre [post [-> H]]]]].
          -- split; [exact M|]. exists [], rows. split; [reflexivity|]. intros T' [].
          -- split; [intros I; apply N; right; exact I|]. exists ((E0, T0) :: pre), post. split; [reflexivity|].
             intros T' [[= -> _]|I]; [apply N; left; reflexivity|exact (H T' I)].
        * intros [N [[|x pre] [post [H Q]]]]; [injection H as -> -> ->; left; reflexivity|]. injection H as <- ->. right.
          split; [intros [->|I]; [exact (Q T0 (or_introl eq_refl))|exact (N I)]|]. exists pre, post. split; [reflexivity|]. intros T' I. exact (Q T' (or_intror I)).
  Qed.
  Lemma first_rows_nodup : forall rows seen, NoDup (map fst (first_rows seen rows)).
  Proof.
    induction rows as [|[E0 T0] rows IH]; intros seen; cbn [first_rows fst]; [constructor|]. destruct (mem E0 seen); [apply IH|].
    cbn. constructor; [|apply IH]. intros I. apply in_map_iff in I. destruct I as [[E T] [EQ I]]. cbn in EQ. subst E.
    apply first_rows_in in I. destruct I as [N _]. apply N. left. reflexivity.
  Qed.
  Lemma filter_split : forall {A} (f : A -> bool) l pre x post, filter f l = pre ++ x :: post ->
    exists p q, l = p ++ x :: q /\ filter f p = pre /\ f x = true.
  Proof.
    induction l as [|a l IH]; intros pre x post H; [destruct pre; discriminate H|]. cbn in H. destruct (f a) eqn:F.
    - destruct pre as [|b pre].
      + injection H as -> _. exists [], l. split; [reflexivity|]. split; [reflexivity|exact F].
      + injection H as -> H. destruct (IH _ _ _ H) as [p [q [-> [P X]]]]. exists (b :: p), q. split; [reflexivity|]. split; [cbn; rewrite F, P; reflexivity|exact X].
    - destruct (IH _ _ _ H) as [p [q [-> [P X]]]]. exists (a :: p), q. split; [reflexivity|]. split; [cbn; rewrite F, P; reflexivity|exact X].
  Qed.
  Definition chosen (types : list (text * text)) : list (text * text) := first_rows [] (filter (fun r => wanted (snd r)) types).
  Lemma chosen_first : forall types E T, In (E, T) (chosen types) <-> FirstType types E T.
  Proof.
    intros types E T. unfold chosen. rewrite first_rows_in. split.
    - intros [_ [pre [post [H N]]]]. destruct (filter_split _ _ _ _ _ H) as [p [q [-> [P W]]]]. exists p, q. split; [reflexivity|].
      split; [apply wanted_iff; exact W|]. intros T' I W'. apply (N T'). rewrite <- P. apply filter_In. split; [exact I|]. apply wanted_iff. exact W'.
    - intros [pre [post [-> [W N]]]]. split; [intros []|]. exists (filter (fun r => wanted (snd r)) pre), (filter (fun r => wanted (snd r)) post). split.
      + rewrite filter_app. cbn. apply wanted_iff in W. rewrite W. reflexivity.
      + intros T' I. apply filter_In in I. destruct I as [I W']. apply (N T' I). apply wanted_iff. exact W'.
  Qed.
  Lemma chosen_none : forall types E, ~ In E (map fst (chosen types)) -> forall T, In (E, T) types -> ~ Wanted T.
  Proof.
    intros types E N. assert (H : forall l seen, ~ In E seen -> ~ In E (map fst (first_rows seen l)) -> ~ In E (map fst l)).
    { induction l as [|[E0 T0] l IH]; intros seen NS H; [intros []|]. cbn [first_rows fst] in H. cbn. destruct (mem E0 seen) eqn:M.
      - intros [->|I]; [apply mem_true in M; exact (NS M)|]. exact (IH seen NS H I).
      - cbn in H. intros [->|I]; [apply H; left; reflexivity|]. apply (IH (E0 :: seen)); [intros [->|J]; [apply H; left; reflexivity|exact (NS J)]|intros J; apply H; right; exact J|exact I]. }
    intros T I W. apply (H _ [] (fun x => x) N). apply in_map_iff. exists (E, T). split; [reflexivity|]. apply filter_In. split; [exact I|]. apply wanted_iff. exact W.
  Qed.

  (** the merge, entry by entry *)
  Definition type_rows (types : list (text * text)) (x : text * list num) : list ((text * text) * list num) :=
    map (fun r => (r, snd x)) (filter (fun r => eqb_of (fst x) (fst r)) types).
  Lemma flat_map_app_perm : forall {A B} (f g : A -> list B) l, Permutation (flat_map (fun x => f x ++ g x) l) (flat_map f l ++ flat_map g l).
  Proof.
    induction l as [|x l IH]; [constructor|]. cbn. rewrite <- !app_assoc. apply Permutation_app_head. rewrite IH.
    rewrite app_assoc, (Permutation_app_comm (g x)), <- app_assoc. reflexivity.
  Qed.
  Lemma flat_map_eq : forall {A B} (f g : A -> list B) l, (forall x, f x = g x) -> flat_map f l = flat_map g l.
  Proof. intros A B f g l H. induction l as [|x l IH]; [reflexivity|]. cbn. rewrite H, IH. reflexivity. Qed.
  Lemma merge_swap : forall types file, Permutation (flat_map (type_rows types) file) (merge types file).
  Proof.
    intros types file. unfold merge. induction file as [|x file IH].
    - cbn. induction types as [|r t IHt]; [constructor|exact IHt].
    - cbn [flat_map]. rewrite IH. rewrite (flat_map_eq (fun r => map (fun x0 => (r, snd x0)) (filter (fun x0 => eqb_of (fst x0) (fst r)) (x :: file)))
        (fun r => (if eqb_of (fst x) (fst r) then [(r, snd x)] else []) ++ map (fun x0 => (r, snd x0)) (filter (fun x0 => eqb_of (fst x0) (fst r)) file))).
      + rewrite flat_map_app_perm. apply Permutation_app_tail. unfold type_rows. clear. induction types as [|r t IHt]; [constructor|].
        cbn. destruct (eqb_of (fst x) (fst r)); cbn; [constructor|]; exact IHt.
      + intros r. cbn [filter]. destruct (eqb_of (fst x) (fst r)); reflexivity.
  Qed.
  Lemma filter_unique : forall (types : list (text * text)) E, NoDup (map fst types) ->
    (exists T, filter (fun r => eqb_of E (fst r)) types = [(E, T)] /\ In (E, T) types) \/ (filter (fun r => eqb_of E (fst r)) types = [] /\ ~ In E (map fst types)).
  Proof.
    induction types as [|[E0 T0] t IH]; intros E ND; [right; split; [reflexivity|intros []]|]. inversion_clear ND as [|? ? NI ND']. cbn [filter fst].
    destruct (eqb_of E E0) eqn:Q.
    - apply (proj1 (eqb_of_true _ _)) in Q. subst E0. left. exists T0. destruct (IH E ND') as [[T [F I]]|[F _]].
      + exfalso. apply NI. apply in_map_iff. exists (E, T). split; [reflexivity|exact I].
      + rewrite F. split; [reflexivity|left; reflexivity].
    - apply (proj1 (eqb_of_false _ _)) in Q. destruct (IH E ND') as [[T [F I]]|[F N]]; [left; exists T; split; [exact F|right; exact I]|].
      right. split; [exact F|]. cbn. intros [->|I]; [apply Q; reflexivity|exact (N I)].
  Qed.
  Definition bare (r : (text * text) * list num) : (text * text) * list num := ((inside (fst (fst r)), inside (snd (fst r))), snd r).
  Lemma piece_ok : forall types file, Piece types file (map bare (merge (chosen types) file)).
  Proof.
    intros types file. exists (map (fun x => map bare (type_rows (chosen types) x)) file). split.
    - induction file as [|[E v] file IH]; [constructor|]. cbn [map]. constructor; [|exact IH]. unfold type_rows.
      destruct (filter_unique (chosen types) E (first_rows_nodup _ _)) as [[T [F I]]|[F N]]; unfold L_ken.Gives; cbn [fst snd]; rewrite F.
      + left. exists T, (inside E), (inside T). split; [apply chosen_first; exact I|]. split; [apply inside_inner|]. split; [apply inside_inner|reflexivity].
      + right. split; [reflexivity|]. apply chosen_none. exact N.
    - apply (Permutation_trans (l' := map bare (flat_map (type_rows (chosen types)) file))); [|apply Permutation_map, merge_swap].
      rewrite flat_map_concat_map, concat_map, map_map. apply Permutation_refl.
  Qed.

  (** * Results *)
  Variable types : list (text * text).
  Variable cols : list text.
  Variable files : list (list (text * list num)).
  Hypothesis entity : ~ In e_name cols.
  (** the vectors of a piece projected *)
  Definition Projected (n : nat) (p q : list ((text * text) * list num)) : Prop := map fst q = map fst p /\ map snd q = pca n (map snd p).
  Hypothesis pca_rows : forall n X, length (pca n X) = length X.

  Lemma mapM_const : forall {A B} (f : A -> B) l, mapM (fun x => Ok (f x)) l = Ok (map f l).
  Proof. induction l as [|x l IH]; [reflexivity|]. cbn. rewrite IH. reflexivity. Qed.
  Lemma parts_nonempty : forall {A B} (f : A -> res B) l out, mapM f l = Ok out -> (out = [] <-> l = []).
  Proof. intros A B f l out H. pose proof (proj1 (mapM_Forall2 _ _ _) H) as F. destruct F; split; intros E; try reflexivity; discriminate E. Qed.
  Theorem plain_rows : forall suffix r, embeddings compile pca search exclude None suffix types cols files = Ok r ->
    columns r = e_name :: t_name :: map (fun c => c ++ suffix) cols /\ exists pieces, Forall2 (Piece types) files pieces /\ rows r = concat pieces.
  Proof using entity.
    intros suffix r H. unfold embeddings in H. destruct (select compile snd search exclude types) as [k|e] eqn:S; [|discriminate H].
    destruct (select_ok _ _ _ S) as [-> _]. cbn [bind] in H. fold (chosen types) in H.
    unfold extract in H. rewrite mapM_const in H. cbn [bind] in H.
    assert (R : ~ In t_name cols /\ columns r = e_name :: t_name :: map (fun c => if mem c [e_name; t_name] then c else c ++ suffix) cols /\ rows r = map bare (concat (map (fun x => merge (chosen types) x) files))).
    { destruct (map (fun x => merge (chosen types) x) files) as [|p ps]; [discriminate H|]. destruct (mem t_name cols) eqn:M; [discriminate H|]. injection H as <-.
      split; [apply mem_false; exact M|]. split; reflexivity. }
    destruct R as [M [C R]]. split.
    - rewrite C. f_equal. f_equal. apply map_ext_in. intros c I. match goal with |- (if ?b then _ else _) = _ => destruct b eqn:Q end; [|reflexivity]. exfalso.
      apply mem_true in Q. destruct Q as [<-|[<-|[]]]; contradiction.
    - exists (map (fun x => map bare (merge (chosen types) x)) files). split; [|rewrite R, concat_map, map_map; reflexivity].
      clear. induction files as [|x l IH]; [constructor|]. cbn. constructor; [apply piece_ok|exact IH].
  Qed.
  Lemma map_fst_combine : forall {A B} (a : list A) (b : list B), length a = length b -> map fst (combine a b) = a.
  Proof. induction a as [|x a IH]; intros [|y b] L; try discriminate L; [reflexivity|]. cbn. rewrite IH; [reflexivity|]. injection L as L. exact L. Qed.
  Lemma map_snd_combine : forall {A B} (a : list A) (b : list B), length a = length b -> map snd (combine a b) = b.
  Proof. induction a as [|x a IH]; intros [|y b] L; try discriminate L; [reflexivity|]. cbn. rewrite IH; [reflexivity|]. injection L as L. exact L. Qed.
  Lemma extract_pca : forall n file q, extract pca (Some n) cols (chosen types) file = Ok q ->
    Projected n (map bare (merge (chosen types) file)) (map bare q).
  Proof using pca_rows.
    intros n file q H. unfold extract, fit_pca in H. destruct (mem t_name cols); [discriminate H|].
    destruct ((length (map snd (merge (chosen types) file)) =? 0) || (Nat.min (length (map snd (merge (chosen types) file))) (length cols) <? n)); [discriminate H|].
    injection H as <-. assert (L : length (map fst (merge (chosen types) file)) = length (pca n (map snd (merge (chosen types) file)))) by (rewrite pca_rows, !map_length; reflexivity).
    assert (X : forall l, map fst (map bare l) = map (fun k => (inside (fst k), inside (snd k))) (map fst l)) by (intros l; rewrite !map_map; reflexivity).
    assert (Y : forall l, map snd (map bare l) = map snd l) by (intros l; rewrite map_map; reflexivity).
    split; [rewrite !X, map_fst_combine by exact L; reflexivity|]. rewrite !Y, map_snd_combine by exact L. reflexivity.
  Qed.
  Theorem pca_result : forall n suffix r, embeddings compile pca search exclude (Some n) suffix types cols files = Ok r ->
    columns r = e_name :: t_name :: map (fun j => of_string "X" ++ of_string (str_nat j) ++ suffix) (seq 0 n) /\
    exists pieces projected, Forall2 (Piece types) files pieces /\ Forall2 (Projected n) pieces projected /\ rows r = concat projected.
  Proof using pca_rows.
    intros n suffix r H. unfold embeddings in H. destruct (select compile snd search exclude types) as [k|e] eqn:S; [|discriminate H].
    destruct (select_ok _ _ _ S) as [-> _]. cbn [bind] in H. fold (chosen types) in H.
    destruct (mapM (extract pca (Some n) cols (chosen types)) files) as [parts|e] eqn:P; [|discriminate H]. cbn [bind] in H.
    assert (R : columns r = e_name :: t_name :: pca_columns n suffix /\ rows r = map bare (concat parts)).
    { destruct parts as [|p ps]; [discriminate H|]. destruct (mem t_name cols); [discriminate H|]. injection H as <-. split; reflexivity. }
    destruct R as [C R]. split; [exact C|]. exists (map (fun x => map bare (merge (chosen types) x)) files), (map (map bare) parts).
    pose proof (proj1 (mapM_Forall2 _ _ _) P) as F. clear P H C. split; [clear; induction files as [|x l IH]; [constructor|cbn; constructor; [apply piece_ok|exact IH]]|].
    split; [|rewrite R, concat_map; reflexivity]. clear R. induction F as [|x q l l' E F IH]; [constructor|]. cbn. constructor; [|exact IH]. apply extract_pca. exact E.
  Qed.

  (** when it succeeds *)
  Lemma gives_length : forall x o o', Gives types x o -> Gives types x o' -> length o = length o'.
  Proof.
    intros x o o' [[T [e [t [F [_ [_ ->]]]]]]|[-> N]] [[T' [e' [t' [F' [_ [_ ->]]]]]]|[-> N']]; try reflexivity; exfalso.
    - destruct F as [pre [post [E [W _]]]]. apply (N' T); [|exact W]. rewrite E. apply in_or_app. right. left. reflexivity.
    - destruct F' as [pre [post [E [W _]]]]. apply (N T'); [|exact W]. rewrite E. apply in_or_app. right. left. reflexivity.
  Qed.
  Lemma given_length : forall file g g', Forall2 (Gives types) file g -> Forall2 (Gives types) file g' -> length (concat g) = length (concat g').
  Proof.
    intros file g g' F. revert g'. induction F as [|x o l l' G F IH]; intros g' F'; inversion F' as [|? o' ? l2 G' F2]; subst; [reflexivity|].
    cbn. rewrite !app_length, (gives_length _ _ _ G G'), (IH _ F2). reflexivity.
  Qed.
  Definition Enough (n : nat) (file : list (text * list num)) : Prop := exists given, Forall2 (Gives types) file given /\ Nat.max 1 n <= length (concat given).
  Lemma enough_iff : forall n file, Enough n file <-> Nat.max 1 n <= length (merge (chosen types) file).
  Proof.
    intros n file. destruct (piece_ok types file) as [g [G P]]. apply Permutation_length in P. rewrite map_length in P. split.
    - intros [g' [G' L]]. rewrite (given_length _ _ _ G' G), P in L. exact L.
    - intros L. exists g. split; [exact G|]. rewrite P. exact L.
  Qed.
  Definition Possible (components : option nat) : Prop :=
    Patterns compile search exclude /\ files <> [] /\ ~ In t_name cols /\ (forall n, components = Some n -> n <= length cols /\ Forall (Enough n) files).
  Lemma extract_total : forall n file, ~ In t_name cols ->
    ((n <= length cols /\ Enough n file) /\ exists q, extract pca (Some n) cols (chosen types) file = Ok q) \/
    (~ (n <= length cols /\ Enough n file) /\ extract pca (Some n) cols (chosen types) file = Err ValueError).
  Proof.
    intros n file NT. unfold extract, fit_pca. apply mem_false in NT. rewrite NT, enough_iff, map_length. remember (length (merge (chosen types) file)) as m eqn:M.
    destruct ((m =? 0) || (Nat.min m (length cols) <? n)) eqn:B.
    - right. split; [|reflexivity]. intros [A C]. apply orb_true_iff in B. destruct B as [B|B]; [apply Nat.eqb_eq in B|apply Nat.ltb_lt in B]; lia.
    - left. apply orb_false_iff in B. destruct B as [B B']. apply Nat.eqb_neq in B. apply Nat.ltb_ge in B'. split; [split; lia|]. eexists. reflexivity.
  Qed.
  Lemma Forall_Exists_dec' : forall fs n, ~ In t_name cols ->
    (exists out, mapM (extract pca (Some n) cols (chosen types)) fs = Ok out /\ forall f, In f fs -> n <= length cols /\ Enough n f) \/
    (mapM (extract pca (Some n) cols (chosen types)) fs = Err ValueError /\ exists f, In f fs /\ ~ (n <= length cols /\ Enough n f)).
  Proof.
    intros fs n NT. induction fs as [|f fs IH]; [left; exists []; split; [reflexivity|intros f []]|]. cbn [mapM].
    destruct (extract_total n f NT) as [[A [q Q]]|[A Q]]; rewrite Q; cbn [bind].
    - destruct IH as [[out [M B]]|[M [f' [I B]]]]; rewrite M; cbn [bind].
      + left. eexists. split; [reflexivity|]. intros f' [<-|I]; [exact A|exact (B f' I)].
      + right. split; [reflexivity|]. exists f'. split; [right; exact I|exact B].
    - right. split; [reflexivity|]. exists f. split; [left; reflexivity|exact A].
  Qed.
  Theorem outcome : forall components suffix, (Possible components <-> exists r, embeddings compile pca search exclude components suffix types cols files = Ok r) /\
    (Patterns compile search exclude -> ~ In t_name cols -> ~ Possible components -> embeddings compile pca search exclude components suffix types cols files = Err ValueError).
  Proof.
    intros components suffix.
    assert (K : Patterns compile search exclude -> ~ In t_name cols ->
      (Possible components /\ exists r, embeddings compile pca search exclude components suffix types cols files = Ok r) \/
      (~ Possible components /\ embeddings compile pca search exclude components suffix types cols files = Err ValueError)).
    { intros P NT. unfold Possible, embeddings. rewrite (select_total snd types P). cbn [bind]. fold (chosen types). destruct components as [n|].
      - destruct (Forall_Exists_dec' files n NT) as [A|A].
        + destruct A as [out [M A]]. rewrite M. cbn [bind]. pose proof (parts_nonempty _ _ _ M) as NE. apply mem_false in NT. rewrite NT. destruct out as [|q out].
          * right. split; [|reflexivity]. intros [_ [H _]]. apply H, NE. reflexivity.
          * left. apply mem_false in NT. split; [|eexists; reflexivity]. split; [exact P|]. split; [intros ->; discriminate (proj2 NE eq_refl)|]. split; [exact NT|].
            intros n' [= <-]. split; [|apply Forall_forall; intros f I; apply (A f I)].
            destruct files as [|f fs]; [discriminate (proj2 NE eq_refl)|]. apply (A f (or_introl eq_refl)).
        + destruct A as [M [f [I A]]]. rewrite M. right. split; [|reflexivity]. intros [_ [_ [_ H]]]. destruct (H n eq_refl) as [L F]. apply A. split; [exact L|].
          rewrite Forall_forall in F. exact (F f I).
      - unfold extract. rewrite mapM_const. cbn [bind]. apply mem_false in NT. rewrite NT. apply mem_false in NT. destruct files as [|f fs].
        + right. split; [|reflexivity]. intros [_ [H _]]. apply H. reflexivity.
        + left. split; [|eexists; reflexivity]. split; [exact P|]. split; [discriminate|]. split; [exact NT|]. intros n [=]. }
    split; [split|].
    - intros H. destruct (K (proj1 H) (proj1 (proj2 (proj2 H)))) as [[_ R]|[N _]]; [exact R|contradiction].
    - intros [r R]. assert (P : Patterns compile search exclude).
      { unfold embeddings in R. destruct (select compile snd search exclude types) as [k|e] eqn:S; [|discriminate R]. apply (select_ok _ _ _ S). }
      assert (NT : ~ In t_name cols).
      { unfold embeddings in R. destruct (select compile snd search exclude types) as [k|e]; [|discriminate R]. cbn [bind] in R.
        destruct (mapM _ files) as [parts|e]; [|discriminate R]. cbn [bind] in R. destruct parts; [discriminate R|]. destruct (mem t_name cols) eqn:M; [discriminate R|]. apply mem_false. exact M. }
      destruct (K P NT) as [[H _]|[_ H]]; [exact H|]. rewrite R in H. discriminate H.
    - intros P NT N. destruct (K P NT) as [[H _]|[_ H]]; [contradiction|exact H].
  Qed.
End Ken.

(** * Searching by the name of a type *)
Lemma ordinary_not_paren : forall c, ordinary c = true -> is_paren c = false.
Proof.
  intros c H. unfold is_paren. destruct (c =? 40)%N eqn:A; [apply N.eqb_eq in A; subst c; discriminate H|].
  destruct (c =? 41)%N eqn:B; [apply N.eqb_eq in B; subst c; discriminate H|]. reflexivity.
Qed.
Lemma plain_pattern : forall p, Forall (fun c => ordinary c = true) p -> balanced 0 p = true /\ filter (fun c => negb (is_paren c)) p = p.
Proof.
  induction p as [|c p IH]; intros F; [split; reflexivity|]. inversion_clear F as [|? ? O F']. destruct (IH F') as [B E]. pose proof (ordinary_not_paren c O) as NP.
  cbn [balanced filter]. rewrite NP. cbn [negb]. rewrite E. unfold is_paren in NP. apply orb_false_iff in NP. destruct NP as [-> ->]. split; [exact B|reflexivity].
Qed.
Lemma forall2_in : forall {A B} (R : A -> B -> Prop) l l' x, Forall2 R l l' -> In x l -> exists y, In y l' /\ R x y.
Proof.
  intros A B R l l' x F. induction F as [|a b l l' H F IH]; intros [].
  - subst a. exists b. split; [left; reflexivity|exact H].
  - destruct (IH H0) as [y [I P]]. exists y. split; [right; exact I|exact P].
Qed.
Theorem wanted_found : forall {num} compile (pca : nat -> list (list num) -> list (list num)) search exclude types cols files suffix r E T v file,
  ~ In e_name cols -> embeddings compile pca search exclude None suffix types cols files = Ok r ->
  In (E, T) types -> Wanted compile search exclude T -> In file files -> In (E, v) file ->
  exists T' e t, Inner E e /\ Inner T' t /\ In (E, T') types /\ Wanted compile search exclude T' /\ In ((e, t), v) (rows r).
Proof.
  intros num compile pca search exclude types cols files suffix r E T v file NE H I W IF IV.
  destruct (plain_rows compile pca search exclude types cols files NE suffix r H) as [_ [pieces [F ->]]].
  destruct (forall2_in _ _ _ _ F IF) as [piece [IP [given [G P]]]]. destruct (forall2_in _ _ _ _ G IV) as [o [IO GO]].
  destruct GO as [[T' [e [t [FT [IE [IT ->]]]]]]|[_ N]]; [|exfalso; exact (N T I W)].
  exists T', e, t. cbn [fst snd] in *. destruct FT as [pre [post [EQ [W' _]]]]. split; [exact IE|]. split; [exact IT|].
  split; [rewrite EQ; apply in_or_app; right; left; reflexivity|]. split; [exact W'|]. apply in_concat. exists piece. split; [exact IP|].
  apply (Permutation_in _ P). apply in_concat. eexists. split; [exact IO|]. left. reflexivity.
Qed.
Theorem search_by_type : forall {num} compile (pca : nat -> list (list num) -> list (list num)) types cols files suffix r E T t v file,
  Regular compile -> ~ In e_name cols -> embeddings compile pca (Some t) None None suffix types cols files = Ok r ->
  In (E, T) types -> Inner T t -> Forall (fun c => ordinary c = true) t -> In file files -> In (E, v) file ->
  exists T' e t', Inner E e /\ Inner T' t' /\ In (E, T') types /\ Occurs t T' /\ In ((e, t'), v) (rows r).
Proof.
  intros num compile pca types cols files suffix r E T t v file RE NE H I IT O IF IV. destruct (plain_pattern t O) as [B FE].
  destruct (RE t) as [m [M S]]; [eapply Forall_impl; [|exact O]; intros c Q; left; exact Q|exact B|]. rewrite FE in S.
  assert (W : Wanted compile (Some t) None T).
  { split; [|intros p [=]]. intros p [= <-]. exists m. split; [exact M|]. apply S. destruct IT as [[a [b ->]]|[_ ->]]; [exists [a], [b]; reflexivity|exists [], T; reflexivity]. }
  destruct (wanted_found compile pca (Some t) None types cols files suffix r E T v file NE H I W IF IV) as [T' [e [t' [A [C [D [W' K]]]]]]].
  exists T', e, t'. split; [exact A|]. split; [exact C|]. split; [exact D|]. split; [|exact K].
  destruct W' as [W' _]. destruct (W' t eq_refl) as [m' [M' X]]. rewrite M in M'. injection M' as <-. apply S. exact X.
Qed.

(** * The list of types *)
Theorem types_listed : forall compile correspondence fetch_unique search exclude name out,
  fetch_ken_types compile correspondence fetch_unique search exclude name = Ok out ->
  exists c s u given, correspondence = Ok c /\ In s c /\ table s = name /\ fetch_unique (unique_id s) = Ok u /\ concat given = out /\
    Forall2 (fun T o => (Wanted compile search exclude T /\ exists t, Inner T t /\ o = [t]) \/ (~ Wanted compile search exclude T /\ o = [])) u given.
Proof.
  intros compile correspondence fetch_unique search exclude name out H. unfold fetch_ken_types in H. destruct correspondence as [c|e]; [|discriminate H]. cbn [bind] in H.
  destruct (mem name (aliases c)); [|discriminate H]. unfold lookup in H. destruct (filter (fun s => eqb_of (table s) name) c) as [|s l] eqn:F; [discriminate H|]. cbn [bind] in H.
  destruct (fetch_unique (unique_id s)) as [u|e] eqn:U; [|discriminate H]. cbn [bind] in H.
  destruct (select compile (fun t => t) search exclude u) as [found|e] eqn:S; [|discriminate H]. injection H as <-. destruct (select_ok compile search exclude _ _ _ S) as [-> _].
  assert (IS : In s (s :: l)) by (left; reflexivity). rewrite <- F in IS. apply filter_In in IS. destruct IS as [IS Q]. apply (proj1 (eqb_of_true _ _)) in Q.
  exists c, s, u, (map (fun T => if wanted compile search exclude T then [inside T] else []) u). split; [reflexivity|]. split; [exact IS|]. split; [exact Q|]. split; [exact U|].
  clear. split.
  - induction u as [|T u IH]; [reflexivity|]. cbn. destruct (wanted compile search exclude T); cbn; rewrite IH; reflexivity.
  - induction u as [|T u IH]; [constructor|]. cbn. constructor; [|exact IH]. destruct (wanted compile search exclude T) eqn:W.
    + left. split; [apply wanted_iff; exact W|]. exists (inside T). split; [apply inside_inner|reflexivity].
    + right. split; [|reflexivity]. intros X. apply wanted_iff in X. rewrite X in W. discriminate W.
Qed.
(** * The tables that are fetched *)
Theorem tables : forall {num} compile (pca : nat -> list (list num) -> list (list num)) correspondence fetch_pairs fetch_files search exclude name type_id components suffix r,
  fetch_ken_embeddings compile pca correspondence fetch_pairs fetch_files search exclude name type_id components suffix = Ok r ->
  exists c ids types full, correspondence = Ok c /\ fetch_pairs (snd ids) = Ok types /\ fetch_files (fst ids) = Ok full /\
    embeddings compile pca search exclude components suffix types (fst full) (snd full) = Ok r /\
    ((exists s, In s c /\ table s = name /\ ids = (entities_id s, Some (types_id s))) \/
     (name <> all_entities /\ (forall s, In s c -> table s <> name) /\ ids = (name, type_id))).
Proof.
  intros num compile pca correspondence fetch_pairs fetch_files search exclude name type_id components suffix r H. unfold fetch_ken_embeddings in H.
  destruct correspondence as [c|e]; [|discriminate H]. cbn [bind] in H.
  assert (X : forall ids, (let! types := fetch_pairs (snd ids) in let! _ := select compile snd search exclude types in let! full := fetch_files (fst ids) in
      embeddings compile pca search exclude components suffix types (fst full) (snd full)) = Ok r ->
      exists types full, fetch_pairs (snd ids) = Ok types /\ fetch_files (fst ids) = Ok full /\ embeddings compile pca search exclude components suffix types (fst full) (snd full) = Ok r).
  { intros ids K. destruct (fetch_pairs (snd ids)) as [types|e]; [|discriminate K]. cbn [bind] in K. destruct (select compile snd search exclude types) as [k|e]; [|discriminate K]. cbn [bind] in K.
    destruct (fetch_files (fst ids)) as [full|e]; [|discriminate K]. exists types, full. split; [reflexivity|]. split; [reflexivity|exact K]. }
  destruct (mem name (aliases c)) eqn:M.
  - unfold lookup in H. destruct (filter (fun s => eqb_of (table s) name) c) as [|s l] eqn:F; [discriminate H|]. cbn [bind] in H.
    destruct (X _ H) as [types [full [A [B D]]]]. exists c, (entities_id s, Some (types_id s)), types, full.
    split; [reflexivity|]. split; [exact A|]. split; [exact B|]. split; [exact D|]. left. exists s.
    assert (IS : In s (s :: l)) by (left; reflexivity). rewrite <- F in IS. apply filter_In in IS. destruct IS as [IS Q]. apply (proj1 (eqb_of_true _ _)) in Q.
    split; [exact IS|]. split; [exact Q|reflexivity].
  - apply mem_false in M. cbn [bind] in H. destruct (X _ H) as [types [full [A [B D]]]]. exists c, (name, type_id), types, full.
    split; [reflexivity|]. split; [exact A|]. split; [exact B|]. split; [exact D|]. right. split; [intros ->; apply M; left; reflexivity|].
    split; [|reflexivity]. intros s I E. apply M. right. rewrite <- E. apply in_map. exact I.
Qed.

(** * Refutations *)
Definition angle (s : string) : text := of_string "<" ++ of_string s ++ of_string ">".
(** a name with a group does not match itself *)
Definition director : text := angle "films_(music)".
Theorem type_names_false : forall {num} compile (pca : nat -> list (list num) -> list (list num)) (x : num), Regular compile ->
  let types := [(angle "film", director)] in let t := of_string "films_(music)" in
  In t (map inside (map snd types)) /\ exists r, embeddings compile pca (Some t) None None [] types [of_string "X0"] [[(angle "film", [x])]] = Ok r /\ rows r = [].
Proof.
  intros num compile pca x RE types t. split; [left; reflexivity|].
  destruct (RE t) as [m [M S]]; [repeat (constructor; [(left; reflexivity) || (right; reflexivity)|]); constructor|reflexivity|].
  assert (N : m director = false).
  { destruct (m director) eqn:Q; [|reflexivity]. exfalso. apply S in Q. destruct Q as [a [b E]].
    assert (L : length director = length a + 11 + length b) by (rewrite E, !app_length; cbn; lia). cbn in L.
    do 5 (destruct a as [|? a]; [cbn in E; discriminate E|]; try (cbn in E; injection E as <- E)). cbn in L. lia. }
  unfold embeddings, select, keep. rewrite M. cbn [bind filter snd types]. rewrite N. cbn. eexists. split; reflexivity.
Qed.
(** entities of different files are not in one space *)
Theorem one_space_false : forall compile (pca : nat -> list (list Q) -> list (list Q)), OneColumn pca ->
  exists types cols files r b c u v, embeddings compile pca None None (Some 1) [] types cols files = Ok r /\
    (exists x fb fc, In fb files /\ In fc files /\ In (angle b, [x]) fb /\ In (angle c, [x]) fc) /\
    In ((of_string b, of_string "t"), [u]) (rows r) /\ In ((of_string c, of_string "t"), [v]) (rows r) /\ ~ (u == v)%Q.
Proof.
  intros compile pca P.
  destruct (P [0; 2]%Q) as [s [S F]]; [discriminate|]. destruct (P [2; 8]%Q) as [s' [S' F']]; [discriminate|].
  cbn [map] in F, F'. inversion F as [|x0 v0 l0 l0' A0 F0 E0 E1]; subst. inversion F0 as [|x1 v1 l1 l1' A1 F1 E2 E3]; subst. inversion F1; subst.
  inversion F' as [|x2 v2 l2 l2' A2 F2 E4 E5]; subst. inversion F2 as [|x3 v3 l3 l3' A3 F3 E6 E7]; subst. inversion F3; subst.
  destruct A0 as [c0 [-> A0]], A1 as [c1 [-> A1]], A2 as [c2 [-> A2]], A3 as [c3 [-> A3]].
  exists (map (fun n => (angle n, angle "t")) ["a"; "b"; "c"; "d"]), [of_string "X0"], [[(angle "a", [0%Q]); (angle "b", [2%Q])]; [(angle "c", [2%Q]); (angle "d", [8%Q])]].
  unfold embeddings. cbn. rewrite <- E1, <- E5. cbn. eexists. exists "b", "c", c1, c2. split; [reflexivity|]. split.
  - exists 2%Q. eexists. eexists. split; [left; reflexivity|]. split; [right; left; reflexivity|]. split; [right; left; reflexivity|left; reflexivity].
  - split; [right; left; reflexivity|]. split; [right; right; left; reflexivity|]. intros K. rewrite A1, A2 in K. unfold qmean in K. cbn in K.
    destruct S as [S|S], S' as [S'|S']; rewrite S, S' in K; vm_compute in K; discriminate K.
Qed.
(** enough entities in all, but not in each file *)
Theorem enough_false : forall {num} compile (pca : nat -> list (list num) -> list (list num)) (x : num), Regular compile ->
  exists search types cols files, (exists m, compile search = Ok m /\ length (filter (fun f => m (snd f)) types) >= 1) /\
    (forall E T, In (E, T) types -> exists v, In (E, v) (concat files)) /\ embeddings compile pca (Some search) None (Some 1) [] types cols files = Err ValueError.
Proof.
  intros num compile pca x RE. exists (of_string "film"), [(angle "a", angle "films"); (angle "b", angle "bands")], [of_string "X0"; of_string "X1"], [[(angle "a", [x; x])]; [(angle "b", [x; x])]].
  destruct (RE (of_string "film")) as [m [M S]]; [repeat (constructor; [left; reflexivity|]); constructor|reflexivity|].
  assert (A : m (angle "films") = true) by (apply S; exists (of_string "<"), (of_string "s>"); reflexivity).
  assert (B : m (angle "bands") = false).
  { destruct (m (angle "bands")) eqn:Q; [|reflexivity]. exfalso. apply S in Q. destruct Q as [a [b E]].
    assert (L : length (angle "bands") = length a + 4 + length b) by (rewrite E, !app_length; cbn; lia). cbn in L.
    do 4 (destruct a as [|? a]; [cbn in E; discriminate E|]; try (cbn in E; injection E as <- E)). cbn in L. lia. }
  split; [exists m; split; [exact M|cbn [filter snd]; rewrite A, B; cbn; lia]|]. split.
  - intros E T [[= <- <-]|[[= <- <-]|[]]]; exists [x; x]; cbn; [left; reflexivity|right; left; reflexivity].
  - unfold embeddings, select, keep. rewrite M. cbn [bind filter snd]. rewrite A, B. reflexivity.
Qed.
