(** Specification and lemmas for C58. *)
From Coq Require Import QArith.
From Verif Require Import Base M_gendup.
Open Scope list_scope.
Open Scope nat_scope.

(** what is assumed of the generator: it draws as many numbers as asked, and letters among 26 *)
Record GenOk {R} (random : R -> nat -> list Q * R) (choice : R -> nat -> list nat * R) : Prop := {
  random_len : forall r n, length (fst (random r n)) = n;
  choice_len : forall r n, length (fst (choice r n)) = n;
  choice_lt : forall r n, Forall (fun i => i < 26) (fst (choice r n)) }.

Definition Lowercase (c : nat) : Prop := 97 <= c < 123.
Definition letter (e : list text) (r c : nat) : option nat := match nth_error e r with Some row => nth_error row c | None => None end.

(** The entries of one example. [draw i]: the number drawn for the letter number [i] of all entries, if there is one.
    Letters whose draw is below [p] are replaced by lowercase letters, all others are kept. *)
Definition Entries (p : Q) (draw : nat -> option Q) (example : text) (n_ex : nat) (entries : list text) : Prop :=
  length entries = n_ex /\ Forall (fun e => length e = length example) entries /\
  forall r c, r < n_ex -> c < length example ->
    match draw (r * length example + c) with
    | Some d => ((d < p)%Q -> exists x, letter entries r c = Some x /\ Lowercase x) /\ (~ (d < p)%Q -> letter entries r c = nth_error example c)
    | None => letter entries r c = nth_error example c
    end.
(** all letters have their own draw *)
Definition AllDrawn (draw : nat -> option Q) (example : text) (n_ex : nat) : Prop := forall i, i < n_ex * length example -> exists d, draw i = Some d.

Definition grid (n len : nat) (f : nat -> nat -> nat) : list text := map (fun r => map (f r) (seq 0 len)) (seq 0 n).

Lemma upd_seq {A} : forall n s (f : nat -> A) i g a, i < n -> g (f (s + i)) = Ok a ->
  upd (map f (seq s n)) i g = Ok (map (fun k => if k =? s + i then a else f k) (seq s n)).
Proof.
  induction n as [|n IH]; intros s f i g a L E; [lia|]. cbn [seq map upd]. destruct i as [|i].
  - rewrite Nat.add_0_r in *. rewrite E. cbn [bind]. rewrite Nat.eqb_refl. f_equal. f_equal. apply map_ext_in. intros k I. apply in_seq in I.
    destruct (Nat.eqb_spec k s); [lia|reflexivity].
  - replace (s + S i) with (S s + i) in * by lia. rewrite (IH (S s) f i g a); [|lia|exact E]. cbn [bind]. destruct (Nat.eqb_spec s (S s + i)); [lia|reflexivity].
Qed.
Lemma upd_grid : forall n len f r c x, r < n -> c < len ->
  upd (grid n len f) r (fun row => upd row c (fun _ => Ok x)) = Ok (grid n len (fun r' c' => if (r' =? r) && (c' =? c) then x else f r' c')).
Proof.
  intros n len f r c x Lr Lc. unfold grid.
  rewrite (upd_seq n 0 (fun r => map (f r) (seq 0 len)) r _ (map (fun k => if k =? c then x else f r k) (seq 0 len)) Lr).
  - f_equal. apply map_ext. intros r'. cbn [Nat.add]. destruct (Nat.eqb_spec r' r) as [->|N]; [|apply map_ext; intros; reflexivity]. apply map_ext. intros. reflexivity.
  - exact (upd_seq len 0 (f r) c (fun _ => Ok x) x Lc eq_refl).
Qed.
Lemma letter_grid : forall n len f r c, r < n -> c < len -> letter (grid n len f) r c = Some (f r c).
Proof.
  intros n len f r c Lr Lc. unfold letter, grid.
  assert (G : forall A m (h : nat -> A) k, k < m -> nth_error (map h (seq 0 m)) k = Some (h k)).
  { intros A m h k L. apply map_nth_error. rewrite (nth_error_nth' (seq 0 m) 0); [rewrite seq_nth by exact L; reflexivity|rewrite seq_length; exact L]. }
  rewrite (G _ n _ r Lr). apply G. exact Lc.
Qed.
Lemma grid_repeat : forall (ex : text) n, repeat ex n = grid n (length ex) (fun _ c => nth c ex 0).
Proof.
  intros ex n. unfold grid. assert (E : ex = map (fun c => nth c ex 0) (seq 0 (length ex))).
  { apply nth_ext with (d := 0) (d' := 0); [rewrite map_length, seq_length; reflexivity|]. intros k L.
    rewrite (nth_indep (map _ _) 0 (nth 0 ex 0)) by (rewrite map_length, seq_length; exact L).
    change (nth 0 ex 0) with ((fun c => nth c ex 0) 0). rewrite map_nth, seq_nth by exact L. reflexivity. }
  rewrite <- E. generalize 0. induction n as [|n IH]; intros s; [reflexivity|]. cbn. f_equal. apply IH.
Qed.

(** the cells after the assignments *)
Definition assigned (len : nat) (f : nat -> nat -> nat) (ixs : list (nat * nat)) : nat -> nat -> nat :=
  fold_left (fun f ix r c => if (r =? fst ix / len) && (c =? fst ix mod len) then snd ix else f r c) ixs f.
Lemma fold_assign : forall n len ixs f, 0 < len -> Forall (fun ix => fst ix < n * len) ixs ->
  fold_left (fun acc ix => let! a := acc in upd a (fst ix / len) (fun row => upd row (fst ix mod len) (fun _ => Ok (snd ix)))) ixs (Ok (grid n len f)) =
  Ok (grid n len (assigned len f ixs)).
Proof.
  intros n len ixs f P F. revert f. induction F as [|[i x] ixs L F IH]; intros f; [reflexivity|]. cbn [fold_left bind fst snd]. cbn [fst] in L.
  rewrite upd_grid; [apply IH|apply Nat.div_lt_upper_bound; lia|apply Nat.mod_upper_bound; lia].
Qed.
Lemma same_cell : forall len i r c, 0 < len -> c < len -> ((r =? i / len) && (c =? i mod len))%bool = true <-> i = r * len + c.
Proof.
  intros len i r c P L. rewrite andb_true_iff, !Nat.eqb_eq. split.
  - intros [-> ->]. pose proof (Nat.div_mod i len). lia.
  - intros ->. replace (r * len + c) with (c + r * len) by lia. rewrite Nat.div_add, Nat.mod_add by lia. rewrite Nat.div_small, Nat.mod_small by lia. lia.
Qed.
Lemma assigned_out : forall len ixs f r c, 0 < len -> c < len -> ~ In (r * len + c) (map fst ixs) -> assigned len f ixs r c = f r c.
Proof.
  intros len ixs f r c P L. revert f. unfold assigned. induction ixs as [|[i x] ixs IH]; intros f N; [reflexivity|]. cbn [fold_left]. rewrite IH; [|intros I; apply N; right; exact I].
  cbn [fst snd]. destruct (_ && _)%bool eqn:E; [|reflexivity]. apply (proj1 (same_cell len i r c P L)) in E. exfalso. apply N. left. exact E.
Qed.
Lemma assigned_in : forall len ixs f r c x, 0 < len -> c < len -> NoDup (map fst ixs) -> In (r * len + c, x) ixs -> assigned len f ixs r c = x.
Proof.
  intros len ixs f r c x P L. revert f. induction ixs as [|[i y] ixs IH]; intros f ND I; [destruct I|]. inversion ND as [|? ? N0 N1]; subst.
  unfold assigned. cbn [fold_left fst snd]. destruct I as [E|I].
  - injection E as -> ->. fold (assigned len (fun r0 c0 => if (r0 =? (r * len + c) / len) && (c0 =? (r * len + c) mod len) then x else f r0 c0) ixs).
    rewrite assigned_out; [|exact P|exact L|exact N0]. rewrite (proj2 (same_cell len (r * len + c) r c P L) eq_refl). reflexivity.
  - apply IH; assumption.
Qed.

Section Lemmas.
  Context {R : Type} (random : R -> nat -> list Q * R) (choice : R -> nat -> list nat * R).
  Hypothesis ok : GenOk random choice.
  Notation dup := (duplicate random choice).

  Lemma where_in : forall p draws i, In i (where_lt p draws) <-> exists d, nth_error draws i = Some d /\ (d < p)%Q.
  Proof.
    clear. intros p draws i. unfold where_lt. rewrite filter_In, in_seq. split.
    - intros [B H]. exists (nth i draws 0%Q). split; [apply nth_error_nth'; lia|]. apply negb_true_iff in H. apply Qnot_le_lt. intros L. apply Qle_bool_iff in L. congruence.
    - intros (d & E & L). split; [split; [lia|]; apply nth_error_Some; cbn; congruence|]. rewrite (nth_error_nth _ _ _ E). apply negb_true_iff.
      destruct (Qle_bool p d) eqn:E1; [|reflexivity]. apply Qle_bool_iff in E1. apply Qlt_not_le in L. contradiction.
  Qed.
  Lemma where_nodup : forall p draws, NoDup (where_lt p draws).
  Proof. clear. intros p draws. apply NoDup_filter. apply seq_NoDup. Qed.
  Lemma letters_ok : forall picks, Forall (fun i => i < 26) picks -> exists l, mapM ascii_lowercase picks = Ok l /\ length l = length picks /\ Forall Lowercase l.
  Proof.
    clear. induction 1 as [|i picks L F (l & E & El & Fl)]; [exists []; repeat split; constructor|]. cbn [mapM]. unfold ascii_lowercase at 1. apply Nat.ltb_lt in L as L'. rewrite L'. cbn [bind].
    rewrite E. cbn [bind]. exists ((97 + i) :: l). split; [reflexivity|]. split; [cbn; congruence|]. constructor; [unfold Lowercase; lia|exact Fl].
  Qed.
  Lemma combine_fst : forall A B (a : list A) (b : list B), length a = length b -> map fst (combine a b) = a.
  Proof. clear. induction a as [|x a IH]; intros [|y b] E; try discriminate; [reflexivity|]. cbn. f_equal. apply IH. injection E as E. exact E. Qed.

  Lemma duplicate_ok : forall p rng example n_ex, example <> [] -> 0 < n_ex ->
    exists entries rng', dup p rng example n_ex = Ok (entries, rng') /\ Entries p (fun i => nth_error (fst (random rng n_ex)) i) example n_ex entries.
  Proof.
    intros p rng example n Ne Pn. unfold duplicate. set (len := length example). assert (P : 0 < len) by (unfold len; destruct example; [contradiction|cbn; lia]).
    assert (E0 : exists c0, match example with [] => Err IndexError | c :: _ => Ok [c] end = Ok [c0]) by (destruct example; [contradiction|eexists; reflexivity]).
    destruct E0 as (c0 & E0). rewrite E0. cbn [bind length]. rewrite Nat.mul_1_l.
    pose proof (random_len _ _ ok rng n) as Ld. destruct (random rng n) as [draws rng1]. cbn [fst] in *.
    set (mis := where_lt p draws). pose proof (choice_len _ _ ok rng1 (length mis)) as Lp. pose proof (choice_lt _ _ ok rng1 (length mis)) as Fp.
    destruct (choice rng1 (length mis)) as [picks rng2]. cbn [fst] in *. destruct (letters_ok picks Fp) as (reps & Er & Lr & Fr). rewrite Er. cbn [bind].
    destruct (Nat.eqb_spec n 0) as [->|_]; [lia|]. unfold assign. rewrite grid_repeat. fold len.
    assert (Lc : length mis = length reps) by lia. pose proof (combine_fst _ _ mis reps Lc) as Mf.
    assert (Bm : forall i, In i mis -> i < n). { intros i I. apply where_in in I. destruct I as (d & E & _). rewrite <- Ld. apply nth_error_Some. congruence. }
    rewrite fold_assign; [|exact P|].
    2:{ apply Forall_forall. intros [i x] I. apply in_combine_l in I. apply Bm in I. cbn. nia. }
    cbn [bind]. eexists. exists rng2. split; [reflexivity|]. split; [unfold grid; rewrite map_length, seq_length; reflexivity|]. split.
    { apply Forall_forall. intros row I. unfold grid in I. apply in_map_iff in I. destruct I as (r & <- & _). rewrite map_length, seq_length. reflexivity. }
    intros r c Lrn Lcl. rewrite letter_grid by assumption. fold len.
    assert (Orig : nth_error example c = Some (nth c example 0)) by (apply nth_error_nth'; exact Lcl).
    destruct (nth_error draws (r * len + c)) as [d|] eqn:Ed.
    - split.
      + intros Lt. assert (I : In (r * len + c) mis) by (apply where_in; exists d; tauto). rewrite <- Mf in I. apply in_map_iff in I. destruct I as ([i x] & Ei & I). cbn in Ei. subst i.
        exists x. rewrite (assigned_in len _ _ r c x P Lcl); [|rewrite Mf; apply where_nodup|exact I]. split; [reflexivity|].
        apply in_combine_r in I. rewrite Forall_forall in Fr. apply Fr. exact I.
      + intros Nl. rewrite assigned_out; [symmetry; exact Orig|exact P|exact Lcl|]. rewrite Mf. intros I. apply where_in in I. destruct I as (d' & E & L). congruence.
    - rewrite assigned_out; [symmetry; exact Orig|exact P|exact Lcl|]. rewrite Mf. intros I. apply where_in in I. destruct I as (d' & E & L). congruence.
  Qed.

  (** the outputs: the entries of each example, in order *)
  Inductive AllEntries (p : Q) : list (text * nat) -> list text -> Prop :=
  | AE_nil : AllEntries p [] []
  | AE_cons : forall example n_ex pairs draws entries out, length draws = n_ex -> Entries p (nth_error draws) example n_ex entries -> AllEntries p pairs out ->
      AllEntries p ((example, n_ex) :: pairs) (entries ++ out).

  Lemma loop_ok : forall p pairs rng, Forall (fun en => fst en <> [] /\ 0 < snd en) pairs ->
    exists data, loop random choice p rng pairs = Ok data /\ length data = length pairs /\ AllEntries p pairs (concat data).
  Proof.
    intros p pairs. induction pairs as [|[ex n] pairs IH]; intros rng F; [exists []; repeat split; constructor|]. inversion F as [|? ? [Ne Pn] F']; subst. cbn in Ne, Pn.
    destruct (duplicate_ok p rng ex n Ne Pn) as (entries & rng' & E & H). destruct (IH rng' F') as (data & E2 & L & A).
    cbn [loop]. rewrite E. cbn [bind]. rewrite E2. cbn [bind]. exists (entries :: data). split; [reflexivity|]. split; [cbn; congruence|].
    cbn [concat]. apply AE_cons with (draws := fst (random rng n)); [apply (random_len _ _ ok)|exact H|exact A].
  Qed.
  Lemma make_ok : forall p rng examples counts, combine examples counts <> [] -> Forall (fun en => fst en <> [] /\ 0 < snd en) (combine examples counts) ->
    exists out, make_deduplication_data random choice p rng examples counts = Ok out /\ AllEntries p (combine examples counts) out.
  Proof.
    intros p rng examples counts Ne F. unfold make_deduplication_data. destruct (loop_ok p _ rng F) as (data & E & L & A).
    match goal with |- context [loop ?a ?b ?c ?d ?e] => replace (loop a b c d e) with (Ok data) by (symmetry; exact E) end. cbn [bind].
    destruct data as [|d data]; [destruct (combine examples counts); [contradiction|discriminate]|]. exists (concat (d :: data)). tauto.
  Qed.
  Lemma loop_zero : forall p pairs rng, Exists (fun en => snd en = 0) pairs -> Forall (fun en => fst en <> []) pairs -> loop random choice p rng pairs = Err IndexError.
  Proof.
    intros p pairs. induction pairs as [|[ex n] pairs IH]; intros rng X F; [inversion X|]. inversion F as [|? ? Ne F']; subst. cbn in Ne. cbn [loop].
    destruct n as [|n].
    - unfold duplicate. destruct ex as [|c0 ex0]; [contradiction|]. cbn [bind length]. rewrite Nat.mul_0_r. destruct (random rng 0) as [draws rng1].
      pose proof (choice_lt _ _ ok rng1 (length (where_lt p draws))) as Fp. destruct (choice rng1 _) as [picks rng2]. cbn [fst] in Fp. destruct (letters_ok picks Fp) as (reps & Er & _). rewrite Er. reflexivity.
    - destruct (duplicate_ok p rng ex (S n) Ne) as (entries & rng' & E & _); [lia|]. rewrite E. cbn [bind]. rewrite IH; [reflexivity| |exact F']. inversion X; [cbn in *; lia|assumption].
  Qed.
End Lemmas.

(** entries after the first [n / len] are never misspelled *)
Lemma entries_clean : forall p draws example n_ex entries, Entries p (nth_error draws) example n_ex entries -> length draws = n_ex ->
  forall r e, nth_error entries r = Some e -> n_ex <= r * length example -> e = example.
Proof.
  intros p draws example n entries (L & F & H) Ld r e Er G. assert (Lr : r < n). { rewrite <- L. apply nth_error_Some. congruence. }
  assert (Le : length e = length example). { rewrite Forall_forall in F. apply F. eapply nth_error_In. exact Er. }
  apply nth_ext with (d := 0) (d' := 0); [exact Le|]. intros c Lc. rewrite Le in Lc. specialize (H r c Lr Lc).
  assert (D : nth_error draws (r * length example + c) = None) by (apply nth_error_None; lia). rewrite D in H. unfold letter in H. rewrite Er in H.
  rewrite (nth_error_nth' e 0) in H by lia. rewrite (nth_error_nth' example 0) in H by lia. congruence.
Qed.
