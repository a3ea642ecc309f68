(** Fetching a dataset: specification and lemmas. *)
From Verif Require Import Base M_dataset L_dict.
From Coq Require Import Permutation.
Open Scope string_scope.
Open Scope list_scope.
Open Scope nat_scope.

Lemma dkeys_ddel : forall {K V} `{EqD K} (k : K) (d : dict K V), NoDup (dkeys d) -> dkeys (ddel k d) = remove eqd k (dkeys d).
Proof.
  intros K V E k d. induction d as [|[a v] d IH]; intros N; [reflexivity|]. simpl in *. inversion N as [|? ? N1 N2]; subst.
  destruct (eqd k a) as [->|Ne].
  - symmetry. apply notin_remove. exact N1.
  - simpl. f_equal. apply IH, N2.
Qed.
Lemma NoDup_remove_eqd : forall {K} `{EqD K} (k : K) l, NoDup l -> NoDup (remove eqd k l).
Proof.
  intros K E k l N. induction N as [|a l N1 N2 IH]; simpl; [constructor|]. destruct (eqd k a); [exact IH|].
  constructor; [|exact IH]. intros I. apply in_remove in I. tauto.
Qed.
Lemma remove_length_in : forall {K} `{EqD K} (k : K) l, In k l -> length (remove eqd k l) < length l.
Proof.
  intros K E k l. induction l as [|a l IH]; intros I; [destruct I|]. simpl. destruct (eqd k a) as [->|Ne].
  - pose proof (remove_length_le eqd l a). lia.
  - destruct I as [->|I]; [congruence|]. simpl. specialize (IH I). lia.
Qed.

Section Dataset.
  Context {bytes digest file : Type} {ED : EqD digest}.
  Variable sha256 : bytes -> digest.
  Variable expected : digest.
  Variable unpack : bytes -> option (dict string file).
  Variable readable : string -> bool.
  Variable attempts : nat.
  (** The published archive and its files. *)
  Variable published : bytes.
  Variable full : dict string file.
  Hypothesis sha_published : sha256 published = expected.
  Hypothesis no_collision : forall b, sha256 b = expected -> b = published.
  Hypothesis unpack_published : unpack published = Some full.
  Hypothesis full_names : NoDup (dkeys full).

  Notation fs := (fs (bytes := bytes) (file := file)).
  Notation pc := (pc (file := file)).
  Notation pstep := (pstep sha256 expected unpack readable attempts).
  Notation exec := (exec sha256 expected unpack readable attempts).
  Notation run := (run sha256 expected unpack readable attempts).
  Notation alone := (alone sha256 expected unpack readable attempts).

  (** ** Specification *)
  Definition Damaged (s : fs) : Prop := exists b, arch s = Some b /\ sha256 b <> expected.
  (** The cache is consistent: the files are absent or complete, or the archive shows the damage. *)
  Definition Consistent (s : fs) : Prop :=
    dir s = None \/ dir s = Some full \/ (Damaged s /\ exists d, dir s = Some d /\ NoDup (dkeys d)).
  (** The cache is clean. *)
  Definition Clean (s : fs) : Prop :=
    (arch s = None \/ arch s = Some published) /\ (dir s = None \/ dir s = Some full).
  (** A fetch returned exactly the files of the dataset. *)
  Definition Complete (got : dict string file) : Prop := Permutation got (filter (fun q => readable (fst q)) full).

  (** ** Invariants *)
  Definition Reading (todo : list string) (got : dict string file) : Prop :=
    NoDup todo /\ (forall n, In n todo -> In n (dkeys full)) /\
    Permutation got (filter (fun q => readable (fst q) && negb (mem (fst q) todo)) full).

  (** One process at a time. *)
  Definition PInv (s : fs) (p : pc) : Prop :=
    match p with
    | PStart | PHash => Consistent s
    | PScan => Consistent s /\ Damaged s
    | PRm ns => Damaged s /\ exists d, dir s = Some d /\ NoDup (dkeys d) /\ NoDup ns /\ forall n, In n ns <-> In n (dkeys d)
    | PUnlink => dir s = None
    | PDirq => Clean s
    | PExtract => Clean s /\ dir s = None
    | PDownload _ => Clean s /\ dir s = None
    | PUnpack => arch s = Some published /\ dir s = None
    | PRename files => arch s = Some published /\ dir s = None /\ files = full
    | PRenamed | PList => Clean s /\ dir s = Some full
    | PCleanup _ => Clean s
    | PReading todo got => Clean s /\ dir s = Some full /\ Reading todo got
    | PDone got => Consistent s /\ Complete got
    | PFail _ | PKilled => Consistent s
    end.

  Lemma Clean_Consistent : forall s, Clean s -> Consistent s.
  Proof. intros s (_ & [E|E]); [left|right; left]; exact E. Qed.

  Lemma PInv_Consistent : forall s p, PInv s p -> Consistent s.
  Proof.
    intros s p. destruct p; simpl; intros HI; try tauto.
    - destruct HI as (D & d & Ed & N & _). right. right. split; [exact D|exists d; auto].
    - left; exact HI.
    - apply Clean_Consistent. exact HI.
    - apply Clean_Consistent. tauto.
    - apply Clean_Consistent. tauto.
    - left. tauto.
    - left. tauto.
    - apply Clean_Consistent. tauto.
    - apply Clean_Consistent. exact HI.
    - apply Clean_Consistent. tauto.
    - apply Clean_Consistent. tauto.
  Qed.

  Lemma pick_name_In : forall k names, names <> [] -> In (pick_name k names) names.
  Proof.
    intros k names Hn. unfold pick_name. apply nth_In. apply Nat.mod_upper_bound. destruct names; [congruence|discriminate].
  Qed.

  Lemma reading_start : Reading (dkeys full) [].
  Proof.
    split; [exact full_names|]. split; [auto|].
    rewrite (filter_ext_in _ (fun _ => false)).
    - clear. induction full; simpl; auto.
    - intros q I. assert (M : mem (fst q) (dkeys full) = true) by (apply mem_true, in_map, I). rewrite M. apply andb_false_r.
  Qed.

  Lemma reading_end : forall got, Reading [] got -> Complete got.
  Proof.
    intros got (_ & _ & P). unfold Complete. rewrite P. rewrite (filter_ext _ (fun q => readable (fst q))); [reflexivity|].
    intros q. simpl. apply andb_true_r.
  Qed.

  Lemma filter_split_one : forall (P Q : string * file -> bool) (d : dict string file) n f, NoDup (dkeys d) -> In (n, f) d ->
    (forall q, In q d -> fst q <> n -> P q = Q q) -> P (n, f) = true -> Q (n, f) = false ->
    Permutation (filter P d) ((n, f) :: filter Q d).
  Proof.
    intros P Q d n f. induction d as [|[a v] d IH]; intros N I HE HP HQ; [destruct I|]. simpl in N. inversion N as [|? ? N1 N2]; subst.
    destruct I as [E|I].
    - injection E as -> ->. simpl. rewrite HP, HQ. constructor.
      rewrite (filter_ext_in P Q); [reflexivity|]. intros q Iq. apply HE; [right; exact Iq|]. intros E. apply N1. rewrite <- E. apply in_map, Iq.
    - assert (a <> n). { intros ->. apply N1. change n with (fst (n, f)). apply in_map, I. }
      simpl. rewrite (HE (a, v)) by (auto; left; reflexivity). specialize (IH N2 I (fun q Iq => HE q (or_intror Iq)) HP HQ).
      destruct (Q (a, v)); [|exact IH]. rewrite IH. apply perm_swap.
  Qed.

  Lemma reading_step : forall todo got n f, Reading todo got -> In n todo -> dget n full = Some f ->
    Reading (remove eqd n todo) (if readable n then got ++ [(n, f)] else got).
  Proof.
    intros todo got n f (N & Hs & P) I Hf. split; [apply NoDup_remove_eqd, N|]. split.
    { intros m Im. apply in_remove in Im. apply Hs. tauto. }
    assert (If : In (n, f) full) by (apply dget_In_weak, Hf).
    assert (Hm : forall m, mem m (remove eqd n todo) = mem m todo && negb (eqb_of m n)).
    { intros m. destruct (mem m todo) eqn:E1.
      - apply mem_true in E1. destruct (eqb_of m n) eqn:E2; simpl.
        + apply (proj1 (eqb_of_true _ _)) in E2. subst m. apply mem_false. apply remove_In.
        + apply (proj1 (eqb_of_false _ _)) in E2. apply mem_true. apply in_in_remove; assumption.
      - simpl. apply mem_false. apply mem_false in E1. intros X. apply in_remove in X. tauto. }
    destruct (readable n) eqn:R.
    - rewrite (filter_split_one _ (fun q => readable (fst q) && negb (mem (fst q) todo)) full n f full_names If).
      + rewrite P. apply Permutation_sym, Permutation_cons_append.
      + intros q _ Nq. rewrite Hm. rewrite (proj2 (eqb_of_false _ _) Nq). rewrite andb_true_r. reflexivity.
      + simpl. rewrite R, Hm, (proj2 (eqb_of_true n n) eq_refl), andb_false_r. reflexivity.
      + simpl. rewrite (proj2 (mem_true n todo) I). apply andb_false_r.
    - rewrite P. rewrite (filter_ext_in _ (fun q => readable (fst q) && negb (mem (fst q) (remove eqd n todo)))); [reflexivity|].
      intros q _. rewrite Hm. destruct (eqb_of (fst q) n) eqn:E.
      + apply (proj1 (eqb_of_true _ _)) in E. rewrite E, R. reflexivity.
      + rewrite andb_true_r. reflexivity.
  Qed.

  Lemma reading_get : forall todo got n, Reading todo got -> In n todo -> exists f, dget n full = Some f.
  Proof.
    intros todo got n (_ & Hs & _) I. apply Hs in I. destruct (dget n full) as [f|] eqn:E; [eauto|].
    exfalso. apply dget_None_keys in E. contradiction.
  Qed.

  Lemma pinv_reading : forall c s todo got, todo <> [] -> dir s = Some full -> Reading todo got ->
    exists got', pstep c s (PReading todo got) = (s, PReading (remove eqd (pick_name (ch_file c) todo) todo) got') /\
      Reading (remove eqd (pick_name (ch_file c) todo) todo) got'.
  Proof.
    intros c s todo got Hn Ed R. pose proof (pick_name_In (ch_file c) todo Hn) as I. set (n := pick_name (ch_file c) todo) in *.
    destruct (reading_get _ _ _ R I) as (f & Hf). exists (if readable n then got ++ [(n, f)] else got).
    split; [|apply reading_step; assumption].
    destruct todo as [|t0 todo0]; [congruence|]. cbn [M_dataset.pstep]. fold n. rewrite Ed, Hf. destruct (readable n); reflexivity.
  Qed.

  (** *** One process at a time *)
  Theorem pstep_inv : forall c s p s' p', PInv s p -> pstep c s p = (s', p') -> PInv s' p'.
  Proof.
    intros c s p s' p' HI E. destruct p as [| | |ns| | | |k| |files| |e| |todo got|got|e|].
    - injection E as <- <-. simpl in HI. destruct (arch s) as [b|] eqn:Ea; [exact HI|].
      destruct HI as [Ed|[Ed|((b & X & _) & _)]]; [| |congruence]; (split; [left; exact Ea|]); tauto.
    - injection E as <- <-. simpl in HI. destruct (arch s) as [b|] eqn:Ea; [|exact HI].
      destruct (eqd (sha256 b) expected) as [Eb|Nb].
      + apply no_collision in Eb. subst b. split; [right; exact Ea|].
        destruct HI as [Ed|[Ed|((b & X & Nb) & _)]]; [tauto|tauto|]. exfalso. apply Nb. congruence.
      + split; [exact HI|]. exists b. auto.
    - injection E as <- <-. destruct HI as [HC HD]. destruct (dir s) as [d|] eqn:Ed; [|exact Ed].
      split; [exact HD|]. exists d. split; [exact Ed|].
      assert (N : NoDup (dkeys d)). { destruct HC as [X|[X|(_ & d' & X & N)]]; [congruence| |]; rewrite Ed in X; injection X as ->; assumption. }
      split; [exact N|]. split; [exact N|]. tauto.
    - destruct HI as (HD & d & Ed & N & Nn & Hk). destruct ns as [|n0 ns0].
      + cbn [M_dataset.pstep] in E. rewrite Ed in E. destruct d as [|[a v] d]; injection E as <- <-; [reflexivity|].
        simpl. right. right. split; [exact HD|]. eauto.
      + pose proof (pick_name_In (ch_file c) (n0 :: ns0) ltac:(discriminate)) as I. cbn [M_dataset.pstep] in E.
        set (n := pick_name (ch_file c) (n0 :: ns0)) in *. rewrite Ed in E.
        destruct (dmem n d) eqn:Em.
        * apply pair_equal_spec in E. destruct E as [<- <-]. split; [exact HD|]. exists (ddel n d). split; [reflexivity|].
          rewrite (dkeys_ddel n d N). split; [apply NoDup_remove_eqd, N|]. split; [apply NoDup_remove_eqd, Nn|].
          intros m. split; intros Im; apply in_remove in Im; apply in_in_remove; try tauto; apply Hk; tauto.
        * exfalso. apply Hk in I. unfold dmem in Em. destruct (dget n d) eqn:Eg; [discriminate|]. apply dget_None_keys in Eg. contradiction.
    - cbn [M_dataset.pstep] in E. simpl in HI. destruct (arch s); injection E as <- <-; simpl; [|left; exact HI]. split; left; [reflexivity|exact HI].
    - injection E as <- <-. simpl in HI. destruct (dir s) as [d|] eqn:Ed; (split; [exact HI|]); [|exact Ed].
      destruct HI as (_ & [X|X]); rewrite Ed in X; [discriminate|]. rewrite Ed. exact X.
    - injection E as <- <-. destruct HI as [HC Ed]. destruct (arch s) as [b|] eqn:Ea; [|split; assumption].
      split; [|exact Ed]. destruct HC as ([X|X] & _); congruence.
    - destruct HI as [HC Ed]. destruct k as [|k]; cbn [M_dataset.pstep] in E; [injection E as <- <-; left; exact Ed|].
      destruct (ch_download c) as [b|]; [|injection E as <- <-; split; assumption].
      destruct (eqd (sha256 b) expected) as [Eb|Nb]; injection E as <- <-; [|split; assumption].
      apply no_collision in Eb. subst b. split; [reflexivity|exact Ed].
    - injection E as <- <-. destruct HI as [Ea Ed]. 
      assert (HC : Clean s) by (split; [right; exact Ea|left; exact Ed]).
      destruct (ch_interrupt c); [exact HC|]. rewrite Ea, unpack_published. simpl. auto.
    - destruct HI as (Ea & Ed & ->). assert (HC : Clean s) by (split; [right; exact Ea|left; exact Ed]).
      cbn [M_dataset.pstep] in E. destruct (ch_interrupt c); [injection E as <- <-; exact HC|].
      rewrite Ed in E. injection E as <- <-. split; [split; [right; exact Ea|right; reflexivity]|reflexivity].
    - injection E as <- <-. destruct HI as [HC Ed]. destruct (ch_interrupt c); [exact HC|split; assumption].
    - injection E as <- <-. destruct HI as (_ & [X|X]); [left|right; left]; exact X.
    - injection E as <- <-. destruct HI as [HC Ed]. rewrite Ed. split; [exact HC|]. split; [exact Ed|]. exact reading_start.
    - destruct HI as (HC & Ed & R). destruct todo as [|t0 todo0].
      + injection E as <- <-. split; [apply Clean_Consistent, HC|]. apply reading_end, R.
      + destruct (pinv_reading c s (t0 :: todo0) got) as (got' & E' & R'); [discriminate|exact Ed|exact R|].
        rewrite E' in E. injection E as <- <-. split; [exact HC|]. split; [exact Ed|exact R'].
    - injection E as <- <-. exact HI.
    - injection E as <- <-. exact HI.
    - injection E as <- <-. exact HI.
  Qed.

  Lemma nth_update : forall {A} i (x : A) l j, nth_error (update i x l) j =
    if j =? i then match nth_error l j with Some _ => Some x | None => None end else nth_error l j.
  Proof.
    intros A i x l. revert i. induction l as [|y l IH]; intros i j; simpl.
    - replace (update i x []) with (@nil A) by (destruct i; reflexivity). destruct (j =? i), j; reflexivity.
    - destruct i as [|i]; destruct j as [|j]; simpl; try reflexivity. apply IH.
  Qed.

  (** At most one process runs, and it satisfies the invariant; the results of the others are complete. *)
  Definition Past (p : pc) : Prop := match p with PDone got => Complete got | PFail _ | PKilled => True | _ => False end.
  Definition Inv (s : fs) (ps : list pc) : Prop :=
    Consistent s /\ (Forall Past ps \/ exists i p, nth_error ps i = Some p /\ PInv s p /\
                       forall j q, j <> i -> nth_error ps j = Some q -> Past q).

  Lemma Past_terminal : forall p, Past p -> terminal p = true.
  Proof. intros []; simpl; tauto. Qed.

  Lemma terminal_Past : forall s p, PInv s p -> terminal p = true -> Past p.
  Proof. intros s []; simpl; try discriminate; tauto. Qed.

  Lemma idle_Past : forall s ps, Inv s ps -> idle ps = true -> Forall Past ps.
  Proof.
    intros s ps (_ & [F|(i & p & Ei & HP & HO)]) Hid; [exact F|]. apply Forall_forall. intros q I. apply In_nth_error in I. destruct I as (j & Ej).
    destruct (Nat.eq_dec j i) as [->|Ne]; [|exact (HO j q Ne Ej)]. assert (q = p) by congruence. subst q.
    apply (terminal_Past s p HP). unfold idle in Hid. rewrite forallb_forall in Hid. apply Hid. eapply nth_error_In, Ei.
  Qed.

  Lemma pstep_terminal : forall c s p, terminal p = true -> pstep c s p = (s, p).
  Proof. intros c s []; simpl; try discriminate; reflexivity. Qed.

  Lemma update_same : forall {A} i (x : A) l, nth_error l i = Some x -> update i x l = l.
  Proof. intros A i x l. revert i. induction l as [|y l IH]; intros [|i] E; simpl in *; try discriminate; [congruence|]. rewrite IH by exact E. reflexivity. Qed.

  Lemma exec_inv : forall s ps a s' ps', Inv s ps -> exec true s ps a = Some (s', ps') -> Inv s' ps'.
  Proof.
    intros s ps a s' ps' HI E. destruct a as [|i c|i|b]; cbn [M_dataset.exec] in E.
    - destruct (idle ps) eqn:Hid; [|discriminate]. injection E as <- <-. pose proof (idle_Past s ps HI Hid) as F. destruct HI as [HC _].
      split; [exact HC|]. right. exists (length ps), PStart. split; [rewrite nth_error_app2, Nat.sub_diag by lia; reflexivity|]. split; [exact HC|].
      intros j q Ne Ej. rewrite Forall_forall in F. apply F. destruct (Nat.lt_ge_cases j (length ps)) as [L|L].
      + rewrite nth_error_app1 in Ej by exact L. eapply nth_error_In, Ej.
      + rewrite nth_error_app2 in Ej by exact L. destruct (j - length ps) as [|k] eqn:Ek; [lia|]. destruct k; discriminate.
    - destruct (nth_error ps i) as [p|] eqn:Ei; [|discriminate]. destruct (pstep c s p) as [s1 p1] eqn:Es. injection E as <- <-.
      destruct HI as (HC & [F|(i0 & p0 & Ei0 & HP & HO)]).
      + rewrite Forall_forall in F. pose proof (F p (nth_error_In _ _ Ei)) as Hp.
        rewrite (pstep_terminal c s p (Past_terminal p Hp)) in Es. injection Es as <- <-. rewrite (update_same _ _ _ Ei).
        split; [exact HC|]. left. apply Forall_forall. exact F.
      + destruct (Nat.eq_dec i i0) as [->|Ne].
        * assert (p0 = p) by congruence. subst p0. pose proof (pstep_inv c s p s1 p1 HP Es) as HP1.
          split; [exact (PInv_Consistent _ _ HP1)|]. right. exists i0, p1.
          split; [rewrite nth_update, Nat.eqb_refl, Ei; reflexivity|]. split; [exact HP1|].
          intros j q Nj Ej. rewrite nth_update in Ej. apply Nat.eqb_neq in Nj. rewrite Nj in Ej. apply Nat.eqb_neq in Nj. exact (HO j q Nj Ej).
        * pose proof (HO i p Ne Ei) as Hp. rewrite (pstep_terminal c s p (Past_terminal p Hp)) in Es. injection Es as <- <-.
          rewrite (update_same _ _ _ Ei). split; [exact HC|]. right. exists i0, p0. auto.
    - destruct (nth_error ps i) as [p|] eqn:Ei; [|discriminate]. injection E as <- <-.
      destruct (terminal p) eqn:Et; [exact HI|]. destruct HI as (HC & [F|(i0 & p0 & Ei0 & HP & HO)]).
      + rewrite Forall_forall in F. pose proof (Past_terminal p (F p (nth_error_In _ _ Ei))). congruence.
      + destruct (Nat.eq_dec i i0) as [->|Ne].
        * split; [exact HC|]. right. exists i0, PKilled. split; [rewrite nth_update, Nat.eqb_refl, Ei; reflexivity|]. split; [exact HC|].
          intros j q Nj Ej. rewrite nth_update in Ej. apply Nat.eqb_neq in Nj. rewrite Nj in Ej. apply Nat.eqb_neq in Nj. exact (HO j q Nj Ej).
        * pose proof (Past_terminal p (HO i p Ne Ei)). congruence.
    - destruct (idle ps) eqn:Hid; [|discriminate]. destruct (eqd (sha256 b) expected) as [|Nb]; [discriminate|].
      destruct (arch s) as [b0|] eqn:Ea; [|discriminate]. injection E as <- <-. pose proof (idle_Past s ps HI Hid) as F. destruct HI as [HC _].
      split; [|left; exact F]. assert (D : Damaged (mk_fs (Some b) (dir s))) by (exists b; auto).
      destruct HC as [X|[X|(_ & d & X & N)]]; [left; exact X|right; left; exact X|]. right. right. split; [exact D|]. exists d. auto.
  Qed.

  Lemma run_inv : forall acts s ps s' ps', Inv s ps -> run true s ps acts = Some (s', ps') -> Inv s' ps'.
  Proof.
    induction acts as [|a acts IH]; intros s ps s' ps' HI E; cbn [M_dataset.run] in E.
    - injection E as <- <-. exact HI.
    - destruct (exec true s ps a) as [[s1 ps1]|] eqn:E1; [|discriminate]. apply (IH s1 ps1); [|exact E]. exact (exec_inv s ps a s1 ps1 HI E1).
  Qed.

  Theorem fetch_complete : forall acts s s' ps, Consistent s -> run true s [] acts = Some (s', ps) ->
    Consistent s' /\ forall i got, nth_error ps i = Some (PDone got) -> Complete got.
  Proof.
    intros acts s s' ps HC E. assert (HI : Inv s' ps) by (apply (run_inv acts s [] s' ps); [split; [exact HC|left; constructor]|exact E]).
    split; [apply HI|]. intros i got Ei. destruct HI as (_ & [F|(i0 & p0 & Ei0 & HP & HO)]).
    - rewrite Forall_forall in F. exact (F _ (nth_error_In _ _ Ei)).
    - destruct (Nat.eq_dec i i0) as [->|Ne]; [|exact (HO i _ Ne Ei)]. assert (p0 = PDone got) by congruence. subst p0. apply HP.
  Qed.

  (** *** Liveness: a fetch that is not interrupted and whose downloads succeed ends with the complete dataset. *)
  Definition Good (cs : nat -> choice (bytes := bytes)) : Prop := forall j, ch_download (cs j) = Some published /\ ch_interrupt (cs j) = false.
  Definition Succeeds (s : fs) (p : pc) : Prop := forall cs, Good cs ->
    exists n s' got, alone n cs s p = (s', PDone got) /\ Complete got /\ Clean s' /\ dir s' = Some full.

  Lemma succeeds_step : forall s p, (forall c, ch_download c = Some published -> ch_interrupt c = false ->
    exists s' p', pstep c s p = (s', p') /\ Succeeds s' p') -> Succeeds s p.
  Proof.
    intros s p HS cs HG. destruct (HG 0) as [G1 G2]. destruct (HS (cs 0) G1 G2) as (s1 & p1 & E & S1).
    destruct (S1 (fun j => cs (S j)) (fun j => HG (S j))) as (n & s' & got & E' & R). exists (S n), s', got.
    split; [cbn [M_dataset.alone]; rewrite E; exact E'|exact R].
  Qed.

  Lemma succeeds_reading : forall n s todo got, length todo <= n -> Clean s -> dir s = Some full -> Reading todo got -> Succeeds s (PReading todo got).
  Proof.
    induction n as [|n IH]; intros s todo got L HC Ed R; apply succeeds_step; intros c C1 C2; (destruct todo as [|t0 todo0]; [|]); simpl in L; try lia.
    - exists s, (PDone got). split; [reflexivity|]. intros cs _. exists 0, s, got. split; [reflexivity|]. split; [apply reading_end, R|auto].
    - exists s, (PDone got). split; [reflexivity|]. intros cs _. exists 0, s, got. split; [reflexivity|]. split; [apply reading_end, R|auto].
    - destruct (pinv_reading c s (t0 :: todo0) got) as (got' & E' & R'); [discriminate|exact Ed|exact R|].
      eexists _, _. split; [exact E'|]. apply IH; try assumption.
      pose proof (remove_length_in (pick_name (ch_file c) (t0 :: todo0)) (t0 :: todo0) (pick_name_In _ (t0 :: todo0) ltac:(discriminate))). simpl length in H at 2. lia.
  Qed.
  Lemma succeeds_list : forall s, Clean s -> dir s = Some full -> Succeeds s PList.
  Proof.
    intros s HC Ed. apply succeeds_step. intros c _ _. exists s, (PReading (dkeys full) []).
    split; [cbn [M_dataset.pstep]; rewrite Ed; reflexivity|]. eapply succeeds_reading; [reflexivity|exact HC|exact Ed|exact reading_start].
  Qed.
  Lemma succeeds_unpack : forall s, arch s = Some published -> dir s = None -> Succeeds s PUnpack.
  Proof.
    intros s Ea Ed. apply succeeds_step. intros c _ Ci. exists s, (PRename full).
    split; [cbn [M_dataset.pstep]; rewrite Ci, Ea, unpack_published; reflexivity|].
    apply succeeds_step. intros c2 _ Ci2. exists (mk_fs (arch s) (Some full)), PRenamed.
    split; [cbn [M_dataset.pstep]; rewrite Ci2, Ed; reflexivity|].
    apply succeeds_step. intros c3 _ Ci3. eexists _, PList. split; [cbn [M_dataset.pstep]; rewrite Ci3; reflexivity|].
    apply succeeds_list; [|reflexivity]. split; [right; exact Ea|right; reflexivity].
  Qed.
  Lemma succeeds_dirq : forall s, attempts > 0 -> Clean s -> Succeeds s PDirq.
  Proof.
    intros s Ha HC. apply succeeds_step. intros c _ _. destruct (proj2 HC) as [Ed|Ed].
    - exists s, PExtract. split; [cbn [M_dataset.pstep]; rewrite Ed; reflexivity|].
      apply succeeds_step. intros c2 _ _. destruct (proj1 HC) as [Ea|Ea].
      + exists s, (PDownload attempts). split; [cbn [M_dataset.pstep]; rewrite Ea; reflexivity|].
        apply succeeds_step. intros c3 Cd _. destruct attempts as [|k]; [lia|]. exists (mk_fs (Some published) (dir s)), PUnpack.
        split; [|apply succeeds_unpack; [reflexivity|exact Ed]]. cbn [M_dataset.pstep]. rewrite Cd.
        destruct (eqd (sha256 published) expected); [reflexivity|congruence].
      + exists s, PUnpack. split; [cbn [M_dataset.pstep]; rewrite Ea; reflexivity|]. apply succeeds_unpack; assumption.
    - exists s, PList. split; [cbn [M_dataset.pstep]; rewrite Ed; reflexivity|]. apply succeeds_list; assumption.
  Qed.
  Lemma succeeds_unlink : forall s, attempts > 0 -> Damaged s -> dir s = None -> Succeeds s PUnlink.
  Proof.
    intros s Ha (b & Ea & _) Ed. apply succeeds_step. intros c _ _. exists (mk_fs None (dir s)), PDirq.
    split; [cbn [M_dataset.pstep]; rewrite Ea; reflexivity|]. apply succeeds_dirq; [exact Ha|]. split; left; [reflexivity|exact Ed].
  Qed.
  Lemma succeeds_rm : forall n s ns d, attempts > 0 -> length ns <= n -> Damaged s -> dir s = Some d -> NoDup (dkeys d) ->
    (forall m, In m ns <-> In m (dkeys d)) -> Succeeds s (PRm ns).
  Proof.
    assert (base : forall s d, attempts > 0 -> Damaged s -> dir s = Some d -> (forall m, In m [] <-> In m (dkeys d)) -> Succeeds s (PRm [])).
    { intros s d Ha HD Ed Hk. apply succeeds_step. intros c _ _. destruct d as [|[a v] d].
      - exists (mk_fs (arch s) None), PUnlink. split; [cbn [M_dataset.pstep]; rewrite Ed; reflexivity|]. apply succeeds_unlink; [exact Ha| |reflexivity]. exact HD.
      - exfalso. apply (proj2 (Hk a)). left. reflexivity. }
    induction n as [|n IH]; intros s ns d Ha L HD Ed N Hk; (destruct ns as [|n0 ns0]; [apply (base s d); assumption|]); simpl in L; [lia|].
    apply succeeds_step. intros c _ _. pose proof (pick_name_In (ch_file c) (n0 :: ns0) ltac:(discriminate)) as I.
    exists (mk_fs (arch s) (Some (ddel (pick_name (ch_file c) (n0 :: ns0)) d))), (PRm (remove eqd (pick_name (ch_file c) (n0 :: ns0)) (n0 :: ns0))).
    split.
    - cbn [M_dataset.pstep]. rewrite Ed. assert (Em : dmem (pick_name (ch_file c) (n0 :: ns0)) d = true).
      { unfold dmem. destruct (dget _ d) eqn:Eg; [reflexivity|]. apply dget_None_keys in Eg. apply Hk in I. contradiction. }
      rewrite Em. reflexivity.
    - pose proof (remove_length_in _ _ I) as RL. simpl length in RL at 2. eapply (IH _ _ (ddel (pick_name (ch_file c) (n0 :: ns0)) d)); [exact Ha|lia|exact HD|reflexivity| |].
      + rewrite (dkeys_ddel _ d N). apply NoDup_remove_eqd, N.
      + intros m. rewrite (dkeys_ddel _ d N). split; intros Im; apply in_remove in Im; apply in_in_remove; try tauto; apply Hk; tauto.
  Qed.

  Theorem fetch_succeeds : forall s, attempts > 0 -> Consistent s -> Succeeds s PStart.
  Proof.
    intros s Ha HC. apply succeeds_step. intros c _ _. destruct (arch s) as [b|] eqn:Ea.
    - exists s, PHash. split; [cbn [M_dataset.pstep]; rewrite Ea; reflexivity|]. apply succeeds_step. intros c2 _ _.
      destruct (eqd (sha256 b) expected) as [Eb|Nb] eqn:Ee.
      + exists s, PDirq. split; [cbn [M_dataset.pstep]; rewrite Ea, Ee; reflexivity|]. apply succeeds_dirq; [exact Ha|].
        pose proof (no_collision b Eb). subst b. split; [right; exact Ea|].
        destruct HC as [X|[X|((b & X & Nb) & _)]]; [tauto|tauto|]. exfalso. apply Nb. congruence.
      + exists s, PScan. split; [cbn [M_dataset.pstep]; rewrite Ea, Ee; reflexivity|]. assert (HD : Damaged s) by (exists b; auto).
        apply succeeds_step. intros c3 _ _. destruct (dir s) as [d|] eqn:Ed.
        * exists s, (PRm (dkeys d)). split; [cbn [M_dataset.pstep]; rewrite Ed; reflexivity|].
          eapply succeeds_rm; [exact Ha|reflexivity|exact HD|exact Ed| |tauto].
          destruct HC as [X|[X|(_ & d' & X & N)]]; [congruence| |]; rewrite Ed in X; injection X as ->; assumption.
        * exists s, PUnlink. split; [cbn [M_dataset.pstep]; rewrite Ed; reflexivity|]. apply succeeds_unlink; assumption.
    - exists s, PDirq. split; [cbn [M_dataset.pstep]; rewrite Ea; reflexivity|]. apply succeeds_dirq; [exact Ha|].
      split; [left; exact Ea|]. destruct HC as [X|[X|((b & X & _) & _)]]; [tauto|tauto|congruence].
  Qed.

  (** *** Several processes, undamaged archive *)
  Definition CInv (s : fs) (p : pc) : Prop :=
    match p with
    | PScan | PRm _ | PUnlink => False
    | PRename files => files = full
    | PRenamed | PList => dir s = Some full
    | PReading todo got => dir s = Some full /\ Reading todo got
    | PDone got => Complete got
    | _ => True
    end.
  (** What another process may do meanwhile. *)
  Definition Later (s s' : fs) : Prop := dir s = Some full -> dir s' = Some full.

  Lemma CInv_later : forall s s' p, Later s s' -> CInv s p -> CInv s' p.
  Proof. intros s s' p HL HI. unfold Later in HL. destruct p; simpl in *; tauto. Qed.

  Lemma cstep_inv : forall c s p s' p', Clean s -> CInv s p -> pstep c s p = (s', p') -> Clean s' /\ CInv s' p' /\ Later s s'.
  Proof.
    intros c s p s' p' HC HI E. pose proof HC as HC0. destruct HC as [HA HD].
    destruct p as [| | |ns| | | |k| |files| |e| |todo got|got|e|]; try (destruct HI; fail).
    - injection E as <- <-. split; [exact HC0|]. split; [destruct (arch s); exact I|]. exact (fun x => x).
    - injection E as <- <-. split; [exact HC0|]. split; [|exact (fun x => x)]. destruct (arch s) as [b|] eqn:Ea; [|exact I].
      destruct HA as [X|X]; [discriminate|]. injection X as ->. destruct (eqd (sha256 published) expected); [exact I|congruence].
    - injection E as <- <-. split; [exact HC0|]. split; [|exact (fun x => x)]. destruct (dir s) as [d|] eqn:Ed; [|exact I].
      destruct HD as [X|X]; [discriminate|]. simpl. congruence.
    - injection E as <- <-. split; [exact HC0|]. split; [|exact (fun x => x)]. destruct (arch s); exact I.
    - destruct k as [|k]; cbn [M_dataset.pstep] in E.
      { injection E as <- <-. split; [exact HC0|]. split; [exact I|exact (fun x => x)]. }
      destruct (ch_download c) as [b|]; [|injection E as <- <-; split; [exact HC0|split; [exact I|exact (fun x => x)]]].
      destruct (eqd (sha256 b) expected) as [Eb|Nb]; injection E as <- <-; [|split; [exact HC0|split; [exact I|exact (fun x => x)]]].
      apply no_collision in Eb. subst b. split; [|split; [exact I|exact (fun x => x)]]. split; [right; reflexivity|exact HD].
    - injection E as <- <-. split; [exact HC0|]. split; [|exact (fun x => x)].
      destruct (ch_interrupt c); [exact I|]. destruct (arch s) as [b|]; [|exact I]. destruct HA as [X|X]; [discriminate|]. injection X as ->.
      rewrite unpack_published. reflexivity.
    - simpl in HI. subst files. cbn [M_dataset.pstep] in E. destruct (ch_interrupt c); [injection E as <- <-; split; [exact HC0|split; [exact I|exact (fun x => x)]]|].
      destruct (dir s) as [[|q d]|] eqn:Ed; injection E as <- <-.
      + split; [split; [exact HA|right; reflexivity]|]. split; [reflexivity|]. intros _. reflexivity.
      + split; [exact HC0|]. split; [exact I|exact (fun x => x)].
      + split; [split; [exact HA|right; reflexivity]|]. split; [reflexivity|]. intros _. reflexivity.
    - injection E as <- <-. split; [exact HC0|]. split; [|exact (fun x => x)]. destruct (ch_interrupt c); [exact I|exact HI].
    - injection E as <- <-. split; [split; [left; reflexivity|exact HD]|]. split; [exact I|exact (fun x => x)].
    - injection E as <- <-. split; [exact HC0|]. split; [|exact (fun x => x)]. simpl in HI. rewrite HI. split; [exact HI|exact reading_start].
    - destruct HI as (Ed & R). destruct todo as [|t0 todo0].
      + injection E as <- <-. split; [exact HC0|]. split; [apply reading_end, R|exact (fun x => x)].
      + destruct (pinv_reading c s (t0 :: todo0) got) as (got' & E' & R'); [discriminate|exact Ed|exact R|].
        rewrite E' in E. injection E as <- <-. split; [exact HC0|]. split; [split; [exact Ed|exact R']|exact (fun x => x)].
    - injection E as <- <-. split; [exact HC0|]. split; [exact HI|exact (fun x => x)].
    - injection E as <- <-. split; [exact HC0|]. split; [exact HI|exact (fun x => x)].
    - injection E as <- <-. split; [exact HC0|]. split; [exact HI|exact (fun x => x)].
  Qed.

  Lemma Forall_update : forall {A} (P : A -> Prop) i x l, Forall P l -> P x -> Forall P (update i x l).
  Proof.
    intros A P i x l F Px. revert i. induction F as [|y l Py F IH]; intros [|i]; simpl; constructor; auto.
  Qed.

  Theorem concurrent_complete : forall acts s ps s' ps', (forall b, ~ In (ADamage b) acts) -> Clean s -> Forall (CInv s) ps ->
    run false s ps acts = Some (s', ps') ->
    Clean s' /\ Forall (CInv s') ps'.
  Proof.
    induction acts as [|a acts IH]; intros s ps s' ps' ND HC HF E; cbn [M_dataset.run] in E.
    - injection E as <- <-. split; assumption.
    - destruct (exec false s ps a) as [[s1 ps1]|] eqn:E1; [|discriminate].
      assert (G : Clean s1 /\ Forall (CInv s1) ps1).
      { destruct a as [|i c|i|b]; cbn [M_dataset.exec andb] in E1.
        - injection E1 as <- <-. split; [exact HC|]. apply Forall_app. split; [exact HF|]. constructor; [exact I|constructor].
        - destruct (nth_error ps i) as [p|] eqn:Ei; [|discriminate]. destruct (pstep c s p) as [s2 p2] eqn:Es. injection E1 as <- <-.
          assert (HP : CInv s p) by (rewrite Forall_forall in HF; exact (HF p (nth_error_In _ _ Ei))).
          destruct (cstep_inv c s p s2 p2 HC HP Es) as (HC2 & HP2 & HL). split; [exact HC2|]. apply Forall_update; [|exact HP2].
          eapply Forall_impl; [|exact HF]. intros q. apply CInv_later, HL.
        - destruct (nth_error ps i) as [p|]; [|discriminate]. injection E1 as <- <-. split; [exact HC|].
          destruct (terminal p); [exact HF|]. apply Forall_update; [exact HF|exact I].
        - exfalso. apply (ND b). left. reflexivity. }
      destruct G as [G1 G2]. apply (IH s1 ps1); try assumption. intros b I. apply (ND b). right. exact I.
  Qed.

  Theorem concurrent_done : forall acts s s' ps, (forall b, ~ In (ADamage b) acts) -> Clean s ->
    run false s [] acts = Some (s', ps) ->
    Clean s' /\ forall i got, nth_error ps i = Some (PDone got) -> Complete got.
  Proof.
    intros acts s s' ps ND HC E. destruct (concurrent_complete acts s [] s' ps ND HC (Forall_nil _) E) as [H1 H2].
    split; [exact H1|]. intros i got Ei. rewrite Forall_forall in H2. exact (H2 _ (nth_error_In _ _ Ei)).
  Qed.
End Dataset.
