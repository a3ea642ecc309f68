(** Lemmas on GapEncoder: successive partial fits. *)
From Coq Require Import QArith Qabs.
From Verif Require Import Base L_dict M_names M_str M_lru L_minhash M_gap L_gap.
Open Scope string_scope.
Open Scope list_scope.
Open Scope nat_scope.

(** ** Specification *)
(** Rational numbers; the power is not used ([pow_] is arbitrary). *)
Definition Qarith (pow_ : Q -> Q -> Q) (tiny_ tol_ : Q) : arith :=
  {| num := Q; add := Qplus; sub := Qminus; mul := Qmult; div := Qdiv; leb := Qle_bool; pow := pow_; absn := Qabs;
     of_nat := fun n => inject_Z (Z.of_nat n); tiny := tiny_; tol := tol_ |}.

Definition qsum (l : list Q) : Q := fold_right Qplus 0%Q l.
Fixpoint power (r : Q) (n : nat) : Q := match n with 0 => 1%Q | S n' => (r * power r n')%Q end.
(** [x0] followed by the contributions [cs], each weighted by [r] to the power of its age. *)
Definition weighted (r x0 : Q) (cs : list Q) : Q :=
  let n := length cs in
  (power r n * x0 + qsum (map (fun i => power r (n - 1 - i) * nth i cs 0%Q)%Q (seq 0 n)))%Q.
(** Entry [i, j] of a matrix. *)
Definition cell (M : list (list Q)) (i j : nat) : Q := nth j (nth i M []) 0%Q.

(** Successive calls of a method that gives new attributes: the attributes after each call. *)
Inductive Successive {S B} (f : S -> B -> res S) : S -> list B -> list S -> Prop :=
| Succ_nil : forall s, Successive f s [] []
| Succ_cons : forall s b s' bs ss, f s b = Ok s' -> Successive f s' bs ss -> Successive f s (b :: bs) (s' :: ss).

Definition texts (X : gcolumn) : list string := map as_text (values X).

(** ** Proofs *)
Lemma pick_rows_map {A} (f : string -> A) : forall u idx (X : list (option string)),
  map (fun i => nth_error u i) idx = map (fun v => Some (null_as_empty v)) X ->
  pick_rows (map f u) idx = Ok (map (fun v => f (text v)) X).
Proof.
  intros u idx X. unfold pick_rows. revert X. induction idx as [|i idx IH]; destruct X as [|v X]; simpl; intros E; try discriminate; [reflexivity|].
  injection E as E1 E2. rewrite nth_error_map, E1. cbn [option_map bind]. rewrite (IH _ E2). destruct v; reflexivity.
Qed.

Section Partial.
  Variable N : arith.
  Notation F := (num N).
  Notation vec := (list F).
  Notation row := (list (nat * F)).
  Context {Z R : Type}.
  Variable vec_fit : bool -> bool -> list string -> res Z.
  Variable vec_counts : Z -> string -> row.
  Variable vec_width : Z -> nat.
  Variable vec_names : Z -> list string.
  Variable draw_w : @gcfg N R -> Z -> option Z -> R -> list row -> list (option string) -> res (list vec * R).
  Notation counts := (counts N vec_counts vec_width).
  Notation partial_fit := (partial_fit N vec_fit vec_counts vec_width vec_names draw_w).
  Notation init_vars := (init_vars N vec_fit vec_counts vec_width vec_names draw_w).
  Notation gstate := (@gstate N Z R).
  Notation gcfg := (@gcfg N R).

  (** how a call starts *)
  Record base := { b_counts : string -> row; b_dict : dict string vec; b_W : list vec; b_A : list vec; b_B : list vec; b_rho : F }.
  Definition after (c : gcfg) (b : base) (x : string) : vec :=
    update_h_row N c (max_iter_e_step N c) (b_W b) (b_counts b x) (start N c (b_counts b) (b_dict b) x).
  Definition Starts (c : gcfg) (st : gstate) (X : gcolumn) (b : base) (st' : gstate) : Prop :=
    match vocabulary N st with
    | Some v => (forall x, counts c st x = Ok (b_counts b x)) /\ b_W b = W_ N st /\ b_A b = A_ N st /\ b_B b = B_ N st /\
                b_dict b = match H_dict_ N st with Some d => d | None => [] end /\ vocabulary N st' = Some v /\
                b_rho b = match rho_ N st with Some r => r | None => rho N c end
    | None => exists z z2 r' W n,
                vec_fit (hashing N c) false (fst (unique_strings (values X))) = Ok z /\
                (add_words N c = true -> exists z', z2 = Some z' /\ vec_fit (hashing N c) true (fst (unique_strings (values X))) = Ok z') /\
                n = vec_width z + (if add_words N c then match z2 with Some z2 => vec_width z2 | None => 0 end else 0) /\
                b_dict b = [] /\ b_A b = repeat (repeat (mul N (one N) (tiny N)) n) (n_components N c) /\ b_B b = b_A b /\
                draw_w c z z2 match random_state_ N st with Some r => r | None => seed N c end (map (fun v => b_counts b (text v)) (values X)) (values X) = Ok (W, r') /\
                b_W b = map (fun w => map (fun x => div N x (sum N w)) w) W /\
                (hashing N c = true -> vocabulary N st' = None) /\ (hashing N c = false -> vocabulary N st' <> None) /\
                (rescale_rho N c = false -> b_rho b = match rho_ N st with Some r => r | None => rho N c end)
    end.

  Lemma bindOk {A B} (e : res A) (k : A -> res B) y : bind e k = Ok y -> exists a, e = Ok a /\ k a = Ok y.
  Proof. destruct e as [a|]; simpl; intros E; [eauto|discriminate]. Qed.

  Local Opaque update_h_row.
  Definition Sane (c : gcfg) (st : gstate) : Prop := vocabulary N st <> None -> exists f, forall x, counts c st x = Ok (f x).
  Lemma partial_fit_inv : forall c (st st' : gstate) X, Sane c st -> partial_fit c st X = Ok st' ->
    exists b, Starts c st X b st' /\ (forall x, counts c st' x = Ok (b_counts b x)) /\ rho_ N st' = Some (b_rho b) /\
      (forall x, remembered st' x = if mem x (fst (unique_strings (values X))) then Some (after c b x) else dget x (b_dict b)) /\
      (W_ N st', A_ N st', B_ N st') = update_w N (rescale_W N c) (b_rho b) (map (fun v => b_counts b (text v)) (values X))
                                          (map (fun v => after c b (text v)) (values X)) (b_W b) (b_A b) (b_B b).
  Proof.
    intros c st st' X Sn E. unfold M_gap.partial_fit in E. destruct (textual X); [|discriminate]. cbn [negb] in E.
    cbn [vocabulary H_dict_] in E. unfold Starts.
    pose proof (unique_strings_inverse (values X)) as U.
    destruct (vocabulary N st) as [voc|] eqn:V.
    - set (st1 := {| ngrams_count_ := ngrams_count_ N st; word_count_ := _ |}) in E.
      destruct (unique_strings (values X)) as [u idx]. cbn [fst].
      apply bindOk in E. destruct E as [[[[st2 u'] V'] idx'] [E1 E]].
      apply bindOk in E1. destruct E1 as [uV [EV E1]]. apply bindOk in E1. destruct E1 as [d [ED E1]].
      injection E1 as <- <- <- <-. cbn [H_dict_ rho_ set_H st1] in E.
      destruct Sn as [f C]; [rewrite V; discriminate|].
        assert (C1 : forall x, counts c st1 x = Ok (f x)) by exact C.
        set (d0 := match H_dict_ N st with Some d => d | None => [] end) in *.
        exists {| b_counts := f; b_dict := d0; b_W := W_ N st; b_A := A_ N st; b_B := B_ N st; b_rho := match rho_ N st with Some r => r | None => rho N c end |}.
        cbn [b_counts b_dict b_W b_A b_B b_rho].
        destruct (add_unseen_ok N vec_counts vec_width c st1 f d0 u C1) as [d' [E2 G]]. rewrite ED in E2. injection E2 as <-.
        rewrite (mapM_const _ f C1) in EV. injection EV as <-.
        rewrite (get_H_total N d u (start N c f d0)) in E.
        2: { intros x I. rewrite G. apply mem_true in I. rewrite I. reflexivity. }
        cbn [bind] in E. unfold update_h in E. rewrite zip_with_map, zip_with_same in E.
        rewrite !(pick_rows_map _ u idx (values X) U) in E. cbn [bind] in E.
        match goal with |- context [after c ?bb] => set (b := bb) end.
        change (fun x => update_h_row N c (max_iter_e_step N c) (W_ N (set_H N d st1)) (f x) (start N c f d0 x)) with (after c b) in E.
        set (uw := update_w N _ _ _ _ _ _ _) in E. assert (Euw : uw = uw) by reflexivity. unfold uw at 2 in Euw. destruct uw as [[W A] B]. injection E as <-.
        split; [repeat split; assumption|]. split; [exact C|]. split; [reflexivity|]. split; [|exact Euw].
        intros x. unfold remembered. cbn [H_dict_ set_H]. rewrite (update_dict_get N u (after c b)). rewrite G.
        destruct (mem x u); reflexivity.
    - set (st1 := {| ngrams_count_ := ngrams_count_ N st; word_count_ := _ |}) in E.
      apply bindOk in E. destruct E as [[[[st2 u'] V'] idx'] [E1 E]].
      unfold M_gap.init_vars in E1. destruct (unique_strings (values X)) as [u idx]. cbn [fst].
      apply bindOk in E1. destruct E1 as [z [Ez E1]]. apply bindOk in E1. destruct E1 as [z2 [Ez2 E1]].
      set (st3 := {| ngrams_count_ := Some z; word_count_ := z2 |}) in E1 at 1.
      apply bindOk in E1. destruct E1 as [uV [EV E1]].
      destruct (counts_total N vec_counts vec_width c st3) as [[f C]|[e C]].
      2: { exfalso. unfold M_gap.counts, st3 in C. cbn [ngrams_count_ word_count_] in C. destruct (add_words N c); [|discriminate (C "")].
           apply bindOk in Ez2. destruct Ez2 as [z' [_ Ez2]]. injection Ez2 as <-. discriminate (C ""). }
      rewrite (mapM_const _ f C) in EV. injection EV as <-.
      apply bindOk in E1. destruct E1 as [V2 [EV2 E1]]. change (pick_rows (map f u) idx = Ok V2) in EV2.
      rewrite (pick_rows_map _ u idx (values X) U) in EV2. injection EV2 as <-.
      apply bindOk in E1. destruct E1 as [[W r'] [EW E1]].
      apply bindOk in E1. destruct E1 as [rho' [Er E1]].
      injection E1 as <- <- <- <-. cbn [H_dict_ rho_] in E.
      destruct rho' as [rh|]; [|discriminate].
      match type of E with context [update_dict N [] u ?h] => set (d := update_dict N [] u h) in E end.
      match type of E with context [repeat (repeat _ ?n) _] => set (n_vocab := n) in E end.
      exists {| b_counts := f; b_dict := []; b_W := map (fun w => map (fun x => div N x (sum N w)) w) W;
                b_A := repeat (repeat (mul N (one N) (tiny N)) n_vocab) (n_components N c);
                b_B := repeat (repeat (mul N (one N) (tiny N)) n_vocab) (n_components N c); b_rho := rh |}.
      cbn [b_counts b_dict b_W b_A b_B b_rho].
      match goal with |- context [after c ?bb] => set (b := bb) end.
      assert (Dg : forall x, dget x d = if mem x u then Some (rescale_h N (f x) (repeat (one N) (n_components N c))) else None).
      { intros x. unfold d. rewrite map_map. rewrite (update_dict_get N u (fun x => rescale_h N (f x) (repeat (one N) (n_components N c)))). reflexivity. }
      clearbody d.
      rewrite (get_H_total N d u (start N c f [])) in E.
      2: { intros x I. rewrite Dg.
           apply mem_true in I. rewrite I. reflexivity. }
      cbn [bind W_ A_ B_] in E. unfold update_h in E. rewrite zip_with_map, zip_with_same in E.
      rewrite !(pick_rows_map _ u idx (values X) U) in E. cbn [bind] in E.
      change (fun x => update_h_row N c (max_iter_e_step N c) (b_W b) (f x) (start N c f [] x)) with (after c b) in E.
      set (uw := update_w N _ _ _ _ _ _ _) in E. assert (Euw : uw = uw) by reflexivity. unfold uw at 2 in Euw. destruct uw as [[W2 A] B]. injection E as <-.
      split; [|split; [|split; [|split]]].
      + exists z, z2, r', W, n_vocab. split; [exact Ez|]. split.
        { intros Aw. rewrite Aw in Ez2. apply bindOk in Ez2. destruct Ez2 as [z' [E1 E2]]. injection E2 as <-. eauto. }
        repeat (split; [reflexivity|]). split; [exact EW|]. split; [reflexivity|]. cbn [vocabulary set_H set_WAB].
        split; [intros Hh; rewrite Hh; reflexivity|]. split; [intros Hh; rewrite Hh; discriminate|].
        intros Rr. rewrite Rr in Er. injection Er as <-. reflexivity.
      + exact C.
      + reflexivity.
      + intros x. unfold remembered. cbn [H_dict_ set_H]. rewrite (update_dict_get N u (after c b)).
        destruct (mem x u) eqn:M; [reflexivity|]. rewrite Dg, M. reflexivity.
      + exact Euw.
  Qed.

  Lemma new_sane : forall c, Sane c (g_new N).
  Proof. intros c H. exfalso. apply H. reflexivity. Qed.
  Lemma partial_fit_sane : forall c (st st' : gstate) X, Sane c st -> partial_fit c st X = Ok st' -> Sane c st'.
  Proof. intros c st st' X Sn E _. destruct (partial_fit_inv c st st' X Sn E) as (b & _ & C & _). eauto. Qed.

  (** with hashing, nothing is kept but the generator, the rate and the name *)
  Lemma no_vocabulary : forall c (st st' : gstate) X, hashing N c = true -> vocabulary N st = None -> partial_fit c st X = Ok st' -> vocabulary N st' = None.
  Proof.
    intros c st st' X H V E. assert (Sn : Sane c st) by (intros K; contradiction).
    destruct (partial_fit_inv c st st' X Sn E) as (b & St & _). unfold Starts in St. rewrite V in St.
    destruct St as (z & z2 & r' & W & n & _ & _ & _ & _ & _ & _ & _ & _ & K & _). exact (K H).
  Qed.
  Lemma successive_no_vocabulary : forall c bs (st : gstate) ss, hashing N c = true -> vocabulary N st = None ->
    Successive (partial_fit c) st bs ss -> forall s, In s ss -> vocabulary N s = None.
  Proof.
    intros c bs st ss H V Su. revert V. induction Su as [st|st b st' bs ss E Su IH]; intros V s I; [contradiction|].
    pose proof (no_vocabulary c st st' b H V E) as V'. destruct I as [<-|I]; [exact V'|]. exact (IH V' s I).
  Qed.

  Definition same_results (s1 s2 : gstate) : Prop :=
    H_dict_ N s1 = H_dict_ N s2 /\ W_ N s1 = W_ N s2 /\ A_ N s1 = A_ N s2 /\ B_ N s1 = B_ N s2 /\ ngrams_count_ N s1 = ngrams_count_ N s2.
  Lemma partial_fit_forgets : forall c (st1 st2 st1' : gstate) X, hashing N c = true -> vocabulary N st1 = None -> vocabulary N st2 = None ->
    random_state_ N st1 = random_state_ N st2 -> rho_ N st1 = rho_ N st2 -> (add_words N c = false -> word_count_ N st1 = word_count_ N st2) ->
    partial_fit c st1 X = Ok st1' -> exists st2', partial_fit c st2 X = Ok st2' /\ same_results st1' st2'.
  Proof.
    intros c st1 st2 st1' X H V1 V2 ER Erho Ew E. unfold M_gap.partial_fit in *. destruct (textual X); [|discriminate]. cbn [negb] in *.
    cbn [vocabulary H_dict_] in *. rewrite V1 in E. rewrite V2. unfold M_gap.init_vars in *. cbn [word_count_ vocabulary W_ A_ B_ rho_ random_state_ input_name] in *.
    rewrite <- Erho, <- ER. rewrite H in *.
    destruct (unique_strings (values X)) as [u idx].
    apply bindOk in E. destruct E as [[[[st3 u3] V3] idx3] [E1 E]].
    apply bindOk in E1. destruct E1 as [z [Ez E1]]. rewrite Ez. cbn [bind].
    apply bindOk in E1. destruct E1 as [z2 [Ez2 E1]].
    assert (Ez2' : (if add_words N c then let! z2 := vec_fit true true u in Ok (Some z2) else Ok (word_count_ N st2)) = Ok z2).
    { destruct (add_words N c); [exact Ez2|]. rewrite <- Ew by reflexivity. exact Ez2. }
    rewrite Ez2'. cbn [bind].
    apply bindOk in E1. destruct E1 as [uV [EV E1]].
    match goal with |- context [mapM (counts c ?s) u] => change (mapM (counts c s) u) with (mapM (counts c s) u);
      assert (EV' : mapM (counts c s) u = Ok uV) by exact EV; rewrite EV' end. cbn [bind].
    apply bindOk in E1. destruct E1 as [VV [EVV E1]]. rewrite EVV. cbn [bind].
    apply bindOk in E1. destruct E1 as [[W r'] [EW E1]]. rewrite EW. cbn [bind].
    apply bindOk in E1. destruct E1 as [rho' [Er E1]]. rewrite Er. cbn [bind]. cbn [H_dict_ rho_].
    injection E1 as <- <- <- <-. cbn [H_dict_ rho_] in E.
    destruct rho' as [rh|]; [|discriminate].
    apply bindOk in E. destruct E as [uH [EH E]]. rewrite EH. cbn [bind].
    cbn [W_ A_ B_] in *.
    apply bindOk in E. destruct E as [Vp [EVp E]]. rewrite EVp. cbn [bind].
    apply bindOk in E. destruct E as [Hp [EHp E]]. rewrite EHp. cbn [bind].
    destruct (update_w N (rescale_W N c) rh Vp Hp _ _ _) as [[W2 A2] B2]. injection E as <-.
    eexists. split; [reflexivity|]. repeat split.
  Qed.

  (** all that partial fits with hashing read of the previous ones *)
  Definition only_generator (s : gstate) : gstate :=
    {| ngrams_count_ := None; word_count_ := word_count_ N s; vocabulary := None; H_dict_ := None; W_ := []; A_ := []; B_ := []; rho_ := rho_ N s;
       random_state_ := random_state_ N s; input_name := None |}.
  Lemma hashing_forgets : forall c bs ss X st, hashing N c = true -> Successive (partial_fit c) (g_new N) bs ss ->
    partial_fit c (last ss (g_new N)) X = Ok st -> exists st', partial_fit c (only_generator (last ss (g_new N))) X = Ok st' /\ same_results st st'.
  Proof.
    intros c bs ss X st H Su E. eapply partial_fit_forgets; [exact H| | | | | |exact E]; try reflexivity.
    destruct ss as [|s ss]; [reflexivity|]. refine (successive_no_vocabulary c bs (g_new N) (s :: ss) H eq_refl Su _ _).
    destruct (@exists_last _ (s :: ss)) as (l & a & ->); [discriminate|]. rewrite last_last. apply in_app_iff. right. left. reflexivity.
  Qed.

  (** without hashing, everything is known *)
  Lemma unique_texts : forall X x, mem x (fst (unique_strings X)) = true <-> In x (map as_text X).
  Proof.
    intros X x. rewrite mem_true. split.
    - intros I. unfold unique_strings in I.
      assert (NN : forall y, In y (not_null_values X) -> In y (map as_text X)).
      { clear. intros y. induction X as [|[s|] X IH]; cbn; [tauto| |tauto]. intros [->|I]; [left; reflexivity|right; apply IH; exact I]. }
      destruct (any_null X) eqn:A; cbn [negb fst] in I.
      + assert (E0 : In "" (map as_text X)).
        { clear - A. induction X as [|[s|] X IH]; cbn in *; [discriminate| |left; reflexivity]. right. apply IH. exact A. }
        match type of I with In x (if ?p then _ else _) => destruct p end.
        * destruct I as [<-|I]; [exact E0|]. apply NN. apply np_unique_In. exact I.
        * apply NN. apply np_unique_In. exact I.
      + apply NN. apply np_unique_In. exact I.
    - intros I. apply in_map_iff in I. destruct I as [v [<- I]]. exact (unique_mem X v I).
  Qed.

  Definition Known (st : gstate) (x : string) : Prop := remembered st x <> None.
  Definition Blank (st : gstate) : Prop := vocabulary N st = None -> forall x, remembered st x = None.
  Lemma partial_fit_known : forall c (st st' : gstate) X, Sane c st -> Blank st -> hashing N c = false -> partial_fit c st X = Ok st' ->
    (Sane c st' /\ Blank st') /\ forall x, Known st' x <-> Known st x \/ In x (texts X).
  Proof.
    intros c st st' X Sn Bl H E. pose proof (partial_fit_sane _ _ _ _ Sn E) as Sn'.
    destruct (partial_fit_inv c st st' X Sn E) as (b & St & _ & _ & Rm & _).
    assert (K : vocabulary N st' <> None /\ forall x, dget x (b_dict b) = remembered st x).
    { unfold Starts in St. destruct (vocabulary N st) as [v|] eqn:V.
      - destruct St as (_ & _ & _ & _ & D & V' & _). split; [congruence|]. intros x. rewrite D. unfold remembered. destruct (H_dict_ N st); reflexivity.
      - destruct St as (z & z2 & r' & W & n & _ & _ & _ & D & _ & _ & _ & _ & _ & K & _). split; [exact (K H)|]. intros x. rewrite D, (Bl V x). reflexivity. }
    destruct K as [V' D]. split; [split; [exact Sn'|intros K; contradiction]|].
    intros x. unfold Known. rewrite Rm, D. destruct (mem x (fst (unique_strings (values X)))) eqn:M.
    - apply unique_texts in M. split; [intros _; right; exact M|discriminate].
    - split; [tauto|]. intros [K|I]; [exact K|]. apply unique_texts in I. congruence.
  Qed.
  Lemma hashing_known : forall c bs ss X st, hashing N c = true -> Successive (partial_fit c) (g_new N) bs ss ->
    partial_fit c (last ss (g_new N)) X = Ok st -> forall x, Known st x <-> In x (texts X).
  Proof.
    intros c bs ss X st H Su E x.
    assert (V : vocabulary N (last ss (g_new N)) = None).
    { destruct ss as [|s ss]; [reflexivity|]. refine (successive_no_vocabulary c bs (g_new N) (s :: ss) H eq_refl Su _ _).
      destruct (@exists_last _ (s :: ss)) as (l & a & ->); [discriminate|]. rewrite last_last. apply in_app_iff. right. left. reflexivity. }
    assert (Sn : Sane c (last ss (g_new N))) by (intros K; contradiction).
    destruct (partial_fit_inv c _ st X Sn E) as (b & St & _ & _ & Rm & _). unfold Starts in St. rewrite V in St.
    destruct St as (z & z2 & r' & W & n & _ & _ & _ & D & _). unfold Known. rewrite Rm, D.
    destruct (mem x (fst (unique_strings (values X)))) eqn:M.
    - apply unique_texts in M. split; [intros _; exact M|discriminate].
    - split; [intros K; exfalso; apply K; reflexivity|]. intros I. apply unique_texts in I. congruence.
  Qed.
  Lemma successive_known : forall c bs (st : gstate) ss, Sane c st -> Blank st -> hashing N c = false ->
    Successive (partial_fit c) st bs ss -> forall x, Known (last ss st) x <-> Known st x \/ exists X, In X bs /\ In x (texts X).
  Proof.
    intros c bs st ss Sn Bl H Su. revert Sn Bl. induction Su as [st|st b st' bs ss E Su IH]; intros Sn Bl x.
    - cbn [last]. split; [tauto|]. intros [K|(X & [] & _)]. exact K.
    - destruct (partial_fit_known c st st' b Sn Bl H E) as [[Sn' Bl'] K].
      assert (EL : last (st' :: ss) st = last ss st') by (clear; revert st'; induction ss as [|a ss IH]; intros st'; [reflexivity|]; cbn [last] in *; destruct ss; [reflexivity|apply (IH st')]).
      rewrite EL, (IH Sn' Bl' x), K. split.
      + intros [[A|A]|(X & I & A)]; [tauto|right; exists b; split; [left; reflexivity|exact A]|right; exists X; split; [right; exact I|exact A]].
      + intros [A|(X & [<-|I] & A)]; [tauto|tauto|right; exists X; auto].
  Qed.
End Partial.

(** ** Statistics, with rational numbers *)
Section Statistics.
  Variables (pow_ : Q -> Q -> Q) (tiny_ tol_ : Q).
  Notation N := (Qarith pow_ tiny_ tol_).
  Notation row := (list (nat * Q)).
  Context {Z R : Type}.
  Variable vec_fit : bool -> bool -> list string -> res Z.
  Variable vec_counts : Z -> string -> row.
  Variable vec_width : Z -> nat.
  Variable vec_names : Z -> list string.
  Variable draw_w : @gcfg N R -> Z -> option Z -> R -> list row -> list (option string) -> res (list (list Q) * R).
  Notation counts := (counts N vec_counts vec_width).
  Notation partial_fit := (partial_fit N vec_fit vec_counts vec_width vec_names draw_w).
  Notation gstate := (@gstate N Z R).
  Notation gcfg := (@gcfg N R).

  (** activation [k] of a text, and its number of occurrences of feature [j] *)
  Definition activation (st : gstate) (k : nat) (s : string) : Q := match remembered st s with Some h => nth k h 0%Q | None => 0%Q end.
  Definition occurrences (c : gcfg) (st : gstate) (j : nat) (s : string) : Q :=
    match counts c st s with Ok v => qsum (map snd (filter (fun e => fst e =? j) v)) | Err _ => 0%Q end.
  (** the sum, over the topics [l], of the activation of [l] times the weight of feature [j] in [l] *)
  Definition predicted (W : list (list Q)) (st : gstate) (j : nat) (s : string) : Q :=
    qsum (map (fun l => activation st l s * cell W l j)%Q (seq 0 (length W))).
  Definition gainB (st : gstate) (X : gcolumn) (k : nat) : Q := qsum (map (activation st k) (texts X)).
  Definition gainA (c : gcfg) (W : list (list Q)) (st : gstate) (X : gcolumn) (k j : nat) : Q :=
    (cell W k j * qsum (map (fun s => activation st k s * (occurrences c st j s / (predicted W st j s + tiny_))) (texts X)))%Q.

  Lemma sum_qsum : forall l, (sum N l == qsum l)%Q.
  Proof.
    intros l. unfold sum. change (M_gap.add N) with Qplus. assert (G : forall a, (fold_left Qplus l a == a + qsum l)%Q).
    { induction l as [|x l IH]; intros a; cbn [fold_left qsum fold_right]; [ring|]. rewrite IH. unfold qsum. ring. }
    rewrite G. change (zero N) with 0%Q. ring.
  Qed.
  Lemma qsum_ext {A} (f g : A -> Q) : forall l, (forall x, In x l -> f x == g x)%Q -> (qsum (map f l) == qsum (map g l))%Q.
  Proof.
    induction l as [|x l IH]; intros H; cbn [map qsum fold_right]; [reflexivity|]. rewrite (H x (or_introl eq_refl)).
    fold (qsum (map f l)). fold (qsum (map g l)). rewrite IH; [reflexivity|]. intros y I. apply H. right; exact I.
  Qed.

  Lemma weighted_cons : forall r x0 c cs, (weighted r x0 (c :: cs) == weighted r (x0 * r + c) cs)%Q.
  Proof.
    intros r x0 c cs. unfold weighted. cbn [length seq map qsum fold_right nth power].
    rewrite <- seq_shift, map_map. fold (qsum (map (fun x => power r (S (length cs) - 1 - S x) * nth (S x) (c :: cs) 0%Q)%Q (seq 0 (length cs)))).
    replace (S (length cs) - 1 - 0) with (length cs) by lia.
    rewrite (qsum_ext (fun x => power r (S (length cs) - 1 - S x) * nth (S x) (c :: cs) 0%Q)%Q (fun i => power r (length cs - 1 - i) * nth i cs 0%Q)%Q).
    - ring.
    - intros i _. cbn [nth]. replace (S (length cs) - 1 - S i) with (length cs - 1 - i) by lia. reflexivity.
  Qed.

  Lemma nth_zip_seq {A B} (f : A -> nat -> B) da db : forall l s k, k < length l -> nth k (zip_with f l (seq s (length l))) db = f (nth k l da) (s + k).
  Proof.
    induction l as [|x l IH]; intros s k L; cbn [length] in L; [lia|]. cbn [length seq zip_with]. destruct k as [|k]; cbn [nth]; [f_equal; lia|].
    rewrite IH by lia. f_equal. lia.
  Qed.
  Lemma length_zip_seq {A B} (f : A -> nat -> B) : forall l s, length (zip_with f l (seq s (length l))) = length l.
  Proof. intros l s. rewrite zip_with_length, seq_length. lia. Qed.
  Lemma nth_zip {A B C} (f : A -> B -> C) da db dc : forall a b k, k < length a -> k < length b -> nth k (zip_with f a b) dc = f (nth k a da) (nth k b db).
  Proof.
    induction a as [|x a IH]; destruct b as [|y b]; intros k La Lb; cbn [length] in *; try lia. cbn [zip_with]. destruct k as [|k]; [reflexivity|].
    cbn [nth]. apply IH; lia.
  Qed.
  Lemma nth_map_in {A B} (f : A -> B) da db : forall l k, k < length l -> nth k (map f l) db = f (nth k l da).
  Proof. intros l k L. rewrite (nth_indep _ db (f da)) by (rewrite map_length; exact L). apply map_nth. Qed.

  (** ** one update of the statistics *)
  Lemma update_B : forall resc (r : Q) (V : list row) (H W A B W' A' B' : list (list Q)), update_w N resc r V H W A B = (W', A', B') ->
    length B' = length B /\ (forall k, length (nth k B' []) = length (nth k B [])) /\
    forall k j, k < length B -> j < length (nth k B []) -> (cell B' k j == cell B k j * r + qsum (map (fun h => nth k h 0%Q) H))%Q.
  Proof.
    intros resc r V H W A B W' A' B' E. unfold update_w in E.
    assert (EB : B' = zip_with (fun b k => map (fun x => (x + sum N (map (fun h => at_ N h k) H))%Q) b) (map (map (fun x => (x * r)%Q)) B) (seq 0 (length (map (map (fun x => (x * r)%Q)) B)))).
    { destruct resc; apply pair_equal_spec in E; destruct E as [_ E]; symmetry; exact E. }
    clear E. rewrite map_length in EB.
    assert (LB : length B' = length B) by (subst B'; rewrite zip_with_length, map_length, seq_length; cbn [num Qarith]; lia).
    assert (L : forall k, k < length B -> nth k B' [] = map (fun x => (x + sum N (map (fun h => at_ N h k) H))%Q) (map (fun x => (x * r)%Q) (nth k B []))).
    { intros k Lk. subst B'. pose proof (nth_zip_seq (fun b k => map (fun x => (x + sum N (map (fun h => at_ N h k) H))%Q) b) [] [] (map (map (fun x => (x * r)%Q)) B) 0 k) as E.
      rewrite map_length in E. rewrite (E Lk). cbn [Nat.add]. rewrite (nth_map_in _ []) by exact Lk. reflexivity. }
    split; [exact LB|]. split.
    - intros k. destruct (Nat.lt_ge_cases k (length B)) as [Lk|Lk].
      + rewrite (L k Lk), !map_length. reflexivity.
      + rewrite !nth_overflow; [reflexivity|exact Lk|cbn [num Qarith] in *; lia].
    - intros k j Lk Lj. unfold cell. rewrite (L k Lk). rewrite map_map, (nth_map_in _ 0%Q) by exact Lj. rewrite sum_qsum. reflexivity.
  Qed.

  Lemma qsum_filter_div (a : Q) j : forall v : row, (qsum (map snd (filter (fun e => (fst e =? j)%nat) (map (fun e => (fst e, snd e / a)%Q) v))) ==
                                     qsum (map snd (filter (fun e => (fst e =? j)%nat) v)) / a)%Q.
  Proof.
    induction v as [|[i x] v IH]; cbn [map filter fst snd]; [cbn; unfold Qdiv; ring|].
    destruct (i =? j)%nat; [|exact IH]. cbn [map qsum fold_right snd]. fold (qsum (map snd (filter (fun e => (fst e =? j)%nat) v))).
    fold (qsum (map snd (filter (fun e : nat * Q => (fst e =? j)%nat) (map (fun e => (fst e, snd e / a)%Q) v)))). rewrite IH. unfold Qdiv. ring.
  Qed.
  Lemma entry_div (g : nat -> Q) j : forall v : row,
    (entry N (map (fun e => (fst e, snd e / g (fst e))%Q) v) j == qsum (map snd (filter (fun e => (fst e =? j)%nat) v)) / g j)%Q.
  Proof.
    intros v. unfold entry. rewrite sum_qsum. rewrite <- (qsum_filter_div (g j) j v).
    induction v as [|[i x] v IH]; cbn [map filter fst snd]; [reflexivity|]. destruct (i =? j)%nat eqn:E; [|exact IH].
    apply Nat.eqb_eq in E. subst i. cbn [map qsum fold_right snd]. unfold qsum in IH. rewrite IH. reflexivity.
  Qed.
  Lemma dot_spec : forall (h w : list Q), length h = length w -> (dot N h w == qsum (map (fun l => nth l h 0 * nth l w 0)%Q (seq 0 (length w))))%Q.
  Proof.
    intros h w. unfold dot. rewrite sum_qsum. change (M_gap.mul N) with Qmult. revert h.
    induction w as [|y w IH]; destruct h as [|x h]; intros L; try discriminate; [reflexivity|].
    cbn [zip_with length seq map qsum fold_right nth]. injection L as L. fold (qsum (zip_with Qmult h w)). rewrite (IH h L), <- seq_shift, map_map. reflexivity.
  Qed.

  Lemma update_A : forall (r : Q) (V : list row) (H W A B W' A' B' : list (list Q)), update_w N false r V H W A B = (W', A', B') -> length V = length H ->
    (forall h, In h H -> length h = length W) ->
    length A' = length A /\ (forall k, length (nth k A' []) = length (nth k A [])) /\
    (forall k j, k < length A -> j < length (nth k A []) ->
       (cell A' k j == cell A k j * r + cell W k j * qsum (map (fun vh => nth k (snd vh) 0 *
           (qsum (map snd (filter (fun e => (fst e =? j)%nat) (fst vh))) / (qsum (map (fun l => nth l (snd vh) 0 * cell W l j)%Q (seq 0 (length W))) + tiny_)))%Q (combine V H)))%Q) /\
    W' = zip_with (zip_with Qdiv) A' B'.
  Proof.
    intros r V H W A B W' A' B' E LVH LH. unfold update_w in E.
    apply pair_equal_spec in E. destruct E as [E EB]. apply pair_equal_spec in E. destruct E as [EW EA].
    assert (EW' : W' = zip_with (zip_with Qdiv) A' B') by (rewrite <- EA, <- EB; symmetry; exact EW). clear EW EB.
    rewrite map_length in EA.
    set (V' := zip_with (fun v h => map (fun e => (fst e, M_gap.div N (snd e) (M_gap.add N (dot N h (column N W (fst e))) (tiny N)))) v) V H) in EA.
    set (HtVt := fun k j => sum N (zip_with (fun v h => M_gap.mul N (at_ N h k) (entry N v j)) V' H)).
    assert (EA' : A' = zip_with (fun a k => zip_with (fun x j => (x + (cell W k j * HtVt k j))%Q) a (seq 0 (length a))) (map (map (fun x => (x * r)%Q)) A) (seq 0 (length A))) by (symmetry; exact EA).
    clear EA. 
    assert (L : forall k, k < length A -> nth k A' [] = zip_with (fun x j => (x + (cell W k j * HtVt k j))%Q) (map (fun x => (x * r)%Q) (nth k A [])) (seq 0 (length (nth k A [])))).
    { intros k Lk. subst A'. pose proof (nth_zip_seq (fun a k => zip_with (fun x j => (x + (cell W k j * HtVt k j))%Q) a (seq 0 (length a))) [] [] (map (map (fun x => (x * r)%Q)) A) 0 k) as E.
      rewrite map_length in E. rewrite (E Lk). cbn [Nat.add]. rewrite (nth_map_in _ []) by exact Lk. rewrite map_length. reflexivity. }
    assert (LA : length A' = length A) by (subst A'; rewrite zip_with_length, map_length, seq_length; cbn [num Qarith]; lia).
    split; [exact LA|]. split; [|split; [|exact EW']].
    - intros k. destruct (Nat.lt_ge_cases k (length A)) as [Lk|Lk].
      + rewrite (L k Lk), zip_with_length, map_length, seq_length. apply Nat.min_id.
      + rewrite !nth_overflow; [reflexivity|exact Lk|cbn [num Qarith] in *; lia].
    - intros k j Lk Lj. unfold cell at 1. rewrite (L k Lk).
      pose proof (nth_zip_seq (fun x j => (x + (cell W k j * HtVt k j))%Q) 0%Q 0%Q (map (fun x => (x * r)%Q) (nth k A [])) 0 j) as E.
      rewrite map_length in E. rewrite (E Lj). cbn [Nat.add]. rewrite (nth_map_in _ 0%Q) by exact Lj. fold (cell A k j).
      apply Qplus_comp; [reflexivity|]. apply Qmult_comp; [reflexivity|].
      unfold HtVt. rewrite sum_qsum. unfold V'. clear - LVH LH.
      revert V LVH. induction H as [|h H IH]; destruct V as [|v V]; intros LVH; try discriminate; [reflexivity|].
      cbn [zip_with combine map qsum fold_right fst snd]. apply Qplus_comp.
      + change (M_gap.mul N) with Qmult. apply Qmult_comp; [reflexivity|].
        change (M_gap.div N) with Qdiv. change (M_gap.add N) with Qplus. change (tiny N) with tiny_.
        rewrite (entry_div (fun i => dot N h (column N W i) + tiny_)%Q j v). apply Qdiv_comp; [reflexivity|]. apply Qplus_comp; [|reflexivity].
        rewrite dot_spec by (unfold column; rewrite map_length; apply LH; left; reflexivity). unfold column. rewrite map_length.
        apply qsum_ext. intros l I. apply in_seq in I. cbn [Nat.add] in I. rewrite (nth_map_in _ []) by (exact (proj2 I)). reflexivity.
      + apply IH; [|injection LVH as LVH; exact LVH]. intros h' I. apply LH. right; exact I.
  Qed.

  (** ** shapes *)
  Lemma update_loop_length : forall W1 W2 const vt n sq h, length W1 = length h -> length const = length h -> length (update_loop N W1 W2 const vt n sq h) = length h.
  Proof.
    intros W1 W2 const vt n. induction n as [|n IH]; intros sq h L1 L2; [reflexivity|]. cbn [update_loop].
    destruct (leb N sq _); [reflexivity|].
    match goal with |- length (update_loop N _ _ _ _ _ _ ?h') = _ => assert (L : length h' = length h) end.
    { rewrite !zip_with_length, map_length. rewrite L1, L2. rewrite !Nat.min_id. reflexivity. }
    rewrite IH; [exact L| |]; rewrite L; assumption.
  Qed.
  Local Transparent update_h_row.
  Lemma update_h_row_length : forall (c : gcfg) m W v h, length h = length W -> length (update_h_row N c m W v h) = length W.
  Proof.
    intros c m W v h L. unfold update_h_row. rewrite update_loop_length; [exact L| |].
    - rewrite map_length, zip_with_length, map_length, Nat.min_id. symmetry; exact L.
    - rewrite !map_length. symmetry; exact L.
  Qed.
  Lemma start_length : forall (c : gcfg) f d x n, n_components N c = n -> (forall h, dget x d = Some h -> length h = n) -> length (start N c f d x) = n.
  Proof.
    intros c f d x n En H. unfold start. destruct (dget x d) as [h|] eqn:E; [exact (H h eq_refl)|].
    unfold rescale_h. rewrite !map_length, repeat_length. exact En.
  Qed.

  Hypothesis DrawOk : forall c z z2 r V X W r', draw_w c z z2 r V X = Ok (W, r') -> length W = n_components N c.

  Definition Rows (w : nat) (M : list (list Q)) : Prop := forall k, k < length M -> length (nth k M []) = w.
  Record Shape (c : gcfg) (w : nat) (W A B : list (list Q)) (look : string -> option (list Q)) : Prop := {
    sW : length W = n_components N c; sA : length A = n_components N c; sB : length B = n_components N c;
    rA : Rows w A; rB : Rows w B; sH : forall x h, look x = Some h -> length h = n_components N c }.

  (** one call *)
  Lemma stat_step : forall (c : gcfg) (st' : gstate) X (b : base N) w,
    Shape c w (b_W N b) (b_A N b) (b_B N b) (fun x => dget x (b_dict N b)) ->
    (forall x, counts c st' x = Ok (b_counts N b x)) ->
    (forall x, remembered st' x = if mem x (fst (unique_strings (values X))) then Some (after N c b x) else dget x (b_dict N b)) ->
    (W_ N st', A_ N st', B_ N st') = update_w N (rescale_W N c) (b_rho N b) (map (fun v => b_counts N b (text v)) (values X))
                                          (map (fun v => after N c b (text v)) (values X)) (b_W N b) (b_A N b) (b_B N b) ->
    (forall k j, k < n_components N c -> j < w -> (cell (B_ N st') k j == cell (b_B N b) k j * b_rho N b + gainB st' X k)%Q) /\
    (rescale_W N c = false ->
      Shape c w (W_ N st') (A_ N st') (B_ N st') (remembered st') /\
      (forall k j, k < n_components N c -> j < w -> (cell (A_ N st') k j == cell (b_A N b) k j * b_rho N b + gainA c (b_W N b) st' X k j)%Q) /\
      forall k j, k < n_components N c -> j < w -> cell (W_ N st') k j = (cell (A_ N st') k j / cell (B_ N st') k j)%Q).
  Proof.
    intros c st' X b w Sh C Rm E. symmetry in E.
    assert (LH : forall x, length (after N c b x) = length (b_W N b)).
    { assert (sw : length (b_W N b) = n_components N c) by exact (sW _ _ _ _ _ _ Sh).
      intros x. unfold after. apply update_h_row_length. rewrite sw. apply start_length; [reflexivity|]. intros h. apply (sH _ _ _ _ _ _ Sh). }
    assert (Act : forall v k, In v (values X) -> activation st' k (as_text v) = nth k (after N c b (text v)) 0%Q).
    { intros v k I. unfold activation. rewrite Rm. rewrite (proj2 (unique_texts (values X) (as_text v))) by (apply in_map; exact I). reflexivity. }
    destruct (update_B _ _ _ _ _ _ _ _ _ _ E) as (LB & RB & UB).
    split.
    { intros k j Lk Lj. rewrite UB.
      - apply Qplus_comp; [reflexivity|]. unfold gainB, texts. rewrite !map_map. apply qsum_ext. intros v I. rewrite (Act v k I). reflexivity.
      - rewrite (sB _ _ _ _ _ _ Sh). exact Lk.
      - rewrite (rB _ _ _ _ _ _ Sh); [exact Lj|]. rewrite (sB _ _ _ _ _ _ Sh). exact Lk. }
    intros Rs. rewrite Rs in E.
    assert (LVH : length (map (fun v => b_counts N b (text v)) (values X)) = length (map (fun v => after N c b (text v)) (values X))) by (rewrite !map_length; reflexivity).
    assert (LHH : forall h, In h (map (fun v => after N c b (text v)) (values X)) -> length h = length (b_W N b)).
    { intros h I. apply in_map_iff in I. destruct I as [v [<- _]]. apply LH. }
    destruct (update_A _ _ _ _ _ _ _ _ _ E LVH LHH) as (LA & RA & UA & EW).
    assert (LA' : length (A_ N st') = n_components N c) by (etransitivity; [exact LA|exact (sA _ _ _ _ _ _ Sh)]).
    assert (LB' : length (B_ N st') = n_components N c) by (etransitivity; [exact LB|exact (sB _ _ _ _ _ _ Sh)]).
    assert (RA' : Rows w (A_ N st')).
    { intros k Lk. etransitivity; [exact (RA k)|]. apply (rA _ _ _ _ _ _ Sh). rewrite (sA _ _ _ _ _ _ Sh). rewrite <- LA'. exact Lk. }
    assert (RB' : Rows w (B_ N st')).
    { intros k Lk. etransitivity; [exact (RB k)|]. apply (rB _ _ _ _ _ _ Sh). rewrite (sB _ _ _ _ _ _ Sh). rewrite <- LB'. exact Lk. }
    split; [constructor|split].
    - etransitivity; [exact (f_equal (@length _) EW)|]. rewrite zip_with_length. etransitivity; [exact (f_equal2 Nat.min LA' LB')|]. apply Nat.min_id.
    - exact LA'.
    - exact LB'.
    - exact RA'.
    - exact RB'.
    - intros x h Hx. rewrite Rm in Hx. destruct (mem x (fst (unique_strings (values X)))).
      + injection Hx as <-. rewrite LH. exact (sW _ _ _ _ _ _ Sh).
      + exact (sH _ _ _ _ _ _ Sh x h Hx).
    - intros k j Lk Lj. rewrite UA.
      + apply Qplus_comp; [reflexivity|]. unfold gainA. apply Qmult_comp; [reflexivity|]. unfold texts. rewrite map_map.
        assert (EC : forall l : list (option string), combine (map (fun v => b_counts N b (text v)) l) (map (fun v => after N c b (text v)) l) = map (fun v => (b_counts N b (text v), after N c b (text v))) l).
        { induction l as [|y l IH]; [reflexivity|]. cbn [map combine]. f_equal. exact IH. }
        rewrite EC, map_map. apply qsum_ext. intros v I. cbn [fst snd]. rewrite (Act v k I). apply Qmult_comp; [reflexivity|].
        apply Qdiv_comp; [unfold occurrences; rewrite C; reflexivity|]. apply Qplus_comp; [|reflexivity].
        unfold predicted. apply qsum_ext. intros l _. rewrite (Act v l I). reflexivity.
      + rewrite (sA _ _ _ _ _ _ Sh). exact Lk.
      + rewrite (rA _ _ _ _ _ _ Sh); [exact Lj|]. rewrite (sA _ _ _ _ _ _ Sh). exact Lk.
    - intros k j Lk Lj. unfold cell at 1. rewrite EW.
      pose proof (nth_zip (zip_with Qdiv) (@nil Q) (@nil Q) (@nil Q) (A_ N st') (B_ N st') k) as E1.
      rewrite E1 by (cbn [num Qarith] in *; lia).
      apply nth_zip; [rewrite RA' by (cbn [num Qarith] in *; lia); exact Lj|rewrite RB' by (cbn [num Qarith] in *; lia); exact Lj].
  Qed.

  Definition gainsA (c : gcfg) (W0 : list (list Q)) (ss : list gstate) (bs : list gcolumn) (k j : nat) : list Q :=
    map (fun p => gainA c (fst p) (fst (snd p)) (snd (snd p)) k j) (combine (W0 :: map (fun s => W_ N s) ss) (combine ss bs)).
  Definition gainsB (ss : list gstate) (bs : list gcolumn) (k : nat) : list Q :=
    map (fun p => gainB (fst p) (snd p) k) (combine ss bs).

  Lemma last_cons {A} : forall (l : list A) a d, last (a :: l) d = last l a.
  Proof. induction l as [|x l IH]; intros a d; [reflexivity|]. change (last (a :: x :: l) d) with (last (x :: l) d). rewrite IH. symmetry. apply IH. Qed.

  Lemma weighted_Proper : forall r x y cs, (x == y)%Q -> (weighted r x cs == weighted r y cs)%Q.
  Proof. intros r x y cs E. unfold weighted. rewrite E. reflexivity. Qed.

  (** later calls *)
  Lemma stats_later : forall (c : gcfg) bs (st : gstate) ss w r, hashing N c = false -> rescale_W N c = false -> Sane N vec_counts vec_width c st -> vocabulary N st <> None ->
    rho_ N st = Some r -> Shape c w (W_ N st) (A_ N st) (B_ N st) (remembered st) ->
    Successive (partial_fit c) st bs ss -> forall k j, k < n_components N c -> j < w ->
    (cell (A_ N (last ss st)) k j == weighted r (cell (A_ N st) k j) (gainsA c (W_ N st) ss bs k j))%Q /\
    (cell (B_ N (last ss st)) k j == weighted r (cell (B_ N st) k j) (gainsB ss bs k))%Q /\
    (ss <> [] -> cell (W_ N (last ss st)) k j = (cell (A_ N (last ss st)) k j / cell (B_ N (last ss st)) k j)%Q).
  Proof.
    intros c bs st ss w r Hh Rs Sn Vn Er Sh Su. revert Sn Vn Er Sh.
    induction Su as [st|st X st' bs ss E Su IH]; intros Sn Vn Er Sh k j Lk Lj.
    - cbn. unfold weighted. cbn. split; [ring|]. split; [ring|]. congruence.
    - pose proof (partial_fit_sane _ _ _ _ _ _ _ _ _ _ Sn E) as Sn'.
      destruct (partial_fit_inv _ _ _ _ _ _ _ _ _ _ Sn E) as (b & St & C & Er' & Rm & Eu).
      unfold Starts in St. destruct (vocabulary N st) as [v|] eqn:V; [|contradiction].
      destruct St as (_ & EW & EA & EB & ED & V' & ER). rewrite Er in ER.
      assert (Shb : Shape c w (b_W N b) (b_A N b) (b_B N b) (fun x => dget x (b_dict N b))).
      { rewrite EW, EA, EB, ED. destruct Sh as [a1 a2 a3 a4 a5 a6]. constructor; try assumption. intros x h Hx. apply (a6 x h). unfold remembered.
        destruct (H_dict_ N st); [exact Hx|discriminate]. }
      destruct (stat_step c st' X b w Shb C Rm Eu) as (UB & K). destruct (K Rs) as (Sh' & UA & UW).
      rewrite last_cons. rewrite ER in *.
      destruct (IH Sn' (ltac:(rewrite V'; discriminate)) Er' Sh' k j Lk Lj) as (IA & IB & IW).
      unfold gainsA, gainsB in *. cbn [map combine fst snd]. rewrite !weighted_cons.
      split; [|split].
      + rewrite IA. apply weighted_Proper. rewrite (UA k j Lk Lj), EW, EA. reflexivity.
      + rewrite IB. apply weighted_Proper. rewrite (UB k j Lk Lj), EB. reflexivity.
      + intros _. destruct ss as [|s ss]; [exact (UW k j Lk Lj)|]. apply IW. discriminate.
  Qed.

  (** from a new encoder *)
  Lemma cell_repeat : forall (x : Q) w n k j, k < n -> j < w -> cell (repeat (repeat x w) n) k j = x.
  Proof.
    intros x w n k j Lk Lj. unfold cell.
    assert (G : forall A (y d : A) m i, i < m -> nth i (repeat y m) d = y) by (clear; intros A y d m; induction m as [|m IH]; intros i L; [lia|]; destruct i; [reflexivity|]; apply IH; lia).
    rewrite (G _ _ [] n k Lk). apply G. exact Lj.
  Qed.
  Lemma stats_new : forall (c : gcfg) X bs (s1 : gstate) ss, hashing N c = false -> rescale_W N c = false -> rescale_rho N c = false ->
    Successive (partial_fit c) (g_new N) (X :: bs) (s1 :: ss) ->
    exists W0 w, (forall k j, k < n_components N c -> j < w ->
    (cell (A_ N (last ss s1)) k j == weighted (rho N c) tiny_ (gainsA c W0 (s1 :: ss) (X :: bs) k j))%Q /\
    (cell (B_ N (last ss s1)) k j == weighted (rho N c) tiny_ (gainsB (s1 :: ss) (X :: bs) k))%Q /\
    cell (W_ N (last ss s1)) k j = (cell (A_ N (last ss s1)) k j / cell (B_ N (last ss s1)) k j)%Q) /\
    length W0 = n_components N c /\
    exists z, vec_fit false false (fst (unique_strings (values X))) = Ok z /\
      if add_words N c then exists z2, vec_fit false true (fst (unique_strings (values X))) = Ok z2 /\ w = vec_width z + vec_width z2 else w = vec_width z.
  Proof.
    intros c X bs s1 ss Hh Rs Rr Su. inversion Su as [|? ? ? ? ? E Su']. subst.
    pose proof (new_sane N vec_counts vec_width (Z := Z) c) as Sn.
    pose proof (partial_fit_sane _ _ _ _ _ _ _ _ _ _ Sn E) as Sn'.
    destruct (partial_fit_inv _ _ _ _ _ _ _ _ _ _ Sn E) as (b & St & C & Er' & Rm & Eu).
    unfold Starts in St. cbn [vocabulary g_new random_state_ rho_] in St.
    destruct St as (z & z2 & r' & W & n & Ez & Ez2 & En & ED & EA & EB & Ed & EW & _ & V' & ER). specialize (ER Rr). specialize (V' Hh).
    assert (Lw : length (b_W N b) = n_components N c) by (rewrite EW, map_length; exact (DrawOk _ _ _ _ _ _ _ _ Ed)).
    assert (Lr : forall x w m k, k < m -> length (nth k (repeat (@repeat Q x w) m) []) = w).
    { clear. intros x w m. induction m as [|m IH]; intros k L; [lia|]. destruct k; [apply repeat_length|]. apply IH. lia. }
    assert (Shb : Shape c n (b_W N b) (b_A N b) (b_B N b) (fun x => dget x (b_dict N b))).
    { constructor.
      - exact Lw.
      - rewrite EA. apply repeat_length.
      - rewrite EB, EA. apply repeat_length.
      - intros k Lk. rewrite EA in *. apply Lr. rewrite repeat_length in Lk. exact Lk.
      - intros k Lk. rewrite EB, EA in *. apply Lr. rewrite repeat_length in Lk. exact Lk.
      - intros x h. rewrite ED. discriminate. }
    destruct (stat_step c s1 X b n Shb C Rm Eu) as (UB & K). destruct (K Rs) as (Sh' & UA & UW).
    exists (b_W N b), n. split; [|split; [exact Lw|]].
    - intros k j Lk Lj.
      destruct (stats_later c bs s1 ss n (b_rho N b) Hh Rs Sn' V' Er' Sh' Su' k j Lk Lj) as (IA & IB & IW).
      unfold gainsA, gainsB in *. cbn [map combine fst snd]. rewrite !weighted_cons. rewrite ER in *.
      assert (E0 : forall k j, k < n_components N c -> j < n -> (cell (b_A N b) k j == tiny_)%Q).
      { intros k' j' Lk' Lj'. rewrite EA. rewrite (cell_repeat _ n (n_components N c) k' j' Lk' Lj'). change (1 * tiny_ == tiny_)%Q. ring. }
      split; [|split].
      + rewrite IA. apply weighted_Proper. rewrite (UA k j Lk Lj), (E0 k j Lk Lj). reflexivity.
      + rewrite IB. apply weighted_Proper. rewrite (UB k j Lk Lj), EB, (E0 k j Lk Lj). reflexivity.
      + destruct ss as [|s ss]; [exact (UW k j Lk Lj)|]. apply IW. discriminate.
    - rewrite Hh in *. exists z. split; [exact Ez|]. destruct (add_words N c).
      + destruct (Ez2 eq_refl) as (z' & -> & Ez'). exists z'. split; [exact Ez'|exact En].
      + rewrite Nat.add_0_r in En. exact En.
  Qed.
End Statistics.
