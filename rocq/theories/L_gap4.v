(** Lemmas on GapEncoder: refitting. *)
From Verif Require Import Base L_dict M_names M_str M_lru L_minhash M_gap L_gap L_gap2 L_gap3.
Open Scope string_scope.
Open Scope list_scope.
Open Scope nat_scope.

Section Refit.
  Variable N : arith.
  Notation F := (num N).
  Notation vec := (list F).
  Notation row := (list (nat * F)).
  Context {Z R : Type}.
  Variable vec_fit : bool -> bool -> list string -> res Z.
  Variable vec_counts : Z -> string -> row.
  Variable vec_width : Z -> nat.
  Variable vec_names : Z -> list string.
  Variable draw_w : @gcfg N R -> Z -> option Z -> R -> list row -> list (option string) -> res (list vec * R).
  Variable divergence : list row -> list vec -> list vec -> F.
  Variable words_of : list string -> res (list string).
  Variable chars_of : list string -> res (list string).
  Variable argsort : vec -> list nat.
  Hypothesis draw_words : forall c z z2 z2' r V X, add_words N c = false -> draw_w c z z2 r V X = draw_w c z z2' r V X.
  Notation counts := (counts N vec_counts vec_width).
  Notation fit := (fit N vec_fit vec_counts vec_width vec_names draw_w divergence).
  Notation transform_ := (transform_ N vec_counts vec_width).
  Notation transform := (transform N vec_counts vec_width words_of chars_of argsort).
  Notation get_feature_names_out := (get_feature_names_out N vec_counts vec_width words_of chars_of argsort).
  Notation gstate := (@gstate N Z R).
  Notation gcfg := (@gcfg N R).

  (** the attributes that [transform] reads *)
  Definition Agree (c : gcfg) (s1 s2 : gstate) : Prop :=
    ngrams_count_ N s1 = ngrams_count_ N s2 /\ (add_words N c = true -> word_count_ N s1 = word_count_ N s2) /\ H_dict_ N s1 = H_dict_ N s2 /\
    W_ N s1 = W_ N s2 /\ input_name N s1 = input_name N s2.
  Lemma agree_counts : forall c (s1 s2 : gstate) x, Agree c s1 s2 -> counts c s1 x = counts c s2 x.
  Proof.
    intros c s1 s2 x (E1 & E2 & _). unfold M_gap.counts. rewrite E1. destruct (ngrams_count_ N s2); [|reflexivity].
    destruct (add_words N c); [|reflexivity]. rewrite (E2 eq_refl). reflexivity.
  Qed.
  Lemma agree_set_H : forall c (s1 s2 : gstate) d, Agree c s1 s2 -> Agree c (set_H N d s1) (set_H N d s2).
  Proof. intros c s1 s2 d (E1 & E2 & E3 & E4 & E5). repeat split; assumption. Qed.
  Lemma agree_transform_ : forall c (s1 s2 : gstate) X, Agree c s1 s2 ->
    snd (transform_ c s1 X) = snd (transform_ c s2 X) /\ Agree c (fst (transform_ c s1 X)) (fst (transform_ c s2 X)).
  Proof.
    intros c s1 s2 X A. pose proof A as (E1 & E2 & E3 & E4 & E5). unfold M_gap.transform_. rewrite E3.
    destruct (H_dict_ N s2) as [pre|]; [|split; [reflexivity|exact A]].
    destruct (unique_strings X) as [u idx].
    rewrite (mapM_ext (counts c s1) (counts c s2)) by (intros; apply agree_counts; exact A).
    destruct (mapM (counts c s2) u) as [V|e]; [|split; [reflexivity|exact A]].
    assert (EU : add_unseen N vec_counts vec_width c s1 pre u = add_unseen N vec_counts vec_width c s2 pre u).
    { unfold add_unseen. rewrite (mapM_ext (counts c s1) (counts c s2)) by (intros; apply agree_counts; exact A). reflexivity. }
    rewrite EU. destruct (add_unseen N vec_counts vec_width c s2 pre u) as [d|e]; [|split; [reflexivity|exact A]].
    destruct (get_H N d u) as [H|e]; [|split; [reflexivity|apply agree_set_H; exact A]].
    rewrite E4. destruct (update_batches N c 100 (W_ N s2) V H) as [H'|e]; [|split; [reflexivity|apply agree_set_H; exact A]].
    destruct (get_H N (update_dict N d u H') (map text X)) as [r|e]; split; try reflexivity; apply agree_set_H; exact A.
  Qed.
  Lemma agree_names : forall c (s1 s2 : gstate) n, Agree c s1 s2 -> snd (get_feature_names_out c s1 n) = snd (get_feature_names_out c s2 n).
  Proof.
    intros c s1 s2 n A. pose proof A as (E1 & E2 & E3 & E4 & E5). unfold M_gap.get_feature_names_out. rewrite E3.
    destruct (H_dict_ N s2) as [d|]; [|reflexivity].
    destruct (match words_of (dkeys d) with Err ValueError => _ | r => r end) as [vocab|e]; [|reflexivity].
    destruct (agree_transform_ c s1 s2 (map Some vocab) A) as [E _].
    destruct (transform_ c s1 (map Some vocab)) as [t1 r1]. destruct (transform_ c s2 (map Some vocab)) as [t2 r2]. cbn [snd] in E. subst r1.
    destruct r2; [|reflexivity]. rewrite E5. reflexivity.
  Qed.
  Lemma agree_transform : forall c (s1 s2 : gstate) X, Agree c s1 s2 -> snd (transform c s1 X) = snd (transform c s2 X).
  Proof.
    intros c s1 s2 X A. pose proof A as (E1 & E2 & E3 & E4 & E5). unfold M_gap.transform. rewrite E3.
    destruct (H_dict_ N s2) as [d|]; [|reflexivity]. destruct (textual X); [|reflexivity]. cbn [negb].
    destruct (agree_transform_ c s1 s2 (values X) A) as [E A'].
    destruct (transform_ c s1 (values X)) as [t1 r1]. destruct (transform_ c s2 (values X)) as [t2 r2]. cbn [snd fst] in E, A'. subst r1.
    destruct r2; [|reflexivity]. pose proof (agree_names c t1 t2 3 A') as En.
    destruct (get_feature_names_out c t1 3) as [u1 n1]. destruct (get_feature_names_out c t2 3) as [u2 n2]. cbn [snd] in En. subst n1.
    destruct n2; reflexivity.
  Qed.

  Lemma init_vars_forgets : forall c (s1 s2 : gstate) r X t1 u V l, rho_ N s1 = rho_ N s2 -> input_name N s1 = input_name N s2 ->
    init_vars N vec_fit vec_counts vec_width vec_names draw_w c s1 r X = Ok (t1, u, V, l) ->
    exists t2, init_vars N vec_fit vec_counts vec_width vec_names draw_w c s2 r X = Ok (t2, u, V, l) /\ Agree c t1 t2 /\
      A_ N t1 = A_ N t2 /\ B_ N t1 = B_ N t2 /\ rho_ N t1 = rho_ N t2 /\ random_state_ N t1 = random_state_ N t2 /\
      (hashing N c = false -> vocabulary N t1 = vocabulary N t2).
  Proof.
    intros c s1 s2 r X t1 u V l Er Ei E. unfold init_vars in *. destruct (unique_strings X) as [u0 idx].
    apply bindOk in E. destruct E as [z [Ez E]]. rewrite Ez. cbn [bind].
    apply bindOk in E. destruct E as [z2 [Ez2 E]].
    assert (Ez2' : exists z2', (if add_words N c then let! z2 := vec_fit (hashing N c) true u0 in Ok (Some z2) else Ok (word_count_ N s2)) = Ok z2' /\ (add_words N c = true -> z2 = z2')).
    { destruct (add_words N c); [exists z2; split; [exact Ez2|reflexivity]|]. eexists. split; [reflexivity|discriminate]. }
    destruct Ez2' as (z2' & -> & Eq2). cbn [bind].
    apply bindOk in E. destruct E as [uV [EV E]].
    match goal with |- context [mapM (counts c ?s) u0] => assert (EV' : mapM (counts c s) u0 = Ok uV) end.
    { rewrite <- EV. apply mapM_ext. intros x. unfold M_gap.counts. cbn [ngrams_count_ word_count_].
      destruct (add_words N c); [|reflexivity]. rewrite (Eq2 eq_refl). reflexivity. }
    rewrite EV'. cbn [bind].
    apply bindOk in E. destruct E as [VV [EVV E]]. rewrite EVV. cbn [bind].
    apply bindOk in E. destruct E as [[W r'] [EW E]].
    assert (EW' : draw_w c z z2' r VV X = Ok (W, r')).
    { destruct (add_words N c) eqn:Aw; [rewrite <- (Eq2 eq_refl); exact EW|]. rewrite <- EW. apply draw_words. exact Aw. }
    rewrite EW'. cbn [bind]. cbn [rho_] in *.
    apply bindOk in E. destruct E as [rho' [Erho E]]. rewrite Er in Erho. rewrite Erho. cbn [bind]. cbn [input_name vocabulary] in *.
    injection E as <- <- <- <-. eexists. split; [reflexivity|]. cbn [A_ B_ rho_ random_state_ vocabulary]. 
    assert (Ew : (if add_words N c then match z2 with Some z2 => vec_width z2 | None => 0 end else 0) = (if add_words N c then match z2' with Some z2 => vec_width z2 | None => 0 end else 0)).
    { destruct (add_words N c); [rewrite (Eq2 eq_refl)|]; reflexivity. }
    rewrite Ew. repeat split; try reflexivity.
    - cbn [word_count_]. intros H. exact (Eq2 H).
    - cbn [input_name]. exact Ei.
    - intros Hh. rewrite Hh. destruct (add_words N c).
      + rewrite (Eq2 eq_refl). reflexivity.
      + destruct z2, z2'; reflexivity.
  Qed.

  Lemma fit_forgets : forall c (s1 s2 : gstate) X t1, fit c s1 X = Ok t1 ->
    exists t2, fit c s2 X = Ok t2 /\ Agree c t1 t2 /\ A_ N t1 = A_ N t2 /\ B_ N t1 = B_ N t2 /\ rho_ N t1 = rho_ N t2 /\ random_state_ N t1 = random_state_ N t2 /\
      (hashing N c = false -> vocabulary N t1 = vocabulary N t2).
  Proof.
    intros c s1 s2 X t1 E. unfold M_gap.fit in *. destruct (textual X); [|discriminate]. cbn [negb] in *.
    destruct (length (values X) <? n_components N c); [discriminate|].
    apply bindOk in E. destruct E as [[[[i1 u] V] l] [Ei E]].
    match type of Ei with init_vars N _ _ _ _ _ c ?sa _ _ = _ => match goal with |- context [init_vars N _ _ _ _ _ c ?s (seed N c) (values X)] =>
      destruct (init_vars_forgets c sa s (seed N c) (values X) i1 u V l eq_refl eq_refl Ei) as (i2 & Ei2 & (A1 & A2 & A3 & A4 & A5) & EA & EB & Erho & Er & Ev) end end.
    rewrite Ei2. cbn [bind]. destruct (batch_size N c =? 0); [discriminate|].
    rewrite <- A3, <- Erho, <- A4, <- EA, <- EB.
    destruct (H_dict_ N i1) as [d|] eqn:Ed; [|discriminate]. destruct (rho_ N i1) as [rh|] eqn:Eh; [|discriminate].
    apply bindOk in E. destruct E as [uH [EH E]]. rewrite EH. cbn [bind].
    apply bindOk in E. destruct E as [[[uH' [[W A] B]] m] [EI E]]. rewrite EI. cbn [bind].
    injection E as <-. eexists. split; [reflexivity|].
    split; [repeat split; cbn [set_H set_WAB word_count_ input_name H_dict_ W_ ngrams_count_]; try assumption; congruence|].
    repeat split; cbn [set_H set_WAB rho_ random_state_ vocabulary]; try assumption; congruence.
  Qed.

  Lemma refit_outputs : forall c (s1 s2 : gstate) X t1, fit c s1 X = Ok t1 ->
    exists t2, fit c s2 X = Ok t2 /\ (forall Y, snd (transform c t1 Y) = snd (transform c t2 Y)) /\
      (forall n, snd (get_feature_names_out c t1 n) = snd (get_feature_names_out c t2 n)) /\ (hashing N c = false -> vocabulary N t1 = vocabulary N t2).
  Proof.
    intros c s1 s2 X t1 E. destruct (fit_forgets c s1 s2 X t1 E) as (t2 & E2 & A & _ & _ & _ & _ & V).
    exists t2. split; [exact E2|]. split; [intros Y; apply agree_transform; exact A|]. split; [intros n; apply agree_names; exact A|exact V].
  Qed.
End Refit.
