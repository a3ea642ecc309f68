(** Hashing of n-grams: independent specification and lemmas. *)
From Verif Require Import Base M_similarity M_fasthash L_similarity.
From Coq Require Import ZArith.
Open Scope list_scope.
Open Scope nat_scope.

Definition Substring {A} (w s : list A) : Prop := exists p q, s = p ++ w ++ q.
Lemma Substring_trans : forall {A} (a b c : list A), Substring a b -> Substring b c -> Substring a c.
Proof. intros A a b c (p & q & ->) (p' & q' & ->). exists (p' ++ p), (q ++ q'). rewrite !app_assoc. reflexivity. Qed.

Lemma Substring_at : forall {A} (s w : list A), Substring w s <-> exists i, i + length w <= length s /\ firstn (length w) (skipn i s) = w.
Proof.
  intros A s w. split.
  - intros (p & q & ->). exists (length p). rewrite !app_length. split; [lia|].
    rewrite skipn_app, Nat.sub_diag, skipn_all. simpl. rewrite firstn_app, Nat.sub_diag, firstn_all. simpl. apply app_nil_r.
  - intros (i & L & E). exists (firstn i s), (skipn (length w) (skipn i s)). rewrite <- E at 1. rewrite firstn_skipn, firstn_skipn. reflexivity.
Qed.

Section Fast.
  Variable utf8 : nat -> list Z.
  Variable gen_atom : nat -> nat -> list Z.

  (** The hash of a window of bytes. *)
  Definition window_hash (seed : nat) (w : list Z) : Z := wrap32 (dot w (gen_atom (length w) seed)).
  (** The windows of the bytes that are hashed. *)
  Definition Window (min_n max_n : nat) (bytes w : list Z) : Prop := min_n <= length w < max_n /\ Substring w bytes.
  Definition Atoms : Prop := forall n seed, length (gen_atom n seed) = n.

  Lemma wrap32_range : forall z, (MININT32 <= wrap32 z <= MAXINT32)%Z.
  Proof.
    intro z. unfold wrap32, MININT32, MAXINT32. pose proof (Z.mod_pos_bound (z + 2 ^ 31) (2 ^ 32) ltac:(reflexivity)) as B.
    change (2 ^ 32)%Z with (2 * 2 ^ 31)%Z in B |- *. lia.
  Qed.

  Lemma slide_spec : forall a v h, length v <= length a ->
    In h (slide a v) <-> exists w, Substring w a /\ length w = length v /\ h = wrap32 (dot w v).
  Proof.
    intros a v h L. unfold slide. rewrite in_map_iff. split.
    - intros (i & E & I). apply in_seq in I. exists (firstn (length v) (skipn i a)).
      assert (Lw : length (firstn (length v) (skipn i a)) = length v) by (rewrite firstn_length, skipn_length; lia).
      split; [|split; [exact Lw|symmetry; exact E]]. apply Substring_at. exists i. rewrite Lw. split; [lia|reflexivity].
    - intros (w & Sw & Lw & E). apply Substring_at in Sw. destruct Sw as (i & Li & Ei). exists i. rewrite Lw in *. rewrite Ei. split; [symmetry; exact E|].
      apply in_seq. lia.
  Qed.
  Lemma correlate_ok : forall a v, 1 <= length v -> length v <= length a -> correlate a v = Ok (slide a v).
  Proof.
    intros a v L1 L2. unfold correlate. destruct a as [|x a]; [simpl in L2; lia|]. destruct v as [|y v]; [simpl in L1; lia|].
    rewrite (proj2 (Nat.leb_le _ _) L2). reflexivity.
  Qed.
  Lemma fold_min : forall l x, (fold_left Z.min l x <= x)%Z /\ (forall y, In y l -> (fold_left Z.min l x <= y)%Z) /\ In (fold_left Z.min l x) (x :: l).
  Proof.
    induction l as [|y l IH]; intro x; simpl; [split; [lia|]; split; [intros y []|auto]|].
    destruct (IH (Z.min x y)) as (H1 & H2 & H3). split; [lia|]. split.
    - intros z [<-|I]; [lia|apply H2; exact I].
    - destruct H3 as [H3|H3]; [|auto]. destruct (Z.min_spec x y) as [[_ E]|[_ E]]; rewrite E in *; auto.
  Qed.
  Lemma fold_max : forall l x, (x <= fold_left Z.max l x)%Z /\ (forall y, In y l -> (y <= fold_left Z.max l x)%Z) /\ In (fold_left Z.max l x) (x :: l).
  Proof.
    induction l as [|y l IH]; intro x; simpl; [split; [lia|]; split; [intros y []|auto]|].
    destruct (IH (Z.max x y)) as (H1 & H2 & H3). split; [lia|]. split.
    - intros z [<-|I]; [lia|apply H2; exact I].
    - destruct H3 as [H3|H3]; [|auto]. destruct (Z.max_spec x y) as [[_ E]|[_ E]]; rewrite E in *; auto.
  Qed.
  Lemma array_min_spec : forall l, l <> [] -> exists m, array_min l = Ok m /\ In m l /\ forall y, In y l -> (m <= y)%Z.
  Proof.
    intros [|x l] N; [contradiction|]. destruct (fold_min l x) as (H1 & H2 & H3). eexists. split; [reflexivity|]. split; [exact H3|].
    intros y [<-|I]; [exact H1|apply H2; exact I].
  Qed.
  Lemma array_max_spec : forall l, l <> [] -> exists m, array_max l = Ok m /\ In m l /\ forall y, In y l -> (y <= m)%Z.
  Proof.
    intros [|x l] N; [contradiction|]. destruct (fold_max l x) as (H1 & H2 & H3). eexists. split; [reflexivity|]. split; [exact H3|].
    intros y [<-|I]; [exact H1|apply H2; exact I].
  Qed.
  Lemma hash_loop_spec : Atoms -> forall a seed lens lo hi, (forall n, In n lens -> 1 <= n <= length a) ->
    exists lo' hi', hash_loop gen_atom a seed lens lo hi = Ok (lo', hi') /\
      ((lo' <= lo)%Z /\ (hi <= hi')%Z /\ forall w, In (length w) lens -> Substring w a -> (lo' <= window_hash seed w <= hi')%Z) /\
      (lo' = lo \/ exists w, In (length w) lens /\ Substring w a /\ lo' = window_hash seed w) /\
      (hi' = hi \/ exists w, In (length w) lens /\ Substring w a /\ hi' = window_hash seed w).
  Proof.
    intros At a seed lens. induction lens as [|n lens IH]; intros lo hi L; simpl.
    - exists lo, hi. split; [reflexivity|]. split; [split; [lia|]; split; [lia|]; intros w []|]. auto.
    - destruct (L n (or_introl eq_refl)) as [L1 L2].
      rewrite (correlate_ok a (gen_atom n seed)) by (rewrite At; lia). cbn [bind].
      assert (Ne : slide a (gen_atom n seed) <> []). { unfold slide. rewrite Nat.add_1_r. discriminate. }
      destruct (array_min_spec _ Ne) as (mn & -> & In1 & Le1). destruct (array_max_spec _ Ne) as (mx & -> & In2 & Le2). cbn [bind].
      assert (W : forall h, In h (slide a (gen_atom n seed)) <-> exists w, Substring w a /\ length w = n /\ h = window_hash seed w).
      { intro h. rewrite slide_spec by (rewrite At; exact L2). rewrite At. unfold window_hash. split.
        - intros (w & H1 & H2 & H3). exists w. split; [exact H1|]. split; [exact H2|]. rewrite H2. exact H3.
        - intros (w & H1 & H2 & H3). exists w. split; [exact H1|]. split; [exact H2|]. rewrite H2 in H3. exact H3. }
      destruct (IH (Z.min lo mn) (Z.max hi mx)) as (lo' & hi' & E & (B1 & B2 & B3) & A1 & A2); [intros k I; apply L; right; exact I|].
      exists lo', hi'. split; [exact E|]. split; [split; [lia|]; split; [lia|]|split].
      + intros w [Ew|I] Sw; [|apply B3; assumption]. assert (I : In (window_hash seed w) (slide a (gen_atom n seed))) by (apply W; exists w; auto).
        specialize (Le1 _ I). specialize (Le2 _ I). lia.
      + apply W in In1. destruct In1 as (w1 & S1 & L3 & E1). destruct A1 as [A1|(w & I & Sw & A1)]; [|right; exists w; auto].
        destruct (Z.min_spec lo mn) as [[_ M]|[_ M]]; rewrite M in A1; [left; exact A1|]. right. exists w1. split; [left; symmetry; exact L3|]. split; [exact S1|congruence].
      + apply W in In2. destruct In2 as (w1 & S1 & L3 & E1). destruct A2 as [A2|(w & I & Sw & A2)]; [|right; exists w; auto].
        destruct (Z.max_spec hi mx) as [[_ M]|[_ M]]; rewrite M in A2; [|left; exact A2]. right. exists w1. split; [left; symmetry; exact L3|]. split; [exact S1|congruence].
  Qed.

  (** The encoding of each character has at least one byte. *)
  Definition Encoding : Prop := forall c, 1 <= length (utf8 c).
  Lemma array_length : Encoding -> forall s, length (array utf8 s) = length s.
  Proof.
    intros En s. unfold array. rewrite firstn_length. apply Nat.min_l. induction s as [|c s IH]; simpl; [lia|]. rewrite app_length. specialize (En c). lia.
  Qed.

  Theorem hash_spec : Atoms -> Encoding -> forall s min_n max_n seed, s <> [] -> 1 <= min_n < max_n -> max_n - 1 <= length s ->
    exists lo hi, ngram_min_hash utf8 gen_atom s min_n max_n seed = Ok (lo, hi) /\
      let bytes := firstn (length s) (flat_map utf8 s) in
      (forall w, Window min_n max_n bytes w -> (lo <= window_hash seed w <= hi)%Z) /\
      (exists w, Window min_n max_n bytes w /\ lo = window_hash seed w) /\ (exists w, Window min_n max_n bytes w /\ hi = window_hash seed w).
  Proof.
    intros At En s min_n max_n seed N L1 L2. unfold ngram_min_hash. destruct s as [|c s0] eqn:Es; [contradiction|]. rewrite <- Es in *. clear Es c s0.
    pose proof (array_length En s) as La.
    destruct (hash_loop_spec At (array utf8 s) seed (seq min_n (max_n - min_n)) MAXINT32 MININT32) as (lo & hi & E & (B1 & B2 & B3) & A1 & A2).
    { intros n I. apply in_seq in I. lia. }
    exists lo, hi. split; [exact E|]. cbv zeta. fold (array utf8 s).
    assert (Win : forall w : list Z, In (length w) (seq min_n (max_n - min_n)) <-> min_n <= length w < max_n) by (intro w; rewrite in_seq; lia).
    assert (Ex : exists w, Window min_n max_n (array utf8 s) w).
    { exists (firstn min_n (array utf8 s)). split; [rewrite firstn_length; lia|]. exists [], (skipn min_n (array utf8 s)). simpl. symmetry. apply firstn_skipn. }
    destruct Ex as (w0 & W0). assert (R0 := wrap32_range (dot w0 (gen_atom (length w0) seed))). fold (window_hash seed w0) in R0.
    assert (B0 : (lo <= window_hash seed w0 <= hi)%Z) by (apply B3; [apply Win; exact (proj1 W0)|exact (proj2 W0)]).
    split; [intros w [Lw Sw]; apply B3; [apply Win; exact Lw|exact Sw]|]. split.
    - destruct A1 as [A1|(w & I & Sw & A1)]; [exists w0; split; [exact W0|lia]|]. exists w. split; [split; [apply Win; exact I|exact Sw]|exact A1].
    - destruct A2 as [A2|(w & I & Sw & A2)]; [exists w0; split; [exact W0|lia]|]. exists w. split; [split; [apply Win; exact I|exact Sw]|exact A2].
  Qed.

  (** All the bytes are read when each character has one. *)
  Definition OneByte (s : list nat) : Prop := forall c, In c s -> length (utf8 c) = 1.
  Lemma one_byte_array : forall s, OneByte s -> firstn (length s) (flat_map utf8 s) = flat_map utf8 s.
  Proof.
    intros s O. apply firstn_all2. assert (E : length (flat_map utf8 s) = length s); [|lia].
    induction s as [|c s IH]; [reflexivity|]. simpl. rewrite app_length, IH by (intros d I; apply O; right; exact I). rewrite O by (left; reflexivity). reflexivity.
  Qed.
  Lemma hash_inclusion : Atoms -> Encoding -> forall s t min_n max_n seed, Substring s t -> OneByte t -> s <> [] -> 1 <= min_n < max_n -> max_n - 1 <= length s ->
    exists lo hi lo' hi', ngram_min_hash utf8 gen_atom s min_n max_n seed = Ok (lo, hi) /\ ngram_min_hash utf8 gen_atom t min_n max_n seed = Ok (lo', hi') /\
      (lo' <= lo)%Z /\ (hi <= hi')%Z.
  Proof.
    intros At En s t min_n max_n seed Sub O N L1 L2. assert (Sub' := Sub). destruct Sub as (p & q & Et).
    destruct (hash_spec At En s min_n max_n seed N L1 L2) as (lo & hi & E & _ & (w1 & [Lw1 Sw1] & H1) & (w2 & [Lw2 Sw2] & H2)).
    destruct (hash_spec At En t min_n max_n seed) as (lo' & hi' & E' & B & _).
    { subst t. destruct s; [contradiction|]. intro X. apply app_eq_nil in X. destruct X as [_ X]. discriminate. }
    { exact L1. }
    { subst t. rewrite !app_length. lia. }
    exists lo, hi, lo', hi'. split; [exact E|]. split; [exact E'|].
    assert (Os : OneByte s). { intros c I. apply O. subst t. apply in_or_app. right. apply in_or_app. left. exact I. }
    rewrite (one_byte_array s Os) in *. cbv zeta in B. rewrite (one_byte_array t O) in B.
    assert (Sb : Substring (flat_map utf8 s) (flat_map utf8 t)) by (exists (flat_map utf8 p), (flat_map utf8 q); subst t; rewrite !flat_map_app; reflexivity).
    split.
    - rewrite H1. apply B. split; [exact Lw1|]. eapply Substring_trans; eassumption.
    - rewrite H2. apply B. split; [exact Lw2|]. eapply Substring_trans; eassumption.
  Qed.

  Theorem fast_inclusion : Atoms -> Encoding -> forall s t min_n max_n n_components minmax, Substring s t -> OneByte t -> s <> [] -> 1 <= min_n < max_n -> max_n - 1 <= length s ->
    exists hs ht, get_fast_hash utf8 gen_atom minmax n_components min_n max_n s = Ok hs /\ get_fast_hash utf8 gen_atom minmax n_components min_n max_n t = Ok ht /\
      (minmax = false -> Forall2 Z.le ht hs /\ length hs = n_components) /\
      (minmax = true -> exists ps pt, hs = concat (map (fun p => [fst p; snd p]) ps) /\ ht = concat (map (fun p => [fst p; snd p]) pt) /\
         length ps = n_components / 2 /\ Forall2 (fun b a => fst b <= fst a /\ snd a <= snd b)%Z pt ps).
  Proof.
    intros At En s t min_n max_n nc minmax Sub O N L1 L2. unfold get_fast_hash.
    set (H := fun seed => hash_inclusion At En s t min_n max_n seed Sub O N L1 L2). clearbody H.
    assert (G : forall seeds, exists ps pt, length ps = length seeds /\
              mapM (fun seed => ngram_min_hash utf8 gen_atom s min_n max_n seed) seeds = Ok ps /\
              mapM (fun seed => ngram_min_hash utf8 gen_atom t min_n max_n seed) seeds = Ok pt /\
              Forall2 (fun b a => fst b <= fst a /\ snd a <= snd b)%Z pt ps).
    { induction seeds as [|d seeds (ps & pt & IL & I1 & I2 & I3)]; [exists [], []; repeat split; constructor|].
      destruct (H d) as (lo & hi & lo' & hi' & E & E' & B1 & B2). exists ((lo, hi) :: ps), ((lo', hi') :: pt). cbn [mapM]. rewrite E, E'. cbn [bind]. rewrite I1, I2. cbn [bind].
      split; [simpl; congruence|]. repeat split; constructor; try assumption. split; assumption. }
    assert (M1 : forall u seeds ps, mapM (fun seed => ngram_min_hash utf8 gen_atom u min_n max_n seed) seeds = Ok ps ->
              mapM (fun seed => let! (lo, _) := ngram_min_hash utf8 gen_atom u min_n max_n seed in Ok lo) seeds = Ok (map fst ps)).
    { intro u. induction seeds as [|d seeds IH]; intros ps E; cbn [mapM] in *; [injection E as <-; reflexivity|].
      destruct (ngram_min_hash utf8 gen_atom u min_n max_n d) as [[lo hi]|e]; cbn [bind] in *; [|discriminate].
      destruct (mapM (fun seed => ngram_min_hash utf8 gen_atom u min_n max_n seed) seeds) as [ps'|e]; cbn [bind] in *; [|discriminate].
      injection E as <-. rewrite (IH ps' eq_refl). reflexivity. }
    assert (M2 : forall u seeds ps, mapM (fun seed => ngram_min_hash utf8 gen_atom u min_n max_n seed) seeds = Ok ps ->
              mapM (fun seed => let! (lo, hi) := ngram_min_hash utf8 gen_atom u min_n max_n seed in Ok [lo; hi]) seeds = Ok (map (fun p => [fst p; snd p]) ps)).
    { intro u. induction seeds as [|d seeds IH]; intros ps E; cbn [mapM] in *; [injection E as <-; reflexivity|].
      destruct (ngram_min_hash utf8 gen_atom u min_n max_n d) as [[lo hi]|e]; cbn [bind] in *; [|discriminate].
      destruct (mapM (fun seed => ngram_min_hash utf8 gen_atom u min_n max_n seed) seeds) as [ps'|e]; cbn [bind] in *; [|discriminate].
      injection E as <-. rewrite (IH ps' eq_refl). reflexivity. }
    destruct minmax.
    - destruct (G (seq 0 (nc / 2))) as (ps & pt & GL & G1 & G2 & G3). rewrite seq_length in GL.
      rewrite (M2 _ _ _ G1), (M2 _ _ _ G2). cbn [bind]. eexists. eexists. split; [reflexivity|]. split; [reflexivity|]. split; [discriminate|].
      intros _. exists ps, pt. auto.
    - destruct (G (seq 0 nc)) as (ps & pt & GL & G1 & G2 & G3). rewrite seq_length in GL.
      rewrite (M1 _ _ _ G1), (M1 _ _ _ G2). eexists. eexists. split; [reflexivity|]. split; [reflexivity|]. split; [|discriminate].
      intros _. split; [|rewrite map_length; exact GL]. clear - G3. induction G3 as [|b a pt ps [B _] G IH]; simpl; constructor; assumption.
  Qed.

  (** The n-grams of the largest length are not used: with a single length nothing is. *)
  Theorem fast_constant : forall s n seed, s <> [] -> ngram_min_hash utf8 gen_atom s n n seed = Ok (MAXINT32, MININT32).
  Proof. intros s n seed N. unfold ngram_min_hash. destruct s; [contradiction|]. rewrite Nat.sub_diag. reflexivity. Qed.
End Fast.

(** Two characters of two bytes each, then anything: only the first bytes are read. *)
Theorem fast_truncated : forall utf8 gen_atom c d e, length (utf8 c) = 2 ->
  forall min_n max_n seed, ngram_min_hash utf8 gen_atom [c; d] min_n max_n seed = ngram_min_hash utf8 gen_atom [c; e] min_n max_n seed.
Proof.
  intros utf8 gen_atom c d e L min_n max_n seed. unfold ngram_min_hash, array. simpl length. cbn [flat_map].
  assert (T : forall x : list Z, firstn 2 (utf8 c ++ x) = utf8 c). { intro x. rewrite firstn_app, L, Nat.sub_diag. rewrite firstn_O, app_nil_r. apply firstn_all2. lia. }
  rewrite !T. reflexivity.
Qed.

(** Murmur hashes. *)
Section MurmurHash.
  Context {C : Type} `{EqD C}.
  Variable space : C.
  Variable is_space : C -> bool.
  Variable lower : list C -> list C.
  Variable murmurhash : list C -> nat -> Z.

  Lemma substrings_In : forall n (s w : list C), In w (substrings n s) <-> length w = n /\ Substring w s.
  Proof.
    intros n s w. rewrite <- substrings_windows. unfold windows. rewrite in_map_iff. split.
    - intros (i & E & I). apply in_seq in I. assert (Lw : length w = n) by (subst w; rewrite firstn_length, skipn_length; lia).
      split; [exact Lw|]. apply Substring_at. exists i. rewrite Lw. split; [lia|exact E].
    - intros [L Sw]. apply Substring_at in Sw. destruct Sw as (i & Li & Ei). exists i. rewrite L in *. split; [exact Ei|]. apply in_seq. lia.
  Qed.
  Definition MurmurGram (min_n max_n : nat) (ws : list (list C)) (g : list C) : Prop := min_n <= length g <= max_n /\ Substring g (spaced space ws).
  Lemma unique_ngrams_spec : forall s ws min_n max_n g, 1 <= min_n -> Words is_space (lower s) ws ->
    In g (get_unique_ngrams space is_space lower s min_n max_n) <-> MurmurGram min_n max_n ws g.
  Proof.
    intros s ws min_n max_n g L W. unfold get_unique_ngrams. rewrite nodup_In, in_flat_map. unfold MurmurGram. split.
    - intros (n & I & J). apply in_seq in I. rewrite get_ngrams_spec in J by lia. rewrite (padded_spec _ _ _ _ _ W) in J.
      apply substrings_In in J. destruct J as [J1 J2]. split; [lia|exact J2].
    - intros [B Sg]. exists (length g). split; [apply in_seq; lia|]. rewrite get_ngrams_spec by lia. rewrite (padded_spec _ _ _ _ _ W). apply substrings_In. auto.
  Qed.
  Theorem murmur_spec : forall s ws n_components min_n max_n, 1 <= min_n <= max_n -> s <> [] -> Words is_space (lower s) ws ->
    let h := get_murmur_hash space is_space lower murmurhash n_components min_n max_n s in
    length h = n_components /\ forall d, d < n_components ->
      if length (spaced space ws) <? min_n then nth_error h d = Some 0%Z
      else exists m, nth_error h d = Some m /\ (forall g, MurmurGram min_n max_n ws g -> (m <= murmurhash g d)%Z) /\
             exists g, MurmurGram min_n max_n ws g /\ m = murmurhash g d.
  Proof.
    intros s ws nc min_n max_n L N W. cbv zeta. unfold get_murmur_hash. destruct s as [|c s0] eqn:Es; [contradiction|]. rewrite <- Es in *. clear Es c s0.
    pose proof (fun g => unique_ngrams_spec s ws min_n max_n g (proj1 L) W) as U.
    destruct (get_unique_ngrams space is_space lower s min_n max_n) as [|g gs].
    - split; [apply repeat_length|]. intros d Ld. destruct (Nat.ltb_spec (length (spaced space ws)) min_n) as [Z|Z].
      + assert (R : forall n k, k < n -> nth_error (repeat 0%Z n) k = Some 0%Z). { induction n as [|n IH]; intros k Lk; [lia|]. destruct k; [reflexivity|]. simpl. apply IH. lia. }
        apply R. exact Ld.
      + exfalso. apply (U (firstn min_n (spaced space ws))). split; [rewrite firstn_length; lia|].
        exists [], (skipn min_n (spaced space ws)). simpl. symmetry. apply firstn_skipn.
    - split; [rewrite map_length, seq_length; reflexivity|]. intros d Ld.
      destruct (Nat.ltb_spec (length (spaced space ws)) min_n) as [Z|Z].
      { exfalso. destruct (proj1 (U g) (or_introl eq_refl)) as [B (p & q & E)]. rewrite E, !app_length in Z. lia. }
      rewrite nth_error_map. assert (Sq : nth_error (seq 0 nc) d = Some d).
      { rewrite (nth_error_nth' _ 0) by (rewrite seq_length; exact Ld). rewrite seq_nth by exact Ld. reflexivity. }
      rewrite Sq. simpl. eexists. split; [reflexivity|].
      destruct (fold_min (map (fun g0 => murmurhash g0 d) gs) (murmurhash g d)) as (M1 & M2 & M3). split.
      + intros g' G. apply U in G. destruct G as [<-|G]; [exact M1|]. apply M2. apply in_map_iff. exists g'. auto.
      + destruct M3 as [M3|M3]; [exists g; split; [apply U; left; reflexivity|auto]|]. apply in_map_iff in M3. destruct M3 as (g' & E & I).
        exists g'. split; [apply U; right; exact I|auto].
  Qed.
  (** Texts that contain the words of another in a row. *)
  Theorem murmur_inclusion : forall s t ws a b n_components min_n max_n, 1 <= min_n <= max_n -> s <> [] -> t <> [] -> ws <> [] ->
    Words is_space (lower s) ws -> Words is_space (lower t) (a ++ ws ++ b) -> min_n <= length (spaced space ws) ->
    Forall2 Z.le (get_murmur_hash space is_space lower murmurhash n_components min_n max_n t) (get_murmur_hash space is_space lower murmurhash n_components min_n max_n s).
  Proof.
    intros s t ws a b nc min_n max_n L Ns Nt Nw Ws Wt Ls.
    destruct (murmur_spec s ws nc min_n max_n L Ns Ws) as [L1 H1]. destruct (murmur_spec t _ nc min_n max_n L Nt Wt) as [L2 H2].
    assert (Sb : Substring (spaced space ws) (spaced space (a ++ ws ++ b))).
    { assert (Ne : a ++ ws ++ b <> []). { destruct ws; [contradiction|]. intro X. apply app_eq_nil in X. destruct X as [_ X]. discriminate. }
      assert (Es : forall l, l <> [] -> spaced space l = flat_map (cons space) l ++ [space]) by (intros [|? ?] Q; [contradiction|reflexivity]).
      rewrite (Es ws Nw), (Es _ Ne). rewrite !flat_map_app. exists (flat_map (cons space) a).
      destruct b as [|w b]; [exists []; simpl; rewrite !app_nil_r, <- !app_assoc; reflexivity|].
      exists (w ++ flat_map (cons space) b ++ [space]). simpl. rewrite <- !app_assoc. simpl. rewrite <- !app_assoc. reflexivity. }
    assert (Lt : length (spaced space ws) <= length (spaced space (a ++ ws ++ b))) by (destruct Sb as (p & q & E); rewrite E, !app_length; lia).
    revert H1 H2 L1 L2. generalize (get_murmur_hash space is_space lower murmurhash nc min_n max_n s) as hs.
    generalize (get_murmur_hash space is_space lower murmurhash nc min_n max_n t) as ht. intros ht hs H1 H2 L1 L2.
    assert (G : forall l1 l2 : list Z, length l1 = length l2 -> (forall d x y, nth_error l1 d = Some x -> nth_error l2 d = Some y -> (x <= y)%Z) -> Forall2 Z.le l1 l2).
    { induction l1 as [|x l1 IH]; intros [|y l2] E G; simpl in E; try lia; constructor; [apply (G 0); reflexivity|]. apply IH; [lia|]. intros d. apply (G (S d)). }
    apply G; [congruence|]. intros d x y Ex Ey. assert (Ld : d < nc) by (rewrite <- L1; apply nth_error_Some; congruence).
    specialize (H1 d Ld). specialize (H2 d Ld).
    destruct (Nat.ltb_spec (length (spaced space ws)) min_n) as [Z|Z]; [lia|]. destruct (Nat.ltb_spec (length (spaced space (a ++ ws ++ b))) min_n) as [Z'|Z']; [lia|].
    destruct H1 as (m1 & E1 & _ & g & [Bg Sg] & Eg). destruct H2 as (m2 & E2 & B2 & _). assert (x = m2) by congruence. assert (y = m1) by congruence. subst.
    apply B2. split; [exact Bg|]. eapply Substring_trans; eassumption.
  Qed.
End MurmurHash.

(** A toy encoding: one byte for the first 128 characters, two for the others (those up to 2047 as in UTF-8). *)
Definition toy_utf8 (c : nat) : list Z :=
  if c <? 128 then [Z.of_nat c] else [Z.of_nat (192 + c / 64) - 256; Z.of_nat (128 + c mod 64) - 256]%Z.
Theorem inclusion_refuted : exists gen_atom s t, Atoms gen_atom /\ Substring s t /\ length s = 2 /\
  exists lo hi lo' hi', ngram_min_hash toy_utf8 gen_atom s 2 3 0 = Ok (lo, hi) /\ ngram_min_hash toy_utf8 gen_atom t 2 3 0 = Ok (lo', hi') /\ (lo < lo')%Z.
Proof.
  exists (fun n _ => repeat (-1)%Z n), [97; 98], [233; 97; 98]. split; [intros n seed; apply repeat_length|]. split; [exists [233], []; reflexivity|].
  split; [reflexivity|]. do 4 eexists. split; [vm_compute; reflexivity|]. split; [vm_compute; reflexivity|]. reflexivity.
Qed.
Theorem single_length : forall utf8 gen_atom s t n seed, s <> [] -> t <> [] ->
  ngram_min_hash utf8 gen_atom s n n seed = ngram_min_hash utf8 gen_atom t n n seed.
Proof. intros. rewrite !fast_constant by assumption. reflexivity. Qed.
