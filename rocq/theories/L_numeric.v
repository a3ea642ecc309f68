(** Numeric choices stay within their bounds. *)
From Coq Require Import Reals Lra Sorted.
From Verif Require Import Base M_numeric.
Open Scope list_scope.
Open Scope nat_scope.
Open Scope R_scope.

(** ** Specification *)
Definition within (lo hi x : R) : Prop := lo <= x <= hi.
Definition integral (x : R) : Prop := exists z : Z, x = IZR z.
(** Integer choices are given integer bounds. *)
Definition proper_bounds (lo hi : R) (ti : bool) : Prop := ti = true -> integral lo /\ integral hi.

(** ** Rounding *)
Lemma Int_part_spec x : IZR (Int_part x) <= x < IZR (Int_part x) + 1.
Proof. destruct (base_Int_part x). lra. Qed.

Lemma Int_part_le_iff z x : (z <= Int_part x)%Z <-> IZR z <= x.
Proof.
  pose proof (Int_part_spec x) as [H1 H2]. split.
  - intros Hz. apply IZR_le in Hz. lra.
  - intros Hz. apply Z.lt_succ_r. apply lt_IZR. rewrite succ_IZR. lra.
Qed.

Lemma Int_part_unique z x : IZR z <= x < IZR z + 1 -> Int_part x = z.
Proof.
  intros [H1 H2]. apply Z.le_antisymm; [|apply Int_part_le_iff; exact H1].
  pose proof (Int_part_spec x) as [H3 H4]. apply Z.lt_succ_r. apply lt_IZR. rewrite succ_IZR. lra.
Qed.

Lemma trunc_bounds a b x : IZR a <= x <= IZR b -> (a <= trunc x <= b)%Z.
Proof.
  intros [H1 H2]. unfold trunc. destruct (Rlt_dec x 0) as [Hn|Hp].
  - pose proof (Int_part_spec (- x)) as [H3 H4]. split.
    + apply Z.opp_le_mono. rewrite Z.opp_involutive. apply le_IZR. rewrite opp_IZR. lra.
    + assert (- b <= Int_part (- x))%Z by (apply Int_part_le_iff; rewrite opp_IZR; lra). lia.
  - split; [apply Int_part_le_iff; exact H1|].
    pose proof (Int_part_spec x) as [H3 H4]. apply le_IZR. lra.
Qed.

Lemma round_even_mono x y : x <= y -> (round_even x <= round_even y)%Z.
Proof.
  intros Hxy. unfold round_even.
  pose proof (Int_part_spec (x + / 2)) as [Hx1 Hx2]. pose proof (Int_part_spec (y + / 2)) as [Hy1 Hy2].
  set (n := Int_part (x + / 2)) in *. set (m := Int_part (y + / 2)) in *.
  assert (Hnm : (n <= m)%Z) by (apply Int_part_le_iff; lra).
  destruct (Req_EM_T (x + / 2) (IZR n)) as [Ex|Nx], (Req_EM_T (y + / 2) (IZR m)) as [Ey|Ny].
  - destruct (Z.eq_dec n m) as [-> |Hne]; [lia|].
    destruct (Z.odd n) eqn:On, (Z.odd m) eqn:Om; lia.
  - destruct (Z.odd n); lia.
  - destruct (Z.eq_dec n m) as [-> |Hne].
    + exfalso. apply Nx. lra.
    + destruct (Z.odd m); lia.
  - exact Hnm.
Qed.

Lemma round_even_int z : round_even (IZR z) = z.
Proof.
  unfold round_even. assert (E : Int_part (IZR z + / 2) = z) by (apply Int_part_unique; lra).
  rewrite E. destruct (Req_EM_T (IZR z + / 2) (IZR z)) as [Hx|_]; [exfalso; lra|reflexivity].
Qed.

Lemma round_within lo hi x : integral lo -> integral hi -> within lo hi x -> within lo hi (IZR (round_even x)).
Proof.
  intros [a ->] [b ->] [H1 H2]. apply round_even_mono in H1, H2. rewrite round_even_int in *.
  split; apply IZR_le; assumption.
Qed.

(** ** Bounds *)
Lemma check_bounds_ok lo hi lg : check_bounds lo hi lg = Ok tt <-> lo <= hi /\ (lg = true -> 0 < lo).
Proof.
  unfold check_bounds. destruct (Rlt_dec hi lo) as [Hl|Hl].
  - split; [discriminate|]. intros [H _]. exfalso. lra.
  - destruct lg; [destruct (Rle_dec lo 0) as [Hz|Hz]|].
    + split; [discriminate|]. intros [_ H]. specialize (H eq_refl). exfalso. lra.
    + split; [|reflexivity]. intros _. split; [lra|]. intros _. lra.
    + split; [|reflexivity]. intros _. split; [lra|discriminate].
Qed.

Lemma ln_le a b : 0 < a -> a <= b -> ln a <= ln b.
Proof. intros Ha [Hlt| ->]; [|lra]. left. apply ln_increasing; assumption. Qed.

Lemma exp_within a b x : 0 < a -> a <= b -> ln a <= x <= ln b -> within a b (exp x).
Proof.
  intros Ha Hab [H1 H2]. assert (Hexp : forall u v, u <= v -> exp u <= exp v).
  { intros u v [Hlt| ->]; [|lra]. left. apply exp_increasing. exact Hlt. }
  split.
  - rewrite <- (exp_ln a Ha). apply Hexp. exact H1.
  - rewrite <- (exp_ln b); [|lra]. apply Hexp. exact H2.
Qed.

Lemma made_ok lo hi lg ti c : make_numeric lo hi lg ti = Ok c ->
  lo <= hi /\ (lg = true -> 0 < lo) /\ c = mk_num lo hi lg ti (if lg then LogUniform lo hi else Uniform lo hi).
Proof.
  unfold make_numeric. destruct (check_bounds lo hi lg) as [[]|e] eqn:E; [|discriminate].
  apply check_bounds_ok in E. cbn. intros E'. injection E' as <-. tauto.
Qed.

Theorem default_within lo hi lg ti c : proper_bounds lo hi ti -> make_numeric lo hi lg ti = Ok c ->
  within lo hi (numeric_default c).
Proof.
  intros Hp Hm. apply made_ok in Hm. destruct Hm as (Hle & Hpos & ->). unfold numeric_default. cbn [low high log to_int].
  assert (Hmid : within lo hi ((if lg then exp else fun x => x) (((if lg then ln lo else lo) + (if lg then ln hi else hi)) / 2))).
  { destruct lg.
    - specialize (Hpos eq_refl). pose proof (ln_le lo hi Hpos Hle). apply exp_within; auto. lra.
    - unfold within. lra. }
  destruct ti.
  - destruct (Hp eq_refl) as [Hlo Hhi]. apply round_within; auto. destruct lg; exact Hmid.
  - destruct lg; exact Hmid.
Qed.

Theorem log_draw_within lo hi ti c u : lo < hi -> proper_bounds lo hi ti -> 0 <= u < 1 ->
  make_numeric lo hi true ti = Ok c -> exists x, rvs c u = Ok x /\ within lo hi x.
Proof.
  intros Hlt Hp Hu Hm. apply made_ok in Hm. destruct Hm as (_ & Hpos & ->). specialize (Hpos eq_refl).
  unfold rvs, draw. cbn [distribution to_int]. destruct (Rlt_dec 0 lo) as [_|n]; [|contradiction].
  destruct (Rlt_dec lo hi) as [_|n]; [|contradiction]. cbn [bind].
  assert (Hw : within lo hi (exp (ln lo + u * (ln hi - ln lo)))).
  { pose proof (ln_le lo hi Hpos (Rlt_le _ _ Hlt)). apply exp_within; auto; [lra|]. split; nra. }
  destruct ti; (eexists; split; [reflexivity|]); [|exact Hw].
  destruct (Hp eq_refl) as [[a ->] [b ->]]. apply trunc_bounds in Hw. split; apply IZR_le; lia.
Qed.

(** With a linear scale the values drawn fill the interval from [lo] to [lo + hi]. *)
Theorem linear_draw lo hi c u : make_numeric lo hi false false = Ok c -> 0 <= u < 1 ->
  rvs c u = (if Rlt_dec hi 0 then Err ValueError else Ok (lo + hi * u)).
Proof.
  intros Hm Hu. apply made_ok in Hm. destruct Hm as (_ & _ & ->). unfold rvs, draw. cbn [distribution to_int].
  destruct (Rlt_dec hi 0); reflexivity.
Qed.

Theorem linear_draw_in_bounds_iff lo hi c : make_numeric lo hi false false = Ok c -> lo < hi ->
  ((forall u, 0 <= u < 1 -> exists x, rvs c u = Ok x /\ within lo hi x) <-> lo <= 0 <= hi).
Proof.
  intros Hm Hlt. split.
  - intros Hall. assert (Hhi : 0 <= hi).
    { destruct (Hall 0 ltac:(lra)) as (x & E & _). rewrite (linear_draw lo hi c 0 Hm) in E; [|lra].
      destruct (Rlt_dec hi 0); [discriminate|lra]. }
    split; [|exact Hhi]. destruct (Rle_lt_dec lo 0) as [Hle|Hgt]; [exact Hle|]. exfalso.
    assert (Hpos : 0 < hi) by lra.
    set (u := 1 - lo / (2 * hi)).
    assert (Hq : 0 < lo / (2 * hi) < 1).
    { split; [apply Rdiv_lt_0_compat; lra|]. apply Rmult_lt_reg_r with (2 * hi); [lra|].
      unfold Rdiv. rewrite Rmult_assoc, Rinv_l; lra. }
    destruct (Hall u) as (x & E & [_ Hx]); [unfold u; lra|].
    rewrite (linear_draw lo hi c u Hm) in E; [|unfold u; lra].
    destruct (Rlt_dec hi 0); [lra|]. injection E as <-. unfold u in Hx.
    assert (E2 : hi * (1 - lo / (2 * hi)) = hi - lo / 2) by (field; lra). rewrite E2 in Hx. lra.
  - intros [Hlo Hhi] u Hu. rewrite (linear_draw lo hi c u Hm Hu). destruct (Rlt_dec hi 0); [exfalso; lra|].
    eexists. split; [reflexivity|]. split; nra.
Qed.

(** Values of the range that are never drawn: all those above [lo + hi]. *)
Theorem linear_draw_misses lo hi c : make_numeric lo hi false false = Ok c -> lo < 0 -> 0 <= hi ->
  forall y, lo + hi <= y -> within lo hi y -> hi > 0 -> forall u, 0 <= u < 1 -> rvs c u <> Ok y.
Proof.
  intros Hm Hlo Hhi y Hy Hw Hp u Hu E. rewrite (linear_draw lo hi c u Hm Hu) in E.
  destruct (Rlt_dec hi 0); [discriminate|]. injection E as E. nra.
Qed.

(** ** Grids *)
Lemma linspace_nth lo hi n i : (i < n)%nat -> nth_error (linspace lo hi n) i =
  Some (if Nat.eqb n 1 then lo else lo + INR i * (hi - lo) / INR (n - 1)).
Proof.
  intros Hi. unfold linspace. rewrite nth_error_map.
  assert (E : nth_error (seq 0 n) i = Some i).
  { rewrite (nth_error_nth' _ 0%nat); [|rewrite seq_length; exact Hi]. rewrite seq_nth; [reflexivity|exact Hi]. }
  rewrite E. reflexivity.
Qed.

Lemma step_frac n i : (1 < n)%nat -> (i < n)%nat -> 0 <= INR i / INR (n - 1) <= 1.
Proof.
  intros Hn Hi. assert (H1 : 0 < INR (n - 1)) by (apply lt_0_INR; lia).
  assert (H2 : INR i <= INR (n - 1)) by (apply le_INR; lia). pose proof (pos_INR i).
  split.
  - unfold Rdiv. apply Rmult_le_pos; [assumption|]. left. apply Rinv_0_lt_compat. assumption.
  - apply Rmult_le_reg_r with (INR (n - 1)); [assumption|]. unfold Rdiv. rewrite Rmult_assoc, Rinv_l; lra.
Qed.

Lemma linspace_within lo hi n : lo <= hi -> Forall (within lo hi) (linspace lo hi n).
Proof.
  intros Hle. apply Forall_forall. intros x Hx. unfold linspace in Hx. apply in_map_iff in Hx.
  destruct Hx as (i & <- & Hi). apply in_seq in Hi. destruct (Nat.eqb n 1) eqn:En.
  - unfold within. lra.
  - apply Nat.eqb_neq in En. pose proof (step_frac n i ltac:(lia) ltac:(lia)) as Hs.
    replace (INR i * (hi - lo) / INR (n - 1)) with (INR i / INR (n - 1) * (hi - lo)) by (unfold Rdiv; ring).
    unfold within. nra.
Qed.

Lemma linspace_sorted lo hi n : lo < hi -> StronglySorted Rlt (linspace lo hi n).
Proof.
  intros Hlt. unfold linspace. destruct (Nat.eqb n 1) eqn:En.
  - apply Nat.eqb_eq in En. subst. cbn. repeat constructor.
  - apply Nat.eqb_neq in En.
    destruct n as [|n]; [constructor|].
    assert (H1 : 0 < INR (S n - 1)) by (apply lt_0_INR; lia).
    set (D := INR (S n - 1)) in *. clearbody D. generalize (S n). intros k. generalize 0%nat. revert k.
    induction k as [|k IH]; intros a; cbn [seq map]; constructor; auto.
    apply Forall_forall. intros x Hx. apply in_map_iff in Hx. destruct Hx as (i & <- & Hi). apply in_seq in Hi.
    assert (H2 : INR a < INR i) by (apply lt_INR; lia). unfold Rdiv.
    assert (0 < / D) by (apply Rinv_0_lt_compat; exact H1).
    apply Rplus_lt_compat_l. apply Rmult_lt_compat_r; [assumption|]. apply Rmult_lt_compat_r; [lra|exact H2].
Qed.

Lemma linspace_hd lo hi n : (1 <= n)%nat -> hd_error (linspace lo hi n) = Some lo.
Proof.
  intros Hn. destruct n as [|n]; [lia|]. unfold linspace. cbn [seq map hd_error]. f_equal.
  destruct (Nat.eqb (S n) 1); [reflexivity|]. cbn [INR]. unfold Rdiv. ring.
Qed.

Lemma linspace_last lo hi n : (2 <= n)%nat -> In hi (linspace lo hi n).
Proof.
  intros Hn. unfold linspace. apply in_map_iff. exists (n - 1)%nat. split; [|apply in_seq; lia].
  destruct (Nat.eqb n 1) eqn:En; [apply Nat.eqb_eq in En; lia|].
  assert (0 < INR (n - 1)) by (apply lt_0_INR; lia). field. lra.
Qed.

Lemma SS_map_exp l : StronglySorted Rlt l -> StronglySorted Rlt (map exp l).
Proof.
  intros Hs. induction Hs as [|x l Hs IH Hx]; cbn; constructor; auto.
  apply Forall_forall. intros y Hy. apply in_map_iff in Hy. destruct Hy as (z & <- & Hz).
  apply exp_increasing. rewrite Forall_forall in Hx. auto.
Qed.

Lemma zinsert_in z l x : In x (zinsert z l) <-> x = z \/ In x l.
Proof.
  induction l as [|y l IH]; cbn.
  - intuition.
  - destruct (Z.compare_spec z y) as [-> |Hlt|Hgt]; cbn; [intuition|intuition|]. rewrite IH. intuition.
Qed.

Lemma zinsert_sorted z l : StronglySorted Z.lt l -> StronglySorted Z.lt (zinsert z l).
Proof.
  intros Hs. induction Hs as [|y l Hs IH Hy]; cbn; [repeat constructor|].
  destruct (Z.compare_spec z y) as [-> |Hlt|Hgt].
  - constructor; assumption.
  - constructor; [constructor; assumption|]. constructor; [exact Hlt|]. eapply Forall_impl; [|exact Hy]. intros; lia.
  - constructor; [exact IH|]. apply Forall_forall. intros x Hx. apply zinsert_in in Hx. destruct Hx as [-> |Hx]; [lia|].
    rewrite Forall_forall in Hy. auto.
Qed.

Lemma np_unique_in l x : In x (np_unique l) <-> In x l.
Proof. induction l as [|y l IH]; cbn; [tauto|]. rewrite zinsert_in, IH. intuition. Qed.

Lemma np_unique_sorted l : StronglySorted Z.lt (np_unique l).
Proof. induction l as [|y l IH]; cbn; [constructor|]. apply zinsert_sorted. exact IH. Qed.

Lemma sorted_hd l a : StronglySorted Z.lt l -> In a l -> (forall x, In x l -> (a <= x)%Z) -> hd_error l = Some a.
Proof.
  intros Hs Hin Hmin. destruct l as [|y l]; [destruct Hin|]. cbn. f_equal. inversion Hs as [|? ? _ Hy]; subst.
  destruct Hin as [-> |Hin]; [reflexivity|]. rewrite Forall_forall in Hy. specialize (Hy a Hin).
  specialize (Hmin y (or_introl eq_refl)). lia.
Qed.

Theorem grid_spec lo hi n lg ti g : proper_bounds lo hi ti -> make_grid lo hi n lg ti = Ok g ->
  Forall (within lo hi) g /\ hd_error g = Some lo /\
  ((2 <= n)%Z -> In hi g) /\
  (lo < hi -> StronglySorted Rlt g) /\
  (ti = true -> Forall integral g) /\
  (length g <= Z.to_nat n)%nat /\ (ti = false -> length g = Z.to_nat n).
Proof.
  intros Hp. unfold make_grid. destruct (check_bounds lo hi lg) as [[]|e] eqn:E; [|discriminate].
  apply check_bounds_ok in E. destruct E as [Hle Hpos]. cbn [bind].
  destruct (n <? 1)%Z eqn:En; [discriminate|]. apply Z.ltb_ge in En. cbn zeta.
  assert (Hn1 : (1 <= Z.to_nat n)%nat) by lia.
  set (base := if lg then map exp (linspace (if lg then ln lo else lo) (if lg then ln hi else hi) (Z.to_nat n))
               else linspace (if lg then ln lo else lo) (if lg then ln hi else hi) (Z.to_nat n)).
  assert (Hlen : length base = Z.to_nat n).
  { unfold base. destruct lg; unfold linspace; rewrite ?map_length, seq_length; reflexivity. }
  assert (HB : Forall (within lo hi) base /\ hd_error base = Some lo /\ ((2 <= n)%Z -> In hi base) /\
               (lo < hi -> StronglySorted Rlt base)).
  { unfold base. destruct lg.
    - specialize (Hpos eq_refl). pose proof (ln_le lo hi Hpos Hle) as Hln.
      split; [|split; [|split]].
      + apply Forall_forall. intros x Hx. apply in_map_iff in Hx. destruct Hx as (y & <- & Hy).
        pose proof (linspace_within (ln lo) (ln hi) (Z.to_nat n) Hln) as Hw. rewrite Forall_forall in Hw.
        apply exp_within; auto. exact (Hw y Hy).
      + pose proof (linspace_hd (ln lo) (ln hi) (Z.to_nat n) Hn1) as Hh.
        destruct (linspace (ln lo) (ln hi) (Z.to_nat n)); [discriminate|]. cbn in *. injection Hh as ->. rewrite exp_ln; auto.
      + intros H2. rewrite <- (exp_ln hi); [|lra]. apply in_map. rewrite exp_ln; [|lra]. apply linspace_last. lia.
      + intros Hlt. apply SS_map_exp. apply linspace_sorted. apply ln_increasing; assumption.
    - split; [apply linspace_within; exact Hle|]. split; [apply linspace_hd; exact Hn1|].
      split; [intros; apply linspace_last; lia|]. intros; apply linspace_sorted; assumption. }
  destruct HB as (B1 & B2 & B3 & B4). intros Eg.
  change (Ok (if ti then map IZR (np_unique (map round_even base)) else base) = Ok g) in Eg.
  injection Eg as <-. destruct ti.
  - destruct (Hp eq_refl) as [[a Ea] [b Eb]].
    assert (Hall : forall x, In x (np_unique (map round_even base)) -> (a <= x <= b)%Z).
    { intros x Hx. apply (proj1 (np_unique_in _ _)) in Hx. apply in_map_iff in Hx. destruct Hx as (y & <- & Hy).
      rewrite Forall_forall in B1. destruct (B1 y Hy) as [H1 H2]. rewrite Ea in H1. rewrite Eb in H2.
      apply round_even_mono in H1, H2. rewrite round_even_int in *. lia. }
    split; [|split; [|split; [|split; [|split; [|split]]]]].
    + apply Forall_forall. intros x Hx. apply in_map_iff in Hx. destruct Hx as (z & <- & Hz). specialize (Hall z Hz).
      rewrite Ea, Eb. split; apply IZR_le; lia.
    + assert (Hh : hd_error (np_unique (map round_even base)) = Some a).
      { apply sorted_hd; [apply np_unique_sorted| |intros x Hx; apply Hall; exact Hx].
        apply np_unique_in. destruct base as [|x base']; [discriminate|]. cbn in B2. injection B2 as ->. left.
        rewrite Ea. apply round_even_int. }
      destruct (np_unique (map round_even base)); [discriminate|]. cbn in *. injection Hh as ->. rewrite Ea. reflexivity.
    + intros H2. specialize (B3 H2). rewrite Eb. apply in_map. apply np_unique_in.
      apply in_map_iff. exists hi. split; [rewrite Eb; apply round_even_int|exact B3].
    + intros _. pose proof (np_unique_sorted (map round_even base)) as Hs.
      induction Hs as [|z l Hs IH Hz]; cbn; constructor.
      * apply IH. intros x Hx. apply Hall. right. exact Hx.
      * apply Forall_forall. intros x Hx. apply in_map_iff in Hx. destruct Hx as (w & <- & Hw).
        apply IZR_lt. rewrite Forall_forall in Hz. auto.
    + intros _. apply Forall_forall. intros x Hx. apply in_map_iff in Hx. destruct Hx as (z & <- & _). exists z. reflexivity.
    + rewrite map_length. rewrite <- Hlen, <- (map_length round_even base).
      generalize (map round_even base). intros l. apply NoDup_incl_length.
      * pose proof (np_unique_sorted l) as Hs. induction Hs as [|z l' Hs IH Hz]; constructor; auto.
        intros Hin. rewrite Forall_forall in Hz. specialize (Hz z Hin). lia.
      * intros x Hx. apply (proj1 (np_unique_in _ _)). exact Hx.
    + discriminate.
  - repeat split; auto; try discriminate. rewrite Hlen. apply Nat.le_refl.
Qed.

Theorem grid_default_spec lo hi n lg ti g : proper_bounds lo hi ti -> make_grid lo hi n lg ti = Ok g ->
  (exists x, grid_default g = Ok x /\ In x g) /\
  forall i, (i < length g)%nat -> exists x, grid_rvs g i = Ok x /\ In x g.
Proof.
  intros Hp Hg. destruct (grid_spec lo hi n lg ti g Hp Hg) as (_ & Hh & _).
  assert (Hlen : (0 < length g)%nat) by (destruct g; [discriminate|cbn; lia]).
  assert (Hnth : forall i, (i < length g)%nat -> exists x, nth_error g i = Some x /\ In x g).
  { intros i Hi. destruct (nth_error g i) as [x|] eqn:E.
    - exists x. split; [reflexivity|]. eapply nth_error_In; eauto.
    - apply nth_error_None in E. lia. }
  split.
  - unfold grid_default. destruct (Hnth ((length g - 1) / 2)%nat) as (x & -> & Hx); [|eauto].
    apply Nat.le_lt_trans with (length g - 1)%nat; [|lia]. apply Nat.div_le_upper_bound; lia.
  - intros i Hi. unfold grid_rvs. destruct (Hnth i Hi) as (x & -> & Hx). eauto.
Qed.
