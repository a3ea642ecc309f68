(** Property C34: numeric choices and their bounds. Numbers are real numbers. *)
From Coq Require Import Reals Lra Sorted.
From Verif Require Import Base M_numeric L_numeric.
Open Scope list_scope.
Open Scope nat_scope.
Open Scope R_scope.

(** Bounds are checked. *)
Theorem C34_bounds_checked : forall lo hi lg, check_bounds lo hi lg = Ok tt <-> lo <= hi /\ (lg = true -> 0 < lo).
Proof. exact check_bounds_ok. Qed.
Print Assumptions C34_bounds_checked.

(** The default value is within the bounds. *)
Theorem C34_default_within_bounds : forall lo hi lg ti c,
  proper_bounds lo hi ti -> make_numeric lo hi lg ti = Ok c -> within lo hi (numeric_default c).
Proof. exact default_within. Qed.
Print Assumptions C34_default_within_bounds.

(** The values of a stepped range are within the bounds, increasing, from the lowest to the
    highest; they are integers for [choose_int]. *)
Theorem C34_grid_within_bounds : forall lo hi n lg ti g,
  proper_bounds lo hi ti -> make_grid lo hi n lg ti = Ok g ->
  Forall (within lo hi) g /\ hd_error g = Some lo /\
  ((2 <= n)%Z -> In hi g) /\
  (lo < hi -> StronglySorted Rlt g) /\
  (ti = true -> Forall integral g) /\
  (length g <= Z.to_nat n)%nat /\ (ti = false -> length g = Z.to_nat n).
Proof. exact grid_spec. Qed.
Print Assumptions C34_grid_within_bounds.

(** Its default and the values drawn from it are some of them. *)
Theorem C34_grid_draws : forall lo hi n lg ti g,
  proper_bounds lo hi ti -> make_grid lo hi n lg ti = Ok g ->
  (exists x, grid_default g = Ok x /\ In x g) /\
  forall i, (i < length g)%nat -> exists x, grid_rvs g i = Ok x /\ In x g.
Proof. exact grid_default_spec. Qed.
Print Assumptions C34_grid_draws.

(** Values drawn from a continuous range with a log scale are within the bounds. *)
Theorem C34_log_draws_within_bounds : forall lo hi ti c u,
  lo < hi -> proper_bounds lo hi ti -> 0 <= u < 1 ->
  make_numeric lo hi true ti = Ok c -> exists x, rvs c u = Ok x /\ within lo hi x.
Proof. exact log_draw_within. Qed.
Print Assumptions C34_log_draws_within_bounds.

(** Values drawn with a linear scale may not be: they stay in the bounds exactly if 0 is
    between the bounds. *)
Theorem C34_draws_within_bounds_refuted : exists lo hi c u x,
  lo < hi /\ make_numeric lo hi false false = Ok c /\ 0 <= u < 1 /\ rvs c u = Ok x /\ ~ within lo hi x.
Proof.
  exists 1, 2, (mk_num 1 2 false false (Uniform 1 2)), (9/10), (1 + 2 * (9/10)).
  assert (E : make_numeric 1 2 false false = Ok (mk_num 1 2 false false (Uniform 1 2))).
  { unfold make_numeric. replace (check_bounds 1 2 false) with (@Ok unit tt); [reflexivity|].
    symmetry. apply check_bounds_ok. split; [lra|discriminate]. }
  split; [lra|]. split; [exact E|]. split; [lra|]. split; [|unfold within; lra].
  rewrite (linear_draw 1 2 _ _ E); [|lra]. destruct (Rlt_dec 2 0); [exfalso; lra|reflexivity].
Qed.
Print Assumptions C34_draws_within_bounds_refuted.

Theorem C34_linear_draws_partial : forall lo hi c,
  make_numeric lo hi false false = Ok c -> lo < hi ->
  ((forall u, 0 <= u < 1 -> exists x, rvs c u = Ok x /\ within lo hi x) <-> lo <= 0 <= hi).
Proof. exact linear_draw_in_bounds_iff. Qed.
Print Assumptions C34_linear_draws_partial.

(** Even then, when the lower bound is negative, the highest values are never drawn. *)
Theorem C34_linear_draws_miss_values : forall lo hi c,
  make_numeric lo hi false false = Ok c -> lo < 0 -> 0 <= hi ->
  forall y, lo + hi <= y -> within lo hi y -> hi > 0 -> forall u, 0 <= u < 1 -> rvs c u <> Ok y.
Proof. exact linear_draw_misses. Qed.
Print Assumptions C34_linear_draws_miss_values.

(** [choose_int(1, 4)] has default 2 (2.5 is rounded to an even number); [choose_int(1, 4,
    n_steps=2)] has the values 1 and 4. *)
Example C34_example : proper_bounds 1 4 true /\
  (exists c, make_numeric 1 4 false true = Ok c /\ numeric_default c = 2) /\
  make_grid 1 4 2 false true = Ok [1; 4] /\ make_grid 4 1 2 false true = Err ValueError /\
  make_grid 0 1 2 true true = Err ValueError /\ make_grid 1 4 0 false true = Err ValueError.
Proof.
  assert (E : check_bounds 1 4 false = Ok tt) by (apply check_bounds_ok; split; [lra|discriminate]).
  split; [intros _; split; [exists 1%Z|exists 4%Z]; reflexivity|].
  split; [|split; [|split; [|split]]].
  - unfold make_numeric. rewrite E. cbn [bind]. eexists. split; [reflexivity|].
    unfold numeric_default. cbn [low high log to_int]. f_equal. unfold round_even.
    assert (Ei : Int_part ((1 + 4) / 2 + / 2) = 3%Z) by (apply Int_part_unique; lra). rewrite Ei.
    destruct (Req_EM_T ((1 + 4) / 2 + / 2) 3) as [_|n]; [reflexivity|exfalso; apply n; lra].
  - unfold make_grid. rewrite E. cbn [bind Z.ltb Z.compare Pos.compare Pos.compare_cont].
    unfold linspace. change (Z.to_nat 2) with 2%nat. cbn [seq map Nat.eqb Nat.sub INR].
    replace (1 + 0 * (4 - 1) / 1) with 1 by field. replace (1 + 1 * (4 - 1) / 1) with 4 by field.
    rewrite (round_even_int 1), (round_even_int 4). reflexivity.
  - unfold make_grid, check_bounds. destruct (Rlt_dec 1 4); [reflexivity|exfalso; lra].
  - unfold make_grid, check_bounds. destruct (Rlt_dec 1 0); [reflexivity|]. destruct (Rle_dec 0 0); [reflexivity|exfalso; lra].
  - unfold make_grid. rewrite E. reflexivity.
Qed.
