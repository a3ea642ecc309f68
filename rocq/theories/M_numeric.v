(** Numeric choices, /repo/skrub/_expressions/_choosing.py lines 471-596.
    Floating point numbers are modelled as real numbers: rounding errors are not modelled. *)
From Coq Require Import Reals.
From Verif Require Import Base.
Open Scope list_scope.
Open Scope nat_scope.
Open Scope R_scope.

(** [_check_bounds], lines 471-477 *)
Definition check_bounds (low high : R) (log : bool) : res unit :=
  if Rlt_dec high low then Err ValueError
  else if log then (if Rle_dec low 0 then Err ValueError else Ok tt)
  else Ok tt.

(** [scipy.stats.uniform(loc, scale)] and [scipy.stats.loguniform(a, b)]. *)
Inductive distrib : Type := Uniform (loc scale : R) | LogUniform (a b : R).

(** [distrib.rvs()]; [u] is the draw of the generator, in [0, 1). The arguments of the
    distribution are checked when it is used. *)
Definition draw (d : distrib) (u : R) : res R :=
  match d with
  | Uniform loc scale => if Rlt_dec scale 0 then Err ValueError else Ok (loc + scale * u)
  | LogUniform a b =>
      if Rlt_dec 0 a then
        if Rlt_dec a b then Ok (exp (ln a + u * (ln b - ln a))) else Err ValueError
      else Err ValueError
  end.

(** [.astype(int)]: truncation towards 0. *)
Definition trunc (x : R) : Z := if Rlt_dec x 0 then (- Int_part (- x))%Z else Int_part x.

(** [np.round]: to the nearest integer, to the even one if there are two. *)
Definition round_even (x : R) : Z :=
  let n := Int_part (x + / 2) in
  if Req_EM_T (x + / 2) (IZR n) then (if Z.odd n then (n - 1)%Z else n) else n.

Record numeric_choice : Type := mk_num {
  low : R; high : R; log : bool; to_int : bool; distribution : distrib
}.

(** [NumericChoice.__post_init__], lines 521-527 *)
Definition make_numeric (lo hi : R) (lg ti : bool) : res numeric_choice :=
  let! _ := check_bounds lo hi lg in
  Ok (mk_num lo hi lg ti (if lg then LogUniform lo hi else Uniform lo hi)).

(** [NumericChoice.rvs], lines 529-533 *)
Definition rvs (c : numeric_choice) (u : R) : res R :=
  let! value := draw (distribution c) u in
  Ok (if to_int c then IZR (trunc value) else value).

(** [NumericChoice.default], lines 535-544 *)
Definition numeric_default (c : numeric_choice) : R :=
  let lo := if log c then ln (low c) else low c in
  let hi := if log c then ln (high c) else high c in
  let midpoint := (lo + hi) / 2 in
  let midpoint := if log c then exp midpoint else midpoint in
  if to_int c then IZR (round_even midpoint) else midpoint.

(** [np.linspace(lo, hi, n)] *)
Definition linspace (lo hi : R) (n : nat) : list R :=
  map (fun i => if Nat.eqb n 1 then lo else lo + INR i * (hi - lo) / INR (n - 1)) (seq 0 n).

(** [np.unique]: the distinct values, sorted. *)
Fixpoint zinsert (z : Z) (l : list Z) : list Z :=
  match l with
  | [] => [z]
  | x :: l' => match Z.compare z x with Lt => z :: l | Eq => l | Gt => x :: zinsert z l' end
  end.
Definition np_unique (l : list Z) : list Z := fold_right zinsert [] l.

(** [DiscretizedNumericChoice.__post_init__], lines 562-576: the grid. *)
Definition make_grid (lo hi : R) (n_steps : Z) (lg ti : bool) : res (list R) :=
  let! _ := check_bounds lo hi lg in
  if (n_steps <? 1)%Z then Err ValueError
  else
    let l := if lg then ln lo else lo in
    let h := if lg then ln hi else hi in
    let grid := linspace l h (Z.to_nat n_steps) in
    let grid := if lg then map exp grid else grid in
    Ok (if ti then map IZR (np_unique (map round_even grid)) else grid).

(** [DiscretizedNumericChoice.default], lines 582-583 *)
Definition grid_default (grid : list R) : res R :=
  match nth_error grid ((length grid - 1) / 2)%nat with Some x => Ok x | None => Err IndexError end.

(** [DiscretizedNumericChoice.rvs], lines 578-580: an entry of the grid; [i] is the random
    index. *)
Definition grid_rvs (grid : list R) (i : nat) : res R :=
  match nth_error grid i with Some x => Ok x | None => Err ValueError end.
