(** The plots of a report, /repo/skrub/_reporting/_plotting.py. *)
From Verif Require Import Base.
From Coq Require Import QArith Qround.
Open Scope string_scope.
Open Scope list_scope.
Open Scope nat_scope.

(** ** The settings of matplotlib, lines 45-71 *)
Definition TEXT_COLOR : string := "#123456".
Definition BACKGROUND_COLOR : string := "#654321".
(** [params] in [plot_with_config], line 97, with [_MATPLOTLIB_RC_PARAMS], lines 52-71. *)
Definition PLOT_PARAMS : dict string string :=
  [("svg.fonttype", "none"); ("lines.color", TEXT_COLOR); ("patch.edgecolor", TEXT_COLOR); ("text.color", TEXT_COLOR);
   ("axes.facecolor", BACKGROUND_COLOR); ("axes.edgecolor", TEXT_COLOR); ("axes.labelcolor", TEXT_COLOR);
   ("xtick.color", TEXT_COLOR); ("ytick.color", TEXT_COLOR); ("grid.color", TEXT_COLOR);
   ("figure.facecolor", BACKGROUND_COLOR); ("figure.edgecolor", BACKGROUND_COLOR);
   ("savefig.facecolor", BACKGROUND_COLOR); ("savefig.edgecolor", BACKGROUND_COLOR);
   ("boxplot.boxprops.color", TEXT_COLOR); ("boxplot.capprops.color", TEXT_COLOR);
   ("boxplot.flierprops.color", TEXT_COLOR); ("boxplot.flierprops.markeredgecolor", TEXT_COLOR);
   ("boxplot.whiskerprops.color", TEXT_COLOR)].

Section Plot.
  (** Values of settings; results of plotting functions. *)
  Context {val A : Type}.
  Definition rc_params : Type := dict string val.
  (** [RcParams.__setitem__]: a setting is checked and converted, or rejected. *)
  Variable validate : string -> val -> res val.
  Definition set_param (rc : rc_params) (k : string) (v : val) : res rc_params :=
    let! v' := validate k v in Ok (dset k v' rc).
  (** [for k, v in ...items(): plt.rcParams[k] = v]: the settings after the loop or at its failure. *)
  Fixpoint set_params (rc : rc_params) (kvs : list (string * val)) : rc_params * option exn :=
    match kvs with
    | [] => (rc, None)
    | (k, v) :: kvs' => match set_param rc k v with
                        | Ok rc' => set_params rc' kvs'
                        | Err e => (rc, Some e)
                        end
    end.
  (** [plot_with_config], 81-115; a plotting function can do anything to the settings. *)
  Definition plot (params : rc_params) (plotting_fun : rc_params -> rc_params * res A) (rc : rc_params) : rc_params * res A :=
    match mapM (fun k => match dget k rc with Some v => Ok (k, v) | None => Err KeyError end) (dkeys params) with
    | Err e => (rc, Err e)
    | Ok original_params =>
        let (rc1, failure) := set_params rc params in
        let (rc2, r) := match failure with Some e => (rc1, Err e) | None => plotting_fun rc1 end in
        let (rc3, failure') := set_params rc2 original_params in
        (rc3, match failure' with Some e => Err e | None => r end)
    end.
End Plot.
Arguments rc_params : clear implicits.

(** ** Histograms, lines 174-201 *)
(** Floats: exact rationals, infinities and NaN. *)
Inductive fl : Type := Fl (q : Q) | PInf | NInf | NaN.
Definition sign (q : Q) : fl := if Qeq_bool q 0 then NaN else if Qle_bool q 0 then NInf else PInf.
Definition fneg (x : fl) : fl := match x with Fl q => Fl (- q) | PInf => NInf | NInf => PInf | NaN => NaN end.
Definition fadd (x y : fl) : fl :=
  match x, y with
  | Fl a, Fl b => Fl (a + b)
  | NaN, _ | _, NaN => NaN
  | PInf, NInf | NInf, PInf => NaN
  | PInf, _ | _, PInf => PInf
  | NInf, _ | _, NInf => NInf
  end.
Definition fsub (x y : fl) : fl := fadd x (fneg y).
(** Multiplication by a finite number; infinity times zero is NaN. *)
Definition fscale (c : Q) (x : fl) : fl :=
  match x with
  | Fl a => Fl (c * a)
  | NaN => NaN
  | PInf => sign c
  | NInf => fneg (sign c)
  end.
Definition fle (x y : fl) : bool :=
  match x, y with
  | NaN, _ | _, NaN => false
  | Fl a, Fl b => Qle_bool a b
  | NInf, _ | _, PInf => true
  | _, _ => false
  end.
Definition feq (x y : fl) : bool := fle x y && fle y x.
Definition flt (x y : fl) : bool := fle x y && negb (fle y x).
Definition is_nan (x : fl) : bool := match x with NaN => true | _ => false end.

(** [np.quantile(values, q)] with linear interpolation ([_lerp] of numpy); NaN if there is one. *)
Fixpoint finsert (x : fl) (l : list fl) : list fl :=
  match l with [] => [x] | y :: l' => if fle x y then x :: l else y :: finsert x l' end.
Definition fsort (l : list fl) : list fl := fold_right finsert [] l.
Definition lerp (a b : fl) (t : Q) : fl :=
  if Qle_bool (1 # 2) t then fsub b (fscale (1 - t) (fsub b a)) else fadd a (fscale t (fsub b a)).
Definition quantile (values : list fl) (q : Q) : res fl :=
  match values with
  | [] => Err IndexError
  | _ =>
      if existsb is_nan values then Ok NaN
      else
        let s := fsort values in
        let v := (inject_Z (Z.of_nat (length values - 1)) * q)%Q in
        let lo := Z.to_nat (Qfloor v) in
        Ok (lerp (nth lo s NaN) (nth (Nat.min (S lo) (length values - 1)) s NaN) (v - inject_Z (Qfloor v)))
  end.

(** [_get_range], 174-192, with its default parameters. *)
Definition frac : Q := (1 # 5)%Q.
Definition factor : Q := 3%Q.
Definition get_range (values : list fl) : res (fl * fl) :=
  let! min_value := quantile values 0 in
  let! low_p := quantile values frac in
  let! high_p := quantile values (1 - frac) in
  let! max_value := quantile values 1 in
  let delta := fsub high_p low_p in
  if feq delta (Fl 0) then Ok (min_value, max_value)
  else
    let margin := fscale factor delta in
    let low := fsub low_p margin in
    let high := fadd high_p margin in
    let low := if flt (fsub low (fscale (3 # 20) margin)) min_value then min_value else low in
    let high := if flt max_value (fadd high (fscale (3 # 20) margin)) then max_value else high in
    Ok (low, high).

(** [_robust_hist], 195-232: the displayed values, and the numbers of outliers that are returned. [ax.hist] fails on
    infinite values. *)
Definition count (f : fl -> bool) (l : list fl) : nat := length (filter f l).
Definition is_finite (x : fl) : bool := match x with Fl _ => true | _ => false end.
Definition robust_hist (values : list fl) : res (list fl * (nat * nat)) :=
  let! (low, high) := get_range values in
  let inliers := filter (fun v => fle low v && fle v high) values in
  let n_low_outliers := count (fun v => flt v low) values in
  let n_high_outliers := count (fun v => flt high v) values in
  if negb (forallb is_finite inliers) then Err ValueError
  else
    let n_out := n_low_outliers + n_high_outliers in
    if n_out =? 0 then Ok (inliers, (0, 0)) else Ok (inliers, (n_low_outliers, n_high_outliers)).

(** [histogram], 235-254: null values are dropped ([None] and NaN). *)
Definition histogram (col : list (option fl)) : res (list fl * (nat * nat)) :=
  robust_hist (flat_map (fun c => match c with Some v => if is_nan v then [] else [v] | None => [] end) col).
