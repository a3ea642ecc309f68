(** Histograms of numeric columns: [_get_range] and [_robust_hist] (/repo/skrub/_reporting/_plotting.py 174-232), and [duration_to_numeric]
    (/repo/skrub/_reporting/_utils.py 117-133). Numbers are exact rationals; infinite values and rounding are not modelled. *)
From Coq Require Import QArith Qround Qabs.
From Verif Require Import Base M_labels.
Open Scope string_scope.
Open Scope list_scope.
Open Scope nat_scope.

Definition qltb (x y : Q) : bool := negb (Qle_bool y x).
Fixpoint insert (x : Q) (l : list Q) : list Q :=
  match l with [] => [x] | y :: l' => if Qle_bool x y then x :: l else y :: insert x l' end.
Fixpoint sort (l : list Q) : list Q := match l with [] => [] | x :: l' => insert x (sort l') end.
Definition get (s : list Q) (i : nat) : res Q := match nth_error s i with Some x => Ok x | None => Err IndexError end.
Definition of_nat (n : nat) : Q := inject_Z (Z.of_nat n).
(** [np.quantile(values, q)] with the default method "linear" *)
Definition quantile (values : list Q) (q : Q) : res Q :=
  let s := sort values in
  let n := length s in
  let v := (q * of_nat (n - 1))%Q in
  let i := Z.to_nat (Qfloor v) in
  let g := (v - inject_Z (Qfloor v))%Q in
  let! a := get s i in
  let! b := get s (Nat.min (i + 1) (n - 1)) in
  Ok (a + g * (b - a))%Q.

(** [_get_range], 174-192, with [frac=0.2] and [factor=3.0] *)
Definition get_range (values : list Q) : res (Q * Q) :=
  let frac := (1 # 5)%Q in
  let factor := 3%Q in
  let! min_value := quantile values 0 in
  let! low_p := quantile values frac in
  let! high_p := quantile values (1 - frac) in
  let! max_value := quantile values 1 in
  let delta := (high_p - low_p)%Q in
  if Qeq_bool delta 0 then Ok (min_value, max_value)
  else
    let margin := (factor * delta)%Q in
    let low := (low_p - margin)%Q in
    let high := (high_p + margin)%Q in
    let low := if qltb (low - margin * (15 # 100)) min_value then min_value else low in
    let high := if qltb max_value (high + margin * (15 # 100)) then max_value else high in
    Ok (low, high).

(** [ax.hist(inliers)]: the 10 bars of [np.histogram]; the last one contains its right edge *)
Definition hist_range (l : list Q) : Q * Q :=
  match sort l with
  | [] => (0, 1)%Q
  | lo :: s => let hi := last s lo in if Qeq_bool lo hi then (lo - (1 # 2), hi + (1 # 2))%Q else (lo, hi)
  end.
Definition edge (r : Q * Q) (k : nat) : Q := (fst r + of_nat k * ((snd r - fst r) / 10))%Q.
Definition bar (l : list Q) (r : Q * Q) (k : nat) : nat :=
  length (filter (fun x => Qle_bool (edge r k) x && (if k =? 9 then Qle_bool x (edge r (k + 1)) else qltb x (edge r (k + 1)))) l).
Definition bars (l : list Q) : list nat := map (bar l (hist_range l)) (seq 0 10).

Record drawing : Type := { d_bars : list nat; d_range : Q * Q; d_low : option nat; d_high : option nat; d_text : option (nat * percent) }.
(** [_robust_hist], 195-232: the drawing, and the numbers of outliers. [d_low], [d_high]: the red bars; [d_text]: the number and proportion of outliers *)
Definition robust_hist (values : list Q) : res (drawing * (nat * nat)) :=
  let! (low, high) := get_range values in
  let inliers := filter (fun x => Qle_bool low x && Qle_bool x high) values in
  let n_low := length (filter (fun x => qltb x low) values) in
  let n_high := length (filter (fun x => qltb high x) values) in
  let n_out := n_low + n_high in
  let d lo hi t := {| d_bars := bars inliers; d_range := hist_range inliers; d_low := lo; d_high := hi; d_text := t |} in
  if n_out =? 0 then Ok (d None None None, (0, 0))
  else Ok (d (if n_low =? 0 then None else Some n_low) (if n_high =? 0 then None else Some n_high)
             (Some (n_out, format_percent (of_nat n_out / of_nat (length values)))), (n_low, n_high)).

(** ** Durations *)
Inductive unit_of_time : Type := Microsecond | Millisecond | Second | Hour | Day | Year.
(** seconds in a unit, and the quantile under which the unit is used, _utils.py 120-133 *)
Definition seconds_in (u : unit_of_time) : Q :=
  match u with Microsecond => 1 # 1000000 | Millisecond => 1 # 1000 | Second => 1 | Hour => 3600 | Day => 86400 | Year => 86400 * (3652425 # 10000) end.
(** [duration_to_numeric] of a column of numbers of seconds without nulls; [quantile9]: [sbd.quantile(_, 0.9)], whose interpolation depends on the library *)
Definition duration_to_numeric (quantile9 : list Q -> res Q) (seconds : list Q) : res (list Q * unit_of_time) :=
  let! q := quantile9 (map Qabs seconds) in
  let hour := 3600%Q in
  let day := (hour * 24)%Q in
  let year := (day * (3652425 # 10000))%Q in
  if qltb q (1 # 1000) then Ok (map (fun s => s * 1000000)%Q seconds, Microsecond)
  else if qltb q 1 then Ok (map (fun s => s * 1000)%Q seconds, Millisecond)
  else if qltb q hour then Ok (seconds, Second)
  else if qltb q day then Ok (map (fun s => s / hour)%Q seconds, Hour)
  else if qltb q year then Ok (map (fun s => s / day)%Q seconds, Day)
  else Ok (map (fun s => s / year)%Q seconds, Year).
