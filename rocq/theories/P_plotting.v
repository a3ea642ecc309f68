(** C44, C45: settings of matplotlib and histograms. *)
From Verif Require Import Base M_plotting L_plotting.
From Coq Require Import QArith.
Open Scope string_scope.
Open Scope list_scope.
Open Scope nat_scope.

(** Whatever the plotting function does (raising, changing settings), the settings of skrub plots get their previous
    values back. Either the plotting function ran with these settings, and its result and its changes to other settings
    are kept; or it did not run, an error is reported and no setting has changed. *)
Theorem C44_restored : forall (val A : Type) (validate : string -> val -> res val) (params rc rc' : rc_params val)
    (plotting_fun : rc_params val -> rc_params val * res A) r,
  NoDup (dkeys params) -> Stored validate rc -> plot validate params plotting_fun rc = (rc', r) ->
  (forall k, In k (dkeys params) -> dget k rc' = dget k rc) /\
  ((exists e, r = Err e /\ forall k, dget k rc' = dget k rc) \/
   (exists rc1 rc2, plotting_fun rc1 = (rc2, r) /\
      (forall k v, In (k, v) params -> exists v', validate k v = Ok v' /\ dget k rc1 = Some v') /\
      forall k, ~ In k (dkeys params) -> dget k rc1 = dget k rc /\ dget k rc' = dget k rc2)).
Proof. exact @plot_restores. Qed.
Print Assumptions C44_restored.

(** Colors must start with '#' or be "black"; the plotting function changes a color and the font, then raises. *)
Definition C44_validate (k v : string) : res string :=
  if mem k ["svg.fonttype"; "font.size"] then Ok v
  else if String.prefix "#" v || eqb_of v "black" then Ok v else Err ValueError.
Definition C44_rc : rc_params string := ("font.size", "10") :: map (fun kv => (fst kv, if eqb_of (fst kv) "svg.fonttype" then "path" else "black")) PLOT_PARAMS.
Definition C44_fun (rc : rc_params string) : rc_params string * res nat := (dset "font.size" "12" (dset "text.color" "#ff0000" rc), Err ZeroDivisionError).
Definition nodupb (l : list string) : bool := if ListDec.NoDup_dec string_dec l then true else false.
Example C44_restored_ex :
  NoDup (dkeys PLOT_PARAMS) /\ Stored C44_validate C44_rc /\
  let rc' := fst (plot C44_validate PLOT_PARAMS C44_fun C44_rc) in
  snd (plot C44_validate PLOT_PARAMS C44_fun C44_rc) = Err ZeroDivisionError /\ dget "text.color" rc' = Some "black" /\
  dget "svg.fonttype" rc' = Some "path" /\ dget "font.size" rc' = Some "12" /\
  dget "text.color" (fst (set_params C44_validate C44_rc PLOT_PARAMS)) = Some "#123456".
Proof.
  split; [repeat (constructor; [vm_compute; intuition discriminate|]); constructor|].
  split.
  - intros k v G. assert (I : In (k, v) C44_rc) by (apply L_dict.dget_In_weak; exact G).
    simpl in I. repeat (destruct I as [I|I]; [injection I as <- <-; reflexivity|]). destruct I.
  - vm_compute. repeat split.
Qed.

(** A range between the smallest and the largest value is displayed; the displayed values are those in the range, and the
    outliers are counted; together they are all the non-null values. About 20% of the values at most are outliers on
    each side. The values must be finite. *)
Theorem C45_histogram : forall col qs, FiniteValues col qs -> qs <> [] ->
  exists low high shown n_low n_high,
    histogram col = Ok (map Fl shown, (n_low, n_high)) /\
    (exists mn mx, In mn qs /\ In mx qs /\ (mn <= low)%Q /\ (low <= high)%Q /\ (high <= mx)%Q) /\
    (forall q, In q shown <-> In q qs /\ (low <= q <= high)%Q) /\
    Count (fun q => (q < low)%Q) qs n_low /\ Count (fun q => (high < q)%Q) qs n_high /\
    n_low + length shown + n_high = length qs /\
    5 * n_low <= length qs + 4 /\ 5 * n_high <= length qs + 4.
Proof. exact histogram_spec. Qed.
Print Assumptions C45_histogram.

Definition C45_qs : list Q := [5; 1; 2; -1000; 3; 4; 100; 2; 3; 3; 4]%Q.
Definition C45_col : list (option fl) := None :: map (fun q => Some (Fl q)) C45_qs ++ [Some NaN].
Example C45_histogram_ex :
  FiniteValues C45_col C45_qs /\ C45_qs <> [] /\
  histogram C45_col = Ok (map Fl [5; 1; 2; 3; 4; 2; 3; 3; 4]%Q, (1, 1)).
Proof.
  split; [repeat (apply fv_value || (apply fv_null; [tauto|]) || constructor)|]. split; [discriminate|]. vm_compute. reflexivity.
Qed.

(** With infinite values the statement is false: nothing is displayed and nothing is counted. *)
Theorem C45_refuted : exists col : list (option fl),
  (forall c, In c col -> exists v, c = Some v /\ is_nan v = false) /\ col <> [] /\
  ~ (exists shown n_low n_high, histogram col = Ok (shown, (n_low, n_high)) /\ n_low + length shown + n_high = length col).
Proof. exact histogram_refuted. Qed.
Print Assumptions C45_refuted.

Example C45_refuted_ex : histogram [Some (Fl 1); Some PInf] = Ok ([], (0, 0)).
Proof. vm_compute. reflexivity. Qed.
