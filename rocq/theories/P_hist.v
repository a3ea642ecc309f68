(** C125, C126: histograms and durations. *)
From Coq Require Import QArith Qabs.
From Verif Require Import Base M_labels M_hist L_hist.
Open Scope string_scope.
Open Scope list_scope.
Open Scope nat_scope.

(** ** C125: histograms *)
Theorem C125_defined : forall values, (exists d n, robust_hist values = Ok (d, n)) <-> values <> [].
Proof.
  intros values. split; [intros (d & n & E) ->; rewrite hist_empty in E; discriminate|]. intros N. destruct (hist_spec values N) as (lp & hp & low & high & d & _ & E & _). eexists _, _. exact E.
Qed.
Print Assumptions C125_defined.
Theorem C125_total : forall values d nl nh, robust_hist values = Ok (d, (nl, nh)) -> list_sum (d_bars d) + nl + nh = length values /\ length (d_bars d) = 10.
Proof. exact hist_total. Qed.
Print Assumptions C125_total.
Theorem C125_red : forall values d nl nh, robust_hist values = Ok (d, (nl, nh)) ->
  d_low d = (if nl =? 0 then None else Some nl) /\ d_high d = (if nh =? 0 then None else Some nh) /\
  d_text d = (if nl + nh =? 0 then None else Some (nl + nh, format_percent (of_nat (nl + nh) / of_nat (length values)))).
Proof. exact hist_red. Qed.
Print Assumptions C125_red.
(** outliers are more than 3 times the spread of the middle away from it: in particular the middle has none. [s]: the values in increasing order *)
Theorem C125_far : forall values d nl nh s i j a b, robust_hist values = Ok (d, (nl, nh)) -> Sorted_of values s -> nth_error s i = Some a -> nth_error s j = Some b ->
  length values - 1 <= 5 * i -> 5 * j <= 4 * (length values - 1) ->
  nl <= below (a - 3 * (b - a)) values /\ nh <= above (b + 3 * (b - a)) values.
Proof. exact hist_far. Qed.
Print Assumptions C125_far.
Theorem C125_few : forall values d nl nh, robust_hist values = Ok (d, (nl, nh)) -> 5 * nl <= length values + 3 /\ 5 * nh <= length values + 3.
Proof. exact hist_few. Qed.
Print Assumptions C125_few.
Theorem C125_detected : forall values d nl nh s i j a b i' j' a' b', robust_hist values = Ok (d, (nl, nh)) -> Sorted_of values s -> nth_error s i = Some a -> nth_error s j = Some b ->
  length values - 1 <= 5 * i -> 5 * j <= 4 * (length values - 1) -> (a < b)%Q ->
  nth_error s i' = Some a' -> nth_error s j' = Some b' -> 5 * i' <= length values - 1 -> 4 * (length values - 1) <= 5 * j' ->
  below (a' - (345 # 100) * (b' - a')) values <= nl /\ above (b' + (345 # 100) * (b' - a')) values <= nh.
Proof. exact hist_detect. Qed.
Print Assumptions C125_detected.
(** without a middle that varies: false *)
Theorem C125_detected_refuted : exists values d, robust_hist values = Ok (d, (0, 0)) /\ In 1000000%Q values /\ count (fun x => Qeq_bool x 0) values = 6 /\ length values = 7.
Proof. exists [0; 0; 0; 0; 0; 0; 1000000]%Q. eexists. split; [vm_compute; reflexivity|]. split; [cbn; tauto|]. split; reflexivity. Qed.
Print Assumptions C125_detected_refuted.
Theorem C125_units : forall values values' a b d nl nh, robust_hist values = Ok (d, (nl, nh)) -> (0 < a)%Q -> Permutation (map (fun x => a * x + b)%Q values) values' ->
  exists d', robust_hist values' = Ok (d', (nl, nh)) /\ d_text d' = d_text d /\ d_low d' = d_low d /\ d_high d' = d_high d.
Proof. exact hist_units. Qed.
Print Assumptions C125_units.
Theorem C125_outside : forall values d nl nh j k x y, robust_hist values = Ok (d, (nl, nh)) -> j < k -> nth_error (d_bars d) j = Some (S x) -> nth_error (d_bars d) k = Some (S y) ->
  nl = below (fst (d_range d)) values /\ nh = above (snd (d_range d)) values.
Proof. exact hist_outside. Qed.
Print Assumptions C125_outside.
(** with one bar, an outlier may be inside what is drawn *)
Theorem C125_outside_refuted : exists values d, robust_hist values = Ok (d, (1, 0)) /\ below (fst (d_range d)) values = 0.
Proof. exists [- (1 # 10); 0; 0; 0; 0]%Q. eexists. split; [vm_compute; reflexivity|]. vm_compute. reflexivity. Qed.
Print Assumptions C125_outside_refuted.

(** ** C126: durations *)
Theorem C126_same : forall q9 seconds q, q9 (map Qabs seconds) = Ok q -> exists shown u, duration_to_numeric q9 seconds = Ok (shown, u) /\
  Forall2 (fun s x => x * seconds_in u == s)%Q seconds shown /\ ((u = Microsecond /\ q < seconds_in Millisecond)%Q \/ (seconds_in u <= q)%Q) /\ (forall w, In u (smaller w) -> (q < seconds_in w)%Q).
Proof. exact duration_ok. Qed.
Print Assumptions C126_same.
Theorem C126_readable : forall q9 seconds q shown u, q9 (map Qabs seconds) = Ok q -> Nearest9 q (map Qabs seconds) -> duration_to_numeric q9 seconds = Ok (shown, u) ->
  (u = Microsecond \/ exists x, In x shown /\ (1 <= Qabs x)%Q) /\
  (forall w, In u (smaller w) -> 10 * length (filter (fun x => Qle_bool (seconds_in w) (Qabs x * seconds_in u)) shown) <= length seconds + 4).
Proof. exact duration_readable. Qed.
Print Assumptions C126_readable.

(** ** Examples *)
Definition ex_values : list Q := [3; 1; 2; 4; 100; 5; 0; 6]%Q.
Definition ex_hist (l : list Q) : option (list nat * option nat * option nat * (nat * nat)) :=
  match robust_hist l with Ok (d, n) => Some (d_bars d, d_low d, d_high d, n) | Err _ => None end.
Example ex_C125 : ex_hist ex_values = Some ([1; 1; 0; 1; 0; 1; 1; 0; 1; 1], None, Some 1, (0, 1)).
Proof. vm_compute. reflexivity. Qed.
Example ex_C125_units : ex_hist (map (fun x => (1 # 2) * x + 7)%Q (rev ex_values)) = Some ([1; 1; 0; 1; 0; 1; 1; 0; 1; 1], None, Some 1, (0, 1)).
Proof. vm_compute. reflexivity. Qed.
Example ex_sorted : Sorted_of ex_values [0; 1; 2; 3; 4; 5; 6; 100]%Q /\ length ex_values - 1 <= 5 * 2 /\ 5 * 5 <= 4 * (length ex_values - 1) /\
  nth_error [0; 1; 2; 3; 4; 5; 6; 100]%Q 2 = Some 2%Q /\ nth_error [0; 1; 2; 3; 4; 5; 6; 100]%Q 5 = Some 5%Q /\ (2 < 5)%Q /\ 5 * 1 <= length ex_values - 1 /\ 4 * (length ex_values - 1) <= 5 * 6 /\
  above (6 + (345 # 100) * (6 - 1)) ex_values = 1.
Proof.
  split; [|repeat split; cbn; try lia; vm_compute; reflexivity]. split; [exact (sort_perm ex_values)|]. change [0; 1; 2; 3; 4; 5; 6; 100]%Q with (sort ex_values). apply sort_sorted.
Qed.
Definition ex_q9 (l : list Q) : res Q := get (sort l) (length l - 1).
Example ex_C126 : duration_to_numeric ex_q9 [- 7200; 3600]%Q = Ok ([(- 7200) / 3600; 3600 / 3600]%Q, Hour) /\ Nearest9 7200 (map Qabs [- 7200; 3600]%Q) /\ ex_q9 (map Qabs [- 7200; 3600]%Q) = Ok 7200%Q.
Proof. split; [vm_compute; reflexivity|]. split; [split; [left; reflexivity|cbn; lia]|vm_compute; reflexivity]. Qed.
