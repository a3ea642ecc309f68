(** C123, C124: labels and percentages of the plots of reports. *)
From Coq Require Import QArith Qabs.
From Verif Require Import Base M_labels L_labels.
From Coq Require Import NArith.
Open Scope string_scope.
Open Scope list_scope.
Open Scope nat_scope.

(** ** C123: labels *)
Theorem C123_ellide : forall (is_space : N -> bool) (bidi : N -> string), MarksOk bidi -> forall m t, exists n, Norm is_space t n /\ length (ellide is_space bidi m t) <= m + 2 /\
  (length n <= m -> ellide is_space bidi m t = n) /\
  (m < length n -> exists a shown b mark, firstn m n = a ++ shown ++ b /\ AllSpaces is_space a /\ AllSpaces is_space b /\ StartsBare is_space shown /\ StartsBare is_space (rev shown) /\
     ellide is_space bidi m t = shown ++ [8230%N] ++ mark /\ length mark <= 1 /\
     (forall l c d, shown = l ++ [c] -> Direction bidi c d -> exists k, mark = [k] /\ Direction bidi k d)).
Proof. exact label_ok. Qed.
Print Assumptions C123_ellide.
(** plain texts are shown as they are, and nothing else changes in the figure *)
Theorem C123_shown : forall (formula em : text -> res text) pre t post, PlainText t ->
  figure formula em pre t post = (let! x := serialize em pre in let! y := serialize em post in Ok (x ++ [62%N] ++ escape t ++ [60%N] ++ y)) /\ unescape (escape t) = t.
Proof. intros formula em pre t post H. split; [exact (figure_ok formula em pre t post H)|exact (unescape_escape t)]. Qed.
Print Assumptions C123_shown.
(** all labels are shown as they are: false. Texts with the placeholder colors, sizes or dollars are not *)
Theorem C123_color_refuted : exists t, is_math t = false /\ length t <= 30 /\
  forall formula em, figure formula em [] t [] = Ok ([62%N] ++ of_string "var(--color-text-primary)" ++ [60%N]).
Proof. exists (of_string "#123456"). split; [reflexivity|]. split; [cbn; lia|]. intros. reflexivity. Qed.
Print Assumptions C123_color_refuted.
Theorem C123_size_refuted : exists t, is_math t = false /\ length t <= 30 /\
  forall formula em e, em (of_string "1.2.3") = Err e -> figure formula em [] t [] = Err e.
Proof.
  exists (of_string "width=" ++ [34%N] ++ of_string "1.2.3pt" ++ [34%N]). split; [reflexivity|]. split; [cbn; lia|]. intros formula em e E.
  unfold figure, draw. cbn [is_math]. change (is_math _) with false. cbn iota. cbn [bind]. unfold serialize.
  change (sub (size_match em) _) with (let! rest := sub_n (size_match em) 0 (of_string "width=" ++ [34%N] ++ of_string "1.2.3pt" ++ [34%N; 60%N]) in Ok (62%N :: rest)).
  change (sub_n (size_match em) 0 _) with (let! r := (let! e := em (of_string "1.2.3") in Ok (of_string "width" ++ [61; 34]%N ++ e ++ of_string "em" ++ [34]%N)) in let! rest := Ok [60%N] in Ok (r ++ rest)).
  rewrite E. reflexivity.
Qed.
Print Assumptions C123_size_refuted.
Theorem C123_dollar_refuted : exists t t', length t <= 30 /\ (forall formula em, formula t = Err ValueError -> figure formula em [] t [] = Err ValueError) /\
  is_math t' = false /\ (forall formula em, figure formula em [] t' [] = Ok ([62%N] ++ of_string "5$" ++ [60%N]) /\ of_string "5$" <> t').
Proof.
  exists (of_string "$5 to $10"), (of_string "5\$"). split; [cbn; lia|]. split; [intros formula em E; unfold figure, draw; change (is_math _) with true; cbn iota; rewrite E; reflexivity|].
  split; [reflexivity|]. intros. split; [reflexivity|discriminate].
Qed.
Print Assumptions C123_dollar_refuted.
(** different values have different labels: false *)
Theorem C123_different_refuted : exists (is_space : N -> bool) t t', t <> t' /\ forall bidi m, 3 <= m -> ellide is_space bidi m t = ellide is_space bidi m t'.
Proof.
  exists (fun c => (c =? 32)%N), (of_string "a b"), (of_string "a  b"). split; [discriminate|]. intros bidi m L. unfold ellide. cbn [normalize of_string map list_ascii_of_string]. cbv zeta. reflexivity.
Qed.
Print Assumptions C123_different_refuted.

(** ** C124: percentages *)
Open Scope Q_scope.
Theorem C124_zero : forall p, 0 <= p -> (format_percent p = Tenths 0 <-> p == 0).
Proof. exact zero_iff. Qed.
Print Assumptions C124_zero.
Theorem C124_less_than : forall p, format_percent p = LessThan01 <-> 0 < p < 1 # 1000.
Proof. exact less_than_iff. Qed.
Print Assumptions C124_less_than.
Theorem C124_error : forall p z, format_percent p = Tenths z -> Qabs (p * 1000 - inject_Z z) <= 1 # 2.
Proof. exact tenths_error. Qed.
Print Assumptions C124_error.
Theorem C124_exact : forall z, format_percent (inject_Z z * (1 # 1000)) = Tenths z.
Proof. exact whole_percent. Qed.
Print Assumptions C124_exact.
Theorem C124_monotone : forall p q y z, p <= q -> format_percent p = Tenths y -> format_percent q = Tenths z -> (y <= z)%Z.
Proof. exact percent_mono. Qed.
Print Assumptions C124_monotone.
Theorem C124_less_than_is_less : forall p q z, 0 <= q -> format_percent p = LessThan01 -> format_percent q = Tenths z -> (z = 0%Z /\ q == 0) \/ ((1 <= z)%Z /\ p < q).
Proof. exact less_than_small. Qed.
Print Assumptions C124_less_than_is_less.
(** 100.0% is for all rows: false *)
Theorem C124_all_refuted : exists p, p < 1 /\ format_percent p = Tenths 1000.
Proof. exists (1999 # 2000). split; reflexivity. Qed.
Print Assumptions C124_all_refuted.

(** ** Examples *)
Definition ex_bidi (c : N) : string := if (c <? 128)%N then (if (c =? 32)%N then "WS" else "L") else if (c =? 8207)%N then "R" else if (c =? 1564)%N then "AL" else if (c =? 8206)%N then "L" else if (c <? 1536)%N then "R" else "AL".
Definition ex_space (c : N) : bool := (c =? 32)%N || (c =? 10)%N.
Example ex_marks : MarksOk ex_bidi.
Proof. repeat split. Qed.
Example ex_C123 : ellide ex_space ex_bidi 4 [97; 32; 10; 98; 32; 99]%N = [97; 32; 98; 8230; 8206]%N /\ ellide ex_space ex_bidi 5 [97; 32; 10; 98; 32; 99]%N = [97; 32; 98; 32; 99]%N /\
  ellide ex_space ex_bidi 1 [1488; 1489]%N = [1488; 8230; 8207]%N /\ ellide ex_space ex_bidi 1 [1610; 1610]%N = [1610; 8230; 1564]%N /\ ellide ex_space ex_bidi 1 [32; 10; 97]%N = [8230%N].
Proof. repeat split; vm_compute; reflexivity. Qed.
Lemma ex_not_contains : forall c p t, ~ In c t -> ~ Contains (c :: p) t.
Proof. intros c p t N (a & b & E). apply N. rewrite E. apply in_app_iff. right. left. reflexivity. Qed.
Example ex_plain : PlainText (of_string "a <b> & $c").
Proof.
  split; [reflexivity|]. split; [reflexivity|]. split; [|split].
  - apply ex_not_contains. cbn. intros X. repeat (destruct X as [X|X]; [discriminate|]). exact X.
  - apply ex_not_contains. cbn. intros X. repeat (destruct X as [X|X]; [discriminate|]). exact X.
  - intros p (attr & d & I & _ & _ & ->) (a & b & E). assert (J : In 61%N (of_string "a <b> & $c")) by (rewrite E; apply in_app_iff; right; rewrite <- app_assoc; apply in_app_iff; right; left; reflexivity).
    cbn in J. repeat (destruct J as [J|J]; [discriminate|]). exact J.
Qed.
Example ex_shown : figure (fun t => Ok t) (fun t => Ok t) (of_string "<text style='fill: #123456'") (of_string "a <b> & $c") (of_string "/text>") =
  Ok (of_string "<text style='fill: var(--color-text-primary)'>a &lt;b&gt; &amp; $c</text>").
Proof. vm_compute. reflexivity. Qed.
Example ex_C124 : map format_percent [0; 1 # 3; 1 # 2000; 1 # 1000; 5 # 8] = [Tenths 0; Tenths 333; LessThan01; Tenths 1; Tenths 625].
Proof. vm_compute. reflexivity. Qed.
