(** Theorems about the tables and plots of search results (C78-C80). *)
From Coq Require Import QArith Qabs Permutation Sorting.Sorted.
From Verif Require Import Base M_names L_names M_grid M_results L_results L_results2.
Open Scope string_scope.
Open Scope list_scope.
Open Scope nat_scope.

(** The other columns of results for the metrics [ms], and the columns that plots leave out. *)
Definition Details (ms : list string) (k : string) : Prop :=
  In k ["mean_fit_time"; "std_fit_time"; "mean_score_time"; "std_score_time"] \/
  exists m, In m ms /\ In k ["std_test_" ++ m; "mean_train_" ++ m; "std_train_" ++ m]%string.
Definition unplotted : list string := ["std_test_score"; "std_fit_time"; "std_score_time"; "mean_train_score"; "std_train_score"].
Definition plotted {A} (t : list (string * A)) : list (string * A) := filter (fun c => negb (mem (fst c) unplotted)) t.
Lemma details_keys ms k : Details ms k -> In k (other_keys ms).
Proof.
  unfold other_keys, prefixed. rewrite !in_app_iff. intros [I|(m & M & [<-|[<-|[<-|[]]]])].
  - right. left. exact I.
  - left. exact (in_map (fun n => ("std_test_" ++ n)%string) _ _ M).
  - right. right. left. exact (in_map (fun n => ("mean_train_" ++ n)%string) _ _ M).
  - right. right. right. exact (in_map (fun n => ("std_train_" ++ n)%string) _ _ M).
Qed.

Section Tables.
  Context {O : Type}.
  Notation choice := (choice (O := O)).
  Notation table := (table (O := O)).

  (** C78: each candidate has one row, which shows its scores and the outcomes of its choices, best candidates first. *)
  Theorem C78_rows : forall draw (choices : dict nat choice) (names : dict nat string) scorers refit ms cands cv (detailed : bool),
    Fitted choices names scorers refit ms cands cv -> Fresh draw (length names) (map snd names) (result_keys ms) ->
    exists t logs order, cv_table draw choices names scorers refit (map named cands) cv detailed = Ok (t, logs) /\
      Permutation order (seq 0 (length cands)) /\ NoDup (map fst t) /\ (detailed = false -> length t = length ms + length names) /\
      (forall j m, nth_error ms j = Some m -> exists xs col, dget ("mean_test_" ++ m)%string cv = Some xs /\ nth_error t j = Some (("mean_test_" ++ m)%string, col) /\ length col = length cands /\
         forall r i, nth_error order r = Some i -> exists x, nth_error xs i = Some x /\ nth_error col r = Some (TScore x)) /\
      (forall j k n, nth_error names j = Some (k, n) -> exists n' col, nth_error t (length ms + j) = Some (n', col) /\ length col = length cands /\
         ((forall s, In s (map snd names) -> ~ SubString "__skrub_" s) -> ~ In n (result_keys ms) -> n' = n) /\
         (In n' logs <-> dget k choices = Some (Numeric true) /\ exists cand, In cand cands /\ In k (dkeys cand)) /\
         forall r i cand, nth_error order r = Some i -> nth_error cands i = Some cand ->
           exists x, nth_error col r = Some (TChoice x) /\
             match dget k cand with Some p => exists c v, dget k choices = Some c /\ Shown c p v /\ x = Some v | None => x = None end) /\
      (exists m xs, hd_error ms = Some m /\ dget ("mean_test_" ++ m)%string cv = Some xs /\ Ranked (fun i => nth i xs None) order) /\
      (forall k xs, detailed = true -> Details ms k -> dget k cv = Some xs -> exists col, In (k, col) t /\ length col = length cands /\
         forall r i, nth_error order r = Some i -> exists x, nth_error xs i = Some x /\ nth_error col r = Some (TScore x)).
  Proof.
    intros draw choices names scorers refit ms cands cv detailed F Fr. destruct (table_rows draw choices names scorers refit ms cands cv detailed F Fr) as (t & logs & order & A1 & A2 & A3 & A4 & A5 & A6 & (m & xs & B1 & B2 & B3) & A7).
    exists t, logs, order. split; [exact A1|]. split; [exact A2|]. split; [exact A3|]. split; [exact A4|]. split; [exact A5|]. split; [exact A6|]. split; [|intros k ys D K; apply (A7 k ys D), details_keys, K]. exists m, xs. split; [exact B1|]. split; [exact B2|]. exact (before_ranked _ _ B3).
  Qed.
End Tables.
Print Assumptions C78_rows.

Section Plots.
  Context {O : Type}.
  Variable okind_of : O -> okind.
  Variable ostr : O -> string.
  Variable numstr : Q -> string.
  Variable ln : Q -> Q.
  Variable fmt : bool -> Q -> string.
  Variable categories : list string -> list string.
  Notation tcell := (tcell (O := O)).
  Notation choice := (choice (O := O)).
  Notation plot_results := (plot_results okind_of ostr numstr ln fmt categories).

  (** C79 holds with a single metric, if some row is kept and each column of other things than numbers has a value in the rows that are kept. *)
  Theorem C79_partial : forall draw (choices : dict nat choice) (names : dict nat string) refit ms cands cv t logs noise min_score,
    Fitted choices names None refit ms cands cv -> Fresh draw (length names) (map snd names) (result_keys ms) ->
    cv_table draw choices names None refit (map named cands) cv true = Ok (t, logs) ->
    (exists i, Kept min_score t i) ->
    (forall name col, In (name, col) t -> ~ In name unplotted -> Texts okind_of col -> exists i x, Kept min_score t i /\ nth_error col i = Some x /\ is_null okind_of x = false) ->
    exists dims, plot_results noise min_score t logs = Ok dims /\ length dims = length (plotted t).
  Proof.
    intros draw choices names refit ms cands cv t logs noise min_score F Fr E. destruct (detailed_table _ _ _ _ _ _ _ _ _ _ F Fr E) as (N & L & I & _).
    apply plot_ok; [split; [exact N|exists (length cands); exact L]|]. apply (I "score"). rewrite (f_scorers _ _ _ _ _ _ _ F). left. reflexivity.
  Qed.
  (** C79 is wrong with several metrics, none of which is called "score". *)
  Theorem C79_metrics_refuted : forall draw (choices : dict nat choice) (names : dict nat string) l refit ms cands cv t logs noise min_score,
    Fitted choices names (Some l) refit ms cands cv -> Fresh draw (length names) (map snd names) (result_keys ms) ->
    cv_table draw choices names (Some l) refit (map named cands) cv true = Ok (t, logs) ->
    ~ In "score" l -> (forall s, In s (map snd names) -> ~ SubString "__skrub_" s) -> ~ In "mean_test_score" (map snd names) ->
    exists e, plot_results noise min_score t logs = Err e.
  Proof.
    intros draw choices names l refit ms cands cv t logs noise min_score F Fr E A B C. apply plot_fails_metric. exact (multi_metric _ _ _ _ _ _ _ _ _ _ F Fr E A B C).
  Qed.
  (** C79 is wrong if no candidate that is kept has an outcome for some choice among things that are not numbers. *)
  Theorem C79_nested_refuted : forall draw (choices : dict nat choice) (names : dict nat string) refit ms cands cv t logs noise min_score name col,
    Fitted choices names None refit ms cands cv -> Fresh draw (length names) (map snd names) (result_keys ms) ->
    cv_table draw choices names None refit (map named cands) cv true = Ok (t, logs) ->
    In (name, col) t -> ~ In name unplotted -> Texts okind_of col -> (forall i x, Kept min_score t i -> nth_error col i = Some x -> is_null okind_of x = true) ->
    exists e, plot_results noise min_score t logs = Err e.
  Proof.
    intros draw choices names refit ms cands cv t logs noise min_score name col F Fr E J Hn Tx W. destruct (detailed_table _ _ _ _ _ _ _ _ _ _ F Fr E) as (N & L & I & _).
    apply (plot_fails_texts okind_of ostr numstr ln fmt categories noise min_score t logs name col); try assumption; [split; [exact N|exists (length cands); exact L]|]. apply (I "score"). rewrite (f_scorers _ _ _ _ _ _ _ F). left. reflexivity.
  Qed.

  (** C80 for up to 100 categories: on the axis of a choice, the tick that is nearest to a line is that of its outcome. *)
  Theorem C80_categories_partial : forall draw (choices : dict nat choice) (names : dict nat string) refit ms cands cv t logs noise min_score dims,
    CategoriesOk categories -> (forall j, Noise (noise j)) ->
    Fitted choices names None refit ms cands cv -> Fresh draw (length names) (map snd names) (result_keys ms) ->
    cv_table draw choices names None refit (map named cands) cv true = Ok (t, logs) -> plot_results noise min_score t logs = Ok dims ->
    exists rows, StronglySorted lt rows /\ (forall i, In i rows <-> Kept min_score t i) /\ length dims = length (plotted t) /\
      forall j name col, nth_error (plotted t) j = Some (name, col) -> Texts okind_of col -> exists d, nth_error dims j = Some d /\ label d = name /\ length (dim_values d) = length rows /\
        (length (ticks d) <= 100 -> forall r i x, nth_error rows r = Some i -> nth_error col i = Some x ->
           exists v, nth_error (dim_values d) r = Some (Some v) /\ (exists p, In (Some p, shown_text okind_of ostr numstr x) (ticks d) /\ (Qabs (v - p) < 1 # 2)%Q) /\
             forall p t, In (Some p, t) (ticks d) -> (Qabs (v - p) < 1 # 2)%Q -> t = shown_text okind_of ostr numstr x).
  Proof.
    intros draw choices names refit ms cands cv t logs noise min_score dims C Ns F Fr E. destruct (detailed_table _ _ _ _ _ _ _ _ _ _ F Fr E) as (N & L & I & _).
    apply (plot_categories okind_of ostr numstr ln fmt categories C); [exact Ns|split; [exact N|exists (length cands); exact L]|]. apply (I "score"). rewrite (f_scorers _ _ _ _ _ _ _ F). left. reflexivity.
  Qed.
  (** C80 is wrong for 102 categories. *)
  Theorem C80_categories_refuted : forall name (col : list tcell) d, CategoriesOk categories -> prepare_obj okind_of ostr numstr categories name col = Ok d -> name <> "score" -> 102 <= length (ticks d) ->
    exists noise, Noise noise /\ exists i x v p p' t, nth_error col i = Some x /\ nth_error (dim_values (jittered noise d)) i = Some (Some v) /\
      In (Some p, shown_text okind_of ostr numstr x) (ticks (jittered noise d)) /\ nth_error (dim_values d) i = Some (Some p) /\ (1 # 2 < Qabs (v - p))%Q /\
      In (Some p', t) (ticks (jittered noise d)) /\ (Qabs (v - p') < 1 # 2)%Q /\ p <> p'.
  Proof. intros name col d C. exact (categories_unreadable okind_of ostr numstr categories C name col d). Qed.
  (** C80 for numbers that are not all equal: the lines without a value are those below some point. *)
  Theorem C80_nulls_partial : forall draw (choices : dict nat choice) (names : dict nat string) refit ms cands cv t logs noise min_score dims,
    (forall j, Noise (noise j)) ->
    Fitted choices names None refit ms cands cv -> Fresh draw (length names) (map snd names) (result_keys ms) ->
    cv_table draw choices names None refit (map named cands) cv true = Ok (t, logs) -> plot_results noise min_score t logs = Ok dims ->
    exists rows, StronglySorted lt rows /\ (forall i, In i rows <-> Kept min_score t i) /\ length dims = length (plotted t) /\
      forall j name col, nth_error (plotted t) j = Some (name, col) -> ~ Texts okind_of col -> exists d, nth_error dims j = Some d /\
        ((exists i x y i' q q', In i rows /\ nth_error col i = Some x /\ number okind_of x = Some q /\ In i' rows /\ nth_error col i' = Some y /\ number okind_of y = Some q' /\
            ~ (coordinate ln (mem name logs) q == coordinate ln (mem name logs) q')%Q) ->
         exists m, forall r i x, nth_error rows r = Some i -> nth_error col i = Some x -> exists v, nth_error (dim_values d) r = Some (Some v) /\ (is_null okind_of x = true <-> (v < m)%Q)).
  Proof.
    intros draw choices names refit ms cands cv t logs noise min_score dims Ns F Fr E. destruct (detailed_table _ _ _ _ _ _ _ _ _ _ F Fr E) as (N & L & I & _).
    apply plot_numbers; [exact Ns|split; [exact N|exists (length cands); exact L]|]. apply (I "score"). rewrite (f_scorers _ _ _ _ _ _ _ F). left. reflexivity.
  Qed.
  (** C80 is wrong for numbers that are all equal. *)
  Theorem C80_nulls_refuted : forall noise name log (col : list tcell) c, NumColumn okind_of col -> (exists x q, In x col /\ number okind_of x = Some q) -> (forall x q, In x col -> number okind_of x = Some q -> (coordinate ln log q == c)%Q) ->
    forall i x, nth_error col i = Some x -> exists v, nth_error (dim_values (jittered noise (prepare_num okind_of ln fmt name log col))) i = Some (Some v) /\ (v == c)%Q.
  Proof. exact (nulls_unreadable okind_of ln fmt). Qed.
End Plots.
Print Assumptions C79_partial.
Print Assumptions C79_metrics_refuted.
Print Assumptions C79_nested_refuted.
Print Assumptions C80_categories_partial.
Print Assumptions C80_categories_refuted.
Print Assumptions C80_nulls_partial.
Print Assumptions C80_nulls_refuted.

(** A search with a choice of a model (0), one of its kernel (1) for the first, and one of its penalty (2) for the second. *)
Definition ex_choices : dict nat (choice (O := nat)) := [(0, Enum [0; 1] (Some ["svm"; "ridge"])); (1, Enum [10; 11] None); (2, Numeric true)].
Definition ex_names : dict nat string := [(0, "model"); (1, "kernel"); (2, "alpha")].
Definition ex_cands : list (dict nat param) := [[(0, PIdx 1); (2, PNum (1 # 10))]; [(0, PIdx 0); (1, PIdx 1)]; [(0, PIdx 1); (2, PNum 10)]].
Definition ex_cv : cv_dict := [("mean_test_score", [Some (1 # 2)%Q; Some (1 # 4)%Q; Some (3 # 4)%Q]); ("std_test_score", [Some 0%Q; None; Some 0%Q]); ("mean_fit_time", [Some 1%Q; Some 2%Q; Some 1%Q])].
Definition ex_kind (o : nat) : okind := OOther.
Definition ex_str (o : nat) : string := if o =? 10 then "rbf" else "poly".
Definition ex_cats (l : list string) : list string := nodup eqd l.
Definition ex_num (q : Q) : string := "q".
Definition ex_table := cv_table example_draw ex_choices ex_names None None (map named ex_cands) ex_cv true.
Definition ex_plot (min_score : option Q) : res (list dim) :=
  let! (t, logs) := ex_table in plot_results ex_kind ex_str ex_num (fun q => q) (fun _ _ => "") ex_cats (fun _ _ => 0%Q) min_score t logs.

Lemma ex_fitted : Fitted ex_choices ex_names None None ["score"] ex_cands ex_cv.
Proof.
  constructor.
  - reflexivity.
  - repeat constructor; cbn; intuition discriminate.
  - repeat constructor; cbn; intuition discriminate.
  - intros cand [<-|[<-|[<-|[]]]]; (split; [repeat constructor; cbn; intuition discriminate|]); intros k p E; cbn in E;
      repeat (match type of E with context [eqd k ?n] => destruct (eqd k n) as [->|] end; cbn in E); try discriminate; injection E as <-; do 2 eexists; (split; [reflexivity|]); constructor; reflexivity.
  - reflexivity.
  - intros k [<-|[]]. eexists. split; reflexivity.
  - intros k xs I E. cbn in I. repeat (destruct I as [<-|I]; [cbn in E; try discriminate; injection E as <-; reflexivity|]). destruct I.
Qed.
Example ex_fresh : Fresh example_draw (length ex_names) (map snd ex_names) (result_keys ["score"]).
Proof. apply example_draw_ok; [repeat constructor|reflexivity]. Qed.
Example ex_table_value : exists t logs, ex_table = Ok (t, logs) /\ logs = ["alpha"] /\ map fst t = ["mean_test_score"; "model"; "kernel"; "alpha"; "std_test_score"; "mean_fit_time"] /\
  nth_error t 1 = Some ("model", [TChoice (Some (CName "ridge")); TChoice (Some (CName "ridge")); TChoice (Some (CName "svm"))]) /\
  nth_error t 2 = Some ("kernel", [TChoice None; TChoice None; TChoice (Some (COut 11))]) /\
  nth_error t 3 = Some ("alpha", [TChoice (Some (CNum 10)); TChoice (Some (CNum (1 # 10))); TChoice None]).
Proof. do 2 eexists. repeat split; vm_compute; reflexivity. Qed.
(** all rows can be plotted; the nested choice of a kernel has no outcome in the two best ones *)
Example ex_plot_all : exists dims, ex_plot None = Ok dims /\ map label dims = ["score"; "model"; "kernel"; "alpha"; "fit time"].
Proof. eexists. split; vm_compute; reflexivity. Qed.
Example ex_plot_best : ex_plot (Some (1 # 2)%Q) = Err ValueError.
Proof. vm_compute. reflexivity. Qed.
(** two metrics *)
Definition ex_cv2 : cv_dict := [("mean_test_r2", [Some (1 # 2)%Q; Some (1 # 4)%Q; Some (3 # 4)%Q]); ("mean_test_mse", [Some 3%Q; Some 2%Q; Some 1%Q])].
Lemma ex_fitted2 : Fitted ex_choices ex_names (Some ["r2"; "mse"]) (Some "mse") ["mse"; "r2"] ex_cands ex_cv2.
Proof.
  constructor; try apply ex_fitted.
  - split; [repeat constructor; cbn; intuition discriminate|]. split; [discriminate|]. exists ["r2"], []. split; reflexivity.
  - intros k [<-|[<-|[]]]; eexists; split; reflexivity.
  - intros k xs I E. cbn in I. repeat (destruct I as [<-|I]; [cbn in E; try discriminate; injection E as <-; reflexivity|]). destruct I.
Qed.
Example ex_two_metrics : exists t logs, cv_table example_draw ex_choices ex_names (Some ["r2"; "mse"]) (Some "mse") (map named ex_cands) ex_cv2 true = Ok (t, logs) /\
  map fst t = ["mean_test_mse"; "mean_test_r2"; "model"; "kernel"; "alpha"] /\
  plot_results ex_kind ex_str ex_num (fun q => q) (fun _ _ => "") ex_cats (fun _ _ => 0%Q) None t logs = Err KeyError.
Proof. do 2 eexists. repeat split; vm_compute; reflexivity. Qed.
(** categories, and numbers with nulls *)
Lemma ex_cats_ok : CategoriesOk ex_cats.
Proof. intros l. split; [apply NoDup_nodup|]. intros s. apply nodup_In. Qed.
Example ex_axis : exists d, prepare_obj ex_kind ex_str ex_num ex_cats "kernel" [TChoice (Some (COut 11)); TChoice None; TChoice (Some (COut 10))] = Ok d /\
  ticks d = [(Some (- (1))%Q, "Null"); (Some 0%Q, "poly"); (Some 1%Q, "rbf")] /\ dim_values d = [Some 0%Q; Some (- (1))%Q; Some 1%Q].
Proof. eexists. repeat split; vm_compute; reflexivity. Qed.
Example ex_nulls : NumColumn ex_kind [TChoice (Some (CNum 10)); TChoice None; TChoice (Some (CNum 1))] /\ NumColumn ex_kind [TChoice (Some (CNum 10)); TChoice None].
Proof. split; intros x I; cbn in I; repeat (destruct I as [<-|I]; [cbn; eauto|]); destruct I. Qed.
