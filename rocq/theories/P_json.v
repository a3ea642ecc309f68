(** C120: the JSON form of reports. *)
From Coq Require Import QArith.
From Verif Require Import Base M_summary L_summary P_summary M_json L_json.
Open Scope string_scope.
Open Scope list_scope.
Open Scope nat_scope.

Section Json.
  Context {V : Type} `{EqD V}.
  Variable num seconds : V -> Q.
  Variable leb : V -> V -> bool.
  Variable scale : unit_ -> Q -> Q.
  Variable qidx : lib -> Q -> nat -> nat.
  Variable sort_counts : list (V * nat) -> list (V * nat).
  Hypothesis qidx_ok : QidxOk qidx.
  Hypothesis sort_ok : SortOk sort_counts.
  Hypothesis date_order : DateOrder leb.
  Variable obj : V -> py.
  Variable null_obj : lib -> kind V -> py.
  Variable iso : V -> string.
  Variable mean_of std_of : column V -> flt.
  Variable outliers : column V -> Z * Z.
  Variable plot : string -> column V -> string.
  Variable dtype_name : column V -> string.
  Notation report_json := (report_json num seconds leb scale qidx sort_counts obj null_obj iso mean_of std_of outliers plot dtype_name).
  Notation ReportObject := (ReportObject num seconds leb scale qidx sort_counts obj null_obj iso).
  Notation Suitable := (Suitable num seconds scale qidx obj null_obj).

  (** a report is written if and only if its title, the name of its sort column, the names of its columns and the values it lists can be written; otherwise the error is TypeError *)
  Theorem C120_exact : forall l n df o, OptionsOk n o -> (forall nc, In nc df -> WF n (snd nc)) ->
    ((exists j, report_json l n df o = Ok j) <-> (forall v, ReportObject n df o v -> Writable v)) /\
    (forall e, report_json l n df o = Err e -> e = TypeError).
  Proof. exact (json_exact num seconds leb scale qidx sort_counts sort_ok obj null_obj iso mean_of std_of outliers plot dtype_name). Qed.

  (** what is written: the size of the table and one object per column, in order, with its name, position and exact number of nulls *)
  Theorem C120_content : forall l n (df : list (py * column V)) o j, OptionsOk n o -> (forall nc, In nc df -> WF n (snd nc)) -> report_json l n df o = Ok j ->
    field "n_rows" j = Some (JInt (Z.of_nat n)) /\ field "n_columns" j = Some (JInt (Z.of_nat (length df))) /\
    (forall t, title o = Some t -> exists jt, Denotes t jt /\ field "title" j = Some jt) /\
    exists cols, field "columns" j = Some (JArr cols) /\ length cols = length df /\
      forall p name col, nth_error df p = Some (name, col) -> exists jc, nth_error cols p = Some jc /\ ColumnJson p name col jc.
  Proof. exact (json_content num seconds leb scale qidx sort_counts sort_ok date_order obj null_obj iso mean_of std_of outliers plot dtype_name). Qed.

  (** columns of dates; of durations that differ; of numbers, categories or other values that can be written *)
  Theorem C120_written : forall l n (df : list (py * column V)) o, OptionsOk n o -> (forall nc, In nc df -> WF n (snd nc)) ->
    (forall t, title o = Some t -> Writable t) -> (forall b rows, order_by o = Some (b, rows) -> Writable b) ->
    (forall name col, In (name, col) df -> Writable name /\ Suitable col) -> exists j, report_json l n df o = Ok j.
  Proof. exact (json_written num seconds leb scale qidx sort_counts qidx_ok sort_ok date_order obj null_obj iso mean_of std_of outliers plot dtype_name). Qed.

  (** not for a column of equal durations (their Python objects cannot be written) *)
  Theorem C120_durations_refuted : forall l n (df : list (py * column V)) o name col v, OptionsOk n o -> (forall nc, In nc df -> WF n (snd nc)) ->
    In (name, col) df -> ckind col = KDuration -> (forall c, In c (cells col) -> c = Val v) -> cells col <> [] -> ~ Writable (obj v) ->
    report_json l n df o = Err TypeError.
  Proof. exact (json_durations num seconds leb scale qidx sort_counts qidx_ok sort_ok date_order obj null_obj iso mean_of std_of outliers plot dtype_name). Qed.

  (** not standard JSON as soon as a pandas table has an association between columns that are not numbers *)
  Theorem C120_nan_refuted : forall n (df : list (py * column V)) o j t a, report_json Pandas n df o = Ok j -> top o = Some t -> In a t -> pearson a = None -> ~ Standard j.
  Proof. exact (json_nan num seconds leb scale qidx sort_counts obj null_obj iso mean_of std_of outliers plot dtype_name). Qed.

End Json.
Print Assumptions C120_exact.
Print Assumptions C120_content.
Print Assumptions C120_written.
Print Assumptions C120_durations_refuted.
Print Assumptions C120_nan_refuted.

(** ** Examples *)
(** values are numbers; for durations, no Python object that can be written *)
Definition ex_obj (v : nat) : py := PyInt (Z.of_nat v).
Definition ex_timedelta (_ : nat) : py := PyObj.
Definition ex_null (l : lib) (_ : kind nat) : py := match l with Pandas => PyObj | Polars => PyNone end.
Definition ex_json (obj : nat -> py) := report_json ex_num ex_seconds Nat.leb ex_scale ex_qidx ex_sort obj ex_null (fun _ => "2020-01-01") (fun _ => Fin 0) (fun _ => FNaN) (fun _ => (0, 0)%Z) (fun p _ => p) (fun _ => "Int64").
Definition ex_texts : column nat := {| clib := Pandas; ckind := KOther; cells := [Val 4; Null; Val 4] |}.
Definition ex_days : column nat := {| clib := Pandas; ckind := KDuration; cells := [Val 4; Val 4; Val 4] |}.
Definition ex_pair : association := {| left_name := "a"; left_pos := 0; right_name := "b"; right_pos := 1; cramer_v := Fin 1; pearson := None |}.
Definition ex_options (top : option (list association)) : options := {| title := Some (PyStr "t"); order_by := Some (PyStr "a", [2; 0; 1]); with_plots := false; top := top |}.
Lemma ex_options_ok : forall top, OptionsOk 3 (ex_options top).
Proof.
  intros top b rows E. injection E as <- <-. cbn. apply perm_trans with [0; 2; 1]; [apply perm_swap|]. apply perm_skip. apply perm_swap.
Qed.
Lemma ex_json_wf : forall nc, In nc [(PyStr "a", ex_texts); (PyStr "b", ex_texts)] -> WF 3 (snd nc).
Proof. intros nc [<-|[<-|[]]]; cbn; constructor; try reflexivity; discriminate. Qed.
Example ex_C120 : exists j cols jc, ex_json ex_obj Pandas 3 [(PyStr "a", ex_texts); (PyStr "b", ex_texts)] (ex_options (Some [ex_pair])) = Ok j /\ ~ Standard j /\
  field "n_rows" j = Some (JInt 3) /\ field "columns" j = Some (JArr cols) /\ nth_error cols 1 = Some jc /\ field "name" jc = Some (JStr "b") /\ field "null_count" jc = Some (JInt 1).
Proof.
  destruct (C120_written ex_num ex_seconds Nat.leb ex_scale ex_qidx ex_sort ex_qidx_ok ex_sort_ok ex_date_order ex_obj ex_null (fun _ => "2020-01-01") (fun _ => Fin 0) (fun _ => FNaN) (fun _ => (0, 0)%Z)
    (fun p _ => p) (fun _ => "Int64") Pandas 3 [(PyStr "a", ex_texts); (PyStr "b", ex_texts)] (ex_options (Some [ex_pair])) (ex_options_ok _) ex_json_wf) as (j & E).
  - intros t Q. injection Q as <-. constructor.
  - intros b rows Q. injection Q as <- _. constructor.
  - intros name col [Q|[Q|[]]]; injection Q as <- <-; (split; [constructor|left; intros v _; constructor]).
  - destruct (C120_content ex_num ex_seconds Nat.leb ex_scale ex_qidx ex_sort ex_sort_ok ex_date_order _ _ _ _ _ _ _ _ _ _ _ _ j (ex_options_ok _) ex_json_wf E) as (R & _ & _ & cols & Ec & _ & N).
    destruct (N 1 (PyStr "b") ex_texts eq_refl) as (jc & Ej & _ & (jn & Dn & En) & k & Nk & Ek). exists j, cols, jc. inversion Dn; subst.
    assert (k = 1).
    { apply (number_fun _ _ _ _ Nk). apply Number_no; [intros [X|X]; discriminate|]. apply (Number_yes _ _ _ 0); [left; reflexivity|]. apply Number_no; [intros [X|X]; discriminate|]. constructor. }
    subst k. repeat split; try assumption. exact (C120_nan_refuted _ _ _ _ _ _ _ _ _ _ _ _ _ _ _ _ _ j [ex_pair] ex_pair E eq_refl (or_introl eq_refl) eq_refl).
Qed.
Example ex_C120_durations : ex_json ex_timedelta Pandas 3 [(PyStr "d", ex_days)] (ex_options None) = Err TypeError.
Proof.
  apply (C120_durations_refuted ex_num ex_seconds Nat.leb ex_scale ex_qidx ex_sort ex_qidx_ok ex_sort_ok ex_date_order _ _ _ _ _ _ _ _ _ _ _ _ (PyStr "d") ex_days 4 (ex_options_ok _)).
  - intros nc [<-|[]]. cbn. constructor; try reflexivity; discriminate.
  - left. reflexivity.
  - reflexivity.
  - intros c [<-|[<-|[<-|[]]]]; reflexivity.
  - discriminate.
  - intros W. inversion W.
Qed.
(** a name that cannot be written (such as a date) *)
Example ex_C120_exact : ex_json ex_obj Polars 3 [(PyObj, ex_texts)] (ex_options None) = Err TypeError.
Proof.
  assert (W : forall nc, In nc [(PyObj, ex_texts)] -> WF 3 (snd nc)) by (intros nc [<-|[]]; cbn; constructor; try reflexivity; discriminate).
  destruct (C120_exact ex_num ex_seconds Nat.leb ex_scale ex_qidx ex_sort ex_sort_ok ex_obj ex_null (fun _ => "2020-01-01") (fun _ => Fin 0) (fun _ => FNaN) (fun _ => (0, 0)%Z)
    (fun p _ => p) (fun _ => "Int64") Polars 3 [(PyObj, ex_texts)] (ex_options None) (ex_options_ok _) W) as [[X _] Y].
  unfold ex_json. destruct (report_json _ _ _ _ _ _ _ _ _ _ _ _ _ _ _ _ _ _) as [j|e]; [|f_equal; apply Y; reflexivity]. exfalso.
  assert (Wo : Writable PyObj) by (apply (X (ex_intro _ j eq_refl)); apply RO_name with ex_texts; left; reflexivity). inversion Wo.
Qed.
