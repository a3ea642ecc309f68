(** C50, C64: DatetimeEncoder. *)
From Verif Require Import Base M_names M_dtencoder L_names L_dtencoder.
Open Scope string_scope.
Open Scope list_scope.
Open Scope nat_scope.

(** For valid parameters (with a resolution if there is a periodic encoding), the advertised names are the names of the
    output, which are distinct, exactly when: there is no periodic encoding, or the column is a date, or the weekday is
    added, or the resolution is not finer than the hour. *)
Theorem C50_advertised : forall {T F} get_dt_feature midnight circular spline (zero : F) draw p (c : @column T) date,
  (date = true <-> forall t, In (Some t) (cdata c) -> midnight t = true) ->
  Valid p -> cdate c = true -> Resolved p -> Named p c -> Rows p c -> ~ SubString "__skrub" (shown (cname c)) ->
  exists st out, fit_transform get_dt_feature midnight circular spline zero draw p c = Ok (st, out) /\ NoDup (column_names out) /\
    (all_outputs st = column_names out <-> Advertises p date).
Proof. intros. apply encoder_advertised'; assumption. Qed.
Print Assumptions C50_advertised.

(** With a periodic encoding and no resolution, every column of dates fails. *)
Theorem C50_no_resolution_refuted : forall {T F} get_dt_feature midnight circular spline (zero : F) draw p (c : @column T),
  Valid p -> cdate c = true -> resolution p = None -> periodic_encoding p <> None ->
  fit_transform get_dt_feature midnight circular spline zero draw p c = Err UnboundLocalError.
Proof. intros. apply encoder_unresolved; assumption. Qed.
Print Assumptions C50_no_resolution_refuted.

(** With a periodic encoding of some feature, names that are not strings fail. *)
Theorem C50_names_refuted : forall {T F} get_dt_feature midnight circular spline (zero : F) draw p (c : @column T) s e,
  Valid p -> cdate c = true -> cname c = POther s -> periodic_encoding p = Some e ->
  (exists r, resolution p = Some r /\ (r <> "year" \/ add_weekday p = true \/ add_day_of_year p = true)) ->
  fit_transform get_dt_feature midnight circular spline zero draw p c = Err TypeError.
Proof. intros. eapply encoder_unnamed; eassumption. Qed.
Print Assumptions C50_names_refuted.

(** The columns are those expected from the parameters, at fit and later. *)
Theorem C64_columns : forall {T F} get_dt_feature midnight circular spline (zero : F) draw p (c : @column T) date,
  (date = true <-> forall t, In (Some t) (cdata c) -> midnight t = true) ->
  Valid p -> cdate c = true -> Resolved p -> Named p c -> Rows p c -> ~ SubString "__skrub" (shown (cname c)) ->
  exists st, fit_transform get_dt_feature midnight circular spline zero draw p c =
      Ok (st, expected_frame get_dt_feature circular spline p date (shown (cname c)) (cdata c)) /\
    forall draw' c', shown (cname c') = shown (cname c) -> Rows p c' ->
      transform get_dt_feature circular spline zero draw' st c' =
      Ok (expected_frame get_dt_feature circular spline p date (shown (cname c)) (cdata c')).
Proof. intros. apply encoder_outputs'; assumption. Qed.
Print Assumptions C64_columns.
(** Each of them has a value exactly where the datetime is not null. *)
Theorem C64_nulls : forall {T F} get_dt_feature circular spline p date name (data : list (option T)) (col : list (option F)),
  In col (column_data (expected_frame get_dt_feature circular spline p date name data)) ->
  exists g : T -> F, Forall2 (fun v x => x = match v with Some t => Some (g t) | None => None end) data col.
Proof. intros until col. apply frame_nulls. Qed.
Print Assumptions C64_nulls.

(** Datetimes as pairs of a day and a second; features as terms. *)
Inductive term := Feature (f : string) (t : nat * nat) | Zero | Sin (period : nat) (x : term) | Cos (period : nat) (x : term) | Basis (period n i : nat) (x : term).
Definition ex_circular (period i : nat) (x : term) := match i with 0 => Sin period x | _ => Cos period x end.
Definition ex_col : @column (nat * nat) := {| cname := PStr "login"; cdate := true; cdata := [Some (3, 10); None] |}.
Definition ex_dates : @column (nat * nat) := {| cname := PStr "birth"; cdate := true; cdata := [Some (3, 0); None] |}.
Definition ex_midnight (t : nat * nat) : bool := snd t =? 0.
Definition ex_draw (i : nat) : string := "00000000".
Definition ex_fit := fit_transform Feature ex_midnight ex_circular Basis Zero ex_draw.
Definition ex_default : params :=
  {| resolution := Some "hour"; add_weekday := false; add_total_seconds := true; add_day_of_year := false; periodic_encoding := None |}.
Definition ex_periodic (r : option string) : params :=
  {| resolution := r; add_weekday := false; add_total_seconds := true; add_day_of_year := true; periodic_encoding := Some "circular" |}.

Example ex_default_out : exists st, ex_fit ex_default ex_dates =
  Ok (st, [("birth_year", [Some (Feature "year" (3, 0)); None]); ("birth_month", [Some (Feature "month" (3, 0)); None]);
           ("birth_day", [Some (Feature "day" (3, 0)); None]); ("birth_total_seconds", [Some (Feature "total_seconds" (3, 0)); None])]) /\
  all_outputs st = ["birth_year"; "birth_month"; "birth_day"; "birth_total_seconds"].
Proof. eexists. split; reflexivity. Qed.
Example ex_periodic_out : exists st, ex_fit (ex_periodic (Some "month")) ex_col =
  Ok (st, [("login_year", [Some (Feature "year" (3, 10)); None]); ("login_total_seconds", [Some (Feature "total_seconds" (3, 10)); None]);
           ("login_month_circular_0", [Some (Sin 12 (Feature "month" (3, 10))); None]); ("login_month_circular_1", [Some (Cos 12 (Feature "month" (3, 10))); None]);
           ("login_day_of_year_circular_0", [Some (Sin 366 (Feature "day_of_year" (3, 10))); None]);
           ("login_day_of_year_circular_1", [Some (Cos 366 (Feature "day_of_year" (3, 10))); None])]).
Proof. eexists. vm_compute. reflexivity. Qed.
Example ex_periodic_advertised : exists st out, ex_fit (ex_periodic (Some "month")) ex_col = Ok (st, out) /\ NoDup (column_names out) /\
  (all_outputs st = column_names out <-> Advertises (ex_periodic (Some "month")) false).
Proof.
  apply C50_advertised.
  - split; [discriminate|]. intros A. exact (A (3, 10) (or_introl eq_refl)).
  - split; [simpl; auto|left; reflexivity].
  - reflexivity.
  - right. discriminate.
  - intros _. eexists. reflexivity.
  - intros E. discriminate.
  - intros S0. apply SubString_length in S0. simpl in S0. lia.
Qed.
(** The encodings of the weekday are advertised, and not output. *)
Example ex_minute : exists st out, ex_fit (ex_periodic (Some "minute")) ex_col = Ok (st, out) /\
  In "login_weekday_circular_0" (all_outputs st) /\ ~ In "login_weekday_circular_0" (column_names out).
Proof.
  eexists. eexists. split; [vm_compute; reflexivity|]. split; [simpl; tauto|]. simpl. intuition discriminate.
Qed.
Example ex_no_resolution : ex_fit (ex_periodic None) ex_col = Err UnboundLocalError.
Proof. reflexivity. Qed.
Example ex_int_name : ex_fit (ex_periodic (Some "month")) {| cname := POther "0"; cdate := true; cdata := [Some (3, 10)] |} = Err TypeError.
Proof. reflexivity. Qed.
(** The tag of a name moves to the end of the output names, not of the advertised ones. *)
Example ex_tagged : exists st out,
  ex_fit {| resolution := Some "year"; add_weekday := false; add_total_seconds := false; add_day_of_year := false; periodic_encoding := None |}
    {| cname := PStr "d__skrub_12345678__"; cdate := true; cdata := [Some (3, 10)] |} = Ok (st, out) /\
  all_outputs st = ["d__skrub_12345678___year"] /\ column_names out = ["d_year__skrub_12345678__"].
Proof. eexists. eexists. split; [vm_compute; reflexivity|]. split; reflexivity. Qed.

(** Hence the advertised names are not always those of the output, even without periodic encoding. *)
Theorem C50_tag_refuted : exists draw p (c : @column (nat * nat)) st out, Valid p /\ periodic_encoding p = None /\ cdate c = true /\
  fit_transform Feature ex_midnight ex_circular Basis Zero draw p c = Ok (st, out) /\ all_outputs st <> column_names out.
Proof.
  destruct ex_tagged as (st & out & E & A & B). exists ex_draw. eexists. eexists. exists st, out.
  split; [|split; [|split; [|split; [exact E|rewrite A, B; discriminate]]]]; [split; simpl; auto|reflexivity|reflexivity].
Qed.
Print Assumptions C50_tag_refuted.
