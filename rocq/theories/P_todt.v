(** Theorems about parsing datetimes (C68-C71). *)
From Verif Require Import Base M_todt L_todt.
Open Scope list_scope.
Open Scope nat_scope.

Section Theorems.
  Context {TZ Name S F O : Type} `{EqD F}.
  Variable UTC : TZ.
  Variable tz_name : TZ -> option Name.
  Variable zone_of : Name -> option TZ.
  Notation column := (column TZ S O).
  Notation cell := (@cell S O).
  Variable parse : lib -> F -> cell -> option Z.
  Variable infer : list cell -> cell -> option Z.
  Variable has_offset : F -> bool.
  Variable default_resolution : lib -> Z.
  Variable guess : bool -> S -> option F.
  Variable pick : nat -> nat -> list nat.
  Notation fit := (fit_transform UTC parse infer has_offset default_resolution guess pick).
  Notation tr := (transform UTC tz_name zone_of parse infer has_offset default_resolution).
  Notation sampled := (sampled (S := S) (O := O) pick).
  Notation not_null := (filter (fun c : cell => negb (is_null c))).
  Hypothesis default_pos : forall l, (0 < default_resolution l)%Z.
  Hypothesis pick_ok : PickOk pick.

  (** C68: when a column of strings is accepted, all its entries that are not null were parsed with the same format:
      the given one, or the one that was guessed for all entries of the sample. *)
  Theorem C68_accepted : forall format st st' col out, Strings col -> fit format st col = (st', Ok out) ->
    exists f, Chosen guess format (sampled (cells col)) f /\ format_ st' = Some (Some f) /\ clib out = clib col /\
      exists d, cdtype out = DTime d /\ output_ st' = Some d /\ zone d = (if has_offset f then Some UTC else None) /\
        Forall2 (AllParsed (parse (clib col) f) (resolution d)) (cells col) (cells out).
  Proof using default_pos.
    intros format st st' col out X E. destruct (fit_ok UTC parse infer has_offset default_resolution guess pick default_pos format st st' col out X E) as (f & C & E1 & E2 & E3 & E4 & E5 & _).
    exists f. split; [exact C|]. split; [exact E1|]. split; [exact E3|]. eexists. split; [exact E4|]. split; [exact E2|]. split; [reflexivity|exact E5].
  Qed.
  (** C68: and it is accepted if all entries can be parsed with this format. *)
  Theorem C68_accepts : forall format st col f, Strings col -> Chosen guess format (sampled (cells col)) f ->
    (forall c, In c (cells col) -> c <> CNull -> exists t, parse (clib col) f c = Some t) -> exists st' out, fit format st col = (st', Ok out) /\ format_ st' = Some (Some f).
  Proof using default_pos. exact (fit_total UTC parse infer has_offset default_resolution guess pick default_pos). Qed.
  (** C68: columns of datetimes are returned unchanged, others are rejected, and no other exception is raised. *)
  Theorem C68_dates : forall format st col d, cdtype col = DTime d -> exists st', fit format st col = (st', Ok col) /\ output_ st' = Some d.
  Proof using. intros format st col d E. rewrite (fit_dates UTC parse infer has_offset default_resolution guess pick format st col d E). eexists. split; reflexivity. Qed.
  Theorem C68_others : forall format st col, ~ Dates col -> ~ Strings col -> fit format st col = (st, Err RejectColumn).
  Proof using. exact (fit_other UTC parse infer has_offset default_resolution guess pick). Qed.
  Theorem C68_errors : forall format st col st' e, fit format st col = (st', Err e) -> e = RejectColumn.
  Proof using default_pos. intros format st col st' e E. apply (fit_rejected UTC parse infer has_offset default_resolution guess pick default_pos format st col st' e E). Qed.
  (** C68: the function [to_datetime] never fails on a column; it converts it or returns it. *)
  Theorem C68_function : forall format col, exists out, to_datetime_column UTC parse infer has_offset default_resolution guess pick format col = Ok out /\
    (out = col \/ exists st, fit format unfitted col = (st, Ok out)).
  Proof using default_pos.
    intros format col. unfold to_datetime_column. destruct (fit format unfitted col) as [st [out|e]] eqn:E; cbn [snd].
    - exists out. split; [reflexivity|]. right. exists st. reflexivity.
    - destruct (fit_rejected UTC parse infer has_offset default_resolution guess pick default_pos format unfitted col st e E) as [-> _]. exists col. split; [reflexivity|]. left. reflexivity.
  Qed.

  (** C69: a column whose entries all look month first is read month first. *)
  Theorem C69_month_first : forall st col f, Strings col -> not_null (cells col) <> [] ->
    (forall c, In c (not_null (cells col)) -> exists s t, c = CStr s /\ guess false s = Some f /\ parse (clib col) f c = Some t) ->
    exists st' out, fit None st col = (st', Ok out) /\ format_ st' = Some (Some f).
  Proof using default_pos pick_ok.
    intros st col f X Ne A. apply C68_accepts; [exact X| |].
    - right. split; [reflexivity|]. left. split; [intros E; apply (sampled_nil pick pick_ok) in E; exact (Ne E)|]. intros c I. apply (sampled_incl pick pick_ok) in I. destruct (A c I) as (s & t & E & G & _). exists s. split; assumption.
    - intros c I N. destruct (A c) as (s & t & _ & _ & E); [|exists t; exact E]. apply filter_In. split; [exact I|]. apply negb_true_iff. destruct (is_null c) eqn:En; [apply is_null_iff in En; contradiction|reflexivity].
  Qed.
  (** C69: a column of at most 30 entries that all look day first, one of which can only be day first, is read day first. *)
  Theorem C69_day_first_partial : forall st col f, Strings col -> length (not_null (cells col)) <= 30 ->
    (forall c, In c (not_null (cells col)) -> exists s t, c = CStr s /\ guess true s = Some f /\ parse (clib col) f c = Some t) ->
    (exists s, In (CStr s) (not_null (cells col)) /\ guess false s = Some f) ->
    exists st' out, fit None st col = (st', Ok out) /\ format_ st' = Some (Some f).
  Proof using default_pos pick_ok.
    intros st col f X L A (s0 & I0 & G0).
    assert (Ne : sampled (cells col) <> []) by (intros E; apply (sampled_nil pick pick_ok) in E; rewrite E in I0; destruct I0).
    apply C68_accepts; [exact X| |].
    - right. split; [reflexivity|].
      destruct (get_datetime_format guess pick None (cells col)) as [g|] eqn:Eg.
      + apply (format_iff guess pick) in Eg. destruct Eg as [E|[_ [C|[N C]]]]; [discriminate| |].
        * assert (g = f). { destruct C as [_ C]. destruct (C (CStr s0)) as (s & E & G); [apply (sampled_all pick pick_ok _ L); exact I0|]. injection E as <-. congruence. } subst g. left. exact C.
        * right. split; [exact N|]. split; [exact Ne|]. intros c I. apply (sampled_incl pick pick_ok) in I. destruct (A c I) as (s & t & E & G & _). exists s. split; assumption.
      + assert (C : Common guess true (sampled (cells col)) f). { split; [exact Ne|]. intros c I. apply (sampled_incl pick pick_ok) in I. destruct (A c I) as (s & t & E & G & _). exists s. split; assumption. }
        right. split; [|exact C]. intros g C'. assert (X' : get_datetime_format guess pick None (cells col) = Some g). { apply (format_iff guess pick). right. split; [reflexivity|]. left. exact C'. } congruence.
    - intros c I N. destruct (A c) as (s & t & _ & _ & E); [|exists t; exact E]. apply filter_In. split; [exact I|]. apply negb_true_iff. destruct (is_null c) eqn:En; [apply is_null_iff in En; contradiction|reflexivity].
  Qed.
  (** C69 is wrong for 31 entries: whatever the positions that are sampled, there is a column of dates that can all be read day first,
      one of them in no other way, that is rejected. *)
  Theorem C69_refuted : forall l st a b month_first day_first,
    guess false a = Some month_first -> guess true a = Some day_first -> guess true b = Some day_first -> guess false b = Some day_first ->
    (exists t, parse l day_first (CStr a) = Some t) -> (exists t, parse l day_first (CStr b) = Some t) -> parse l month_first (CStr b) = None ->
    exists col, clib col = l /\ Strings col /\ length (cells col) = 31 /\
      (forall c, In c (cells col) -> exists s t, c = CStr s /\ guess true s = Some day_first /\ parse l day_first c = Some t) /\ In (CStr b) (cells col) /\
      exists st', fit None st col = (st', Err RejectColumn).
  Proof using default_pos pick_ok.
    intros l st a b mf df Ga1 Ga2 Gb1 Gb2 (ta & Pa) (tb & Pb) Pm.
    destruct (pick_ok 31 30) as (Ln & ND & B); [lia|].
    assert (J : exists j, j < 31 /\ ~ In j (pick 31 30)).
    { destruct (existsb (fun j => negb (mem j (pick 31 30))) (seq 0 31)) eqn:E.
      - apply existsb_exists in E. destruct E as (j & Ij & Nj). apply negb_true_iff, mem_false in Nj. exists j. apply in_seq in Ij. split; [lia|exact Nj].
      - exfalso. assert (I : incl (seq 0 31) (pick 31 30)).
        { intros j Ij. destruct (mem j (pick 31 30)) eqn:M; [apply mem_true; exact M|]. exfalso. assert (T : existsb (fun j => negb (mem j (pick 31 30))) (seq 0 31) = true); [|congruence].
          apply existsb_exists. exists j. split; [exact Ij|]. rewrite M. reflexivity. }
        apply NoDup_incl_length in I; [|apply seq_NoDup]. rewrite seq_length in I. lia. }
    destruct J as (j & Lj & Nj). set (g := fun i => if i =? j then b else a). set (cs := map (fun i => CStr (g i)) (seq 0 31) : list cell).
    exists {| clib := l; cdtype := DStr; cells := cs |}. cbn [clib cells]. split; [reflexivity|]. split; [left; reflexivity|].
    split; [unfold cs; rewrite map_length, seq_length; reflexivity|].
    assert (A : forall c, In c cs -> exists s t, c = CStr s /\ guess true s = Some df /\ parse l df c = Some t).
    { intros c I. apply in_map_iff in I. destruct I as (i & <- & _). exists (g i). unfold g. destruct (i =? j); [exists tb|exists ta]; repeat split; assumption. }
    split; [exact A|]. assert (Ib : In (CStr b) cs). { apply in_map_iff. exists j. unfold g. rewrite Nat.eqb_refl. split; [reflexivity|]. apply in_seq. lia. } split; [exact Ib|].
    assert (NN : not_null cs = cs). { unfold cs. clear. induction (seq 0 31) as [|i is IH]; [reflexivity|]. cbn. f_equal. exact IH. }
    assert (Sm : sampled cs = map (fun _ => CStr a) (pick 31 30)).
    { unfold M_todt.sampled. rewrite NN. replace (length cs) with 31 by (unfold cs; rewrite map_length, seq_length; reflexivity). change (Nat.min SAMPLE_SIZE 31) with 30.
      apply map_ext_in. intros i Ii. rewrite Forall_forall in B. specialize (B i Ii). unfold cs. rewrite (nth_indep _ CNull (CStr (g 0))) by (rewrite map_length, seq_length; exact B).
      change (CStr (g 0)) with ((fun i => CStr (g i) : cell) 0). rewrite map_nth, seq_nth by exact B. cbn. unfold g. destruct (Nat.eqb_spec i j) as [->|]; [contradiction|reflexivity]. }
    rewrite (fit_strings UTC parse infer has_offset default_resolution guess pick default_pos None st) by (left; reflexivity). cbn [cells clib].
    assert (Ef : get_datetime_format guess pick None cs = Some mf).
    { apply (format_iff guess pick). right. split; [reflexivity|]. left. rewrite Sm. split; [destruct (pick 31 30); [discriminate Ln|discriminate]|]. intros c I. apply in_map_iff in I. destruct I as (_ & <- & _). exists a. split; [reflexivity|assumption]. }
    rewrite Ef. destruct (parse_all UTC default_resolution l (parse l mf) (has_offset mf) true cs) as [o|e] eqn:Ep; [|eexists; reflexivity]. exfalso.
    apply (parse_all_strict UTC default_resolution default_pos) in Ep. destruct Ep as (_ & _ & P & _). clear - P Ib Pm. induction P as [|c c' cs cs' P1 P IH]; [destruct Ib|]. destruct Ib as [->|Ib]; [|exact (IH Ib)].
    inversion P1; congruence.
  Qed.

  Hypothesis utc_named : exists n z, tz_name UTC = Some n /\ zone_of n = Some z.

  (** C70: after a fit, all outputs of [transform] have the type of the output of the fit, if time zones have names:
      datetimes are the same instants, strings are parsed with the format of the fit and give nulls if that fails. *)
  Theorem C70_transform : forall format st st' col0 out0 col f, WF col0 -> (forall d, cdtype col0 = DTime d -> Named tz_name zone_of d) ->
    fit format st col0 = (st', Ok out0) -> format_ st' = Some f -> WF col -> Accepted tz_name zone_of f col ->
    exists out d, tr st' col = Ok out /\ cdtype out0 = DTime d /\ Transformed parse infer default_resolution f d col out.
  Proof using default_pos utc_named.
    intros format st st' col0 out0 col f W0 N0 E Ef W A.
    destruct (fit_named UTC tz_name zone_of parse infer has_offset default_resolution guess pick default_pos utc_named format st st' col0 out0 W0 N0 E) as (f' & d & E1 & E2 & P & N & E3).
    assert (f' = f) by congruence. subst f'.
    destruct (L_todt.transform_ok UTC tz_name zone_of parse infer has_offset default_resolution default_pos utc_named st' f d col E1 E2 P N W A) as (out & E4 & T). exists out, d. split; [exact E4|]. split; [exact E3|exact T].
  Qed.
  (** C70: on the data of the fit it repeats the output of the fit. *)
  Theorem C70_same : forall format st st' col out, WF col -> (forall d, cdtype col = DTime d -> Named tz_name zone_of d) -> fit format st col = (st', Ok out) -> tr st' col = Ok out.
  Proof using default_pos utc_named. exact (transform_fit UTC tz_name zone_of parse infer has_offset default_resolution guess pick default_pos utc_named). Qed.
  (** C70 is wrong for polars: fitted on datetimes, it does not accept strings. *)
  Theorem C70_polars_refuted : forall format st d cs cs', exists st', fit format st {| clib := Polars; cdtype := DTime d; cells := cs |} = (st', Ok {| clib := Polars; cdtype := DTime d; cells := cs |}) /\
    tr st' {| clib := Polars; cdtype := DStr; cells := cs' |} = Err AttributeError.
  Proof using. intros format st d cs cs'. eexists. split; reflexivity. Qed.
  (** C70 is wrong for time zones without a name: fitted on such datetimes, it does not accept those of another zone. *)
  Theorem C70_unnamed_refuted : forall format st r z cs z' n cs', tz_name z = None -> tz_name z' = Some n ->
    exists st', fit format st {| clib := Pandas; cdtype := DTime {| resolution := r; zone := Some z |}; cells := cs |} = (st', Ok {| clib := Pandas; cdtype := DTime {| resolution := r; zone := Some z |}; cells := cs |}) /\
      tr st' {| clib := Pandas; cdtype := DTime {| resolution := r; zone := Some z' |}; cells := cs' |} = Err TypeError.
  Proof using.
    intros format st r z cs z' n cs' Nz Nz'. eexists. split; [reflexivity|]. unfold transform, convert_time_zone, is_localized, time_zone. cbn. rewrite Nz, Nz'. reflexivity.
  Qed.
  Theorem C70_unnamed_later_refuted : forall format st r z n cs z' cs', tz_name z = Some n -> tz_name z' = None ->
    exists st', fit format st {| clib := Pandas; cdtype := DTime {| resolution := r; zone := Some z |}; cells := cs |} = (st', Ok {| clib := Pandas; cdtype := DTime {| resolution := r; zone := Some z |}; cells := cs |}) /\
      tr st' {| clib := Pandas; cdtype := DTime {| resolution := r; zone := Some z' |}; cells := cs' |} = Err TypeError.
  Proof using.
    intros format st r z n cs z' cs' Nz Nz'. eexists. split; [reflexivity|]. unfold transform, convert_time_zone, is_localized, time_zone. cbn. rewrite Nz, Nz'. reflexivity.
  Qed.

  (** C71: a rejected fit does not change the type of the outputs. *)
  Theorem C71_partial : forall format st col st' e, fit format st col = (st', Err e) -> output_ st' = output_ st.
  Proof using default_pos. intros format st col st' e E. apply (fit_rejected UTC parse infer has_offset default_resolution guess pick default_pos format st col st' e E). Qed.
  (** C71 is wrong: a rejected fit replaces the format of the previous fit, and makes an unfitted converter look fitted. *)
  Theorem C71_refuted : forall f st col c, Strings col -> In c (cells col) -> c <> CNull -> parse (clib col) f c = None ->
    exists st', fit (Some f) st col = (st', Err RejectColumn) /\ format_ st' = Some (Some f) /\
      (st = unfitted -> tr st' col = Err AttributeError /\ tr st col = Err NotFittedError).
  Proof using default_pos.
    intros f st col c X I N P. rewrite (fit_strings UTC parse infer has_offset default_resolution guess pick default_pos (Some f) st col X). cbn [get_datetime_format].
    destruct (parse_all UTC default_resolution (clib col) (parse (clib col) f) (has_offset f) true (cells col)) as [o|e] eqn:Ep.
    - exfalso. apply (parse_all_strict UTC default_resolution default_pos) in Ep. destruct Ep as (_ & _ & Q & _). clear - Q I P N. induction Q as [|x x' cs cs' P1 Q IH]; [destruct I|]. destruct I as [->|I]; [|exact (IH I)].
      inversion P1; congruence.
    - eexists. split; [reflexivity|]. split; [reflexivity|]. intros ->. split; [|reflexivity]. unfold transform. cbn [format_ output_ unfitted].
      unfold to_datetime. destruct X as [E|[E1 E2]]; [rewrite E; destruct (clib col); reflexivity|rewrite E2, E1; reflexivity].
  Qed.
End Theorems.

Print Assumptions C68_accepted.
Print Assumptions C68_accepts.
Print Assumptions C68_dates.
Print Assumptions C68_others.
Print Assumptions C68_errors.
Print Assumptions C68_function.
Print Assumptions C69_month_first.
Print Assumptions C69_day_first_partial.
Print Assumptions C69_refuted.
Print Assumptions C70_transform.
Print Assumptions C70_same.
Print Assumptions C70_polars_refuted.
Print Assumptions C70_unnamed_refuted.
Print Assumptions C70_unnamed_later_refuted.
Print Assumptions C71_partial.
Print Assumptions C71_refuted.

(** ** Examples: strings are two numbers, with the month first or the day first; zone 0 is UTC, zone 1 has a name, zone 2 has none *)
Definition ex_guess (dayfirst : bool) (s : nat * nat) : option bool :=
  let m := if fst s <=? 12 then Some false else None in
  let d := if snd s <=? 12 then Some true else None in
  if dayfirst then match d with Some f => Some f | None => m end else match m with Some f => Some f | None => d end.
Definition ex_parse (l : lib) (f : bool) (c : @cell (nat * nat) unit) : option Z :=
  match c with
  | CStr s => let (m, d) := if f then (snd s, fst s) else (fst s, snd s) in if m <=? 12 then Some (1000 * (Z.of_nat m * 31 + Z.of_nat d))%Z else None
  | _ => None
  end.
Definition ex_infer (cs : list (@cell (nat * nat) unit)) := ex_parse Pandas false.
Definition ex_name (z : nat) : option nat := if z =? 2 then None else Some z.
Definition ex_zone (n : nat) : option nat := Some n.
Definition ex_pick (len n : nat) : list nat := seq 0 n.
Definition ex_fit := fit_transform 0 ex_parse ex_infer (fun _ => false) (fun _ => 10%Z) ex_guess ex_pick.
Definition ex_tr := transform 0 ex_name ex_zone ex_parse ex_infer (fun _ => false) (fun _ => 10%Z).
Lemma ex_pick_ok : PickOk ex_pick.
Proof. intros len n L. unfold ex_pick. split; [apply seq_length|]. split; [apply seq_NoDup|]. apply Forall_forall. intros i I. apply in_seq in I. lia. Qed.
Definition ex_col : column nat (nat * nat) unit := {| clib := Pandas; cdtype := DObj; cells := [CStr (3, 5); CNull; CStr (23, 5)] |}.
Definition ex_out : column nat (nat * nat) unit :=
  {| clib := Pandas; cdtype := DTime {| resolution := 10; zone := None |}; cells := [CTime 158000; CNull; CTime 178000] |}.
Example ex_C68 : ex_fit None unfitted ex_col = ({| format_ := Some (Some true); output_ := Some {| resolution := 10; zone := None |} |}, Ok ex_out) /\ Strings ex_col.
Proof. split; [vm_compute; reflexivity|]. right. split; reflexivity. Qed.
Example ex_C69_day_first : exists st' out, ex_fit None unfitted ex_col = (st', Ok out) /\ format_ st' = Some (Some true).
Proof.
  apply (C69_day_first_partial 0 ex_parse ex_infer (fun _ => false) (fun _ => 10%Z) ex_guess ex_pick (fun _ => eq_refl) ex_pick_ok); [right; split; reflexivity|cbn; lia| |].
  - intros c [<-|[<-|[]]]; eexists; eexists; repeat split.
  - exists (23, 5). split; [right; left; reflexivity|reflexivity].
Qed.
Example ex_C69_refuted : exists col : column nat (nat * nat) unit, length (cells col) = 31 /\ exists st', ex_fit None unfitted col = (st', Err RejectColumn).
Proof.
  destruct (C69_refuted 0 ex_parse ex_infer (fun _ => false) (fun _ => 10%Z) ex_guess ex_pick (fun _ => eq_refl) ex_pick_ok Pandas unfitted (3, 5) (23, 5) false true) as (col & _ & _ & L & _ & _ & R);
    try reflexivity; try (eexists; reflexivity). exists col. split; [exact L|exact R].
Qed.
(** fitted on strings without zone; later datetimes have a zone, or a finer resolution, or cannot be parsed *)
Definition ex_st : state nat bool := {| format_ := Some (Some true); output_ := Some {| resolution := 10; zone := None |} |}.
Example ex_C70 : ex_tr ex_st ex_col = Ok ex_out /\
  ex_tr ex_st {| clib := Pandas; cdtype := DStr; cells := [CStr (5, 13); CStr (13, 5)] |} =
    Ok {| clib := Pandas; cdtype := DTime {| resolution := 10; zone := None |}; cells := [CNull; CTime 168000] |} /\
  ex_tr ex_st {| clib := Pandas; cdtype := DTime {| resolution := 1; zone := Some 1 |}; cells := [CTime 25] |} =
    Ok {| clib := Pandas; cdtype := DTime {| resolution := 10; zone := None |}; cells := [CTime 20] |}.
Proof. repeat split; vm_compute; reflexivity. Qed.
Example ex_C70_same : ex_tr ex_st ex_col = Ok ex_out.
Proof.
  apply (C70_same 0 ex_name ex_zone ex_parse ex_infer (fun _ => false) (fun _ => 10%Z) ex_guess ex_pick (fun _ => eq_refl)) with (format := None) (st := unfitted);
    [exists 0, 0; split; reflexivity|exact Logic.I|discriminate|vm_compute; reflexivity].
Qed.
Example ex_C70_unnamed : ex_name 2 = None /\ ex_name 1 = Some 1 /\
  ex_tr {| format_ := Some None; output_ := Some {| resolution := 1; zone := Some 1 |} |} {| clib := Pandas; cdtype := DTime {| resolution := 1; zone := Some 2 |}; cells := [CTime 25] |} = Err TypeError /\
  ex_tr {| format_ := Some None; output_ := Some {| resolution := 1; zone := Some 2 |} |} {| clib := Pandas; cdtype := DTime {| resolution := 1; zone := Some 1 |}; cells := [CTime 25] |} = Err TypeError.
Proof. repeat split; vm_compute; reflexivity. Qed.
Example ex_C71 : exists st', ex_fit (Some false) ex_st ex_col = (st', Err RejectColumn) /\ format_ st' = Some (Some false).
Proof.
  destruct (C71_refuted 0 ex_name ex_zone ex_parse ex_infer (fun _ => false) (fun _ => 10%Z) ex_guess ex_pick (fun _ => eq_refl) false ex_st ex_col (CStr (23, 5))) as (st' & E1 & E2 & _);
    [right; split; reflexivity|right; right; left; reflexivity|discriminate|reflexivity|]. exists st'. split; assumption.
Qed.
