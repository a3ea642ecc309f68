(** Specification and lemmas for C68-C71. *)
From Verif Require Import Base M_todt.
Open Scope list_scope.
Open Scope nat_scope.

Section Todt.
  Context {TZ Name S F O : Type} `{EqD F}.
  Variable UTC : TZ.
  Variable tz_name : TZ -> option Name.
  Variable zone_of : Name -> option TZ.
  Notation column := (column TZ S O).
  Notation cell := (@cell S O).
  Variable parse : lib -> F -> cell -> option Z.
  Variable infer : list cell -> cell -> option Z.
  Variable has_offset : F -> bool.
  Variable default_resolution : lib -> Z.
  Variable guess : bool -> S -> option F.
  Variable pick : nat -> nat -> list nat.
  Notation to_dt := (to_datetime UTC parse infer has_offset default_resolution).
  Notation fit := (fit_transform UTC parse infer has_offset default_resolution guess pick).
  Notation tr := (transform UTC tz_name zone_of parse infer has_offset default_resolution).
  Notation sampled := (sampled (S := S) (O := O) pick).

  (** sampling without replacement *)
  Definition PickOk : Prop := forall len n, n <= len -> length (pick len n) = n /\ NoDup (pick len n) /\ Forall (fun i => i < len) (pick len n).
  (** datetimes have the resolution of their column *)
  Definition WF (col : column) : Prop :=
    match cdtype col with
    | DTime d => (0 < resolution d)%Z /\ Forall (fun c => c = CNull \/ exists t, c = CTime (resolution d * t)) (cells col)
    | _ => True
    end.
  Definition Dates (col : column) : Prop := exists d, cdtype col = DTime d.
  Definition Strings (col : column) : Prop := cdtype col = DStr \/ (clib col = Pandas /\ cdtype col = DObj).

  (** one entry, parsed by [p] and stored with the resolution [r]: the largest multiple of [r] that is not later *)
  Inductive Floor (r : Z) : Z -> Z -> Prop := Floor_intro : forall t k, (r * k <= t < r * (k + 1))%Z -> Floor r t (r * k).
  Inductive Parsed (p : cell -> option Z) (r : Z) : cell -> cell -> Prop :=
  | Parsed_null : Parsed p r CNull CNull
  | Parsed_time : forall c t t', c <> CNull -> p c = Some t -> Floor r t t' -> Parsed p r c (CTime t')
  | Parsed_bad : forall c, c <> CNull -> p c = None -> Parsed p r c CNull.
  (** no entry is lost *)
  Inductive AllParsed (p : cell -> option Z) (r : Z) : cell -> cell -> Prop :=
  | AllParsed_null : AllParsed p r CNull CNull
  | AllParsed_time : forall c t t', c <> CNull -> p c = Some t -> Floor r t t' -> AllParsed p r c (CTime t').
  (** the same instants with the resolution [r] *)
  Inductive SameTime (r : Z) : cell -> cell -> Prop :=
  | SameTime_null : SameTime r CNull CNull
  | SameTime_time : forall t t', Floor r t t' -> SameTime r (CTime t) (CTime t').

  Lemma floor_ok : forall r t, (0 < r)%Z -> Floor r t (to_res r t).
  Proof.
    intros r t P. unfold to_res. rewrite Z.mul_comm. apply Floor_intro. pose proof (Z.div_mod t r). pose proof (Z.mod_pos_bound t r). nia.
  Qed.
  Lemma to_res_mul : forall r t, (0 < r)%Z -> to_res r (r * t) = (r * t)%Z.
  Proof. intros r t P. unfold to_res. rewrite (Z.mul_comm r t), Z.div_mul by lia. reflexivity. Qed.
  Lemma is_null_iff : forall c : cell, is_null c = true <-> c = CNull.
  Proof. intros []; cbn; split; congruence. Qed.

  Hypothesis default_pos : forall l, (0 < default_resolution l)%Z.

  Lemma parsed_ok : forall p r c, (0 < r)%Z -> Parsed p r c (parsed p r c).
  Proof.
    clear. intros p r c P. unfold parsed. destruct (is_null c) eqn:E; [apply is_null_iff in E; subst; constructor|].
    assert (N : c <> CNull) by (intros ->; discriminate). destruct (p c) as [t|] eqn:Ep; [|constructor; assumption].
    econstructor; [exact N|exact Ep|apply floor_ok; exact P].
  Qed.
  Lemma forall2_map : forall A B (P : A -> B -> Prop) (f : A -> B) l, (forall a, In a l -> P a (f a)) -> Forall2 P l (map f l).
  Proof. clear. induction l as [|a l IH]; intros F; cbn; constructor; [apply F; left; reflexivity|apply IH; intros; apply F; right; assumption]. Qed.

  Lemma parse_all_strict : forall l (p : cell -> option Z) utc cs out, parse_all UTC default_resolution l p utc true cs = Ok out ->
    clib out = l /\ cdtype out = DTime {| resolution := default_resolution l; zone := if utc then Some UTC else None |} /\
    Forall2 (AllParsed p (default_resolution l)) cs (cells out) /\ out = {| clib := l; cdtype := cdtype out; cells := map (parsed p (default_resolution l)) cs |}.
  Proof.
    intros l p utc cs out E. unfold parse_all in E. cbn [andb] in E. destruct (existsb _ cs) eqn:X; [discriminate|].
    injection E as <-. cbn. repeat split. apply forall2_map. intros c I. pose proof (parsed_ok p (default_resolution l) c (default_pos l)) as P.
    inversion P as [E1 E2|? t t' N Ep Fl E1 E2|? N Ep E1 E2].
    - constructor.
    - econstructor; eassumption.
    - exfalso. assert (T : existsb (fun c => negb (is_null c) && match p c with None => true | Some _ => false end)%bool cs = true).
      { apply existsb_exists. exists c. split; [exact I|]. rewrite Ep. destruct (is_null c) eqn:Ec; [apply is_null_iff in Ec; contradiction|reflexivity]. }
      congruence.
  Qed.
  Lemma parse_all_strict_total : forall l (p : cell -> option Z) utc cs, (forall c, In c cs -> c <> CNull -> exists t, p c = Some t) ->
    exists out, parse_all UTC default_resolution l p utc true cs = Ok out.
  Proof.
    clear. intros l p utc cs A. unfold parse_all. cbn [andb]. destruct (existsb _ cs) eqn:X; [|eexists; reflexivity]. exfalso.
    apply existsb_exists in X. destruct X as (c & I & X). apply andb_true_iff in X. destruct X as [X1 X2].
    destruct (A c I) as (t & Et); [intros ->; discriminate|]. rewrite Et in X2. discriminate.
  Qed.

  (** the format used: the given one, or the one guessed from the sample *)
  Definition Common (dayfirst : bool) (l : list cell) (f : F) : Prop := l <> [] /\ forall c, In c l -> exists s, c = CStr s /\ guess dayfirst s = Some f.
  Definition Chosen (format : option F) (l : list cell) (f : F) : Prop :=
    format = Some f \/ (format = None /\ (Common false l f \/ ((forall g, ~ Common false l g) /\ Common true l f))).

  Lemma strings_of_ok : forall l r, strings_of (S := S) (O := O) l = Some r <-> l = map (fun s => CStr s) r.
  Proof.
    clear. induction l as [|c l IH]; intros r; cbn.
    - split; [intros E; injection E as <-; reflexivity|]. destruct r; [reflexivity|discriminate].
    - destruct c as [|t|s|o]; try (split; [discriminate|destruct r; discriminate]).
      destruct (strings_of l) as [r'|] eqn:E.
      + split; [intros E'; injection E' as <-; cbn; f_equal; apply IH; reflexivity|]. destruct r as [|s' r]; [discriminate|]. cbn. intros E'. injection E' as -> E'. f_equal. f_equal.
        apply IH in E'. congruence.
      + split; [discriminate|]. destruct r as [|s' r]; [discriminate|]. cbn. intros E'. injection E' as -> E'. apply IH in E'. discriminate.
  Qed.
  Lemma unique_format_ok : forall d ss f, unique_format (map (guess d) ss) = Some f <-> Common d (map (fun s => CStr s) ss) f.
  Proof.
    clear. intros d ss f. unfold Common. split.
    - destruct ss as [|s ss]; [discriminate|]. cbn. destruct (guess d s) as [g|] eqn:Eg; [|discriminate]. destruct (forallb _ _) eqn:A; [|discriminate].
      intros E. injection E as ->. split; [discriminate|]. rewrite forallb_forall in A. intros c [<-|I]; [exists s; tauto|].
      apply in_map_iff in I. destruct I as (s' & <- & I). exists s'. split; [reflexivity|]. apply (in_map (guess d)) in I. apply A in I. apply (proj1 (eqb_of_true _ _)) in I. exact I.
    - intros [Ne A]. destruct ss as [|s ss]; [contradiction Ne; reflexivity|]. cbn. destruct (A (CStr s)) as (s0 & E & Eg); [left; reflexivity|]. injection E as <-. rewrite Eg.
      destruct (forallb _ _) eqn:X; [reflexivity|]. exfalso. assert (T : forallb (fun g => eqb_of g (Some f)) (map (guess d) ss) = true); [|congruence].
      apply forallb_forall. intros g I. apply in_map_iff in I. destruct I as (s' & <- & I). destruct (A (CStr s')) as (s0 & E & Eg'); [right; apply in_map; exact I|]. injection E as <-. rewrite Eg'. apply eqb_of_refl.
  Qed.
  Lemma format_iff : forall format cs f, get_datetime_format guess pick format cs = Some f <-> Chosen format (sampled cs) f.
  Proof.
    clear. intros format cs f. unfold get_datetime_format, Chosen. destruct format as [f0|].
    - split; [intros E; left; exact E|]. intros [E|[E _]]; [exact E|discriminate].
    - destruct (strings_of (sampled cs)) as [ss|] eqn:Es.
      + apply strings_of_ok in Es. rewrite Es. unfold guess_datetime_format. destruct (unique_format (map (guess false) ss)) as [g|] eqn:Eg.
        * apply unique_format_ok in Eg. split.
          -- intros E. injection E as <-. right. split; [reflexivity|]. left. exact Eg.
          -- intros [E|[_ [C|[N _]]]]; [discriminate| |exfalso; exact (N g Eg)]. apply unique_format_ok in C. apply unique_format_ok in Eg. congruence.
        * rewrite unique_format_ok. split.
          -- intros C. right. split; [reflexivity|]. right. split; [|exact C]. intros g C'. apply unique_format_ok in C'. congruence.
          -- intros [E|[_ [C|[_ C]]]]; [discriminate| |exact C]. apply unique_format_ok in C. congruence.
      + split; [discriminate|]. assert (N : forall d g, ~ Common d (sampled cs) g).
        { intros d g [_ A]. assert (X : exists r, sampled cs = map (fun s => CStr s) r).
          { clear Es. induction (sampled cs) as [|c l IH]; [exists []; reflexivity|]. destruct IH as (r & Er); [intros; apply A; right; assumption|].
            destruct (A c) as (s & -> & _); [left; reflexivity|]. exists (s :: r). cbn. congruence. }
          destruct X as (r & Er). apply strings_of_ok in Er. congruence. }
        intros [E|[_ [C|[_ C]]]]; [discriminate| |]; exfalso; exact (N _ _ C).
  Qed.

  (** *** fit *)
  Lemma fit_dates : forall format st col d, cdtype col = DTime d -> fit format st col = ({| format_ := Some None; output_ := Some d |}, Ok col).
  Proof. clear. intros format st col d E. unfold fit_transform. rewrite E. reflexivity. Qed.
  Lemma fit_other : forall format st col, ~ Dates col -> ~ Strings col -> fit format st col = (st, Err RejectColumn).
  Proof.
    clear. intros format st [l k cs] ND NS. unfold Dates, Strings in *. unfold fit_transform. cbn in *. destruct k as [d| | |].
    - exfalso. apply ND. exists d. reflexivity.
    - exfalso. apply NS. left. reflexivity.
    - destruct l; [|reflexivity]. exfalso. apply NS. right. tauto.
    - reflexivity.
  Qed.
  Lemma fit_strings : forall format st col, Strings col ->
    fit format st col =
      match get_datetime_format guess pick format (cells col) with
      | None => (st, Err RejectColumn)
      | Some f => match parse_all UTC default_resolution (clib col) (parse (clib col) f) (has_offset f) true (cells col) with
                  | Err _ => ({| format_ := Some (Some f); output_ := output_ st |}, Err RejectColumn)
                  | Ok out => ({| format_ := Some (Some f); output_ := Some {| resolution := default_resolution (clib col); zone := if has_offset f then Some UTC else None |} |}, Ok out)
                  end
      end.
  Proof.
    intros format st [l k cs] X. unfold Strings in X. cbn in X. unfold fit_transform. cbn [cdtype clib cells].
    assert (G : match get_datetime_format guess pick format cs with
        | None => (st, Err RejectColumn)
        | Some f => let st0 := {| format_ := Some (Some f); output_ := output_ st |} in
            match to_datetime UTC parse infer has_offset default_resolution {| clib := l; cdtype := k; cells := cs |} (Some f) true with
            | Err _ => (st0, Err RejectColumn)
            | Ok out => match cdtype out with DTime d => ({| format_ := Some (Some f); output_ := Some d |}, Ok out) | _ => (st0, Err AttributeError) end
            end
        end = match get_datetime_format guess pick format cs with
      | None => (st, Err RejectColumn)
      | Some f => match parse_all UTC default_resolution l (parse l f) (has_offset f) true cs with
                  | Err _ => ({| format_ := Some (Some f); output_ := output_ st |}, Err RejectColumn)
                  | Ok out => ({| format_ := Some (Some f); output_ := Some {| resolution := default_resolution l; zone := if has_offset f then Some UTC else None |} |}, Ok out)
                  end
      end).
    { destruct (get_datetime_format guess pick format cs) as [f|]; [|reflexivity].
      assert (E : to_dt {| clib := l; cdtype := k; cells := cs |} (Some f) true = parse_all UTC default_resolution l (parse l f) (has_offset f) true cs).
      { unfold to_datetime. cbn. destruct X as [->|[-> ->]]; [destruct l; reflexivity|reflexivity]. }
      rewrite E. destruct (parse_all _ _ _ _ _ _ _) as [out|e] eqn:Ep; [|reflexivity]. apply parse_all_strict in Ep. destruct Ep as (_ & -> & _). reflexivity. }
    destruct X as [->|[-> ->]]; exact G.
  Qed.
  Lemma fit_ok : forall format st st' col out, Strings col -> fit format st col = (st', Ok out) ->
    exists f, Chosen format (sampled (cells col)) f /\ format_ st' = Some (Some f) /\
      let d := {| resolution := default_resolution (clib col); zone := if has_offset f then Some UTC else None |} in
      output_ st' = Some d /\ clib out = clib col /\ cdtype out = DTime d /\ Forall2 (AllParsed (parse (clib col) f) (resolution d)) (cells col) (cells out) /\
      out = {| clib := clib col; cdtype := DTime d; cells := map (parsed (parse (clib col) f) (resolution d)) (cells col) |}.
  Proof.
    intros format st st' col out X E. rewrite (fit_strings format st col X) in E. destruct (get_datetime_format guess pick format (cells col)) as [f|] eqn:Ef; [|discriminate].
    apply format_iff in Ef. destruct (parse_all _ _ _ _ _ _ _) as [o|] eqn:Ep; [|discriminate].
    assert (Eo : o = out) by congruence. assert (Es : st' = {| format_ := Some (Some f); output_ := Some {| resolution := default_resolution (clib col); zone := if has_offset f then Some UTC else None |} |}) by congruence.
    subst o st'. clear E. apply parse_all_strict in Ep. destruct Ep as (E1 & E2 & E3 & E4). exists f. split; [exact Ef|]. split; [reflexivity|]. cbn zeta.
    split; [reflexivity|]. split; [exact E1|]. split; [exact E2|]. split; [exact E3|]. rewrite E2 in E4. exact E4.
  Qed.
  Lemma fit_total : forall format st col f, Strings col -> Chosen format (sampled (cells col)) f ->
    (forall c, In c (cells col) -> c <> CNull -> exists t, parse (clib col) f c = Some t) -> exists st' out, fit format st col = (st', Ok out) /\ format_ st' = Some (Some f).
  Proof.
    intros format st col f X C A. rewrite (fit_strings format st col X). apply format_iff in C. rewrite C.
    destruct (parse_all_strict_total (clib col) (parse (clib col) f) (has_offset f) (cells col) A) as (out & E). rewrite E. eexists. eexists. split; reflexivity.
  Qed.
  Lemma fit_rejected : forall format st col st' e, fit format st col = (st', Err e) -> e = RejectColumn /\ output_ st' = output_ st.
  Proof.
    intros format st col st' e E. destruct (cdtype col) as [d| | |] eqn:Ed.
    - rewrite (fit_dates format st col d Ed) in E. discriminate.
    - rewrite (fit_strings format st col (or_introl Ed)) in E. destruct (get_datetime_format _ _ _ _); [|split; congruence]. destruct (parse_all _ _ _ _ _ _ _); [discriminate|].
      split; [congruence|]. assert (st' = {| format_ := Some (Some f); output_ := output_ st |}) by congruence. subst st'. reflexivity.
    - destruct (clib col) eqn:El.
      + rewrite (fit_strings format st col (or_intror (conj El Ed))) in E. destruct (get_datetime_format _ _ _ _); [|split; congruence]. destruct (parse_all _ _ _ _ _ _ _); [discriminate|].
        split; [congruence|]. assert (st' = {| format_ := Some (Some f); output_ := output_ st |}) by congruence. subst st'. reflexivity.
      + rewrite fit_other in E; [split; congruence| |]. * intros (d & E'). congruence. * intros [E'|[E' _]]; congruence.
    - rewrite fit_other in E; [split; congruence| |]. * intros (d & E'). congruence. * intros [E'|[_ E']]; congruence.
  Qed.

  (** *** sampling *)
  Hypothesis pick_ok : PickOk.
  Notation not_null := (filter (fun c : cell => negb (is_null c))).
  Lemma sampled_incl : forall cs, incl (sampled cs) (not_null cs).
  Proof.
    intros cs c I. unfold M_todt.sampled in I. apply in_map_iff in I. destruct I as (i & <- & I). set (n := length (not_null cs)) in *.
    destruct (pick_ok n (Nat.min SAMPLE_SIZE n)) as (_ & _ & B); [lia|]. rewrite Forall_forall in B. apply nth_In. apply B. exact I.
  Qed.
  Lemma sampled_all : forall cs, length (not_null cs) <= 30 -> forall c, In c (not_null cs) -> In c (sampled cs).
  Proof.
    intros cs L c I. unfold M_todt.sampled. set (n := length (not_null cs)) in *. replace (Nat.min SAMPLE_SIZE n) with n by (unfold SAMPLE_SIZE; lia).
    destruct (pick_ok n n (le_n n)) as (Ln & ND & B).
    assert (In_all : incl (seq 0 n) (pick n n)).
    { apply NoDup_length_incl; [exact ND|rewrite seq_length; lia|]. intros i Ii. rewrite Forall_forall in B. apply in_seq. specialize (B i Ii). lia. }
    apply In_nth with (d := CNull) in I. destruct I as (i & Li & <-). apply in_map_iff. exists i. split; [reflexivity|]. apply In_all. apply in_seq. unfold n. lia.
  Qed.
  Lemma sampled_nil : forall cs, sampled cs = [] <-> not_null cs = [].
  Proof.
    intros cs. unfold M_todt.sampled. set (n := length (not_null cs)). destruct (pick_ok n (Nat.min SAMPLE_SIZE n)) as (Ln & _); [lia|]. split; intros E.
    - apply map_eq_nil in E. rewrite E in Ln. cbn in Ln. unfold n, SAMPLE_SIZE in Ln. destruct (not_null cs); [reflexivity|]. cbn in Ln. lia.
    - unfold n in *. rewrite E in *. cbn in *. destruct (pick 0 0); [reflexivity|discriminate].
  Qed.

  (** *** transform *)
  Definition Named (d : dtime TZ) : Prop := match zone d with None => True | Some z => exists n z', tz_name z = Some n /\ zone_of n = Some z' end.

  Lemma cast_ok : forall l (cs : list cell) (d d' : dtime TZ), (zone d = None <-> zone d' = None) ->
    cast {| clib := l; cdtype := DTime d; cells := cs |} d' = Ok {| clib := l; cdtype := DTime d'; cells := map (fun c => match c with CTime t => CTime (to_res (resolution d') t) | _ => c end) cs |}.
  Proof.
    clear. intros l cs d d' I. unfold cast. cbn. destruct (zone d) as [z|], (zone d') as [z'|]; try reflexivity; exfalso; destruct I as [I1 I2]; [discriminate I2; reflexivity|discriminate I1; reflexivity].
  Qed.
  (** from any column of datetimes whose zone has a name *)
  Lemma finish_ok : forall l (cs : list cell) d d', Named d -> Named d' ->
    (let! col := convert_time_zone tz_name zone_of {| clib := l; cdtype := DTime d; cells := cs |} (time_zone tz_name d') in cast col d') =
      Ok {| clib := l; cdtype := DTime d'; cells := map (fun c => match c with CTime t => CTime (to_res (resolution d') t) | _ => c end) cs |}.
  Proof.
    clear. intros l cs d d' N N'. unfold convert_time_zone, time_zone, is_localized. cbn [cdtype]. unfold Named in *.
    destruct (zone d') as [z'|] eqn:Ed'.
    - destruct N' as (n' & z1 & E1 & E2). rewrite E1. destruct (zone d) as [z|] eqn:Ed.
      + destruct N as (n & z2 & E3 & E4). rewrite E3. unfold get_zone. rewrite E2. cbn [bind]. unfold with_zone. cbn [clib cells]. rewrite cast_ok; [reflexivity|]. cbn. rewrite Ed'. split; discriminate.
      + unfold get_zone. rewrite E2. cbn [bind]. unfold with_zone. cbn [clib cells]. rewrite cast_ok; [reflexivity|]. cbn. rewrite Ed'. split; discriminate.
    - destruct (zone d) as [z|] eqn:Ed.
      + destruct N as (n & z2 & E3 & E4). rewrite E3. cbn [bind]. unfold with_zone. cbn [clib cells]. rewrite cast_ok; [reflexivity|]. cbn. rewrite Ed'. tauto.
      + cbn [bind]. rewrite cast_ok; [reflexivity|]. rewrite Ed, Ed'. tauto.
  Qed.

  (** what transform does to one column: strings are parsed, datetimes are kept *)
  Definition Transformed (f : option F) (d : dtime TZ) (col out : column) : Prop :=
    clib out = clib col /\ cdtype out = DTime d /\
    match cdtype col with
    | DTime _ => Forall2 (SameTime (resolution d)) (cells col) (cells out)
    | _ => Forall2 (fun c c' => exists c1, Parsed (match f with Some f => parse (clib col) f | None => infer (cells col) end) (default_resolution (clib col)) c c1 /\ SameTime (resolution d) c1 c')
             (cells col) (cells out)
    end.
  (** columns of datetimes whose zone has a name, or of strings (also of other values for pandas); polars needs a format *)
  Definition Accepted (f : option F) (col : column) : Prop :=
    match cdtype col with
    | DTime d => Named d
    | DStr => clib col = Pandas \/ f <> None
    | _ => clib col = Pandas
    end.

  Hypothesis utc_named : exists n z, tz_name UTC = Some n /\ zone_of n = Some z.

  Lemma transform_ok : forall st f d col, format_ st = Some f -> output_ st = Some d -> (0 < resolution d)%Z -> Named d -> WF col -> Accepted f col ->
    exists out, tr st col = Ok out /\ Transformed f d col out.
  Proof.
    intros st f d [l k cs] Ef Ed Pd Nd W A. unfold transform. rewrite Ef, Ed. unfold Accepted, WF in *. cbn [cdtype clib cells] in *.
    destruct k as [d0| | |].
    - unfold to_datetime. cbn [cdtype clib bind]. rewrite (finish_ok l cs d0 d A Nd). eexists. split; [reflexivity|]. unfold Transformed. cbn. repeat split.
      destruct W as [_ W]. apply forall2_map. intros c I. rewrite Forall_forall in W. destruct (W c I) as [->|(t & ->)]; [constructor|]. constructor. apply floor_ok. exact Pd.
    - assert (E : exists utc, to_dt {| clib := l; cdtype := DStr; cells := cs |} f false =
        parse_all UTC default_resolution l (match f with Some f => parse l f | None => infer cs end) utc false cs).
      { unfold to_datetime. cbn. destruct l; [destruct f as [f|]; [exists (has_offset f)|exists true]; reflexivity|]. destruct f as [f|]; [exists (has_offset f); reflexivity|]. destruct A as [A|A]; [discriminate|contradiction]. }
      destruct E as (utc & E). rewrite E. unfold parse_all. cbn [andb bind].
      rewrite (finish_ok l _ _ d); [|unfold Named; cbn; destruct utc; [exact utc_named|exact Logic.I]|exact Nd].
      eexists. split; [reflexivity|]. unfold Transformed. cbn [clib cdtype cells]. repeat split. rewrite map_map. apply forall2_map. intros c I.
      set (p := match f with Some f => parse l f | None => infer cs end). exists (parsed p (default_resolution l) c). split; [apply parsed_ok; apply default_pos|].
      unfold parsed. destruct (is_null c); [constructor|]. destruct (p c); constructor. apply floor_ok. exact Pd.
    - subst l. assert (E : exists utc, to_dt {| clib := Pandas; cdtype := DObj; cells := cs |} f false =
        parse_all UTC default_resolution Pandas (match f with Some f => parse Pandas f | None => infer cs end) utc false cs).
      { unfold to_datetime. cbn. destruct f as [f|]; [exists (has_offset f)|exists true]; reflexivity. }
      destruct E as (utc & E). rewrite E. unfold parse_all. cbn [andb bind].
      rewrite (finish_ok Pandas _ _ d); [|unfold Named; cbn; destruct utc; [exact utc_named|exact Logic.I]|exact Nd].
      eexists. split; [reflexivity|]. unfold Transformed. cbn [clib cdtype cells]. repeat split. rewrite map_map. apply forall2_map. intros c I.
      set (p := match f with Some f => parse Pandas f | None => infer cs end). exists (parsed p (default_resolution Pandas) c). split; [apply parsed_ok; apply default_pos|].
      unfold parsed. destruct (is_null c); [constructor|]. destruct (p c); constructor. apply floor_ok. exact Pd.
    - subst l. assert (E : exists utc, to_dt {| clib := Pandas; cdtype := DOther; cells := cs |} f false =
        parse_all UTC default_resolution Pandas (match f with Some f => parse Pandas f | None => infer cs end) utc false cs).
      { unfold to_datetime. cbn. destruct f as [f|]; [exists (has_offset f)|exists true]; reflexivity. }
      destruct E as (utc & E). rewrite E. unfold parse_all. cbn [andb bind].
      rewrite (finish_ok Pandas _ _ d); [|unfold Named; cbn; destruct utc; [exact utc_named|exact Logic.I]|exact Nd].
      eexists. split; [reflexivity|]. unfold Transformed. cbn [clib cdtype cells]. repeat split. rewrite map_map. apply forall2_map. intros c I.
      set (p := match f with Some f => parse Pandas f | None => infer cs end). exists (parsed p (default_resolution Pandas) c). split; [apply parsed_ok; apply default_pos|].
      unfold parsed. destruct (is_null c); [constructor|]. destruct (p c); constructor. apply floor_ok. exact Pd.
  Qed.

  (** the output of fit *)
  Lemma fit_named : forall format st st' col out, WF col -> (forall d, cdtype col = DTime d -> Named d) -> fit format st col = (st', Ok out) ->
    exists f d, format_ st' = Some f /\ output_ st' = Some d /\ (0 < resolution d)%Z /\ Named d /\ cdtype out = DTime d.
  Proof.
    intros format st st' col out W N E. destruct (cdtype col) as [d| | |] eqn:Ed.
    - rewrite (fit_dates format st col d Ed) in E. exists None, d. unfold WF in W. rewrite Ed in W. assert (Es : st' = {| format_ := Some None; output_ := Some d |}) by congruence. assert (col = out) by congruence. subst.
      repeat split; [apply W|apply N; reflexivity|exact Ed].
    - destruct (fit_ok format st st' col out (or_introl Ed) E) as (f & _ & E1 & E2 & _ & E3 & _). exists (Some f). eexists. repeat split; [exact E1|exact E2|apply default_pos| |exact E3].
      unfold Named. cbn. destruct (has_offset f); [exact utc_named|exact Logic.I].
    - assert (X : Strings col \/ ~ Strings col). { unfold Strings. destruct (clib col); [left; right; tauto|right; intros [X|[X _]]; congruence]. }
      destruct X as [X|X]; [|rewrite fit_other in E; [discriminate|intros (d & E'); congruence|exact X]].
      destruct (fit_ok format st st' col out X E) as (f & _ & E1 & E2 & _ & E3 & _). exists (Some f). eexists. repeat split; [exact E1|exact E2|apply default_pos| |exact E3].
      unfold Named. cbn. destruct (has_offset f); [exact utc_named|exact Logic.I].
    - rewrite fit_other in E; [discriminate|intros (d & E'); congruence|intros [X|[_ X]]; congruence].
  Qed.
  Lemma transform_fit : forall format st st' col out, WF col -> (forall d, cdtype col = DTime d -> Named d) -> fit format st col = (st', Ok out) -> tr st' col = Ok out.
  Proof.
    intros format st st' col out W N E. destruct (cdtype col) as [d| | |] eqn:Ed.
    - rewrite (fit_dates format st col d Ed) in E. unfold WF in W. rewrite Ed in W. assert (Es : st' = {| format_ := Some None; output_ := Some d |}) by congruence. assert (col = out) by congruence. subst out st'.
      destruct col as [l k cs]. cbn in Ed, W. subst k. unfold transform. cbn [format_ output_]. unfold to_datetime. cbn [cdtype clib bind].
      rewrite (finish_ok l cs d d (N d eq_refl) (N d eq_refl)). f_equal. f_equal. destruct W as [P W]. rewrite <- (map_id cs) at 2. apply map_ext_in. intros c I.
      rewrite Forall_forall in W. destruct (W c I) as [->|(t & ->)]; [reflexivity|]. rewrite to_res_mul by exact P. reflexivity.
    - assert (X : Strings col) by (left; exact Ed). clear N. revert X. generalize Ed. intros _ X.
      destruct (fit_ok format st st' col out X E) as (f & _ & E1 & E2 & _ & _ & _ & E3). unfold transform. rewrite E1, E2.
      assert (Et : to_dt col (Some f) false = parse_all UTC default_resolution (clib col) (parse (clib col) f) (has_offset f) false (cells col)) by (unfold to_datetime; rewrite Ed; destruct (clib col); reflexivity).
      rewrite Et. unfold parse_all. cbn [andb bind]. rewrite finish_ok; try (unfold Named; cbn; destruct (has_offset f); [exact utc_named|exact Logic.I]).
      rewrite E3. f_equal. f_equal. rewrite map_map. apply map_ext. intros c. cbn [resolution]. unfold parsed. destruct (is_null c); [reflexivity|]. destruct (parse (clib col) f c); [|reflexivity].
      f_equal. unfold to_res at 2. rewrite Z.mul_comm, to_res_mul by apply default_pos. unfold to_res. apply Z.mul_comm.
    - assert (X : Strings col). { unfold Strings. destruct (clib col) eqn:El; [right; tauto|]. rewrite fit_other in E; [discriminate|intros (d & E'); congruence|intros [X|[X _]]; congruence]. }
      assert (El : clib col = Pandas) by (destruct X as [X|[X _]]; [congruence|exact X]).
      destruct (fit_ok format st st' col out X E) as (f & _ & E1 & E2 & _ & _ & _ & E3). unfold transform. rewrite E1, E2.
      assert (Et : to_dt col (Some f) false = parse_all UTC default_resolution (clib col) (parse (clib col) f) (has_offset f) false (cells col)) by (unfold to_datetime; rewrite Ed, El; reflexivity).
      rewrite Et. unfold parse_all. cbn [andb bind]. rewrite finish_ok; try (unfold Named; cbn; destruct (has_offset f); [exact utc_named|exact Logic.I]).
      rewrite E3. f_equal. f_equal. rewrite map_map. apply map_ext. intros c. cbn [resolution]. unfold parsed. destruct (is_null c); [reflexivity|]. destruct (parse (clib col) f c); [|reflexivity].
      f_equal. unfold to_res at 2. rewrite Z.mul_comm, to_res_mul by apply default_pos. unfold to_res. apply Z.mul_comm.
    - rewrite fit_other in E; [discriminate|intros (d & E'); congruence|intros [X|[_ X]]; congruence].
  Qed.
End Todt.
