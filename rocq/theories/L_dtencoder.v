(** DatetimeEncoder: independent specification and lemmas. *)
From Verif Require Import Base M_names M_str M_dtencoder L_names L_str.
Open Scope string_scope.
Open Scope list_scope.
Open Scope nat_scope.

Section Spec.
  Context {T F : Type}.
  Variable get_dt_feature : string -> T -> F.
  Variable circular : nat -> nat -> F -> F.
  Variable spline : nat -> nat -> nat -> F -> F.

  (** The parameters are among those documented. *)
  Definition Valid (p : params) : Prop :=
    match resolution p with Some r => In r TIME_LEVELS | None => True end /\
    match periodic_encoding p with Some e => e = "circular" \/ e = "spline" | None => True end.

  (** The features asked for: the levels down to the resolution (not below the day for dates), and the extra features. *)
  Fixpoint upto (r : string) (l : list string) : list string :=
    match l with [] => [] | x :: l' => if eqb_of x r then [x] else x :: upto r l' end.
  Definition features (p : params) (date : bool) : list string :=
    match resolution p with
    | None => []
    | Some r => filter (fun f => negb date || mem f ["year"; "month"; "day"]) (upto r TIME_LEVELS)
    end
    ++ (if add_total_seconds p then ["total_seconds"] else [])
    ++ (if add_weekday p then ["weekday"] else [])
    ++ (if add_day_of_year p then ["day_of_year"] else []).
  (** The periodic ones, with their periods and numbers of splines. *)
  Definition period_of (f : string) : option (nat * nat) :=
    dget f [("month", (12, 12)); ("day", (30, 4)); ("hour", (24, 12)); ("weekday", (7, 7)); ("day_of_year", (366, 12))].
  Definition is_periodic (f : string) : bool := match period_of f with Some _ => true | None => false end.
  Definition components (e : string) (f : string) : list (string * (F -> F)) :=
    match period_of f with
    | None => []
    | Some (period, n) =>
        if eqb_of e "circular" then map (fun i => (("circular_" ++ str_nat i)%string, circular period i)) [0; 1]
        else map (fun i => (("spline_" ++ str_nat i)%string, spline period n i)) (seq 0 n)
    end.
  (** The output columns: their names after the name of the column and ["_"], and the function applied to each datetime. *)
  Definition expected (p : params) (date : bool) : list (string * (T -> F)) :=
    let fs := features p date in
    match periodic_encoding p with
    | None => map (fun f => (f, get_dt_feature f)) fs
    | Some e =>
        map (fun f => (f, get_dt_feature f)) (filter (fun f => negb (is_periodic f)) fs) ++
        flat_map (fun f => map (fun sg => ((f ++ "_" ++ fst sg)%string, fun t => snd sg (get_dt_feature f t))) (components e f))
          (filter is_periodic fs)
    end.
  Definition expected_frame (p : params) (date : bool) (name : string) (data : list (option T)) : frame (list (option F)) :=
    map (fun sg => ((name ++ "_" ++ fst sg)%string, map (option_map (snd sg)) data)) (expected p date).

  (** Periodic encodings need a resolution. *)
  Definition Resolved (p : params) : Prop := periodic_encoding p = None \/ resolution p <> None.
  (** Where the encoder advertises the right names. *)
  Definition Advertises (p : params) (date : bool) : Prop :=
    periodic_encoding p = None \/ date = true \/ add_weekday p = true \/
    exists r, resolution p = Some r /\ In r ["year"; "month"; "day"; "hour"].
  (** Splines need a row; periodic encodings need a name that is a string. *)
  Definition Rows (p : params) (c : @column T) : Prop := periodic_encoding p = Some "spline" -> cdata c <> [].
  Definition Named (p : params) (c : @column T) : Prop := periodic_encoding p <> None -> exists s, cname c = PStr s.
End Spec.

Section Lemmas.
  Context {T F : Type}.
  Variable get_dt_feature : string -> T -> F.
  Variable midnight : T -> bool.
  Variable circular : nat -> nat -> F -> F.
  Variable spline : nat -> nat -> nat -> F -> F.
  Variable zero : F.
  Notation state := (@M_dtencoder.state).
  Notation transform_features := (transform_features get_dt_feature circular spline zero).
  Notation component := (component circular spline).

  (** The columns output by a fitted encoder for a column called [n]. *)
  Definition plain (n f : string) : string * (T -> F) := ((n ++ "_" ++ f)%string, get_dt_feature f).
  Definition encoded (e : encoder) (f : string) : list (string * (T -> F)) :=
    combine (eoutputs e) (map (fun i t => component e i (get_dt_feature f t)) (seq 0 (n_components (ekind e)))).
  Definition plains (st : state) (n : string) (fs : list string) :=
    flat_map (fun f => match dget f (periodic_encoders st) with None => [plain n f] | Some _ => [] end) fs.
  Definition encodeds (st : state) (fs : list string) :=
    flat_map (fun f => match dget f (periodic_encoders st) with None => [] | Some e => [encoded e f] end) fs.
  Definition outs (st : state) (n : string) : list (string * (T -> F)) :=
    plains st n (extracted_features st) ++ concat (encodeds st (extracted_features st)).

  Definition filled (data : list (option T)) (g : T -> F) (h : F -> F) (f : string) : list (option F) :=
    map (fun x => Some (h x)) (fill_nulls zero (map (option_map (get_dt_feature f)) data)).
  (** The rows of an encoded feature before the nulls are put back. *)
  Definition raw_encoded (e : encoder) (f : string) (data : list (option T)) : frame (list (option F)) :=
    combine (eoutputs e) (map (fun i => map (fun x => Some (component e i x)) (fill_nulls zero (map (option_map (get_dt_feature f)) data))) (seq 0 (n_components (ekind e)))).

  Definition RowsOk (st : state) (data : list (option T)) : Prop :=
    forall f e, dget f (periodic_encoders st) = Some e -> (exists n, ekind e = Spline n) -> data <> [].

  Lemma check_rows_ok : forall st c f e, RowsOk st (cdata c) -> dget f (periodic_encoders st) = Some e ->
    check_rows (ekind e) (fill_nulls zero (get_feature get_dt_feature c f)) = Ok tt.
  Proof.
    intros st c f e R G. unfold check_rows. destruct (ekind e) as [|n] eqn:K; [reflexivity|].
    specialize (R f e G (ex_intro _ n K)). unfold fill_nulls, get_feature. destruct (cdata c); [congruence|reflexivity].
  Qed.

  Lemma transform_features_eq : forall st c fs, RowsOk st (cdata c) ->
    transform_features st c fs =
    Ok (flat_map (fun f => match dget f (periodic_encoders st) with
                           | None => [((shown (cname c) ++ "_" ++ f)%string, get_feature get_dt_feature c f)] | Some _ => [] end) fs,
        flat_map (fun f => match dget f (periodic_encoders st) with None => [] | Some e => [raw_encoded e f (cdata c)] end) fs).
  Proof.
    intros st c fs R. induction fs as [|f fs IH]; [reflexivity|]. cbn [M_dtencoder.transform_features flat_map].
    destruct (dget f (periodic_encoders st)) as [e|] eqn:G.
    - unfold transform_encoder. rewrite (check_rows_ok _ _ _ _ R G). cbn [bind]. rewrite IH. reflexivity.
    - rewrite IH. reflexivity.
  Qed.

  Lemma concat_identity : forall draw (dfs : list (frame (list (option F)))), dfs <> [] -> NoDup (map fst (concat dfs)) ->
    (forall s, In s (map fst (concat dfs)) -> ~ SubString "__skrub_" s) -> concat_horizontal draw dfs = Ok (concat dfs).
  Proof.
    clear. intros draw dfs D ND NT. unfold concat_horizontal. destruct dfs as [|df dfs]; [congruence|]. f_equal.
    pose proof (make_unique_names draw (df :: dfs) 0 []) as N. pose proof (make_unique_data draw (df :: dfs) 0 []) as M.
    rewrite pick_identity in N; [| |exact ND].
    - unfold make_column_names_unique. clear - N M. revert N M. generalize (concat (make_unique_from draw 0 [] (df :: dfs))), (concat (df :: dfs)).
      unfold column_names, column_data. intros l0. induction l0 as [|[a b] l IH]; intros [|[a' b'] l'] N M; simpl in *; try discriminate; [reflexivity|].
      injection N as -> N. injection M as -> M. f_equal. apply IH; assumption.
    - intros s I. split; [apply NT; exact I|intros []].
  Qed.

  Lemma where_filled : forall (data : list (option T)) f (h : F -> F),
    map (fun vx => match fst vx with Some _ => snd vx | None => None end)
      (combine data (map (fun x => Some (h x)) (fill_nulls zero (map (option_map (get_dt_feature f)) data)))) =
    map (option_map (fun t => h (get_dt_feature f t))) data.
  Proof. clear midnight. intros data f h. induction data as [|[t|] data IH]; simpl; [reflexivity| |]; rewrite IH; reflexivity. Qed.
  Lemma where_plain : forall (data : list (option T)) f,
    map (fun vx => match fst vx with Some _ => snd vx | None => None end)
      (combine data (map (option_map (get_dt_feature f)) data)) =
    map (option_map (get_dt_feature f)) data.
  Proof. clear midnight. intros data f. induction data as [|[t|] data IH]; simpl; [reflexivity| |]; rewrite IH; reflexivity. Qed.

  Lemma transform_outs : forall draw st c, RowsOk st (cdata c) -> NoDup (map fst (outs st (shown (cname c)))) ->
    (forall s, In s (map fst (outs st (shown (cname c)))) -> ~ SubString "__skrub_" s) ->
    transform get_dt_feature circular spline zero draw st c =
    Ok (map (fun ng => (fst ng, map (option_map (snd ng)) (cdata c))) (outs st (shown (cname c)))).
  Proof.
    intros draw st c R ND NT. unfold transform. rewrite (transform_features_eq st c _ R). cbn [bind].
    set (fs := extracted_features st) in *.
    set (P := flat_map _ fs). set (E := flat_map _ fs).
    assert (W : where_row c (P ++ concat E) = map (fun ng => (fst ng, map (option_map (snd ng)) (cdata c))) (outs st (shown (cname c)))).
    { unfold outs, where_row. rewrite !map_app. fold fs. f_equal.
      - unfold P, plains. clear. induction fs as [|f fs IH]; [reflexivity|]. simpl. destruct (dget f (periodic_encoders st)); [exact IH|].
        cbn [app map]. refine (f_equal2 cons _ IH). cbn [fst snd plain]. unfold get_feature. rewrite where_plain. reflexivity.
      - unfold E, encodeds. clear. induction fs as [|f fs IH]; [reflexivity|]. simpl. destruct (dget f (periodic_encoders st)) as [e|]; [|exact IH].
        cbn [app concat]. rewrite !map_app. refine (f_equal2 (@app _) _ IH). unfold raw_encoded, encoded.
        generalize (eoutputs e), (seq 0 (n_components (ekind e))). clear. intros ns. induction ns as [|n ns IH]; intros [|i is]; cbn [combine map]; try reflexivity.
        refine (f_equal2 cons _ (IH _)). cbn [fst snd]. rewrite where_filled. reflexivity. }
    assert (N : map fst (concat (P :: E)) = map fst (outs st (shown (cname c)))).
    { simpl. transitivity (map fst (where_row c (P ++ concat E))); [unfold where_row; rewrite map_map; apply map_ext; intros [? ?]; reflexivity|].
      rewrite W, map_map. apply map_ext. intros [? ?]; reflexivity. }
    rewrite <- N in ND, NT.
    rewrite concat_identity; [|discriminate|exact ND|exact NT].
    cbn [bind]. simpl concat. rewrite W. reflexivity.
  Qed.

  (** ** Fitting *)
  Lemma in_levels : forall r, In r TIME_LEVELS ->
    r = "year" \/ r = "month" \/ r = "day" \/ r = "hour" \/ r = "minute" \/ r = "second" \/ r = "microsecond" \/ r = "nanosecond".
  Proof. clear. intros r I. simpl in I. intuition congruence. Qed.

  Lemma sapp_assoc' : forall a b c : string, ((a ++ b) ++ c = a ++ (b ++ c))%string.
  Proof. clear. intros. rewrite sapp_assoc. reflexivity. Qed.

  (** The encoders fitted on a column called [name]. *)
  Definition enc_names (n f : string) (k : kind) : list string := map (fun i => (n ++ "_" ++ f ++ "_" ++ tag k ++ "_" ++ str_nat i)%string) (seq 0 (n_components k)).
  Definition mk_encoder (n f : string) (k : kind) (period : nat) : encoder := {| ekind := k; eperiod := period; eoutputs := enc_names n f k |}.
  Definition mk_encoders (n : string) (d : list (string * (kind * nat))) : list (string * encoder) :=
    map (fun fk => (fst fk, mk_encoder n (fst fk) (fst (snd fk)) (snd (snd fk)))) d.

  Lemma fit_encoders_eq : forall c name d, cname c = PStr name ->
    (Forall (fun fk => fst (snd fk) = Circular) d \/ cdata c <> []) ->
    fit_encoders get_dt_feature zero c d = Ok (mk_encoders name d).
  Proof.
    intros c name d CN R. unfold fit_encoders, mk_encoders. apply mapM_total. intros (f & k & period) I.
    cbn [fst snd]. rewrite CN. cbn [name_plus bind]. unfold fit_encoder.
    assert (CR : check_rows k (fill_nulls zero (get_feature get_dt_feature c f)) = Ok tt).
    { unfold check_rows. destruct k as [|n]; [reflexivity|]. destruct R as [R|R].
      - apply (proj1 (Forall_forall _ _) R) in I. discriminate.
      - unfold fill_nulls, get_feature. destruct (cdata c); [congruence|reflexivity]. }
    rewrite CR. cbn [bind]. unfold mk_encoder, enc_names. 
    replace (map (fun i => ((name ++ "_" ++ f) ++ "_" ++ tag k ++ "_" ++ str_nat i)%string) (seq 0 (n_components k)))
      with (map (fun i => (name ++ "_" ++ f ++ "_" ++ tag k ++ "_" ++ str_nat i)%string) (seq 0 (n_components k))); [reflexivity|].
    apply map_ext. intros i. rewrite !sapp_assoc'. reflexivity.
  Qed.

  Definition under (n : string) (sg : string * (T -> F)) : string * (T -> F) := ((n ++ "_" ++ fst sg)%string, snd sg).
  Definition enc_desc (f : string) (k : kind) (period : nat) : list (string * (T -> F)) :=
    map (fun i => ((f ++ "_" ++ tag k ++ "_" ++ str_nat i)%string, fun t => match k with Circular => circular period i | Spline n => spline period n i end (get_dt_feature f t)))
      (seq 0 (n_components k)).
  Definition desc (fs : list string) (d : list (string * (kind * nat))) : list (string * (T -> F)) :=
    flat_map (fun f => match dget f d with None => [(f, get_dt_feature f)] | Some _ => [] end) fs ++
    flat_map (fun f => match dget f d with None => [] | Some kp => enc_desc f (fst kp) (snd kp) end) fs.

  Lemma dget_mk : forall n f d, dget f (mk_encoders n d) = option_map (fun kp => mk_encoder n f (fst kp) (snd kp)) (dget f d).
  Proof.
    clear. intros n f d. induction d as [|[f' kp] d IH]; [reflexivity|]. simpl. destruct (eqd f f') as [<-|]; [reflexivity|exact IH].
  Qed.
  Lemma enc_under : forall n f k period, encoded (mk_encoder n f k period) f = map (under n) (enc_desc f k period).
  Proof.
    intros n f k period. unfold encoded. set (ex := mk_encoder n f k period).
    change (eoutputs ex) with (enc_names n f k). change (ekind ex) with k. unfold enc_names, enc_desc.
    generalize (seq 0 (n_components k)). intros l. induction l as [|i l IH]; [reflexivity|]. cbn [map combine].
    rewrite IH. reflexivity.
  Qed.
  Lemma outs_desc : forall n fs d outputs,
    outs {| extracted_features := fs; periodic_encoders := mk_encoders n d; all_outputs := outputs |} n = map (under n) (desc fs d).
  Proof.
    intros n fs d outputs. unfold outs, desc, plains, encodeds. cbn [extracted_features periodic_encoders]. rewrite map_app. f_equal.
    - induction fs as [|f fs IH]; [reflexivity|]. cbn [flat_map]. rewrite map_app, IH. f_equal. rewrite dget_mk.
      destruct (dget f d); reflexivity.
    - induction fs as [|f fs IH]; [reflexivity|]. cbn [flat_map]. rewrite map_app, concat_app, IH. f_equal. rewrite dget_mk.
      destruct (dget f d) as [[k period]|]; [|reflexivity]. cbn [option_map concat fst snd]. rewrite app_nil_r. apply enc_under.
  Qed.

  (** What [fit] computes from the parameters alone. *)
  Definition idx_of (r : string) (date : bool) : nat :=
    match index_of r TIME_LEVELS with Ok i => if date then Nat.min i 2 else i | Err _ => 0 end.
  Definition extras (p : params) : list string := (if add_weekday p then ["weekday"] else []) ++ (if add_day_of_year p then ["day_of_year"] else []).
  Definition extracted_of (p : params) (date : bool) : list string :=
    match resolution p with None => [] | Some r => firstn (idx_of r date + 1) TIME_LEVELS end ++ (if add_total_seconds p then ["total_seconds"] else []) ++ extras p.
  Definition levels_of (p : params) (r : string) (date : bool) : list string := firstn (idx_of r date) (skipn 1 (dkeys DEFAULT_ENCODING_PERIODS)) ++ extras p.
  Definition kinds_of (p : params) (e r : string) (date : bool) : list (string * (kind * nat)) :=
    match make_encoders e (levels_of p r date) [] with Ok d => d | Err _ => [] end.
  Definition advertised (p : params) (r e : string) (date : bool) : list string :=
    filter (fun f => negb (mem f (levels_of p r date))) (extracted_of p date) ++
    flat_map (fun fk => map (fun i => (fst fk ++ "_" ++ tag (fst (snd fk)) ++ "_" ++ str_nat i)%string) (seq 0 (n_components (fst (snd fk))))) (kinds_of p e r date).

  Lemma index_ok : forall r, In r TIME_LEVELS -> exists i, index_of r TIME_LEVELS = Ok i.
  Proof.
    clear. intros r. generalize TIME_LEVELS. induction l as [|x l IH]; intros I; [destruct I|]. simpl. unfold eqb_of. destruct (eqd r x); [eauto|].
    destruct I as [->|I]; [congruence|]. destruct (IH I) as (i & ->). simpl. eauto.
  Qed.

  Lemma fit_periodic : forall p r e c name, resolution p = Some r -> In r TIME_LEVELS -> periodic_encoding p = Some e -> e = "circular" \/ e = "spline" ->
    cdate c = true -> cname c = PStr name -> Rows p c ->
    fit get_dt_feature midnight zero p c =
    Ok {| extracted_features := extracted_of p (is_date midnight c); periodic_encoders := mk_encoders name (kinds_of p e r (is_date midnight c));
          all_outputs := map (fun s => (name ++ "_" ++ s)%string) (advertised p r e (is_date midnight c)) |}.
  Proof.
    intros p r e c name PR IR PE VE CD CN R. unfold fit, check_params. rewrite PR, PE, CD, CN.
    rewrite (proj2 (mem_true r TIME_LEVELS) IR). cbn [bind].
    assert (ME : mem e ["circular"; "spline"] = true) by (apply mem_true; simpl; intuition). rewrite ME. cbn [bind negb].
    destruct (index_ok r IR) as (i & EI). rewrite EI. cbn [bind].
    set (date := is_date midnight c).
    assert (E1 : (if date then let! j := index_of "day" TIME_LEVELS in Ok (Some (Nat.min i j)) else Ok (Some i)) = Ok (Some (idx_of r date))).
    { unfold idx_of. rewrite EI. destruct date; reflexivity. }
    rewrite E1. cbn [bind].
    change (firstn (idx_of r date) (skipn 1 (dkeys DEFAULT_ENCODING_PERIODS)) ++ (if add_weekday p then ["weekday"] else []) ++ (if add_day_of_year p then ["day_of_year"] else []))
      with (levels_of p r date).
    assert (EX : firstn (idx_of r date + 1) TIME_LEVELS ++ (if add_total_seconds p then ["total_seconds"] else []) ++ (if add_weekday p then ["weekday"] else []) ++ (if add_day_of_year p then ["day_of_year"] else [])
      = extracted_of p date) by (unfold extracted_of; rewrite PR; reflexivity).
    rewrite EX.
    assert (MK : make_encoders e (levels_of p r date) [] = Ok (kinds_of p e r date)).
    { unfold kinds_of. unfold levels_of, extras. clear - IR VE. apply in_levels in IR.
      destruct IR as [->|[->|[->|[->|[->|[->|[->| ->]]]]]]]; destruct VE as [->| ->]; destruct date, (add_weekday p), (add_day_of_year p); reflexivity. }
    rewrite MK. cbn [bind].
    rewrite (fit_encoders_eq c name _ CN).
    - cbn [bind shown]. f_equal. f_equal. unfold advertised. rewrite map_app. f_equal.
      generalize (kinds_of p e r date). clear. intros d. induction d as [|(f & k & period) d IH]; [reflexivity|].
      cbn [mk_encoders map flat_map]. rewrite map_app, <- IH. f_equal. cbn [fst snd]. unfold mk_encoder, enc_names. cbn [eoutputs]. rewrite map_map. reflexivity.
    - destruct VE as [->| ->]; [left|right; apply R; exact PE]. clear MK. unfold kinds_of, levels_of, extras. clear - IR. apply in_levels in IR.
      destruct IR as [->|[->|[->|[->|[->|[->|[->| ->]]]]]]]; destruct date, (add_weekday p), (add_day_of_year p); repeat constructor.
  Qed.

  Lemma fit_plain : forall p c, match resolution p with Some r => In r TIME_LEVELS | None => True end -> periodic_encoding p = None -> cdate c = true ->
    fit get_dt_feature midnight zero p c =
    Ok {| extracted_features := extracted_of p (is_date midnight c); periodic_encoders := mk_encoders (shown (cname c)) [];
          all_outputs := map (fun s => (shown (cname c) ++ "_" ++ s)%string) (extracted_of p (is_date midnight c)) |}.
  Proof.
    intros p c VR PE CD. unfold fit, check_params. rewrite PE, CD. unfold extracted_of, idx_of, extras.
    destruct (resolution p) as [r|].
    - rewrite (proj2 (mem_true r TIME_LEVELS) VR). cbn [bind negb]. destruct (index_ok r VR) as (i & EI). rewrite EI. cbn [bind].
      destruct (is_date midnight c); reflexivity.
    - reflexivity.
  Qed.

  Definition Fitted (p : params) (name : string) (date : bool) (st : state) : Prop :=
    outs st name = map (under name) (expected get_dt_feature circular spline p date) /\
    (Advertises p date -> all_outputs st = map fst (outs st name)) /\
    (~ Advertises p date -> exists e, periodic_encoding p = Some e /\ In (name ++ "_weekday_" ++ e ++ "_0")%string (all_outputs st) /\
                                      ~ In (name ++ "_weekday_" ++ e ++ "_0")%string (map fst (outs st name))) /\
    (periodic_encoding p = Some "spline" \/ Forall (fun fe => ekind (snd fe) = Circular) (periodic_encoders st)).

  Lemma periodic_ok : forall p r e date, resolution p = Some r -> In r TIME_LEVELS -> periodic_encoding p = Some e -> e = "circular" \/ e = "spline" ->
    desc (extracted_of p date) (kinds_of p e r date) = expected get_dt_feature circular spline p date /\
    (In r ["year"; "month"; "day"; "hour"] \/ date = true \/ add_weekday p = true ->
     advertised p r e date = map fst (expected get_dt_feature circular spline p date)) /\
    (~ (In r ["year"; "month"; "day"; "hour"] \/ date = true \/ add_weekday p = true) ->
     mem ("weekday_" ++ e ++ "_0")%string (advertised p r e date) = true /\
     mem ("weekday_" ++ e ++ "_0")%string (map fst (expected get_dt_feature circular spline p date)) = false).
  Proof.
    intros [r0 w ts d pe] r e date PR VR PE VE. cbn [resolution periodic_encoding add_weekday] in *. subst r0 pe.
    apply in_levels in VR.
    destruct VR as [->|[->|[->|[->|[->|[->|[->| ->]]]]]]]; destruct VE as [->| ->]; destruct date, w, ts, d.
    all: split; [vm_compute; reflexivity|split; intros G].
    all: try (exfalso; clear - G; simpl in G; intuition discriminate).
    all: first [split; vm_compute; reflexivity|vm_compute; reflexivity].
  Qed.
  Lemma plain_ok : forall p date, match resolution p with Some r => In r TIME_LEVELS | None => True end -> periodic_encoding p = None ->
    desc (extracted_of p date) [] = expected get_dt_feature circular spline p date /\
    extracted_of p date = map fst (expected get_dt_feature circular spline p date).
  Proof.
    intros [r0 w ts d pe] date VR PE. cbn [resolution periodic_encoding] in *. subst pe.
    destruct r0 as [r|]; [apply in_levels in VR; destruct VR as [->|[->|[->|[->|[->|[->|[->| ->]]]]]]]|]; destruct date, w, ts, d.
    all: split; vm_compute; reflexivity.
  Qed.

  Lemma sapp_inj_l' : forall n x y, (n ++ "_" ++ x = n ++ "_" ++ y)%string -> x = y.
  Proof. clear. induction n as [|c n IH]; intros x y E; simpl in E; injection E as E; [exact E|apply IH; exact E]. Qed.

  Lemma fit_spec : forall p c, Valid p -> cdate c = true -> Resolved p -> Named p c -> Rows p c ->
    exists st, fit get_dt_feature midnight zero p c = Ok st /\ Fitted p (shown (cname c)) (is_date midnight c) st.
  Proof.
    intros p c (VR & VP) CD G N R. destruct (periodic_encoding p) as [e|] eqn:PE.
    - destruct G as [G|G]; [congruence|]. destruct (resolution p) as [r|] eqn:PR; [|congruence]. destruct (N ltac:(congruence)) as (name & CN).
      rewrite (fit_periodic p r e c name PR VR PE VP CD CN R). eexists. split; [reflexivity|].
      rewrite CN. cbn [shown]. destruct (periodic_ok p r e (is_date midnight c) PR VR PE VP) as (E1 & E2 & E3). unfold Fitted.
      rewrite outs_desc, E1. split; [reflexivity|]. split; [|split].
      + intros A. cbn [all_outputs]. rewrite E2, !map_map; [reflexivity|].
        destruct A as [A|[A|[A|(r' & A1 & A2)]]]; [congruence| | |replace r' with r in A2 by congruence]; tauto.
      + intros A. exists e. split; [exact PE|]. cbn [all_outputs]. destruct E3 as (I1 & I2).
        { intros [B|[B|B]]; apply A; [right; right; right; exists r; auto|right; left; exact B|right; right; left; exact B]. }
        apply mem_true in I1. apply mem_false in I2. split.
        * apply in_map_iff. exists ("weekday_" ++ e ++ "_0")%string. split; [reflexivity|exact I1].
        * intros I. apply I2. rewrite map_map in I. apply in_map_iff in I. destruct I as (x & E & I). apply in_map_iff. exists x. split; [|exact I].
          apply (sapp_inj_l' name). exact E.
      + destruct VP as [->| ->]; [right|left; exact PE]. cbn [periodic_encoders]. unfold kinds_of, levels_of, extras. clear - VR. apply in_levels in VR.
        destruct VR as [->|[->|[->|[->|[->|[->|[->| ->]]]]]]]; destruct (is_date midnight c), (add_weekday p), (add_day_of_year p); repeat constructor.
    - rewrite (fit_plain p c VR PE CD). eexists. split; [reflexivity|].
      destruct (plain_ok p (is_date midnight c) VR PE) as (E1 & E2). unfold Fitted.
      rewrite outs_desc, E1. split; [reflexivity|]. split; [|split; [|right; constructor]].
      + intros _. cbn [all_outputs]. rewrite E2, !map_map. reflexivity.
      + intros A. destruct A. left. exact PE.
  Qed.

  Lemma fitted_rows : forall p name date st (c : column (T := T)), Fitted p name date st -> Rows p c -> RowsOk st (cdata c).
  Proof.
    intros p name date st c (_ & _ & _ & FS) R f e G (n & K). destruct FS as [FS|FS]; [apply R; exact FS|].
    apply (proj1 (Forall_forall _ _)) with (x := (f, e)) in FS; [simpl in FS; congruence|].
    clear -G. induction (periodic_encoders st) as [|[f' e'] l IH]; [discriminate|]. simpl in G.
    destruct (eqd f f') as [<-|]; [injection G as <-; left; reflexivity|right; auto].
  Qed.

  (** ** The names *)
  Fixpoint no_b (s : string) : bool := match s with EmptyString => true | String c s' => negb (eqb_of c "b"%char) && no_b s' end.
  Definition suffixes (p : params) (date : bool) : list string := map fst (expected get_dt_feature circular spline p date).
  Fixpoint nodupb (l : list string) : bool := match l with [] => true | x :: l' => negb (mem x l') && nodupb l' end.
  Lemma nodupb_ok : forall l, nodupb l = true -> NoDup l.
  Proof.
    clear. induction l as [|x l IH]; intros E; constructor; apply andb_prop in E; destruct E as (E1 & E2); [|auto].
    apply negb_true_iff in E1. apply mem_false. exact E1.
  Qed.
  Lemma suffixes_ok : forall p date, Valid p -> NoDup (suffixes p date) /\ Forall (fun s => no_b s = true) (suffixes p date).
  Proof.
    intros [r w ts d pe] date (VR & VP). cbn [resolution periodic_encoding] in *.
    assert (H : forallb no_b (suffixes {| resolution := r; add_weekday := w; add_total_seconds := ts; add_day_of_year := d; periodic_encoding := pe |} date) = true /\
                nodupb (suffixes {| resolution := r; add_weekday := w; add_total_seconds := ts; add_day_of_year := d; periodic_encoding := pe |} date) = true).
    { destruct r as [r|]; [apply in_levels in VR; destruct VR as [->|[->|[->|[->|[->|[->|[->| ->]]]]]]]|];
        destruct pe as [e|]; try destruct VP as [->| ->]; destruct date, w, ts, d.
      all: split; vm_compute; reflexivity. }
    destruct H as (H1 & H2). split; [apply nodupb_ok; exact H2|]. apply Forall_forall. apply forallb_forall. exact H1.
  Qed.

  Lemma no_b_app : forall a b, no_b (a ++ b) = no_b a && no_b b.
  Proof. clear. induction a as [|x a IH]; intros b; simpl; [reflexivity|]. rewrite IH, andb_assoc. reflexivity. Qed.
  Lemma app_split : forall n s p u, (n ++ s = p ++ u)%string -> (exists q, n = (p ++ q)%string) \/ (exists c q, p = (n ++ String c q)%string /\ s = (String c q ++ u)%string).
  Proof.
    clear. induction n as [|x n IH]; intros s p u E.
    - destruct p as [|c q]; [left; exists ""; reflexivity|right; exists c, q; auto].
    - destruct p as [|y p]; [left; exists (String x n); reflexivity|]. simpl in E. injection E as -> E.
      destruct (IH s p u E) as [(q & ->)|(c & q & -> & ->)]; [left; exists q; reflexivity|right; exists c, q; auto].
  Qed.
  Lemma ends_b : forall y x c q, (x ++ "b" = y ++ String c q)%string -> no_b (String c q) = false.
  Proof.
    clear. induction y as [|d y IH]; intros x c q E.
    - simpl append in E. rewrite <- E, no_b_app. apply andb_false_r.
    - destruct x as [|e x]; simpl in E; injection E as E1 E; [destruct y; discriminate|eapply IH; exact E].
  Qed.
  Lemma name_no_tag : forall name s, ~ SubString "__skrub" name -> no_b s = true -> ~ SubString "__skrub_" (name ++ s).
  Proof.
    clear. intros name s NT NB (a & b & E).
    assert (E' : (name ++ s = (a ++ "__skrub") ++ String "_" b)%string) by (rewrite E, sapp_assoc'; reflexivity).
    apply app_split in E'. destruct E' as [(q & ->)|(c & q & E1 & E2)].
    - apply NT. exists a, q. rewrite sapp_assoc. reflexivity.
    - rewrite E2, no_b_app in NB. apply andb_prop in NB. destruct NB as (NB & _).
      assert (E3 : ((a ++ "__skru") ++ "b" = name ++ String c q)%string) by (rewrite <- E1, sapp_assoc'; reflexivity).
      apply ends_b in E3. congruence.
  Qed.

  Lemma under_names : forall p date name, Valid p -> ~ SubString "__skrub" name ->
    NoDup (map fst (map (under name) (expected get_dt_feature circular spline p date))) /\
    (forall s, In s (map fst (map (under name) (expected get_dt_feature circular spline p date))) -> ~ SubString "__skrub_" s).
  Proof.
    intros p date name V NT. destruct (suffixes_ok p date V) as (ND & NB). unfold suffixes in *.
    rewrite map_map. cbn [under fst].
    assert (E : map (fun x : string * (T -> F) => (name ++ "_" ++ fst x)%string) (expected get_dt_feature circular spline p date) =
                map (fun s => (name ++ "_" ++ s)%string) (map fst (expected get_dt_feature circular spline p date))) by (rewrite map_map; reflexivity).
    rewrite E. split.
    - apply FinFun.Injective_map_NoDup; [|exact ND]. intros x y. apply sapp_inj_l'.
    - intros s I. apply in_map_iff in I. destruct I as (x & <- & I). apply (proj1 (Forall_forall _ _) NB) in I.
      apply name_no_tag; [exact NT|]. simpl. exact I.
  Qed.

  (** ** Main results *)
  Lemma encoder_correct : forall draw p c, Valid p -> cdate c = true -> Resolved p -> Named p c -> Rows p c ->
    ~ SubString "__skrub" (shown (cname c)) ->
    exists st, fit_transform get_dt_feature midnight circular spline zero draw p c =
        Ok (st, expected_frame get_dt_feature circular spline p (is_date midnight c) (shown (cname c)) (cdata c)) /\
      Fitted p (shown (cname c)) (is_date midnight c) st /\
      NoDup (map fst (outs st (shown (cname c)))) /\
      forall draw' c', shown (cname c') = shown (cname c) -> Rows p c' ->
        transform get_dt_feature circular spline zero draw' st c' =
        Ok (expected_frame get_dt_feature circular spline p (is_date midnight c) (shown (cname c)) (cdata c')).
  Proof.
    intros draw p c V CD G N R NT. destruct (fit_spec p c V CD G N R) as (st & EF & FS).
    destruct (under_names p (is_date midnight c) (shown (cname c)) V NT) as (ND & NTs).
    pose proof (proj1 FS) as FO.
    assert (TR : forall draw' c', shown (cname c') = shown (cname c) -> Rows p c' ->
        transform get_dt_feature circular spline zero draw' st c' =
        Ok (expected_frame get_dt_feature circular spline p (is_date midnight c) (shown (cname c)) (cdata c'))).
    { intros draw' c' NE R'. rewrite transform_outs.
      - rewrite NE, FO, map_map. reflexivity.
      - eapply fitted_rows; [exact FS|exact R'].
      - rewrite NE, FO. exact ND.
      - rewrite NE, FO. exact NTs. }
    exists st. unfold fit_transform. rewrite EF. cbn [bind]. rewrite (TR draw c eq_refl R). cbn [bind]. split; [reflexivity|].
    split; [exact FS|]. split; [rewrite FO; exact ND|exact TR].
  Qed.

  Lemma frame_names : forall p date name (data : list (option T)),
    column_names (expected_frame get_dt_feature circular spline p date name data) = map fst (map (under name) (expected get_dt_feature circular spline p date)).
  Proof. intros. unfold column_names, expected_frame. rewrite !map_map. reflexivity. Qed.

  Lemma encoder_outputs : forall draw p c, Valid p -> cdate c = true -> Resolved p -> Named p c -> Rows p c ->
    ~ SubString "__skrub" (shown (cname c)) ->
    exists st, fit_transform get_dt_feature midnight circular spline zero draw p c =
        Ok (st, expected_frame get_dt_feature circular spline p (is_date midnight c) (shown (cname c)) (cdata c)) /\
      forall draw' c', shown (cname c') = shown (cname c) -> Rows p c' ->
        transform get_dt_feature circular spline zero draw' st c' =
        Ok (expected_frame get_dt_feature circular spline p (is_date midnight c) (shown (cname c)) (cdata c')).
  Proof.
    intros draw p c V CD G N R NT. destruct (encoder_correct draw p c V CD G N R NT) as (st & E & _ & _ & TR). exists st. auto.
  Qed.

  Lemma encoder_advertised : forall draw p c, Valid p -> cdate c = true -> Resolved p -> Named p c -> Rows p c ->
    ~ SubString "__skrub" (shown (cname c)) ->
    exists st out, fit_transform get_dt_feature midnight circular spline zero draw p c = Ok (st, out) /\ NoDup (column_names out) /\
      (all_outputs st = column_names out <-> Advertises p (is_date midnight c)).
  Proof.
    intros draw p c V CD G N R NT. destruct (encoder_correct draw p c V CD G N R NT) as (st & E & (FO & FA & FB & _) & ND & _).
    exists st. eexists. split; [exact E|]. rewrite frame_names, <- FO. split; [exact ND|]. split; [|exact FA].
    intros EQ.
    assert (D : Advertises p (is_date midnight c) \/ ~ Advertises p (is_date midnight c)).
    { unfold Advertises. destruct (periodic_encoding p); [|auto]. destruct (is_date midnight c); [auto|]. destruct (add_weekday p); [auto|].
      destruct (resolution p) as [r|]; [|right; intros [B|[B|[B|(r' & B & _)]]]; discriminate].
      destruct (in_dec eqd r ["year"; "month"; "day"; "hour"]) as [I|I]; [left; right; right; right; exists r; auto|].
      right. intros [B|[B|[B|(r' & B & I')]]]; try discriminate. congruence. }
    destruct D as [A|A]; [exact A|]. destruct (FB A) as (e & _ & I1 & I2). rewrite EQ in I1. contradiction.
  Qed.

  (** Periodic encodings without resolution fail. *)
  Lemma encoder_unresolved : forall draw p c, Valid p -> cdate c = true -> resolution p = None -> periodic_encoding p <> None ->
    fit_transform get_dt_feature midnight circular spline zero draw p c = Err UnboundLocalError.
  Proof.
    intros draw p c (_ & VP) CD PR PE. unfold fit_transform, fit, check_params. rewrite PR, CD.
    destruct (periodic_encoding p) as [e|]; [|congruence].
    assert (ME : mem e ["circular"; "spline"] = true) by (apply mem_true; simpl; intuition). rewrite ME. reflexivity.
  Qed.

  (** Names that are not strings fail with periodic encodings, of a feature. *)
  Lemma encoder_unnamed : forall draw p c s e, Valid p -> cdate c = true -> cname c = POther s -> periodic_encoding p = Some e ->
    (exists r, resolution p = Some r /\ (r <> "year" \/ add_weekday p = true \/ add_day_of_year p = true)) ->
    fit_transform get_dt_feature midnight circular spline zero draw p c = Err TypeError.
  Proof.
    intros draw p c s e (VR & VP) CD CN PE (r & PR & H). unfold fit_transform, fit, check_params. rewrite PR, PE, CD in *.
    rewrite (proj2 (mem_true r TIME_LEVELS) VR).
    assert (ME : mem e ["circular"; "spline"] = true) by (apply mem_true; simpl; intuition). rewrite ME. cbn [bind negb].
    generalize (is_date midnight c). intros date. unfold fit_encoders. rewrite CN. apply in_levels in VR.
    destruct VR as [->|[->|[->|[->|[->|[->|[->| ->]]]]]]]; destruct VP as [->| ->]; destruct date, (add_weekday p), (add_day_of_year p);
      first [reflexivity|exfalso; destruct H as [H|[H|H]]; congruence].
  Qed.

  (** Each output column has a value exactly where the datetime is not null. *)
  Lemma frame_nulls : forall p date name (data : list (option T)) col, In col (column_data (expected_frame get_dt_feature circular spline p date name data)) ->
    exists g : T -> F, Forall2 (fun v x => x = match v with Some t => Some (g t) | None => None end) data col.
  Proof.
    intros p date name data col I. unfold column_data, expected_frame in I. rewrite map_map in I. apply in_map_iff in I.
    destruct I as ((s & g) & <- & _). exists g. cbn [snd]. clear. induction data as [|[t|] data IH]; constructor; auto.
  Qed.

  (** The column is a date when all its datetimes are, nulls excepted. *)
  Lemma is_date_spec : forall c date, (date = true <-> forall t, In (Some t) (cdata c) -> midnight t = true) -> is_date midnight c = date.
  Proof.
    intros c date D. assert (E : is_date midnight c = true <-> date = true).
    { rewrite D. unfold is_date. rewrite forallb_forall. split; [intros A t I; exact (A _ I)|intros A [t|] I; [exact (A t I)|reflexivity]]. }
    destruct (is_date midnight c), date; try reflexivity; [symmetry|]; tauto.
  Qed.

  Lemma encoder_outputs' : forall draw p c date, (date = true <-> forall t, In (Some t) (cdata c) -> midnight t = true) ->
    Valid p -> cdate c = true -> Resolved p -> Named p c -> Rows p c -> ~ SubString "__skrub" (shown (cname c)) ->
    exists st, fit_transform get_dt_feature midnight circular spline zero draw p c =
        Ok (st, expected_frame get_dt_feature circular spline p date (shown (cname c)) (cdata c)) /\
      forall draw' c', shown (cname c') = shown (cname c) -> Rows p c' ->
        transform get_dt_feature circular spline zero draw' st c' =
        Ok (expected_frame get_dt_feature circular spline p date (shown (cname c)) (cdata c')).
  Proof. intros draw p c date D. apply is_date_spec in D. subst date. apply encoder_outputs. Qed.
  Lemma encoder_advertised' : forall draw p c date, (date = true <-> forall t, In (Some t) (cdata c) -> midnight t = true) ->
    Valid p -> cdate c = true -> Resolved p -> Named p c -> Rows p c -> ~ SubString "__skrub" (shown (cname c)) ->
    exists st out, fit_transform get_dt_feature midnight circular spline zero draw p c = Ok (st, out) /\ NoDup (column_names out) /\
      (all_outputs st = column_names out <-> Advertises p date).
  Proof. intros draw p c date D. apply is_date_spec in D. subst date. apply encoder_advertised. Qed.
End Lemmas.
