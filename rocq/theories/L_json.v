(** Lemmas about the JSON form of reports. *)
From Coq Require Import QArith.
From Verif Require Import Base M_summary L_summary M_json.
Open Scope string_scope.
Open Scope list_scope.
Open Scope nat_scope.
Set Default Proof Using "Type".

(** ** Python objects and JSON *)
(** objects made of None, booleans, numbers (of Python or numpy), strings, lists and dictionaries *)
Inductive Writable : py -> Prop :=
| W_none : Writable PyNone
| W_bool b : Writable (PyBool b)
| W_int z : Writable (PyInt z)
| W_float f : Writable (PyFloat f)
| W_str s : Writable (PyStr s)
| W_list l : Forall Writable l -> Writable (PyList l)
| W_dict d : Forall (fun kv => Writable (snd kv)) d -> Writable (PyDict d)
| W_npint z : Writable (NpInt z)
| W_npfloat f : Writable (NpFloat f).
(** the JSON of an object *)
Inductive Denotes : py -> json -> Prop :=
| D_none : Denotes PyNone JNull
| D_bool b : Denotes (PyBool b) (JBool b)
| D_int z : Denotes (PyInt z) (JInt z)
| D_float f : Denotes (PyFloat f) (JFloat f)
| D_str s : Denotes (PyStr s) (JStr s)
| D_list l js : Forall2 Denotes l js -> Denotes (PyList l) (JArr js)
| D_dict d js : Forall2 (fun kv kj => fst kv = fst kj /\ Denotes (snd kv) (snd kj)) d js -> Denotes (PyDict d) (JObj js)
| D_npint z : Denotes (NpInt z) (JInt z)
| D_npfloat f : Denotes (NpFloat f) (JFloat f).
(** the documents that the JSON standard accepts: no NaN, no infinity *)
Inductive Standard : json -> Prop :=
| S_null : Standard JNull
| S_bool b : Standard (JBool b)
| S_int z : Standard (JInt z)
| S_float q : Standard (JFloat (Fin q))
| S_str s : Standard (JStr s)
| S_arr l : Forall Standard l -> Standard (JArr l)
| S_obj d : Forall (fun kv => Standard (snd kv)) d -> Standard (JObj d).
(** the value of a key *)
Definition field (k : string) (j : json) : option json := match j with JObj d => dget k d | _ => None end.

Section PyInd.
  Variable P : py -> Prop.
  Hypothesis Pnone : P PyNone.
  Hypothesis Pbool : forall b, P (PyBool b).
  Hypothesis Pint : forall z, P (PyInt z).
  Hypothesis Pfloat : forall f, P (PyFloat f).
  Hypothesis Pstr : forall s, P (PyStr s).
  Hypothesis Plist : forall l, Forall P l -> P (PyList l).
  Hypothesis Pdict : forall d, Forall (fun kv => P (snd kv)) d -> P (PyDict d).
  Hypothesis Pnpint : forall z, P (NpInt z).
  Hypothesis Pnpfloat : forall f, P (NpFloat f).
  Hypothesis Pobj : P PyObj.
  Fixpoint py_ind2 (v : py) : P v :=
    match v with
    | PyNone => Pnone | PyBool b => Pbool b | PyInt z => Pint z | PyFloat f => Pfloat f | PyStr s => Pstr s
    | PyList l => Plist l ((fix go l : Forall P l := match l with [] => Forall_nil _ | a :: l' => Forall_cons a (py_ind2 a) (go l') end) l)
    | PyDict d => Pdict d ((fix go d : Forall (fun kv => P (snd kv)) d := match d with [] => Forall_nil _ | kv :: d' => Forall_cons kv (py_ind2 (snd kv)) (go d') end) d)
    | NpInt z => Pnpint z | NpFloat f => Pnpfloat f | PyObj => Pobj
    end.
End PyInd.

Lemma dumps_list : forall l, dumps (PyList l) = let! js := mapM dumps l in Ok (JArr js).
Proof.
  intros l. cbn [dumps]. f_equal. induction l as [|a l IH]; [reflexivity|]. cbn [mapM]. destruct (dumps a) as [j|e]; [|reflexivity].
  cbn [bind]. rewrite IH. reflexivity.
Qed.
Lemma dumps_dict : forall d, dumps (PyDict d) = let! js := mapM (fun kv => let! j := dumps (snd kv) in Ok (fst kv, j)) d in Ok (JObj js).
Proof.
  intros d. cbn [dumps]. f_equal. induction d as [|[k a] d IH]; [reflexivity|]. cbn [mapM fst snd]. destruct (dumps a) as [j|e]; [|reflexivity].
  cbn [bind]. rewrite IH. reflexivity.
Qed.

Lemma dumps_spec : forall v, (Writable v /\ exists j, dumps v = Ok j /\ Denotes v j) \/ (~ Writable v /\ dumps v = Err TypeError).
Proof.
  apply py_ind2; try (intros; left; split; [constructor|eexists; split; [reflexivity|constructor]]).
  3: { right. split; [intros W; inversion W|reflexivity]. }
  - intros l F. rewrite dumps_list.
    assert (H : (Forall Writable l /\ exists js, mapM dumps l = Ok js /\ Forall2 Denotes l js) \/ (~ Forall Writable l /\ mapM dumps l = Err TypeError)).
    { induction F as [|v l [(W & j & E & D)|(W & E)] F [(Wl & js & El & Dl)|(Wl & El)]]; cbn [mapM].
      - left. split; [constructor|]. exists []. split; [reflexivity|constructor].
      - left. split; [constructor; assumption|]. exists (j :: js). rewrite E, El. split; [reflexivity|constructor; assumption].
      - right. rewrite E, El. split; [intros X; inversion X; contradiction|reflexivity].
      - right. rewrite E. split; [intros X; inversion X; contradiction|reflexivity].
      - right. rewrite E. split; [intros X; inversion X; contradiction|reflexivity]. }
    destruct H as [(W & js & E & D)|(W & E)]; rewrite E; cbn [bind].
    + left. split; [constructor; exact W|]. eexists. split; [reflexivity|constructor; exact D].
    + right. split; [intros X; inversion X; contradiction|reflexivity].
  - intros d F. rewrite dumps_dict. set (f := fun kv : string * py => let! j := dumps (snd kv) in Ok (fst kv, j)).
    assert (H : (Forall (fun kv => Writable (snd kv)) d /\ exists js, mapM f d = Ok js /\ Forall2 (fun kv kj => fst kv = fst kj /\ Denotes (snd kv) (snd kj)) d js) \/
                (~ Forall (fun kv => Writable (snd kv)) d /\ mapM f d = Err TypeError)).
    { induction F as [|[k v] l [(W & j & E & D)|(W & E)] F [(Wl & js & El & Dl)|(Wl & El)]]; cbn [mapM].
      - left. split; [constructor|]. exists []. split; [reflexivity|constructor].
      - left. split; [constructor; assumption|]. exists ((k, j) :: js). unfold f at 1. cbn [fst snd] in *. rewrite E. cbn [bind]. rewrite El. split; [reflexivity|].
        constructor; [split; [reflexivity|exact D]|assumption].
      - right. unfold f at 1. cbn [fst snd] in *. rewrite E. cbn [bind]. rewrite El. split; [intros X; inversion X; contradiction|reflexivity].
      - right. unfold f at 1. cbn [fst snd] in *. rewrite E. split; [intros X; inversion X; contradiction|reflexivity].
      - right. unfold f at 1. cbn [fst snd] in *. rewrite E. split; [intros X; inversion X; contradiction|reflexivity]. }
    destruct H as [(W & js & E & D)|(W & E)]; rewrite E; cbn [bind].
    + left. split; [constructor; exact W|]. eexists. split; [reflexivity|constructor; exact D].
    + right. split; [intros X; inversion X; contradiction|reflexivity].
Qed.

(** the value of a key in the JSON of a dictionary *)
Lemma denotes_field : forall d j k v, Denotes (PyDict d) j -> dget k d = Some v -> exists jv, field k j = Some jv /\ Denotes v jv.
Proof.
  intros d j k v D. inversion D as [| | | | | |? js F| |]; subst. clear D. cbn [field].
  induction F as [|[k1 v1] [k2 j2] d js [E D] F IH]; [discriminate|]. cbn [fst snd] in *. subst k2. cbn [dget].
  destruct (eqd k k1); [intros E; injection E as <-; eauto|exact IH].
Qed.

Lemma forall2_len : forall A B (R : A -> B -> Prop) la lb, Forall2 R la lb -> length la = length lb.
Proof. intros A B R la lb F. induction F; cbn; congruence. Qed.

Section Report.
  Context {V : Type} `{EqD V}.
  Variable num seconds : V -> Q.
  Variable leb : V -> V -> bool.
  Variable scale : unit_ -> Q -> Q.
  Variable qidx : lib -> Q -> nat -> nat.
  Variable sort_counts : list (V * nat) -> list (V * nat).
  Hypothesis qidx_ok : QidxOk qidx.
  Hypothesis sort_ok : SortOk sort_counts.
  Hypothesis date_order : DateOrder leb.
  Variable obj : V -> py.
  Variable null_obj : lib -> kind V -> py.
  Variable iso : V -> string.
  Variable mean_of std_of : column V -> flt.
  Variable outliers : column V -> Z * Z.
  Variable plot : string -> column V -> string.
  Variable dtype_name : column V -> string.
  Notation column_dict := (column_dict obj null_obj iso mean_of std_of outliers plot dtype_name).
  Notation report_json := (report_json num seconds leb scale qidx sort_counts obj null_obj iso mean_of std_of outliers plot dtype_name).
  Notation report_dict := (report_dict num seconds leb scale qidx sort_counts obj null_obj iso mean_of std_of outliers plot dtype_name).
  Notation summarize := (summarize_column num seconds leb scale qidx sort_counts).
  Notation cell_obj := (cell_obj obj null_obj iso).

  (** ** The objects that a report contains *)
  (** values that are listed or reported as the constant of a column *)
  Definition ShownValue (col : column V) (s : summary V) (v : py) : Prop :=
    (exists c, constant_value s = Some c /\ v = cell_obj col c) \/ (exists cs x k, counts s = Some cs /\ In (x, k) cs /\ v = obj x).

  Lemma Forall_opt : forall A (o : option A) f (P : string * py -> Prop), Forall P (opt o f) <-> forall a, o = Some a -> Forall P (f a).
  Proof. intros A [a|] f P; cbn; split; [intros F b E; injection E as <-; exact F|intros F; apply F; reflexivity|intros _ b E; discriminate|intros _; constructor]. Qed.

  Lemma column_dict_writable : forall i name col s,
    Forall (fun kv => Writable (snd kv)) (column_dict i name col s) <-> Writable name /\ forall v, ShownValue col s v -> Writable v.
  Proof.
    intros i name col s. unfold M_json.column_dict. rewrite !Forall_app. split.
    - intros (F1 & F2 & F3 & F4 & F5 & F6 & F7 & F8 & F9). split.
      + inversion F1 as [|? ? _ G1]. inversion G1 as [|? ? _ G2]. inversion G2 as [|? ? G3 _]. exact G3.
      + intros v [(c & E & ->)|(cs & x & k & E & I & ->)].
        * rewrite E in F7. cbn in F7. inversion F7. assumption.
        * rewrite E in F4. cbn in F4. inversion F4 as [|? ? _ G1]. inversion G1 as [|? ? G2 _]. cbn in G2. inversion G2 as [| | | | |? G3| | |].
          rewrite Forall_forall in G3. apply G3. apply in_map_iff. exists (x, k). auto.
    - intros [Wn Wv]. repeat split; try (apply Forall_opt; intros a Ea).
      + repeat constructor; cbn; try assumption. destruct (clib col); constructor.
      + repeat constructor.
      + repeat constructor.
      + repeat constructor; cbn.
        * apply Forall_forall. intros v I. apply in_map_iff in I. destruct I as ([x k] & <- & I). repeat constructor. apply Wv. right. exists a, x, k. auto.
        * apply Forall_forall. intros v I. apply in_map_iff in I. destruct I as ([x k] & <- & I). apply Wv. right. exists a, x, k. auto.
      + repeat constructor.
      + repeat constructor. cbn. destruct (unit_of s); constructor.
      + repeat constructor. cbn. apply Wv. left. exists a. auto.
      + constructor; [|constructor]. cbn [snd]. constructor. apply Forall_forall. intros [k v] I. apply in_combine_r in I. apply in_map_iff in I. destruct I as (q & <- & _). constructor.
      + repeat constructor.
      + apply Forall_forall. intros kv I. apply in_flat_map in I. destruct I as (p & _ & [<-|I]); [constructor|].
        destruct (string_dec p "histogram_plot"); [|destruct I]. destruct I as [<-|[<-|[]]]; constructor.
      + repeat constructor. cbn. apply Forall_forall. intros v I. apply in_map_iff in I. destruct I as (p & <- & _). constructor.
  Qed.

  Notation column_dicts := (column_dicts obj null_obj iso mean_of std_of outliers plot dtype_name).
  Lemma column_dicts_writable : forall df ss p, length df = length ss ->
    (Forall Writable (column_dicts p df ss) <-> Forall2 (fun nc s => Writable (fst nc) /\ forall v, ShownValue (snd nc) s v -> Writable v) df ss).
  Proof.
    induction df as [|nc df IH]; intros [|s ss] p L; try discriminate; cbn [M_json.column_dicts]; [split; intros _; constructor|].
    injection L as L. rewrite Forall_cons_iff. rewrite IH by exact L. split.
    - intros [W F]. constructor; [|exact F]. apply (column_dict_writable p). inversion W. assumption.
    - intros F. inversion F as [|? ? ? ? W F']; subst. split; [|exact F']. constructor. apply column_dict_writable. exact W.
  Qed.

  (** the columns as they are summarized: with the rows in the order of the column [order_by] *)
  Definition arranged (o : options) (col : column V) : column V := match order_by o with Some (_, rows) => reorder rows col | None => col end.
  Definition is_ordered (o : options) : bool := match order_by o with Some _ => true | None => false end.
  Definition summary_of (n : nat) (o : options) (col : column V) : res (summary V) := summarize n (with_plots o) (is_ordered o) (arranged o col).
  (** [order_by] only changes the order of the rows *)
  Definition OptionsOk (n : nat) (o : options) : Prop := forall by_ rows, order_by o = Some (by_, rows) -> Permutation rows (seq 0 n).

  Lemma arranged_same : forall n o col, OptionsOk n o -> WF n col -> SameRows col (arranged o col).
  Proof.
    intros n o col Oo W. unfold arranged. destruct (order_by o) as [[b rows]|] eqn:E; [apply (reorder_same n rows col (wf_length _ _ W) (Oo b rows E))|].
    split; [reflexivity|]. split; [reflexivity|apply Permutation_refl].
  Qed.
  Lemma arranged_wf : forall n o col, OptionsOk n o -> WF n col -> WF n (arranged o col).
  Proof. intros n o col Oo W. exact (same_wf n _ _ (arranged_same n o col Oo W) W). Qed.

  Definition df_sorted (o : options) (df : list (py * column V)) : list (py * column V) :=
    match order_by o with Some (_, rows) => map (fun nc => (fst nc, reorder rows (snd nc))) df | None => df end.
  Lemma df_sorted_eq : forall o df, df_sorted o df = map (fun nc => (fst nc, arranged o (snd nc))) df.
  Proof.
    intros o df. unfold df_sorted, arranged. destruct (order_by o) as [[b rows]|]; [reflexivity|].
    rewrite <- (map_id df) at 1. apply map_ext. intros [a c]. reflexivity.
  Qed.

  Lemma summaries_ok : forall n (df : list (py * column V)) o, OptionsOk n o -> (forall nc, In nc df -> WF n (snd nc)) ->
    exists ss, Forall2 (fun nc s => summary_of n o (snd nc) = Ok s) df ss /\
      summarize_dataframe num seconds leb scale qidx sort_counts n (option_map snd (order_by o)) (with_plots o) (map snd df) = Ok (ss, length (filter value_is_constant ss)).
  Proof using sort_ok.
    clear - sort_ok. intros n df o Oo W.
    assert (X : exists ss, Forall2 (fun nc s => summary_of n o (snd nc) = Ok s) df ss).
    { induction df as [|nc df IH]; [exists []; constructor|]. destruct IH as (ss & F); [intros x I; apply W; right; exact I|].
      assert (W1 : WF n (arranged o (snd nc))) by (apply arranged_wf; [exact Oo|apply W; left; reflexivity]).
      destruct (summary_total num seconds leb scale qidx sort_counts sort_ok n (with_plots o) (is_ordered o) _ W1) as (s & Es).
      exists (s :: ss). constructor; assumption. }
    destruct X as (ss & F). exists ss. split; [exact F|]. unfold summarize_dataframe.
    assert (M : mapM (summarize n (with_plots o) (is_ordered o)) (map (arranged o) (map snd df)) = Ok ss).
    { apply mapM_Forall2. clear - F. induction F as [|nc s df ss E F IH]; [constructor|]. constructor; [exact E|exact IH]. }
    unfold is_ordered, arranged in M. destruct (order_by o) as [[b rows]|]; cbn [option_map snd].
    - change (map (reorder rows) (map snd df)) with (map (fun col => reorder rows col) (map snd df)). rewrite M. reflexivity.
    - rewrite map_id in M. rewrite M. reflexivity.
  Qed.

  Lemma report_dict_ok : forall l n (df : list (py * column V)) o, OptionsOk n o -> (forall nc, In nc df -> WF n (snd nc)) ->
    exists ss, Forall2 (fun nc s => summary_of n o (snd nc) = Ok s) df ss /\
      report_dict l n df o = Ok ([("dataframe_module", PyStr (lib_name l)); ("n_rows", PyInt (Z.of_nat n)); ("n_columns", PyInt (Z.of_nat (length df)));
         ("columns", PyList (column_dicts 0 (df_sorted o df) ss)); ("dataframe_is_empty", PyBool ((n =? 0) || (length df =? 0)));
         ("plots_skipped", PyBool (negb (with_plots o))); ("associations_skipped", PyBool (match top o with Some _ => false | None => true end))] ++
        opt (title o) (fun t => [("title", t)]) ++ opt (order_by o) (fun b => [("order_by", fst b)]) ++
        [("n_constant_columns", PyInt (Z.of_nat (length (filter value_is_constant ss))))] ++
        opt (top o) (fun t => [("top_associations", PyList (map (association_dict l) t))])).
  Proof using sort_ok.
    intros l n df o Oo W. destruct (summaries_ok n df o Oo W) as (ss & F & E). exists ss. split; [exact F|].
    unfold M_json.report_dict. rewrite E. cbn [bind]. reflexivity.
  Qed.

  (** ** The objects that must be written *)
  Inductive ReportObject (n : nat) (df : list (py * column V)) (o : options) : py -> Prop :=
  | RO_title t : title o = Some t -> ReportObject n df o t
  | RO_order_by b rows : order_by o = Some (b, rows) -> ReportObject n df o b
  | RO_name name col : In (name, col) df -> ReportObject n df o name
  | RO_value name col s v : In (name, col) df -> summary_of n o col = Ok s -> ShownValue (arranged o col) s v -> ReportObject n df o v.

  Lemma report_objects : forall l n (df : list (py * column V)) o ss, Forall2 (fun nc s => summary_of n o (snd nc) = Ok s) df ss ->
    (Forall (fun kv => Writable (snd kv)) ([("dataframe_module", PyStr (lib_name l)); ("n_rows", PyInt (Z.of_nat n)); ("n_columns", PyInt (Z.of_nat (length df)));
         ("columns", PyList (column_dicts 0 (df_sorted o df) ss)); ("dataframe_is_empty", PyBool ((n =? 0) || (length df =? 0)));
         ("plots_skipped", PyBool (negb (with_plots o))); ("associations_skipped", PyBool (match top o with Some _ => false | None => true end))] ++
        opt (title o) (fun t => [("title", t)]) ++ opt (order_by o) (fun b => [("order_by", fst b)]) ++
        [("n_constant_columns", PyInt (Z.of_nat (length (filter value_is_constant ss))))] ++
        opt (top o) (fun t => [("top_associations", PyList (map (association_dict l) t))])) <->
     forall v, ReportObject n df o v -> Writable v).
  Proof.
    intros l n df o ss F.
    assert (Lc : length (df_sorted o df) = length ss) by (rewrite df_sorted_eq, map_length; exact (forall2_len _ _ _ _ _ F)).
    assert (X : Forall Writable (column_dicts 0 (df_sorted o df) ss) <->
                forall name col, In (name, col) df -> Writable name /\ forall s v, summary_of n o col = Ok s -> ShownValue (arranged o col) s v -> Writable v).
    { rewrite (column_dicts_writable _ _ 0 Lc), df_sorted_eq. clear Lc. induction F as [|[name col] s df ss E F IH]; cbn [map].
      - split; [intros _ name col []|constructor].
      - split.
        + intros G name' col' [Q|I].
          * injection Q as <- <-. inversion G as [|? ? ? ? [Wn Wv] G']; subst. cbn [fst snd] in *. split; [exact Wn|]. intros s' v Es. rewrite Es in E. injection E as <-. apply Wv.
          * inversion G as [|? ? ? ? _ G']; subst. exact (proj1 IH G' name' col' I).
        + intros R. constructor; [|apply IH; intros name' col' I; apply R; right; exact I]. cbn [fst snd] in *.
          destruct (R name col (or_introl eq_refl)) as [Wn Wv]. split; [exact Wn|]. intros v. apply Wv. exact E. }
    rewrite !Forall_app. split.
    - intros (F1 & F2 & F3 & _) v R.
      assert (G : forall name col, In (name, col) df -> Writable name /\ forall s v, summary_of n o col = Ok s -> ShownValue (arranged o col) s v -> Writable v).
      { apply X. inversion F1 as [|? ? _ G1]. inversion G1 as [|? ? _ G2]. inversion G2 as [|? ? _ G3]. inversion G3 as [|? ? G4 _]. cbn [snd] in G4.
        inversion G4 as [| | | | |? G5| | |]. exact G5. }
      destruct R as [t Et|b rows Eb|name col I|name col s v I Es Sv].
      + rewrite Et in F2. inversion F2. assumption.
      + rewrite Eb in F3. inversion F3. assumption.
      + exact (proj1 (G name col I)).
      + exact (proj2 (G name col I) s v Es Sv).
    - intros R. split; [|split; [|split; [|split]]]; try (apply Forall_opt; intros a Ea).
      + do 3 (constructor; [constructor|]). constructor; [|repeat constructor]. cbn [snd]. constructor. apply X. intros name col I. split.
        * apply R. apply RO_name with col. exact I.
        * intros s v Es Sv. apply R. exact (RO_value n df o name col s v I Es Sv).
      + repeat constructor. cbn. apply R. apply RO_title. exact Ea.
      + repeat constructor. destruct a as [b rows]. cbn. apply R. apply RO_order_by with rows. exact Ea.
      + repeat constructor.
      + repeat constructor. cbn. apply Forall_forall. intros v I. apply in_map_iff in I. destruct I as (x & <- & _).
        repeat constructor. cbn. destruct (pearson x); [constructor|]. destruct l; constructor.
  Qed.

  Theorem json_exact : forall l n df o, OptionsOk n o -> (forall nc, In nc df -> WF n (snd nc)) ->
    ((exists j, report_json l n df o = Ok j) <-> (forall v, ReportObject n df o v -> Writable v)) /\
    (forall e, report_json l n df o = Err e -> e = TypeError).
  Proof using sort_ok.
    intros l n df o Oo W. destruct (report_dict_ok l n df o Oo W) as (ss & F & E). pose proof (report_objects l n df o ss F) as G. unfold M_json.report_json. rewrite E. cbn [bind].
    match goal with |- context [dumps (PyDict ?d)] => set (D := d) in * end.
    destruct (dumps_spec (PyDict D)) as [(Wd & j & Ej & _)|(Nw & Ej)]; rewrite Ej.
    - split; [|intros e X; discriminate]. split; [|eauto]. intros _. apply G. inversion Wd. assumption.
    - split; [|intros e X; congruence]. split; [intros (j & X); discriminate|]. intros R. exfalso. apply Nw. constructor. apply G. exact R.
  Qed.

  (** ** What it says *)
  (** the JSON of a column: an object with its position, its name and its number of nulls *)
  Definition ColumnJson (p : nat) (name : py) (col : column V) (j : json) : Prop :=
    field "position" j = Some (JInt (Z.of_nat p)) /\ (exists jn, Denotes name jn /\ field "name" j = Some jn) /\
    exists k, Number IsNull (cells col) k /\ field "null_count" j = Some (JInt (Z.of_nat k)).

  Lemma column_dicts_nth : forall df ss p, Forall2 (fun _ _ => True) df ss ->
    length (column_dicts p df ss) = length df /\
    forall i name col, nth_error df i = Some (name, col) -> exists s, nth_error ss i = Some s /\ nth_error (column_dicts p df ss) i = Some (PyDict (column_dict (p + i) name col s)).
  Proof.
    intros df ss p F. revert p. induction F as [|nc s df ss _ F IH]; intros p.
    - split; [reflexivity|]. intros [|i] name col E; discriminate.
    - destruct (IH (S p)) as [L N]. cbn [M_json.column_dicts length]. split; [f_equal; exact L|]. intros [|i] name col E.
      + injection E as ->. exists s. rewrite Nat.add_0_r. split; reflexivity.
      + destruct (N i name col E) as (s' & Es & En). exists s'. rewrite <- Nat.add_succ_comm. split; assumption.
  Qed.
  Lemma forall2_nth : forall A B (R : A -> B -> Prop) la lb, Forall2 R la lb -> forall i a b, nth_error la i = Some a -> nth_error lb i = Some b -> R a b.
  Proof. intros A B R la lb F. induction F as [|x y la lb r F IH]; intros [|i] a b Ea Eb; try discriminate; [injection Ea as <-; injection Eb as <-; exact r|exact (IH i a b Ea Eb)]. Qed.
  Lemma forall2_nth_l : forall A B (R : A -> B -> Prop) la lb, Forall2 R la lb -> forall i a, nth_error la i = Some a -> exists b, nth_error lb i = Some b /\ R a b.
  Proof. intros A B R la lb F. induction F as [|x y la lb r F IH]; intros [|i] a Ea; try discriminate; [injection Ea as <-; exists y; auto|exact (IH i a Ea)]. Qed.
  Lemma forall2_true : forall A B (la : list A) (lb : list B), length la = length lb -> Forall2 (fun _ _ => True) la lb.
  Proof. intros A B la. induction la as [|a la IH]; intros [|b lb] L; try discriminate; constructor; auto. Qed.

  Theorem json_content : forall l n (df : list (py * column V)) o j, OptionsOk n o -> (forall nc, In nc df -> WF n (snd nc)) -> report_json l n df o = Ok j ->
    field "n_rows" j = Some (JInt (Z.of_nat n)) /\ field "n_columns" j = Some (JInt (Z.of_nat (length df))) /\
    (forall t, title o = Some t -> exists jt, Denotes t jt /\ field "title" j = Some jt) /\
    exists cols, field "columns" j = Some (JArr cols) /\ length cols = length df /\
      forall p name col, nth_error df p = Some (name, col) -> exists jc, nth_error cols p = Some jc /\ ColumnJson p name col jc.
  Proof using sort_ok date_order.
    intros l n df o j Oo W E. destruct (report_dict_ok l n df o Oo W) as (ss & F & Ed). unfold M_json.report_json in E. rewrite Ed in E. cbn [bind] in E. clear Ed.
    match type of E with dumps (PyDict ?d) = _ => set (D := d) in * end.
    destruct (dumps_spec (PyDict D)) as [(_ & j' & Ej & Dj)|(_ & Ej)]; rewrite Ej in E; [|discriminate]. injection E as ->. clear Ej.
    assert (X : forall k v, dget k D = Some v -> exists jv, field k j = Some jv /\ Denotes v jv) by (intros k v Ek; exact (denotes_field D j k v Dj Ek)).
    split; [destruct (X "n_rows" _ eq_refl) as (jv & Ef & Dv); inversion Dv; subst; exact Ef|].
    split; [destruct (X "n_columns" _ eq_refl) as (jv & Ef & Dv); inversion Dv; subst; exact Ef|].
    split.
    { intros t Et. destruct (X "title" t) as (jv & Ef & Dv); [unfold D; rewrite Et; reflexivity|]. exists jv. auto. }
    destruct (X "columns" _ eq_refl) as (jv & Ef & Dv). inversion Dv as [| | | | |cs js Fc| | |]; subst. exists js. split; [exact Ef|]. clear X Dj D Ef Dv.
    assert (Lc : length (df_sorted o df) = length ss) by (rewrite df_sorted_eq, map_length; exact (forall2_len _ _ _ _ _ F)).
    destruct (column_dicts_nth _ _ 0 (forall2_true _ _ _ _ Lc)) as [L1 N]. split.
    { rewrite <- (forall2_len _ _ _ _ _ Fc), L1, df_sorted_eq. apply map_length. }
    intros p name col Ep. destruct (N p name (arranged o col)) as (s & Es & En).
    { rewrite df_sorted_eq. rewrite (map_nth_error _ p df Ep). reflexivity. }
    destruct (forall2_nth_l _ _ _ _ _ Fc p _ En) as (jc & Ejc & Dc). exists jc. split; [exact Ejc|]. cbn [plus] in Dc.
    pose proof (forall2_nth _ _ _ _ _ F p _ _ Ep Es) as Sum. cbn [snd] in Sum.
    assert (Wc : WF n col) by (apply (W (name, col)); apply nth_error_In with p; exact Ep).
    pose proof (arranged_wf n o col Oo Wc) as Wa. pose proof (arranged_same n o col Oo Wc) as Sa.
    destruct (summary_nulls num seconds leb scale qidx sort_counts sort_ok date_order n (with_plots o) (is_ordered o) _ s Wa Sum) as (En0 & _ & _).
    rewrite <- (same_nulls _ _ Sa) in En0. split; [|split].
    - destruct (denotes_field _ _ "position" _ Dc eq_refl) as (jv & Efv & Dv). inversion Dv; subst. exact Efv.
    - destruct (denotes_field _ _ "name" _ Dc eq_refl) as (jv & Efv & Dv). exists jv. auto.
    - exists (count_nulls col). split.
      + unfold count_nulls. apply number_filter. intros c I. apply (is_null_ok n col Wc c I).
      + destruct (denotes_field _ _ "null_count" _ Dc eq_refl) as (jv & Efv & Dv). rewrite En0 in Dv. unfold count_obj in Dv. destruct (clib (arranged o col)); inversion Dv; subst; exact Efv.
  Qed.

  (** ** Columns whose values can be written *)
  Definition Suitable (col : column V) : Prop :=
    match ckind col with
    | KDate => True
    | KNumber _ => (forall v, Occurs col v -> Writable (obj v)) /\ (In Null (cells col) -> Writable (null_obj (clib col) (ckind col)))
    | KDuration => exists v w, Occurs col v /\ Occurs col w /\ ~ (measure num seconds scale qidx col v == measure num seconds scale qidx col w)%Q
    | KCategory cats => forall v, In v cats \/ Occurs col v -> Writable (obj v)
    | KOther => forall v, Occurs col v -> Writable (obj v)
    end \/ forall v, ~ Occurs col v.

  Lemma suitable_same : forall col col', SameRows col col' -> Suitable col -> Suitable col'.
  Proof using qidx_ok.
    intros col col' S [Su|No]; [left|right; intros v O; apply (No v); apply (same_occurs _ _ S); exact O].
    pose proof (same_measure num seconds scale qidx col col' S) as M. pose proof (same_occurs _ _ S) as Oc. destruct S as (E1 & E2 & P). rewrite <- E2. destruct (ckind col) as [b| | |cats|] eqn:K.
    - rewrite <- E1. destruct Su as [A B]. split; [intros v O; apply A, Oc, O|]. intros I. apply B. apply (Permutation_in _ (Permutation_sym P)). exact I.
    - exact I.
    - destruct Su as (v & w & A & B & C). exists v, w. rewrite <- !M. repeat split; try apply Oc; assumption.
    - intros v [I|O]; apply Su; [left|right; apply Oc]; assumption.
    - intros v O. apply Su, Oc, O.
  Qed.
  Lemma shown_suitable : forall n wp od col s v, WF n col -> Suitable col -> summarize n wp od col = Ok s -> ShownValue col s v -> Writable v.
  Proof using qidx_ok sort_ok date_order.
    intros n wp od col s v W Su E Sh. destruct (Nat.eq_dec (count_nulls col) n) as [Z|N].
    - rewrite (summary_null num seconds leb scale qidx sort_counts n wp od col Z) in E. injection E as <-.
      destruct Sh as [(c & X & _)|(cs & x & k & X & _)]; discriminate.
    - destruct (has_value n col W N) as [Hv Hc].
      assert (So : exists v, Occurs col v) by (destruct (values (cells col)) as [|v0 l0] eqn:Ev; [contradiction|]; exists v0; apply values_in; rewrite Ev; left; reflexivity).
      destruct Su as [Su|No]; [|destruct So as (v0 & O); destruct (No v0 O)].
      destruct (kind_cases col) as [K|[K|K]].
      + destruct (summary_constant_measure num seconds leb scale qidx sort_counts qidx_ok n wp od col s W K E) as [Cm _].
        destruct (summary_numeric num seconds leb scale qidx sort_counts n wp od col W K N) as (c & Hc' & E'). cbv zeta in E'. rewrite E' in E. injection E as <-.
        destruct Sh as [(c0 & X & ->)|(cs & x & k & X & _)]; [|discriminate]. cbn [constant_value value_is_constant] in *.
        set (bb := Qeq_bool _ _) in *. destruct bb eqn:Eb; [|discriminate]. injection X as <-. unfold Numeric in K.
        assert (Ic : In c (cells col)) by (destruct (cells col); [discriminate|injection Hc' as ->; left; reflexivity]).
        unfold M_json.cell_obj. destruct (ckind col) as [b| | |cats|] eqn:Kc; try contradiction.
        * destruct Su as [A B]. destruct c as [| |v0]; [exact (B Ic)|constructor|exact (A v0 Ic)].
        * destruct Su as (v0 & w & Ov & Ow & Ne). exfalso. apply Ne. destruct (Cm eq_refl) as [_ Al]. exact (Al v0 w Ov Ow).
      + destruct (summary_date num seconds leb scale qidx sort_counts date_order n wp od col W K N) as (lo & hi & _ & _ & _ & E'). rewrite E' in E. injection E as <-.
        destruct Sh as [(c0 & X & ->)|(cs & x & k & X & _)]; [|discriminate]. cbn [constant_value] in X. destruct (eqb_of lo hi); [|discriminate]. injection X as <-.
        unfold M_json.cell_obj. rewrite K. constructor.
      + destruct (summary_listed num seconds leb scale qidx sort_counts sort_ok n wp od col W K N) as (c & Hc' & E'). rewrite E' in E. injection E as <-.
        assert (A : forall x k, In (x, k) (value_counts col) -> Writable (obj x)).
        { intros x k I. unfold value_counts in I. apply in_map_iff in I. destruct I as (y & Ey & I). injection Ey as <- _.
          assert (D : In y (distinct eqb_of (values (cells col))) -> Occurs col y) by (intros J; apply values_in; apply distinct_in in J; [exact J|intros; apply eqb_of_true]).
          unfold Listed in K. destruct (ckind col) as [b| | |cats|] eqn:Kc; try contradiction.
          - destruct (clib col); apply Su; auto.
          - apply Su. apply D. destruct (clib col); exact I. }
        destruct Sh as [(c0 & X & ->)|(cs & x & k & X & I & ->)]; cbn [constant_value counts] in X.
        * subst c. destruct c0 as [| |v0]; try contradiction. destruct Hc' as (k & Ev). unfold M_json.cell_obj. unfold Listed in K.
          assert (Wv : Writable (obj v0)) by (apply (A v0 k); rewrite Ev; left; reflexivity). destruct (ckind col); try contradiction; exact Wv.
        * injection X as <-. apply (A x k). destruct (sort_ok (value_counts col)) as [P _]. apply (Permutation_in _ P).
          rewrite <- (firstn_skipn 10 (sort_counts (value_counts col))). apply in_or_app. left. exact I.
  Qed.

  Theorem json_written : forall l n (df : list (py * column V)) o, OptionsOk n o -> (forall nc, In nc df -> WF n (snd nc)) ->
    (forall t, title o = Some t -> Writable t) -> (forall b rows, order_by o = Some (b, rows) -> Writable b) ->
    (forall name col, In (name, col) df -> Writable name /\ Suitable col) -> exists j, report_json l n df o = Ok j.
  Proof using qidx_ok sort_ok date_order.
    intros l n df o Oo W Wt Wo Wc. apply (json_exact l n df o Oo W). intros v [t Et|b rows Eb|name col I|name col s x I Es Sv].
    - exact (Wt t Et).
    - exact (Wo b rows Eb).
    - exact (proj1 (Wc name col I)).
    - pose proof (W _ I) as Wf. cbn [snd] in Wf. apply (shown_suitable n (with_plots o) (is_ordered o) (arranged o col) s x); try assumption.
      + exact (arranged_wf n o col Oo Wf).
      + apply (suitable_same col); [exact (arranged_same n o col Oo Wf)|exact (proj2 (Wc name col I))].
  Qed.

  (** durations that are all the same *)
  Theorem json_durations : forall l n (df : list (py * column V)) o name col v, OptionsOk n o -> (forall nc, In nc df -> WF n (snd nc)) ->
    In (name, col) df -> ckind col = KDuration -> (forall c, In c (cells col) -> c = Val v) -> cells col <> [] -> ~ Writable (obj v) ->
    report_json l n df o = Err TypeError.
  Proof using qidx_ok sort_ok date_order.
    intros l n df o name col v Oo W I K Al Ne Nw. destruct (json_exact l n df o Oo W) as [X Y].
    destruct (report_json l n df o) as [j|e] eqn:E; [|f_equal; apply Y; reflexivity]. exfalso. apply Nw.
    pose proof (W _ I) as Wc. cbn [snd] in Wc. pose proof (arranged_same n o col Oo Wc) as Sa. pose proof (arranged_wf n o col Oo Wc) as Wa.
    assert (Kn : Numeric (arranged o col)) by (destruct Sa as (_ & K' & _); unfold Numeric; rewrite <- K', K; exact Logic.I).
    assert (Aa : forall c, In c (cells (arranged o col)) -> c = Val v) by (intros c J; apply Al; destruct Sa as (_ & _ & P); exact (Permutation_in _ (Permutation_sym P) J)).
    assert (Nn : count_nulls (arranged o col) <> n).
    { rewrite <- (same_nulls _ _ Sa). assert (Z : count_nulls col = 0).
      { unfold count_nulls. clear - Al. induction (cells col) as [|c cs IH]; [reflexivity|]. cbn [filter].
        rewrite (Al c (or_introl eq_refl)). cbn [is_null]. apply IH. intros c' J. apply Al. right. exact J. }
      rewrite Z. rewrite <- (wf_length _ _ Wc). destruct (cells col); [contradiction|discriminate]. }
    destruct (summary_numeric num seconds leb scale qidx sort_counts n (with_plots o) (is_ordered o) _ Wa Kn Nn) as (c & Hc & E'). cbv zeta in E'.
    assert (c = Val v) by (apply Aa; destruct (cells (arranged o col)); [discriminate|injection Hc as ->; left; reflexivity]). subst c.
    match type of E' with _ = Ok ?x => set (s := x) in * end.
    assert (Cm : value_is_constant s = true).
    { apply (summary_constant_measure num seconds leb scale qidx sort_counts qidx_ok n (with_plots o) (is_ordered o) _ s Wa Kn E'). split.
      - exists v. unfold Occurs. destruct (cells (arranged o col)); [discriminate|]. left. injection Hc as ->. reflexivity.
      - intros a b Oa Ob. apply Aa in Oa, Ob. injection Oa as ->. injection Ob as ->. reflexivity. }
    apply (proj1 X (ex_intro _ j eq_refl)). apply (RO_value n df o name col s (obj v) I E'). left. exists (Val v).
    split; [cbn [s constant_value value_is_constant] in *; rewrite Cm; reflexivity|]. unfold M_json.cell_obj. destruct Sa as (_ & K' & _). rewrite <- K', K. reflexivity.
  Qed.

  (** associations between columns that are not numbers *)
  Theorem json_nan : forall n (df : list (py * column V)) o j t a, report_json Pandas n df o = Ok j -> top o = Some t -> In a t -> pearson a = None -> ~ Standard j.
  Proof.
    intros n df o j t a E Et Ia Pa S. unfold M_json.report_json in E. destruct (report_dict Pandas n df o) as [d|e] eqn:Ed; [|discriminate]. cbn [bind] in E.
    destruct (dumps_spec (PyDict d)) as [(_ & j' & Ej & Dj)|(_ & Ej)]; rewrite Ej in E; [|discriminate]. injection E as ->.
    assert (Id : In ("top_associations", PyList (map (association_dict Pandas) t)) d).
    { unfold M_json.report_dict in Ed. destruct (summarize_dataframe _ _ _ _ _ _ _ _ _ _) as [[ss nc]|e]; [|discriminate]. cbn [bind] in Ed. injection Ed as <-.
      rewrite Et. do 7 right. rewrite !in_app_iff. do 2 right. right. left. reflexivity. }
    inversion Dj as [| | | | | |? js F| |]; subst. inversion S as [| | | | | |? Fs]; subst.
    assert (X : forall d js, Forall2 (fun kv kj : string * _ => fst kv = fst kj /\ Denotes (snd kv) (snd kj)) d js -> Forall (fun kv => Standard (snd kv)) js ->
                forall k v, In (k, v) d -> exists jv, Denotes v jv /\ Standard jv).
    { clear. intros d js F. induction F as [|[k1 v1] [k2 j2] d js [_ D] F IH]; intros Fs k v I; [destruct I|]. inversion Fs; subst.
      destruct I as [Q|I]; [injection Q as <- <-; exists j2; auto|exact (IH H2 k v I)]. }
    assert (X' : forall l js, Forall2 Denotes l js -> Forall Standard js -> forall v, In v l -> exists jv, Denotes v jv /\ Standard jv).
    { clear. intros d js F. induction F as [|v1 j2 d js D F IH]; intros Fs v I; [destruct I|]. inversion Fs; subst.
      destruct I as [<-|I]; [exists j2; auto|exact (IH H2 v I)]. }
    destruct (X d js F Fs _ _ Id) as (jt & Dt & St). inversion Dt as [| | | | |? ja Fa| | |]; subst. inversion St as [| | | | |? Sa|]; subst.
    destruct (X' _ _ Fa Sa (association_dict Pandas a) (in_map _ _ _ Ia)) as (jo & Do & So). inversion Do as [| | | | | |? jf Ff| |]; subst. inversion So as [| | | | | |? Sf]; subst.
    destruct (X _ _ Ff Sf "pearson_corr" (PyFloat FNaN)) as (jn & Dn & Sn); [rewrite Pa; do 5 right; left; reflexivity|]. inversion Dn; subst. inversion Sn.
  Qed.
End Report.
