(** C23: interpolation joins. *)
From Verif Require Import Base M_names M_select M_oncols M_interp L_names L_select L_interp.
From Coq Require Import Permutation.
Open Scope string_scope.
Open Scope list_scope.
Open Scope nat_scope.

(** Example data: 0 is null. The estimators fail on targets with the value 66; a model that has seen the value 77
    fails to predict; otherwise the prediction of a column is the sum of its training values. *)
Definition C23_isnull (v : nat) : bool := v =? 0.
Definition C23_aux : frame (list nat) :=
  [("k", [1; 2; 3]); ("a", [1; 2; 3]); ("b", [5; 0; 6]); ("c", [7; 8; 9]); ("s", [1; 1; 2]); ("t", [77; 0; 3]); ("u", [66; 1; 1])].
Definition C23_numeric (n : string) (_ : list nat) : bool := mem n ["k"; "a"; "b"; "c"].
Definition C23_string (n : string) (_ : list nat) : bool := mem n ["s"; "u"].
Definition C23_cat (n : string) (_ : list nat) : bool := mem n ["t"].
Definition C23_vec_fit (t : frame (list nat)) : res (unit * list nat) :=
  match t with (_, c) :: _ => Ok (tt, c) | [] => Err ValueError end.
Definition C23_vec_transform (_ : unit) (t : frame (list nat)) : res (list nat) :=
  match t with (_, c) :: _ => Ok c | [] => Err ValueError end.
Definition C23_multi (e : est) : bool := match e with Regressor => true | Classifier => false end.
Definition C23_efit (_ : est) (kv : list nat) (Y : list (list nat)) : res (list (list nat)) :=
  if existsb (existsb (fun v => v =? 66)) Y then Err RuntimeError else Ok Y.
Definition C23_epredict (m : list (list nat)) (kv : list nat) : res (list (list nat)) :=
  if existsb (existsb (fun v => v =? 77)) m then Err TypeError
  else Ok (map (fun y => repeat (fold_right Nat.add 0 y) (length kv)) m).
Definition C23_params (pol : policy) : interp_params :=
  mk_interp_params C23_aux KNone (KStr "id") (KStr "k") "_x" pol.
Definition C23_X : frame (list nat) := [("id", [4; 5]); ("z", [10; 11])].
Definition C23_run (pol : policy) :=
  fit C23_isnull Pandas C23_numeric C23_string C23_cat (@rev _) C23_vec_fit C23_multi C23_efit (C23_params pol) (Some C23_X).
Definition C23_models : list (list string * list (list nat)) :=
  [(["b"], [[5; 6]]); (["c"; "a"], [[7; 8; 9]; [1; 2; 3]]); (["s"], [[1; 1; 2]]); (["t"], [[77; 3]])].

Ltac fin_in I := repeat (destruct I as [I|I]; [injection I as <- <-|]); try (destruct I).

(** Each numeric (string or categorical) column outside the key is assigned to exactly one regressor (classifier);
    a column with nulls is alone. *)
Theorem C23_assignments :
  forall (V : Type) (isnull : V -> bool) (lib : library) (numeric is_string categorical : string -> list V -> bool)
         (set_order : list string -> list string) (multi_output : est -> bool),
  (forall l, Permutation (set_order l) l) ->
  forall aux ak, NoDup (column_names aux) ->
  exists assigns, assignments isnull lib numeric is_string categorical set_order multi_output aux ak = Ok assigns /\
    WellAssigned isnull numeric is_string categorical multi_output aux ak assigns.
Proof. exact @assignments_spec. Qed.
Print Assumptions C23_assignments.

Example C23_assignments_ex :
  (forall l : list string, Permutation (rev l) l) /\ NoDup (column_names C23_aux) /\
  DisjointTypes C23_numeric C23_string C23_cat C23_aux /\
  assignments C23_isnull Polars C23_numeric C23_string C23_cat (@rev _) C23_multi C23_aux ["k"] =
  Ok [(["b"], Regressor); (["c"; "a"], Regressor); (["s"], Classifier); (["t"], Classifier); (["u"], Classifier)].
Proof.
  split; [intros l; apply Permutation_sym, Permutation_rev|].
  split; [repeat constructor; simpl; intuition discriminate|]. split; [|reflexivity].
  intros c v I. simpl in I. fin_in I; vm_compute; intuition discriminate.
Qed.

(** A fit only fails if the failures are raised and an estimator fails, with the first failure. Otherwise the
    successful estimators are kept, each trained, for each of its columns, on all the rows where this column is
    not null, whatever the other estimators did. *)
Theorem C23_fit :
  forall (V : Type) (isnull : V -> bool) (lib : library) (numeric is_string categorical : string -> list V -> bool)
         (set_order : list string -> list string) (A VS : Type) (vec_fit : frame (list V) -> res (VS * list A))
         (Mdl : Type) (multi_output : est -> bool) (efit : est -> list A -> list (list V) -> res Mdl),
  (forall l, Permutation (set_order l) l) ->
  forall p X n mk ak vs kv, NoDup (column_names (i_aux p)) -> Rectangular (i_aux p) n -> VecRows vec_fit ->
  Keys p mk ak -> ak <> [] -> (forall c, In c ak -> In c (column_names (i_aux p))) ->
  (forall t, X = Some t -> forall c, In c mk -> In c (column_names t)) ->
  (forall keytab, column_names keytab = ak -> (forall q, In q keytab -> In q (i_aux p)) -> vec_fit keytab = Ok (vs, kv)) ->
  exists assigns rs, WellAssigned isnull numeric is_string categorical multi_output (i_aux p) ak assigns /\
    Outcomes isnull efit kv (i_aux p) assigns rs /\
    match fit isnull lib numeric is_string categorical set_order vec_fit multi_output efit p X with
    | Ok f => f = mk_interp_fitted p mk ak vs (ok_models assigns rs) (if is_pass (i_policy p) then [] else ko_columns assigns rs) /\
              (i_policy p = PRaise -> Forall (fun r => exists m, r = Ok m) rs)
    | Err x => i_policy p = PRaise /\ exists i, (forall j, j < i -> exists m, nth_error rs j = Some (Ok m)) /\ nth_error rs i = Some (Err x)
    end.
Proof. intros. eapply fit_spec; eassumption. Qed.
Print Assumptions C23_fit.

Example C23_fit_ex :
  Rectangular C23_aux 3 /\ VecRows C23_vec_fit /\ Keys (C23_params PPass) ["id"] ["k"] /\
  (forall keytab, column_names keytab = ["k"] -> (forall q, In q keytab -> In q C23_aux) -> C23_vec_fit keytab = Ok (tt, [1; 2; 3])) /\
  C23_run PPass = Ok (mk_interp_fitted (C23_params PPass) ["id"] ["k"] tt C23_models []) /\
  C23_run PWarn = Ok (mk_interp_fitted (C23_params PWarn) ["id"] ["k"] tt C23_models ["u"]) /\
  C23_run PRaise = Err RuntimeError.
Proof.
  split; [intros c v I; simpl in I; fin_in I; reflexivity|].
  split. { intros t vs kv n E _ R. destruct t as [|[c0 v0] t]; [discriminate|]. injection E as <- <-. apply (R c0 v0). left. reflexivity. }
  split; [right; repeat split; discriminate|].
  split; [|repeat split; vm_compute; reflexivity].
  intros keytab En Hin. destruct keytab as [|[c v] t]; [discriminate|]. simpl in En. injection En as -> _.
  specialize (Hin ("k", v) (or_introl eq_refl)). simpl in Hin.
  destruct Hin as [E|Hin]; [injection E as <-; reflexivity|]. repeat (destruct Hin as [E|Hin]; [discriminate|]). destruct Hin.
Qed.

(** Wrong keys are refused. *)
Theorem C23_fit_refuses :
  forall (V : Type) (isnull : V -> bool) (lib : library) (numeric is_string categorical : string -> list V -> bool)
         (set_order : list string -> list string) (A VS : Type) (vec_fit : frame (list V) -> res (VS * list A))
         (Mdl : Type) (multi_output : est -> bool) (efit : est -> list A -> list (list V) -> res Mdl) p X,
  let fit := fit isnull lib numeric is_string categorical set_order vec_fit multi_output efit in
  ((forall mk ak, ~ Keys p mk ak) -> exists e, fit p X = Err e) /\
  (forall mk ak, Keys p mk ak ->
     (exists c, In c ak /\ ~ In c (column_names (i_aux p))) \/
     ((forall c, In c ak -> In c (column_names (i_aux p))) /\ exists t c, X = Some t /\ In c mk /\ ~ In c (column_names t)) ->
     fit p X = Err ValueError).
Proof. intros. apply fit_refuses. Qed.
Print Assumptions C23_fit_refuses.

Example C23_fit_refuses_ex :
  let fit := fit C23_isnull Pandas C23_numeric C23_string C23_cat (@rev _) C23_vec_fit C23_multi C23_efit in
  fit (mk_interp_params C23_aux (KStr "k") (KStr "k") KNone "" PPass) None = Err ValueError /\
  fit (mk_interp_params C23_aux KNone (KStr "id") (KStr "kk") "" PPass) None = Err ValueError /\
  fit (mk_interp_params C23_aux KNone (KStr "j") (KStr "k") "" PPass) (Some C23_X) = Err ValueError /\
  exists f, fit (mk_interp_params C23_aux KNone (KStr "j") (KStr "k") "" PPass) None = Ok f.
Proof. repeat split; try (vm_compute; reflexivity). eexists. vm_compute. reflexivity. Qed.

(** The result is the main table followed by one block of columns for each estimator kept by the fit: its
    predictions, or nulls if it fails, whatever the other estimators do. *)
Theorem C23_transform :
  forall (V : Type) (null : V) (A VS : Type) (vec_transform : VS -> frame (list V) -> res (list A))
         (Mdl : Type) (epredict : Mdl -> list A -> res (list (list V))) draw f X kv,
  NoDup (column_names X) -> (forall c, In c (f_main_key f) -> In c (column_names X)) -> length (f_aux_key f) = length (f_main_key f) ->
  (forall keytab, column_names keytab = f_aux_key f ->
     (exists l, column_names l = f_main_key f /\ (forall q, In q l -> In q X) /\ column_data keytab = column_data l) ->
     vec_transform (f_vec f) keytab = Ok kv) ->
  (forall cs m, In (cs, m) (f_estimators f) -> forall c, In c cs -> In c (column_names (i_aux (f_params f)))) ->
  PredictShape epredict kv f ->
  match transform null vec_transform epredict draw f X with
  | Ok (out, warned) =>
      exists blocks, Forall2 (Block null epredict kv) (f_estimators f) blocks /\
        column_data out = column_data X ++ concat blocks /\
        (Fresh draw (length (column_names X ++ suffixed (i_suffix (f_params f)) f)) (column_names X ++ suffixed (i_suffix (f_params f)) f) [] ->
           NoDup (column_names out)) /\
        (NoDup (column_names X ++ suffixed (i_suffix (f_params f)) f) ->
         (forall s, In s (column_names X ++ suffixed (i_suffix (f_params f)) f) -> ~ SubString "__skrub_" s) ->
         column_names out = column_names X ++ suffixed (i_suffix (f_params f)) f) /\
        (i_policy (f_params f) = PRaise -> forall cs m, In (cs, m) (f_estimators f) -> exists Y, epredict m kv = Ok Y) /\
        warned = if is_pass (i_policy (f_params f)) then []
                 else concat (map (fun cm => match epredict (snd cm) kv with Ok _ => [] | Err _ => fst cm end) (f_estimators f))
  | Err x => i_policy (f_params f) = PRaise /\ exists i cs m, nth_error (f_estimators f) i = Some (cs, m) /\ epredict m kv = Err x /\
      forall j cs' m', j < i -> nth_error (f_estimators f) j = Some (cs', m') -> exists Y, epredict m' kv = Ok Y
  end.
Proof. exact @transform_spec. Qed.
Print Assumptions C23_transform.

Example C23_transform_ex :
  let f pol := mk_interp_fitted (C23_params pol) ["id"] ["k"] tt C23_models [] in
  let tr pol := transform 0 C23_vec_transform C23_epredict example_draw (f pol) C23_X in
  (forall keytab, column_names keytab = ["k"] ->
     (exists l, column_names l = ["id"] /\ (forall q, In q l -> In q C23_X) /\ column_data keytab = column_data l) ->
     C23_vec_transform tt keytab = Ok [4; 5]) /\
  PredictShape C23_epredict [4; 5] (f PPass) /\
  tr PWarn = Ok ([("id", [4; 5]); ("z", [10; 11]); ("b_x", [11; 11]); ("c_x", [24; 24]); ("a_x", [6; 6]); ("s_x", [4; 4]); ("t_x", [0; 0])], ["t"]) /\
  tr PRaise = Err TypeError.
Proof.
  cbv zeta. split.
  { intros keytab En (l & El & Hin & Ed). destruct l as [|[c v] [|]]; try discriminate. simpl in El. injection El as ->.
    specialize (Hin ("id", v) (or_introl eq_refl)). simpl in Hin. destruct Hin as [E|[E|[]]]; [|discriminate]. injection E as <-.
    destruct keytab as [|[c' v'] [|]]; try discriminate. simpl in Ed. injection Ed as ->. reflexivity. }
  split; [|split; vm_compute; reflexivity].
  intros cs m Y I E. simpl in I. fin_in I; vm_compute in E; try discriminate; injection E as <-; reflexivity.
Qed.

(** The hypothesis on the columns of the estimators holds after a fit. *)
Theorem C23_fitted_columns :
  forall (V : Type) (isnull : V -> bool) (numeric is_string categorical : string -> list V -> bool) (Mdl : Type)
         (multi_output : est -> bool) aux ak assigns (rs : list (res Mdl)),
  WellAssigned isnull numeric is_string categorical multi_output aux ak assigns ->
  forall cs m, In (cs, m) (ok_models assigns rs) -> cs <> [] /\ forall c, In c cs -> In c (column_names aux).
Proof. intros V isnull numeric is_string categorical Mdl mo. eapply ok_models_columns. Qed.
Print Assumptions C23_fitted_columns.

Example C23_fitted_columns_ex :
  ok_models [(["b"], Regressor); (["c"; "a"], Regressor); (["u"], Classifier)] [Ok 1; Ok 2; Err RuntimeError] = [(["b"], 1); (["c"; "a"], 2)].
Proof. reflexivity. Qed.
