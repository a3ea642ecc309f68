(** Steps that apply an estimator, /repo/skrub/_expressions/_expressions.py lines 617-651 and 967-1052, and how a pipeline of
    such steps is evaluated (/repo/skrub/_expressions/_evaluation.py evaluates [X] before [Apply.compute]). *)
From Verif Require Import Base.
Open Scope string_scope.
Open Scope list_scope.
Open Scope nat_scope.

(** the modes of evaluation, and the methods of fitted predictors (/repo/skrub/_expressions/_utils.py line 6) *)
Inductive pmethod : Type := Predict | PredictProba | DecisionFunction | Score.
Inductive mode : Type := MPreview | MFit | MFitTransform | MTransform | MCall (m : pmethod).
Definition pname (m : pmethod) : string :=
  match m with Predict => "predict" | PredictProba => "predict_proba" | DecisionFunction => "decision_function" | Score => "score" end.

(** [cols] is [s.all()] or something else *)
Inductive cols_arg (C : Type) : Type := CAll | CSel (c : C).
Arguments CAll {C}.
Arguments CSel {C} c.

(** lines 617-627 *)
Definition is_all {C} (c : cols_arg C) : bool := match c with CAll => true | CSel _ => false end.
Definition check_wrap_params {C} (cols : cols_arg C) (how : string) (allow_reject : bool) : res unit :=
  if negb (is_all cols) then Err ValueError
  else if negb (mem how ["auto"; "full_frame"]) then Err ValueError
  else if allow_reject then Err ValueError
  else Ok tt.

(** estimators as given by the user; estimators as used by the step: as they are, one clone per column, or one clone for some columns *)
Inductive given_est (E : Type) : Type := GNone | GPassthrough | GEst (e : E).
Arguments GNone {E}.
Arguments GPassthrough {E}.
Arguments GEst {E} e.
Inductive wrapped (E C : Type) : Type := Raw (e : E) | OnEach (e : E) (cols : cols_arg C) (allow_reject : bool) | OnSub (e : E) (cols : cols_arg C).
Arguments Raw {E C} e.
Arguments OnEach {E C} e cols allow_reject.
Arguments OnSub {E C} e cols.

(** dataframes, columns (of pandas or polars), anything else *)
Inductive kind : Type := KFrame | KColumn | KOther.

Record world (V E C F N : Type) : Type := {
  (* data *)
  kind_of : V -> kind;
  none : V;                                   (* None *)
  cast_names : V -> V;                        (* _check_column_names, line 967: columns of dataframes are renamed, the rest is unchanged *)
  name_of : V -> N;                           (* sbd.name *)
  names_of : V -> list N;                     (* sbd.column_names *)
  ndim1 : V -> bool;                          (* len(pred.shape) == 1 *)
  columns_of : V -> list V;                   (* the rows of pred.T *)
  target_name : N;                            (* "y" *)
  target_names : nat -> N;                    (* "y0", "y1", ... *)
  table : V -> dict N V -> V;                 (* make_dataframe_like for dataframes and columns, then copy_index *)
  (* estimators *)
  has : E -> string -> bool;                  (* hasattr *)
  single : E -> bool;                         (* hasattr(.., "__single_column_transformer__") *)
  passthrough : E;                            (* PassThrough() *)
  (* the methods of estimators; fitting gives the fitted estimator *)
  fit : wrapped E C -> V -> V -> res F;
  fit_transform : wrapped E C -> V -> option V -> res (F * V);
  call : wrapped E C -> F -> string -> V -> option V -> res V
}.
Arguments kind_of {V E C F N}.
Arguments none {V E C F N}.
Arguments cast_names {V E C F N}.
Arguments name_of {V E C F N}.
Arguments names_of {V E C F N}.
Arguments ndim1 {V E C F N}.
Arguments columns_of {V E C F N}.
Arguments target_name {V E C F N}.
Arguments target_names {V E C F N}.
Arguments table {V E C F N}.
Arguments has {V E C F N}.
Arguments single {V E C F N}.
Arguments passthrough {V E C F N}.
Arguments fit {V E C F N}.
Arguments fit_transform {V E C F N}.
Arguments call {V E C F N}.

Section Apply.
  Context {V E C F N : Type} `{EqD N}.
  Variable w : world V E C F N.

  Definition is_frame (x : V) : bool := match kind_of w x with KFrame => true | _ => false end.
  Definition is_column (x : V) : bool := match kind_of w x with KColumn => true | _ => false end.

  (** wrap_transformer, /repo/skrub/_wrap_transformer.py lines 85-105 *)
  Inductive columnwise_arg : Type := CwAuto | CwYes | CwNo.
  Definition wrap_transformer (e : E) (cols : cols_arg C) (allow_reject : bool) (cw : columnwise_arg) : wrapped E C :=
    let columnwise := match cw with CwAuto => single w e | CwYes => true | CwNo => false end in
    if columnwise then OnEach e cols allow_reject else OnSub e cols.

  (** _wrap_estimator, lines 632-651 *)
  Definition wrap_estimator (g : given_est E) (cols : cols_arg C) (how : string) (allow_reject : bool) (x : V) : res (wrapped E C) :=
    let e := match g with GEst e => e | GNone | GPassthrough => passthrough w end in
    if eqb_of how "full_frame" then let! _ := check_wrap_params cols how allow_reject in Ok (Raw e)
    else if negb (has w e "transform") then let! _ := check_wrap_params cols how allow_reject in Ok (Raw e)
    else if negb (is_frame x) then let! _ := check_wrap_params cols how allow_reject in Ok (Raw e)
    else match dget how [("auto", CwAuto); ("columnwise", CwYes); ("sub_frame", CwNo)] with
         | None => Err KeyError
         | Some cw => Ok (wrap_transformer e cols allow_reject cw)
         end.

  (** hasattr on what the step uses; /repo/skrub/_on_each_column.py and _on_subframe.py define these methods *)
  Definition has_w (u : wrapped E C) (m : string) : bool :=
    match u with Raw e => has w e m | OnEach _ _ _ | OnSub _ _ => mem m ["fit"; "fit_transform"; "transform"] end.

  (** the parameters of the step, and its attributes: [estimator_], whether it is fitted (and what fitting gave), [_all_outputs] *)
  Record step : Type := { s_est : given_est E; s_cols : cols_arg C; s_how : string; s_reject : bool; s_unsupervised : bool; s_has_y : bool }.
  Record node : Type := { a_est : option (wrapped E C); a_fit : option F; a_outs : option (option (list N)) }.
  Definition new_node : node := {| a_est := None; a_fit := None; a_outs := None |}.

  (** the value of the argument [y] and whether it is evaluated, lines 985-992; a field that was not evaluated is absent *)
  Definition y_value (p : step) (y : V) : V := if s_has_y p then y else none w.
  Definition is_fit (m : mode) : bool := match m with MPreview | MFit | MFitTransform => true | _ => false end.
  Definition y_field (p : step) (m : mode) (y : V) : option V :=
    if is_fit m then (if s_unsupervised p then None else Some (y_value p y))
    else match m with MCall Score => Some (y_value p y) | _ => None end.

  (** supported_modes, lines 1042-1052; before it is fitted the estimator is the one given *)
  Definition supported (p : step) (n : node) (m : mode) : bool :=
    match m with
    | MPreview | MFitTransform | MTransform => true
    | MFit => false
    | MCall k =>
        match a_est n with
        | Some u => has_w u (pname k)
        | None => match s_est p with GEst e => has w e (pname k) | GNone | GPassthrough => false end
        end
    end.

  Definition attr {A} (o : option A) : res A := match o with Some a => Ok a | None => Err AttributeError end.
  (** a method of an estimator that was not fitted *)
  Definition fitted (n : node) : res F := match a_fit n with Some f => Ok f | None => Err NotFittedError end.

  (** the table of predictions, lines 1018-1031; make_dataframe_like raises NotImplementedError, a RuntimeError *)
  Definition zip_dict (names : list N) (cols : list V) : dict N V := fold_left (fun d c => dset (fst c) (snd c) d) (combine names cols) [].
  Definition predictions (outs : option (list N)) (x pred : V) : res V :=
    if (negb (is_frame x) && match outs with None => true | _ => false end)%bool then Ok pred
    else
      let! d := if ndim1 w pred
                then match outs with
                     | None => Ok [(target_name w, pred)]
                     | Some (n :: _) => Ok [(n, pred)]
                     | Some [] => Err IndexError
                     end
                else Ok (zip_dict (match outs with
                                   | None => map (target_names w) (seq 0 (length (columns_of w pred)))
                                   | Some l => l
                                   end) (columns_of w pred)) in
      match kind_of w x with KOther => Err RuntimeError | _ => Ok (table w x d) end.

  Definition outputs_of (y : V) : option (list N) :=
    if is_column y then Some [name_of w y] else if is_frame y then Some (names_of w y) else None.

  (** Apply.compute, lines 994-1040: the attributes afterwards, and the result *)
  Definition compute_fit (p : step) (n : node) (x0 : V) (yf : option V) : node * res V :=
    let x := cast_names w x0 in
    match wrap_estimator (s_est p) (s_cols p) (s_how p) (s_reject p) x with
    | Err e => (n, Err e)
    | Ok u =>
        let n1 := {| a_est := Some u; a_fit := None; a_outs := a_outs n |} in
        if negb (has_w u "transform") then
          match attr yf with
          | Err e => (n1, Err e)
          | Ok y =>
              if negb (has_w u "fit") then (n1, Err AttributeError) else
              match fit w u x y with
              | Err e => (n1, Err e)
              | Ok f =>
                  let n2 := {| a_est := Some u; a_fit := Some f; a_outs := Some (outputs_of y) |} in
                  (n2, if negb (has_w u "predict") then Err AttributeError else
                       let! pred := call w u f "predict" x None in predictions (outputs_of y) x pred)
              end
          end
        else if negb (has_w u "fit_transform") then (n1, Err AttributeError)
        else match (if s_unsupervised p then Ok None else let! y := attr yf in Ok (Some y)) with
             | Err e => (n1, Err e)
             | Ok y => match fit_transform w u x y with
                       | Err e => (n1, Err e)
                       | Ok (f, z) => ({| a_est := Some u; a_fit := Some f; a_outs := a_outs n |}, Ok z)
                       end
             end
    end.
  Definition compute_use (p : step) (n : node) (m : mode) (x0 : V) (yf : option V) : res V :=
    let m := if supported p n m then m else MTransform in
    let x := cast_names w x0 in
    let! u := attr (a_est n) in
    match m with
    | MCall k =>
        let! y := match k with Score => let! y := attr yf in Ok (Some y) | _ => Ok None end in
        let! f := fitted n in call w u f (pname k) x y
    | _ =>
        if negb (has_w u "transform") then
          if negb (has_w u "predict") then Err AttributeError else
          let! f := fitted n in
          let! pred := call w u f "predict" x None in
          let! outs := attr (a_outs n) in
          predictions outs x pred
        else let! f := fitted n in call w u f "transform" x None
    end.
  Definition compute (p : step) (n : node) (m : mode) (x : V) (yf : option V) : node * res V :=
    if is_fit m then compute_fit p n x yf else (n, compute_use p n m x yf).

  (** a pipeline of steps, each applied to the result of the previous one; [y] is the same for all those that use it *)
  Fixpoint run (m : mode) (ps : list (step * node)) (x y : V) : list (step * node) * res V :=
    match ps with
    | [] => ([], Ok x)
    | (p, n) :: ps' =>
        match compute p n m x (y_field p m y) with
        | (n', Err e) => ((p, n') :: ps', Err e)
        | (n', Ok z) => let (ps'', r) := run m ps' z y in ((p, n') :: ps'', r)
        end
    end.
End Apply.
