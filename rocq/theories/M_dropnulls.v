(** Dropping columns with too many nulls, /repo/skrub/_drop_if_too_many_nulls.py. *)
From Coq Require Import QArith.
From Verif Require Import Base.
Open Scope list_scope.
Open Scope nat_scope.

(** values of the parameter [threshold]: [None], a number (floats are rationals), NaN or an infinity, something else *)
Inductive threshold : Type :=
| TNone
| TNum (q : Q)
| TNotFinite
| TOther.

Section Drop.
  (** columns: their values; [is_null]: [sbd.is_null] of each value, null or NaN (_dataframe/_common.py 1073-1086) *)
  Context {V : Type}.
  Variable is_null : V -> bool.
  (** rounding of the result of a division to the nearest float *)
  Variable fl : Q -> Q.

  (** [sum(sbd.is_null(column))] *)
  Definition null_count (column : list V) : nat := length (filter is_null column).
  (** [sbd.is_all_null], _dataframe/_common.py 869-886 *)
  Definition is_all_null (column : list V) : bool := forallb is_null column.

  (** the validation of [threshold], 46-54 *)
  Definition valid (t : threshold) : bool :=
    match t with
    | TNone => true
    | TNum q => (Qle_bool 0 q && Qle_bool q 1)%bool
    | TNotFinite | TOther => false
    end.

  (** the fitted attribute [drop_] *)
  Definition state := option bool.

  (** [transform], 71-88. [None]: the empty list, the column is dropped *)
  Definition transform (st : state) (column : list V) : res (option (list V)) :=
    match st with
    | None => Err NotFittedError
    | Some true => Ok None
    | Some false => Ok (Some column)
    end.

  (** the decision of [fit_transform], 56-68 *)
  Definition decide (t : threshold) (column : list V) : bool :=
    match t with
    | TNum q =>
        if Qeq_bool q 1 then is_all_null column
        else
          let n := null_count column in
          if n =? 0 then false
          else negb (Qle_bool (fl (Z.of_nat n # Pos.of_nat (length column))) q)
    | _ => false
    end.

  (** [fit_transform], 30-69. Returns the new state also when an exception is raised. *)
  Definition fit_transform (t : threshold) (st : state) (column : list V) : state * res (option (list V)) :=
    if valid t
    then let st := Some (decide t column) in (st, transform st column)
    else (st, Err ValueError).
End Drop.
