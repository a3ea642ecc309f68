(** C14: input checking. *)
From Verif Require Import Base M_str M_names L_names M_oncols M_checkinput L_checkinput.
Open Scope string_scope.
Open Scope list_scope.
Open Scope nat_scope.

(** C14. A dense dataframe (or 2-d array) is accepted; data is unchanged; the output names are
    distinct strings; distinct names are only converted to strings. *)
Theorem C14_fit :
  forall (C O : Type) (str : O -> string) (sparse : C -> bool) draw (X : input C O) lib columns,
    Stands X lib columns -> Dense sparse lib columns ->
    (~ NoDup (map (as_string str) (map fst columns)) ->
     Fresh draw (length columns) (map (as_string str) (map fst columns)) []) ->
    exists f out, ci_fit_transform str sparse draw X = Ok (f, out) /\
      column_data out = map snd columns /\
      column_names out = feature_names_out_ f /\
      NoDup (column_names out) /\
      (NoDup (map (as_string str) (map fst columns)) ->
       column_names out = map (as_string str) (map fst columns)) /\
      module_name_ f = lib /\ feature_names_in_ f = map fst columns.
Proof. exact @ci_fit_ok. Qed.
Print Assumptions C14_fit.

(** C14. Anything else is rejected. *)
Theorem C14_fit_rejects :
  forall (C O : Type) (str : O -> string) (sparse : C -> bool) draw (X : input C O),
    (forall lib columns, Stands X lib columns -> ~ Dense sparse lib columns) ->
    exists e, ci_fit_transform str sparse draw X = Err e /\ (e = TypeError \/ e = ValueError).
Proof. exact @ci_fit_err. Qed.
Print Assumptions C14_fit_rejects.

(** C14. At transform a table is accepted exactly when it is a dense dataframe of the same
    library with the same list of names; then the names of fit are output and data is
    unchanged. In particular permuted columns are rejected. *)
Theorem C14_transform_iff :
  forall (C O : Type) (H : EqD O) (str : O -> string) (sparse : C -> bool) draw (X : input C O) f out,
    ci_fit_transform str sparse draw X = Ok (f, out) ->
    forall X2 out2,
      ci_transform sparse f X2 = Ok out2 <->
      exists columns2, Stands X2 (module_name_ f) columns2 /\
        map fst columns2 = feature_names_in_ f /\ Dense sparse (module_name_ f) columns2 /\
        column_names out2 = column_names out /\ column_data out2 = map snd columns2.
Proof. exact @ci_transform_iff. Qed.
Print Assumptions C14_transform_iff.

(** C14. Errors: another library, other names. *)
Theorem C14_transform_mismatch :
  forall (C O : Type) (H : EqD O) (sparse : C -> bool) (f : checked O) (X2 : input C O) lib2 columns2,
    Stands X2 lib2 columns2 ->
    (lib2 <> module_name_ f -> ci_transform sparse f X2 = Err TypeError) /\
    (lib2 = module_name_ f -> map fst columns2 <> feature_names_in_ f ->
     ci_transform sparse f X2 = Err ValueError).
Proof. exact @ci_transform_mismatch. Qed.
Print Assumptions C14_transform_mismatch.

Definition ex_df : input nat nat := DataFrame Pandas [(inl "1", 10); (inr 1, 20); (inl "b", 30)].
Example C14_ex :
  match ci_fit_transform str_nat (fun _ => false) example_draw ex_df with
  | Ok (f, out) =>
      out = [("1", 10); ("1__skrub_00000001__", 20); ("b", 30)] /\
      ci_transform (fun _ => false) f (DataFrame Pandas [(inl "1", 1); (inr 1, 2); (inl "b", 3)])
      = Ok [("1", 1); ("1__skrub_00000001__", 2); ("b", 3)] /\
      ci_transform (fun _ => false) f (DataFrame Pandas [(inr 1, 2); (inl "1", 1); (inl "b", 3)])
      = Err ValueError /\
      ci_transform (fun _ => false) f (Array2 [1; 2; 3]) = Err ValueError
  | Err _ => False
  end.
Proof. vm_compute. repeat split. Qed.
Example C14_ex_hyps :
  Stands ex_df Pandas [(inl "1", 10); (inr 1, 20); (inl "b", 30)] /\
  Fresh example_draw 3 (map (as_string str_nat) (map fst [(inl "1", 10); (inr 1, 20); (inl "b", 30)])) [].
Proof.
  split; [split; reflexivity|]. apply example_draw_fresh; [lia|].
  intros s [<-|[<-|[<-|[]]]]; vm_compute; lia.
Qed.
