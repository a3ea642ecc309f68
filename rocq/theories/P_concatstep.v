(** C128: concatenating tables in a pipeline gives all columns, under the names of the fit. *)
From Verif Require Import Base M_names L_names M_concatstep L_concatstep.
Open Scope string_scope.
Open Scope list_scope.
Open Scope nat_scope.

Definition draws (i : nat) : string := match i with 0 => "0000000a" | 1 => "0000000b" | _ => "0000000c" end.
Definition draws2 (i : nat) : string := match i with 0 => "1111111a" | 1 => "1111111b" | _ => "1111111c" end.
Definition tab (l : lib) (n : nat) (c : list (string * list (option nat))) : table nat := {| tlib := l; nrows := n; cols := c |}.

Theorem C128_fit : forall A d m st l n t ts, In m fitting -> (forall x, In x (t :: ts) -> Fits A l n x) ->
  exists out, concat_step d m st (VTable t) (OItems (map VTable ts)) = (Ok out, Some (Names A out)) /\
    Fits A l n out /\ Columns A out = AllColumns A (t :: ts) /\
    (Fresh d (length (flat_map (Names A) (t :: ts))) (flat_map (Names A) (t :: ts)) [] -> NoDup (Names A out)) /\
    ((forall s, In s (flat_map (Names A) (t :: ts)) -> ~ SubString "__skrub_" s) -> NoDup (flat_map (Names A) (t :: ts)) ->
     Names A out = flat_map (Names A) (t :: ts)).
Proof. exact fit_ok. Qed.
Theorem C128_later : forall A d m names l n t ts, In m answering -> (forall x, In x (t :: ts) -> Fits A l n x) ->
  length names = length (AllColumns A (t :: ts)) -> NoDup names ->
  exists out, concat_step d m (Some names) (VTable t) (OItems (map VTable ts)) = (Ok out, Some names) /\
    Fits A l n out /\ Names A out = names /\ Columns A out = AllColumns A (t :: ts).
Proof. exact later_ok. Qed.
(** the fit, whatever happened before; any number of other calls; a call on tables with the same names *)
Theorem C128_names_of_last_fit : forall A before after d m l n t ts d' m' l' n' t' ts',
  In m fitting -> In m' answering -> (forall c, In c after -> stores (c_mode c) = false) ->
  (forall x, In x (t :: ts) -> Fits A l n x) -> (forall x, In x (t' :: ts') -> Fits A l' n' x) ->
  map (Names A) (t' :: ts') = map (Names A) (t :: ts) -> Fresh d (length (flat_map (Names A) (t :: ts))) (flat_map (Names A) (t :: ts)) [] ->
  exists rs1 out rs2 out', fst (calls None (before ++ on A m d t ts :: after ++ [on A m' d' t' ts'])) = rs1 ++ Ok out :: rs2 ++ [Ok out'] /\
    length rs1 = length before /\ Names A out' = Names A out /\ Columns A out = AllColumns A (t :: ts) /\ Columns A out' = AllColumns A (t' :: ts').
Proof. exact names_of_last_fit. Qed.
Theorem C128_error_keeps_names : forall A d m st first others e st', concat_step (A := A) d m st first others = (Err e, st') -> st' = st.
Proof. exact error_keeps. Qed.
Theorem C128_refused : forall A d m st first others, (forall t ts, first = VTable t -> others <> OItems (map VTable ts)) ->
  exists e, concat_step (A := A) d m st first others = (Err e, st) /\ ((forall l, others = OItems l -> ~ In VNone l) -> e = TypeError).
Proof. exact refused. Qed.
Theorem C128_other_columns_pandas : forall A d m names n t ts, In m answering -> (forall x, In x (t :: ts) -> Fits A Pandas n x) ->
  length names <> length (AllColumns A (t :: ts)) ->
  concat_step d m (Some names) (VTable t) (OItems (map VTable ts)) = (Err ValueError, Some names).
Proof. exact pandas_columns. Qed.
Theorem C128_more_rows_pandas : forall A d m st (t : table A) ts x, tlib t = Pandas -> (forall u, In u ts -> tlib u = Pandas) -> In x ts -> nrows t < nrows x ->
  concat_step d m st (VTable t) (OItems (map VTable ts)) = (Err ValueError, st).
Proof. exact pandas_rows. Qed.

(** ** What is not so *)
Definition ab : table nat := tab Pandas 1 [("a", [Some 1]); ("b", [Some 2])].
Definition ba : table nat := tab Pandas 1 [("b", [Some 2]); ("a", [Some 1])].
(** permuted columns get the names of others *)
Theorem C128_permuted_refuted : exists out,
  concat_step draws "transform" (snd (concat_step draws "fit" None (VTable ab) (OItems []))) (VTable ba) (OItems []) = (Ok out, Some ["a"; "b"]) /\
  In ("a", [Some 1]) (cols ba) /\ In ("a", [Some 2]) (cols out) /\ ~ In ("a", [Some 1]) (cols out).
Proof.
  eexists. split; [vm_compute; reflexivity|]. split; [right; left; reflexivity|]. split; [left; reflexivity|].
  cbn. intros [E|[E|[]]]; discriminate E.
Qed.
(** with polars, missing columns are not noticed *)
Definition pab : table nat := tab Polars 1 [("a", [Some 1]); ("b", [Some 2])].
Definition pc : table nat := tab Polars 1 [("c", [Some 3])].
Theorem C128_other_columns_polars_refuted : exists out,
  concat_step draws "transform" (snd (concat_step draws "fit" None (VTable pab) (OItems [VTable pc]))) (VTable pc) (OItems [VTable pc]) =
    (Ok out, Some ["a"; "b"; "c"]) /\ cols out = [("a", [Some 3]); ("b", [Some 3])].
Proof. eexists. split; vm_compute; reflexivity. Qed.
(** tables with fewer rows are completed with nulls *)
Definition two : table nat := tab Pandas 2 [("c", [Some 3; Some 4])].
Theorem C128_fewer_rows_refuted : exists out,
  concat_step draws "fit" None (VTable two) (OItems [VTable ab]) = (Ok out, Some ["c"; "a"; "b"]) /\
  cols out = [("c", [Some 3; Some 4]); ("a", [Some 1; None]); ("b", [Some 2; None])].
Proof. eexists. split; vm_compute; reflexivity. Qed.
Definition ptwo : table nat := tab Polars 2 [("c", [Some 3; Some 4])].
Theorem C128_rows_polars_refuted : exists out,
  concat_step draws "fit" None (VTable pab) (OItems [VTable ptwo]) = (Ok out, Some ["a"; "b"; "c"]) /\
  nrows pab = 1 /\ nrows out = 2 /\ cols out = [("a", [Some 1; None]); ("b", [Some 2; None]); ("c", [Some 3; Some 4])].
Proof. eexists. split; [vm_compute; reflexivity|]. repeat split; vm_compute; reflexivity. Qed.
(** [None] among the tables: the error is not the one that is announced *)
Theorem C128_none_refuted : concat_step draws "fit" None (VTable ab) (OItems [VNone]) = (Err AttributeError, None).
Proof. vm_compute. reflexivity. Qed.

(** ** Examples *)
Example ex_fit_later :
  fst (calls None [on nat "fit_transform" draws ab [ab]; on nat "predict" draws2 ab [ab]]) =
  [Ok (tab Pandas 1 [("a", [Some 1]); ("b", [Some 2]); ("a__skrub_0000000c__", [Some 1]); ("b__skrub_0000000c__", [Some 2])]);
   Ok (tab Pandas 1 [("a", [Some 1]); ("b", [Some 2]); ("a__skrub_0000000c__", [Some 1]); ("b__skrub_0000000c__", [Some 2])])].
Proof. vm_compute. reflexivity. Qed.
Example ex_fits : forall x, In x [ab; ab] -> Fits nat Pandas 1 x.
Proof. intros x [<-|[<-|[]]]; (split; [reflexivity|]; split; [reflexivity|]; intros c [<-|[<-|[]]]; reflexivity). Qed.
Example ex_refused : concat_step draws "fit" None (VTable ab) (OItems [VTable ab; VOther]) = (Err TypeError, None) /\
  concat_step draws "fit" None (VTable ab) (OTable ab) = (Err TypeError, None) /\ concat_step draws "fit" None VOther (OItems [VTable ab]) = (Err TypeError, None).
Proof. repeat split; reflexivity. Qed.
Example ex_not_fitted : concat_step draws "transform" None (VTable ab) (OItems [VTable ab]) = (Err AttributeError, None).
Proof. vm_compute. reflexivity. Qed.
Example ex_mixed : concat_step draws "fit" None (VTable ab) (OItems [VTable pc]) = (Err AttributeError, None) /\
  concat_step draws "fit" None (VTable pc) (OItems [VTable ab]) = (Err TypeError, None).
Proof. split; vm_compute; reflexivity. Qed.

Print Assumptions C128_fit.
Print Assumptions C128_later.
Print Assumptions C128_names_of_last_fit.
Print Assumptions C128_error_keeps_names.
Print Assumptions C128_refused.
Print Assumptions C128_other_columns_pandas.
Print Assumptions C128_more_rows_pandas.
Print Assumptions C128_permuted_refuted.
Print Assumptions C128_other_columns_polars_refuted.
Print Assumptions C128_fewer_rows_refuted.
Print Assumptions C128_rows_polars_refuted.
Print Assumptions C128_none_refuted.
