(** C43: replacing and restoring the display of dataframes. *)
From Verif Require Import Base M_patching L_patching.
Open Scope string_scope.
Open Scope list_scope.

(** After any sequence of calls, the attributes of the dataframe classes (other than the two names used to keep the
    originals) are what the last call that concerned the library asked for: reports with the parameters of that call for
    the display methods that existed, and the originals otherwise. *)
Theorem C43_displays : forall (meth params : Type) (w : world meth params) ops,
  (forall c, pandas w = Some c -> Unstashed c) -> (forall c, polars w = Some c -> Unstashed c) ->
  let shows (lib : world meth params -> option (cls meth params)) asks :=
    match lib w, lib (steps w ops) with
    | Some c0, Some c => forall n, is_stash n = false -> getattr c n = Displays c0 (asked_last asks ops None) n
    | None, None => True
    | _, _ => False
    end in
  shows pandas asks_pandas /\ shows polars asks_polars.
Proof. exact @displays. Qed.
Print Assumptions C43_displays.

(** pandas: one method of its own and an inherited one; polars: only [_repr_html_]. *)
Definition C43_world : world nat nat :=
  mk_world (Some (mk_cls [("_repr_html_", Plain 1)] [("_repr_mimebundle_", Plain 2); ("shape", Plain 3)]))
           (Some (mk_cls [("_repr_html_", Plain 4); ("_repr_mimebundle_", PyNone)] [])).
Definition C43_ops : list (op nat) := [PatchDisplay true true 5; PatchDisplay true false 6; UnpatchDisplay false true; PatchDisplay true false 7].
Example C43_displays_ex :
  (forall c, pandas C43_world = Some c -> Unstashed c) /\ (forall c, polars C43_world = Some c -> Unstashed c) /\
  let show n lib := option_map (fun c => getattr c n) (lib (steps C43_world C43_ops)) in
  show "_repr_html_" pandas = Some (Some (Report "_repr_html_" 7)) /\ show "_repr_mimebundle_" pandas = Some (Some (Report "_repr_mimebundle_" 7)) /\
  show "shape" pandas = Some (Some (Plain 3)) /\ show "_repr_html_" polars = Some (Some (Plain 4)) /\ show "_repr_mimebundle_" polars = Some (Some PyNone).
Proof.
  split; [intros c E; injection E as <-; intros n [<-|[<-|[]]]; reflexivity|].
  split; [intros c E; injection E as <-; intros n [<-|[<-|[]]]; reflexivity|]. vm_compute. repeat split.
Qed.

(** In particular unpatching restores the original display, whatever the calls before. *)
Theorem C43_unpatched : forall (meth params : Type) (w : world meth params) ops,
  (forall c, pandas w = Some c -> Unstashed c) -> (forall c, polars w = Some c -> Unstashed c) ->
  let w' := steps w (ops ++ [UnpatchDisplay true true]) in
  forall n, is_stash n = false ->
    option_map (fun c => getattr c n) (pandas w') = option_map (fun c => getattr c n) (pandas w) /\
    option_map (fun c => getattr c n) (polars w') = option_map (fun c => getattr c n) (polars w).
Proof. exact @unpatched. Qed.
Print Assumptions C43_unpatched.

Example C43_unpatched_ex :
  let w' := steps C43_world (C43_ops ++ [UnpatchDisplay true true]) in
  is_stash "_repr_mimebundle_" = false /\ is_stash "_skrub__repr_html_" = true /\
  option_map (fun c => getattr c "_repr_mimebundle_") (pandas w') = Some (Some (Plain 2)) /\ w' <> C43_world.
Proof. vm_compute. repeat split. discriminate. Qed.
