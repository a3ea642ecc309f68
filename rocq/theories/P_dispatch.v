(** C136: which implementation of an operation is used for an object. C137: which outputs of transformers are accepted. *)
From Verif Require Import Base L_dict M_dispatch L_dispatch L_dispatch2.
From Coq Require Import List.
Import ListNotations.
Open Scope string_scope.
Open Scope list_scope.
Open Scope nat_scope.

(** ** A small world: the classes of the two libraries, and a user's subclass *)
Inductive cls : Type := Obj | PdFrame | PdSeries | PlFrame | PlLazy | PlSeries | MyFrame | Array.
#[global] Instance EqD_cls : EqD cls.
Proof. intros x y. decide equality. Defined.
Definition ex_mro (c : cls) : list cls :=
  match c with Obj => [Obj] | MyFrame => [MyFrame; PdFrame; Obj] | c => [c; Obj] end.
Definition ex_types (m : string) : option (dict string (list cls)) :=
  if String.eqb m "pandas" then Some [("DataFrame", [PdFrame]); ("Column", [PdSeries])]
  else if String.eqb m "polars" then
    Some [("DataFrame", [PlFrame; PlLazy]); ("LazyFrame", [PlLazy]); ("EagerFrame", [PlFrame]); ("Column", [PlSeries])]
  else None.
Definition ex_installed (m : string) : bool := true.
Definition ex_run (ops : list (op cls nat)) := run ex_mro ex_types ex_installed (fun l => l) (new_generic Obj 0) ops.
Definition ex_call (ops : list (op cls nat)) (c : cls) := snd (call ex_mro (ex_run ops) (Some c)).

(** After any history of specializations (successful or not) and of calls, a call on an object uses exactly one implementation:
    for the first class in the object's resolution order that has one, the last implementation registered for it. *)
Theorem C136_last_registered {C I : Type} `{EqD C} (mro : C -> list C) (object : C) module_types installed set_order :
  (forall l c, In c (set_order l) <-> In c l) -> (forall c, exists l, mro c = c :: l) -> (forall c, In object (mro c)) ->
  forall (default : I) ops c,
  exists f, snd (call mro (run mro module_types installed set_order (new_generic object default) ops) (Some c)) = Ok f /\
    chosen mro object module_types installed default ops c f /\
    forall f', chosen mro object module_types installed default ops c f' -> f' = f.
Proof. intros Ho Hm Hob default ops c. exact (call_chosen mro object module_types installed set_order Ho Hm Hob default ops c). Qed.
Print Assumptions C136_last_registered.
Example ex_last_registered :
  let ops := [Specialize "pandas" AllTypes 1; Call (Some MyFrame); Specialize "pandas" (OneType "DataFrame") 2;
              Specialize "polars" (Types ["Column"]) 3; Call None; Specialize "dask" AllTypes 4; Specialize "polars" (OneType "Nope") 5] in
  map (ex_call ops) [MyFrame; PdSeries; PlSeries; PlLazy; Array] = [Ok 2; Ok 1; Ok 3; Ok 0; Ok 0].
Proof. vm_compute. reflexivity. Qed.

(** A specialization for a library has no effect on objects whose classes are not of that library, wherever it comes in the
    history. *)
Theorem C136_libraries_apart {C I : Type} `{EqD C} (mro : C -> list C) (object : C) module_types installed
  (default : I) before m a f after c f' :
  ~ related mro module_types m c ->
  chosen mro object module_types installed default (before ++ Specialize m a f :: after) c f' <->
  chosen mro object module_types installed default (before ++ after) c f'.
Proof. exact (other_modules mro object module_types installed default before m a f after c f'). Qed.
Print Assumptions C136_libraries_apart.
Example ex_libraries_apart : ~ related ex_mro ex_types "polars" MyFrame /\ related ex_mro ex_types "pandas" MyFrame.
Proof.
  split.
  - intros (types & n & cs & t & E & Hin & Ht & Hm). cbn in E. injection E as <-. cbn in Hin, Hm.
    repeat (destruct Hin as [Hin|Hin]; [injection Hin as <- <-; cbn in Ht; intuition congruence|]). destruct Hin.
  - eexists _, "DataFrame", [PdFrame], PdFrame. split; [reflexivity|]. cbn. auto.
Qed.

(** Specializing fails exactly for an unknown module, or an unknown type name of a module that is installed: a module that is known
    but not installed is never an error. *)
Theorem C136_failures {C I : Type} `{EqD C} (module_types : string -> option (dict string (list C))) installed set_order :
  (forall l c, In c (set_order l) <-> In c l) -> forall (g : generic C I) m a f,
  (exists e, snd (specialize module_types installed set_order g m a f) = Err e) <->
  module_types m = None \/ (installed m = true /\ ~ effective module_types installed m a).
Proof. intros Ho g m a f. exact (specialize_fails module_types installed set_order Ho g m a f). Qed.
Print Assumptions C136_failures.
Example ex_failures :
  let spec i m a := snd (specialize ex_types i (fun l => l) (new_generic Obj 0) m a 1) in
  spec (fun _ => false) "polars" (OneType "Nope") = Ok tt /\ spec (fun _ => true) "polars" (OneType "Nope") = Err KeyError /\
  spec (fun _ => false) "dask" AllTypes = Err KeyError.
Proof. vm_compute. auto. Qed.

(** A specialization that fails changes no call, even when some of its type names are known. *)
Theorem C136_failure_is_atomic {C I : Type} `{EqD C} (mro : C -> list C) (object : C) module_types installed set_order :
  (forall l c, In c (set_order l) <-> In c l) -> forall (default : I) ops m a f,
  let g := run mro module_types installed set_order (new_generic object default) ops in
  snd (specialize module_types installed set_order g m a f) <> Ok tt ->
  forall c, snd (call mro (fst (specialize module_types installed set_order g m a f)) c) = snd (call mro g c).
Proof. intros Ho default ops m a f. exact (failed_specialize mro object module_types installed set_order Ho default ops m a f). Qed.
Print Assumptions C136_failure_is_atomic.
Example ex_failure_is_atomic :
  snd (specialize ex_types ex_installed (fun l => l) (ex_run []) "pandas" (Types ["DataFrame"; "Nope"]) 7) = Err KeyError /\
  ex_call [Specialize "pandas" (Types ["DataFrame"; "Nope"]) 7] PdFrame = Ok 0.
Proof. vm_compute. auto. Qed.

(** The narrower specialization does not win over a wider one of the same library: only the order counts. *)
Theorem C136_narrower_wins_refuted : exists ops1 ops2 : list (op cls nat),
  ops1 = rev ops2 /\ ops2 = [Specialize "polars" (OneType "LazyFrame") 1; Specialize "polars" (OneType "DataFrame") 2] /\
  ex_call ops2 PlLazy = Ok 2 /\ ex_call ops1 PlLazy = Ok 1.
Proof. eexists _, _. split; [reflexivity|]. split; [reflexivity|]. vm_compute. auto. Qed.
Print Assumptions C136_narrower_wins_refuted.

(** The operand must be given by position. *)
Example ex_by_position : snd (call ex_mro (ex_run [Specialize "pandas" AllTypes 1]) None) = Err TypeError.
Proof. vm_compute. reflexivity. Qed.

(** ** C137 *)
(** A transformer of a part of a dataframe is accepted when fitting exactly if it returns an eager dataframe of the library of the
    input (or a pandas one that is converted, for an old scikit-learn that was asked for it); the result is then of that library. *)
Theorem C137_subframe_fit {D : Type} old from_pandas concat2 h input (p : D) out r : real out ->
  subframe_fit old from_pandas concat2 h input p (Ok out) = Ok r <->
  exists d, frame_for from_pandas old h input out d /\ r = VData input KFrame (concat2 p d).
Proof. exact (subframe_fit_ok old from_pandas concat2 h input p out r). Qed.
Print Assumptions C137_subframe_fit.
Theorem C137_subframe_fit_error {D : Type} old from_pandas concat2 h input (p : D) out e : real out ->
  subframe_fit old from_pandas concat2 h input p (Ok out) = Err e -> e = TypeError.
Proof. exact (subframe_fit_err old from_pandas concat2 h input p out e). Qed.
Print Assumptions C137_subframe_fit_error.
Definition ex_sub (old h : bool) (input : lib) (out : value (list nat)) : res (value (list nat)) :=
  subframe_fit old (map S) (@app nat) h input [1] (Ok out).
Example ex_subframe_fit :
  ex_sub false true LPolars (VData LPolars KFrame [5]) = Ok (VData LPolars KFrame [1; 5]) /\
  ex_sub false true LPolars (VData LPandas KFrame [5]) = Err TypeError /\
  ex_sub true true LPolars (VData LPandas KFrame [5]) = Ok (VData LPolars KFrame [1; 6]) /\
  ex_sub true false LPolars (VData LPandas KFrame [5]) = Err TypeError /\
  ex_sub true true LPandas (VData LPolars KFrame [5]) = Err TypeError /\
  ex_sub false true LPandas VOther = Err TypeError /\
  ex_sub false true LPandas (VSeq [VData LPandas KColumn [5]]) = Err TypeError /\
  ex_sub false true LPolars (VData LPolars KLazy [5]) = Err TypeError.
Proof. vm_compute. auto 10. Qed.

(** A transformer that gives the container it is asked for is always accepted, with any version of scikit-learn. *)
Theorem C137_asked_container {D : Type} old from_pandas concat2 input (p d : D) : exists d',
  subframe_fit old from_pandas concat2 true input p (Ok (VData (asked_container old input) KFrame d)) = Ok (VData input KFrame (concat2 p d')) /\
  frame_for from_pandas old true input (VData (asked_container old input) KFrame d) d'.
Proof. exact (asked_fit old from_pandas concat2 input p d). Qed.
Print Assumptions C137_asked_container.
Example ex_asked_container : asked_container true LPolars = LPandas /\ asked_container false LPolars = LPolars /\ asked_container true LPandas = LPandas.
Proof. auto. Qed.

(** When transforming, the result is a dataframe of the library of the input or there is an error. *)
Theorem C137_subframe_transform {D : Type} concat2 input (p : D) out r : real out ->
  subframe_transform concat2 input p (Ok out) = Ok r <-> exists d, out = VData input KFrame d /\ r = VData input KFrame (concat2 p d).
Proof. exact (subframe_transform_ok concat2 input p out r). Qed.
Print Assumptions C137_subframe_transform.
Example ex_subframe_transform :
  subframe_transform (@app nat) LPolars [1] (Ok (VData LPolars KFrame [5])) = Ok (VData LPolars KFrame [1; 5]) /\
  subframe_transform (@app nat) LPolars [1] (Ok (VData LPolars KLazy [5])) = Err TypeError /\
  subframe_transform (@app nat) LPandas [1] (Ok VOther) = Err RuntimeError.
Proof. vm_compute. auto. Qed.

(** A transformer whose outputs are accepted when fitting may fail when transforming, though it returns the same kind of output:
    an old scikit-learn transformer on polars inputs, whose pandas outputs are converted only when fitting. *)
Theorem C137_transform_like_fit_refuted : exists (input : lib) (p : list nat) (out : value (list nat)) r e,
  real out /\ out = VData (asked_container true input) KFrame [5] /\
  subframe_fit true (fun d => d) (@app nat) true input p (Ok out) = Ok r /\ subframe_transform (@app nat) input p (Ok out) = Err e.
Proof.
  exists LPolars, [1], (VData LPandas KFrame [5]). eexists _, _. split; [intros d E; discriminate|]. split; [reflexivity|].
  split; reflexivity.
Qed.
Print Assumptions C137_transform_like_fit_refuted.

(** Transforming column by column: if fitting succeeds then the result is an eager dataframe of the library of the input, and each
    column was passed through, rejected with rejection allowed, or had an accepted output. *)
Theorem C137_columns_fit {D : Type} old from_pandas (columns_of : D -> list D) make_frame k a input cols r :
  Forall real_column cols -> columns_fit old from_pandas columns_of make_frame k a input cols = Ok r ->
  frame_of input r /\ Forall (fine old from_pandas a input) cols.
Proof. exact (columns_fit_ok old from_pandas columns_of make_frame k a input cols r). Qed.
Print Assumptions C137_columns_fit.
(** The first column for which this does not hold decides the error. *)
Theorem C137_columns_fit_error {D : Type} old from_pandas (columns_of : D -> list D) make_frame k a input before c after e :
  Forall real_column before -> Forall (fine old from_pandas a input) before ->
  match snd c with
  | Some (h, Ok out) => real out /\ ~ accepted from_pandas old h input out /\ e = refusal input out
  | Some (_, Err e0) => ~ (e0 = RejectColumn /\ a = true) /\ e = ValueError
  | None => False
  end ->
  columns_fit old from_pandas columns_of make_frame k a input (before ++ c :: after) = Err e.
Proof. exact (columns_fit_err old from_pandas columns_of make_frame k a input before c after e). Qed.
Print Assumptions C137_columns_fit_error.
Definition ex_make (input : lib) (ds : list (lib * nat)) : res nat := Ok (fold_left (fun n d => 2 * n + snd d) ds 0).
Definition ex_columns (k a : bool) (cols : list (nat * option (bool * res (value nat)))) : res (value nat) :=
  columns_fit false S (fun d => [d; d]) ex_make k a LPandas cols.
Example ex_columns_fit :
  ex_columns true true [(1, None); (2, Some (true, Ok (VData LPandas KFrame 7))); (3, Some (false, Err RejectColumn))]
    = Ok (VData LPandas KFrame 77) /\
  ex_columns false true [(1, Some (false, Ok (VSeq [])))] = Ok (VData LPandas KFrame 0) /\
  ex_columns false false [(1, None); (3, Some (false, Err RejectColumn)); (2, Some (true, Ok VOther))] = Err ValueError /\
  ex_columns false true [(1, None); (3, Some (false, Err RejectColumn)); (2, Some (true, Ok VOther))] = Err TypeError /\
  ex_columns false true [(2, Some (true, Ok (VData LPolars KColumn 4)))] = Err TypeError.
Proof. vm_compute. auto 10. Qed.

(** If the sequences of columns that transformers return hold only columns of the input's library, the result is made of such columns
    only: any other way to make dataframes that agrees on them gives the same. *)
Theorem C137_columns_same_library {D : Type} old from_pandas (columns_of : D -> list D) make1 make2 k a input cols :
  Forall real_column cols ->
  (forall c h out, In (c, Some (h, Ok out)) cols -> all_of input out) ->
  (forall ds, (forall x, In x ds -> fst x = input) -> make1 input ds = make2 input ds) ->
  columns_fit old from_pandas columns_of make1 k a input cols = columns_fit old from_pandas columns_of make2 k a input cols.
Proof. exact (columns_fit_same old from_pandas columns_of make1 make2 k a input cols). Qed.
Print Assumptions C137_columns_same_library.
Definition ex_make2 (input : lib) (ds : list (lib * nat)) : res nat :=
  if forallb (fun d => eqb_of (fst d) input) ds then ex_make input ds else Err TypeError.
Example ex_columns_same_library :
  let cols := [(2, Some (true, Ok (VSeq [VData LPandas KColumn 3; VData LPandas KColumn 4])))] in
  columns_fit false S (fun d => [d; d]) ex_make2 false true LPandas cols = Ok (VData LPandas KFrame 10).
Proof. vm_compute. reflexivity. Qed.

(** Only the first element of a sequence is checked: columns of another library get into the dataframe. *)
Theorem C137_each_column_checked_refuted : exists (out : value nat) cols,
  real out /\ column_fit false S (fun d => [d]) true true LPandas 1 (Ok out) = Ok (cols, true) /\ In (VData LPolars KColumn 4) cols.
Proof.
  exists (VSeq [VData LPandas KColumn 3; VData LPolars KColumn 4]). eexists. split; [intros d E; discriminate|].
  split; [reflexivity|]. cbn. auto.
Qed.
Print Assumptions C137_each_column_checked_refuted.

(** Column by column, transforming gives an eager dataframe of the library of the input or an error. *)
Theorem C137_columns_transform {D : Type} (columns_of : D -> list D) make_frame k input n cols r :
  columns_transform columns_of make_frame k input n cols = Ok r -> frame_of input r.
Proof. exact (columns_transform_ok columns_of make_frame k input n cols r). Qed.
Print Assumptions C137_columns_transform.
Example ex_columns_transform :
  columns_transform (fun d => [d; d]) ex_make true LPandas 4 [(1, None); (2, Some (Ok (VData LPandas KFrame 7)))] = Ok (VData LPandas KFrame 37) /\
  columns_transform (fun d => [d; d]) ex_make true LPandas 4 [(1, Some (Ok VOther))] = Err TypeError.
Proof. vm_compute. auto. Qed.
