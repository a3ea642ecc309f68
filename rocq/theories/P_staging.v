(** C152: code run on expressions and then evaluated gives what it gives on the values.
    C153: an expression is refused where its value is needed at once, and every other use of it
    gives an expression. *)
From Verif Require Import Base L_dict M_traverse L_traverse M_expr L_expr1 L_expr2 L_expr3 L_expr4 L_expr5 L_expr6 L_expr7.
From Verif Require Import M_grid M_choicegraph L_conflicts M_clone M_check M_namespace L_estimator1 L_estimator2 L_namespace L_namespace2 L_namespace3 M_staging L_staging L_staging2 L_staging3 L_staging4.
Open Scope string_scope.
Open Scope list_scope.
Open Scope nat_scope.

(** ** The examples *)
(** Values are numbers; an attribute of an object and what a function gives are sums; a string
    is its length; None is 0. *)
Definition sg_prim (op : string) (a : list (string * nat)) : res nat :=
  match op, a with
  | "BinOp sub", [(_, x); (_, y)] => Ok (x - y)
  | "BinOp lt", [(_, x); (_, y)] => Ok (if x <? y then 1 else 0)
  | "BinOp gt", [(_, x); (_, y)] => Ok (if y <? x then 1 else 0)
  | "BinOp truediv", [(_, x); (_, 0)] => Err ZeroDivisionError
  | _, _ => Ok (ex_sum a)
  end.
Definition sg_ext : externals nat nat nat := {|
  truthy v := Ok (negb (v =? 0)); key_of v := Ok v;
  mk_seq _ vs := Ok (fold_right plus 0 vs);
  mk_map _ kvs := Ok (fold_right (fun a b => snd a + b) 0 kvs);
  mk_slice a b c := a + b + c; mk_estimator cls p := Ok p; op_sem op _ a := sg_prim op a;
  apply_fit args _ := Ok (ex_sum args, ex_sum args); apply_failed _ _ f := f;
  apply_use _ f args := match f with Some n => Ok (n + ex_sum args) | None => Err NotFittedError end;
  concat_fit args := Ok (ex_sum args, 0); concat_use _ args := Ok (ex_sum args);
  applied f := f; has_add_note := true |}.
Definition sg_truth (v : nat) : res bool := Ok (negb (v =? 0)).
Definition sg_iter (v : nat) : res (list nat) := Ok (seq 0 v).
Definition sg_bool (b : bool) : nat := if b then 1 else 0.
Definition sg_own (op : string) (l r : oid) : option (res nat) := None.
Definition sg_foreign (op : string) (v : nat) (o : oid) : res nat := Err TypeError.
(** A function that accepts expressions, such as [str]. *)
Definition sg_accepts (op : string) (v : nat) (o : oid) : res nat := Ok 3.
Definition sg_build foreign := build_run (K:=nat) sg_prim sg_truth sg_iter (Nat.eqb 0) sg_bool String.length (fun v => v) 0 sg_own foreign.
Definition sg_run := run sg_prim sg_truth sg_iter (Nat.eqb 0) sg_bool String.length (fun v => v) 0.

(** The names after the construction; what an expression that was built gives. *)
Definition sg_names foreign h (p : stmt nat) (L : list (string * bval nat)) : option (res (list (string * bval nat))) :=
  match sg_build foreign 5 p (L, (h, 1)) with
  | Some (Ok (L', _)) => Some (Ok L')
  | Some (Err ex) => Some (Err ex)
  | None => None
  end.
Definition sg_value h (p : stmt nat) (L : list (string * bval nat)) (v : nat) (o : oid) :=
  match sg_build sg_foreign 5 p (L, (h, 1)) with
  | Some (Ok (_, (h', size'))) => Some (snd (evaluate sg_ext h' size' o "transform" [("d", v)] true ex_st))
  | _ => None
  end.

(** [d = skrub.var("d")] *)
Definition sg_heap : heap nat nat := fun o =>
  match o with 0 => OExpr (IVar None) (Some "d") false false | _ => OValue 0 end.
Definition sg_L : list (string * bval nat) := [("d", BNode 0)].

Lemma sg_closed : closed sg_heap 1.
Proof. apply closed_by_check. reflexivity. Qed.
Lemma sg_attrs : plain_attrs sg_heap 1.
Proof. intros [|o] fs n x y Ho E; [discriminate|lia]. Qed.
Lemma sg_stands v : stand_for sg_ext "transform" [("d", v)] ex_st sg_heap 1 sg_L [("d", v)].
Proof.
  constructor; [|constructor]. split; [reflexivity|]. split; [cbn; lia|]. split; [reflexivity|]. split; [|vm_compute; reflexivity].
  eapply acyclic_by_nodes; [apply sg_closed|lia|vm_compute; reflexivity].
Qed.
Lemma sg_computes mode : computes sg_ext sg_prim (fun v => v) 0 mode.
Proof. split; [reflexivity|]. split; [|reflexivity]. intros v. cbn. rewrite Nat.add_0_r. reflexivity. Qed.
Lemma sg_mirrored mode : mirrored sg_ext mode.
Proof.
  intros op op' a b Hin. cbn in Hin. destruct Hin as [E|[E|[E|[E|[E|[E|[]]]]]]]; injection E as <- <-; cbn; try reflexivity;
    unfold ex_sum; cbn; rewrite !Nat.add_0_r; f_equal; apply Nat.add_comm.
Qed.
Lemma sg_method mode : method_is_call sg_ext mode.
Proof. intros a b c d. cbn. unfold ex_sum. cbn. f_equal. lia. Qed.

(** ** C152 *)

(** Full statement: for all code. It holds if the code does not ask [is None] and the plain
    functions and containers that it uses refuse expressions. If the construction succeeds,
    then the code run on the values takes the same path: either it finishes too, with the same
    names, and evaluating each of them gives its value; or it raises, and evaluating one of the
    expressions that were built raises. *)
Theorem C152_same_partial : forall (V K F : Type) (HK : EqD K) (ext : externals V K F) requested e (s : st V F),
  requested <> "fit" ->
  forall prim truth iter is_none of_bool of_string tuple1 no_kwargs own foreign,
  computes ext prim tuple1 no_kwargs (real_mode requested) -> mirrored ext (real_mode requested) ->
  method_is_call ext (real_mode requested) ->
  (forall op l r, own op l r = None) -> (forall op v o, foreign op v o = Err TypeError) ->
  forall h size L D p n L' h' size', closed h size -> plain_attrs h size ->
  stand_for ext requested e s h size L D -> ~ stmt_asks_none p ->
  build_run prim truth iter is_none of_bool of_string tuple1 no_kwargs own foreign n p (L, (h, size)) = Some (Ok (L', (h', size'))) ->
  (exists D', run prim truth iter is_none of_bool of_string tuple1 no_kwargs n p D = Some (Ok D') /\ stand_for ext requested e s h' size' L' D') \/
  (exists ex o, run prim truth iter is_none of_bool of_string tuple1 no_kwargs n p D = Some (Err ex) /\ size <= o < size' /\
     gives ext requested e s h' size' o (shown ext (real_mode requested) (Err ex))).
Proof. exact @same_run. Qed.
Print Assumptions C152_same_partial.

(** If the construction raises though the code runs on the values, it raises TypeError or
    AttributeError. *)
Theorem C152_raises_partial : forall (V K F : Type) (HK : EqD K) (ext : externals V K F) requested e (s : st V F),
  requested <> "fit" ->
  forall prim truth iter is_none of_bool of_string tuple1 no_kwargs own foreign,
  computes ext prim tuple1 no_kwargs (real_mode requested) -> mirrored ext (real_mode requested) ->
  method_is_call ext (real_mode requested) ->
  (forall op l r, own op l r = None) -> (forall op v o, foreign op v o = Err TypeError) ->
  forall h size L D p n ex D', closed h size -> plain_attrs h size ->
  stand_for ext requested e s h size L D -> ~ stmt_asks_none p ->
  build_run prim truth iter is_none of_bool of_string tuple1 no_kwargs own foreign n p (L, (h, size)) = Some (Err ex) ->
  run prim truth iter is_none of_bool of_string tuple1 no_kwargs n p D = Some (Ok D') ->
  ex = TypeError \/ ex = AttributeError.
Proof. exact @refused_run. Qed.
Print Assumptions C152_raises_partial.

(** [k = 0; t = d
     while k < 3: t = t + k; k = k + 1
     for i in 2: t = t.name(i)
     r = 5 < t]
    on an expression [d] and on 20; [if d < 5: ...] and [d / 0]. *)
Definition sg_prog : stmt nat :=
  Seq (Assign "k" (Lit 0)) (Seq (Assign "t" (Local "d"))
  (Seq (While (Bin "lt" (Local "k") (Lit 3))
          (Seq (Assign "t" (Bin "add" (Local "t") (Local "k"))) (Assign "k" (Bin "add" (Local "k") (Lit 1)))))
  (Seq (For "i" (Lit 2) (Assign "t" (CallC (Attr (Local "t") "name") (Local "i"))))
       (Assign "r" (Bin "lt" (Lit 5) (Local "t")))))).
Definition sg_branch : stmt nat := If (Bin "lt" (Local "d") (Lit 5)) (Assign "r" (Lit 1)) (Assign "r" (Lit 2)).
Definition sg_divide : stmt nat := Assign "r" (Bin "truediv" (Local "d") (Lit 0)).
Example ex_C152 :
  (computes sg_ext sg_prim (fun v => v) 0 (real_mode "transform") /\ mirrored sg_ext (real_mode "transform") /\
   method_is_call sg_ext (real_mode "transform") /\ closed sg_heap 1 /\ plain_attrs sg_heap 1 /\
   stand_for sg_ext "transform" [("d", 20)] ex_st sg_heap 1 sg_L [("d", 20)]) /\
  sg_names sg_foreign sg_heap sg_prog sg_L =
    Some (Ok [("d", BNode 0); ("k", BPlain 3); ("t", BNode 18); ("i", BPlain 1); ("r", BNode 20)]) /\
  sg_value sg_heap sg_prog sg_L 20 18 = Some (Ok (TheValue 32)) /\ sg_value sg_heap sg_prog sg_L 20 20 = Some (Ok (TheValue 1)) /\
  sg_run 5 sg_prog [("d", 20)] = Some (Ok [("d", 20); ("k", 3); ("t", 32); ("i", 1); ("r", 1)]) /\
  sg_names sg_foreign sg_heap sg_branch sg_L = Some (Err TypeError) /\
  sg_run 5 sg_branch [("d", 20)] = Some (Ok [("d", 20); ("r", 2)]) /\
  sg_names sg_foreign sg_heap sg_divide sg_L = Some (Ok [("d", BNode 0); ("r", BNode 2)]) /\
  sg_value sg_heap sg_divide sg_L 20 2 = Some (Err ZeroDivisionError) /\
  sg_run 5 sg_divide [("d", 20)] = Some (Err ZeroDivisionError).
Proof.
  split; [split; [apply sg_computes|]; split; [apply sg_mirrored|]; split; [apply sg_method|]; split; [apply sg_closed|]; split; [apply sg_attrs|apply sg_stands]|].
  split; [vm_compute; reflexivity|]. repeat split; vm_compute; reflexivity.
Qed.

(** [r = 1 if d is None else 2], when [d] is None: the construction does not raise, and gives
    something else. *)
Theorem C152_is_none_refuted : exists p, stmt_asks_none p /\
  sg_names sg_foreign sg_heap p sg_L = Some (Ok [("d", BNode 0); ("r", BPlain 2)]) /\
  sg_run 5 p [("d", 0)] = Some (Ok [("d", 0); ("r", 1)]).
Proof.
  exists (If (IsNone (Local "d")) (Assign "r" (Lit 1)) (Assign "r" (Lit 2))).
  split; [left; exact I|]. split; vm_compute; reflexivity.
Qed.
Print Assumptions C152_is_none_refuted.

(** [r = f(d)] where [f] is a plain function that accepts expressions, such as [str]. *)
Theorem C152_function_refuted : exists p, ~ stmt_asks_none p /\
  sg_names sg_accepts sg_heap p sg_L = Some (Ok [("d", BNode 0); ("r", BPlain 3)]) /\
  sg_run 5 p [("d", 20)] = Some (Ok [("d", 20); ("r", 22)]).
Proof.
  exists (Assign "r" (CallC (Lit 2) (Local "d"))).
  split; [intros [[]|[]]|]. split; vm_compute; reflexivity.
Qed.
Print Assumptions C152_function_refuted.

(** ** C153 *)

(** [if], [while], [for], [and], [or], [not], [len] and [in] raise TypeError on an expression. *)
Theorem C153_now : forall (V K : Type) prim truth iter is_none of_bool of_string tuple1 no_kwargs own foreign
  (L : list (string * bval V)) c (m : @mem_st V K),
  an_expr prim truth is_none of_bool of_string tuple1 no_kwargs own foreign L c m ->
  (forall n s1 s2, build_run prim truth iter is_none of_bool of_string tuple1 no_kwargs own foreign n (If c s1 s2) (L, m) = Some (Err TypeError)) /\
  (forall n s, build_run prim truth iter is_none of_bool of_string tuple1 no_kwargs own foreign (S n) (While c s) (L, m) = Some (Err TypeError)) /\
  (forall n x s, build_run prim truth iter is_none of_bool of_string tuple1 no_kwargs own foreign n (For x c s) (L, m) = Some (Err TypeError)) /\
  (forall b, build prim truth is_none of_bool of_string tuple1 no_kwargs own foreign L (And c b) m = Err TypeError) /\
  (forall b, build prim truth is_none of_bool of_string tuple1 no_kwargs own foreign L (Or c b) m = Err TypeError) /\
  build prim truth is_none of_bool of_string tuple1 no_kwargs own foreign L (Not c) m = Err TypeError /\
  build prim truth is_none of_bool of_string tuple1 no_kwargs own foreign L (Len c) m = Err TypeError /\
  (forall v, build prim truth is_none of_bool of_string tuple1 no_kwargs own foreign L (Contains c (Lit v)) m = Err TypeError).
Proof. exact @uses_now. Qed.
Print Assumptions C153_now.

(** So does changing an item of an expression. *)
Theorem C153_set : forall (V K : Type) prim truth iter is_none of_bool of_string tuple1 no_kwargs own foreign
  (L : list (string * bval V)) x o (m : @mem_st V K) n k a b1 m1 b2 m2, dget x L = Some (BNode o) ->
  build prim truth is_none of_bool of_string tuple1 no_kwargs own foreign L a m = Ok (b1, m1) ->
  build prim truth is_none of_bool of_string tuple1 no_kwargs own foreign L k m1 = Ok (b2, m2) ->
  build_run prim truth iter is_none of_bool of_string tuple1 no_kwargs own foreign n (SetItem x k a) (L, m) = Some (Err TypeError).
Proof. exact @set_now. Qed.
Print Assumptions C153_set.

(** Operators with an expression on the left, indexing it and calling it give an expression. *)
Theorem C153_later : forall (V K : Type) prim truth is_none of_bool of_string tuple1 no_kwargs own foreign (HK : EqD K)
  (L : list (string * bval V)) c d (m : @mem_st V K) o m1 b m2, okm m -> wfL m L ->
  build prim truth is_none of_bool of_string tuple1 no_kwargs own foreign L c m = Ok (BNode o, m1) ->
  build prim truth is_none of_bool of_string tuple1 no_kwargs own foreign L d m1 = Ok (b, m2) ->
  (forall op, In op ["abs"; "invert"; "neg"; "pos"] ->
     an_expr prim truth is_none of_bool of_string tuple1 no_kwargs own foreign L (Un op c) m) /\
  (forall op, In op ["add"; "and"; "eq"; "floordiv"; "ge"; "gt"; "le"; "lshift"; "lt"; "matmul"; "mod"; "mul"; "ne"; "pow"; "rshift"; "sub"; "truediv"; "xor"; "or"] ->
     an_expr prim truth is_none of_bool of_string tuple1 no_kwargs own foreign L (Bin op c d) m) /\
  an_expr prim truth is_none of_bool of_string tuple1 no_kwargs own foreign L (Item c d) m /\
  an_expr prim truth is_none of_bool of_string tuple1 no_kwargs own foreign L (CallC c d) m.
Proof. exact @uses_later. Qed.
Print Assumptions C153_later.

(** So does getting an attribute, unless its name begins and ends with two underscores or is
    one of those that notebooks, pandas, scikit-learn and skrub look for; then it raises
    AttributeError. *)
Theorem C153_attributes : forall (V K : Type) prim truth is_none of_bool of_string tuple1 no_kwargs own foreign
  (L : list (string * bval V)) c (m : @mem_st V K) name,
  an_expr prim truth is_none of_bool of_string tuple1 no_kwargs own foreign L c m ->
  (an_expr prim truth is_none of_bool of_string tuple1 no_kwargs own foreign L (Attr c name) m <->
   ~ (In name ["_skrub_impl"; "get_params"; "_partialmethod"; "_repr_pretty_"; "_repr_svg_"; "_repr_png_"; "_repr_jpeg_"; "_repr_javascript_";
           "_repr_markdown_"; "_repr_latex_"; "_repr_pdf_"; "_repr_json_"; "_ipython_display_"; "_repr_mimebundle_";
           "_ipython_canary_method_should_not_exist_"; "_typ"] \/
      ((exists u, name = ("__" ++ u)%string) /\ (exists u, name = (u ++ "__")%string)))) /\
  (~ an_expr prim truth is_none of_bool of_string tuple1 no_kwargs own foreign L (Attr c name) m ->
   build prim truth is_none of_bool of_string tuple1 no_kwargs own foreign L (Attr c name) m = Err AttributeError).
Proof. exact @attr_uses. Qed.
Print Assumptions C153_attributes.

(** [d - 1], [-d], [d.shape] and [d.__len__]. *)
Definition sg_code (c : code nat) := build (K:=nat) sg_prim sg_truth (Nat.eqb 0) sg_bool String.length (fun v => v) 0 sg_own sg_foreign sg_L c (sg_heap, 1).
Definition sg_kind (c : code nat) : res (bval nat) := let! (b, m) := sg_code c in Ok b.
Example ex_C153 :
  (okm (sg_heap, 1) /\ wfL (sg_heap, 1) sg_L) /\
  sg_code (Local "d") = Ok (BNode 0, (sg_heap, 1)) /\
  sg_kind (Bin "sub" (Local "d") (Lit 1)) = Ok (BNode 2) /\ sg_kind (Un "neg" (Local "d")) = Ok (BNode 1) /\
  sg_kind (Attr (Local "d") "shape") = Ok (BNode 2) /\ sg_kind (Attr (Local "d") "__len__") = Err AttributeError /\
  sg_kind (Attr (Local "d") "_typ") = Err AttributeError /\ sg_kind (Len (Local "d")) = Err TypeError.
Proof.
  split; [split; [split; [apply sg_closed|apply sg_attrs]|]|].
  { constructor; [|constructor]. cbn. split; [|reflexivity]. split; [cbn; lia|].
    eapply acyclic_by_nodes; [apply sg_closed|lia|vm_compute; reflexivity]. }
  split; [reflexivity|]. repeat split; vm_compute; reflexivity.
Qed.
