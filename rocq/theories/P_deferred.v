(** Properties C105 to C108: deferred functions. *)
From Verif Require Import Base L_dict M_deferred L_deferred L_deferred2.
Open Scope string_scope.
Open Scope list_scope.
Open Scope nat_scope.

(** An example: a function gives the list of what it sees. *)
Definition dx_seq (cls : string) (l : list (pobj nat)) : res (pobj nat) := if mem cls ["list"; "tuple"] then Ok (PSeq cls l) else Err TypeError.
Definition dx_map (cls : string) (l : list (nat * pobj nat)) : res (pobj nat) := if eqb_of cls "dict" then Ok (PMap cls l) else Err TypeError.
Definition dx_est (cls : string) (l : list (string * pobj nat)) : res (pobj nat) := Ok (PEst cls l None).
Definition dx_meaning (i : nat) : res (pobj nat) := nth i [Ok (PAtom 10); Ok (PAtom 20)] (Err KeyError).
Definition dx_shown (o : option (pobj nat)) : pobj nat := match o with Some o => o | None => PAtom 0 end.
Definition dx_exec (c : code) (g : string -> option (pobj nat)) (cells : list (option (pobj nat))) (b : binding nat) : res (pobj nat) :=
  Ok (PSeq "list" (map snd (b_params b) ++ b_varargs b ++ map dx_shown (map g (co_loads c ++ co_nested c)) ++ map dx_shown cells)).
Definition dx_other (n : string) (args : list (pobj nat)) (kwargs : list (string * pobj nat)) : res (pobj nat) := Ok (PSeq "list" args).
Definition dx_code := mk_code "f" ["x"; "y"] ["k"] true false ["c"; "d"] [].
Definition dx_f : func nat := mk_func dx_code [0] [PExpr 1] [("k", PSeq "list" [PExpr 0])] None.
Definition dx_m : memory nat := mk_memory (fun n => if eqb_of n "c" then Some (PExpr 0) else if eqb_of n "d" then Some (PAtom 4) else None) (fun c => match c with 0 => Some (PEst "Ridge" [("alpha", PExpr 1)] None) | _ => None end).
Definition dx_defer := defer dx_seq dx_map dx_est.
Definition dx_compute := compute_call dx_seq dx_map dx_est dx_meaning dx_exec dx_other.
Definition dx_deferred : deferred_func nat := mk_deferred (Function dx_f) [("c", PExpr 0)] [PEst "Ridge" [("alpha", PExpr 1)] None] [PExpr 1] [("k", PSeq "list" [PExpr 0])].
Definition dx_ordinary := ordinary dx_seq dx_map dx_est.

Lemma dx_exec_reads : forall c g1 g2 cells b, (forall n, In n (co_loads c ++ co_nested c) -> g1 n = g2 n) -> dx_exec c g1 cells b = dx_exec c g2 cells b.
Proof. intros c g1 g2 cells b H. unfold dx_exec. rewrite (map_ext_in _ _ _ H). reflexivity. Qed.
Lemma dx_m_ordinary : forall o, used dx_m dx_f [PExpr 0] [] o -> dx_ordinary o.
Proof.
  assert (O1 : dx_ordinary (PEst "Ridge" [("alpha", PExpr 1)] None)) by (constructor; [reflexivity|repeat constructor]).
  intros o [[<-|[]]|k []|n I E|c I E|[<-|[]]|k [E|[]]]; [constructor|..|constructor|].
  - cbn in I. destruct I as [<-|[<-|[]]]; cbn in E; injection E as <-; constructor.
  - destruct I as [<-|[]]. injection E as <-. exact O1.
  - injection E as <- <-. constructor; [reflexivity|repeat constructor].
Qed.

(** C105. Evaluating the call of a deferred function calls the function, with the expressions
    in its arguments, its defaults, the global variables it loads and the variables of
    enclosing functions replaced with their values; or fails as the evaluation of one of them.
    For functions which are not methods; whose variables did not change since they were made
    deferred; and in which nested functions only use global variables without expressions. *)
Theorem C105_called_on_values :
  forall {V} (new_seq : string -> list (pobj V) -> res (pobj V)) new_map new_est meaning exec call_other,
  (forall c g1 g2 cells b, (forall n, In n (co_loads c ++ co_nested c) -> g1 n = g2 n) -> exec c g1 cells b = exec c g2 cells b) ->
  forall m0 m1 f args kwargs d,
  code_ok (f_code f) -> kwdefaults_ok (f_code f) (f_kwdefaults f) -> NoDup (dkeys kwargs) ->
  (forall o, used m1 f args kwargs o -> ordinary new_seq new_map new_est o) ->
  defer new_seq new_map new_est m0 (Function f) = Ok d ->
  (forall n, In n (co_loads (f_code f)) -> m_globals m1 n = m_globals m0 n) ->
  (forall c, In c (f_cells f) -> m_cells m1 c = m_cells m0 c) ->
  f_self f = None ->
  (forall n o, In n (co_nested (f_code f)) -> ~ In n (co_loads (f_code f)) -> m_globals m1 n = Some o -> plain o) ->
  (exists m' f' args' kwargs', replaced_memory meaning f m1 m' /\ replaced_func meaning f f' /\
    Forall2 (replaced meaning) args args' /\ Forall2 (fun a b => fst a = fst b /\ replaced meaning (snd a) (snd b)) kwargs kwargs' /\
    compute_call new_seq new_map new_est meaning exec call_other m1 d args kwargs = call_func exec m' f' args' kwargs') \/
  (exists i o e, used m1 f args kwargs o /\ occurs i o /\ meaning i = Err e /\
    compute_call new_seq new_map new_est meaning exec call_other m1 d args kwargs = Err e).
Proof. exact @call_values. Qed.
Print Assumptions C105_called_on_values.

(** The values are determined. *)
Theorem C105_values_determined : forall {V} meaning (o v w : pobj V), replaced meaning o v -> replaced meaning o w -> v = w.
Proof. exact @replaced_fun. Qed.
Print Assumptions C105_values_determined.

Example ex_C105 : code_ok dx_code /\ kwdefaults_ok dx_code (f_kwdefaults dx_f) /\
  (forall o, used dx_m dx_f [PExpr 0] [] o -> dx_ordinary o) /\
  dx_defer dx_m (Function dx_f) = Ok dx_deferred /\
  dx_compute dx_m dx_deferred [PExpr 0] [] =
    Ok (PSeq "list" [PAtom 10; PAtom 20; PSeq "list" [PAtom 10]; PAtom 10; PAtom 4; PEst "Ridge" [("alpha", PAtom 20)] None]) /\
  dx_compute dx_m dx_deferred [PExpr 0; PAtom 1; PExpr 1] [("k", PAtom 3)] =
    Ok (PSeq "list" [PAtom 10; PAtom 1; PAtom 3; PAtom 20; PAtom 10; PAtom 4; PEst "Ridge" [("alpha", PAtom 20)] None]) /\
  dx_compute dx_m dx_deferred [PExpr 2] [] = Err KeyError /\
  dx_compute dx_m dx_deferred [] [] = Err TypeError.
Proof.
  split; [repeat (constructor; [cbn; intuition discriminate|]); constructor|].
  split; [split; [repeat (constructor; [cbn; intuition discriminate|]); constructor|intros k [<-|[]]; left; reflexivity]|].
  split; [exact dx_m_ordinary|]. vm_compute. repeat split.
Qed.

(** A global variable used by a function defined inside the deferred function. *)
Theorem C105_nested_refuted : exists f d, f_self f = None /\ co_nested (f_code f) = ["c"] /\
  dx_defer dx_m (Function f) = Ok d /\ dx_compute dx_m d [PAtom 1] [] = Ok (PSeq "list" [PAtom 1; PExpr 0]).
Proof. exists (mk_func (mk_code "f" ["x"] [] false false [] ["c"]) [] [] [] None). eexists. split; [reflexivity|]. split; [reflexivity|]. split; vm_compute; reflexivity. Qed.
Print Assumptions C105_nested_refuted.

(** A bound method with an expression as default. *)
Theorem C105_method_refuted : exists f f' d, f_self f = Some (PAtom 7) /\ replaced_func dx_meaning f f' /\
  dx_defer dx_m (Function f) = Ok d /\
  call_func dx_exec dx_m f' [PAtom 1] [] = Ok (PSeq "list" [PAtom 7; PAtom 1; PAtom 20]) /\
  dx_compute dx_m d [PAtom 1] [] = Err TypeError.
Proof.
  exists (mk_func (mk_code "f" ["self"; "x"; "y"] [] false false [] []) [] [PExpr 1] [] (Some (PAtom 7))).
  exists (mk_func (mk_code "f" ["self"; "x"; "y"] [] false false [] []) [] [PAtom 20] [] (Some (PAtom 7))). eexists.
  split; [reflexivity|]. split; [split; [reflexivity|split; [reflexivity|split; [reflexivity|split; [repeat constructor|constructor]]]]|].
  split; [vm_compute; reflexivity|]. split; vm_compute; reflexivity.
Qed.
Print Assumptions C105_method_refuted.

(** A global variable defined after the function is made deferred. *)
Theorem C105_later_definition_refuted : exists f d m, f_self f = None /\ co_loads (f_code f) = ["c"] /\
  dx_defer m (Function f) = Ok d /\ m_globals m "c" = None /\
  dx_compute dx_m d [PAtom 1] [] = Ok (PSeq "list" [PAtom 1; PExpr 0]).
Proof.
  exists (mk_func (mk_code "f" ["x"] [] false false ["c"] []) [] [] [] None). eexists. exists (mk_memory (fun _ => None) (fun _ => None)).
  split; [reflexivity|]. split; [reflexivity|]. split; [vm_compute; reflexivity|]. split; vm_compute; reflexivity.
Qed.
Print Assumptions C105_later_definition_refuted.

(** C106. A function which uses no expression, method or not, is called as it is, with what
    its variables are at that time. *)
Theorem C106_called_as_it_is :
  forall {V} (new_seq : string -> list (pobj V) -> res (pobj V)) new_map new_est meaning exec call_other m0 f,
  (forall o, used m0 f [] [] o -> ordinary new_seq new_map new_est o /\ plain o) -> (forall c, In c (f_cells f) -> m_cells m0 c <> None) ->
  exists d, defer new_seq new_map new_est m0 (Function f) = Ok d /\
  forall m1 args kwargs, NoDup (dkeys kwargs) -> (forall o, In o args \/ (exists k, In (k, o) kwargs) -> ordinary new_seq new_map new_est o) ->
    (exists args' kwargs', Forall2 (replaced meaning) args args' /\ Forall2 (fun a b => fst a = fst b /\ replaced meaning (snd a) (snd b)) kwargs kwargs' /\
      compute_call new_seq new_map new_est meaning exec call_other m1 d args kwargs = call_func exec m1 f args' kwargs') \/
    (exists i o e, (In o args \/ exists k, In (k, o) kwargs) /\ occurs i o /\ meaning i = Err e /\
      compute_call new_seq new_map new_est meaning exec call_other m1 d args kwargs = Err e).
Proof. exact @deferred_plain. Qed.
Print Assumptions C106_called_as_it_is.

Definition dx_g : func nat := mk_func (mk_code "g" ["self"; "x"] [] false false ["d"] []) [0] [PAtom 5] [] (Some (PAtom 7)).
Definition dx_m' (n : nat) : memory nat := mk_memory (fun _ => Some (PAtom n)) (fun _ => Some (PAtom (n + 1))).
Example ex_C106 : (forall o, used (dx_m' 1) dx_g [] [] o -> dx_ordinary o /\ plain o) /\
  exists d, dx_defer (dx_m' 1) (Function dx_g) = Ok d /\
    dx_compute (dx_m' 3) d [PExpr 0] [] = Ok (PSeq "list" [PAtom 7; PAtom 10; PAtom 3; PAtom 4]).
Proof.
  split.
  - assert (A : forall n, dx_ordinary (PAtom n) /\ plain (PAtom n)) by (intros n; split; [constructor|intros i O; inversion O]).
    intros o [[]|k []|n I E|c I E|[<-|[]]|k []]; try (injection E as <-); apply A.
  - eexists. split; vm_compute; reflexivity.
Qed.

(** C107. Making a function deferred fails exactly if it uses a variable of an enclosing
    function that is not assigned yet. *)
Theorem C107_fails_only_on_unassigned :
  forall {V} (new_seq : string -> list (pobj V) -> res (pobj V)) new_map new_est m f,
  (forall o, used m f [] [] o -> ordinary new_seq new_map new_est o) ->
  (exists d, defer new_seq new_map new_est m (Function f) = Ok d /\ forall c, In c (f_cells f) -> m_cells m c <> None) \/
  (defer new_seq new_map new_est m (Function f) = Err ValueError /\ exists c, In c (f_cells f) /\ m_cells m c = None).
Proof. exact @defer_exact. Qed.
Print Assumptions C107_fails_only_on_unassigned.

(** Making something deferred again changes nothing. *)
Theorem C107_twice :
  forall {V} (new_seq : string -> list (pobj V) -> res (pobj V)) new_map new_est m m' x y,
  deferred new_seq new_map new_est m x = Ok y -> deferred new_seq new_map new_est m' y = Ok y.
Proof. exact @deferred_twice. Qed.
Print Assumptions C107_twice.

Example ex_C107 : deferred dx_seq dx_map dx_est dx_m (IsCallable (Function dx_f)) = Ok (IsDeferred dx_deferred) /\
  deferred dx_seq dx_map dx_est dx_m (IsDeferred dx_deferred) = Ok (IsDeferred dx_deferred) /\
  (forall o, used dx_m dx_f [] [] o -> dx_ordinary o).
Proof.
  split; [vm_compute; reflexivity|]. split; [reflexivity|]. intros o U. apply dx_m_ordinary. destruct U; [contradiction|contradiction|..]; [eapply used_global|eapply used_cell|apply used_default|eapply used_kwdefault]; eassumption.
Qed.

(** A function inside another one, which calls itself, cannot be made deferred. *)
Theorem C107_recursive_refuted : exists f m, f_cells f = [0] /\ m_cells m 0 = None /\ dx_defer m (Function f) = Err ValueError.
Proof. exists (mk_func (mk_code "f" ["x"] [] false false [] []) [0] [] [] None), (mk_memory (fun _ => None) (fun _ => None)). repeat split. Qed.
Print Assumptions C107_recursive_refuted.

(** A function that uses a global variable which is a dict of another class (a Bunch of
    scikit-learn, say), without any expression, cannot be made deferred. *)
Theorem C107_bunch_refuted : exists f m, (forall o, used m f [] [] o -> plain o) /\ m_globals m "data" = Some (PMap "Bunch" [(0, PAtom 1)]) /\
  dx_defer m (Function f) = Err TypeError.
Proof.
  exists (mk_func (mk_code "f" ["x"] [] false false ["data"] []) [] [] [] None), (mk_memory (fun n => if eqb_of n "data" then Some (PMap "Bunch" [(0, PAtom 1)]) else None) (fun _ => None)).
  split; [|split; reflexivity]. intros o [[]|k []|n [<-|[]] E|c []|[]|k []]. cbn in E. injection E as <-. intros i O. inversion O as [| |? ? ? ? I O'|]; subst. destruct I as [I|[]]. injection I as <- <-. inversion O'.
Qed.
Print Assumptions C107_bunch_refuted.

(** C108. Objects without expressions reach the function as they are, if containers are
    lists, tuples, sets and dicts and estimators are not fitted. *)
Theorem C108_unchanged :
  forall {V} (new_seq : string -> list (pobj V) -> res (pobj V)) new_map new_est meaning o,
  ordinary new_seq new_map new_est o -> plain o -> ev new_seq new_map new_est meaning o = Ok o.
Proof. exact @ev_plain. Qed.
Print Assumptions C108_unchanged.

(** An environment of such objects is accepted exactly if there are no expressions in it. *)
Theorem C108_environment :
  forall {V} (new_seq : string -> list (pobj V) -> res (pobj V)) new_map new_est e,
  Forall (fun kv => ordinary new_seq new_map new_est (snd kv)) e ->
  (check_environment new_seq new_map new_est e = Ok tt /\ forall k o, In (k, o) e -> plain o) \/
  (check_environment new_seq new_map new_est e = Err TypeError /\ exists k o i, In (k, o) e /\ occurs i o).
Proof. exact @environment_exact. Qed.
Print Assumptions C108_environment.

Example ex_C108 : let o := PMap "dict" [(0, PSeq "list" [PAtom 1; PEst "Ridge" [("alpha", PAtom 2)] None])] in
  dx_ordinary o /\ ev dx_seq dx_map dx_est dx_meaning o = Ok o /\ check_environment dx_seq dx_map dx_est [("a", o)] = Ok tt /\
  check_environment dx_seq dx_map dx_est [("a", o); ("b", PSeq "tuple" [PAtom 0; PExpr 0])] = Err TypeError.
Proof.
  cbn zeta. split; [|vm_compute; repeat split]. constructor; [reflexivity|]. constructor; [|constructor]. constructor; [reflexivity|].
  constructor; [constructor|]. constructor; [|constructor]. constructor; [reflexivity|]. constructor; [constructor|constructor].
Qed.

(** A fitted estimator reaches the function unfitted. *)
Theorem C108_fitted_refuted : exists d, dx_defer dx_m (Other "predict") = Ok d /\
  dx_compute dx_m d [PEst "Ridge" [("alpha", PAtom 2)] (Some 9)] [] = Ok (PSeq "list" [PEst "Ridge" [("alpha", PAtom 2)] None]).
Proof. eexists. split; vm_compute; reflexivity. Qed.
Print Assumptions C108_fitted_refuted.

(** A named tuple as argument makes the evaluation fail; a Bunch in an environment makes it
    refused. *)
Theorem C108_classes_refuted :
  (exists d, dx_defer dx_m (Other "area") = Ok d /\ dx_compute dx_m d [PSeq "Point" [PAtom 1; PAtom 2]] [] = Err TypeError) /\
  check_environment dx_seq dx_map dx_est [("data", PMap "Bunch" [(0, PAtom 1)])] = Err TypeError.
Proof. split; [eexists; split|]; vm_compute; reflexivity. Qed.
Print Assumptions C108_classes_refuted.
