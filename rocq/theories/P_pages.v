(** The pages of reports (C143, C144, C145). *)
From Coq Require Import Lia.
From Verif Require Import Base M_str M_traverse M_expr L_expr1 L_expr2 L_expr4 L_expr5 L_expr7 M_choicegraph M_graph L_graph
  M_pages L_pages L_pages3 L_pages4.
Open Scope string_scope.
Open Scope list_scope.
Open Scope nat_scope.

Section Theorems.
  Context {V K F : Type} `{EqD K}.
  Variable ext : externals V K F.
  Variable h : heap V K.
  Variable size : nat.
  Variable graphviz : bool.
  Variable render : V -> res string.
  Variable simple_repr : oid -> res string.
  Variable drawing : res unit.
  Variable extras : oid -> option F -> res string.
  Variable encodable : content -> bool.
  Variable root : oid.
  Hypothesis Hclosed : closed h size.
  Hypothesis Hroot : root < size.
  Hypothesis Hacyclic : acyclic h root.
  Notation full_report := (full_report ext h size graphviz render simple_repr drawing extras encodable).

  (** C143: a report begun without results ([clear]) tells for each step whether it ran, with its output, and which
      one failed. The full property is without [mode <> "fit"] and with a step that is always blamed; both are refuted below. *)
  Theorem C143_pages_tell_partial : forall mode e new_dir od ow s d s' d' rp,
    trace s = [] -> mode <> "fit" ->
    full_report root mode e true new_dir od ow s d = (s', d', Ok rp) ->
    exists ns r blamed, NoDup ns /\ (forall x, In x ns <-> part_of h root x /\ is_expr_at h x) /\
      DenV ext h e mode (fitted s) root r /\
      rp_result rp = match r with Ok v => Some (TheValue v) | Err _ => None end /\
      rp_error rp = match r with Ok _ => None | Err ex => Some ex end /\
      match r with
      | Ok _ => blamed = None
      | Err ex => exists y, needed ext h e mode (fitted s) root y /\ culprit ext h e mode (fitted s) y ex /\
          match blamed with
          | Some (y', ex') => y' = y /\ computing h y /\ ex = shown_error ext mode ex'
          | None => ~ computing h y
          end
      end /\
      exists outs, length outs = length ns /\
        d' (rp_dir rp ++ [index_name]) = Some (File (Index (combine (seq 0 (length ns)) (map status_for outs)))) /\
        forall i x, nth_error ns i = Some x -> exists p out,
          d' (rp_dir rp ++ [("node_" ++ str_nat i ++ ".html")%string]) = Some (File (NodePage p)) /\
          nth_error outs i = Some out /\ pg_outcome p = out /\ tells ext h render e mode (fitted s) root r blamed x out /\
          simple_repr x = Ok (pg_title p) /\ pg_status p = combine (seq 0 (length ns)) (map status_for outs).
  Proof using Hclosed Hroot Hacyclic.
    intros mode e new_dir od ow s d s' d' rp Ht Hm E.
    destruct (report_pages ext h size graphviz render simple_repr drawing extras encodable _ _ _ _ _ _ _ _ _ _ _ Hclosed Hroot Hacyclic Ht Hm E)
      as (ns & r & bl & H1 & H2 & H3 & H4 & H5 & H6 & outs & H7 & H8 & H9).
    exists ns, r, bl. repeat (split; [assumption|]). exists outs. repeat (split; [assumption|]).
    intros i x Ei. destruct (H9 i x Ei) as (p & out & P1 & P2 & P3 & P4 & P5 & P6 & _). exists p, out. auto 10.
  Qed.

  (** C144: what is under "This step used" are the steps that use it, and under "This step was used by" those it uses,
      each once and with its description; the arrows lead to the pages before and after. The full property has
      [uses h x y] and [uses h y x] exchanged; it is refuted below. *)
  Theorem C144_pages_link_partial : forall mode e new_dir od ow s d s' d' rp,
    trace s = [] -> mode <> "fit" ->
    full_report root mode e true new_dir od ow s d = (s', d', Ok rp) ->
    exists ns, NoDup ns /\ (forall x, In x ns <-> part_of h root x /\ is_expr_at h x) /\
      forall i x, nth_error ns i = Some x -> exists p,
          d' (rp_dir rp ++ [("node_" ++ str_nat i ++ ".html")%string]) = Some (File (NodePage p)) /\
          pg_previous p = (if i =? 0 then None else Some (i - 1)) /\
          pg_next p = (if i + 1 <? length ns then Some (i + 1) else None) /\
          NoDup (map fst (pg_used p)) /\ NoDup (map fst (pg_used_by p)) /\
          (forall j, In j (map fst (pg_used p)) <-> exists y, nth_error ns j = Some y /\ uses h y x) /\
          (forall j, In j (map fst (pg_used_by p)) <-> exists y, nth_error ns j = Some y /\ uses h x y) /\
          (forall j t, In (j, t) (pg_used p) \/ In (j, t) (pg_used_by p) ->
             exists y, nth_error ns j = Some y /\ simple_repr y = Ok t).
  Proof using Hclosed Hroot Hacyclic.
    intros mode e new_dir od ow s d s' d' rp Ht Hm E.
    destruct (report_pages ext h size graphviz render simple_repr drawing extras encodable _ _ _ _ _ _ _ _ _ _ _ Hclosed Hroot Hacyclic Ht Hm E)
      as (ns & r & bl & H1 & H2 & H3 & H4 & H5 & H6 & outs & H7 & H8 & H9).
    exists ns. repeat (split; [assumption|]).
    intros i x Ei. destruct (H9 i x Ei) as (p & out & P1 & P2 & P3 & P4 & P5 & P6 & P7). exists p. auto.
  Qed.

  (** C145: whatever happens, nothing outside the directory of the report changes but the directories it is in, which
      are created; unless [overwrite] is given with a directory, nothing that exists changes. *)
  Theorem C145_nothing_else_changes : forall mode e clear new_dir od ow s d s' d' r,
    full_report root mode e clear new_dir od ow s d = (s', d', r) ->
    let p := wanted new_dir od in
    (forall q, ~ under p q -> d' q = d q \/ (d q = None /\ d' q = Some Dir /\ under q p)) /\
    (tree d -> od = None \/ ow = false -> forall q, d q <> None -> d' q = d q).
  Proof. exact (report_files ext h size graphviz render simple_repr drawing extras encodable root). Qed.

  Theorem C145_directory_that_exists : forall mode e clear new_dir p s d s' d' r,
    graphviz = true -> d p <> None ->
    full_report root mode e clear new_dir (Some p) false s d = (s', d', r) ->
    d' = d /\ r = Err FileExistsError /\ trace s' = trace s /\ fitted s' = fitted s.
  Proof using Hclosed Hroot Hacyclic. intros. eapply report_refuses; eassumption. Qed.

  (** The directory of a finished report holds the index and one page for each step, and nothing older. *)
  Theorem C145_directory_of_a_report : forall mode e clear new_dir od ow s d s' d' rp,
    tree d -> full_report root mode e clear new_dir od ow s d = (s', d', Ok rp) ->
    let p := wanted new_dir od in
    rp_dir rp = p /\
    exists ns, NoDup ns /\ (forall x, In x ns <-> part_of h root x /\ is_expr_at h x) /\
      forall q, under p q ->
        match d' q with
        | None => True
        | Some Dir => q = p
        | Some (File (Index _)) => q = p ++ [index_name]
        | Some (File (NodePage _)) => exists i, i < length ns /\ q = p ++ [("node_" ++ str_nat i ++ ".html")%string]
        | Some (File (Text _)) => False
        end /\
        (q = p \/ q = p ++ [index_name] \/ (exists i, i < length ns /\ q = p ++ [("node_" ++ str_nat i ++ ".html")%string]) -> d' q <> None).
  Proof using Hclosed Hroot Hacyclic. intros. eapply report_holds; eassumption. Qed.
End Theorems.
Print Assumptions C143_pages_tell_partial.
Print Assumptions C144_pages_link_partial.
Print Assumptions C145_nothing_else_changes.
Print Assumptions C145_directory_that_exists.
Print Assumptions C145_directory_of_a_report.

(** ** Examples *)
Definition exg_home : fs := fun q =>
  if mem q [[]; ["home"]; ["home"; "old"]] then Some Dir
  else if eqb_of q ["home"; "old"; "notes"] then Some (File (Text "mine"))
  else None.
Lemma exg_tree : tree exg_home.
Proof.
  intros p q Hq Hd.
  assert (Hin : In (p ++ q) [[]; ["home"]; ["home"; "old"]; ["home"; "old"; "notes"]]).
  { unfold exg_home in Hd. match type of Hd with (if ?b then _ else _) <> _ => destruct b eqn:E1 end.
    - apply mem_true in E1. cbn in *. tauto.
    - match type of Hd with (if ?b then _ else _) <> _ => destruct b eqn:E2 end; [|congruence]. apply (proj1 (eqb_of_true _ _)) in E2. rewrite E2. cbn. auto. }
  cbn in Hin. destruct Hin as [E|[E|[E|[E|[]]]]]; destruct p as [|a [|b [|c p]]]; cbn [app] in E; try discriminate; try reflexivity;
    inversion E as [E1]; subst; try reflexivity; try congruence.
  all: match goal with H1 : [] = _ ++ _ |- _ => symmetry in H1; apply app_eq_nil in H1; tauto end.
Qed.
Definition exg_render (v : nat) : res string := if v =? 77 then Err RuntimeError else Ok (str_nat v).
Definition exg_repr (o : oid) : res string := Ok (str_nat o).
Definition exg_extras (o : oid) (f : option nat) : res string := Ok "".
Definition exg_full (h : heap nat nat) size root mode e clear od ow s d :=
  full_report ex_ext h size true exg_render exg_repr (Ok tt) exg_extras (fun _ => true) root mode e clear ["home"; "new"] od ow s d.
(** The outcomes and links of the pages of a directory. *)
Definition exg_pages (d : fs) (p : path) (n : nat) :=
  map (fun i => match d (p ++ [("node_" ++ str_nat i ++ ".html")%string]) with
                | Some (File (NodePage pg)) => Some (pg_title pg, pg_outcome pg, map fst (pg_used pg), map fst (pg_used_by pg))
                | _ => None end) (seq 0 n).


Definition exg_match : heap nat nat := fun o =>
  match o with
  | 0 => OExpr (IMatch 1 2 None) None false false
  | 1 => OExpr (IVar None) (Some "d") false false
  | 2 => OMap "dict" [(1, 3)]
  | _ => OValue 5
  end.
Lemma exg_match_ok : closed exg_match 4 /\ 0 < 4 /\ acyclic exg_match 0.
Proof.
  assert (Hc : closed exg_match 4) by (apply closed_by_check; reflexivity). split; [exact Hc|]. split; [lia|].
  eapply acyclic_by_nodes; [exact Hc|lia|vm_compute; reflexivity].
Qed.
Lemma exg_8_ok : 8 < ex_size /\ acyclic ex_heap 8.
Proof. split; [unfold ex_size; lia|]. eapply acyclic_by_nodes; [apply ex_closed|unfold ex_size; lia|vm_compute; reflexivity]. Qed.

(** The step 8 is in a branch that is not used; old results are not shown. *)
Example ex_report :
  closed ex_heap ex_size /\ ex_root < ex_size /\ acyclic ex_heap ex_root /\ trace ex_stale = [] /\ tree exg_home /\
  match exg_full ex_heap ex_size ex_root "fit_transform" ex_env true None false ex_stale exg_home with
  | (s, d, r) =>
      r = Ok (mk_reported (Some (TheValue 1035)) None ["home"; "new"]) /\
      exg_pages d ["home"; "new"] 10 =
        [Some ("1", Output "3", [1; 2; 5], []); Some ("2", Output "6", [3], [0]); Some ("3", Output "5", [3], [0]);
         Some ("6", Output "517", [4], [1; 2]); Some ("7", Output "1034", [6], [3]); Some ("8", DidNotRun, [6], [0]);
         Some ("9", Output "1034", [8], [4; 5]); Some ("10", Output "1", [8], []); Some ("11", Output "1035", [], [6; 7]); None] /\
      d ["home"; "old"; "notes"] = Some (File (Text "mine"))
  end.
Proof.
  split; [apply ex_closed|]. split; [apply ex_root_lt|]. split; [apply ex_acyclic|]. split; [reflexivity|]. split; [apply exg_tree|].
  vm_compute. repeat split.
Qed.
(** A step fails; the report replaces a directory, and refuses to without being asked. *)
Example ex_failing :
  8 < ex_size /\ acyclic ex_heap 8 /\
  (match exg_full ex_heap ex_size 8 "fit_transform" ex_env true (Some ["home"; "old"]) true ex_stale exg_home with
   | (s, d, r) =>
       r = Ok (mk_reported None (Some (shown_error ex_ext "fit_transform" ZeroDivisionError)) ["home"; "old"]) /\
       exg_pages d ["home"; "old"] 3 =
         [Some ("1", Output "3", [1], []); Some ("8", Failed ZeroDivisionError, [], [0]); None] /\
       d ["home"; "old"; "index.html"] = Some (File (Index [(0, Success); (1, Error)])) /\
       d ["home"; "old"; "notes"] = None
   end) /\
  (match exg_full ex_heap ex_size 8 "fit_transform" ex_env true (Some ["home"; "old"]) false ex_stale exg_home with
   | (s, d, r) => r = Err FileExistsError /\ d ["home"; "old"; "notes"] = Some (File (Text "mine"))
   end).
Proof. split; [apply exg_8_ok|]. split; [apply exg_8_ok|]. vm_compute. repeat split. Qed.

(** ** What the full properties miss *)

(** The query of [match] cannot be hashed: the report fails for that, and no page says so. *)
Theorem C143_hidden_failure_refuted :
  closed exg_match 4 /\ 0 < 4 /\ acyclic exg_match 0 /\
  match exg_full exg_match 4 0 "fit_transform" [("d", 99)] true None false ex_st exg_home with
  | (s', d', r) =>
      r = Ok (mk_reported None (Some TypeError) ["home"; "new"]) /\
      d' ["home"; "new"; index_name] = Some (File (Index [(0, Success); (1, NoStatus)])) /\
      exg_pages d' ["home"; "new"] 2 = [Some ("1", Output "99", [1], []); Some ("0", DidNotRun, [], [0])]
  end.
Proof.
  split; [apply exg_match_ok|]. split; [apply exg_match_ok|]. split; [apply exg_match_ok|]. vm_compute. repeat split.
Qed.
Print Assumptions C143_hidden_failure_refuted.

(** With the mode fit, every step that ran is said not to have run. *)
Theorem C143_fit_shows_nothing_refuted :
  match exg_full ex_heap ex_size ex_root "fit" ex_env true None false ex_st exg_home with
  | (s', d', r) =>
      r = Ok (mk_reported (Some TheExpr) None ["home"; "new"]) /\
      trace s' = [10; 3; 1; 2; 6; 7; 9; 11] /\
      map (option_map (fun p => snd (fst (fst p)))) (exg_pages d' ["home"; "new"] 9) = repeat (Some DidNotRun) 9
  end.
Proof. vm_compute. repeat split. Qed.
Print Assumptions C143_fit_shows_nothing_refuted.

(** The page of the variable 1 says that it used the step 8, and that nothing used it. *)
Theorem C144_used_and_used_by_refuted :
  (match exg_full ex_heap ex_size 8 "fit_transform" ex_env true None false ex_st exg_home with
   | (s', d', r) =>
       r = Ok (mk_reported None (Some (shown_error ex_ext "fit_transform" ZeroDivisionError)) ["home"; "new"]) /\
       exg_pages d' ["home"; "new"] 2 =
         [Some ("1", Output "3", [1], []); Some ("8", Failed ZeroDivisionError, [], [0])]
   end) /\
  uses ex_heap 8 1 /\ ~ uses ex_heap 1 8.
Proof.
  split; [vm_compute; repeat split|].
  split; [apply uses_direct; [cbn; auto|reflexivity]|].
  intros Hu. inversion Hu as [o c Hc Hi|o x c Hc Hi Hu']; subst; unfold child in *; cbn in *.
  - destruct Hc as [E|[]]; discriminate.
  - destruct Hc as [<-|[]]. inversion Hu' as [o2 c2 Hc2 _|o2 x2 c2 Hc2 _ _]; subst; unfold child in *; cbn in *; contradiction.
Qed.
Print Assumptions C144_used_and_used_by_refuted.

(** The old report is deleted first: it is lost when a value cannot be shown. *)
Theorem C145_old_report_lost_refuted :
  match exg_full ex_heap ex_size 1 "fit_transform" [("d", 77)] true (Some ["home"; "old"]) true ex_st exg_home with
  | (s', d', r) =>
      r = Err RuntimeError /\
      exg_home ["home"; "old"; "notes"] = Some (File (Text "mine")) /\ d' ["home"; "old"; "notes"] = None
  end.
Proof. vm_compute. repeat split. Qed.
Print Assumptions C145_old_report_lost_refuted.

(** A report that failed leaves its directory, and trying again with other data is refused. *)
Theorem C145_failed_report_in_the_way_refuted :
  match exg_full ex_heap ex_size 1 "fit_transform" [("d", 77)] true (Some ["home"; "r"]) false ex_st exg_home with
  | (s1, d1, r1) =>
      r1 = Err RuntimeError /\ exg_home ["home"; "r"] = None /\ d1 ["home"; "r"] = Some Dir /\
      snd (exg_full ex_heap ex_size 1 "fit_transform" [("d", 3)] true (Some ["home"; "r"]) false s1 d1) = Err FileExistsError
  end /\
  snd (exg_full ex_heap ex_size 1 "fit_transform" [("d", 3)] true (Some ["home"; "r"]) false ex_st exg_home)
    = Ok (mk_reported (Some (TheValue 3)) None ["home"; "r"]).
Proof. vm_compute. repeat split. Qed.
Print Assumptions C145_failed_report_in_the_way_refuted.
