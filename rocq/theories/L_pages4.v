(** Whole reports. *)
From Coq Require Import Relations Lia.
From Verif Require Import Base L_dict L_str M_str M_traverse L_traverse M_expr L_expr1 L_expr2 L_expr3 L_expr4 L_expr5
  M_choicegraph M_graph L_graph L_graph2 M_pages L_pages L_pages2 L_pages3.
Open Scope string_scope.
Open Scope list_scope.
Open Scope nat_scope.
Set Default Proof Using "Type".

Lemma path_inj (p : path) a b : p ++ [a] = p ++ [b] -> a = b.
Proof. intros E. apply app_inv_head in E. congruence. Qed.

Section Report.
  Context {V K F : Type} `{EqD K}.
  Notation st := (st V F).
  Variable ext : externals V K F.
  Variable h : heap V K.
  Variable size : nat.
  Variable graphviz : bool.
  Variable render : V -> res string.
  Variable simple_repr : oid -> res string.
  Variable drawing : res unit.
  Variable extras : oid -> option F -> res string.
  Variable encodable : content -> bool.
  Notation pages := (pages ext h size render simple_repr extras encodable).
  Notation do_full_report := (do_full_report ext h size graphviz render simple_repr drawing extras encodable).
  Notation full_report := (full_report ext h size graphviz render simple_repr drawing extras encodable).
  Notation step_of root x := (part_of h root x /\ is_expr_at h x).

  (** ** Specification *)

  (** The directory asked for, or a new one. *)
  Definition wanted (new_dir : path) (od : option path) : path := match od with Some p => p | None => new_dir end.

  (** What the page of a step should show when the expression has the value or the error [r]; [blamed] is the step
      whose error is shown. *)
  Definition tells (e : env V) (mode : string) (f0 : oid -> option (fit_attr V F)) (root : oid) (r : res V)
    (blamed : option (oid * exn)) (x : oid) (out : outcome_shown) : Prop :=
    match out with
    | Output t => needed ext h e mode f0 root x /\ to_compute h e x /\
        exists v, DenV ext h e mode f0 x (Ok v) /\ render v = Ok t
    | Failed ex => blamed = Some (x, ex)
    | DidNotRun => (forall ex, blamed <> Some (x, ex)) /\
        ((exists v, r = Ok v) -> ~ (needed ext h e mode f0 root x /\ to_compute h e x))
    end.
  Definition status_for (out : outcome_shown) : status :=
    match out with Output _ => Success | Failed _ => Error | DidNotRun => NoStatus end.

  (** ** Files *)
  Lemma pages_files g st0 dir mode e : forall todo s d s' d' r, pages g st0 dir mode e todo s d = (s', d', r) ->
    (forall q, ~ (exists i, In i (map fst todo) /\ q = dir ++ [node_name i]) -> d' q = d q) /\
    (r = Ok tt -> forall i, In i (map fst todo) -> exists p, d' (dir ++ [node_name i]) = Some (File (NodePage p))).
  Proof.
    induction todo as [|[i o] todo IH]; intros s d s' d' r E.
    - cbn [M_pages.pages] in E. injection E as <- <- <-. split; [reflexivity|]. intros _ i [].
    - cbn [M_pages.pages] in E. destruct (one_page ext h size render simple_repr extras g st0 i o mode e s) as [s1 r1] eqn:E1.
      destruct r1 as [p|ex].
      + destruct (write encodable (dir ++ [node_name i]) (NodePage p) d) as [d1 r2] eqn:Ew.
        destruct (write_spec _ _ _ _ _ _ Ew) as (Hw1 & Hw2 & _). destruct r2 as [[]|ex].
        * destruct (IH _ _ _ _ _ E) as (H1 & H2). split.
          -- intros q Hq. rewrite H1, Hw1; [reflexivity| |].
             ++ intros ->. apply Hq. exists i. simpl. auto.
             ++ intros (j & Hj & ->). apply Hq. exists j. simpl. auto.
          -- intros Er j Hj. destruct (in_dec Nat.eq_dec j (map fst todo)) as [Hin|Hnin]; [apply (H2 Er j Hin)|].
             cbn [map fst] in Hj. destruct Hj as [<-|Hj]; [|contradiction]. exists p. rewrite H1; [apply Hw2; reflexivity|].
             intros (k & Hk & Ek). assert (En : node_name i = node_name k) by (eapply path_inj; eassumption). apply node_name_inj in En. subst k. contradiction.
        * injection E as <- <- <-. split; [|discriminate]. intros q Hq. apply Hw1. intros ->. apply Hq. exists i. simpl. auto.
      + injection E as <- <- <-. split; [reflexivity|discriminate].
  Qed.

  Lemma do_files root mode e new_dir od ow s d s' d' r :
    do_full_report root mode e new_dir od ow s d = (s', d', r) ->
    let p := wanted new_dir od in
    (forall q, ~ under p q -> d' q = d q \/ (d q = None /\ d' q = Some Dir /\ under q p)) /\
    (tree d -> od = None \/ ow = false -> forall q, d q <> None -> d' q = d q) /\
    (forall rp, r = Ok rp -> rp_dir rp = p /\ exists g, graph h size root = Ok g /\
       d' p = Some Dir /\
       (exists l, d' (p ++ [index_name]) = Some (File (Index l))) /\
       (forall i, In i (map fst (sg_nodes g)) -> exists pg, d' (p ++ [node_name i]) = Some (File (NodePage pg))) /\
       (tree d -> forall q, under p q -> d' q <> None ->
          q = p \/ q = p ++ [index_name] \/ exists i, In i (map fst (sg_nodes g)) /\ q = p ++ [node_name i])).
  Proof.
    intros E p. unfold M_pages.do_full_report in E.
    destruct (negb graphviz). { injection E as <- <- <-. split; [auto|]. split; [auto|discriminate]. }
    destruct (get_output_dir new_dir od ow d) as [d1 r1] eqn:Eg.
    pose proof (output_dir_spec _ _ _ _ _ _ Eg) as HO. change (match od with Some p0 => p0 | None => new_dir end) with p in HO. clearbody p.
    destruct HO as (O1 & O2 & O3 & O4 & O5 & O6 & O7).
    assert (Hkeep1 : tree d -> od = None \/ ow = false -> forall q, d q <> None -> d1 q = d q).
    { intros _ Hno q Hq. destruct (O5 Hno q) as [E1|(E1 & _ & _)]; [exact E1|contradiction]. }
    destruct r1 as [dir|ex]; [|injection E as <- <- <-; split; [exact O1|]; split; [exact Hkeep1|discriminate]].
    assert (dir = p) by (destruct O2 as [O2|[ex O2]]; congruence). subst dir.
    destruct (evaluate ext h size root mode e false s) as [s1 rv].
    assert (Hd1 : forall s0 ex, (s0, d1, Err ex) = (s', d', r) ->
       (forall q, ~ under p q -> d' q = d q \/ (d q = None /\ d' q = Some Dir /\ under q p)) /\
       (tree d -> od = None \/ ow = false -> forall q, d q <> None -> d' q = d q) /\ (forall rp, r <> Ok rp)).
    { intros s0 ex E0. injection E0 as <- <- <-. split; [exact O1|]. split; [exact Hkeep1|discriminate]. }
    destruct (graph h size root) as [g|ex]; [|apply Hd1 in E; destruct E as (E1 & E2 & E3); split; [exact E1|]; split; [exact E2|]; intros rp Erp; destruct (E3 rp Erp)].
    destruct drawing as [[]|ex]; [|apply Hd1 in E; destruct E as (E1 & E2 & E3); split; [exact E1|]; split; [exact E2|]; intros rp Erp; destruct (E3 rp Erp)].
    clear Hd1.
    destruct (write encodable (p ++ [index_name]) (Index (node_status mode s1 (sg_nodes g))) d1) as [d2 r2] eqn:Ew.
    destruct (write_spec _ _ _ _ _ _ Ew) as (W1 & W2 & _).
    assert (Hin : forall name, under p (p ++ [name])) by (intros name; exists [name]; reflexivity).
    assert (Hfresh : forall d3, (forall q, ~ (q = p ++ [index_name] \/ exists i, q = p ++ [node_name i]) -> d3 q = d1 q) ->
       (forall q, ~ under p q -> d3 q = d q \/ (d q = None /\ d3 q = Some Dir /\ under q p)) /\
       (tree d -> od = None \/ ow = false -> forall q, d q <> None -> d3 q = d q)).
    { intros d3 H3. split.
      - intros q Hq. rewrite H3; [auto|]. intros [->|[i ->]]; apply Hq; apply Hin.
      - intros Ht Hno q Hq. rewrite H3; [apply Hkeep1; auto|]. intros [->|[i ->]]; apply Hq; apply (O6 Hno eq_refl Ht); apply Hin. }
    destruct r2 as [[]|ex].
    - destruct (pages g (node_status mode s1 (sg_nodes g)) p mode e (sg_nodes g) s1 d2) as [[s2 d3] r3] eqn:Ep.
      destruct (pages_files _ _ _ _ _ _ _ _ _ _ _ Ep) as (P1 & P2).
      assert (H3 : forall q, ~ (q = p ++ [index_name] \/ exists i, In i (map fst (sg_nodes g)) /\ q = p ++ [node_name i]) -> d3 q = d1 q).
      { intros q Hq. rewrite P1, W1; [reflexivity| |]; [intros ->; apply Hq; auto|]. intros (i & Hi & ->). apply Hq. right. eauto. }
      assert (H3' : forall q, ~ (q = p ++ [index_name] \/ exists i, q = p ++ [node_name i]) -> d3 q = d1 q).
      { intros q Hq. apply H3. intros [->|(i & _ & ->)]; apply Hq; eauto. }
      destruct r3 as [[]|ex]; injection E as <- <- <-; destruct (Hfresh d3 H3') as [F1 F2]; (split; [exact F1|]); (split; [exact F2|]); [|discriminate].
      intros rp Erp. injection Erp as <-. split; [destruct rv; reflexivity|]. exists g. split; [reflexivity|]. 
      split.
      { rewrite H3'; [apply O3; reflexivity|]. intros [Ea|[i Ea]]; apply (f_equal (@length string)) in Ea; rewrite app_length in Ea; simpl in Ea; lia. }
      split.
      { eexists. rewrite P1; [apply W2; reflexivity|]. intros (i & _ & Ei). assert (En : node_name i = index_name) by (eapply path_inj; symmetry; eassumption). apply node_not_index in En. exact En. }
      split; [apply P2; reflexivity|].
      intros Ht q Hq Hex. destruct (eqd q p) as [->|Hqp]; [auto|]. destruct (eqd q (p ++ [index_name])) as [->|Hqi]; [auto|].
      destruct (existsb (fun i => eqb_of q (p ++ [node_name i])) (map fst (sg_nodes g))) eqn:Ex.
      + apply existsb_exists in Ex. destruct Ex as (i & Hi & Ei). apply (proj1 (eqb_of_true _ _)) in Ei. right. right. eauto.
      + exfalso. apply Hex. rewrite H3; [apply (O4 eq_refl Ht q Hq Hqp)|]. intros [->|(i & Hi & ->)]; [congruence|].
        rewrite (proj2 (existsb_exists _ _)) in Ex; [discriminate|]. exists i. split; [exact Hi|]. apply eqb_of_refl.
    - injection E as <- <- <-. destruct (Hfresh d2) as [F1 F2].
      { intros q Hq. apply W1. intros ->. apply Hq. auto. }
      split; [exact F1|]. split; [exact F2|discriminate].
  Qed.

  Lemma full_do root mode e clear new_dir od ow s d s' d' r :
    full_report root mode e clear new_dir od ow s d = (s', d', r) ->
    (d' = d /\ (forall rp, r <> Ok rp)) \/
    exists s1 s2, do_full_report root mode e new_dir od ow s1 d = (s2, d', r).
  Proof.
    unfold M_pages.full_report. destruct clear; [|eauto]. destruct (nodes h size root) as [ns|ex].
    - destruct (do_full_report root mode e new_dir od ow (clear_nodes ns mode s) d) as [[s2 d2] r2] eqn:Ed. intros E. injection E as <- <- <-. eauto.
    - intros E. injection E as <- <- <-. left. split; [reflexivity|discriminate].
  Qed.

  Theorem report_files root mode e clear new_dir od ow s d s' d' r :
    full_report root mode e clear new_dir od ow s d = (s', d', r) ->
    let p := wanted new_dir od in
    (forall q, ~ under p q -> d' q = d q \/ (d q = None /\ d' q = Some Dir /\ under q p)) /\
    (tree d -> od = None \/ ow = false -> forall q, d q <> None -> d' q = d q).
  Proof.
    intros E p. destruct (full_do _ _ _ _ _ _ _ _ _ _ _ _ E) as [[-> _]|(s1 & s2 & Ed)]; [auto|].
    destruct (do_files _ _ _ _ _ _ _ _ _ _ _ Ed) as (D1 & D2 & _). auto.
  Qed.

  Theorem report_holds root mode e clear new_dir od ow s d s' d' rp :
    closed h size -> root < size -> acyclic h root -> tree d ->
    full_report root mode e clear new_dir od ow s d = (s', d', Ok rp) ->
    let p := wanted new_dir od in
    rp_dir rp = p /\
    exists ns, NoDup ns /\ (forall x, In x ns <-> step_of root x) /\
      forall q, under p q ->
        match d' q with
        | None => True
        | Some Dir => q = p
        | Some (File (Index _)) => q = p ++ [index_name]
        | Some (File (NodePage _)) => exists i, i < length ns /\ q = p ++ [node_name i]
        | Some (File (Text _)) => False
        end /\
        (q = p \/ q = p ++ [index_name] \/ (exists i, i < length ns /\ q = p ++ [node_name i]) -> d' q <> None).
  Proof.
    intros Hc Hr Ha Ht E p. destruct (full_do _ _ _ _ _ _ _ _ _ _ _ _ E) as [[_ En]|(s1 & s2 & Ed)]; [destruct (En rp eq_refl)|].
    destruct (do_files _ _ _ _ _ _ _ _ _ _ _ Ed) as (_ & _ & D3). fold p in D3. destruct (D3 rp eq_refl) as (-> & g & Eg & Dp & [l Di] & Dn & Dall).
    split; [reflexivity|]. destruct (graph_exact h size root Hc Hr Ha) as (g' & ns & Eg' & Hnd & Hin & Hnodes & _).
    assert (g' = g) by congruence. subst g'. exists ns. split; [exact Hnd|]. split; [exact Hin|].
    assert (Hfst : forall i, In i (map fst (sg_nodes g)) <-> i < length ns).
    { intros i. rewrite Hnodes. assert (Em : map fst (combine (seq 0 (length ns)) ns) = seq 0 (length ns)).
      { clear. generalize 0. induction ns as [|x ns IH]; intros k; simpl; [reflexivity|]. rewrite IH. reflexivity. }
      rewrite Em, in_seq. lia. }
    intros q Hq. split.
    - destruct (d' q) as [x|] eqn:Ex; [|exact I]. assert (Hne : d' q <> None) by congruence.
      destruct (Dall Ht q Hq Hne) as [->|[->|(i & Hi & ->)]].
      + rewrite Dp in Ex. injection Ex as <-. reflexivity.
      + rewrite Di in Ex. injection Ex as <-. reflexivity.
      + destruct (Dn i Hi) as [pg Epg]. rewrite Epg in Ex. injection Ex as <-. exists i. split; [apply Hfst; exact Hi|reflexivity].
    - intros [->|[->|(i & Hi & ->)]]; [congruence|congruence|]. destruct (Dn i (proj2 (Hfst i) Hi)) as [pg Epg]. congruence.
  Qed.

  Theorem report_refuses root mode e clear new_dir p s d s' d' r :
    closed h size -> root < size -> acyclic h root -> graphviz = true -> d p <> None ->
    full_report root mode e clear new_dir (Some p) false s d = (s', d', r) ->
    d' = d /\ r = Err FileExistsError /\ trace s' = trace s /\ fitted s' = fitted s.
  Proof.
    intros Hc Hr Ha Hg Hp E.
    assert (Edo : forall s0, do_full_report root mode e new_dir (Some p) false s0 d = (s0, d, Err FileExistsError)).
    { intros s0. unfold M_pages.do_full_report. rewrite Hg. cbn [negb]. unfold get_output_dir, exists_. destruct (d p); [reflexivity|congruence]. }
    unfold M_pages.full_report in E. destruct clear.
    - destruct (acyclic_nodes h size root Hc Hr Ha) as (ns & En & _). rewrite En, Edo in E. injection E as <- <- <-.
      destruct (clear_spec (V := V) (F := F) mode ns (clear_nodes ns mode s)) as (A1 & A2 & _).
      destruct (clear_spec (V := V) (F := F) mode ns s) as (B1 & B2 & _). rewrite A1, A2. auto.
    - rewrite Edo in E. injection E as <- <- <-. auto.
  Qed.

  (** ** Pages *)
  Theorem report_pages root mode e new_dir od ow s d s' d' rp :
    closed h size -> root < size -> acyclic h root -> trace s = [] -> mode <> "fit" ->
    full_report root mode e true new_dir od ow s d = (s', d', Ok rp) ->
    exists ns r blamed, NoDup ns /\ (forall x, In x ns <-> step_of root x) /\
      DenV ext h e mode (fitted s) root r /\
      rp_result rp = match r with Ok v => Some (TheValue v) | Err _ => None end /\
      rp_error rp = match r with Ok _ => None | Err ex => Some ex end /\
      match r with
      | Ok _ => blamed = None
      | Err ex => exists y, needed ext h e mode (fitted s) root y /\ culprit ext h e mode (fitted s) y ex /\
          match blamed with
          | Some (y', ex') => y' = y /\ computing h y /\ ex = shown_error ext mode ex'
          | None => ~ computing h y
          end
      end /\
      exists outs, length outs = length ns /\
        d' (rp_dir rp ++ [index_name]) = Some (File (Index (combine (seq 0 (length ns)) (map status_for outs)))) /\
        forall i x, nth_error ns i = Some x -> exists p out,
          d' (rp_dir rp ++ [node_name i]) = Some (File (NodePage p)) /\
          nth_error outs i = Some out /\ pg_outcome p = out /\ tells e mode (fitted s) root r blamed x out /\
          simple_repr x = Ok (pg_title p) /\ pg_status p = combine (seq 0 (length ns)) (map status_for outs) /\
          pg_previous p = (if i =? 0 then None else Some (i - 1)) /\
          pg_next p = (if i + 1 <? length ns then Some (i + 1) else None) /\
          NoDup (map fst (pg_used p)) /\ NoDup (map fst (pg_used_by p)) /\
          (forall j, In j (map fst (pg_used p)) <-> exists y, nth_error ns j = Some y /\ uses h y x) /\
          (forall j, In j (map fst (pg_used_by p)) <-> exists y, nth_error ns j = Some y /\ uses h x y) /\
          (forall j t, In (j, t) (pg_used p) \/ In (j, t) (pg_used_by p) ->
             exists y, nth_error ns j = Some y /\ simple_repr y = Ok t).
  Proof.
    intros Hc Hr Ha Htr Hm E. unfold M_pages.full_report in E.
    destruct (acyclic_nodes h size root Hc Hr Ha) as (cs & En & _ & Hcs). rewrite En in E.
    destruct (clear_spec (V := V) (F := F) mode cs s) as (C1 & C2 & C3 & C4). set (s1 := clear_nodes cs mode s) in *.
    destruct (do_full_report root mode e new_dir od ow s1 d) as [[s2 d2] r2] eqn:Ed. injection E as <- <- ->.
    unfold M_pages.do_full_report in Ed. destruct (negb graphviz); [discriminate|].
    destruct (get_output_dir new_dir od ow d) as [d1 rd]. destruct rd as [dir|]; [|discriminate].
    destruct (evaluate ext h size root mode e false s1) as [s3 rv] eqn:Ev.
    destruct (graph_exact h size root Hc Hr Ha) as (g & ns & Eg & Hnd & Hin & Hnodes & Hkc & Hkp & Hl & Hlink). rewrite Eg in Ed.
    destruct drawing as [[]|]; [|discriminate].
    set (st0 := node_status mode s3 (sg_nodes g)) in *.
    destruct (write encodable (dir ++ [index_name]) (Index st0) d1) as [d3 rw] eqn:Ew. destruct rw as [[]|]; [|discriminate].
    destruct (pages g st0 dir mode e (sg_nodes g) s3 d3) as [[s4 d4] rp'] eqn:Ep. destruct rp' as [[]|]; [|discriminate].
    injection Ed as -> -> <-.
    (* the evaluation *)
    assert (Em : eqb_of mode "fit" = false).
    { destruct (eqb_of mode "fit") eqn:Em; [|reflexivity]. apply (proj1 (eqb_of_true _ _)) in Em. contradiction. }
    unfold evaluate in Ev. rewrite Em in Ev.
    destruct (visit (eval_handler ext h e mode (fun s => (s, TOk tt))) size [] root s1) as [s3' r0] eqn:Evv. injection Ev as -> <-.
    assert (Hclean : forall x, step_of root x -> results s1 x mode = None /\ errors s1 x mode = None).
    { intros x Hx. apply Hcs in Hx. apply mem_true in Hx. rewrite C3, C4, Hx, eqb_of_refl. auto. }
    pose proof (eval_left ext h size root e mode (fitted s) Hc Hr Ha s1 s3 r0 (eq_trans C2 Htr) C1 Hclean Evv) as (L1 & L2 & L3 & L4).
    (* the pages *)
    assert (Hnth : forall i x, In (i, x) (sg_nodes g) <-> nth_error ns i = Some x).
    { intros i x. rewrite Hnodes, combine_seq_in. split; [intros (j & -> & Ej); exact Ej|intros Ei; exists i; auto]. }
    assert (Hfst : map fst (sg_nodes g) = seq 0 (length ns)).
    { rewrite Hnodes. clear. generalize 0. induction ns as [|x ns IH]; intros k; simpl; [reflexivity|]. rewrite IH. reflexivity. }
    assert (Hsn : forall i x, In (i, x) (sg_nodes g) -> step_of root x).
    { intros i x Hx. apply Hin. apply Hnth in Hx. eapply nth_error_In; eauto. }
    destruct (pages_spec ext h size render simple_repr extras encodable g st0 dir mode e (sg_nodes g) s3 d3 s2 d2 (Ok tt)) as (P1 & P2 & P3).
    { lia. }
    { intros i x Hx Hres. split; [|exact Hm]. apply (L2 x (Hsn i x Hx) Hres). }
    { exact Ep. }
    subst s2. specialize (P3 eq_refl). rewrite Hfst in P3. specialize (P3 (seq_NoDup _ _)).
    assert (Hgetn : forall i, dget i (sg_nodes g) = nth_error ns i).
    { intros i. destruct (nth_error ns i) as [x|] eqn:Ei.
      - apply Hnth in Ei. apply dget_In_iff; [unfold dkeys; rewrite Hfst; apply seq_NoDup|exact Ei].
      - destruct (dget i (sg_nodes g)) as [x|] eqn:Eg'; [|reflexivity]. apply dget_In_weak in Eg'. apply Hnth in Eg'. congruence. }
    assert (Hnum : forall i (dd : dict nat (list nat)), (dd = sg_children g \/ dd = sg_parents g) ->
       NoDup (numbers i dd) /\ forall j, In j (numbers i dd) -> j < length ns).
    { intros i dd Hdd. unfold numbers. destruct (dget i dd) as [l|] eqn:Edd; [|split; [constructor|intros j []]].
      apply dget_In_weak in Edd. destruct (Hl i l) as (_ & _ & H1 & H2); [destruct Hdd; subst dd; auto|]. auto. }
    set (rr := to_res r0) in *.
    exists ns, rr.
    (* who is blamed *)
    assert (Hbl : exists blamed,
       match rr with
       | Ok _ => blamed = None
       | Err ex => exists y, needed ext h e mode (fitted s) root y /\ culprit ext h e mode (fitted s) y ex /\
           match blamed with
           | Some (y', ex') => y' = y /\ computing h y /\ ex = shown_error ext mode ex'
           | None => ~ computing h y
           end
       end /\
       (forall x ex, step_of root x -> errors s3 x mode = Some ex -> blamed = Some (x, ex)) /\
       (forall x ex, step_of root x -> blamed = Some (x, ex) -> errors s3 x mode = Some ex /\ results s3 x mode = None)).
    { destruct rr as [v|ex].
      - exists None. split; [reflexivity|]. destruct L4 as [_ L4]. split; [|discriminate]. intros x ex Hx Hex. rewrite (L4 x Hx) in Hex. discriminate.
      - destruct L4 as (y & Hy & Hcul & [(Hcomp & Htc & Hnr & ex' & Esh & Eer & Hoth)|(Hnc & Hoth)]).
        + exists (Some (y, ex')). split; [exists y; auto|]. split.
          * intros x ex2 Hx Hex. destruct (eqd x y) as [->|Hxy]; [congruence|]. rewrite (Hoth x Hx Hxy) in Hex. discriminate.
          * intros x ex2 Hx Hex. injection Hex as <- <-. auto.
        + exists None. split; [exists y; auto|]. split; [|discriminate]. intros x ex2 Hx Hex. rewrite (Hoth x Hx) in Hex. discriminate. }
    destruct Hbl as (blamed & B1 & B2 & B3). exists blamed.
    split; [exact Hnd|]. split; [exact Hin|]. split; [exact L1|]. split; [destruct rr; reflexivity|]. split; [destruct rr; reflexivity|].
    split; [exact B1|].
    assert (Hdir : forall A B, rp_dir (match match rr with Ok v => Ok (if false then TheExpr else TheValue v) | Err ex => Err ex end with
        | Ok v => mk_reported (V := V) (A v) (B v) dir | Err ex => mk_reported None (Some ex) dir end) = dir) by (intros; destruct rr; reflexivity).
    rewrite Hdir. clear Hdir.
    (* outcomes *)
    assert (Houts : exists outs, length outs = length ns /\ st0 = combine (seq 0 (length ns)) (map status_for outs) /\
       forall i x, nth_error ns i = Some x -> exists p, d2 (dir ++ [node_name i]) = Some (File (NodePage p)) /\
         page_ok render simple_repr g st0 mode s3 i x p /\ nth_error outs i = Some (pg_outcome p)).
    { assert (Hex : forall l k, (forall i x, nth_error l i = Some x -> nth_error ns (k + i) = Some x) ->
        exists outs, length outs = length l /\ node_status mode s3 (combine (seq k (length l)) l) = combine (seq k (length l)) (map status_for outs) /\
         forall i x, nth_error l i = Some x -> exists p, d2 (dir ++ [node_name (k + i)]) = Some (File (NodePage p)) /\
         page_ok render simple_repr g st0 mode s3 (k + i) x p /\ nth_error outs i = Some (pg_outcome p)).
      { induction l as [|x l IH]; intros k Hk.
        - exists []. split; [reflexivity|]. split; [reflexivity|]. intros i x Ei. destruct i; discriminate.
        - destruct (IH (S k)) as (outs & O1 & O2 & O3).
          { intros i y Ei. replace (S k + i) with (k + S i) by lia. apply Hk. exact Ei. }
          pose proof (Hk 0 x eq_refl) as Hx. rewrite Nat.add_0_r in Hx. apply Hnth in Hx. destruct (P3 k x Hx) as (p & Pp & Pok).
          exists (pg_outcome p :: outs). split; [simpl; congruence|]. split.
          + cbn [length seq combine map node_status]. unfold node_status in *. cbn [map fst snd]. rewrite O2. f_equal. f_equal.
            destruct Pok as (Psh & _). unfold status_of, shown_as in *. destruct (pg_outcome p) as [t|ex|].
            * destruct Psh as (v & -> & _). reflexivity.
            * destruct Psh as (-> & ->). reflexivity.
            * destruct Psh as (-> & ->). reflexivity.
          + intros i y Ei. destruct i as [|i].
            * cbn in Ei. injection Ei as <-. rewrite Nat.add_0_r. exists p. auto.
            * cbn [nth_error] in *. replace (k + S i) with (S k + i) by lia. apply O3. exact Ei. }
      destruct (Hex ns 0 (fun i x Ei => Ei)) as (outs & O1 & O2 & O3). exists outs. split; [exact O1|]. split; [|exact O3].
      unfold st0. rewrite Hnodes. exact O2. }
    destruct Houts as (outs & O1 & O2 & O3). exists outs. split; [exact O1|]. rewrite <- O2. split.
    { rewrite P2; [apply (write_spec _ _ _ _ _ _ Ew); reflexivity|]. intros (i & _ & Ei).
      assert (Enn : node_name i = index_name) by (eapply path_inj; symmetry; eassumption). apply node_not_index in Enn. exact Enn. }
    intros i x Ei. destruct (O3 i x Ei) as (p & Pp & (Q1 & Q2 & Q3 & Q4 & Q5 & Q6 & Q7 & Q8 & Q9) & Po).
    assert (Hx : step_of root x) by (apply Hin; eapply nth_error_In; eauto).
    assert (Hi : i < length ns) by (apply nth_error_Some; congruence).
    exists p, (pg_outcome p). split; [exact Pp|]. split; [exact Po|]. split; [reflexivity|]. split; [|split; [exact Q2|split; [exact Q9|split; [exact Q3|split]]]].
    - unfold tells, shown_as in *. destruct (pg_outcome p) as [t|ex|].
      + destruct Q1 as (v & Ev & Et). destruct (L2 x Hx) as [N1 N2]; [congruence|]. split; [exact N1|]. split; [exact N2|]. exists v. split; [apply L3; auto|exact Et].
      + destruct Q1 as [_ Q1]. apply B2; auto.
      + destruct Q1 as [Qr Qe]. split; [intros ex Hex; destruct (B3 x ex Hx Hex) as [Hb _]; congruence|].
        intros [v Er] [N1 N2]. rewrite Er in L4. destruct L4 as [L4 _]. apply (L4 x N1 N2). exact Qr.
    - rewrite Q4, Hnodes, combine_length, seq_length, Nat.min_id. 
      destruct (i <? length ns - 1) eqn:E1, (i + 1 <? length ns) eqn:E2; try reflexivity; exfalso.
      + apply Nat.ltb_lt in E1. apply Nat.ltb_ge in E2. lia.
      + apply Nat.ltb_ge in E1. apply Nat.ltb_lt in E2. lia.
    - split; [rewrite Q5; apply Hnum; auto|]. split; [rewrite Q7; apply Hnum; auto|]. split; [|split].
      + intros j. rewrite Q5. split.
        * intros Hj. destruct (Hnum i (sg_parents g) (or_intror eq_refl)) as [_ Hlt]. specialize (Hlt j Hj). apply nth_error_Some in Hlt.
          destruct (nth_error ns j) as [y|] eqn:Ej; [|congruence]. exists y. split; [reflexivity|]. apply (proj2 (Hlink j i y x Ej Ei)). exact Hj.
        * intros (y & Ej & Hu). apply (proj2 (Hlink j i y x Ej Ei)). exact Hu.
      + intros j. rewrite Q7. split.
        * intros Hj. destruct (Hnum i (sg_children g) (or_introl eq_refl)) as [_ Hlt]. specialize (Hlt j Hj). apply nth_error_Some in Hlt.
          destruct (nth_error ns j) as [y|] eqn:Ej; [|congruence]. exists y. split; [reflexivity|]. apply (proj1 (Hlink i j x y Ei Ej)). exact Hj.
        * intros (y & Ej & Hu). apply (proj1 (Hlink i j x y Ei Ej)). exact Hu.
      + intros j t Hjt. assert (Hd : exists o, dget j (sg_nodes g) = Some o /\ simple_repr o = Ok t) by (destruct Hjt as [Hjt|Hjt]; [apply (Q6 _ _ Hjt)|apply (Q8 _ _ Hjt)]).
        destruct Hd as (o & Eo & Et). exists o. rewrite <- Hgetn. auto.
  Qed.
End Report.
