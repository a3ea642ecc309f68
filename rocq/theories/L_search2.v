(** C101, C102: what is computed when the data of an expression is split. *)
From Verif Require Import Base L_dict M_traverse L_traverse M_expr L_expr1 L_expr2 L_expr3 L_expr4 L_expr5 L_expr6 L_expr7.
From Verif Require Import M_clone L_clone L_clone2 M_grid M_choicegraph L_conflicts M_estimator L_search1 M_search.
Set Default Proof Using "Type".
Open Scope string_scope.
Open Scope list_scope.
Open Scope nat_scope.

(** ** What is stored by an evaluation that keeps its results *)
Section Stored.
  Context {V K F : Type} `{EqD K}.
  Notation heap := (heap V K).
  Notation st := (st V F).
  Variable ext : externals V K F.
  Variable h : heap.
  Variable size : nat.
  Variable root : oid.
  Hypothesis Hclosed : closed h size.
  Hypothesis Hroot : root < size.
  Hypothesis Hacyclic : acyclic h root.
  Variable e : env V.

  (** Whatever has been computed is stored, and nothing else is added to the store. *)
  Lemma evaluate_stores requested f0 (s : st) :
    trace s = [] -> let mode := real_mode requested in Inv ext h e mode f0 root s ->
    let out := evaluate ext h size root requested e false s in
    (exists r, snd out = Ok r) ->
    (forall x, In x (trace (fst out)) -> results (fst out) x mode <> None) /\
    (forall x, results (fst out) x mode <> None -> results s x mode <> None \/ In x (trace (fst out))).
  Proof using Hclosed Hroot Hacyclic.
    intros Ht mode Hi out. unfold out, evaluate. fold (real_mode requested). fold mode.
    pose proof (none_cb (F := F) h root mode) as Hcb. set (cb := fun s : st => (s, TOk tt)) in *.
    assert (Hold : Post
              (fun path s' => (forall x, In x (trace s') -> (In x path \/ results s' x mode <> None) /\ is_expr (h x) = true) /\
                          (forall x, results s' x mode <> None -> results s x mode <> None \/ In x (trace s')) /\
                          (forall x, In x path -> is_expr (h x) = true -> In x (trace s')))
              (fun s' => True)
              (fun o s' => True)
              (fun s1 s2 => True)
              [] root s (visit (eval_handler ext h e mode cb) size [] root s)).
    { apply (visit_hoare ext h e mode f0 root cb (Hcb_sim h root mode cb Hcb)); auto.
      - intros o path s1 _ _ Hx (H1 & H2 & H3). split; [|split; [exact H2|]].
        + intros x Ix. destruct (H1 x Ix) as [[C|C] Ex]; simpl; auto.
        + intros x [<-|Ix] Ex; [congruence|auto].
      - intros o path s1 _ _ Hx (H1 & H2 & H3) _. split; [|exact Logic.I]. split; [|split; [exact H2|]].
        + intros x Ix. destruct (H1 x Ix) as [[[<-|C]|C] Ex]; auto. congruence.
        + intros x Ix Ex. apply H3; simpl; auto.
      - intros o path s1 _ _ Htc Er (H1 & H2 & H3). split; [|auto]. apply to_compute_expr in Htc. unfold is_expr_at in Htc. split; [|split].
        + intros x [<-|Hx]; [split; [left; left; reflexivity|exact Htc]|]. destruct (H1 x Hx) as [[C|C] Ex]; simpl; auto.
        + intros x Hx. destruct (H2 x Hx); simpl; auto.
        + intros x [<-|Ix] Ex; simpl; auto.
      - intros o path s1 v s2 _ _ Htc (H1 & H2 & H3) _ Ec. unfold cb in Ec. injection Ec as <-. split; [|auto]. apply to_compute_expr in Htc.
        assert (Hup : forall x, results s1 x mode <> None \/ x = o -> results (set_result s1 o mode (Some v)) x mode <> None).
        { intros x Hx. simpl. unfold upd2. destruct (eqd x o); [|destruct Hx; [assumption|contradiction]].
          destruct (eqd mode mode); [discriminate|congruence]. }
        split; [|split].
        + intros x Hx. destruct (H1 x Hx) as [[[<-|C]|C] Ex]; auto.
        + intros x Hx. simpl in Hx. unfold upd2 in Hx. destruct (eqd x o) as [->|]; [|apply H2; exact Hx].
          right. apply H3; [left; reflexivity|exact Htc].
        + intros x Ix Ex. apply H3; simpl; auto.
      - reflexivity.
      - rewrite Ht. split; [|split; [auto|]]; intros x []. }
    destruct (visit (eval_handler ext h e mode cb) size [] root s) as [s2 r]. cbn [fst snd].
    intros [v E]. destruct r as [w|ex|t|]; cbn [to_res bind] in E; try discriminate.
    destruct Hold as ((H1 & H2 & _) & _). split; [|exact H2]. intros x Hx. destruct (H1 x Hx) as [[[]|C] _]. exact C.
  Qed.
End Stored.

Section Twice.
  Context {V K F : Type} `{EqD K}.
  Notation heap := (heap V K).
  Notation st := (st V F).
  Variable ext : externals V K F.
  Variable h : heap.
  Variable size : nat.
  Hypothesis Hclosed : closed h size.
  Variable e : env V.
  Notation none := (fun _ : oid => @None (fit_attr V F)).
  Notation Den := (Den ext h e "fit_transform" none).

  Definition val (r : res (V * option (fit_attr V F))) : res V := let! (v, _) := r in Ok v.

  Lemma empty_inv x : Inv ext h e "fit_transform" none x (empty_st (F := F)).
  Proof. split; [discriminate|]. intros o. left. reflexivity. Qed.

  Lemma first_value x : x < size -> acyclic h x ->
    let out := evaluate ext h size x "fit_transform" e false (empty_st (F := F)) in
    exists r, Den x r /\ value_of (snd out) = val r /\ NoDup (trace (fst out)) /\
      (forall o, In o (trace (fst out)) -> part_of h x o /\ is_expr (h o) = true) /\
      (forall v, val r = Ok v -> forall y, Inv ext h e "fit_transform" none y (reset (fst out)) /\
        forall o, In o (trace (fst out)) -> results (fst out) o "fit_transform" <> None).
  Proof using Hclosed.
    intros Hx Ha out.
    destruct (evaluate_keep ext h size x Hclosed Hx Ha e "fit_transform" none empty_st eq_refl (empty_inv x)) as (r & D & E & N & T & _ & G).
    pose proof (evaluate_stores ext h size x Hclosed Hx Ha e "fit_transform" none empty_st eq_refl (empty_inv x)) as S.
    change (real_mode "fit_transform") with "fit_transform" in *. fold out in E, N, T, G, S.
    assert (P : forall o, In o (trace (fst out)) -> part_of h x o /\ is_expr (h o) = true).
    { intros o Io. destruct (T o Io) as (No & Co & _). split; [eapply needed_part; exact No|eapply to_compute_expr; exact Co]. }
    exists r. split; [exact D|]. split; [rewrite E; destruct r as [[v f]|ex]; reflexivity|]. split; [exact N|]. split; [exact P|].
    intros v Ev y. destruct r as [[v' f]|ex]; [|discriminate]. destruct (G v' f eq_refl) as [[I1 I2] _].
    destruct S as [S1 S2]; [rewrite E; eexists; reflexivity|]. split; [|exact S1].
    split; [|exact I2]. intros o w Po Xo Oo R. apply I1; auto.
    change (results (fst out) o "fit_transform" = Some w) in R. assert (C : In o (trace (fst out))) by (destruct (S2 o) as [C|C]; [rewrite R; discriminate|exfalso; apply C; reflexivity|exact C]).
    apply P. exact C.
  Qed.

  Lemma second_value x y : x < size -> acyclic h x -> y < size -> acyclic h y ->
    let s1 := fst (evaluate ext h size x "fit_transform" e false (empty_st (F := F))) in
    let out := evaluate ext h size y "fit_transform" e false (reset s1) in
    (exists v, Den x (Ok v)) ->
    exists r, Den y r /\ value_of (snd out) = val r /\ NoDup (trace (fst out) ++ trace s1).
  Proof using Hclosed.
    intros Hx Hax Hy Hay s1 out [[v f] D].
    destruct (first_value x Hx Hax) as (r & D' & _ & N & _ & G). fold s1 in N, G.
    pose proof (Den_det _ _ _ _ _ _ _ _ D D') as <-. destruct (G v eq_refl y) as [I S].
    destruct (evaluate_keep ext h size y Hclosed Hy Hay e "fit_transform" none (reset s1) eq_refl I) as (r & Dy & E & Ny & T & _).
    fold out in E, Ny, T. exists r. split; [exact Dy|]. split; [rewrite E; destruct r as [[w g]|ex]; reflexivity|].
    apply NoDup_app_intro; auto. intros o Io Jo. apply (S o Jo). apply (T o Io).
  Qed.
End Twice.

(** ** [_compute_Xy] *)
Section ComputeXy.
  Context {V K F : Type} `{EqD K}.
  Notation heap := (heap V K).
  Variable ext : externals V K F.
  Variable copy : V -> res V.
  Variables new_seq new_map new_estimator : string -> res unit.
  Variable is_none : V -> bool.
  Variables (h : heap) (size : nat) (root : oid) (e : env V).
  Hypothesis Hcopy : forall v v', copy v = Ok v' -> v' = v.
  Hypothesis Hclosed : closed h size.
  Hypothesis Hroot : root < size.
  Hypothesis Hacyclic : acyclic h root.
  Hypothesis Hunused : values_unused true h root e "fit_transform".
  Notation none := (fun _ : oid => @None (fit_attr V F)).
  Notation Den := (Den ext h e "fit_transform" none).
  Notation compute_Xy := (compute_Xy (F := F) ext copy new_seq new_map new_estimator is_none).
  Notation clone := (clone copy new_seq new_map new_estimator).

  Lemma unused_plain : plain_values true h root.
  Proof using Hunused. clear - Hunused.
    intros _ o v name isX isY x P E Px. destruct Hunused as (_ & _ & Hp); [reflexivity|]. destruct (Hp o v name isX isY P E) as (w & Ew).
    inversion Px as [|? c ? Hs Hc Hr]; subst; [rewrite Ew; exact Logic.I|]. rewrite Ew in Hc. destruct Hc.
  Qed.

  Lemma acyclic_sub (g : heap) r x : acyclic g r -> part_of g r x -> acyclic g x.
  Proof. clear. intros A P o Po. apply A. eapply reach_trans; [exact P|exact Po]. Qed.

  (** the nodes found in the copy *)
  Lemma copy_find h1 size1 root1 f (pred : obj V K -> bool) : copy_of copy true h root h1 size1 root1 f ->
    (forall a b, obj_like copy true (fun n o => f n = o) a b -> pred a = pred b) ->
    find_node h pred size root = match find_node h1 pred size1 root1 with Ok o => Ok (option_map f o) | Err ex => Err ex end /\
    forall n, find_node h1 pred size1 root1 = Ok (Some n) -> part_of h1 root1 n.
  Proof using Hclosed Hroot Hacyclic Hunused.
    intros C Hp. eapply clone_find; try eassumption; [exact unused_plain|]. intros n P. apply Hp. apply (co_like _ _ _ _ _ _ _ _ C n P).
  Qed.
  Lemma marked_X_like f (a b : obj V K) : obj_like copy true (fun n o => f n = o) a b -> marked_X a = marked_X b.
  Proof. clear. intros L. destruct L; reflexivity. Qed.
  Lemma marked_y_like f (a b : obj V K) : obj_like copy true (fun n o => f n = o) a b -> marked_y a = marked_y b.
  Proof. clear. intros L. destruct L; reflexivity. Qed.
  Lemma marked_X_carries o : carries h o IsX <-> candidate h o /\ marked_X (h o) = true.
  Proof. clear. unfold carries, candidate, marked_X. destruct (h o); intuition congruence. Qed.
  Lemma marked_y_carries o : carries h o IsY <-> candidate h o /\ marked_y (h o) = true.
  Proof. clear. unfold carries, candidate, marked_y. destruct (h o); intuition congruence. Qed.

  Lemma find_marked pred o : part_of h root o -> candidate h o -> pred (h o) = true ->
    exists o', find_node h pred size root = Ok (Some o') /\ part_of h root o' /\ candidate h o' /\ pred (h o') = true.
  Proof using Hclosed Hroot Hacyclic. clear - Hclosed Hroot Hacyclic.
    intros P C E. pose proof (find_node_spec h pred size root Hclosed Hroot) as S. destruct (find_node h pred size root) as [[a|]|ex].
    - exists a. split; [reflexivity|exact S].
    - rewrite (S o P C) in E. discriminate.
    - destruct S as (_ & x & Px & Cx). exfalso. exact (Hacyclic x Px Cx).
  Qed.

  Lemma copy_value h1 size1 root1 f n r r1 : copy_of copy true h root h1 size1 root1 f -> part_of h1 root1 n ->
    Den (f n) r -> L_expr2.Den ext h1 e "fit_transform" none n r1 -> r1 = r.
  Proof using Hcopy Hunused.
    intros C P D D1. eapply Den_det; [exact D1|].
    eapply (clone_Den ext copy true h h1 root root1 f Hcopy (co_part _ _ _ _ _ _ _ _ C) (co_like _ _ _ _ _ _ _ _ C) e "fit_transform" Hunused none none); auto.
  Qed.
  Lemma Den_ex o : part_of h root o -> exists r, Den o r.
  Proof using Hclosed Hroot Hacyclic. clear - Hclosed Hroot Hacyclic.
    intros P. destruct (evaluate_value ext h size o e "fit_transform" (empty_st (F := F)) Hclosed) as (r & D & _); [eapply closed_part; eauto|eapply acyclic_sub; eauto|].
    exists r. exact D.
  Qed.

  (** X and y are the values of the nodes marked as X and y. *)
  Theorem compute_Xy_marked x y : no_conflict h root ->
    part_of h root x -> carries h x IsX -> part_of h root y -> carries h y IsY ->
    (exists c, clone h size root true = Ok c) ->
    exists rx ry, Den x rx /\ Den y ry /\
      snd (compute_Xy h size root e) = (let! vx := val rx in let! vy := val ry in Ok (vx, if is_none vy then None else Some vy)).
  Proof using Hcopy Hclosed Hroot Hacyclic Hunused.
    intros Hn Px Cx Py Cy [[[h1 size1] root1] Ec].
    destruct (Den_ex x Px) as (rx & Dx), (Den_ex y Py) as (ry & Dy). exists rx, ry. split; [exact Dx|]. split; [exact Dy|].
    destruct (clone_is_clone _ _ _ _ _ _ _ _ _ _ _ Hclosed Hroot Ec) as (f & Hcl). apply clone_copy in Hcl. rename Hcl into C.
    destruct (proj1 (marked_X_carries x) Cx) as [Kx Mx]. destruct (proj1 (marked_y_carries y) Cy) as [Ky My].
    destruct (find_marked marked_X x Px Kx Mx) as (x' & Fx & Px' & Kx' & Mx').
    assert (x' = x) by (eapply Hn; eauto; apply marked_X_carries; auto). subst x'.
    destruct (find_marked marked_y y Py Ky My) as (y' & Fy & Py' & Ky' & My').
    assert (y' = y) by (eapply Hn; eauto; apply marked_y_carries; auto). subst y'.
    destruct (copy_find h1 size1 root1 f marked_X C (marked_X_like f)) as [E1 Q1]. rewrite Fx in E1.
    destruct (find_node h1 marked_X size1 root1) as [[n|]|] eqn:En; try discriminate. injection E1 as E1.
    destruct (copy_find h1 size1 root1 f marked_y C (marked_y_like f)) as [E2 Q2]. rewrite Fy in E2.
    destruct (find_node h1 marked_y size1 root1) as [[m|]|] eqn:Em; try discriminate. injection E2 as E2.
    pose proof (Q1 n eq_refl) as Pn. pose proof (Q2 m eq_refl) as Pm.
    pose proof (co_closed _ _ _ _ _ _ _ _ C) as Hc1. pose proof (co_root_lt _ _ _ _ _ _ _ _ C) as Hr1. pose proof (co_acyclic _ _ _ _ _ _ _ _ C) as Ha1.
    pose proof (closed_part h1 size1 root1 n Hc1 Hr1 Pn) as Ln. pose proof (closed_part h1 size1 root1 m Hc1 Hr1 Pm) as Lm.
    pose proof (acyclic_sub _ _ _ Ha1 Pn) as An. pose proof (acyclic_sub _ _ _ Ha1 Pm) as Am.
    unfold M_search.compute_Xy. rewrite Ec. cbn [bind]. unfold find_Xy, find_X, find_y. rewrite En, Em. cbn [bind].
    destruct (first_value ext h1 size1 Hc1 e n Ln An) as (r1 & D1 & V1 & _). pose proof (second_value ext h1 size1 Hc1 e n m Ln An Lm Am) as SV.
    subst x y. assert (r1 = rx) by exact (copy_value h1 size1 root1 f n rx r1 C Pn Dx D1). subst r1.
    destruct (evaluate ext h1 size1 n "fit_transform" e false empty_st) as [s1 o1]. cbn [fst snd] in V1, SV. rewrite V1.
    destruct rx as [[vx fx]|ex]; [|reflexivity]. cbn [val bind]. destruct SV as (r2 & D2 & V2 & _); [eexists; exact D1|].
    assert (r2 = ry) by exact (copy_value h1 size1 root1 f m ry r2 C Pm Dy D2). subst r2.
    destruct (evaluate ext h1 size1 m "fit_transform" e false (reset s1)) as [s2 o2]. cbn [fst snd] in *. rewrite V2. reflexivity.
  Qed.

  (** Conversely. *)
  Theorem compute_Xy_sound vx vy : snd (compute_Xy h size root e) = Ok (vx, vy) ->
    exists x fx, part_of h root x /\ carries h x IsX /\ Den x (Ok (vx, fx)) /\
      ((exists y w fy, part_of h root y /\ carries h y IsY /\ Den y (Ok (w, fy)) /\ vy = if is_none w then None else Some w) \/
       (vy = None /\ forall y, part_of h root y -> ~ carries h y IsY)).
  Proof using Hcopy Hclosed Hroot Hacyclic Hunused.
    unfold M_search.compute_Xy. destruct (clone h size root true) as [[[h1 size1] root1]|] eqn:Ec; cbn [bind]; [|discriminate].
    destruct (clone_is_clone _ _ _ _ _ _ _ _ _ _ _ Hclosed Hroot Ec) as (f & Hcl). apply clone_copy in Hcl. rename Hcl into C.
    unfold find_Xy, find_X, find_y.
    destruct (copy_find h1 size1 root1 f marked_X C (marked_X_like f)) as [E1 Q1]. pose proof (find_node_spec h marked_X size root Hclosed Hroot) as S1. rewrite E1 in S1.
    destruct (find_node h1 marked_X size1 root1) as [[n|]|] eqn:En; cbn [bind option_map] in *; try discriminate.
    pose proof (Q1 n eq_refl) as Pn. destruct S1 as (P1 & K1 & M1).
    destruct (copy_find h1 size1 root1 f marked_y C (marked_y_like f)) as [E2 Q2]. pose proof (find_node_spec h marked_y size root Hclosed Hroot) as S2. rewrite E2 in S2.
    pose proof (co_closed _ _ _ _ _ _ _ _ C) as Hc1. pose proof (co_root_lt _ _ _ _ _ _ _ _ C) as Hr1. pose proof (co_acyclic _ _ _ _ _ _ _ _ C) as Ha1.
    pose proof (closed_part h1 size1 root1 n Hc1 Hr1 Pn) as Ln. pose proof (acyclic_sub _ _ _ Ha1 Pn) as An.
    destruct (first_value ext h1 size1 Hc1 e n Ln An) as (r1 & D1 & V1 & _).
    destruct (Den_ex (f n) P1) as (rx & Dx). assert (r1 = rx) by exact (copy_value h1 size1 root1 f n rx r1 C Pn Dx D1). subst r1.
    assert (X : carries h (f n) IsX) by (apply marked_X_carries; auto).
    destruct (find_node h1 marked_y size1 root1) as [[m|]|] eqn:Em; cbn [bind option_map] in *; try discriminate.
    - pose proof (Q2 m eq_refl) as Pm. destruct S2 as (P2 & K2 & M2).
      pose proof (closed_part h1 size1 root1 m Hc1 Hr1 Pm) as Lm. pose proof (acyclic_sub _ _ _ Ha1 Pm) as Am.
      pose proof (second_value ext h1 size1 Hc1 e n m Ln An Lm Am) as SV.
      destruct (evaluate ext h1 size1 n "fit_transform" e false empty_st) as [s1 o1]. cbn [fst snd] in V1, SV. rewrite V1.
      destruct rx as [[wx fx]|ex]; [|discriminate]. cbn [val bind]. destruct SV as (r2 & D2 & V2 & _); [eexists; exact D1|].
      destruct (Den_ex (f m) P2) as (ry & Dy). assert (r2 = ry) by exact (copy_value h1 size1 root1 f m ry r2 C Pm Dy D2). subst r2.
      destruct (evaluate ext h1 size1 m "fit_transform" e false (reset s1)) as [s2 o2]. cbn [fst snd] in *. rewrite V2.
      destruct ry as [[wy fy]|ex]; [|discriminate]. cbn [val bind]. intros E. injection E as <- <-.
      exists (f n), fx. split; [exact P1|]. split; [exact X|]. split; [exact Dx|]. left. exists (f m), wy, fy. split; [exact P2|]. split; [apply marked_y_carries; auto|]. auto.
    - assert (NY : forall y, part_of h root y -> ~ carries h y IsY).
      { intros y Py Cy. apply marked_y_carries in Cy. destruct Cy as [Ky My]. rewrite (S2 y Py Ky) in My. discriminate. }
      intros E. assert (G : exists s1 o1, evaluate ext h1 size1 n "fit_transform" e false (empty_st (F := F)) = (s1, o1) /\
         match value_of o1 with Err _ => False | Ok v => v = vx /\ vy = None end).
      { destruct (find_first_apply h1 size1 root1) as [[a|]|]; cbn [bind] in E; try discriminate.
        - destruct (h1 a) as [[]| | | | | | | |]; cbn [bind] in E;
            try (destruct (evaluate ext h1 size1 n "fit_transform" e false empty_st) as [s1 o1]; exists s1, o1; split; [reflexivity|]; destruct (value_of o1); cbn [snd] in E; [|discriminate]; injection E as <- <-; auto).
          destruct (h1 y); cbn [bind] in E; try discriminate. destruct (is_none v); cbn [bind] in E; try discriminate.
          destruct (evaluate ext h1 size1 n "fit_transform" e false empty_st) as [s1 o1]; exists s1, o1; split; [reflexivity|]; destruct (value_of o1); cbn [snd] in E; [|discriminate]; injection E as <- <-; auto.
        - destruct (evaluate ext h1 size1 n "fit_transform" e false empty_st) as [s1 o1]; exists s1, o1; split; [reflexivity|]; destruct (value_of o1); cbn [snd] in E; [|discriminate]; injection E as <- <-; auto. }
      destruct G as (s1 & o1 & E3 & G). rewrite E3 in V1. cbn [snd] in V1. rewrite V1 in G. destruct rx as [[wx fx]|ex]; [|contradiction]. destruct G as [<- ->].
      exists (f n), fx. auto 6.
  Qed.

  (** No step is computed twice. *)
  Theorem compute_Xy_once : NoDup (trace (fst (compute_Xy h size root e))).
  Proof using Hclosed Hroot Hacyclic. clear - Hclosed Hroot Hacyclic.
    unfold M_search.compute_Xy. destruct (clone h size root true) as [[[h1 size1] root1]|] eqn:Ec; cbn [bind]; [|constructor].
    destruct (clone_is_clone _ _ _ _ _ _ _ _ _ _ _ Hclosed Hroot Ec) as (f & Hcl). apply clone_copy in Hcl. rename Hcl into C.
    pose proof (co_closed _ _ _ _ _ _ _ _ C) as Hc1. pose proof (co_root_lt _ _ _ _ _ _ _ _ C) as Hr1. pose proof (co_acyclic _ _ _ _ _ _ _ _ C) as Ha1.
    assert (G : forall x y, find_Xy is_none h1 size1 root1 = Ok (x, y) -> part_of h1 root1 x /\ forall y', y = Some y' -> part_of h1 root1 y').
    { intros x y. unfold find_Xy, find_X, find_y.
      pose proof (find_node_spec h1 marked_X size1 root1 Hc1 Hr1) as S1. destruct (find_node h1 marked_X size1 root1) as [[n|]|]; cbn [bind]; try discriminate.
      pose proof (find_node_spec h1 marked_y size1 root1 Hc1 Hr1) as S2. destruct (find_node h1 marked_y size1 root1) as [[m|]|]; cbn [bind]; try discriminate.
      - intros E. injection E as <- <-. split; [apply S1|]. intros y' E. injection E as <-. apply S2.
      - intros E. assert (E2 : x = n /\ y = None).
        { destruct (find_first_apply h1 size1 root1) as [[a|]|]; cbn [bind] in E; try discriminate; [|injection E as <- <-; auto].
          destruct (h1 a) as [[]| | | | | | | |]; try (injection E as <- <-; auto). destruct (h1 y0); try discriminate. destruct (is_none v); try discriminate. injection E as <- <-; auto. }
        destruct E2 as [-> ->]. split; [apply S1|]. discriminate. }
    destruct (find_Xy is_none h1 size1 root1) as [[x y]|] eqn:Ef; cbn [bind]; [|constructor]. destruct (G x y eq_refl) as [Px Py].
    pose proof (closed_part h1 size1 root1 x Hc1 Hr1 Px) as Lx. pose proof (acyclic_sub _ _ _ Ha1 Px) as Ax.
    destruct (first_value ext h1 size1 Hc1 e x Lx Ax) as (r1 & D1 & V1 & N1 & _).
    destruct y as [y|].
    - specialize (Py y eq_refl). pose proof (closed_part h1 size1 root1 y Hc1 Hr1 Py) as Ly. pose proof (acyclic_sub _ _ _ Ha1 Py) as Ay.
      pose proof (second_value ext h1 size1 Hc1 e x y Lx Ax Ly Ay) as SV.
      destruct (evaluate ext h1 size1 x "fit_transform" e false empty_st) as [s1 o1]. cbn [fst snd] in V1, N1, SV. rewrite V1.
      destruct r1 as [[v1 f1]|ex]; cbn [val bind]; [|exact N1]. destruct SV as (r2 & D2 & V2 & N2); [eexists; exact D1|].
      destruct (evaluate ext h1 size1 y "fit_transform" e false (reset s1)) as [s2 o2]. exact N2.
    - destruct (evaluate ext h1 size1 x "fit_transform" e false empty_st) as [s1 o1]. cbn [fst snd] in V1, N1. rewrite V1.
      destruct r1 as [[v1 f1]|ex]; exact N1.
  Qed.
End ComputeXy.
