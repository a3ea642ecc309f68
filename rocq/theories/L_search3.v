(** C102, C104: the environments of a split, and the life of a search. *)
From Verif Require Import Base L_dict M_traverse L_traverse M_expr L_expr1 L_expr2 L_expr3 L_expr4 L_expr5 L_expr6 L_expr7.
From Verif Require Import M_clone L_clone L_clone2 M_grid M_choicegraph L_conflicts M_estimator L_search1 M_search L_search2.
Set Default Proof Using "Type".
Open Scope string_scope.
Open Scope list_scope.
Open Scope nat_scope.

Section Split.
  Context {V K F : Type} `{EqD K}.
  Notation heap := (heap V K).
  Variable ext : externals V K F.
  Variable copy : V -> res V.
  Variables new_seq new_map new_estimator : string -> res unit.
  Variable is_none : V -> bool.
  Variables (split1 : V -> res (V * V)) (split2 : V -> V -> res (V * V * (V * V))).
  Notation train_test_split := (train_test_split (F := F) ext copy new_seq new_map new_estimator is_none split1 split2).
  Notation none := (fun _ : oid => @None (fit_attr V F)).

  (** [e'] is [e] with the given X and y. *)
  Definition env_with (e e' : env V) (x : V) (y : option V) : Prop :=
    dget "_skrub_X" e' = Some x /\
    dget "_skrub_y" e' = (match y with Some w => Some w | None => dget "_skrub_y" e end) /\
    forall k, k <> "_skrub_X" -> k <> "_skrub_y" -> dget k e' = dget k e.

  Lemma env_with_x (e : env V) x : env_with e (dset X_NAME x e) x None.
  Proof.
    unfold env_with, X_NAME. split; [apply dget_dset_eq|]. split; [apply dget_dset_neq; discriminate|].
    intros k N1 N2. apply dget_dset_neq. congruence.
  Qed.
  Lemma env_with_xy (e : env V) x y : env_with e (dset Y_NAME y (dset X_NAME x e)) x (Some y).
  Proof.
    unfold env_with, X_NAME, Y_NAME. split; [rewrite dget_dset_neq by discriminate; apply dget_dset_eq|]. split; [apply dget_dset_eq|].
    intros k N1 N2. rewrite !dget_dset_neq; congruence.
  Qed.

  Section One.
  Variables (h : heap) (size : nat) (root : oid) (e : env V).
  Hypothesis Hcopy : forall v v', copy v = Ok v' -> v' = v.
  Hypothesis Hclosed : closed h size.
  Hypothesis Hroot : root < size.
  Hypothesis Hacyclic : acyclic h root.
  Hypothesis Hunused : values_unused true h root e "fit_transform".
  Notation Den := (Den ext h e "fit_transform" none).

  (** The data that is split is the value of the nodes marked as X and y; the environments of
      the two parts are the given environment, with the X and y of that part. *)
  Theorem split_spec sp : train_test_split h size root e = Ok sp ->
    env_with e (sp_train sp) (sp_X_train sp) (option_map fst (sp_y sp)) /\
    env_with e (sp_test sp) (sp_X_test sp) (option_map snd (sp_y sp)) /\
    exists x vx fx, part_of h root x /\ carries h x IsX /\ Den x (Ok (vx, fx)) /\
      match sp_y sp with
      | Some ys => exists y vy fy, part_of h root y /\ carries h y IsY /\ Den y (Ok (vy, fy)) /\
          split2 vx vy = Ok (sp_X_train sp, sp_X_test sp, ys)
      | None => split1 vx = Ok (sp_X_train sp, sp_X_test sp) /\
          forall y, part_of h root y -> carries h y IsY -> exists y' vy fy, part_of h root y' /\ carries h y' IsY /\ Den y' (Ok (vy, fy)) /\ is_none vy = true
      end.
  Proof using Hcopy Hclosed Hroot Hacyclic Hunused.
    unfold M_search.train_test_split. pose proof (compute_Xy_sound ext copy new_seq new_map new_estimator is_none h size root e Hcopy Hclosed Hroot Hacyclic Hunused) as S.
    destruct (snd (compute_Xy ext copy new_seq new_map new_estimator is_none h size root e)) as [[vx [vy|]]|ex]; cbn [bind]; [..|discriminate].
    - destruct (split2 vx vy) as [[xs ys]|] eqn:E2; cbn [bind]; [|discriminate]. intros E. injection E as <-. cbn [sp_train sp_test sp_X_train sp_X_test sp_y option_map].
      split; [apply env_with_xy|]. split; [apply env_with_xy|].
      destruct (S vx (Some vy) eq_refl) as (x & fx & Px & Cx & Dx & [(y & w & fy & Py & Cy & Dy & Ey)|[C _]]); [|discriminate].
      exists x, vx, fx. split; [exact Px|]. split; [exact Cx|]. split; [exact Dx|]. destruct (is_none w); [discriminate|]. injection Ey as <-.
      exists y, vy, fy. split; [exact Py|]. split; [exact Cy|]. split; [exact Dy|]. rewrite E2. destruct xs. reflexivity.
    - destruct (split1 vx) as [[x1 x2]|] eqn:E1; cbn [bind]; [|discriminate]. intros E. injection E as <-. cbn [sp_train sp_test sp_X_train sp_X_test sp_y option_map].
      split; [apply env_with_x|]. split; [apply env_with_x|].
      destruct (S vx None eq_refl) as (x & fx & Px & Cx & Dx & D). exists x, vx, fx. split; [exact Px|]. split; [exact Cx|]. split; [exact Dx|]. split; [exact E1|].
      intros y Py Cy. destruct D as [(y' & w & fy & Py' & Cy' & Dy' & Ey)|[_ D]]; [|destruct (D y Py Cy)].
      exists y', w, fy. destruct (is_none w) eqn:Ew; [auto|discriminate].
  Qed.
  End One.

  (** Two datasets with the same training part. *)
  Theorem split_no_leak (h : heap) size root e1 e2 sp1 sp2 requested (s1 s2 : st V F) :
    closed h size -> root < size -> acyclic h root -> fitted s1 = fitted s2 ->
    train_test_split h size root e1 = Ok sp1 -> train_test_split h size root e2 = Ok sp2 ->
    sp_X_train sp1 = sp_X_train sp2 -> option_map fst (sp_y sp1) = option_map fst (sp_y sp2) ->
    (sp_y sp1 = None -> dget "_skrub_y" e1 = dget "_skrub_y" e2) ->
    dget "_skrub_use_var_values" e1 = dget "_skrub_use_var_values" e2 ->
    (forall o n, used_besides h (sp_train sp1) root o -> ~ split_node h (sp_train sp1) o -> named h o n ->
      dget n (sp_train sp1) = dget n (sp_train sp2)) ->
    snd (evaluate ext h size root requested (sp_train sp1) true s1)
    = snd (evaluate ext h size root requested (sp_train sp2) true s2).
  Proof.
    intros Hc Hr Ha Hf T1 T2 Ex Ey Ey0 Eu Hn.
    assert (W : forall e sp, train_test_split h size root e = Ok sp -> env_with e (sp_train sp) (sp_X_train sp) (option_map fst (sp_y sp))).
    { intros e sp. unfold M_search.train_test_split. destruct (snd (compute_Xy ext copy new_seq new_map new_estimator is_none h size root e)) as [[vx [vy|]]|ex]; cbn [bind]; [..|discriminate].
      - destruct (split2 vx vy) as [[xs ys]|]; cbn [bind]; [|discriminate]. intros E. injection E as <-. apply env_with_xy.
      - destruct (split1 vx) as [[x1 x2]|]; cbn [bind]; [|discriminate]. intros E. injection E as <-. apply env_with_x. }
    destruct (W e1 sp1 T1) as (X1 & Y1 & O1), (W e2 sp2 T2) as (X2 & Y2 & O2).
    assert (EY : dget "_skrub_y" (sp_train sp1) = dget "_skrub_y" (sp_train sp2)).
    { rewrite Y1, Y2, <- Ey. destruct (sp_y sp1); cbn [option_map]; [reflexivity|auto]. }
    apply evaluate_split; auto.
    - exists "_skrub_X". split; [left; reflexivity|]. rewrite X1. discriminate.
    - intros k [<-|[<-|[<-|[]]]]; [congruence|exact EY|]. rewrite O1, O2 by discriminate. exact Eu.
  Qed.
End Split.
