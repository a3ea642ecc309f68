(** Evaluation of expressions agrees with naive recursive evaluation. *)
From Verif Require Import Base M_traverse L_traverse M_expr L_expr1.
From Coq Require Import Relations.Relation_Operators Relations.Operators_Properties.
Open Scope string_scope.
Open Scope list_scope.
Open Scope nat_scope.

(** Results of a recursive function with a depth bound: [None] if it is too small. *)
Definition dres (A : Type) := option (res A).
Definition dbind {A B} (x : dres A) (f : A -> dres B) : dres B :=
  match x with
  | None => None
  | Some (Err ex) => Some (Err ex)
  | Some (Ok a) => f a
  end.
Fixpoint dmapM {A B} (f : A -> dres B) (l : list A) : dres (list B) :=
  match l with
  | [] => Some (Ok [])
  | a :: l' => dbind (f a) (fun b => dbind (dmapM f l') (fun bs => Some (Ok (b :: bs))))
  end.

Section Spec.
  Context {V K F : Type} `{EqD K}.
  Notation heap := (heap V K).
  Variable ext : externals V K F.
  Variable h : heap.
  Variable e : env V.
  Variable mode : string.
  (** Fitted attributes of the nodes before the evaluation. *)
  Variable f0 : oid -> option (fit_attr V F).

  (** ** Specification: evaluate the expression as a tree, without any cache. *)

  Fixpoint first_provided (names : list string) : option V :=
    match names with
    | [] => None
    | n :: names' => match dget n e with Some v => Some v | None => first_provided names' end
    end.

  (** Value given directly by the environment: for the nodes marked as X and y under
      reserved names, for a named node other than a variable under its name. *)
  Definition provided (i : impl) (name : option string) (is_X is_y : bool) : option V :=
    first_provided
      ((if is_X then ["_skrub_X"] else []) ++ (if is_y then ["_skrub_y"] else []) ++
       match i, name with
       | IVar _, _ => []
       | _, Some n => [n]
       | _, None => []
       end).

  (** Exceptions raised by the computation of a node. *)
  Definition shown {A} (r : res A) : res A :=
    match r with
    | Ok a => Ok a
    | Err ex => Err (if eqb_of mode "preview" || has_add_note ext then ex else RuntimeError)
    end.

  (** Value of a variable; [value]: the one given when it was created. *)
  Definition spec_var (name : option string) (value : option V) : res V :=
    let from_creation := match value with Some v => Ok v | None => Err UninitializedVariable end in
    if eqb_of mode "preview"
    then (if match e with [] => true | _ => false end then from_creation else Err AssertionError)
    else match (match name with Some n => dget n e | None => None end) with
         | Some v => Ok v
         | None => match dget "_skrub_use_var_values" e with
                   | None => Err UninitializedVariable
                   | Some b => match truthy ext b with
                               | Err ex => Err ex
                               | Ok false => Err UninitializedVariable
                               | Ok true => from_creation
                               end
                   end
         end.

  Definition with_slot {A} (o : oid) (r : res A) : res (A * option (fit_attr V F)) :=
    let! v := r in Ok (v, f0 o).

  (** Value of an object, and fitted attributes of the node once it has been computed. *)
  Fixpoint den (d : nat) (o : oid) : dres (V * option (fit_attr V F)) :=
    match d with
    | 0 => None
    | S d' =>
      let ev c : dres V := dbind (den d' c) (fun vf => Some (Ok (fst vf))) in
      let args l : dres (list (string * V)) :=
        dmapM (fun nc => dbind (ev (snd nc)) (fun v => Some (Ok (fst nc, v)))) l in
      let plain (r : dres V) := dbind r (fun v => Some (Ok (v, f0 o))) in
      let lookup m key (k : option oid -> dres V) : dres V :=
        match h m with
        | OMap _ items => k (dget key items)
        | _ => Some (Err TypeError)
        end in
      let choose outcomes idx : dres V :=
        match h outcomes with
        | OSeq _ items =>
            match nth_error items idx with Some c => ev c | None => Some (Err IndexError) end
        | _ => Some (Err TypeError)
        end in
      match h o with
      | OExpr i name is_X is_y =>
        match provided i name is_X is_y with
        | Some v => Some (Ok (v, f0 o))
        | None =>
          match i with
          | IVar None => Some (shown (with_slot o (spec_var name None)))
          | IVar (Some c) =>
              dbind (ev c) (fun v => Some (shown (with_slot o (spec_var name (Some v)))))
          | IValue c => plain (ev c)
          | IIfElse c t f =>
              dbind (ev c) (fun cv => dbind (Some (truthy ext cv)) (fun b =>
                plain (ev (if b then t else f))))
          | IMatch q targets default =>
              dbind (ev q) (fun qv => dbind (Some (key_of ext qv)) (fun key =>
                plain (lookup targets key (fun t =>
                  match t, default with
                  | Some t', _ => ev t'
                  | None, Some dflt => ev dflt
                  | None, None => Some (Err KeyError)
                  end))))
          | IFreeze t =>
              if fit_mode mode then dbind (ev t) (fun v => Some (Ok (v, Some (Frozen v))))
              else Some (shown (match f0 o with
                                | Some (Frozen v) => Ok (v, f0 o)
                                | _ => Err AttributeError
                                end))
          | IApply X est y cols how allow unsup =>
              if fit_mode mode then
                dbind (args ([("X", X); ("estimator", est)] ++
                             (if unsup then [] else [("y", y)]) ++
                             [("cols", cols); ("how", how); ("allow_reject", allow)]))
                  (fun a => Some (shown (
                     let! (v, f) := apply_fit ext a unsup in Ok (v, Some (FittedWith f)))))
              else
                dbind (args (("X", X) :: if eqb_of mode "score" then [("y", y)] else []))
                  (fun a => Some (shown (with_slot o (apply_use ext mode (fitted_with (f0 o)) a))))
          | IApplied t =>
              dbind (den d' t) (fun vf => Some (shown (
                match h t, fitted_with (snd vf) with
                | OExpr (IApply _ _ _ _ _ _ _) _ _ _, Some f => Ok (applied ext f, f0 o)
                | _, _ => Err AttributeError
                end)))
          | IConcat first others =>
              dbind (args [("first", first); ("others", others)]) (fun a => Some (shown (
                if fit_mode mode
                then let! (v, f) := concat_fit ext a in Ok (v, Some (FittedWith f))
                else with_slot o (concat_use ext (fitted_with (f0 o)) a))))
          | IOp op fs =>
              dbind (args fs) (fun a => Some (shown (with_slot o (op_sem ext op mode a))))
          end
        end
      | OMap ty items =>
          plain (dbind (dmapM (fun kc => dbind (ev (snd kc)) (fun v => Some (Ok (fst kc, v)))) items)
                   (fun kvs => Some (mk_map ext ty kvs)))
      | OSeq ty items => plain (dbind (dmapM ev items) (fun vs => Some (mk_seq ext ty vs)))
      | OSlice a b c =>
          plain (dbind (ev a) (fun x => dbind (ev b) (fun y => dbind (ev c) (fun z =>
            Some (Ok (mk_slice ext x y z))))))
      | OChoice name outcomes chosen =>
          match (match name with Some n => dget n e | None => None end) with
          | Some v => Some (Ok (v, f0 o))
          | None =>
              plain (choose outcomes
                (if eqb_of mode "preview" then 0
                 else match chosen with Some i => i | None => 0 end))
          end
      | ONumChoice name default chosen =>
          Some (Ok (match (match name with Some n => dget n e | None => None end) with
                    | Some v => v
                    | None => if eqb_of mode "preview" then default
                              else match chosen with Some v => v | None => default end
                    end, f0 o))
      | OChoiceMatch c m =>
          dbind (ev c) (fun outcome => dbind (Some (key_of ext outcome)) (fun key =>
            plain (lookup m key (fun t =>
              match t with Some t' => ev t' | None => Some (Err KeyError) end))))
      | OEstimator cls p => plain (dbind (ev p) (fun ps => Some (mk_estimator ext cls ps)))
      | OValue v => Some (Ok (v, f0 o))
      end
    end.

  (** The naive evaluation of [o] gives [r]. *)
  Definition Den (o : oid) (r : res (V * option (fit_attr V F))) : Prop :=
    exists d, den d o = Some r.

  (** ** Lemmas *)
  Definition dle {A} (x y : dres A) : Prop := forall r, x = Some r -> y = Some r.
  Lemma dle_refl {A} (x : dres A) : dle x x.
  Proof. intros r E. exact E. Qed.
  Lemma dle_bind {A B} (x x' : dres A) (f f' : A -> dres B) :
    dle x x' -> (forall a, dle (f a) (f' a)) -> dle (dbind x f) (dbind x' f').
  Proof.
    intros Hx Hf r E. destruct x as [[a|ex]|]; simpl in E; [| |discriminate].
    - rewrite (Hx (Ok a) eq_refl). simpl. apply Hf. exact E.
    - rewrite (Hx (Err ex) eq_refl). exact E.
  Qed.
  Lemma dle_mapM {A B} (f f' : A -> dres B) : (forall a, dle (f a) (f' a)) ->
    forall l, dle (dmapM f l) (dmapM f' l).
  Proof.
    intros Hf. induction l as [|a l IH]; [apply dle_refl|].
    simpl. apply dle_bind; [apply Hf|]. intros b. apply dle_bind; [exact IH|].
    intros bs. apply dle_refl.
  Qed.

  Lemma den_step : forall d, (forall o, dle (den d o) (den (S d) o)).
  Proof.
    induction d as [|d IH]; intros o; [intros r E; discriminate|].
    remember (S d) as d1 eqn:Ed1.
    replace (den d1 o) with (den (S d) o) by (rewrite Ed1; reflexivity).
    cbn [den]. subst d1.
    assert (Hev : forall c, dle (dbind (den d c) (fun vf => Some (Ok (fst vf))))
                           (dbind (den (S d) c) (fun vf => Some (Ok (fst vf))))).
    { intros c. apply dle_bind; [apply IH|intros; apply dle_refl]. }
    destruct (h o) as [i name isX isY|ty items|ty items|a b c|name outs ch|name df ch|c m|cls p|v].
    - destruct (provided i name isX isY); [apply dle_refl|].
      destruct i as [value|value|cnd tt_ ff_|q tg default|tgt|X est y cols how allow unsup|tgt|fi ot|op fs];
        repeat (first [apply dle_refl | apply dle_bind; [|intros ?] | apply Hev
        | apply IH | apply dle_mapM; intros ? ]).
      + destruct value; [|apply dle_refl]. apply dle_bind; [apply Hev|intros; apply dle_refl].
      + destruct (h tg); try apply dle_refl.
        destruct (dget _ items); [apply Hev|]. destruct default; [apply Hev|apply dle_refl].
      + destruct (fit_mode mode); [|apply dle_refl].
        apply dle_bind; [apply Hev|intros; apply dle_refl].
      + destruct (fit_mode mode); (apply dle_bind; [apply dle_mapM; intros nc|intros; apply dle_refl]);
          (apply dle_bind; [apply Hev|intros; apply dle_refl]).
    - repeat (first [apply dle_refl | apply dle_bind; [|intros ?] | apply Hev
        | apply IH | apply dle_mapM; intros ? ]).
    - repeat (first [apply dle_refl | apply dle_bind; [|intros ?] | apply Hev
        | apply IH | apply dle_mapM; intros ? ]).
    - repeat (first [apply dle_refl | apply dle_bind; [|intros ?] | apply Hev
        | apply IH | apply dle_mapM; intros ? ]).
    - destruct (match name with Some n => dget n e | None => None end); [apply dle_refl|].
      apply dle_bind; [|intros; apply dle_refl].
      destruct (h outs); try apply dle_refl. destruct (nth_error _ _); [apply Hev|apply dle_refl].
    - apply dle_refl.
    - repeat (first [apply dle_refl | apply dle_bind; [|intros ?] | apply Hev
        | apply IH | apply dle_mapM; intros ? ]).
      destruct (h m); try apply dle_refl.
      destruct (dget _ items); [apply Hev|apply dle_refl].
    - repeat (first [apply dle_refl | apply dle_bind; [|intros ?] | apply Hev
        | apply IH | apply dle_mapM; intros ? ]).
    - apply dle_refl.
  Qed.

  Lemma den_mono d d' o r : d <= d' -> den d o = Some r -> den d' o = Some r.
  Proof.
    intros Hle E. induction Hle as [|d' Hle IH]; [exact E|].
    apply den_step. exact IH.
  Qed.

  Lemma Den_det o r1 r2 : Den o r1 -> Den o r2 -> r1 = r2.
  Proof.
    intros [d1 E1] [d2 E2].
    apply (den_mono _ (d1 + d2)) in E1; [|lia]. apply (den_mono _ (d1 + d2)) in E2; [|lia].
    rewrite E1 in E2. injection E2 as <-. reflexivity.
  Qed.

  Definition ev (d : nat) (c : oid) : dres V := dbind (den d c) (fun vf => Some (Ok (fst vf))).
  Lemma ev_mono d d' c r : d <= d' -> ev d c = Some r -> ev d' c = Some r.
  Proof.
    intros Hle. apply dle_bind; [intros r' E; eapply den_mono; eauto|intros; apply dle_refl].
  Qed.
  Lemma evs_mono d d' l r : d <= d' -> dmapM (ev d) l = Some r -> dmapM (ev d') l = Some r.
  Proof. intros Hle. apply dle_mapM. intros a r'. apply ev_mono. exact Hle. Qed.

  (** Evaluation of several objects in order. *)
  Definition DenL (l : list oid) (r : res (list V)) : Prop := exists d, dmapM (ev d) l = Some r.
  Definition DenV (c : oid) (r : res V) : Prop := exists d, ev d c = Some r.

  Lemma Den_V c v f : Den c (Ok (v, f)) -> DenV c (Ok v).
  Proof. intros [d E]. exists d. unfold ev. rewrite E. reflexivity. Qed.
  Lemma Den_V_err c ex : Den c (Err ex) -> DenV c (Err ex).
  Proof. intros [d E]. exists d. unfold ev. rewrite E. reflexivity. Qed.

  Lemma DenL_nil : DenL [] (Ok []).
  Proof. exists 0. reflexivity. Qed.
  Lemma DenL_cons c l v vs : DenV c (Ok v) -> DenL l (Ok vs) -> DenL (c :: l) (Ok (v :: vs)).
  Proof.
    intros [d1 E1] [d2 E2]. exists (d1 + d2). cbn [dmapM].
    rewrite (ev_mono d1 (d1 + d2) _ _ ltac:(lia) E1). cbn [dbind].
    rewrite (evs_mono d2 (d1 + d2) _ _ ltac:(lia) E2). reflexivity.
  Qed.
  Lemma DenL_cons_err c l ex : DenV c (Err ex) -> DenL (c :: l) (Err ex).
  Proof. intros [d E]. exists d. cbn [dmapM]. rewrite E. reflexivity. Qed.
  Lemma DenL_tail_err c l v ex : DenV c (Ok v) -> DenL l (Err ex) -> DenL (c :: l) (Err ex).
  Proof.
    intros [d1 E1] [d2 E2]. exists (d1 + d2). cbn [dmapM].
    rewrite (ev_mono d1 (d1 + d2) _ _ ltac:(lia) E1). cbn [dbind].
    rewrite (evs_mono d2 (d1 + d2) _ _ ltac:(lia) E2). reflexivity.
  Qed.

  Lemma args_ok {A} d (l : list (A * oid)) : forall vs, dmapM (ev d) (map snd l) = Some (Ok vs) ->
    dmapM (fun nc => dbind (ev d (snd nc)) (fun v => Some (Ok (fst nc, v)))) l
    = Some (Ok (combine (map fst l) vs)).
  Proof.
    induction l as [|[n c] l IH]; intros vs E; cbn [map dmapM fst snd] in *.
    - injection E as <-. reflexivity.
    - destruct (ev d c) as [[v|ex]|]; cbn [dbind] in E |- *; [|discriminate|discriminate].
      destruct (dmapM (ev d) (map snd l)) as [[vs'|ex]|]; cbn [dbind] in E; try discriminate.
      injection E as <-. rewrite (IH vs' eq_refl). reflexivity.
  Qed.
  Lemma args_err {A} d (l : list (A * oid)) : forall ex, dmapM (ev d) (map snd l) = Some (Err ex) ->
    dmapM (fun nc => dbind (ev d (snd nc)) (fun v => Some (Ok (fst nc, v)))) l
    = Some (Err ex).
  Proof.
    induction l as [|[n c] l IH]; intros ex E; cbn [map dmapM fst snd] in *; [discriminate|].
    destruct (ev d c) as [[v|ex']|]; cbn [dbind] in E |- *; [|injection E as <-; reflexivity|discriminate].
    destruct (dmapM (ev d) (map snd l)) as [[vs'|ex']|]; cbn [dbind] in E; try discriminate.
    injection E as <-. rewrite (IH ex' eq_refl). reflexivity.
  Qed.

  Lemma den_slot_use d o v f : fit_mode mode = false -> den d o = Some (Ok (v, f)) -> f = f0 o.
  Proof.
    intros Hm. destruct d as [|d]; [discriminate|]. cbn [den]. rewrite Hm.
    assert (Hpl : forall r : dres V, dbind r (fun v => Some (Ok (v, f0 o))) = Some (Ok (v, f)) -> f = f0 o).
    { intros [[a|ex]|] E; cbn [dbind] in E; try discriminate. injection E as _ <-. reflexivity. }
    assert (Hb : forall A (x : dres A) (k : A -> dres (V * option (fit_attr V F))),
              (forall a, k a = Some (Ok (v, f)) -> f = f0 o) ->
              dbind x k = Some (Ok (v, f)) -> f = f0 o).
    { intros A [[a|ex]|] k Hk E; cbn [dbind] in E; try discriminate. eapply Hk; eauto. }
    assert (Hws : forall r : res V, Some (shown (with_slot o r)) = Some (Ok (v, f)) -> f = f0 o).
    { intros [a|ex] E; cbn in E; try discriminate. injection E as _ <-. reflexivity. }
    destruct (h o) as [i name isX isY|ty items|ty items|a b c|name outs ch|name df ch|c m|cls p|w].
    - destruct (provided i name isX isY) as [w|].
      { intros E. injection E as _ <-. reflexivity. }
      destruct i.
      + destruct value; [apply Hb; intros a; apply Hws|apply Hws].
      + apply Hpl.
      + apply Hb. intros a. apply Hb. intros b. apply Hpl.
      + apply Hb. intros a. apply Hb. intros b. apply Hpl.
      + destruct (f0 o) as [[w|w]|]; cbn; intros E; try discriminate.
        injection E as _ <-. reflexivity.
      + apply Hb. intros a. apply Hws.
      + apply Hb. intros a. destruct (h target) as [[]| | | | | | | |];
          try (destruct (fitted_with (snd a)); cbn; discriminate).
        destruct (fitted_with (snd a)); cbn; intros E; try discriminate.
        injection E as _ <-. reflexivity.
      + apply Hb. intros a. apply Hws.
      + apply Hb. intros a. apply Hws.
    - apply Hpl.
    - apply Hpl.
    - apply Hpl.
    - destruct (match name with Some n => dget n e | None => None end); [|apply Hpl].
      intros E. injection E as _ <-. reflexivity.
    - intros E. injection E as _ <-. reflexivity.
    - apply Hb. intros a. apply Hb. intros b. apply Hpl.
    - apply Hpl.
    - intros E. injection E as _ <-. reflexivity.
  Qed.

  Lemma Den_slot_use o v f : fit_mode mode = false -> Den o (Ok (v, f)) -> f = f0 o.
  Proof. intros Hm [d E]. eapply den_slot_use; eauto. Qed.
End Spec.
