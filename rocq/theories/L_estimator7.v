(** The properties of reachable estimators. *)
From Verif Require Import Base M_traverse L_traverse M_expr L_expr1 L_expr2 L_expr3 L_expr4
  L_expr5 L_expr6 L_expr7 M_estimator L_estimator1 L_estimator2 L_estimator3 L_estimator4 L_estimator5 L_estimator6.
Open Scope string_scope.
Open Scope list_scope.
Open Scope nat_scope.

Section Reachable.
  Context {V K F : Type} `{EqD K}.
  Variable ext : externals V K F.
  Variable h : heap V K.
  Variable size : nat.
  Variable has_method : F -> string -> bool.
  Variable declares : oid -> string -> bool.
  Notation step := (step ext h size has_method declares).
  Notation run := (run ext h size has_method declares).
  Notation fresh := (fresh (V := V) (F := F)).
  Notation supported := (supported_modes (V := V) (F := F) h size has_method declares).
  Variable root : oid.
  Hypothesis Hclosed : closed h size.
  Hypothesis Hroot : root < size.
  Hypothesis Hacyclic : acyclic h root.

  Lemma using_changes_nothing hist later o : Forall uses later -> not_fit_report o ->
    let w := run hist (fresh root) in index_of o < List.length (w_estimators w) ->
    (forall x, fitted (w_st (run later w)) x = fitted (w_st w) x) /\
    (forall i rb, nth_error (w_estimators w) i = Some rb -> nth_error (w_estimators (run later w)) i = Some rb) /\
    (forall ans, snd (step w o) = ans -> (forall j, ans <> Ok (NewEstimator j)) -> snd (step (run later w) o) = ans) /\
    ((exists j, snd (step w o) = Ok (NewEstimator j)) <-> (exists j, snd (step (run later w) o) = Ok (NewEstimator j))).
  Proof.
    intros Hu Hn w Hi.
    pose proof (reachable_good ext h size has_method declares root Hclosed Hroot Hacyclic hist) as Hg. fold w in Hg.
    pose proof (uses_same ext h size has_method declares later w Hu) as Hs.
    pose proof (same_world_outcome ext h size has_method declares root Hclosed Hroot Hacyclic w (run later w) o Hg Hs Hi Hn) as Ho.
    destruct Hs as [Hs1 Hs2]. split; [exact Hs1|]. split; [exact Hs2|]. rewrite Ho. split.
    - intros ans -> Hj. destruct ans as [[]|]; try reflexivity. exfalso. eapply Hj. reflexivity.
    - unfold reply_like. destruct (snd (step w o)) as [[x|x|j]|ex]; split; intros [j' E]; eauto; discriminate.
  Qed.

  Lemma sub_reachable hist i r b n : let w := run hist (fresh root) in
    nth_error (w_estimators w) i = Some (r, b) ->
    (exists o, step w (Sub i n) = (mk_world (w_st w) (w_estimators w ++ [(o, b)]),
                                   Ok (NewEstimator (List.length (w_estimators w)))) /\
               part_of h r o /\ has_name h o n) \/
    (step w (Sub i n) = (w, Err KeyError) /\ forall o, part_of h r o -> ~ has_name h o n).
  Proof.
    intros w E. apply (sub_spec ext h size has_method declares root Hclosed Hroot Hacyclic); [|exact E].
    apply (reachable_good ext h size has_method declares root Hclosed Hroot Hacyclic).
  Qed.

  (** What the methods and reports of a marked estimator show. *)
  Lemma report_shows hist i r b m e : let w := run hist (fresh root) in
    nth_error (w_estimators w) i = Some (r, b) -> m <> "fit" -> (b = true \/ m = "fit_transform") ->
    snd (step w (Report i m e)) = Ok (ReportOf (snd (evaluate ext h size r m e true (reset (w_st w))))).
  Proof.
    intros w E Hm Hb.
    pose proof (reachable_good ext h size has_method declares root Hclosed Hroot Hacyclic hist) as Hg. fold w in Hg.
    pose proof (g_parts _ _ _ Hg _ _ _ E) as Hp.
    assert (Hfb : fitting m || b = true) by (destruct Hb as [->| ->]; [apply orb_true_r|reflexivity]).
    pose proof (report_outcome ext h size root Hclosed Hroot Hacyclic r b m e (w_st w) Hp Hm Hfb) as Ho.
    unfold M_estimator.step. rewrite E.
    destruct (report ext h size r b m e (w_st w)) as [[s1 b1] r1]. cbn [snd] in *. subst r1. reflexivity.
  Qed.

  Lemma modes_of hist i r b : let w := run hist (fresh root) in
    nth_error (w_estimators w) i = Some (r, b) -> choices_ok h r -> exists ms,
      supported r (fitted (w_st w)) = Ok ms /\
      ((exists o, in_use h r o /\ is_apply h o /\ (is_apply h r -> o = r) /\
          forall x, In x ms <-> In x ["preview"; "fit_transform"; "transform"] \/
            (In x ["predict"; "predict_proba"; "decision_function"; "score"] /\
             match fitted_with (fitted (w_st w) o) with
             | Some est => has_method est x | None => declares o x end = true)) \/
       ((forall o, in_use h r o -> ~ is_apply h o) /\ ms = ["preview"; "fit_transform"; "transform"])).
  Proof.
    intros w E Hc.
    pose proof (reachable_good ext h size has_method declares root Hclosed Hroot Hacyclic hist) as Hg. fold w in Hg.
    pose proof (g_parts _ _ _ Hg _ _ _ E) as Hp.
    destruct (supported_spec h size has_method declares root Hclosed Hroot Hacyclic r (fitted (w_st w)) Hp Hc)
      as [(o & Hu & Ha & Hr & Es)|(Hno & Es)]; rewrite Es; eexists; (split; [reflexivity|]).
    - left. exists o. split; [exact Hu|]. split; [exact Ha|]. split; [exact Hr|].
      intros x. rewrite in_app_iff, filter_In. unfold estimator_has. tauto.
    - right. auto.
  Qed.

  Lemma offered hist i r b m e : let w := run hist (fresh root) in
    nth_error (w_estimators w) i = Some (r, b) -> choices_ok h r -> m <> "fit" ->
    exists ms,
      ((exists o, in_use h r o /\ is_apply h o /\ (is_apply h r -> o = r) /\
          forall x, In x ms <-> In x ["preview"; "fit_transform"; "transform"] \/
            (In x ["predict"; "predict_proba"; "decision_function"; "score"] /\
             match fitted_with (fitted (w_st w) o) with
             | Some est => has_method est x | None => declares o x end = true)) \/
       ((forall o, in_use h r o -> ~ is_apply h o) /\ ms = ["preview"; "fit_transform"; "transform"])) /\
      (~ In m ms -> step w (Method i m e) = (w, Err AttributeError)) /\
      (In m ms -> b = true \/ m = "fit_transform" ->
         exists out, snd (step w (Method i m e)) = (let! a := out in Ok (Result a)) /\
                     snd (step w (Report i m e)) = Ok (ReportOf out)).
  Proof.
    intros w E Hc Hm. destruct (modes_of hist i r b E Hc) as (ms & Es & Hms). fold w in Es, Hms. exists ms.
    split; [exact Hms|].
    destruct (method_offered ext h size has_method declares w i r b m e ms E Hm Es) as [H1 H2].
    split; [exact H1|]. intros Hin Hb.
    assert (Hfb : fitting m || b = true) by (destruct Hb as [->| ->]; [apply orb_true_r|reflexivity]).
    exists (snd (evaluate ext h size r m e true (reset (w_st w)))). split; [apply H2; assumption|].
    eapply report_shows; eauto.
  Qed.

  Lemma report_like_method hist i r b m e : let w := run hist (fresh root) in
    nth_error (w_estimators w) i = Some (r, b) -> choices_ok h r -> m <> "fit" ->
    (b = true \/ m = "fit_transform") ->
    exists out, snd (step w (Report i m e)) = Ok (ReportOf out) /\
      (step w (Method i m e) = (w, Err AttributeError) \/
       snd (step w (Method i m e)) = (let! a := out in Ok (Result a)) /\
       forall a x, out = Ok a -> fitted (w_st (fst (step w (Report i m e)))) x
                                 = fitted (w_st (fst (step w (Method i m e)))) x).
  Proof.
    intros w E Hc Hm Hb.
    pose proof (report_shows hist i r b m e E Hm Hb) as Hr. fold w in Hr.
    exists (snd (evaluate ext h size r m e true (reset (w_st w)))). split; [exact Hr|].
    destruct (modes_of hist i r b E Hc) as (ms & Es & _). fold w in Es.
    destruct (method_offered ext h size has_method declares w i r b m e ms E Hm Es) as [H1 H2].
    assert (Hfb : fitting m || b = true) by (destruct Hb as [->| ->]; [apply orb_true_r|reflexivity]).
    destruct (mem m ms) eqn:Em; [|apply mem_false in Em; auto].
    apply mem_true in Em. right. split; [apply H2; assumption|].
    intros a x Ea.
    pose proof (reachable_good ext h size has_method declares root Hclosed Hroot Hacyclic hist) as Hg. fold w in Hg.
    pose proof (g_parts _ _ _ Hg _ _ _ E) as Hp.
    pose proof (report_fitted ext h size r Hclosed (part_lt h size root Hclosed Hroot r Hp)
                  (part_acyclic h root Hacyclic r Hp) b m e (w_st w) a Hm Hfb) as Hf.
    rewrite Ea in Hr. unfold M_estimator.step in *. rewrite E in *.
    destruct (report ext h size r b m e (w_st w)) as [[s1 b1] r1]. cbn [fst snd] in *.
    destruct r1 as [o1|]; [|discriminate]. cbn [bind] in Hr. injection Hr as ->.
    specialize (Hf eq_refl x). cbn [w_st]. rewrite Hf.
    unfold M_estimator.method. destruct (eqb_of m "fit") eqn:Ef; [apply (proj1 (eqb_of_true _ _)) in Ef; contradiction|].
    unfold getattr_call. rewrite Es. apply mem_true in Em. rewrite Em. unfold eval_in_mode.
    replace (negb (fitting m) && negb b) with false by (destruct (fitting m), b; auto; discriminate).
    destruct (evaluate ext h size r m e true (reset (w_st w))) as [s2 r2]. reflexivity.
  Qed.

  Lemma method_value (w : world V F) j o m e v : nth_error (w_estimators w) j = Some (o, true) -> m <> "fit" ->
    snd (step w (Method j m e)) = Ok (Result v) ->
    snd (evaluate ext h size o m e true (reset (w_st w))) = Ok v.
  Proof.
    intros E Hm. unfold M_estimator.step. rewrite E. unfold M_estimator.method.
    destruct (eqb_of m "fit") eqn:Ef; [apply (proj1 (eqb_of_true _ _)) in Ef; contradiction|].
    unfold getattr_call. destruct (supported o (fitted (w_st w))) as [ms|]; [|discriminate].
    destruct (mem m ms); [|discriminate]. unfold eval_in_mode. rewrite andb_false_r.
    destruct (evaluate ext h size o m e true (reset (w_st w))) as [s2 [u|ex]]; cbn [snd bind]; [|discriminate].
    intros Ev. injection Ev as ->. reflexivity.
  Qed.

  Lemma feed_named hist i j r o n im isX isY e m v : let w := run hist (fresh root) in
    nth_error (w_estimators w) i = Some (r, true) -> nth_error (w_estimators w) j = Some (o, true) ->
    part_of h r o -> h o = OExpr im (Some n) isX isY -> (forall value, im <> IVar value) ->
    given h e o = None -> (forall x, part_of h r x -> has_name h x n -> x = o) ->
    ~ In n ["_skrub_X"; "_skrub_y"; "_skrub_use_var_values"] -> In m using_methods -> e <> [] ->
    (snd (step w (Method j m e)) = Ok (Result (TheValue v)) \/
     snd (step w (Report j m e)) = Ok (ReportOf (Ok (TheValue v)))) ->
    snd (step w (Method i m ((n, v) :: e))) = snd (step w (Method i m e)) /\
    snd (step w (Report i m ((n, v) :: e))) = snd (step w (Report i m e)).
  Proof.
    intros w Ei Ej Hro Eo Hnv Hg Hu Hres Hm He Hval.
    destruct (using_not_fit m Hm) as (_ & _ & _ & Hneq & Hnf & _).
    pose proof (reachable_good ext h size has_method declares root Hclosed Hroot Hacyclic hist) as Hgood. fold w in Hgood.
    pose proof (g_parts _ _ _ Hgood _ _ _ Ei) as Hp.
    assert (Ev : snd (evaluate ext h size o m e true (reset (w_st w))) = Ok (TheValue v)).
    { destruct Hval as [Hv|Hv]; [eapply method_value; eauto|].
      unfold w in Hv. rewrite (report_shows hist j o true m e Ej Hnf (or_introl eq_refl)) in Hv.
      injection Hv as Hv. exact Hv. }
    pose proof (feed_step ext h size declares root Hclosed Hroot Hacyclic r o n im isX isY e m v (reset (w_st w))
                  Hp Hro Eo Hnv Hg Hu Hres Hm He Ev) as Hfeed.
    split.
    - unfold M_estimator.step. rewrite Ei. unfold M_estimator.method. rewrite Hneq. unfold getattr_call.
      destruct (supported r (fitted (w_st w))) as [ms|]; [|reflexivity].
      destruct (mem m ms); [|reflexivity]. unfold eval_in_mode. rewrite andb_false_r.
      destruct (evaluate ext h size r m ((n, v) :: e) true (reset (w_st w))) as [s1 r1].
      destruct (evaluate ext h size r m e true (reset (w_st w))) as [s2 r2]. cbn [snd] in *. subst. reflexivity.
    - unfold w. rewrite !(report_shows hist i r true m _ Ei Hnf (or_introl eq_refl)). fold w. rewrite Hfeed. reflexivity.
  Qed.
End Reachable.

(** ** The example *)
Lemma lx_parts_9 o : part_of lx_heap 9 o -> In o [0; 1; 3; 4; 5; 8; 9].
Proof.
  assert (Hs : forall a b, part_of lx_heap a b -> In a [0; 1; 3; 4; 5; 8; 9] -> In b [0; 1; 3; 4; 5; 8; 9]).
  { intros a b Hr. induction Hr as [|a c x _ Hc Hr IH]; [auto|]. intros Ha. apply IH. clear IH Hr.
    cbn [In] in Ha. repeat (destruct Ha as [<-|Ha]; [cbn in Hc; intuition (subst; cbn; auto 10)|]). contradiction. }
  intros Hp. apply (Hs 9 o); [exact Hp|simpl; auto 10].
Qed.
Lemma lx_choices : choices_ok lx_heap 9.
Proof.
  intros o n outs ch Hp E. apply lx_parts_9 in Hp. cbn [In] in Hp.
  repeat (destruct Hp as [<-|Hp]; [discriminate|]). contradiction.
Qed.
Lemma lx_no_apply o : in_use lx_heap 1 o -> ~ is_apply lx_heap o.
Proof.
  intros Hu. apply in_use_part in Hu. inversion Hu as [|a c x _ Hc]; subst; [exact (fun x => x)|contradiction].
Qed.
Lemma lx_C86 : let hist := [Method 0 "fit" [("X", 5)]; Method 0 "predict" [("X", 2)]] in
  let w := lx_run hist (lx_fresh 9) in
  (exists a, snd (lx_step w (Method 0 "fit" [("X", 7)])) = Ok a) /\
  is_apply lx_heap 9 /\ no_branch lx_heap 9 /\ applied_steps lx_heap 9 /\
  (forall o, part_of lx_heap 9 o -> stateful lx_heap o -> given lx_heap [("X", 7)] o = None) /\
  regiven lx_heap 9 [("X", 7)] [("X", 1)] /\
  snd (lx_step (fst (lx_step w (Method 0 "fit" [("X", 7)]))) (Method 0 "predict" [("X", 1)]))
  = Ok (Result (TheValue 215)) /\
  snd (lx_step w (Method 0 "predict" [("X", 1)])) = Ok (Result (TheValue 211)).
Proof.
  cbv zeta. split; [vm_compute; eauto|]. split; [exact I|].
  split; [|split; [|split; [|split; [|vm_compute; auto]]]].
  - intros o Hp. apply lx_parts_9 in Hp. cbn [In] in Hp.
    repeat (destruct Hp as [<-|Hp]; [exact I|]). contradiction.
  - intros o t name isX isY Hp E. apply lx_parts_9 in Hp. cbn [In] in Hp.
    repeat (destruct Hp as [<-|Hp]; [discriminate|]). contradiction.
  - intros o Hp Hs. apply lx_parts_9 in Hp. cbn [In] in Hp.
    repeat (destruct Hp as [<-|Hp]; [first [contradiction Hs|reflexivity]|]). contradiction.
  - intros o Hp. apply lx_parts_9 in Hp. cbn [In] in Hp.
    repeat (destruct Hp as [<-|Hp]; [vm_compute; first [discriminate|auto]|]). contradiction.
Qed.
Lemma lx_C90 : let w := lx_run [Method 0 "fit" [("X", 5)]; Sub 0 "first"] (lx_fresh 9) in
  nth_error (w_estimators w) 0 = Some (9, true) /\ nth_error (w_estimators w) 1 = Some (5, true) /\
  part_of lx_heap 9 5 /\ given lx_heap [("X", 1)] 5 = None /\
  (forall x, part_of lx_heap 9 x -> has_name lx_heap x "first" -> x = 5) /\
  snd (lx_step w (Method 1 "predict" [("X", 1)])) = Ok (Result (TheValue 106)) /\
  snd (lx_step w (Method 0 "predict" [("first", 106); ("X", 1)])) = Ok (Result (TheValue 211)).
Proof.
  cbv zeta. split; [reflexivity|]. split; [reflexivity|]. split; [|split; [|split; [|vm_compute; auto]]].
  - eapply reach_step; [intros []|cbn; left; reflexivity|]. apply part_child. cbn. auto.
  - reflexivity.
  - intros o Hp Hs. apply lx_parts_9 in Hp. cbn [In] in Hp.
    repeat (destruct Hp as [<-|Hp]; [vm_compute in Hs; first [reflexivity|contradiction|discriminate]|]). contradiction.
Qed.
