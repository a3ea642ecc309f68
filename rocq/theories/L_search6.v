(** C103, third part: settings that do not change anything; fitting with X and y given. *)
From Verif Require Import Base L_dict M_traverse L_traverse M_expr L_expr1 L_expr2 L_expr3 L_expr4 L_expr5 L_expr6 L_expr7.
From Verif Require Import M_clone L_clone L_clone2 M_grid M_choicegraph L_choicegraph3 L_conflicts M_estimator L_estimator1 L_estimator2 L_estimator3 L_estimator4 L_search1 M_search L_search2 L_search4.
Set Default Proof Using "Type".
Open Scope string_scope.
Open Scope list_scope.
Open Scope nat_scope.

(** ** Settings that do not change anything *)
Section Effect.
  Context {V K F : Type} `{EqD K}.
  Notation heap := (heap V K).
  Variable ext : externals V K F.

  (** The choice has the same outcome. *)
  Definition same_effect (a b : obj V K) : Prop :=
    match a, b with
    | OChoice n outs c, OChoice n' outs' c' => n = n' /\ outs = outs' /\ default_or 0 c = default_or 0 c'
    | ONumChoice n d c, ONumChoice n' d' c' => n = n' /\ d = d' /\ default_or d c = default_or d' c'
    | _, _ => a = b
    end.
  Variables (h hs : heap) (Q : oid -> Prop).
  Hypothesis Qdown : forall o c, Q o -> In c (children (h o)) -> Q c.
  Hypothesis Qsame : forall o, Q o -> same_effect (h o) (hs o).
  Variables (e : env V) (mode : string) (f0 : oid -> option (fit_attr V F)).
  Notation den1 := (den ext h e mode f0).
  Notation den2 := (den ext hs e mode f0).

  Lemma effect_eq o : Q o -> match h o with OChoice _ _ _ | ONumChoice _ _ _ => True | x => hs o = x end.
  Proof using Qsame. clear - Qsame. intros q. pose proof (Qsame o q) as S. unfold same_effect in S. destruct (h o), (hs o); try discriminate; try congruence; auto. Qed.

  Lemma effect_den : forall d o, Q o -> den2 d o = den1 d o.
  Proof using Qdown Qsame. clear - Qdown Qsame.
    induction d as [|d IH]; intros o q; [reflexivity|]. pose proof (Qdown o) as Dn. specialize (fun c => Dn c q).
    pose proof (effect_eq o q) as Eq. pose proof (Qsame o q) as Sm. cbn [den].
    assert (Hev : forall c, In c (children (h o)) -> den2 d c = den1 d c) by (intros c Ic; apply IH; apply Dn; exact Ic).
    assert (Hargs : forall A (l : list (A * oid)), (forall c, In c (map snd l) -> In c (children (h o))) ->
      dmapM (fun nc => dbind (dbind (den2 d (snd nc)) (fun vf => Some (Ok (fst vf)))) (fun v => Some (Ok (fst nc, v)))) l =
      dmapM (fun nc => dbind (dbind (den1 d (snd nc)) (fun vf => Some (Ok (fst vf)))) (fun v => Some (Ok (fst nc, v)))) l).
    { intros A l Hl. apply dmapM_ext. intros nc Inc. rewrite (Hev (snd nc)); [reflexivity|]. apply Hl. apply in_map. exact Inc. }
    destruct (h o) as [i name isX isY|ty items|ty items|a b c|name outs ch|name df ch|c m|cls p|w] eqn:Eo.
    - rewrite Eq. destruct (provided e i name isX isY); [reflexivity|].
      destruct i as [value|value|cnd it fa|qq tg default|tgt|X est y cols how allow unsup|tgt|fi ot|op fs]; cbn [children fields map snd] in *.
      + destruct value as [c|]; [|reflexivity]. rewrite (Hev c); [reflexivity|left; reflexivity].
      + rewrite (Hev value); [reflexivity|left; reflexivity].
      + rewrite (Hev cnd) by (simpl; auto). apply dbind_ext. intros cv. apply dbind_ext. intros [|]; rewrite Hev by (simpl; auto); reflexivity.
      + rewrite (Hev qq) by (destruct default; simpl; auto). apply dbind_ext. intros qv. apply dbind_ext. intros key. f_equal.
        assert (Qt : Q tg) by (apply Dn; destruct default; simpl; auto). pose proof (effect_eq tg Qt) as Et. pose proof (Qsame tg Qt) as St. pose proof (Qdown tg) as Dt.
        destruct (h tg) as [| ty items| | | | | | |]; try (rewrite Et; reflexivity); [rewrite Et| |]; try (unfold same_effect in St; destruct (hs tg); try discriminate; reflexivity).
        destruct (dget key items) as [t|] eqn:Eg.
        * rewrite (IH t); [reflexivity|]. apply Dt; [exact Qt|]. cbn [children]. apply in_map_iff. exists (key, t). split; [reflexivity|]. apply dget_In_weak. exact Eg.
        * destruct default as [dd|]; [|reflexivity]. rewrite Hev by (simpl; auto). reflexivity.
      + destruct (fit_mode mode); [|reflexivity]. rewrite Hev by (simpl; auto). reflexivity.
      + destruct (fit_mode mode).
        * rewrite Hargs; [reflexivity|]. intros c Ic. destruct unsup; simpl in *; tauto.
        * rewrite Hargs; [reflexivity|]. intros c Ic. destruct (eqb_of mode "score"); simpl in *; tauto.
      + rewrite Hev by (simpl; auto). apply dbind_ext. intros vf.
        assert (Qt : Q tgt) by (apply Dn; simpl; auto). pose proof (effect_eq tgt Qt) as Et. pose proof (Qsame tgt Qt) as St.
        destruct (h tgt); try (rewrite Et; reflexivity); unfold same_effect in St; destruct (hs tgt); try discriminate; reflexivity.
      + rewrite Hargs; [reflexivity|]. intros c Ic. exact Ic.
      + rewrite Hargs; [reflexivity|]. intros c Ic. exact Ic.
    - rewrite Eq, Hargs; [reflexivity|]. intros c Ic. exact Ic.
    - rewrite Eq. rewrite (dmapM_ext (fun c => dbind (den2 d c) (fun vf => Some (Ok (fst vf)))) (fun c => dbind (den1 d c) (fun vf => Some (Ok (fst vf))))); [reflexivity|]. intros c Ic. rewrite Hev; [reflexivity|exact Ic].
    - rewrite Eq, (Hev a), (Hev b), (Hev c) by (simpl; auto). reflexivity.
    - unfold same_effect in Sm. destruct (hs o) as [| | | |name' outs' ch'| | | |]; try discriminate. destruct Sm as (<- & <- & Ec). unfold default_or in Ec. rewrite <- Ec.
      destruct (match name with Some n => dget n e | None => None end); [reflexivity|]. f_equal.
      assert (Qt : Q outs) by (apply Dn; simpl; auto). pose proof (effect_eq outs Qt) as Et. pose proof (Qsame outs Qt) as St. pose proof (Qdown outs) as Dt.
      destruct (h outs) as [| |ty items| | | | | |]; try (rewrite Et; reflexivity); [rewrite Et| |]; try (unfold same_effect in St; destruct (hs outs); try discriminate; reflexivity).
      destruct (nth_error items _) as [t|] eqn:En; [|reflexivity]. rewrite (IH t); [reflexivity|]. apply Dt; [exact Qt|]. eapply nth_error_In. exact En.
    - unfold same_effect in Sm. destruct (hs o) as [| | | | |name' df' ch'| | |]; try discriminate. destruct Sm as (<- & <- & Ec). unfold default_or in Ec. rewrite Ec. reflexivity.
    - rewrite Eq. rewrite (Hev c) by (simpl; auto). apply dbind_ext. intros qv. apply dbind_ext. intros key. f_equal.
      assert (Qt : Q m) by (apply Dn; simpl; auto). pose proof (effect_eq m Qt) as Et. pose proof (Qsame m Qt) as St. pose proof (Qdown m) as Dt.
      destruct (h m) as [| ty items| | | | | | |]; try (rewrite Et; reflexivity); [rewrite Et| |]; try (unfold same_effect in St; destruct (hs m); try discriminate; reflexivity).
      destruct (dget key items) as [t|] eqn:Eg; [|reflexivity]. rewrite (IH t); [reflexivity|]. apply Dt; [exact Qt|]. cbn [children]. apply in_map_iff. exists (key, t). split; [reflexivity|]. apply dget_In_weak. exact Eg.
    - rewrite Eq, Hev by (simpl; auto). reflexivity.
    - rewrite Eq. reflexivity.
  Qed.
  Lemma effect_Den o r : Q o -> Den ext h e mode f0 o r <-> Den ext hs e mode f0 o r.
  Proof using Qdown Qsame. intros q. unfold Den. split; intros [d E]; exists d; [rewrite effect_den|rewrite effect_den in E]; assumption. Qed.
End Effect.

(** ** Fitting in two environments that agree, except on what is computed before some nodes *)
Section Fits.
  Context {V K F : Type} `{EqD K}.
  Notation heap := (heap V K).
  Notation st := (st V F).
  Variable ext : externals V K F.
  Variables (h : heap) (size : nat) (root : oid).
  Hypothesis Hclosed : closed h size.
  Hypothesis Hroot : root < size.
  Hypothesis Hacyclic : acyclic h root.
  Variables e1 e2 : env V.
  Notation none := (fun _ : oid => @None (fit_attr V F)).
  Notation Den1 := (Den ext h e1 "fit_transform" none).
  Notation Den2 := (Den ext h e2 "fit_transform" none).
  Notation needs1 := (needs ext h e1 "fit_transform" none).
  Notation needs2 := (needs ext h e2 "fit_transform" none).
  Notation needed1 := (needed ext h e1 "fit_transform" none).
  Notation needed2 := (needed ext h e2 "fit_transform" none).

  Lemma plain_slot e d o v a : ~ stateful h o -> den ext h e "fit_transform" none d o = Some (Ok (v, a)) -> a = None.
  Proof.
    intros Hs E. destruct d as [|d]; [discriminate|]. cbn [den] in E. unfold stateful in Hs.
    assert (Hp : forall x : dres V, dbind x (fun v => Some (Ok (v, @None (fit_attr V F)))) = Some (Ok (v, a)) -> a = None).
    { intros [[u|ex]|] Ex; cbn in Ex; try discriminate. injection Ex as _ <-. reflexivity. }
    assert (Hw : forall x : res V, Some (shown ext "fit_transform" (with_slot none o x)) = Some (Ok (v, a)) -> a = None).
    { intros [u|ex] Ex; cbn in Ex; try discriminate. injection Ex as _ <-. reflexivity. }
    assert (Hb : forall A (x : dres A) (k : A -> dres (V * option (fit_attr V F))),
              (forall u, k u = Some (Ok (v, a)) -> a = None) -> dbind x k = Some (Ok (v, a)) -> a = None).
    { intros A [[u|ex]|] k Hk Ex; cbn in Ex; try discriminate. eapply Hk; eauto. }
    destruct (h o) as [i name isX isY|ty items|ty items|a0 b c|name outs ch|name df ch|c m0|cls p|v0].
    - destruct (provided e i name isX isY); [injection E as _ <-; reflexivity|].
      destruct i as [value|value|cnd it fa|q tg default|tgt|X est y cols how allow unsup|tgt|fi ot|op fs]; try (exfalso; apply Hs; exact Logic.I).
      + destruct value as [c|]; [|apply (Hw _ E)]. revert E. apply Hb. intros u. apply Hw.
      + apply (Hp _ E).
      + revert E. apply Hb. intros u. apply Hb. intros u'. apply Hp.
      + revert E. apply Hb. intros u. apply Hb. intros u'. apply Hp.
      + revert E. apply Hb. intros u. destruct (h tgt) as [[]| | | | | | | |]; cbn; try discriminate.
        destruct (fitted_with (snd u)); cbn; [|discriminate]. intros E. injection E as _ <-. reflexivity.
      + revert E. apply Hb. intros u. apply Hw.
    - apply (Hp _ E).
    - apply (Hp _ E).
    - apply (Hp _ E).
    - destruct (match name with Some n => dget n e | None => None end); [injection E as _ <-; reflexivity|].
      apply (Hp _ E).
    - injection E as _ <-. reflexivity.
    - revert E. apply Hb. intros u. apply Hb. intros u'. apply Hp.
    - apply (Hp _ E).
    - injection E as _ <-. reflexivity.
  Qed.

  (** What is before the nodes of which the second environment gives the value. *)
  Variable mark : oid -> Prop.
  Definition before (o : oid) : Prop := exists z, mark z /\ part_of h root z /\ part_of h z o.
  Hypothesis Hmark : forall o, part_of h root o ->
    (mark o /\ exists v, given h e2 o = Some v /\ Den1 o (Ok (v, None))) \/
    (given h e2 o = given h e1 o /\ same_reads h e1 e2 o).
  Hypothesis Hstateless : forall o, before o -> ~ stateful h o.

  Lemma Den_ex1 e o : part_of h root o -> exists r, Den ext h e "fit_transform" none o r.
  Proof using Hclosed Hroot Hacyclic. clear - Hclosed Hroot Hacyclic.
    intros P. apply (real_Den ext e "fit_transform" h size o none); [discriminate|exact Hclosed|eapply closed_part; eauto|eapply acyclic_sub; eauto].
  Qed.

  Lemma same_Den o r : needed1 root o -> Den1 o r -> Den2 o r.
  Proof using Hclosed Hroot Hacyclic Hmark. clear - Hclosed Hroot Hacyclic Hmark.
    intros N [d E]. exists d. revert N E. apply (agree_den_gen ext "fit_transform" h h e1 e2 none none root).
    intros x Nx. destruct (Hmark x (needed_part _ _ _ _ _ _ _ Nx)) as [(_ & v & G & D)|(G & R)].
    - right. intros d0 r0 E0. assert (Q : r0 = Ok (v, None)) by (eapply Den_det; [exists d0; exact E0|exact D]). subst r0. destruct d0 as [|d0]; [discriminate|]. apply (given_den ext "fit_transform" h e2 none x v d0 G).
    - left. split; [reflexivity|]. destruct (given h e1 x) as [v|] eqn:G1; [left; exists v; auto|]. right. auto 6.
  Qed.
  Lemma same_Den_back o r : needed1 root o -> Den2 o r -> Den1 o r.
  Proof using Hclosed Hroot Hacyclic Hmark. clear - Hclosed Hroot Hacyclic Hmark.
    intros N D. destruct (Den_ex1 e1 o (needed_part _ _ _ _ _ _ _ N)) as (r' & D'). rewrite (Den_det _ _ _ _ _ _ _ _ D (same_Den o r' N D')). exact D'.
  Qed.
  Lemma same_DenV o v : needed1 root o -> DenV ext h e1 "fit_transform" none o (Ok v) <-> DenV ext h e2 "fit_transform" none o (Ok v).
  Proof using Hclosed Hroot Hacyclic Hmark. clear - Hclosed Hroot Hacyclic Hmark.
    intros N. rewrite !DenV_Den. split; intros [a D]; exists a; [apply same_Den|apply same_Den_back]; assumption.
  Qed.
  Lemma same_needs o t : needed1 root o -> given h e2 o = given h e1 o -> needs1 o t <-> needs2 o t.
  Proof using Hclosed Hroot Hacyclic Hmark. clear - Hclosed Hroot Hacyclic Hmark.
    intros N G. assert (DV : forall c, needs1 o c -> forall v, DenV ext h e1 "fit_transform" none c (Ok v) <-> DenV ext h e2 "fit_transform" none c (Ok v)) by (intros c Nc v; apply same_DenV; econstructor; eauto).
    unfold given in G. unfold needs in *.
    destruct (h o) as [i name isX isY|ty items|ty items|a b c|name outs ch|name df ch|c m|cls p|w]; try tauto.
    - rewrite G. destruct (provided e1 i name isX isY); [split; intros [C _]; discriminate|].
      destruct i as [value|value|cnd it fa|q tg default|tgt|X est y cols how allow unsup|tgt|fi ot|op fs]; try tauto.
      + specialize (DV cnd (conj eq_refl (or_introl eq_refl))). split; (intros [A [B|(cv & D & B)]]; (split; [exact A|]); [left; exact B|]; right; exists cv; split; [apply DV; exact D|exact B]).
      + specialize (DV q (conj eq_refl (or_introl eq_refl))). split; (intros [A [B|(qv & key & ty & items & D & B)]]; (split; [exact A|]); [left; exact B|]; right; exists qv, key, ty, items; split; [apply DV; exact D|exact B]).
    - destruct name as [n|]; [rewrite G|]; tauto.
    - specialize (DV c (or_introl eq_refl)). split; (intros [B|(qv & key & ty & items & D & B)]; [left; exact B|]; right; exists qv, key, ty, items; split; [apply DV; exact D|exact B]).
  Qed.
  Lemma given_needs e o v t : given h e o = Some v -> match h o with OChoiceMatch _ _ => True | _ => ~ needs ext h e "fit_transform" none o t end.
  Proof. unfold given, needs. destruct (h o) as [i name isX isY|ty items|ty items|a b c|name outs ch|name df ch|c m|cls p|w]; try discriminate; auto.
    - intros -> [C _]. discriminate.
    - destruct name; [|discriminate]. intros -> [C _]. discriminate.
  Qed.

  Lemma needed_12 o : needed1 root o -> before o \/ needed2 root o.
  Proof using Hclosed Hroot Hacyclic Hmark. clear - Hclosed Hroot Hacyclic Hmark.
    intros N. induction N as [|x t N IH Nt]; [right; constructor|].
    pose proof (needed_part _ _ _ _ _ _ _ N) as Px. assert (Pt : part_of h x t) by (apply edge_part; eapply needs_edge; exact Nt).
    destruct IH as [(z & Mz & Pz & Pzx)|IH]; [left; exists z; split; [exact Mz|]; split; [exact Pz|]; eapply reach_trans; eauto|].
    destruct (Hmark x Px) as [(Mx & _)|(G & _)]; [left; exists x; auto|]. right. econstructor; [exact IH|]. apply same_needs; assumption.
  Qed.
  Lemma needed_21 o : needed2 root o -> needed1 root o.
  Proof using Hclosed Hroot Hacyclic Hmark. clear - Hclosed Hroot Hacyclic Hmark.
    intros N. induction N as [|x t N IH Nt]; [constructor|]. destruct (Hmark x (needed_part _ _ _ _ _ _ _ IH)) as [(_ & v & G & _)|(G & _)].
    - pose proof (given_needs e2 x v t G) as C. unfold given in G. destruct (h x); try discriminate; contradiction.
    - econstructor; [exact IH|]. apply same_needs; assumption.
  Qed.

  (** Same outcome, and same fitted attributes. *)
  Theorem fits_agree :
    let out1 := evaluate ext h size root "fit_transform" e1 true (empty_st (F := F)) in
    let out2 := evaluate ext h size root "fit_transform" e2 true (empty_st (F := F)) in
    snd out1 = snd out2 /\ forall v, snd out1 = Ok v -> forall x, fitted (fst out1) x = fitted (fst out2) x.
  Proof using Hclosed Hroot Hacyclic Hmark Hstateless.
    cbn zeta.
    destruct (evaluate_value ext h size root e1 "fit_transform" (empty_st (F := F)) Hclosed Hroot Hacyclic) as (r1 & D1 & A1).
    destruct (evaluate_value ext h size root e2 "fit_transform" (empty_st (F := F)) Hclosed Hroot Hacyclic) as (r2 & D2 & A2).
    change (real_mode "fit_transform") with "fit_transform" in *. change (fitted empty_st) with none in *.
    pose proof (Den_det _ _ _ _ _ _ _ _ D2 (same_Den root r1 (needed_self _ _ _ _ _ _) D1)) as ->.
    split; [rewrite A1, A2; reflexivity|]. intros v E1 x. assert (E2 : snd (evaluate ext h size root "fit_transform" e2 true (empty_st (F := F))) = Ok v) by (rewrite A2, <- A1; exact E1).
    destruct (computed_exactly_needed ext h size root e1 "fit_transform" empty_st Hclosed Hroot Hacyclic eq_refl) as [N1 N1'].
    destruct (computed_exactly_needed ext h size root e2 "fit_transform" empty_st Hclosed Hroot Hacyclic eq_refl) as [N2 N2'].
    destruct (evaluate_keeps ext h size root "fit_transform" e1 true empty_st) as [_ K1]. destruct (evaluate_keeps ext h size root "fit_transform" e2 true empty_st) as [_ K2].
    pose proof (evaluate_exact ext h size root "fit_transform" e1 empty_st v Hclosed Hroot Hacyclic eq_refl E1) as X1. pose proof (evaluate_exact ext h size root "fit_transform" e2 empty_st v Hclosed Hroot Hacyclic eq_refl E2) as X2.
    change (real_mode "fit_transform") with "fit_transform" in *. change (fitted empty_st) with none in *.
    set (o1 := fst (evaluate ext h size root "fit_transform" e1 true empty_st)) in *. set (o2 := fst (evaluate ext h size root "fit_transform" e2 true empty_st)) in *.
    destruct (stateful_decide h x) as [S|S].
    2:{ destruct (K1 x) as [->|(_ & C & _)]; [|contradiction]. destruct (K2 x) as [->|(_ & C & _)]; [reflexivity|contradiction]. }
    assert (TR : In x (trace o1) <-> In x (trace o2)).
    { assert (TC : part_of h root x -> to_compute h e1 x <-> to_compute h e2 x).
      { intros P. destruct (Hmark x P) as [(M & _)|(G & _)]; [exfalso; apply (Hstateless x); [exists x; split; [exact M|]; split; [exact P|apply reach_refl]|exact S]|].
        unfold given in G. unfold to_compute. destruct (h x); try tauto. rewrite G. tauto. }
      split; intros I.
      - destruct (N1 x I) as [Nx Cx]. pose proof (needed_part _ _ _ _ _ _ _ Nx) as P. apply (N2' v E2); [|apply TC; assumption].
        destruct (needed_12 x Nx) as [B|B]; [|exact B]. exfalso. exact (Hstateless x B S).
      - destruct (N2 x I) as [Nx Cx]. pose proof (needed_part _ _ _ _ _ _ _ Nx) as P. apply (N1' v E1); [|apply TC; assumption]. apply needed_21. exact Nx. }
    destruct (in_dec Nat.eq_dec x (trace o1)) as [I|I].
    - destruct (X1 x I) as (w1 & Dx1). destruct (X2 x (proj1 TR I)) as (w2 & Dx2). destruct (N1 x I) as [Nx _].
      pose proof (Den_det _ _ _ _ _ _ _ _ Dx2 (same_Den x _ Nx Dx1)) as Q. injection Q as _ Q. symmetry. exact Q.
    - destruct (K1 x) as [->|(_ & _ & C)]; [|contradiction]. destruct (K2 x) as [->|(_ & _ & C)]; [reflexivity|tauto].
  Qed.
End Fits.
