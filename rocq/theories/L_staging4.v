(** Which uses of an expression are refused and which give an expression. *)
From Verif Require Import Base L_dict M_traverse L_traverse M_expr L_expr1 L_expr2 L_expr3 L_expr4 L_expr5 L_expr6 L_expr7.
From Verif Require Import M_grid M_choicegraph L_conflicts M_clone M_check M_namespace L_estimator1 L_estimator2 L_namespace L_namespace2 L_namespace3 M_staging L_staging L_staging2 L_staging3.
Open Scope string_scope.
Open Scope list_scope.
Open Scope nat_scope.
Set Default Proof Using "Type".

Lemma ends_with_spec suffix s : ends_with suffix s = true <-> exists u, s = (u ++ suffix)%string.
Proof.
  induction s as [|c s IH]; cbn [ends_with].
  - rewrite orb_false_r. rewrite eqb_of_true. split; [intros <-; exists ""; reflexivity|].
    intros [[|c u] E]; [exact E|discriminate].
  - rewrite orb_true_iff, eqb_of_true, IH. split.
    + intros [<-|[u ->]]; [exists ""; reflexivity|exists (String c u); reflexivity].
    + intros [[|c' u] E]; [left; exact E|]. injection E as <- E. right. exists u. exact E.
Qed.
Lemma prefix_spec p s : String.prefix p s = true <-> exists u, s = (p ++ u)%string.
Proof.
  revert s. induction p as [|c p IH]; intros s; cbn [String.prefix]; [split; [exists s; reflexivity|destruct s; reflexivity]|].
  destruct s as [|c' s]; [split; [discriminate|intros [u E]; discriminate]|].
  cbn [String.prefix append].
  destruct (Ascii.ascii_dec c c') as [<-|Hne].
  - rewrite IH. split; intros [u E]; exists u; [rewrite E; reflexivity|injection E as E; exact E].
  - split; [discriminate|]. intros [u E]. injection E as E _. congruence.
Qed.

Section Uses.
  Context {V K : Type}.
  Variable prim : string -> list (string * V) -> res V.
  Variable truth : V -> res bool.
  Variable iter : V -> res (list V).
  Variable is_none : V -> bool.
  Variable of_bool : bool -> V.
  Variable of_string : string -> V.
  Variable tuple1 : V -> V.
  Variable no_kwargs : V.
  Variable own : string -> oid -> oid -> option (res V).
  Variable foreign : string -> V -> oid -> res V.
  Notation build := (build (K:=K) prim truth is_none of_bool of_string tuple1 no_kwargs own foreign).
  Notation build_run := (build_run (K:=K) prim truth iter is_none of_bool of_string tuple1 no_kwargs own foreign).

  (** Computing [c] raises nothing and gives an expression. *)
  Definition an_expr (L : list (string * bval V)) (c : code V) (m : @mem_st V K) : Prop :=
    exists o m1, build L c m = Ok (BNode o, m1).

  Lemma uses_now L c m : an_expr L c m ->
    (forall n s1 s2, build_run n (If c s1 s2) (L, m) = Some (Err TypeError)) /\
    (forall n s, build_run (S n) (While c s) (L, m) = Some (Err TypeError)) /\
    (forall n x s, build_run n (For x c s) (L, m) = Some (Err TypeError)) /\
    (forall b, build L (And c b) m = Err TypeError) /\ (forall b, build L (Or c b) m = Err TypeError) /\
    build L (Not c) m = Err TypeError /\ build L (Len c) m = Err TypeError /\
    (forall v, build L (Contains c (Lit v)) m = Err TypeError).
  Proof.
    intros (o & m1 & E). cbn [M_staging.build_run M_staging.build build_while]. unfold build_test. cbn [fst snd]. rewrite E. cbn.
    rewrite ?E. cbn. repeat split; intros; try rewrite E; reflexivity.
  Qed.

  Lemma set_now L x o m n k a b1 m1 b2 m2 : dget x L = Some (BNode o) ->
    build L a m = Ok (b1, m1) -> build L k m1 = Ok (b2, m2) ->
    build_run n (SetItem x k a) (L, m) = Some (Err TypeError).
  Proof. intros Ex E1 E2. cbn [M_staging.build_run fst snd]. rewrite E1. cbn [bind]. rewrite Ex, E2. reflexivity. Qed.

  Definition some_ext : externals V K V := {|
    truthy _ := Err TypeError; key_of _ := Err TypeError; mk_seq _ _ := Err TypeError; mk_map _ _ := Err TypeError;
    mk_slice a _ _ := a; mk_estimator _ v := Ok v; op_sem _ _ _ := Err TypeError; apply_fit _ _ := Err TypeError;
    apply_failed _ _ f := f; apply_use _ _ _ := Err TypeError; concat_fit _ := Err TypeError;
    concat_use _ _ := Err TypeError; applied f := f; has_add_note := true |}.

  Lemma node_of (i : impl) (m : @mem_st V K) : exists o m1, Ok (new_expr (V:=V) (K:=K) i m) = Ok (BNode o, m1).
  Proof. unfold new_expr, add. eauto. Qed.

  (** The operand [d] is computed after [c]. *)
  Lemma uses_later {HK : EqD K} L c d m o m1 b m2 : okm m -> wfL m L ->
    build L c m = Ok (BNode o, m1) -> build L d m1 = Ok (b, m2) ->
    (forall op, In op ["abs"; "invert"; "neg"; "pos"] -> an_expr L (Un op c) m) /\
    (forall op, In op ["add"; "and"; "eq"; "floordiv"; "ge"; "gt"; "le"; "lshift"; "lt"; "matmul"; "mod"; "mul"; "ne"; "pow"; "rshift"; "sub"; "truediv"; "xor"; "or"] ->
       an_expr L (Bin op c d) m) /\
    an_expr L (Item c d) m /\ an_expr L (CallC c d) m.
  Proof.
    intros Hm HL E Ed.
    pose proof (build_good some_ext [] "" (fun _ => None) prim truth is_none of_bool of_string tuple1 no_kwargs own foreign c L m Hm HL) as Hg.
    rewrite E in Hg. destruct Hg as (H1 & H2 & [[Hlo _] Ho]).
    pose proof (build_good some_ext [] "" (fun _ => None) prim truth is_none of_bool of_string tuple1 no_kwargs own foreign d L m1 H1 (wfL_grow _ _ _ Hm H2 HL)) as Hg.
    rewrite Ed in Hg. destruct Hg as (_ & [Hle He] & _).
    unfold an_expr. cbn [M_staging.build]. rewrite E. cbn [bind]. rewrite Ed. cbn [bind].
    split; [|split; [|split]].
    - intros op Hin. cbn [build_un]. apply mem_true in Hin. change un_ops with ["abs"; "invert"; "neg"; "pos"]. rewrite Hin. apply node_of.
    - intros op Hin. apply mem_true in Hin.
      assert (Hb : forall l r (m3 : @mem_st V K), is_expr (fst m3 l) = true -> exists i, binary own (fst m3) op l r = Node i).
      { intros l r m3 Hl. unfold binary. change bin_ops with ["add"; "and"; "eq"; "floordiv"; "ge"; "gt"; "le"; "lshift"; "lt"; "matmul"; "mod"; "mul"; "ne"; "pow"; "rshift"; "sub"; "truediv"; "xor"; "or"].
        rewrite Hin, Hl. eauto. }
      unfold build_bin. cbn [stored]. destruct b as [w|r]; cbn [stored].
      + unfold add. cbv iota beta. destruct (Hb o (snd m2) (extend (fst m2) (snd m2) [OValue w], S (snd m2))) as [i ->]; [|apply node_of].
        cbn [fst]. rewrite extend_old by (unfold oid in *; lia). rewrite He by exact Hlo. exact Ho.
      + destruct (Hb o r m2) as [i ->]; [|apply node_of]. rewrite He by exact Hlo. exact Ho.
    - cbn [build_item]. destruct (stored b m2). apply node_of.
    - cbn [build_call]. destruct (stored b m2). unfold add. apply node_of.
  Qed.

  (** Attributes. *)
  Lemma attr_later L c m name : an_expr L c m ->
    (an_expr L (Attr c name) m /\ refused_attr name = false) \/
    (build L (Attr c name) m = Err AttributeError /\ refused_attr name = true).
  Proof.
    intros (o & m1 & E). unfold an_expr. cbn [M_staging.build]. rewrite E. cbn [bind build_attr].
    destruct (refused_attr name); [right; auto|]. left. split; [|reflexivity]. unfold add. apply node_of.
  Qed.
End Uses.

Lemma refused_spec name : refused_attr name = true <->
  In name ["_skrub_impl"; "get_params"; "_partialmethod"; "_repr_pretty_"; "_repr_svg_"; "_repr_png_"; "_repr_jpeg_"; "_repr_javascript_";
           "_repr_markdown_"; "_repr_latex_"; "_repr_pdf_"; "_repr_json_"; "_ipython_display_"; "_repr_mimebundle_";
           "_ipython_canary_method_should_not_exist_"; "_typ"] \/
  ((exists u, name = ("__" ++ u)%string) /\ (exists u, name = (u ++ "__")%string)).
Proof.
  unfold refused_attr, special. rewrite orb_true_iff, andb_true_iff, mem_true, prefix_spec, ends_with_spec. reflexivity.
Qed.

Lemma attr_uses {V K} prim truth is_none of_bool of_string tuple1 no_kwargs own foreign (L : list (string * bval V)) c (m : @mem_st V K) name :
  an_expr prim truth is_none of_bool of_string tuple1 no_kwargs own foreign L c m ->
  (an_expr prim truth is_none of_bool of_string tuple1 no_kwargs own foreign L (Attr c name) m <->
   ~ (In name ["_skrub_impl"; "get_params"; "_partialmethod"; "_repr_pretty_"; "_repr_svg_"; "_repr_png_"; "_repr_jpeg_"; "_repr_javascript_";
           "_repr_markdown_"; "_repr_latex_"; "_repr_pdf_"; "_repr_json_"; "_ipython_display_"; "_repr_mimebundle_";
           "_ipython_canary_method_should_not_exist_"; "_typ"] \/
      ((exists u, name = ("__" ++ u)%string) /\ (exists u, name = (u ++ "__")%string)))) /\
  (~ an_expr prim truth is_none of_bool of_string tuple1 no_kwargs own foreign L (Attr c name) m ->
   build prim truth is_none of_bool of_string tuple1 no_kwargs own foreign L (Attr c name) m = Err AttributeError).
Proof.
  intros H. rewrite <- refused_spec. destruct (attr_later prim truth is_none of_bool of_string tuple1 no_kwargs own foreign L c m name H) as [[H1 H2]|[H1 H2]]; rewrite H2.
  - split; [split; [intros _; discriminate|auto]|]. intros Hn. contradiction.
  - split; [split; [|intros Hn; contradiction Hn; reflexivity]|auto]. intros (o & m1 & E). congruence.
Qed.
