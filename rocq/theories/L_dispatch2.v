(** What transformers may return. *)
From Verif Require Import Base L_dict M_dispatch.
From Coq Require Import List.
Import ListNotations.
Open Scope list_scope.
Open Scope nat_scope.
Set Default Proof Using "Type".

(** ** Specification *)
Section Spec.
  Context {D : Type}.
  Variable from_pandas : D -> D.
  (** pandas has no lazy dataframes *)
  Definition real (v : value D) : Prop := forall d, v <> VData LPandas KLazy d.
  (** a dataframe is [d] of the library of the input, or is converted to it: pandas to polars, for a scikit-learn before 1.4 that
      could only be asked for pandas *)
  Inductive frame_for (old has_set_output : bool) (input : lib) : value D -> D -> Prop :=
  | frame_same d : frame_for old has_set_output input (VData input KFrame d) d
  | frame_converted d : old = true -> has_set_output = true -> input = LPolars ->
      frame_for old has_set_output input (VData LPandas KFrame d) (from_pandas d).
  (** what is accepted for a column: a dataframe, a column, or a sequence of which the first element is a column *)
  Inductive accepted (old has_set_output : bool) (input : lib) : value D -> Prop :=
  | accepted_frame v d : frame_for old has_set_output input v d -> accepted old has_set_output input v
  | accepted_column d : accepted old has_set_output input (VData input KColumn d)
  | accepted_none : accepted old has_set_output input (VSeq [])
  | accepted_columns d l : accepted old has_set_output input (VSeq (VData input KColumn d :: l)).
  (** dataframes of a library *)
  Definition frame_of (input : lib) (v : value D) : Prop := exists d, v = VData input KFrame d.
End Spec.

Section Proofs.
  Context {D : Type}.
  Variable old : bool.
  Variable from_pandas : D -> D.
  Variable concat2 : D -> D -> D.
  Variable columns_of : D -> list D.
  Variable make_frame : lib -> list (lib * D) -> res D.
  Notation frame_for := (frame_for from_pandas old).
  Notation accepted := (accepted from_pandas old).
  Notation subframe_fit := (subframe_fit old from_pandas concat2).
  Notation subframe_transform := (subframe_transform concat2).
  Notation column_fit := (column_fit old from_pandas columns_of).
  Notation columns_fit := (columns_fit old from_pandas columns_of make_frame).
  Notation columns_transform := (columns_transform columns_of make_frame).

  Theorem subframe_fit_ok h input p out r : real out ->
    subframe_fit h input p (Ok out) = Ok r <-> exists d, frame_for h input out d /\ r = VData input KFrame (concat2 p d).
  Proof.
    intros Hr. split.
    - destruct out as [[|] [| |] d|[|x l]|], input, h, old eqn:Eo; cbn; intros E; try discriminate; injection E as <-;
        try (exfalso; exact (Hr d eq_refl)); eexists; (split; [|reflexivity]); constructor; reflexivity.
    - intros (d & Hf & ->). inversion Hf as [d1|d1 E1 E2 E3]; subst.
      + destruct input; cbn; reflexivity.
      + cbn. reflexivity.
  Qed.
  Theorem subframe_fit_err h input p out e : real out -> subframe_fit h input p (Ok out) = Err e -> e = TypeError.
  Proof.
    intros Hr. destruct out as [[|] [| |] d|[|x l]|], input, h, old; cbn; intros E; try discriminate; try congruence;
      exfalso; exact (Hr d eq_refl).
  Qed.
  Theorem subframe_transform_ok input p out r : real out ->
    subframe_transform input p (Ok out) = Ok r <-> exists d, out = VData input KFrame d /\ r = VData input KFrame (concat2 p d).
  Proof.
    intros Hr. split.
    - destruct out as [[|] [| |] d|[|x l]|], input; cbn; intros E; try discriminate; injection E as <-; eexists; split; reflexivity.
    - intros (d & -> & ->). destruct input; reflexivity.
  Qed.
  Theorem asked_fit input p d : exists d',
    subframe_fit true input p (Ok (VData (asked_container old input) KFrame d)) = Ok (VData input KFrame (concat2 p d')) /\
    frame_for true input (VData (asked_container old input) KFrame d) d'.
  Proof.
    destruct input, old eqn:Eo; cbn; eexists; split; try reflexivity; constructor; reflexivity.
  Qed.

  Lemma column_fit_ok a h input c out : real out ->
    (exists cols, column_fit a h input c (Ok out) = Ok (cols, true)) <-> accepted h input out.
  Proof.
    intros Hr. split.
    - destruct out as [[|] [| |] d|[|[[|] [| |] d| |] l]|], input, h, old eqn:Eo; cbn; intros (cols & E); try discriminate;
        try (exfalso; exact (Hr d eq_refl)); try (constructor; fail); eapply accepted_frame; constructor; reflexivity.
    - intros Ha. inversion Ha as [v d Hf|d| |d l]; subst.
      + inversion Hf as [d1|d1 E1 E2 E3]; subst; [destruct input|]; cbn; eexists; reflexivity.
      + destruct input; cbn; eexists; reflexivity.
      + destruct input; cbn; eexists; reflexivity.
      + destruct input; cbn; eexists; reflexivity.
  Qed.
  (** the refusal of an output *)
  Definition refusal (input : lib) (out : value D) : exn :=
    match out, input with VData LPolars KLazy _, LPolars => AttributeError | _, _ => TypeError end.
  Lemma column_fit_err a h input c out : real out -> ~ accepted h input out ->
    column_fit a h input c (Ok out) = Err (refusal input out).
  Proof.
    intros Hr Hn. destruct out as [[|] [| |] d|[|[[|] [| |] d| |] l]|]; try (exfalso; exact (Hr d eq_refl)).
    all: destruct input, h, old eqn:Eo; cbn; try reflexivity;
      exfalso; apply Hn; try (constructor; fail); eapply accepted_frame; constructor; reflexivity.
  Qed.

  (** the columns that are treated without an error *)
  Definition fine (a : bool) (input : lib) (c : D * option (bool * res (value D))) : Prop :=
    match snd c with
    | None => True
    | Some (h, Ok out) => accepted h input out
    | Some (_, Err e) => e = RejectColumn /\ a = true
    end.
  Definition real_column (c : D * option (bool * res (value D))) : Prop := forall h out, snd c = Some (h, Ok out) -> real out.
  Notation one := (fun k a input (c : D * option (bool * res (value D))) =>
        match snd c with
        | None => Ok [VData input KColumn (fst c)]
        | Some (has_set_output, output) =>
            let! r := column_fit a has_set_output input (fst c) output in
            Ok (with_original k (snd r) input (fst c) (fst r))
        end).
  Lemma one_fine k a input c : real_column c -> (exists cols, one k a input c = Ok cols) <-> fine a input c.
  Proof.
    intros Hr. destruct c as [c [[h [out|e]]|]]; cbn [fst snd fine].
    - specialize (Hr h out eq_refl). unfold fine. cbn [snd]. split.
      + intros (cols & E). apply (column_fit_ok a h input c out Hr).
        destruct (column_fit a h input c (Ok out)) as [[l b]|] eqn:E'; [|discriminate]. exists l. cbn in E'.
        destruct (check_output _ _ _ _ _ _) as [o|]; [|discriminate]. cbn in E'. destruct (to_column_list _ o); [|discriminate].
        cbn in E'. injection E' as <- <-. reflexivity.
      + intros Ha. apply (column_fit_ok a h input c out Hr) in Ha. destruct Ha as (cols & ->). cbn. eexists. reflexivity.
    - unfold fine. cbn [snd]. split.
      + intros (cols & E). destruct e, a; cbn in E; try discriminate. auto.
      + intros [-> ->]. cbn. eexists. reflexivity.
    - unfold fine. cbn [snd]. split; [auto|]. intros _. eexists. reflexivity.
  Qed.

  Theorem columns_fit_ok k a input cols r : Forall real_column cols -> columns_fit k a input cols = Ok r ->
    frame_of input r /\ Forall (fine a input) cols.
  Proof.
    intros Hr. unfold M_dispatch.columns_fit. destruct (mapM _ cols) as [css|] eqn:E; [|discriminate]. cbn [bind]. unfold assemble.
    destruct (mapM as_column (concat css)) as [ds|]; [|discriminate]. cbn [bind].
    destruct (make_frame input ds) as [d|]; [|discriminate]. cbn [bind]. intros E'. injection E' as <-.
    split; [exists d; reflexivity|]. apply mapM_Forall2 in E. clear ds d.
    induction E as [|c cs cols css E _ IH]; [constructor|]. inversion Hr as [|c0 l0 Hc Hr']; subst.
    constructor; [|exact (IH Hr')]. apply (one_fine k a input c Hc). exists cs. exact E.
  Qed.
  Theorem columns_fit_err k a input before c after e :
    Forall real_column before -> Forall (fine a input) before ->
    match snd c with
    | Some (h, Ok out) => real out /\ ~ accepted h input out /\ e = refusal input out
    | Some (_, Err e0) => ~ (e0 = RejectColumn /\ a = true) /\ e = ValueError
    | None => False
    end ->
    columns_fit k a input (before ++ c :: after) = Err e.
  Proof.
    intros Hr Hf Hc. unfold M_dispatch.columns_fit.
    assert (Ec : one k a input c = Err e).
    { destruct c as [c [[h [out|e0]]|]]; cbn [fst snd] in *; [| |destruct Hc].
      - destruct Hc as (H1 & H2 & ->). rewrite (column_fit_err a h input c out H1 H2). reflexivity.
      - destruct Hc as [Hn ->]. destruct e0; cbn; try reflexivity. destruct a; [exfalso; apply Hn; auto|reflexivity]. }
    match goal with |- (let! _ := ?m in _) = _ => assert (E : m = Err e); [|rewrite E; reflexivity] end.
    induction before as [|b before IH].
    - cbn [app mapM]. cbv beta in Ec. rewrite Ec. reflexivity.
    - inversion Hr as [|b0 l0 Hb Hr']; subst. inversion Hf as [|b0 l0 Hfb Hf']; subst. cbn [app mapM].
      apply (one_fine k a input b Hb) in Hfb. destruct Hfb as (cols & Ecols). cbv beta in Ecols. rewrite Ecols. cbn [bind].
      rewrite (IH Hr' Hf'). reflexivity.
  Qed.
  Theorem columns_transform_ok k input n cols r : columns_transform k input n cols = Ok r -> frame_of input r.
  Proof.
    unfold M_dispatch.columns_transform. destruct (mapM _ cols) as [css|]; [|discriminate]. cbn [bind]. unfold assemble.
    destruct (mapM as_column _) as [ds|]; [|discriminate]. cbn [bind].
    destruct (make_frame input ds) as [d|]; [|discriminate]. cbn [bind]. intros E'. injection E' as <-. exists d. reflexivity.
  Qed.
End Proofs.

(** ** The columns that go into the dataframe *)
Section Same.
  Context {D : Type}.
  Variable old : bool.
  Variable from_pandas : D -> D.
  Variable columns_of : D -> list D.
  (** the elements of a sequence are of the library of the input *)
  Definition all_of (input : lib) (v : value D) : Prop := match v with VSeq l => forall x, In x l -> exists d, x = VData input KColumn d | _ => True end.
  Notation column_fit := (column_fit old from_pandas columns_of).
  Notation cols_of_lib := (fun input l => forall x, In x l -> exists d : D, x = VData input KColumn d).
  Lemma fit_all_of a h input c out cols b : all_of input out -> real out -> column_fit a h input c (Ok out) = Ok (cols, b) -> cols_of_lib input cols.
  Proof.
    intros Ha Hr. destruct out as [[|] [| |] d|l|].
    7:{ cbn [M_dispatch.column_fit]. cbn [check_output is_dataframe is_column andb]. destruct (is_column_list (VSeq l)) eqn:El; cbn [andb].
        - destruct l as [|x l]; cbn [bind to_column_list]; [rewrite El|].
          + cbn. intros E. injection E as <- _. intros x [].
          + destruct (has_module input x); cbn [bind to_column_list]; [rewrite El|discriminate]. cbn [bind]. intros E. injection E as <- _. exact Ha.
        - discriminate. }
    all: destruct input, h, old; cbn; intros E; try discriminate; try (exfalso; exact (Hr d eq_refl)); injection E as <- <-;
      intros x Hx; try (apply in_map_iff in Hx; destruct Hx as (d' & <- & _); exists d'; reflexivity);
      destruct Hx as [<-|[]]; eexists; reflexivity.
  Qed.
  (** dataframes are made of columns of the input's library only: another way to make dataframes that agrees on these gives the
      same results *)
  Theorem columns_fit_same (make1 make2 : lib -> list (lib * D) -> res D) k a input cols :
    Forall real_column cols ->
    (forall c h out, In (c, Some (h, Ok out)) cols -> all_of input out) ->
    (forall ds, (forall x, In x ds -> fst x = input) -> make1 input ds = make2 input ds) ->
    columns_fit old from_pandas columns_of make1 k a input cols = columns_fit old from_pandas columns_of make2 k a input cols.
  Proof.
    intros Hr Ha Hm. unfold columns_fit. destruct (mapM _ cols) as [css|] eqn:E; [|reflexivity]. cbn [bind]. unfold assemble.
    assert (Hall : cols_of_lib input (concat css)).
    { apply mapM_Forall2 in E. induction E as [|c cs cols css E _ IH]; [intros x []|]. inversion Hr as [|c0 l0 Hc Hr']; subst.
      intros x Hx. cbn [concat] in Hx. apply in_app_or in Hx. destruct Hx as [Hx|Hx].
      2:{ apply (IH Hr'); [|exact Hx]. intros c1 h out Hin. apply (Ha c1 h out). right. exact Hin. }
      destruct c as [c [[h o]|]]; cbn [fst snd] in E.
      2:{ injection E as <-. destruct Hx as [<-|[]]. exists c. reflexivity. }
      destruct (column_fit a h input c o) as [[l b]|] eqn:E1; [|discriminate]. cbn [bind fst snd] in E. injection E as <-.
      assert (Hl : cols_of_lib input l).
      { destruct o as [out|e].
        - apply (fit_all_of a h input c out l b); [apply (Ha c h out); left; reflexivity|exact (Hc h out eq_refl)|exact E1].
        - destruct e; cbn in E1; try discriminate. destruct a; [|discriminate]. injection E1 as <- _. intros y [<-|[]]. exists c. reflexivity. }
      unfold with_original in Hx. destruct (b && k); [|exact (Hl x Hx)]. destruct Hx as [<-|Hx]; [exists c; reflexivity|exact (Hl x Hx)]. }
    destruct (mapM as_column (concat css)) as [ds|] eqn:Ed; [|reflexivity]. cbn [bind]. rewrite Hm; [reflexivity|].
    apply mapM_Forall2 in Ed. revert Hall. clear E. induction Ed as [|x d xs ds Ex _ IH]; intros Hall y Hy; [destruct Hy|].
    destruct Hy as [<-|Hy].
    - destruct (Hall x (or_introl eq_refl)) as (d0 & ->). cbn in Ex. injection Ex as <-. reflexivity.
    - exact (IH (fun x' Hx' => Hall x' (or_intror Hx')) y Hy).
  Qed.
End Same.
