(** StringEncoder and TextEncoder and what they keep from one fit to the next: /repo/skrub/_string_encoder.py and
    /repo/skrub/_text_encoder.py. *)
From Verif Require Import Base M_names M_str M_numnames.
Open Scope string_scope.
Open Scope list_scope.
Open Scope nat_scope.

(** A matrix: its number of rows and its columns. *)
Record matrix (F : Type) := { nrows : nat; mcols : list (list F) }.
Arguments nrows {F}. Arguments mcols {F}. Arguments Build_matrix {F}.
Definition width {F} (m : matrix F) : nat := length (mcols m).
(** [min(X_out.shape)] *)
Definition min_shape {F} (m : matrix F) : nat := Nat.min (nrows m) (width m).
(** [X_out[:, :n]] *)
Definition truncate {F} (n : nat) (m : matrix F) : matrix F := {| nrows := nrows m; mcols := firstn n (mcols m) |}.
(** [make_dataframe_like(X, dict(zip(names, result.T)))]: the names are distinct. *)
Definition post_process {F} (names : list string) (m : matrix F) : frame (list F) := combine names (mcols m).

Section StringEncoder.
  (** [F]: floats; [X]: columns of strings (nulls filled with the empty string); [P]: parameters of the vectorizer;
      [V]: fitted vectorizers; [S]: fitted decompositions. *)
  Context {F X P V S : Type}.
  (** [TfidfVectorizer] or the hashing pipeline: 115-136. *)
  Variable vec_fit : P -> X -> res V.
  Variable vec_transform : V -> X -> matrix F.
  (** [TruncatedSVD]: fitting also gives the transformed matrix; [transform] refuses other widths. *)
  Variable svd_fit : nat -> matrix F -> S * matrix F.
  Variable svd_transform : S -> matrix F -> res (matrix F).

  (** The attributes; an attribute that is not set is [None]. *)
  Record sstate := { vectorizer_ : option V; tsvd_ : option S; n_components_ : nat; all_outputs_ : list string }.
  Definition s_fresh : sstate := {| vectorizer_ := None; tsvd_ := None; n_components_ := 0; all_outputs_ := [] |}.

  (** [StringEncoder.fit_transform], 97-169, on an encoder with attributes [st]. [name]: [None] stands for the names
      that are false in Python. *)
  Definition s_fit_transform (st : sstate) (params : P) (n_components : nat) (name : option string) (x : X) : res (sstate * frame (list F)) :=
    let! v := vec_fit params x in
    let X_out := vec_transform v x in
    let '(svd, result) :=
      if n_components <? min_shape X_out then let '(s, r) := svd_fit n_components X_out in (Some s, r)
      else if width X_out =? n_components then (tsvd_ st, X_out)
      else (tsvd_ st, truncate n_components X_out) in
    let name := match name with Some s => s | None => "tsvd" end in
    let outputs := map (fun idx => (name ++ "_" ++ str_nat idx)%string) (seq 0 (width result)) in
    Ok ({| vectorizer_ := Some v; tsvd_ := svd; n_components_ := width result; all_outputs_ := outputs |}, post_process outputs result).

  (** [StringEncoder.transform], 171-202. *)
  Definition s_transform (st : sstate) (n_components : nat) (x : X) : res (frame (list F)) :=
    match vectorizer_ st with
    | None => Err AttributeError
    | Some v =>
        let X_out := vec_transform v x in
        let! result := match tsvd_ st with Some s => svd_transform s X_out | None => Ok (truncate n_components X_out) end in
        Ok (post_process (all_outputs_ st) result)
    end.
End StringEncoder.

Section TextEncoder.
  (** [N]: names of models; [M]: loaded models; [S]: fitted decompositions. *)
  Context {F X N M S : Type}.
  Variable load : N -> res M.
  Variable encode : M -> X -> matrix F.
  Variable pca_fit : nat -> matrix F -> S * matrix F.
  Variable pca_transform : S -> matrix F -> res (matrix F).

  (** The attributes; [estimator] is the cached property [_estimator], 318-349. *)
  Record tstate := { estimator : option M; pca_ : option S; tn_components_ : nat; input_name_ : string }.
  Definition t_fresh : tstate := {| estimator := None; pca_ := None; tn_components_ := 0; input_name_ := "" |}.

  (** [TextEncoder.fit_transform], 208-267, for a column of strings and valid parameters. *)
  Definition t_fit_transform (st : tstate) (model : N) (n_components : option nat) (name : string) (x : X) : res (tstate * frame (list F)) :=
    let! m := match estimator st with Some m => Ok m | None => load model end in
    let X_out := encode m x in
    let '(pca, result) :=
      match n_components with
      | None => (pca_ st, X_out)
      | Some n => if n <=? min_shape X_out then let '(s, r) := pca_fit n X_out in (Some s, r) else (pca_ st, truncate n X_out)
      end in
    Ok ({| estimator := Some m; pca_ := pca; tn_components_ := width result; input_name_ := name |}, post_process (text_names name (width result)) result).

  (** [TextEncoder.transform], 269-301. *)
  Definition t_transform (st : tstate) (n_components : option nat) (x : X) : res (frame (list F)) :=
    match estimator st with
    | None => Err NotFittedError
    | Some m =>
        let X_out := encode m x in
        let! result := match pca_ st, n_components with
                       | Some s, _ => pca_transform s X_out
                       | None, Some n => Ok (truncate n X_out)
                       | None, None => Ok X_out
                       end in
        Ok (post_process (text_names (input_name_ st) (tn_components_ st)) result)
    end.
End TextEncoder.
