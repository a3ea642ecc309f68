(** TextEncoder with what it keeps in memory and what it writes to files: /repo/skrub/_text_encoder.py lines 195-411.
    (M_refit.v has a simpler model of the same class, for successful fits only.) *)
From Coq Require Import ZArith.
From Verif Require Import Base M_names M_str M_numnames M_refit.
Open Scope string_scope.
Open Scope list_scope.
Open Scope nat_scope.

Section Encoder.
  (** [F]: floats; [X]: columns; [L]: the parameters a model is loaded with (its name, device, token and cache folder);
      [M]: loaded models; [S]: fitted decompositions. *)
  Context {F X L M S : Type}.
  (** [sbd.is_string] *)
  Variable is_string : X -> bool.
  (** Loading the model, lines 319-349, in a process: ModelNotFound, a missing library, ... *)
  Variable load : L -> res M.
  (** [_vectorize], lines 303-316. *)
  Variable encode : M -> X -> matrix F.
  (** [PCA(n).fit_transform] and [transform]; a negative [n] is refused. *)
  Variable pca_fit : Z -> matrix F -> res (S * matrix F).
  Variable pca_transform : S -> matrix F -> res (matrix F).

  (** The parameters, lines 185-206. The Booleans say whether the types are those that [_check_params] accepts. *)
  Record params : Type := mk_params {
    p_load : L;
    p_n_components : option Z;
    p_n_integral : bool;
    p_batch_ok : bool;
    p_cache_ok : bool;
    p_model_ok : bool;
    p_store_weights : bool
  }.
  (** A PCA is an attribute before it is fitted, lines 245-250. *)
  Inductive pca_attr : Type := PcaNew | PcaFitted (s : S).
  Record enc : Type := mk_enc {
    e_params : params;
    e_cache_folder : bool;            (* whether [_cache_folder] is set *)
    e_estimator : option M;           (* the cached property [_estimator] *)
    e_input_name : option string;     (* input_name_ *)
    e_pca : option pca_attr;          (* pca_ *)
    e_n_components : option nat       (* n_components_ *)
  }.
  Definition new_encoder (p : params) : enc := mk_enc p false None None None None.
  (** [set_params] *)
  Definition set_params (p : params) (e : enc) : enc :=
    mk_enc p (e_cache_folder e) (e_estimator e) (e_input_name e) (e_pca e) (e_n_components e).

  (** [_check_params], lines 351-378 *)
  Definition check_params (p : params) : res unit :=
    if match p_n_components p with Some _ => negb (p_n_integral p) | None => false end then Err ValueError
    else if negb (p_batch_ok p) then Err ValueError
    else if negb (p_cache_ok p) then Err ValueError
    else if negb (p_model_ok p) then Err ValueError
    else Ok tt.

  (** [self._estimator], lines 318-349: once loaded it stays. *)
  Definition get_model (e : enc) : enc * res M :=
    match e_estimator e with
    | Some m => (e, Ok m)
    | None =>
        match load (p_load (e_params e)) with
        | Ok m => (mk_enc (e_params e) true (Some m) (e_input_name e) (e_pca e) (e_n_components e), Ok m)
        | Err ex => (mk_enc (e_params e) true None (e_input_name e) (e_pca e) (e_n_components e), Err ex)
        end
    end.

  (** [X_out\[:, :n\]] *)
  Definition cut (n : Z) (m : matrix F) : matrix F :=
    let w := Z.of_nat (width m) in
    truncate (Z.to_nat (if (n <? 0)%Z then w + n else n)) m.

  (** [get_feature_names_out], lines 380-394; [check_is_fitted] looks for an attribute whose name ends with an underscore. *)
  Definition feature_names (e : enc) : res (list string) :=
    match e_input_name e, e_pca e, e_n_components e with
    | None, None, None => Err NotFittedError
    | _, _, None => Err AttributeError
    | None, _, Some _ => Err AttributeError
    | Some name, _, Some n => Ok (text_names name n)
    end.

  (** [fit_transform], lines 208-267 *)
  Definition fit_transform (name : string) (x : X) (e : enc) : enc * res (frame (list F)) :=
    if negb (is_string x) then (e, Err RejectColumn)
    else
      match check_params (e_params e) with
      | Err ex => (e, Err ex)
      | Ok _ =>
          let e1 := mk_enc (e_params e) (e_cache_folder e) (e_estimator e) (Some name) (e_pca e) (e_n_components e) in
          match get_model e1 with
          | (e2, Err ex) => (e2, Err ex)
          | (e2, Ok m) =>
              let X_out := encode m x in
              let with_pca pca := mk_enc (e_params e2) (e_cache_folder e2) (e_estimator e2) (e_input_name e2) pca (e_n_components e2) in
              let r :=
                match p_n_components (e_params e) with
                | None => Ok (e2, X_out)
                | Some n =>
                    if (n <=? Z.of_nat (min_shape X_out))%Z then
                      match pca_fit n X_out with
                      | Ok (s, out) => Ok (with_pca (Some (PcaFitted s)), out)
                      | Err ex => Err ex
                      end
                    else Ok (e2, cut n X_out)
                end in
              match r with
              | Err ex => (with_pca (Some PcaNew), Err ex)
              | Ok (e3, out) =>
                  let e4 := mk_enc (e_params e3) (e_cache_folder e3) (e_estimator e3) (e_input_name e3) (e_pca e3) (Some (width out)) in
                  (e4, let! names := feature_names e4 in Ok (post_process names out))
              end
          end
      end.

  (** [transform], lines 269-301. [check_is_fitted(self, "_estimator")] is [hasattr], which loads the model. *)
  Definition transform (x : X) (e : enc) : enc * res (frame (list F)) :=
    match get_model e with
    | (e1, Err AttributeError) => (e1, Err NotFittedError)
    | (e1, Err ex) => (e1, Err ex)
    | (e1, Ok m) =>
        if negb (is_string x) then (e1, Err ValueError)
        else
          let X_out := encode m x in
          (e1,
           let! out := match e_pca e1 with
                       | Some (PcaFitted s) => pca_transform s X_out
                       | Some PcaNew => Err NotFittedError
                       | None => Ok (match p_n_components (e_params e1) with
                                     | Some n => cut n X_out
                                     | None => X_out
                                     end)
                       end in
           let! names := feature_names e1 in
           Ok (post_process names out))
    end.

  (** [__getstate__], lines 396-411: what a pickle, or a copy, has. *)
  Definition getstate (e : enc) : enc :=
    mk_enc (e_params e) false (if p_store_weights (e_params e) then e_estimator e else None)
      (e_input_name e) (e_pca e) (e_n_components e).

  (** *** Histories *)
  Inductive op : Type :=
  | SetParams (p : params)
  | Fit (name : string) (x : X)
  | Transform (x : X)
  | SaveLoad.
  Inductive answer : Type := Done | Table (r : res (frame (list F))).
  Definition do_op (o : op) (e : enc) : enc * answer :=
    match o with
    | SetParams p => (set_params p e, Done)
    | Fit name x => let (e', r) := fit_transform name x e in (e', Table r)
    | Transform x => let (e', r) := transform x e in (e', Table r)
    | SaveLoad => (getstate e, Done)
    end.
  Fixpoint run (ops : list op) (e : enc) : enc * list answer :=
    match ops with
    | [] => (e, [])
    | o :: ops' =>
        let (e1, a) := do_op o e in
        let (e2, l) := run ops' e1 in
        (e2, a :: l)
    end.
End Encoder.
Arguments params L : clear implicits.
Arguments enc L M S : clear implicits.
Arguments op X L : clear implicits.
Arguments answer F : clear implicits.
