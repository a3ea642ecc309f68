(** GapEncoder: /repo/skrub/_gap_encoder.py. *)
From Verif Require Import Base M_names M_str M_lru.
Open Scope string_scope.
Open Scope list_scope.
Open Scope nat_scope.

(** The numbers and the operations of numpy on them, whatever their rounding. *)
Record arith := { num : Type; add : num -> num -> num; sub : num -> num -> num; mul : num -> num -> num; div : num -> num -> num;
                  leb : num -> num -> bool; pow : num -> num -> num; absn : num -> num; of_nat : nat -> num; tiny : num (* 1e-10 *);
                  tol : num (* 1e-3 *) }.

Section Gap.
  Variable N : arith.
  Notation F := (num N).
  Notation vec := (list F).
  (** A row of a sparse matrix: its indices and data. *)
  Notation row := (list (nat * F)).
  (** Fitted vectorizers and the states of random generators. *)
  Context {Z R : Type}.

  Definition zero : F := of_nat N 0.
  Definition one : F := of_nat N 1.
  Definition sum (v : vec) : F := fold_left (add N) v zero.
  Fixpoint zip_with {A B C} (f : A -> B -> C) (a : list A) (b : list B) : list C :=
    match a, b with x :: a', y :: b' => f x y :: zip_with f a' b' | _, _ => [] end.
  Definition dot (a b : vec) : F := sum (zip_with (mul N) a b).
  (** [W[:, j]] and [W[:, idx]]: indices are those of columns of [W]. *)
  Definition at_ (v : vec) (j : nat) : F := nth j v zero.
  Definition column (W : list vec) (j : nat) : vec := map (fun w => at_ w j) W.

  (** The parameters of the constructor that the modelled code reads, 191-222. [seed]: [random_state]. *)
  Record gcfg := { n_components : nat; batch_size : nat; gamma_shape_prior : F; gamma_scale_prior : F; rho : F; rescale_rho : bool;
                   hashing : bool; add_words : bool; rescale_W : bool; max_iter : nat; max_iter_e_step : nat;
                   max_no_improvement : option nat; seed : R }.
  (** The attributes set by fitting; [None]: not set. *)
  Record gstate := { ngrams_count_ : option Z; word_count_ : option Z; vocabulary : option (list string);
                     H_dict_ : option (dict string vec); W_ : list vec; A_ : list vec; B_ : list vec; rho_ : option F;
                     random_state_ : option R; input_name : option (option string) }.
  Definition g_new : gstate :=
    {| ngrams_count_ := None; word_count_ := None; vocabulary := None; H_dict_ := None; W_ := []; A_ := []; B_ := []; rho_ := None;
       random_state_ := None; input_name := None |}.
  Definition set_H (d : dict string vec) (st : gstate) : gstate :=
    {| ngrams_count_ := ngrams_count_ st; word_count_ := word_count_ st; vocabulary := vocabulary st; H_dict_ := Some d; W_ := W_ st;
       A_ := A_ st; B_ := B_ st; rho_ := rho_ st; random_state_ := random_state_ st; input_name := input_name st |}.
  Definition set_WAB (w a b : list vec) (st : gstate) : gstate :=
    {| ngrams_count_ := ngrams_count_ st; word_count_ := word_count_ st; vocabulary := vocabulary st; H_dict_ := H_dict_ st; W_ := w;
       A_ := a; B_ := b; rho_ := rho_ st; random_state_ := random_state_ st; input_name := input_name st |}.

  (** A column: whether it is categorical or made of strings, its name ([None]: false in Python) and its values ([None]: null). *)
  Record gcolumn := { textual : bool; cname : option string; values : list (option string) }.

  (** [CountVectorizer] and [HashingVectorizer] ([hash]), on n-grams ([words] false) or words: fitting (a [CountVectorizer] refuses an empty
      vocabulary), the counts of one text, the number of columns, the feature names. *)
  Variable vec_fit : bool -> bool -> list string -> res Z.
  Variable vec_counts : Z -> string -> row.
  Variable vec_width : Z -> nat.
  Variable vec_names : Z -> list string.
  (** The matrix of [_init_w] before it is normalised, 292-337; it depends on the counts, on the values, and uses the random generator. *)
  Variable draw_w : gcfg -> Z -> option Z -> R -> list row -> list (option string) -> res (list vec * R).
  (** [_beta_divergence] of scikit-learn, Kullback-Leibler. *)
  Variable divergence : list row -> list vec -> list vec -> F.
  (** [CountVectorizer().fit(keys)] and [CountVectorizer(analyzer="char_wb").fit(keys)]: their feature names. *)
  Variable words_of : list string -> res (list string).
  Variable chars_of : list string -> res (list string).
  (** [np.argsort(-x)] *)
  Variable argsort : vec -> list nat.

  (** ** Updates *)

  (** One row of [_rescale_h], 829-836. *)
  Definition rescale_h (v : row) (h : vec) : vec :=
    let s := sum (map snd v) in
    let h := map (fun x => mul N x (if leb N (tiny N) s then s else tiny N)) h in
    map (fun x => div N x (sum h)) h.

  (** The loop of [_multiplicative_update_h] on one row, 863-872. [num]: squared_norm. *)
  Fixpoint update_loop (W_WT1_ W_ : list vec) (const : vec) (vt_ : vec) (n : nat) (squared_norm : F) (ht : vec) : vec :=
    match n with
    | 0 => ht
    | S n' =>
        if leb N squared_norm (mul N (tol N) (tol N)) then ht
        else
          let ratio := zip_with (fun v j => div N v (add N (dot ht (column W_ j)) (tiny N))) vt_ (seq 0 (length vt_)) in
          let aux := map (fun w => dot w ratio) W_WT1_ in
          let ht_out := zip_with (add N) (zip_with (mul N) ht aux) const in
          let diff := zip_with (sub N) ht_out ht in
          update_loop W_WT1_ W_ const vt_ n' (div N (dot diff diff) (dot ht ht)) ht_out
    end.
  (** [_multiplicative_update_h], 839-873, on one row: the rows are updated one after the other, in place. *)
  Definition update_h_row (c : gcfg) (max_it : nat) (W : list vec) (v : row) (h : vec) : vec :=
    let WT1 := map (fun w => add N (if rescale_W c then one else sum w) (div N one (gamma_scale_prior c))) W in
    let W_WT1 := zip_with (fun w t => map (fun x => div N x t) w) W WT1 in
    let const := map (fun t => div N (sub N (gamma_shape_prior c) one) t) WT1 in
    let idx := map fst v in
    update_loop (map (fun w => map (at_ w) idx) W_WT1) (map (fun w => map (at_ w) idx) W) const (map snd v) max_it one h.
  Definition update_h (c : gcfg) (max_it : nat) (W : list vec) (V : list row) (H : list vec) : list vec :=
    zip_with (update_h_row c max_it W) V H.

  (** [_multiplicative_update_w] with [_rescale_W], 769-826. The entries of [V] are divided by those of [HW] where they are not null. *)
  Definition entry (v : row) (j : nat) : F := sum (map snd (filter (fun e => fst e =? j) v)).
  Definition update_w (resc : bool) (r : F) (V : list row) (H : list vec) (W A B : list vec) : list vec * list vec * list vec :=
    let A := map (map (fun x => mul N x r)) A in
    let V := zip_with (fun v h => map (fun e => (fst e, div N (snd e) (add N (dot h (column W (fst e))) (tiny N)))) v) V H in
    let HtVt k j := sum (zip_with (fun v h => mul N (at_ h k) (entry v j)) V H) in
    let A := zip_with (fun a k => zip_with (fun x j => add N x (mul N (at_ (nth k W []) j) (HtVt k j))) a (seq 0 (length a))) A (seq 0 (length A)) in
    let B := map (map (fun x => mul N x r)) B in
    let B := zip_with (fun b k => map (fun x => add N x (sum (map (fun h => at_ h k) H))) b) B (seq 0 (length B)) in
    let W := zip_with (zip_with (div N)) A B in
    if resc then
      let s := map sum W in
      (zip_with (fun w t => map (fun x => div N x t) w) W s, zip_with (fun a t => map (fun x => div N x t) a) A s, B)
    else (W, A, B).

  (** ** Counts *)

  (** [self.ngrams_count_.transform(X)], followed by the counts of words when there are (240-241, 259-261, 584-587, 644-647 and 741-744). *)
  Definition hstack (n : nat) (v v2 : row) : row := v ++ map (fun e => (n + fst e, snd e)) v2.
  Definition counts (c : gcfg) (st : gstate) (x : string) : res row :=
    match ngrams_count_ st with
    | None => Err AttributeError
    | Some z =>
        if add_words c then match word_count_ st with
                            | None => Err AttributeError
                            | Some z2 => Ok (hstack (vec_width z) (vec_counts z x) (vec_counts z2 x))
                            end
        else Ok (vec_counts z x)
    end.

  (** [_get_H], 281-290. A null gives the empty text. *)
  Definition text (v : option string) : string := match v with Some s => s | None => EmptyString end.
  Definition get_H (d : dict string vec) (X : list string) : res (list vec) :=
    mapM (fun x => match dget x d with Some h => Ok h | None => Err KeyError end) X.
  (** [self.H_dict_.update(zip(unq_X, unq_H))] *)
  Definition update_dict (d : dict string vec) (X : list string) (H : list vec) : dict string vec :=
    fold_left (fun d kv => dset (fst kv) (snd kv) d) (combine X H) d.

  (** [_init_vars], 224-279 with [_init_w], 337-340. *)
  Definition init_vars (c : gcfg) (st : gstate) (r : R) (X : list (option string)) : res (gstate * list string * list row * list nat) :=
    let '(unq_X, lookup) := unique_strings X in
    let! z := vec_fit (hashing c) false unq_X in
    let! z2 := (if add_words c then let! z2 := vec_fit (hashing c) true unq_X in Ok (Some z2) else Ok (word_count_ st)) in
    let vocab := if hashing c then vocabulary st
                 else Some (vec_names z ++ match z2 with Some z2 => if add_words c then vec_names z2 else [] | None => [] end) in
    let st := {| ngrams_count_ := Some z; word_count_ := z2; vocabulary := vocab; H_dict_ := Some []; W_ := W_ st; A_ := A_ st; B_ := B_ st;
                 rho_ := rho_ st; random_state_ := random_state_ st; input_name := input_name st |} in
    let! unq_V := mapM (counts c st) unq_X in
    let n_vocab := vec_width z + (if add_words c then match z2 with Some z2 => vec_width z2 | None => 0 end else 0) in
    let! V := mapM (fun i => match nth_error unq_V i with Some v => Ok v | None => Err IndexError end) lookup in
    let! (W, r) := draw_w c z z2 r V X in
    let W := map (fun w => map (fun x => div N x (sum w)) w) W in
    let A := repeat (repeat (mul N one (tiny N)) n_vocab) (n_components c) in
    let unq_H := map (fun v => rescale_h v (repeat one (n_components c))) unq_V in
    let! rho' := (if rescale_rho c then match length X with
                                         | 0 => Err ZeroDivisionError
                                         | n => Ok (Some (pow N (rho c) (div N (of_nat N (batch_size c)) (of_nat N n))))
                                         end
                  else Ok (rho_ st)) in
    Ok ({| ngrams_count_ := Some z; word_count_ := z2; vocabulary := vocab; H_dict_ := Some (update_dict [] unq_X unq_H); W_ := W; A_ := A;
           B_ := A; rho_ := rho'; random_state_ := Some r; input_name := input_name st |}, unq_X, unq_V, lookup).

  (** [_add_unseen_keys_to_H_dict], 692-706. *)
  Definition unseen (d : dict string vec) (X : list string) : list string := filter (fun x => negb (mem x (dkeys d))) (np_unique X).
  Definition add_unseen (c : gcfg) (st : gstate) (d : dict string vec) (X : list string) : res (dict string vec) :=
    let unseen_X := unseen d X in
    let! unseen_V := mapM (counts c st) unseen_X in
    Ok (update_dict d unseen_X (map (fun v => rescale_h v (repeat one (n_components c))) unseen_V)).

  (** [gen_batches]: consecutive slices. [fuel]: at least the length. *)
  Fixpoint chunks {A} (fuel b : nat) (l : list A) : list (list A) :=
    match fuel, l with
    | S fuel', _ :: _ => firstn b l :: chunks fuel' b (skipn b l)
    | _, _ => []
    end.
  Definition update_batches (c : gcfg) (max_it : nat) (W : list vec) (V : list row) (H : list vec) : res (list vec) :=
    if batch_size c =? 0 then Err ValueError
    else Ok (concat (zip_with (update_h c max_it W) (chunks (length H) (batch_size c) V) (chunks (length H) (batch_size c) H))).

  (** ** Transforming *)

  (** [_transform], 736-766: the attributes afterwards and the result. The dictionary is put back only when nothing was raised. *)
  Definition transform_ (c : gcfg) (st : gstate) (X : list (option string)) : gstate * res (list vec) :=
    match H_dict_ st with
    | None => (st, Err AttributeError)
    | Some pre =>
        let '(unq_X, _) := unique_strings X in
        match mapM (counts c st) unq_X with
        | Err e => (st, Err e)
        | Ok unq_V =>
            match add_unseen c st pre unq_X with
            | Err e => (st, Err e)
            | Ok d =>
                let st' := set_H d st in
                match get_H d unq_X with
                | Err e => (st', Err e)
                | Ok unq_H =>
                    match update_batches c 100 (W_ st) unq_V unq_H with
                    | Err e => (st', Err e)
                    | Ok unq_H =>
                        let d := update_dict d unq_X unq_H in
                        match get_H d (map text X) with
                        | Err e => (set_H d st, Err e)
                        | Ok result => (set_H pre st, Ok result)
                        end
                    end
                end
            end
        end
    end.

  (** [get_feature_names_out], 521-562; [n_labels] is 3 by default. *)
  Definition label_of (vocab : list string) (x : vec) (n_labels : nat) : string :=
    String.concat ", " (map (fun i => nth i vocab EmptyString) (firstn n_labels (argsort x))).
  Fixpoint label_loop (name : option string) (labels : list string) (i : nat) (seen : list string) : list string :=
    match labels with
    | [] => seen
    | label :: labels' =>
        let label := match name with Some n => (n ++ ": " ++ label)%string | None => label end in
        let label := if mem label seen then (label ++ " (" ++ str_nat i ++ ")")%string else label in
        label_loop name labels' (S i) (seen ++ [label])
    end.
  Definition get_feature_names_out (c : gcfg) (st : gstate) (n_labels : nat) : gstate * res (list string) :=
    match H_dict_ st with
    | None => (st, Err NotFittedError)
    | Some d =>
        match (match words_of (dkeys d) with Err ValueError => chars_of (dkeys d) | r => r end) with
        | Err e => (st, Err e)
        | Ok vocab =>
            match transform_ c st (map Some vocab) with
            | (st', Err e) => (st', Err e)
            | (st', Ok encoding) =>
                let encoding := map (map (absn N)) encoding in
                let encoding := map (fun r => map (fun x => div N x (sum r)) r) encoding in
                let labels := map (fun i => label_of vocab (map (fun r => at_ r i) encoding) n_labels) (seq 0 (n_components c)) in
                (st', Ok (label_loop (match input_name st with Some n => n | None => None end) labels 0 []))
            end
        end
    end.

  (** [transform], 708-729. *)
  Definition transform (c : gcfg) (st : gstate) (X : gcolumn) : gstate * res (frame vec) :=
    match H_dict_ st with
    | None => (st, Err NotFittedError)
    | Some _ =>
        if negb (textual X) then (st, Err ValueError)
        else match transform_ c st (values X) with
             | (st, Err e) => (st, Err e)
             | (st, Ok result) =>
                 match get_feature_names_out c st 3 with
                 | (st, Err e) => (st, Err e)
                 | (st, Ok names) =>
                     let columns := map (fun i => map (fun r => at_ r i) result) (seq 0 (n_components c)) in
                     (st, Ok (fold_left (fun d kv => dset (fst kv) (snd kv) d) (combine names columns) []))
                 end
             end
    end.

  (** [score], 564-607. *)
  Definition pick_rows {A} (l : list A) (lookup : list nat) : res (list A) :=
    mapM (fun i => match nth_error l i with Some v => Ok v | None => Err IndexError end) lookup.
  Definition score (c : gcfg) (st : gstate) (X : gcolumn) : gstate * res F :=
    let '(unq_X, lookup) := unique_strings (values X) in
    match mapM (counts c st) unq_X with
    | Err e => (st, Err e)
    | Ok unq_V =>
        match H_dict_ st with
        | None => (st, Err AttributeError)
        | Some d =>
            match add_unseen c st d unq_X with
            | Err e => (st, Err e)
            | Ok d =>
                let st := set_H d st in
                (st, let! unq_H := get_H d unq_X in
                     let! unq_H := update_batches c (max_iter_e_step c) (W_ st) unq_V unq_H in
                     let! V := pick_rows unq_V lookup in
                     let! H := pick_rows unq_H lookup in
                     Ok (divergence V H (W_ st)))
            end
        end
    end.

  (** ** Fitting *)

  (** [_minibatch_convergence], 342-422, without the messages: whether to stop, [_ewa_cost], [_ewa_cost_min], [_no_improvement]. *)
  Record monitor := { ewa : option F; ewa_min : option F; no_improvement : nat }.
  Definition convergence (c : gcfg) (m : monitor) (size : nat) (cost : F) (n_samples step : nat) : bool * monitor :=
    if step =? 0 then (false, m)
    else
      let e := match ewa m with
               | None => cost
               | Some e => let alpha := div N (of_nat N size) (of_nat N (n_samples + 1)) in
                           let alpha := if leb N alpha one then alpha else one in
                           add N (mul N e (sub N one alpha)) (mul N cost alpha)
               end in
      let better := match ewa_min m with None => true | Some lo => negb (leb N lo e) end in
      let m := if better then {| ewa := Some e; ewa_min := Some e; no_improvement := 0 |}
               else {| ewa := Some e; ewa_min := ewa_min m; no_improvement := S (no_improvement m) |} in
      (match max_no_improvement c with Some k => k <=? no_improvement m | None => false end, m).

  (** The loop of [fit] over the batches, 475-510, and over the iterations, 472-513. *)
  Fixpoint fit_batches (c : gcfg) (r : F) (n_samples : nat) (unq_V : list row) (batches : list (list nat)) (step : nat)
             (s : list vec * (list vec * list vec * list vec) * monitor) : res (bool * (list vec * (list vec * list vec * list vec) * monitor)) :=
    match batches with
    | [] => Ok (false, s)
    | idx :: batches' =>
        let '(unq_H, (W, A, B), m) := s in
        let unq_H := zip_with (fun i vh => if mem i idx then update_h_row c (max_iter_e_step c) W (fst vh) (snd vh) else snd vh)
                              (seq 0 (length unq_H)) (combine unq_V unq_H) in
        let! V := pick_rows unq_V idx in
        let! H := pick_rows unq_H idx in
        let '(W, A, B) := update_w (rescale_W c) r V H W A B in
        let '(stop, m) := convergence c m (length idx) (div N (divergence V H W) (of_nat N (length idx))) n_samples step in
        if stop then Ok (true, (unq_H, (W, A, B), m))
        else fit_batches c r n_samples unq_V batches' (S step) (unq_H, (W, A, B), m)
    end.
  Fixpoint fit_iterations (c : gcfg) (r : F) (n_samples : nat) (unq_V : list row) (batches : list (list nat)) (n : nat) (step : nat)
             (s : list vec * (list vec * list vec * list vec) * monitor) : res (list vec * (list vec * list vec * list vec) * monitor) :=
    match n with
    | 0 => Ok s
    | S n' =>
        let! (stop, s) := fit_batches c r n_samples unq_V batches step s in
        if stop then Ok s else fit_iterations c r n_samples unq_V batches n' (step + length batches) s
    end.

  (** [fit], 431-519; [analyzer] is valid. The attributes of a fit that fails are not modelled. *)
  Definition fit (c : gcfg) (st : gstate) (X : gcolumn) : res gstate :=
    if negb (textual X) then Err RejectColumn
    else if length (values X) <? n_components c then Err ValueError
    else
      let st := {| ngrams_count_ := ngrams_count_ st; word_count_ := word_count_ st; vocabulary := vocabulary st; H_dict_ := H_dict_ st;
                   W_ := W_ st; A_ := A_ st; B_ := B_ st; rho_ := Some (rho c); random_state_ := Some (seed c);
                   input_name := Some (cname X) |} in
      let! (st, unq_X, unq_V, lookup) := init_vars c st (seed c) (values X) in
      if batch_size c =? 0 then Err ZeroDivisionError
      else
        match H_dict_ st, rho_ st with
        | Some d, Some r =>
            let! unq_H := get_H d unq_X in
            let! s := fit_iterations c r (length (values X)) unq_V (chunks (length lookup) (batch_size c) lookup) (max_iter c) 0
                                     (unq_H, (W_ st, A_ st, B_ st), {| ewa := None; ewa_min := None; no_improvement := 0 |}) in
            let '(unq_H, (W, A, B), _) := s in
            Ok (set_H (update_dict d unq_X unq_H) (set_WAB W A B st))
        | _, _ => Err AttributeError
        end.

  (** [partial_fit], 609-690. The attributes of a call that fails are not modelled. *)
  Definition partial_fit (c : gcfg) (st : gstate) (X : gcolumn) : res gstate :=
    if negb (textual X) then Err RejectColumn
    else
      let r := match random_state_ st with Some r => r | None => seed c end in
      let st := {| ngrams_count_ := ngrams_count_ st; word_count_ := word_count_ st; vocabulary := vocabulary st;
                   H_dict_ := Some match H_dict_ st with Some d => d | None => [] end;
                   W_ := W_ st; A_ := A_ st; B_ := B_ st; rho_ := Some match rho_ st with Some r => r | None => rho c end;
                   random_state_ := Some r; input_name := Some match input_name st with Some n => n | None => cname X end |} in
      let! (st, unq_X, unq_V, lookup) :=
        (match vocabulary st, H_dict_ st with
         | Some _, Some d =>
             let '(unq_X, lookup) := unique_strings (values X) in
             let! unq_V := mapM (counts c st) unq_X in
             let! d := add_unseen c st d unq_X in
             Ok (set_H d st, unq_X, unq_V, lookup)
         | _, _ => init_vars c st r (values X)
         end) in
      match H_dict_ st, rho_ st with
      | Some d, Some rh =>
          let! unq_H := get_H d unq_X in
          let unq_H := update_h c (max_iter_e_step c) (W_ st) unq_V unq_H in
          let! V := pick_rows unq_V lookup in
          let! H := pick_rows unq_H lookup in
          let '(W, A, B) := update_w (rescale_W c) rh V H (W_ st) (A_ st) (B_ st) in
          Ok (set_H (update_dict d unq_X unq_H) (set_WAB W A B st))
      | _, _ => Err AttributeError
      end.
End Gap.
