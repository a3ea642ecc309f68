(** The pages of the report of an evaluation, /repo/skrub/_expressions/_inspection.py lines 46-231
    ([node_report], [_get_output_dir], [_node_status], [full_report], [_do_full_report]) and the
    template /repo/skrub/_reporting/_data/templates/expressions/node.html.

    The page of a step is what the template shows: its links, and the output, the error or
    neither. Files are entries of a file system; opening the browser is not modelled. *)
From Verif Require Import Base M_str M_traverse M_expr M_choicegraph M_graph.
Open Scope string_scope.
Open Scope list_scope.
Open Scope nat_scope.

(** A subclass of OSError. *)
Definition FileExistsError : exn := UserError 17.
(** [write_text] of a text that cannot be encoded; a subclass of ValueError. *)
Definition UnicodeEncodeError : exn := UserError 18.

(** What the template shows at the end of the page, node.html lines 86-107. *)
Inductive outcome_shown : Type :=
| Output (html : string)
| Failed (ex : exn)
| DidNotRun.
Inductive status : Type := Success | Error | NoStatus.

Record page : Type := mk_page {
  pg_title : string;                          (* node_repr *)
  pg_previous : option nat;                   (* node.html lines 30-32 *)
  pg_next : option nat;                       (* lines 35-37 *)
  pg_used : list (nat * string);              (* lines 52-57, under "This step used" *)
  pg_used_by : list (nat * string);           (* lines 62-67, under "This step was used by" *)
  pg_extras : string;                         (* creation stack, estimator *)
  pg_outcome : outcome_shown;
  pg_status : list (nat * status)             (* node_status, in the drawing at the top *)
}.

(** *** Files *)
Definition path := list string.
Inductive content : Type := Index (st : list (nat * status)) | NodePage (p : page) | Text (t : string).
Inductive entry : Type := Dir | File (c : content).
Definition fs := path -> option entry.
Definition prefix (p q : path) : bool := eqb_of (firstn (length p) q) p.
Definition fput (d : fs) (p : path) (x : option entry) : fs := fun q => if eqd q p then x else d q.
Definition exists_ (d : fs) (p : path) : bool := match d p with Some _ => true | None => false end.

(** [shutil.rmtree] *)
Definition rmtree (p : path) (d : fs) : fs * res unit :=
  match d p with
  | Some Dir => (fun q => if prefix p q then None else d q, Ok tt)
  | _ => (d, Err OSError)
  end.
(** [mkdir(parents=True)]: ancestors that are missing are created first, from the root. [done] is the
    path of an ancestor, [todo] the rest. *)
Fixpoint mkdirs (done todo : path) (d : fs) : fs * res unit :=
  match todo with
  | [] => (d, Err FileExistsError)
  | [name] =>
      let p := done ++ [name] in
      match d p with
      | Some _ => (d, Err FileExistsError)
      | None => (fput d p (Some Dir), Ok tt)
      end
  | name :: todo' =>
      let p := done ++ [name] in
      match d p with
      | Some Dir => mkdirs p todo' d
      | Some (File _) => (d, Err OSError) (* NotADirectoryError *)
      | None => mkdirs p todo' (fput d p (Some Dir))
      end
  end.

(** [_get_output_dir], lines 70-89. [output_dir] is resolved already (line 79): the names from the
    root of the file system; [new_dir] is the path of lines 73-77, in the data directory, with the time and a random name. *)
Definition get_output_dir (new_dir : path) (output_dir : option path) (overwrite : bool) (d : fs)
  : fs * res path :=
  match output_dir with
  | None => match mkdirs [] new_dir d with (d', r) => (d', let! _ := r in Ok new_dir) end
  | Some p =>
      if exists_ d p then
        if overwrite then
          match rmtree p d with
          | (d1, Err ex) => (d1, Err ex)
          | (d1, Ok _) => match mkdirs [] p d1 with (d2, r) => (d2, let! _ := r in Ok p) end
          end
        else (d, Err FileExistsError)
      else match mkdirs [] p d with (d', r) => (d', let! _ := r in Ok p) end
  end.

Definition index_name : string := "index.html".
(** [node_name_to_url], lines 151-152, and line 223. *)
Definition node_name (i : nat) : string := ("node_" ++ str_nat i ++ ".html")%string.

Section Pages.
  Context {V K F : Type} `{EqD K}.
  Notation st := (st V F).
  Variable ext : externals V K F.
  Variable h : heap V K.
  Variable size : nat.
  (** [_has_graphviz()] *)
  Variable graphviz : bool.
  (** The report of a value (lines 48-67, 175-177): the HTML of a TableReport, [_repr_html_()] or a repr.
      It may fail. *)
  Variable render : V -> res string.
  (** [simple_repr(node)], which may fail. *)
  Variable simple_repr : oid -> res string.
  (** Drawing the graph (line 157). *)
  Variable drawing : res unit.
  (** The creation stack, the name, the description and the HTML of the estimator of a step (lines 194-220),
      which may depend on what was fitted. *)
  Variable extras : oid -> option F -> res string.
  (** Whether the text of a file can be written as UTF-8. *)
  Variable encodable : content -> bool.

  (** [write_text]: the file is emptied first; if its text cannot be encoded it stays empty. *)
  Definition write (p : path) (c : content) (d : fs) : fs * res unit :=
    if encodable c then (fput d p (Some (File c)), Ok tt)
    else (fput d p (Some (File (Text ""))), Err UnicodeEncodeError).

  (** [_node_status], lines 92-101. *)
  Definition status_of (mode : string) (s : st) (o : oid) : status :=
    match results s o mode with
    | Some _ => Success
    | None => match errors s o mode with Some _ => Error | None => NoStatus end
    end.
  Definition node_status (mode : string) (s : st) (ns : dict nat oid) : list (nat * status) :=
    map (fun n : nat * oid => (fst n, status_of mode s (snd n))) ns.

  (** [node_report], lines 46-67; the report of an expression (mode fit) cannot be reached. *)
  Definition node_report (o : oid) (mode : string) (e : env V) (s : st) : st * res string :=
    match evaluate ext h size o mode e false s with
    | (s', Ok (TheValue v)) => (s', render v)
    | (s', Ok TheExpr) => (s', Err TypeError)
    | (s', Err ex) => (s', Err ex)
    end.

  (** Lines 166-177 *)
  Definition outcome_of (o : oid) (mode : string) (e : env V) (s : st) : st * res outcome_shown :=
    match results s o mode with
    | Some _ => match node_report o mode e s with (s', r) => (s', let! t := r in Ok (Output t)) end
    | None => (s, Ok (match errors s o mode with Some ex => Failed ex | None => DidNotRun end))
    end.

  (** Lines 178-193: numbers and descriptions. *)
  Definition links (ns : dict nat oid) (l : list nat) : res (list (nat * string)) :=
    mapM (fun n => match dget n ns with
                   | Some o => let! t := simple_repr o in Ok (n, t)
                   | None => Err KeyError
                   end) l.
  Definition numbers (i : nat) (d : dict nat (list nat)) : list nat :=
    match dget i d with Some l => l | None => [] end.

  (** One iteration of the loop of lines 165-224. The template shows [node_parents] under "This step used" and
      [node_children] under "This step was used by". *)
  Definition one_page (g : sgraph) (st0 : list (nat * status)) (i : nat) (o : oid) (mode : string)
    (e : env V) (s : st) : st * res page :=
    match outcome_of o mode e s with
    | (s', Err ex) => (s', Err ex)
    | (s', Ok out) =>
        (s', let! node_children := links (sg_nodes g) (numbers i (sg_children g)) in
             let! node_parents := links (sg_nodes g) (numbers i (sg_parents g)) in
             let! ex := extras o (fitted_with (fitted s' o)) in
             let! title := simple_repr o in
             Ok (mk_page title
                   (if i =? 0 then None else Some (i - 1))
                   (if i <? length (sg_nodes g) - 1 then Some (i + 1) else None)
                   node_parents node_children ex out st0))
    end.

  Fixpoint pages (g : sgraph) (st0 : list (nat * status)) (dir : path) (mode : string) (e : env V)
    (todo : list (nat * oid)) (s : st) (d : fs) : st * fs * res unit :=
    match todo with
    | [] => (s, d, Ok tt)
    | (i, o) :: todo' =>
        match one_page g st0 i o mode e s with
        | (s1, Err ex) => (s1, d, Err ex)
        | (s1, Ok p) =>
            match write (dir ++ [node_name i]) (NodePage p) d with
            | (d1, Err ex) => (s1, d1, Err ex)
            | (d1, Ok _) => pages g st0 dir mode e todo' s1 d1
            end
        end
    end.

  (** [_do_full_report], lines 129-231: the result, the error, the directory. *)
  Record reported : Type := mk_reported {
    rp_result : option (evaluated (V := V));
    rp_error : option exn;
    rp_dir : path
  }.
  Definition do_full_report (root : oid) (mode : string) (e : env V) (new_dir : path)
    (output_dir : option path) (overwrite : bool) (s : st) (d : fs) : st * fs * res reported :=
    if negb graphviz then (s, d, Err RuntimeError) (* ImportError *)
    else
      match get_output_dir new_dir output_dir overwrite d with
      | (d1, Err ex) => (s, d1, Err ex)
      | (d1, Ok dir) =>
          let (s1, r) := evaluate ext h size root mode e false s in
          match graph h size root with
          | Err ex => (s1, d1, Err ex)
          | Ok g =>
              match drawing with
              | Err ex => (s1, d1, Err ex)
              | Ok _ =>
                  let st0 := node_status mode s1 (sg_nodes g) in
                  match write (dir ++ [index_name]) (Index st0) d1 with
                  | (d2, Err ex) => (s1, d2, Err ex)
                  | (d2, Ok _) =>
                      match pages g st0 dir mode e (sg_nodes g) s1 d2 with
                      | (s2, d3, Err ex) => (s2, d3, Err ex)
                      | (s2, d3, Ok _) =>
                          (s2, d3, Ok (match r with
                                       | Ok v => mk_reported (Some v) None dir
                                       | Err ex => mk_reported None (Some ex) dir
                                       end))
                      end
                  end
              end
          end
      end.

  (** [full_report], lines 104-126. *)
  Definition full_report (root : oid) (mode : string) (e : env V) (clear : bool) (new_dir : path)
    (output_dir : option path) (overwrite : bool) (s : st) (d : fs) : st * fs * res reported :=
    if clear then
      match nodes h size root with
      | Err ex => (s, d, Err ex)
      | Ok ns =>
          match do_full_report root mode e new_dir output_dir overwrite (clear_nodes ns mode s) d with
          | (s', d', r) => (clear_nodes ns mode s', d', r)
          end
      end
    else do_full_report root mode e new_dir output_dir overwrite s d.
End Pages.
