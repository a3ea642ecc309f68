(** Embeddings of entities by type: /repo/skrub/datasets/_ken_embeddings.py 323-595. The files that are fetched are in [M_figshare]. *)
From Verif Require Import Base M_str M_labels.
From Coq Require Import String NArith List.
Open Scope string_scope.
Open Scope list_scope.
Open Scope nat_scope.

Section Ken.
  Context {num : Type}.
  (** [str.contains(pattern)]: the pattern is compiled, then searched in each text *)
  Variable compile : text -> res (text -> bool).
  (** [PCA(n_components=n, random_state=0).fit_transform] when it accepts the matrix *)
  Variable pca : nat -> list (list num) -> list (list num).

  Definition e_name : text := of_string "Entity".
  Definition t_name : text := of_string "Type".
  Definition all_entities : text := of_string "all_entities".
  (** [.str[1:-1]] *)
  Definition inside (t : text) : text := removelast (tl t).

  (** 560-563 (and 430-435): rows whose type contains the pattern, or does not *)
  Definition keep {R} (type_of : R -> text) (pattern : option text) (wanted : bool) (rows : list R) : res (list R) :=
    match pattern with
    | None => Ok rows
    | Some p => let! m := compile p in Ok (filter (fun r => Bool.eqb (m (type_of r)) wanted) rows)
    end.
  Definition select {R} (type_of : R -> text) (search exclude : option text) (rows : list R) : res (list R) :=
    let! rows := keep type_of search true rows in keep type_of exclude false rows.

  (** [drop_duplicates(subset=["Entity"])], 564: the first row of each entity *)
  Fixpoint first_rows (seen : list text) (rows : list (text * text)) : list (text * text) :=
    match rows with
    | [] => []
    | r :: rows' => if mem (fst r) seen then first_rows seen rows' else r :: first_rows (fst r :: seen) rows'
    end.
  (** [pd.merge(emb_type, emb_extracts, on="Entity")], 569: in the order of the types *)
  Definition merge (types : list (text * text)) (file : list (text * list num)) : list ((text * text) * list num) :=
    flat_map (fun r => map (fun x => (r, snd x)) (filter (fun x => eqb_of (fst x) (fst r)) file)) types.
  (** [fit_transform]; the number of components is at most that of rows and of columns, and there is a row *)
  Definition fit_pca (n width : nat) (rows : list (list num)) : res (list (list num)) :=
    if (length rows =? 0) || (Nat.min (length rows) width <? n) then Err ValueError else Ok (pca n rows).
  (** 573-576 *)
  Definition pca_columns (n : nat) (suffix : text) : list text := map (fun j => of_string "X" ++ of_string (str_nat j) ++ suffix) (seq 0 n).

  Record embedded := { columns : list text; rows : list ((text * text) * list num) }.
  (** 568-591, for a file. [cols]: the names of its columns but "Entity". When one of them is "Type", the merge renames it and the next access to "Type" fails *)
  Definition extract (components : option nat) (cols : list text) (types : list (text * text)) (file : list (text * list num)) : res (list ((text * text) * list num)) :=
    let m := merge types file in
    match components with
    | Some n => if mem t_name cols then Err KeyError
                else let! v := fit_pca n (length cols) (map snd m) in Ok (combine (map fst m) v)
    | None => Ok m
    end.
  (** 560-595 *)
  Definition embeddings (search exclude : option text) (components : option nat) (suffix : text)
      (types : list (text * text)) (cols : list text) (files : list (list (text * list num))) : res embedded :=
    let! types := select snd search exclude types in
    let types := first_rows [] types in
    let! parts := mapM (extract components cols types) files in
    match parts with
    | [] => Err ValueError                                   (* pd.concat of nothing *)
    | _ =>
        if mem t_name cols then Err KeyError
        else Ok {| columns := e_name :: t_name :: match components with
                                                  | Some n => pca_columns n suffix
                                                  | None => map (fun c => if mem c [e_name; t_name] then c else c ++ suffix) cols
                                                  end;
                   rows := map (fun r => ((inside (fst (fst r)), inside (snd (fst r))), snd r)) (concat parts) |}
    end.

  (** the table of available tables: name, entities, types, unique types *)
  Record source := { table : text; entities_id : text; types_id : text; unique_id : text }.
  Variable correspondence : res (list source).
  Variable fetch_pairs : option text -> res (list (text * text)).
  Variable fetch_files : text -> res (list text * list (list (text * list num))).
  Variable fetch_unique : text -> res (list text).
  (** 350-351 *)
  Definition aliases (c : list source) : list text := all_entities :: map table c.
  Definition lookup (name : text) (c : list source) : res source :=
    match filter (fun s => eqb_of (table s) name) c with s :: _ => Ok s | [] => Err IndexError end.
  (** 421-437 *)
  Definition fetch_ken_types (search exclude : option text) (name : text) : res (list text) :=
    let! c := correspondence in
    if mem name (aliases c) then
      let! s := lookup name c in
      let! u := fetch_unique (unique_id s) in
      let! found := select (fun t => t) search exclude u in
      Ok (map inside found)
    else Err ValueError.
  (** 549-595 *)
  Definition fetch_ken_embeddings (search exclude : option text) (name : text) (type_id : option text) (components : option nat) (suffix : text) : res embedded :=
    let! c := correspondence in
    let! ids := (if mem name (aliases c) then let! s := lookup name c in Ok (entities_id s, Some (types_id s)) else Ok (name, type_id)) in
    let! types := fetch_pairs (snd ids) in
    let! _ := select snd search exclude types in              (* the filters come before the second download *)
    let! full := fetch_files (fst ids) in
    embeddings search exclude components suffix types (fst full) (snd full).
End Ken.
