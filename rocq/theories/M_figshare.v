(** Fetching a figshare table, /repo/skrub/datasets/_ken_embeddings.py. *)
From Verif Require Import Base M_str.
Open Scope string_scope.
Open Scope list_scope.
Open Scope nat_scope.

Section Figshare.
  Context {row : Type}.
  Variable size : nat.                              (* 1_000_000 rows per file *)
  (** What a file holds; writing is not atomic. *)
  Inductive content : Type := Table (rows : list row) | Broken.
  Definition cache := dict string content.
  (** [data_directory.iterdir()]: the names in the directory, in an order that is not specified. *)
  Variable listing : cache -> list string.
  (** Lines 283-291: the checksum is checked for known identifiers. *)
  Variable verify : string -> list row -> bool.

  Definition base (id : string) : string := ("figshare_" ++ id)%string.
  (** 306-308. *)
  Definition batch_name (id : string) (k : nat) : string := (base id ++ "_" ++ str_nat k ++ ".parquet")%string.
  (** 242-246. *)
  Definition found (id : string) (c : cache) : list string := filter (String.prefix (base id)) (listing c).

  (** [ParquetFile.iter_batches], 294-296. *)
  Definition n_batches (n : nat) : nat := (n + size - 1) / size.
  Definition batches (rows : list row) : list (list row) :=
    map (fun i => firstn size (skipn (i * size) rows)) (seq 0 (n_batches (length rows))).
  (** [idx], 297-301: chain(range(0, n, size), [n]). *)
  Definition idx (n : nat) : list nat := map (fun i => i * size) (seq 0 (n_batches n)) ++ [n].
  (** The loop 303-312: the successive states of the files. *)
  Fixpoint writes (id : string) (ends : list nat) (bs : list (list row)) : res (list (string * content)) :=
    match ends, bs with
    | [], _ => Ok []
    | k :: ends', b :: bs' =>
        let! rest := writes id ends' bs' in
        Ok ((batch_name id k, Broken) :: (batch_name id k, Table b) :: rest)
    | _ :: _, [] => Err (UserError 0)                    (* StopIteration *)
    end.
  Definition apply_writes (c : cache) (ws : list (string * content)) : cache := fold_left (fun c w => dset (fst w) (snd w) c) ws c.

  (** [_fetch_figshare], 205-318. [served]: what the download gives; [killed]: the process dies after that many
      operations on the files. *)
  Definition fetch (c : cache) (id : string) (served : option (list row)) (killed : option nat) : cache * res (list string) :=
    match found id c with
    | (_ :: _) as paths => (c, Ok paths)
    | [] =>
        match served with
        | None => (c, Err OSError)
        | Some rows =>
            if verify id rows then
              match writes id (tl (idx (length rows))) (batches rows) with
              | Err e => (c, Err e)
              | Ok ws => match killed with
                         | Some k => (apply_writes c (firstn k ws), Err RuntimeError)
                         | None => (apply_writes c ws, Ok (map (batch_name id) (tl (idx (length rows)))))
                         end
              end
            else (c, Err OSError)
        end
    end.

  (** [pd.read_parquet(info["path"])], 167. *)
  Definition read1 (c : cache) (n : string) : res (list row) :=
    match dget n c with
    | Some (Table rows) => Ok rows
    | Some Broken => Err OSError
    | None => Err FileNotFoundError
    end.
  Definition read (c : cache) (paths : list string) : res (list row) :=
    match paths with
    | [] => Err ValueError
    | _ => let! tables := mapM (read1 c) paths in Ok (concat tables)
    end.

  (** [fetch_figshare], 128-202: the rows of the table. *)
  Definition load (c : cache) (id : string) (served : option (list row)) (killed : option nat) : cache * res (list row) :=
    let (c', r) := fetch c id served killed in
    (c', let! paths := r in read c' paths).

  (** A sequence of fetches. *)
  Fixpoint loads (c : cache) (evs : list (string * option (list row) * option nat)) : cache * list (res (list row)) :=
    match evs with
    | [] => (c, [])
    | (id, served, killed) :: evs' =>
        let (c1, r) := load c id served killed in
        let (c2, rs) := loads c1 evs' in (c2, r :: rs)
    end.
End Figshare.
Arguments content : clear implicits.
Arguments cache : clear implicits.
