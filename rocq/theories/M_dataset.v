(** Fetching a dataset, /repo/skrub/datasets/_utils.py: a transition system whose steps are the operations on the
    file system, so that a process can be killed, or another one run, between any two of them. *)
From Verif Require Import Base.
Open Scope string_scope.
Open Scope list_scope.
Open Scope nat_scope.

Section Dataset.
  (** Contents of the archive; contents of files. *)
  Context {bytes digest file : Type} `{EqD digest}.
  Variable sha256 : bytes -> digest.
  Variable expected : digest.                              (* metadata["sha256"] *)
  Variable unpack : bytes -> option (dict string file).    (* [None]: not an archive *)
  Variable readable : string -> bool.                      (* suffix .csv or .json *)
  Variable attempts : nat.                                 (* [retry] times the number of urls *)

  (** [archive_path] and [datafiles_dir]. Temporary files and directories have fresh names and are only seen by
      their process: they are part of its local state. *)
  Record fs : Type := mk_fs { arch : option bytes; dir : option (dict string file) }.

  (** Where a process is. *)
  Inductive pc : Type :=
  | PStart                                   (* line 239: [archive_path.exists()] *)
  | PHash                                    (* 241: [_sha256(archive_path)] *)
  | PScan                                    (* 249: [shutil.rmtree(datafiles_dir)] lists the files *)
  | PRm (names : list string)                (* ... removes each of them, then the directory *)
  | PUnlink                                  (* 252: [archive_path.unlink()] *)
  | PDirq                                    (* 254: [datafiles_dir.exists()] *)
  | PExtract                                 (* 270: [archive_path.exists()] *)
  | PDownload (left : nat)                   (* 302-326, 329-362; [left] attempts are left *)
  | PUnpack                                  (* 274-275 *)
  | PRename (files : dict string file)       (* 277: [path_source.rename(...)] *)
  | PRenamed                                 (* still in the [try] *)
  | PCleanup (e : exn)                       (* 278-283: [archive_path.unlink()] *)
  | PList                                    (* 258: [datafiles_dir.iterdir()] *)
  | PReading (todo : list string) (got : dict string file)
  | PDone (got : dict string file)           (* the files in the returned Bunch *)
  | PFail (e : exn)
  | PKilled.

  Definition terminal (p : pc) : bool :=
    match p with PDone _ | PFail _ | PKilled => true | _ => false end.

  (** What the outside decides: which of the remaining files is handled next, what a download gives, whether an
      exception (e.g. KeyboardInterrupt) is raised here. *)
  Record choice : Type := mk_choice { ch_file : nat; ch_download : option bytes; ch_interrupt : bool }.
  Definition pick_name (k : nat) (names : list string) : string := nth (k mod length names) names "".

  (** One operation of a process. *)
  Definition pstep (c : choice) (s : fs) (p : pc) : fs * pc :=
    match p with
    | PStart => (s, match arch s with Some _ => PHash | None => PDirq end)
    | PHash => (s, match arch s with
                   | None => PFail FileNotFoundError
                   | Some b => if eqd (sha256 b) expected then PDirq else PScan
                   end)
    | PScan => (s, match dir s with None => PUnlink | Some d => PRm (dkeys d) end)
    | PRm [] => match dir s with
                | None => (s, PUnlink)                              (* FileNotFoundError *)
                | Some [] => (mk_fs (arch s) None, PUnlink)
                | Some _ => (s, PFail OSError)                      (* not empty *)
                end
    | PRm names =>
        let n := pick_name (ch_file c) names in
        match dir s with
        | None => (s, PUnlink)
        | Some d => if dmem n d then (mk_fs (arch s) (Some (ddel n d)), PRm (remove eqd n names))
                    else (s, PUnlink)                               (* FileNotFoundError *)
        end
    | PUnlink => match arch s with
                 | None => (s, PFail FileNotFoundError)
                 | Some _ => (mk_fs None (dir s), PDirq)
                 end
    | PDirq => (s, match dir s with Some _ => PList | None => PExtract end)
    | PExtract => (s, match arch s with Some _ => PUnpack | None => PDownload attempts end)
    | PDownload 0 => (s, PFail OSError)
    | PDownload (S k) =>
        match ch_download c with
        | None => (s, PDownload k)
        | Some b => if eqd (sha256 b) expected then (mk_fs (Some b) (dir s), PUnpack) else (s, PDownload k)
        end
    | PUnpack => (s, if ch_interrupt c then PCleanup RuntimeError
                     else match arch s with
                          | None => PCleanup FileNotFoundError
                          | Some b => match unpack b with None => PCleanup ValueError | Some files => PRename files end
                          end)
    | PRename files =>
        if ch_interrupt c then (s, PCleanup RuntimeError)
        else match dir s with
             | None | Some [] => (mk_fs (arch s) (Some files), PRenamed)
             | Some _ => (s, PCleanup OSError)                      (* not empty *)
             end
    | PRenamed => (s, if ch_interrupt c then PCleanup RuntimeError else PList)
    | PCleanup e => (mk_fs None (dir s), PFail e)
    | PList => (s, match dir s with None => PFail FileNotFoundError | Some d => PReading (dkeys d) [] end)
    | PReading [] got => (s, PDone got)
    | PReading todo got =>
        let n := pick_name (ch_file c) todo in
        (s, if readable n
            then match dir s with
                 | None => PFail FileNotFoundError
                 | Some d => match dget n d with
                             | None => PFail FileNotFoundError
                             | Some f => PReading (remove eqd n todo) (got ++ [(n, f)])
                             end
                 end
            else PReading (remove eqd n todo) got)
    | PDone _ | PFail _ | PKilled => (s, p)
    end.

  (** Histories: processes are started, do steps, are killed; the archive is damaged while no process runs.
      [one]: a process is only started when no other runs. *)
  Inductive act : Type := ASpawn | AStep (i : nat) (c : choice) | AKill (i : nat) | ADamage (b : bytes).
  Definition idle (ps : list pc) : bool := forallb terminal ps.
  Fixpoint update {A} (i : nat) (x : A) (l : list A) : list A :=
    match l, i with
    | [], _ => []
    | _ :: l', 0 => x :: l'
    | y :: l', S j => y :: update j x l'
    end.
  Definition exec (one : bool) (s : fs) (ps : list pc) (a : act) : option (fs * list pc) :=
    match a with
    | ASpawn => if one && negb (idle ps) then None else Some (s, ps ++ [PStart])
    | AStep i c => match nth_error ps i with
                   | None => None
                   | Some p => let (s', p') := pstep c s p in Some (s', update i p' ps)
                   end
    | AKill i => match nth_error ps i with
                 | None => None
                 | Some p => Some (s, if terminal p then ps else update i PKilled ps)
                 end
    | ADamage b => if idle ps then if eqd (sha256 b) expected then None
                                   else match arch s with
                                        | None => None
                                        | Some _ => Some (mk_fs (Some b) (dir s), ps)
                                        end
                   else None
    end.
  Fixpoint run (one : bool) (s : fs) (ps : list pc) (acts : list act) : option (fs * list pc) :=
    match acts with
    | [] => Some (s, ps)
    | a :: acts' => match exec one s ps a with None => None | Some (s', ps') => run one s' ps' acts' end
    end.

  (** A process running alone for [n] steps. *)
  Fixpoint alone (n : nat) (cs : nat -> choice) (s : fs) (p : pc) : fs * pc :=
    match n with
    | 0 => (s, p)
    | S k => let (s', p') := pstep (cs 0) s p in alone k (fun j => cs (S j)) s' p'
    end.
End Dataset.
