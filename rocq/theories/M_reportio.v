(** Writing and opening reports: [TableReport.write_html], [TableReport.open] (/repo/skrub/_reporting/_table_report.py 217-259) and
    [open_in_browser] (/repo/skrub/_reporting/_serve.py). *)
From Verif Require Import Base.
From Coq Require Import NArith.
Open Scope string_scope.
Open Scope list_scope.
Open Scope nat_scope.

(** texts are lists of code points; files contain bytes *)
Definition text : Type := list N.
Definition bytes : Type := list N.

(** [str.encode("utf-8")], of CPython: code points of surrogates cannot be encoded *)
Definition encode_char (c : N) : option bytes :=
  (if c <? 128 then Some [c]
   else if c <? 2048 then Some [192 + c / 64; 128 + c mod 64]
   else if c <? 65536 then
     if (55296 <=? c) && (c <? 57344) then None
     else Some [224 + c / 4096; 128 + (c / 64) mod 64; 128 + c mod 64]
   else if c <? 1114112 then Some [240 + c / 262144; 128 + (c / 4096) mod 64; 128 + (c / 64) mod 64; 128 + c mod 64]
   else None)%N.
Fixpoint encode (t : text) : option bytes :=
  match t with
  | [] => Some []
  | c :: t' => match encode_char c, encode t' with Some b, Some bs => Some (b ++ bs) | _, _ => None end
  end.
(** [UnicodeEncodeError] is a [ValueError] *)
Definition py_encode (t : text) : res bytes := match encode t with Some b => Ok b | None => Err ValueError end.

(** ** Writing *)
(** line ends of the platform, written for each [\n] by files opened in text mode *)
Section Write.
  Variable linesep : text.
  Definition translate (t : text) : text := flat_map (fun c => if (c =? 10)%N then linesep else [c]) t.
  (** [codecs.lookup(encoding).name]; None: [LookupError] *)
  Variable lookup : string -> option string.
  Context {P : Type} `{EqD P}.
  (** files, by path; the error of [open(file, "w")] if there is one *)
  Definition files : Type := P -> option bytes.
  Variable open_error : P -> option exn.
  Definition set_file (fs : files) (p : P) (b : bytes) : files := fun q => if eqd q p then Some b else fs q.

  (** file objects: the errors of [write] for bytes, for texts; the attribute [encoding]; what has been written *)
  Inductive chunk : Type := Bytes (b : bytes) | Text (t : text).
  Record fobj : Type := { on_bytes : option exn; on_text : option exn; encoding : option string; written : list chunk }.
  Definition write_chunk (f : fobj) (c : chunk) : fobj * res unit :=
    match (match c with Bytes _ => on_bytes f | Text _ => on_text f end) with
    | Some e => (f, Err e)
    | None => ({| on_bytes := on_bytes f; on_text := on_text f; encoding := encoding f; written := written f ++ [c] |}, Ok tt)
    end.

  (** [write_html] for a path, 226-229: [open] truncates the file, [stream.write] encodes *)
  Definition write_path (html : res text) (fs : files) (p : P) : files * res unit :=
    match html with
    | Err e => (fs, Err e)
    | Ok t =>
        match open_error p with
        | Some e => (fs, Err e)
        | None =>
            let fs := set_file fs p [] in
            match py_encode (translate t) with
            | Ok b => (set_file fs p b, Ok tt)
            | Err e => (fs, Err e)
            end
        end
    end.
  (** [write_html] for a file object, 231-255 *)
  Definition write_object (html : res text) (f : fobj) : fobj * res unit :=
    match html with
    | Err e => (f, Err e)
    | Ok t =>
        match py_encode t with
        | Err e => (f, Err e)
        | Ok b =>
            match write_chunk f (Bytes b) with
            | (f, Ok _) => (f, Ok tt)
            | (f, Err TypeError) =>
                match encoding f with
                | Some e =>
                    match lookup e with
                    | Some name => if string_dec name "utf-8" then write_chunk f (Text t) else (f, Err ValueError)
                    | None => (f, Err ValueError)
                    end
                | None => write_chunk f (Text t)
                end
            | (f, Err e) => (f, Err e)
            end
        end
    end.
End Write.

(** ** Opening *)
(** clients are numbered; a request is for a path that ends with "index.html", with the method GET, or another one *)
Inductive request : Type := Index | Other.
(** the thread of the server ([TCPServer.serve_forever], one client at a time): waiting for clients; waiting for the request of a client;
    sending the page to a client; stopped *)
Inductive server : Type := Idle | Reading (c : nat) | Sending (c : nat) | Stopped.
(** the thread that calls [open]: in [queue.get]; in [server.shutdown()]; in [server_thread.join()]; returned; raised RuntimeError *)
Inductive caller : Type := Waiting | Shutting | Joining | Returned | Raised.
Record state : Type := {
  main : caller; srv : server; queue : nat; stop : bool;
  backlog : list nat;                          (* clients that are connected but not accepted *)
  sent : list (nat * request);                 (* requests sent *)
  gone : list nat;                             (* connections closed by clients *)
  received : list nat                          (* history: clients that received the whole page *)
}.
Definition start : state := {| main := Waiting; srv := Idle; queue := 0; stop := false; backlog := []; sent := []; gone := []; received := [] |}.

(** what clients do; what the server does (accept a client, read its request, end with it); what the caller does; 5 seconds have passed *)
Inductive event : Type :=
| Connect (c : nat) | Send (c : nat) (r : request) | Close (c : nat) | Receive (c : nat)
| Accept | Read | Stop_server | Get | Timeout | Shut_down | Join.

Definition upd (s : state) (m : caller) (v : server) (q : nat) (st : bool) (b : list nat) (rc : list nat) : state :=
  {| main := m; srv := v; queue := q; stop := st; backlog := b; sent := sent s; gone := gone s; received := rc |}.
(** one step of an execution; None: not possible in this state *)
Definition step (e : event) (s : state) : option state :=
  match e with
  | Connect c => Some (upd s (main s) (srv s) (queue s) (stop s) (backlog s ++ [c]) (received s))
  | Send c r =>
      Some {| main := main s; srv := srv s; queue := queue s; stop := stop s; backlog := backlog s; sent := sent s ++ [(c, r)]; gone := gone s; received := received s |}
  | Close c =>
      Some {| main := main s; srv := srv s; queue := queue s; stop := stop s; backlog := backlog s; sent := sent s; gone := c :: gone s; received := received s |}
  | Accept =>
      (* [serve_forever]: not once [shutdown] has been called *)
      match srv s, backlog s with
      | Idle, c :: b => if stop s then None else Some (upd s (main s) (Reading c) (queue s) (stop s) b (received s))
      | _, _ => None
      end
  | Read =>
      match srv s with
      | Reading c =>
          match dget c (sent s) with
          | Some Index => Some (upd s (main s) (Sending c) (queue s) (stop s) (backlog s) (received s))
          | Some Other => Some (upd s (main s) Idle (queue s) (stop s) (backlog s) (received s))       (* _serve.py 41-45 *)
          | None => if mem c (gone s) then Some (upd s (main s) Idle (queue s) (stop s) (backlog s) (received s)) else None
          end
      | Sending c =>
          (* the client closes the connection before it has everything: an error, printed by the server *)
          if mem c (gone s) then Some (upd s (main s) Idle (queue s) (stop s) (backlog s) (received s)) else None
      | _ => None
      end
  | Receive c =>
      match srv s with
      | Sending c' =>
          if eqd c c' then
            if mem c (gone s) then None
            else Some (upd s (main s) Idle (queue s + 1) (stop s) (backlog s) (received s ++ [c]))        (* 46-53 *)
          else None
      | _ => None
      end
  | Stop_server => match srv s with Idle => if stop s then Some (upd s (main s) Stopped (queue s) (stop s) (backlog s) (received s)) else None | _ => None end
  | Get =>
      match main s, queue s with
      | Waiting, S q => Some (upd s Shutting (srv s) q true (backlog s) (received s))           (* 67, 72 *)
      | _, _ => None
      end
  | Timeout =>
      match main s, queue s with
      | Waiting, O => Some (upd s Raised (srv s) (queue s) (stop s) (backlog s) (received s))   (* 68-71 *)
      | _, _ => None
      end
  | Shut_down => match main s, srv s with Shutting, Stopped => Some (upd s Joining (srv s) (queue s) (stop s) (backlog s) (received s)) | _, _ => None end
  | Join => match main s, srv s with Joining, Stopped => Some (upd s Returned (srv s) (queue s) (stop s) (backlog s) (received s)) | _, _ => None end
  end.
Fixpoint run (es : list event) (s : state) : option state :=
  match es with
  | [] => Some s
  | e :: es' => match step e s with Some s' => run es' s' | None => None end
  end.
(** [open_in_browser]: the content is encoded first *)
Definition open_in_browser (content : text) : res (bytes * state) := let! b := py_encode content in Ok (b, start).
