(** C121, C122: writing and opening reports. *)
From Verif Require Import Base M_reportio L_reportio.
From Coq Require Import NArith.
Open Scope string_scope.
Open Scope list_scope.
Open Scope nat_scope.

Section Write.
  Context {P : Type} `{EqD P}.
  Variable open_error : P -> option exn.
  Variable lookup : string -> option string.

  (** C121: for a path, the file contains the UTF-8 bytes of the page, which can be read in one way only, and other files are as before *)
  Theorem C121_path : forall t fs p, open_error p = None -> Forall Scalar t ->
    exists fs' b, write_path [10%N] open_error (Ok t) fs p = (fs', Ok tt) /\ fs' p = Some b /\ Utf8 b t /\ (forall t', Utf8 b t' -> t' = t) /\
      forall q, q <> p -> fs' q = fs q.
  Proof. exact (path_written open_error). Qed.
  (** C121: if the report cannot be made, or the file not opened, no file changes *)
  Theorem C121_path_error : forall html fs p, (exists e, html = Err e) \/ open_error p <> None ->
    exists e, write_path [10%N] open_error html fs p = (fs, Err e).
  Proof. exact (path_error open_error). Qed.
  (** C121: but if the page contains a surrogate, there is an error and what the file contained is lost *)
  Theorem C121_lost_refuted : forall t fs p, open_error p = None -> ~ Forall Scalar t ->
    exists fs', write_path [10%N] open_error (Ok t) fs p = (fs', Err ValueError) /\ fs' p = Some [].
  Proof. exact (path_lost open_error). Qed.
  (** C121: objects that take bytes *)
  Theorem C121_binary : forall t f, on_bytes f = None -> Forall Scalar t ->
    exists f' b, write_object lookup (Ok t) f = (f', Ok tt) /\ Grows f f' (Bytes b) /\ Utf8 b t.
  Proof. exact (binary_written lookup). Qed.
  (** C121: objects that take texts, with no encoding or with a name of UTF-8 *)
  Theorem C121_text : forall t f, on_bytes f = Some TypeError -> on_text f = None -> Forall Scalar t ->
    (encoding f = None \/ exists e, encoding f = Some e /\ lookup e = Some "utf-8") ->
    exists f', write_object lookup (Ok t) f = (f', Ok tt) /\ Grows f f' (Text t).
  Proof. exact (text_written lookup). Qed.
  (** C121: other encodings are refused *)
  Theorem C121_refused : forall t f e, on_bytes f = Some TypeError -> encoding f = Some e -> lookup e <> Some "utf-8" ->
    write_object lookup (Ok t) f = (f, Err ValueError).
  Proof. exact (text_refused lookup). Qed.
  (** C121: an object gets the page, once, or nothing and there is an error *)
  Theorem C121_object : forall html f f' r, write_object lookup html f = (f', r) ->
    (f' = f /\ exists e, r = Err e) \/
    (r = Ok tt /\ exists t, html = Ok t /\ Forall Scalar t /\ (Grows f f' (Text t) \/ exists b, Utf8 b t /\ Grows f f' (Bytes b))).
  Proof. exact (object_all lookup). Qed.
End Write.
Print Assumptions C121_path.
Print Assumptions C121_path_error.
Print Assumptions C121_lost_refuted.
Print Assumptions C121_binary.
Print Assumptions C121_text.
Print Assumptions C121_refused.
Print Assumptions C121_object.

(** C122: [open] returns only once a client has received the whole page it asked for, and the server has stopped *)
Theorem C122_returned : forall s, Reached s -> main s = Returned -> srv s = Stopped /\ exists c, In c (received s) /\ In (c, Index) (sent s).
Proof. exact returned. Qed.
Print Assumptions C122_returned.
(** C122: other requests do not end the wait *)
Theorem C122_others : forall es s, run es start = Some s -> (forall c, ~ In (Send c Index) es) -> main s = Waiting \/ main s = Raised.
Proof. exact others_ignored. Qed.
Print Assumptions C122_others.
(** C122: once the page has been received, [open] can return as soon as the client being served leaves *)
Theorem C122_can_return : forall s, Reached s -> main s = Shutting -> exists es s', run es s = Some s' /\ main s' = Returned /\
  forall e, In e es -> In e [Read; Stop_server; Shut_down; Join] \/ exists c, e = Close c /\ (srv s = Reading c \/ srv s = Sending c).
Proof. exact can_return. Qed.
Print Assumptions C122_can_return.
(** C122: the page is encoded in UTF-8; if it cannot be there is an error and no server *)
Theorem C122_encoded : forall t, (exists b, open_in_browser t = Ok (b, start) /\ Utf8 b t) \/ (~ Forall Scalar t /\ open_in_browser t = Err ValueError).
Proof. exact open_encode. Qed.
Print Assumptions C122_encoded.
(** C122: after a timeout, the server is never stopped, ... *)
Theorem C122_timeout_refuted : forall s es s', Reached s -> main s = Raised -> run es s = Some s' -> srv s' <> Stopped /\ main s' = Raised.
Proof. exact still_running. Qed.
Print Assumptions C122_timeout_refuted.
(** ... and goes on giving the page to those who ask *)
Theorem C122_serving_refuted : forall s c, Reached s -> main s = Raised -> srv s = Idle -> backlog s = [] -> dget c (sent s) = None -> ~ In c (gone s) ->
  exists s', run [Connect c; Send c Index; Accept; Read; Receive c] s = Some s' /\ In c (received s').
Proof. exact still_serving. Qed.
Print Assumptions C122_serving_refuted.
(** C122: the page has been received, but [open] does not return while a client that is connected says nothing *)
Definition ex_stuck : state := {| main := Shutting; srv := Reading 1; queue := 0; stop := true; backlog := []; sent := [(0, Index)]; gone := []; received := [0] |}.
Theorem C122_stuck_refuted : exists s c, Reached s /\ In 0 (received s) /\ main s = Shutting /\ c <> 0 /\
  forall es s', run es s = Some s' -> Silent c es -> main s' = Shutting.
Proof.
  exists ex_stuck, 1. split; [exists [Connect 0; Connect 1; Send 0 Index; Accept; Read; Receive 0; Accept; Get]; reflexivity|].
  split; [left; reflexivity|]. split; [reflexivity|]. split; [discriminate|].
  intros es s' R S. refine (proj1 (stuck es ex_stuck s' 1 R eq_refl eq_refl eq_refl _ S)). intros [].
Qed.
Print Assumptions C122_stuck_refuted.

(** ** Examples *)
Example ex_encode : py_encode [65; 233; 8364; 128512]%N = Ok [65; 195; 169; 226; 130; 172; 240; 159; 152; 128]%N /\ py_encode [65; 55296]%N = Err ValueError.
Proof. split; vm_compute; reflexivity. Qed.
Definition ex_fs : @files nat := fun p => if p =? 1 then Some [49; 50]%N else None.
Definition ex_open (p : nat) : option exn := if p =? 7 then Some FileNotFoundError else None.
Definition ex_after (t : text) (p : nat) : option bytes * res unit := (fst (write_path [10%N] ex_open (Ok t) ex_fs p) p, snd (write_path [10%N] ex_open (Ok t) ex_fs p)).
Example ex_C121 : ex_fs 1 = Some [49; 50]%N /\ ex_after [233; 10]%N 1 = (Some [195; 169; 10]%N, Ok tt) /\ ex_after [65; 55296]%N 1 = (Some [], Err ValueError) /\
  ex_after [65]%N 7 = (None, Err FileNotFoundError).
Proof. repeat split; vm_compute; reflexivity. Qed.
Example ex_scalars : Forall Scalar [233; 10; 128512]%N /\ ~ Forall Scalar [65; 55296]%N.
Proof.
  split; [apply encode_total; exists [195; 169; 10; 240; 159; 152; 128]%N; vm_compute; reflexivity|]. intros F. apply encode_total in F. destruct F as (b & E). vm_compute in E. discriminate.
Qed.
Definition ex_lookup (e : string) : option string := if string_dec e "UTF8" then Some "utf-8" else if string_dec e "latin-1" then Some "iso8859-1" else None.
Definition ex_file (binary : bool) (e : option string) : fobj :=
  {| on_bytes := if binary then None else Some TypeError; on_text := if binary then Some TypeError else None; encoding := e; written := [] |}.
Example ex_objects : map (fun f => (written (fst (write_object ex_lookup (Ok [233]%N) f)), snd (write_object ex_lookup (Ok [233]%N) f)))
    [ex_file true None; ex_file false None; ex_file false (Some "UTF8"); ex_file false (Some "latin-1"); ex_file false (Some "what")] =
  [([Bytes [195; 169]%N], Ok tt); ([Text [233]%N], Ok tt); ([Text [233]%N], Ok tt); ([], Err ValueError); ([], Err ValueError)].
Proof. vm_compute. reflexivity. Qed.
(** a browser that also asks for an icon *)
Example ex_C122 : exists s, run [Connect 0; Send 0 Index; Connect 1; Send 1 Other; Accept; Read; Receive 0; Accept; Get; Read; Stop_server; Shut_down; Join] start = Some s /\ main s = Returned /\ received s = [0].
Proof. eexists. split; [vm_compute; reflexivity|]. repeat split. Qed.
Example ex_C122_timeout : exists s, run [Connect 1; Send 1 Other; Accept; Read; Timeout] start = Some s /\ main s = Raised /\ srv s = Idle /\ backlog s = [] /\ dget 0 (sent s) = None.
Proof. eexists. split; [vm_compute; reflexivity|]. repeat split. Qed.
