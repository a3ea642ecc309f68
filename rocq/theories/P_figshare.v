(** C40: fetching figshare tables. *)
From Verif Require Import Base M_figshare L_figshare.
From Coq Require Import Permutation.
Open Scope string_scope.
Open Scope list_scope.
Open Scope nat_scope.

(** Any sequence of fetches of several tables, not killed while files are written, the downloads failing or being
    corrupted at will: a fetch that returns gives the rows of its own table, by whole batches in the order of the
    directory listing. The identifiers are not prefixes of one another. *)
Theorem C40_history :
  forall (row : Type) size, size > 0 -> forall (listing : cache row -> list string), (forall c, Permutation (listing c) (dkeys c)) ->
  forall verify (table : string -> list row) ids,
  (forall id rows, In id ids -> verify id rows = true -> rows = table id) ->
  (forall id, In id ids -> Digits id) ->
  (forall id id', In id ids -> In id' ids -> String.prefix id id' = true -> id = id') ->
  forall evs c c' rs, Inv size table ids c ->
  (forall id s k, In (id, s, k) evs -> In id ids /\ (k = None \/ k = Some 0)) ->
  loads size listing verify c evs = (c', rs) ->
  Inv size table ids c' /\
  Forall2 (fun ev r => match r with Ok rows => SameBatches size (table (fst (fst ev))) rows | Err _ => True end) evs rs.
Proof. intros. eapply loads_inv; eassumption. Qed.
Print Assumptions C40_history.

Definition C40_table (id : string) : list nat := if eqb_of id "39142985" then [1; 2; 3; 4; 5] else [7; 8].
Definition C40_verify (id : string) (rows : list nat) : bool := eqb_of rows (C40_table id).
Definition C40_listing (c : cache nat) : list string := rev (dkeys c).
Definition C40_ids : list string := ["39142985"; "39149066"].
Definition C40_events : list (string * option (list nat) * option nat) :=
  [("39142985", None, None); ("39142985", Some [1; 2], None); ("39142985", Some [1; 2; 3; 4; 5], Some 0);
   ("39142985", Some [1; 2; 3; 4; 5], None); ("39149066", Some [7; 8], None); ("39142985", None, None)].
Example C40_history_ex :
  (forall c, Permutation (C40_listing c) (dkeys c)) /\
  (forall id rows, In id C40_ids -> C40_verify id rows = true -> rows = C40_table id) /\
  (forall id, In id C40_ids -> Digits id) /\
  (forall id id', In id C40_ids -> In id' C40_ids -> String.prefix id id' = true -> id = id') /\
  Inv 2 C40_table C40_ids [] /\
  snd (loads 2 C40_listing C40_verify [] C40_events) =
    [Err OSError; Err OSError; Err RuntimeError; Ok [1; 2; 3; 4; 5]; Ok [7; 8]; Ok [5; 3; 4; 1; 2]].
Proof.
  split; [intros c; apply Permutation_sym, Permutation_rev|]. split.
  { intros id rows _ E. unfold C40_verify in E. apply (proj1 (eqb_of_true _ _)) in E. exact E. }
  split. { intros id [<-|[<-|[]]]; cbn [Digits]; repeat split; vm_compute; lia. }
  split. { intros id id' [<-|[<-|[]]] [<-|[<-|[]]] E; vm_compute in E; congruence. }
  split. { split; [constructor|]. intros id _. left. intros n []. }
  vm_compute. reflexivity.
Qed.

(** Such rows are the rows of the table, up to their order. *)
Theorem C40_rows : forall (row : Type) size (table rows : list row), SameBatches size table rows -> Permutation rows table.
Proof. intros. eapply SameBatches_Permutation; eassumption. Qed.
Print Assumptions C40_rows.
Example C40_rows_ex : SameBatches 2 [1; 2; 3; 4; 5] [5; 3; 4; 1; 2].
Proof.
  exists [[1; 2]; [3; 4]; [5]], [[5]; [3; 4]; [1; 2]]. split; [reflexivity|]. split; [repeat constructor|]. split; [|reflexivity].
  apply Permutation_rev.
Qed.

(** When the download succeeds the fetch does too. *)
Theorem C40_works :
  forall (row : Type) size, size > 0 -> forall (listing : cache row -> list string), (forall c, Permutation (listing c) (dkeys c)) ->
  forall verify (table : string -> list row) ids,
  (forall id rows, In id ids -> verify id rows = true -> rows = table id) ->
  (forall id, In id ids -> Digits id) ->
  (forall id id', In id ids -> In id' ids -> String.prefix id id' = true -> id = id') ->
  forall c id, Inv size table ids c -> In id ids -> verify id (table id) = true -> table id <> [] ->
  exists c' rows, load size listing verify c id (Some (table id)) None = (c', Ok rows) /\ SameBatches size (table id) rows.
Proof. intros. eapply fetch_works; eassumption. Qed.
Print Assumptions C40_works.
Example C40_works_ex : Inv 2 C40_table C40_ids [] /\ C40_verify "39142985" (C40_table "39142985") = true.
Proof. split; [|vm_compute; reflexivity]. split; [constructor|]. intros id _. left. intros n []. Qed.

(** What a later fetch does after a process was killed while writing, [k] being the number of operations done on files
    (two per file): it downloads again if none was done, fails if a file was being written, and otherwise silently
    returns the first batches only. *)
Theorem C40_killed :
  forall (row : Type) size, size > 0 -> forall (listing : cache row -> list string), (forall c, Permutation (listing c) (dkeys c)) ->
  forall verify c id rows k served killed, NoDup (dkeys c) -> Digits id -> Clear id c -> verify id rows = true ->
  let c' := fst (fetch size listing verify c id (Some rows) (Some k)) in
  k < 2 * n_batches size (length rows) ->
  match k with
  | 0 => c' = c
  | _ => if Nat.even k
         then exists part got, snd (load size listing verify c' id served killed) = Ok got /\ part = firstn (k / 2) (batches size rows) /\
                (exists part', Permutation part part' /\ got = concat part') /\ length got < length rows
         else exists e, snd (load size listing verify c' id served killed) = Err e
  end.
Proof. intros row size Hs listing Hl. intros. eapply crash_result; eassumption. Qed.
Print Assumptions C40_killed.
Example C40_killed_ex :
  let c' k := fst (fetch 2 C40_listing C40_verify [] "39142985" (Some [1; 2; 3; 4; 5]) (Some k)) in
  n_batches 2 5 = 3 /\
  map (fun k => snd (load 2 C40_listing C40_verify (c' k) "39142985" None None)) [0; 1; 2; 3; 4; 5] =
    [Err OSError; Err OSError; Ok [1; 2]; Err OSError; Ok [3; 4; 1; 2]; Err OSError].
Proof. cbv zeta. split; vm_compute; reflexivity. Qed.

(** A fetch that was killed makes later ones return a part of the table. *)
Theorem C40_killed_refuted : exists k got,
  let c' := fst (fetch 2 C40_listing C40_verify [] "39142985" (Some (C40_table "39142985")) (Some k)) in
  snd (load 2 C40_listing C40_verify c' "39142985" None None) = Ok got /\ ~ Permutation got (C40_table "39142985").
Proof. exists 2, [1; 2]. split; [vm_compute; reflexivity|]. intros P. apply Permutation_length in P. discriminate. Qed.
Print Assumptions C40_killed_refuted.

(** When an identifier is a prefix of another, the files of the other table are returned. *)
Theorem C40_prefix_refuted : exists evs rs,
  snd (loads 2 C40_listing (fun _ _ => true) [] evs) = rs /\
  evs = [("391", Some [1; 2], None); ("39", Some [7; 8], None)] /\ rs = [Ok [1; 2]; Ok [1; 2]].
Proof. eexists _, _. split; [|split; reflexivity]. vm_compute. reflexivity. Qed.
Print Assumptions C40_prefix_refuted.
