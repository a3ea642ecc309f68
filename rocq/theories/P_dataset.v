(** C38, C39: fetching a dataset, with crashes and concurrently. *)
From Verif Require Import Base M_dataset L_dataset.
From Coq Require Import Permutation.
Open Scope string_scope.
Open Scope list_scope.
Open Scope nat_scope.

(** An archive is a number; 7 is the published one. *)
Definition C38_sha (b : nat) : nat := b.
Definition C38_files : dict string nat := [("a.csv", 1); ("b.json", 2); ("readme", 3)].
Definition C38_unpack (b : nat) : option (dict string nat) := if b =? 7 then Some C38_files else None.
Definition C38_readable (n : string) : bool := negb (eqb_of n "readme").
Notation C38_run := (run C38_sha 7 C38_unpack C38_readable 2).
Notation C38_alone := (alone C38_sha 7 C38_unpack C38_readable 2).

(** Whatever the history of one process at a time — killed between any two operations on the file system,
    interrupted, with failed or corrupted downloads, the archive damaged meanwhile — every fetch that returns, returns
    the complete dataset; and the cache stays consistent. *)
Theorem C38_complete :
  forall (bytes digest file : Type) (ED : EqD digest) (sha256 : bytes -> digest) expected (unpack : bytes -> option (dict string file))
         readable attempts published full,
  sha256 published = expected -> (forall b, sha256 b = expected -> b = published) -> unpack published = Some full -> NoDup (dkeys full) ->
  forall acts s s' ps, Consistent sha256 expected full s -> run sha256 expected unpack readable attempts true s [] acts = Some (s', ps) ->
  Consistent sha256 expected full s' /\ forall i got, nth_error ps i = Some (PDone got) -> Complete readable full got.
Proof. intros. eapply fetch_complete; eassumption. Qed.
Print Assumptions C38_complete.

(** The first process fails to download once, then is killed before it renames; the second is interrupted; the
    archive is damaged after the third; the fourth is killed while removing the files; the fifth returns. *)
Definition C38_c : choice := mk_choice 1 (Some 7) false.
Definition C38_history : list act :=
  [ASpawn; AStep 0 C38_c; AStep 0 C38_c; AStep 0 C38_c; AStep 0 (mk_choice 0 None false); AStep 0 C38_c; AStep 0 C38_c; AKill 0;
   ASpawn; AStep 1 C38_c; AStep 1 C38_c; AStep 1 C38_c; AStep 1 C38_c; AStep 1 (mk_choice 0 None true); AStep 1 C38_c;
   ASpawn] ++ repeat (AStep 2 C38_c) 12 ++
  [ADamage 8; ASpawn; AStep 3 C38_c; AStep 3 C38_c; AStep 3 C38_c; AStep 3 C38_c; AKill 3; ASpawn] ++ repeat (AStep 4 C38_c) 18.
Example C38_complete_ex :
  Consistent (digest := nat) C38_sha 7 C38_files (mk_fs None None) /\
  C38_run true (mk_fs None None) [] C38_history =
    Some (mk_fs (Some 7) (Some C38_files),
          [PKilled; PFail RuntimeError; PDone [("b.json", 2); ("a.csv", 1)]; PKilled; PDone [("b.json", 2); ("a.csv", 1)]]).
Proof. split; [left; reflexivity|]. vm_compute. reflexivity. Qed.

(** From every consistent cache, a fetch that is neither interrupted nor killed, and for which the download succeeds,
    returns the complete dataset: it does not fail or run forever, whatever the order in which files are listed. *)
Theorem C38_repaired :
  forall (bytes digest file : Type) (ED : EqD digest) (sha256 : bytes -> digest) expected (unpack : bytes -> option (dict string file))
         readable attempts published full,
  sha256 published = expected -> (forall b, sha256 b = expected -> b = published) -> unpack published = Some full -> NoDup (dkeys full) ->
  forall s, attempts > 0 -> Consistent sha256 expected full s ->
  forall cs, Good published cs ->
  exists n s' got, alone sha256 expected unpack readable attempts n cs s PStart = (s', PDone got) /\
    Complete readable full got /\ Clean published full s' /\ dir s' = Some full.
Proof. intros. eapply fetch_succeeds; eassumption. Qed.
Print Assumptions C38_repaired.

Example C38_repaired_ex :
  let s := mk_fs (Some 8) (Some [("b.json", 2)]) in
  Consistent (digest := nat) C38_sha 7 C38_files s /\ Good 7 (fun _ => C38_c) /\
  C38_alone 17 (fun _ => C38_c) s PStart = (mk_fs (Some 7) (Some C38_files), PDone [("b.json", 2); ("a.csv", 1)]).
Proof.
  cbv zeta. split.
  { right. right. split; [exists 8; split; [reflexivity|discriminate]|]. exists [("b.json", 2)]. split; [reflexivity|]. repeat constructor. intros []. }
  split; [intros j; split; reflexivity|]. vm_compute. reflexivity.
Qed.

(** Any number of processes, started at any time, interleaved in any way and killed at any time: if the archive is not
    damaged locally, every fetch that returns, returns the complete dataset, and the cache stays clean. *)
Theorem C39_undamaged :
  forall (bytes digest file : Type) (ED : EqD digest) (sha256 : bytes -> digest) expected (unpack : bytes -> option (dict string file))
         readable attempts published full,
  sha256 published = expected -> (forall b, sha256 b = expected -> b = published) -> unpack published = Some full -> NoDup (dkeys full) ->
  forall acts s s' ps, (forall b, ~ In (ADamage b) acts) -> Clean published full s ->
  run sha256 expected unpack readable attempts false s [] acts = Some (s', ps) ->
  Clean published full s' /\ forall i got, nth_error ps i = Some (PDone got) -> Complete readable full got.
Proof. intros. eapply concurrent_done; eassumption. Qed.
Print Assumptions C39_undamaged.

(** Both download and unpack; the second finds the directory of the first, removes the archive and fails. *)
Definition C39_both : list act := concat (repeat [AStep 0 C38_c; AStep 1 C38_c] 12).
Example C39_undamaged_ex :
  Clean 7 C38_files (mk_fs None None) /\
  C38_run false (mk_fs None None) [] ([ASpawn; ASpawn] ++ C39_both) =
    Some (mk_fs None (Some C38_files), [PDone [("b.json", 2); ("a.csv", 1)]; PFail OSError]).
Proof. split; [split; left; reflexivity|]. vm_compute. reflexivity. Qed.

(** With a damaged archive, two processes, one of which is killed, can leave a valid archive beside an incomplete
    directory: a later fetch, running alone, returns a part of the dataset. *)
Theorem C39_refuted : exists s acts s' got,
  Consistent (digest := nat) C38_sha 7 C38_files s /\
  C38_run false s [] (ASpawn :: ASpawn :: acts) = Some (s', [PKilled; PDone [("b.json", 2); ("a.csv", 1)]]) /\
  C38_alone 20 (fun _ => C38_c) s' PStart = (s', PDone got) /\ ~ Complete C38_readable C38_files got.
Proof.
  exists (mk_fs (Some 8) (Some C38_files)),
    (repeat (AStep 0 C38_c) 3 ++ repeat (AStep 1 C38_c) 19 ++ [AStep 0 (mk_choice 0 None false); AKill 0]), 
    (mk_fs (Some 7) (Some [("b.json", 2); ("readme", 3)])), [("b.json", 2)].
  split; [right; left; reflexivity|]. split; [vm_compute; reflexivity|]. split; [vm_compute; reflexivity|].
  intros P. apply Permutation_length in P. vm_compute in P. discriminate.
Qed.
Print Assumptions C39_refuted.

(** Without concurrency, but when the user removes the damaged archive after such a crash, the same happens. *)
Theorem C38_archive_removed_refuted : exists acts s got,
  C38_run true (mk_fs (Some 8) (Some C38_files)) [] (ASpawn :: acts) = Some (s, [PKilled]) /\
  C38_alone 20 (fun _ => C38_c) (mk_fs None (dir s)) PStart = (mk_fs None (dir s), PDone got) /\ ~ Complete C38_readable C38_files got.
Proof.
  exists (repeat (AStep 0 C38_c) 4 ++ [AKill 0]), (mk_fs (Some 8) (Some [("a.csv", 1); ("readme", 3)])), [("a.csv", 1)].
  split; [vm_compute; reflexivity|]. split; [vm_compute; reflexivity|].
  intros P. apply Permutation_length in P. vm_compute in P. discriminate.
Qed.
Print Assumptions C38_archive_removed_refuted.
