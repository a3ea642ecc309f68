(** C131: embeddings of the entities of the types asked for. *)
From Coq Require Import Permutation.
From Verif Require Import Base M_str M_labels M_ken L_ken.
From Coq Require Import String NArith QArith Lia List.
Open Scope string_scope.
Open Scope list_scope.
Open Scope nat_scope.

Theorem C131_rows : forall {num} compile (pca : nat -> list (list num) -> list (list num)) search exclude types cols files, ~ In e_name cols ->
  forall suffix r, embeddings compile pca search exclude None suffix types cols files = Ok r ->
  columns r = e_name :: t_name :: map (fun c => c ++ suffix) cols /\
  exists pieces, Forall2 (Piece compile search exclude types) files pieces /\ rows r = concat pieces.
Proof. exact @plain_rows. Qed.
Theorem C131_projected : forall {num} compile (pca : nat -> list (list num) -> list (list num)) search exclude types cols files, (forall n X, length (pca n X) = length X) ->
  forall n suffix r, embeddings compile pca search exclude (Some n) suffix types cols files = Ok r ->
  columns r = e_name :: t_name :: map (fun j => of_string "X" ++ of_string (str_nat j) ++ suffix) (seq 0 n) /\
  exists pieces projected, Forall2 (Piece compile search exclude types) files pieces /\ Forall2 (Projected pca n) pieces projected /\ rows r = concat projected.
Proof. exact @pca_result. Qed.
Theorem C131_outcome : forall {num} compile (pca : nat -> list (list num) -> list (list num)) search exclude types cols files components suffix,
  (Possible compile search exclude types cols files components <-> exists r, embeddings compile pca search exclude components suffix types cols files = Ok r) /\
  (Patterns compile search exclude -> ~ In t_name cols -> ~ Possible compile search exclude types cols files components ->
   embeddings compile pca search exclude components suffix types cols files = Err ValueError).
Proof. exact @outcome. Qed.
Theorem C131_search_by_type : forall {num} compile (pca : nat -> list (list num) -> list (list num)) types cols files suffix r E T t v file,
  Regular compile -> ~ In e_name cols -> embeddings compile pca (Some t) None None suffix types cols files = Ok r ->
  In (E, T) types -> Inner T t -> Forall (fun c => ordinary c = true) t -> In file files -> In (E, v) file ->
  exists T' e t', Inner E e /\ Inner T' t' /\ In (E, T') types /\ Occurs t T' /\ In ((e, t'), v) (rows r).
Proof. exact @search_by_type. Qed.
Theorem C131_types : forall compile correspondence fetch_unique search exclude name out,
  fetch_ken_types compile correspondence fetch_unique search exclude name = Ok out ->
  exists c s u given, correspondence = Ok c /\ In s c /\ table s = name /\ fetch_unique (unique_id s) = Ok u /\ concat given = out /\
    Forall2 (fun T o => (Wanted compile search exclude T /\ exists t, Inner T t /\ o = [t]) \/ (~ Wanted compile search exclude T /\ o = [])) u given.
Proof. exact @types_listed. Qed.
Theorem C131_tables : forall {num} compile (pca : nat -> list (list num) -> list (list num)) correspondence fetch_pairs fetch_files search exclude name type_id components suffix r,
  fetch_ken_embeddings compile pca correspondence fetch_pairs fetch_files search exclude name type_id components suffix = Ok r ->
  exists c ids types full, correspondence = Ok c /\ fetch_pairs (snd ids) = Ok types /\ fetch_files (fst ids) = Ok full /\
    embeddings compile pca search exclude components suffix types (fst full) (snd full) = Ok r /\
    ((exists s, In s c /\ table s = name /\ ids = (entities_id s, Some (types_id s))) \/
     (name <> all_entities /\ (forall s, In s c -> table s <> name) /\ ids = (name, type_id))).
Proof. exact @tables. Qed.
(** the types that fetch_ken_types lists can be used in searches: false with a group in the name, whatever the regular expressions, the PCA and the vector *)
Theorem C131_type_names_refuted : forall {num} compile (pca : nat -> list (list num) -> list (list num)) (x : num), Regular compile ->
  let types := [(angle "film", director)] in let t := of_string "films_(music)" in
  In t (map inside (map snd types)) /\ exists r, embeddings compile pca (Some t) None None [] types [of_string "X0"] [[(angle "film", [x])]] = Ok r /\ rows r = [].
Proof. exact @type_names_false. Qed.
(** projected vectors can be compared: false, equal vectors of different files are projected apart *)
Theorem C131_one_space_refuted : forall compile (pca : nat -> list (list Q) -> list (list Q)), OneColumn pca ->
  exists types cols files r b c u v, embeddings compile pca None None (Some 1) [] types cols files = Ok r /\
    (exists x fb fc, In fb files /\ In fc files /\ In (angle b, [x]) fb /\ In (angle c, [x]) fc) /\
    In ((of_string b, of_string "t"), [u]) (rows r) /\ In ((of_string c, of_string "t"), [v]) (rows r) /\ ~ (u == v)%Q.
Proof. exact one_space_false. Qed.
(** as many entities of the types asked for as components are enough: false when a file has none *)
Theorem C131_enough_refuted : forall {num} compile (pca : nat -> list (list num) -> list (list num)) (x : num), Regular compile ->
  exists search types cols files, (exists m, compile search = Ok m /\ length (filter (fun f => m (snd f)) types) >= 1) /\
    (forall E T, In (E, T) types -> exists v, In (E, v) (concat files)) /\ embeddings compile pca (Some search) None (Some 1) [] types cols files = Err ValueError.
Proof. exact @enough_false. Qed.

Print Assumptions C131_rows.
Print Assumptions C131_projected.
Print Assumptions C131_outcome.
Print Assumptions C131_search_by_type.
Print Assumptions C131_types.
Print Assumptions C131_tables.
Print Assumptions C131_type_names_refuted.
Print Assumptions C131_one_space_refuted.
Print Assumptions C131_enough_refuted.

(** regular expressions of ordinary characters and groups; a PCA of one column *)
Fixpoint is_prefix (p t : text) : bool := match p, t with [], _ => true | a :: p', b :: t' => (a =? b)%N && is_prefix p' t' | _, _ => false end.
Fixpoint occurs (p t : text) : bool := is_prefix p t || match t with [] => false | _ :: t' => occurs p t' end.
Definition small_compile (p : text) : res (text -> bool) := if balanced 0 p then Ok (occurs (filter (fun c => negb (is_paren c)) p)) else Err ValueError.
Lemma is_prefix_iff : forall p t, is_prefix p t = true <-> exists b, t = p ++ b.
Proof.
  induction p as [|a p IH]; intros t; [split; [exists t; reflexivity|reflexivity]|]. destruct t as [|b t]; [split; [discriminate|intros [x [=]]]|]. cbn. rewrite andb_true_iff, IH, N.eqb_eq.
  split; [intros [-> [x ->]]; exists x; reflexivity|intros [x [= -> ->]]; split; [reflexivity|exists x; reflexivity]].
Qed.
Lemma occurs_iff : forall p t, occurs p t = true <-> Occurs p t.
Proof.
  intros p t. induction t as [|c t IH]; cbn [occurs]; rewrite orb_true_iff, is_prefix_iff.
  - split; [intros [[b E]|[=]]; exists [], b; exact E|]. intros [[|x a] [b E]]; [left; exists b; exact E|discriminate E].
  - rewrite IH. split; [intros [[b E]|[a [b ->]]]; [exists [], b; exact E|exists (c :: a), b; reflexivity]|].
    intros [[|x a] [b E]]; [left; exists b; exact E|]. right. injection E as -> E. exists a, b. exact E.
Qed.
Example ex_C131_regular : Regular small_compile.
Proof. intros p _ B. unfold small_compile. rewrite B. eexists. split; [reflexivity|]. intros t. apply occurs_iff. Qed.
Definition centred (n : nat) (X : list (list Q)) : list (list Q) := map (fun v => [nth 0 v 0 - qmean (map (fun w => nth 0 w 0) X)]%Q) X.
Example ex_C131_one_column : OneColumn centred /\ forall n X, length (centred n X) = length X.
Proof.
  split; [|intros n X; apply map_length]. intros l NE. exists 1%Q. split; [left; reflexivity|]. unfold centred.
  assert (E : map (fun w => nth 0 w 0%Q) (map (fun x => [x]) l) = l) by (clear; induction l as [|x l IH]; [reflexivity|cbn; rewrite IH; reflexivity]). rewrite E, map_map.
  generalize (qmean l). intros q. clear NE E. induction l as [|x l IH]; [constructor|]. cbn. constructor; [|exact IH]. eexists. split; [reflexivity|]. ring.
Qed.
(** two files; an entity with several types, one excluded *)
Definition kinds : list (text * text) :=
  [(angle "Heat", angle "old_films"); (angle "Heat", angle "films"); (angle "Abba", angle "bands"); (angle "Alien", angle "scary_films"); (angle "Heat", angle "us_films")].
Definition stored : list (list (text * list Q)) := [[(angle "Abba", [1; 2]%Q); (angle "Alien", [3; 4]%Q)]; [(angle "Heat", [5; 6]%Q)]].
Example ex_C131_rows : exists r, embeddings small_compile centred (Some (of_string "films")) (Some (of_string "old")) None (of_string "_k") kinds [of_string "X0"; of_string "X1"] stored = Ok r /\
  rows r = [((of_string "Alien", of_string "scary_films"), [3; 4]%Q); ((of_string "Heat", of_string "films"), [5; 6]%Q)] /\
  columns r = map of_string ["Entity"; "Type"; "X0_k"; "X1_k"].
Proof. eexists. split; [vm_compute; reflexivity|]. split; reflexivity. Qed.
Example ex_C131_projected : exists r, embeddings small_compile centred (Some (of_string "films")) None (Some 1) (of_string "_k") kinds [of_string "X0"; of_string "X1"] stored = Ok r /\
  columns r = map of_string ["Entity"; "Type"; "X0_k"] /\ length (rows r) = 2.
Proof. eexists. split; [vm_compute; reflexivity|]. split; reflexivity. Qed.
Example ex_C131_outcome : ~ Possible small_compile (Some (of_string "bands")) None kinds [of_string "X0"; of_string "X1"] stored (Some 1) /\
  Patterns small_compile (Some (of_string "bands")) None /\ ~ In t_name [of_string "X0"; of_string "X1"].
Proof.
  split; [|split; [split; [intros p [= <-]; eexists; reflexivity|intros p [=]]|intros [[=]|[[=]|[]]]]].
  intros P. destruct (proj1 (proj1 (outcome small_compile centred _ _ _ _ _ _ [])) P) as [r R]. vm_compute in R. discriminate R.
Qed.
Example ex_C131_search_by_type : Inner (angle "films") (of_string "films") /\ Forall (fun c => ordinary c = true) (of_string "films") /\ In (angle "Heat", angle "films") kinds.
Proof. split; [left; do 2 eexists; reflexivity|]. split; [repeat constructor|right; left; reflexivity]. Qed.
Definition catalogue : list source := [{| table := of_string "games"; entities_id := of_string "1"; types_id := of_string "2"; unique_id := of_string "3" |}].
Example ex_C131_types : fetch_ken_types small_compile (Ok catalogue) (fun _ => Ok [angle "films"; angle "bands"; angle "old_films"]) (Some (of_string "film")) (Some (of_string "old")) (of_string "games") = Ok [of_string "films"].
Proof. reflexivity. Qed.
Example ex_C131_tables : exists r, fetch_ken_embeddings small_compile centred (Ok catalogue) (fun _ => Ok kinds) (fun _ => Ok ([of_string "X0"; of_string "X1"], stored)) None None (of_string "games") None None [] = Ok r /\ length (rows r) = 3.
Proof. eexists. split; [vm_compute; reflexivity|reflexivity]. Qed.
