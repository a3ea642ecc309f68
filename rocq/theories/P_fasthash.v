(** C48: minimal hashes of n-grams. *)
From Verif Require Import Base M_similarity M_fasthash L_similarity L_fasthash.
From Coq Require Import ZArith.
Open Scope list_scope.
Open Scope nat_scope.

(** The two hashes are the smallest and the largest among all the windows of the first [len(string)] bytes, of lengths
    from [min_n] to [max_n - 1]. *)
Theorem C48_value : forall utf8 gen_atom, Atoms gen_atom -> Encoding utf8 ->
  forall s min_n max_n seed, s <> [] -> 1 <= min_n < max_n -> max_n - 1 <= length s ->
  exists lo hi, ngram_min_hash utf8 gen_atom s min_n max_n seed = Ok (lo, hi) /\
    let bytes := firstn (length s) (flat_map utf8 s) in
    (forall w, Window min_n max_n bytes w -> (lo <= window_hash gen_atom seed w <= hi)%Z) /\
    (exists w, Window min_n max_n bytes w /\ lo = window_hash gen_atom seed w) /\
    (exists w, Window min_n max_n bytes w /\ hi = window_hash gen_atom seed w).
Proof. exact hash_spec. Qed.
Print Assumptions C48_value.

(** Inclusion, for texts with one byte per character: the minima decrease and the maxima increase. *)
Theorem C48_inclusion : forall utf8 gen_atom, Atoms gen_atom -> Encoding utf8 ->
  forall s t min_n max_n n_components minmax,
  Substring s t -> OneByte utf8 t -> s <> [] -> 1 <= min_n < max_n -> max_n - 1 <= length s ->
  exists hs ht, get_fast_hash utf8 gen_atom minmax n_components min_n max_n s = Ok hs /\
    get_fast_hash utf8 gen_atom minmax n_components min_n max_n t = Ok ht /\
    (minmax = false -> Forall2 Z.le ht hs /\ length hs = n_components) /\
    (minmax = true -> exists ps pt, hs = concat (map (fun p => [fst p; snd p]) ps) /\ ht = concat (map (fun p => [fst p; snd p]) pt) /\
       length ps = n_components / 2 /\ Forall2 (fun b a => fst b <= fst a /\ snd a <= snd b)%Z pt ps).
Proof. exact fast_inclusion. Qed.
Print Assumptions C48_inclusion.

Definition C48_atoms (n seed : nat) : list Z := map (fun i => (Z.of_nat (i * i + 3 * seed) - 4) * 1000000000)%Z (seq 0 n).
Example C48_value_ex :
  Atoms C48_atoms /\ Encoding toy_utf8 /\ Window 2 4 (map Z.of_nat [97; 98; 99]) (map Z.of_nat [98; 99]) /\
  ngram_min_hash toy_utf8 C48_atoms [97; 98; 99] 2 4 1 = Ok (window_hash C48_atoms 1 (map Z.of_nat [97; 98; 99]), window_hash C48_atoms 1 (map Z.of_nat [97; 98])) .
Proof.
  split; [intros n s; unfold C48_atoms; rewrite map_length, seq_length; reflexivity|].
  split; [intro c; unfold toy_utf8; destruct (c <? 128); simpl; lia|].
  split; [split; [simpl; lia|exists [97%Z], []; reflexivity]|]. vm_compute. reflexivity.
Qed.
Example C48_inclusion_ex :
  Substring [98; 99] [97; 98; 99; 98; 100] /\ OneByte toy_utf8 [97; 98; 99; 98; 100] /\
  get_fast_hash toy_utf8 C48_atoms true 4 1 3 [98; 99] <> get_fast_hash toy_utf8 C48_atoms true 4 1 3 [97; 98; 99; 98; 100].
Proof.
  split; [exists [97], [98; 100]; reflexivity|]. split; [intros c I; repeat (destruct I as [<-|I]; [reflexivity|]); destruct I|].
  vm_compute. discriminate.
Qed.

(** The murmur hash: the minima over all the n-grams of lengths [min_n] to [max_n] of the normalised text. *)
Theorem C48_murmur_value : forall (C : Type) (E : EqD C) (space : C) is_space lower murmurhash s ws n_components min_n max_n,
  1 <= min_n <= max_n -> s <> [] -> Words is_space (lower s) ws ->
  let h := get_murmur_hash space is_space lower murmurhash n_components min_n max_n s in
  length h = n_components /\ forall d, d < n_components ->
    if length (spaced space ws) <? min_n then nth_error h d = Some 0%Z
    else exists m, nth_error h d = Some m /\ (forall g, MurmurGram space min_n max_n ws g -> (m <= murmurhash g d)%Z) /\
           exists g, MurmurGram space min_n max_n ws g /\ m = murmurhash g d.
Proof. exact @murmur_spec. Qed.
Print Assumptions C48_murmur_value.

(** The minima decrease when words are added around the words of a text. *)
Theorem C48_murmur_inclusion : forall (C : Type) (E : EqD C) (space : C) is_space lower murmurhash s t ws a b n_components min_n max_n,
  1 <= min_n <= max_n -> s <> [] -> t <> [] -> ws <> [] ->
  Words is_space (lower s) ws -> Words is_space (lower t) (a ++ ws ++ b) -> min_n <= length (spaced space ws) ->
  Forall2 Z.le (get_murmur_hash space is_space lower murmurhash n_components min_n max_n t)
               (get_murmur_hash space is_space lower murmurhash n_components min_n max_n s).
Proof. exact @murmur_inclusion. Qed.
Print Assumptions C48_murmur_inclusion.

Definition C48_murmur (g : list ascii) (d : nat) : Z :=
  (fold_left (fun h c => (h * 31 + Z.of_nat (nat_of_ascii c) * Z.of_nat (S d)) mod 1009) g 7)%Z.
Example C48_murmur_ex :
  Words ascii_is_space (map ascii_lower (chars "Ab")) [chars "ab"] /\
  Words ascii_is_space (map ascii_lower (chars "x ab")) ([chars "x"] ++ [chars "ab"] ++ []) /\
  let h s := get_murmur_hash " "%char ascii_is_space (map ascii_lower) C48_murmur 3 2 4 (chars s) in
  h "Ab"%string = [106; 462; 345]%Z /\ h "x ab"%string = [48; 70; 268]%Z.
Proof.
  assert (A : forall s, s = [] \/ s = [" "%char] -> all_space ascii_is_space s) by (intros s [->| ->] c I; repeat (destruct I as [<-|I]; [reflexivity|]); destruct I).
  split; [|split].
  - change (map ascii_lower (chars "Ab")) with ([] ++ chars "ab" ++ []).
    apply words_more; [apply A; auto|discriminate|intros c I; repeat (destruct I as [<-|I]; [reflexivity|]); destruct I|reflexivity|constructor; apply A; auto].
  - change (map ascii_lower (chars "x ab")) with ([] ++ chars "x" ++ ([" "%char] ++ chars "ab" ++ [])).
    apply words_more; [apply A; auto|discriminate|intros c I; repeat (destruct I as [<-|I]; [reflexivity|]); destruct I|reflexivity|].
    apply words_more; [apply A; auto|discriminate|intros c I; repeat (destruct I as [<-|I]; [reflexivity|]); destruct I|reflexivity|constructor; apply A; auto].
  - vm_compute. repeat split.
Qed.

(** After a character encoded with two bytes, the end of the string is ignored: strings that differ there have the same hash. *)
Theorem C48_truncated_refuted : forall utf8 gen_atom c d e, length (utf8 c) = 2 ->
  forall min_n max_n seed, ngram_min_hash utf8 gen_atom [c; d] min_n max_n seed = ngram_min_hash utf8 gen_atom [c; e] min_n max_n seed.
Proof. exact fast_truncated. Qed.
Print Assumptions C48_truncated_refuted.
Example C48_truncated_refuted_ex : length (toy_utf8 233) = 2 /\ ngram_min_hash toy_utf8 C48_atoms [233; 97] 1 3 1 = ngram_min_hash toy_utf8 C48_atoms [233; 120] 1 3 1.
Proof. split; [reflexivity|]. vm_compute. reflexivity. Qed.

(** For the same reason inclusion fails with such characters. *)
Theorem C48_inclusion_refuted : exists gen_atom s t, Atoms gen_atom /\ Substring s t /\ length s = 2 /\
  exists lo hi lo' hi', ngram_min_hash toy_utf8 gen_atom s 2 3 0 = Ok (lo, hi) /\ ngram_min_hash toy_utf8 gen_atom t 2 3 0 = Ok (lo', hi') /\ (lo < lo')%Z.
Proof. exact inclusion_refuted. Qed.
Print Assumptions C48_inclusion_refuted.

(** With a range of a single length, all the strings have the same hash. *)
Theorem C48_single_length_refuted : forall utf8 gen_atom s t n seed, s <> [] -> t <> [] ->
  ngram_min_hash utf8 gen_atom s n n seed = ngram_min_hash utf8 gen_atom t n n seed.
Proof. exact single_length. Qed.
Print Assumptions C48_single_length_refuted.
Example C48_single_length_refuted_ex : get_fast_hash toy_utf8 C48_atoms false 2 3 3 [97; 98; 99; 100] = Ok [MAXINT32; MAXINT32].
Proof. vm_compute. reflexivity. Qed.
