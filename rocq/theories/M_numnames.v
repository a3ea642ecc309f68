(** Numbered feature names, /repo/skrub/_minhash_encoder.py and /repo/skrub/_text_encoder.py. *)
From Verif Require Import Base M_str.
Open Scope string_scope.
Open Scope list_scope.
Open Scope nat_scope.

(** [MinHashEncoder.get_feature_names_out], _minhash_encoder.py:296-310. *)
Definition minhash_names (input_name : string) (n_components : nat) : list string :=
  let num_digits := String.length (str_nat (n_components - 1)) in
  map (fun i => (input_name ++ "_" ++ zfill num_digits (str_nat i))%string) (seq 0 n_components).

(** [TextEncoder.get_feature_names_out], _text_encoder.py:382-395. *)
Definition text_names (input_name : string) (n_components : nat) : list string :=
  let n_digits := String.length (str_nat n_components) in
  map (fun i => (input_name ++ "_" ++ zfill n_digits (str_nat i))%string) (seq 1 n_components).
