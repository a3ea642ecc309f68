(** C51: numbered feature names. *)
From Verif Require Import Base M_numnames L_numnames.
Open Scope string_scope.
Open Scope list_scope.
Open Scope nat_scope.

(** There is a name for each component; they are distinct, have the same length, and are in alphabetical order. *)
Theorem C51_minhash : forall name n, length (minhash_names name n) = n /\ Ordered (minhash_names name n).
Proof. exact minhash_ordered. Qed.
Print Assumptions C51_minhash.
Theorem C51_text : forall name n, length (text_names name n) = n /\ Ordered (text_names name n).
Proof. exact text_ordered. Qed.
Print Assumptions C51_text.

Example ex_minhash : minhash_names "c" 11 = ["c_00"; "c_01"; "c_02"; "c_03"; "c_04"; "c_05"; "c_06"; "c_07"; "c_08"; "c_09"; "c_10"].
Proof. reflexivity. Qed.
Example ex_minhash_10 : minhash_names "c" 10 = ["c_0"; "c_1"; "c_2"; "c_3"; "c_4"; "c_5"; "c_6"; "c_7"; "c_8"; "c_9"].
Proof. reflexivity. Qed.
Example ex_text : text_names "c" 10 = ["c_01"; "c_02"; "c_03"; "c_04"; "c_05"; "c_06"; "c_07"; "c_08"; "c_09"; "c_10"].
Proof. reflexivity. Qed.
