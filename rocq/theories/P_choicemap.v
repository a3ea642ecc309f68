(** C139: a choice given with [**choice] stands for the parameter it is named after; discretized
    choices are sequences of their values; mapping the outcomes of a choice keeps the rest. *)
From Coq Require Import List ZArith Bool NArith.
From Verif Require Import Base M_labels M_match M_choicemap L_choicemap.
Import ListNotations.
Open Scope list_scope.
Open Scope nat_scope.

(** The arguments of [f( **choice1, **choice2, p=v)]: each choice, whole, for the parameter named
    by what follows the last ["__"] of its name. They are accepted exactly when every choice has a
    name and no parameter is given twice. *)
Theorem C139_keyword_arguments : forall (V : Type) (l : list (argument V)) d,
  keyword_arguments l [] = Ok d <-> Forall2 (fun a p => Given a (fst p) (snd p)) l d /\ NoDup (dkeys d).
Proof. exact @arguments_spec. Qed.
Print Assumptions C139_keyword_arguments.

Definition ex_num (s : String.string) : choice nat := Range 5 (Some (of_string s)) None.
Example C139_keyword_arguments_ex :
  keyword_arguments [Unpacked (ex_num "string__n_components"); Named (of_string "verbose") 1; Unpacked (ex_num "k")] [] =
  Ok [(of_string "n_components", Self (ex_num "string__n_components")); (of_string "verbose", Value 1); (of_string "k", Self (ex_num "k"))].
Proof. vm_compute. reflexivity. Qed.

(** Otherwise the call is refused: AttributeError for a choice without a name, TypeError for a
    parameter given twice. *)
Theorem C139_keyword_arguments_refused : forall (V : Type) (l : list (argument V)) e, keyword_arguments l [] = Err e ->
  (e = AttributeError /\ exists a, In a l /\ Nameless a) \/
  (e = TypeError /\ exists l1 a l2 b l3 k i j, l = l1 ++ a :: l2 ++ b :: l3 /\ Given a k i /\ Given b k j).
Proof. exact @arguments_refused. Qed.
Print Assumptions C139_keyword_arguments_refused.

Example C139_keyword_arguments_refused_ex :
  keyword_arguments [Unpacked (ex_num "a__k"); Unpacked (ex_num "b__k")] [] = Err TypeError /\
  keyword_arguments [Unpacked (Range 5 None None)] [] = Err AttributeError.
Proof. split; vm_compute; reflexivity. Qed.

(** Any prefix can be put before the name of a parameter that has no ["__"] and does not begin
    with ["_"]. The last part is unique, and never has ["__"]. *)
Theorem C139_names : forall p k,
  ((forall q r, k <> q ++ dunder ++ r) -> LastPart k k /\ ((forall r, k <> 95%N :: r) -> LastPart (p ++ dunder ++ k) k)) /\
  (forall t k', LastPart t k -> LastPart t k' -> k = k') /\
  (forall t, LastPart t k -> forall q r, k <> q ++ dunder ++ r).
Proof.
  intros p k. split; [|split].
  - intros Hno. split; [now apply LastPart_plain|]. intros Hf. now apply LastPart_prefixed.
  - intros t k'. apply LastPart_unique.
  - intros t. apply LastPart_no_dunder.
Qed.
Print Assumptions C139_names.

Example C139_names_ex :
  last_part (of_string "minhash__n_components") = of_string "n_components" /\ last_part (of_string "C") = of_string "C" /\
  last_part (of_string "a__b__c") = of_string "c" /\ last_part (of_string "a___b") = of_string "b".
Proof. repeat split; vm_compute; reflexivity. Qed.

(** Hence the parameter of a parameter cannot be given with [**choice]: whatever its name, the
    choice is not given for a parameter whose name has ["__"], such as [pca__n_components]. *)
Theorem C139_nested_parameters_cannot_be_given :
  exists k : text, forall (V : Type) (c : choice V) i, ~ Given (Unpacked c) k i.
Proof.
  exists (of_string "pca__n_components"). intros V c i (_ & t & _ & L).
  apply (LastPart_no_dunder _ _ L (of_string "pca") (of_string "n_components")). reflexivity.
Qed.
Print Assumptions C139_nested_parameters_cannot_be_given.

(** Indexing by a string. *)
Theorem C139_index_by_name : forall (V : Type) (c : choice V) s,
  match getitem c (KStr s) with
  | Ok i => i = Self c /\ exists t, choice_name c = Some t /\ LastPart t s
  | Err e => (e = AttributeError /\ choice_name c = None) \/
             (e = KeyError /\ exists t k, choice_name c = Some t /\ LastPart t k /\ s <> k)
  end.
Proof. exact @getitem_str. Qed.
Print Assumptions C139_index_by_name.

Example C139_index_by_name_ex :
  getitem (ex_num "a__k") (KStr (of_string "k")) = Ok (Self (ex_num "a__k")) /\
  getitem (ex_num "a__k") (KStr (of_string "a__k")) = Err KeyError.
Proof. split; vm_compute; reflexivity. Qed.

(** A discretized choice is the sequence of its values: iteration, [len], [reversed], indexing
    from both ends, [index] and [in] agree with each other, and its default is one of them. *)
Theorem C139_discretized_choices_are_sequences : forall (V : Type) g n ch (eqv : V -> V -> bool), g <> [] ->
  let c := @Steps V g n ch in
  exists l, seq_iter c = Ok l /\ seq_len c = Ok (length l) /\ seq_reversed c = Ok (rev l) /\
    (exists v, default c = Ok v /\ In v l) /\
    (forall z, match getitem c (KInt z) with
               | Ok i => exists j v, i = Value v /\ nth_error l j = Some v /\
                           (z = Z.of_nat j \/ z = (Z.of_nat j - Z.of_nat (length l))%Z)
               | Err e => e = IndexError /\ (z < - Z.of_nat (length l) \/ Z.of_nat (length l) <= z)%Z
               end) /\
    (forall v, match seq_index eqv c v with
               | Ok j => seq_contains eqv c v = Ok true /\ (exists w, nth_error l j = Some w /\ eqv w v = true) /\
                         forall m w, m < j -> nth_error l m = Some w -> eqv w v = false
               | Err e => e = ValueError /\ seq_contains eqv c v = Ok false /\ forall w, In w l -> eqv w v = false
               end).
Proof. exact @steps_sequence. Qed.
Print Assumptions C139_discretized_choices_are_sequences.

Definition ex_steps : choice nat := Steps [3; 5; 8; 9] (Some (of_string "pca__n")) None.
Example C139_discretized_choices_are_sequences_ex :
  getitem ex_steps (KInt (-1)) = Ok (Value 9) /\ getitem ex_steps (KInt 4) = Err IndexError /\ default ex_steps = Ok 5 /\
  seq_index Nat.eqb ex_steps 8 = Ok 2 /\ seq_index Nat.eqb ex_steps 4 = Err ValueError /\ seq_reversed ex_steps = Ok [9; 8; 5; 3] /\
  unpack ex_steps = Ok [(of_string "n", Self ex_steps)].
Proof. repeat split; vm_compute; reflexivity. Qed.

(** The others are not sequences. *)
Theorem C139_other_choices_are_not_sequences : forall (V : Type) (c : choice V) z, (forall g n ch, c <> Steps g n ch) ->
  seq_len c = Err TypeError /\ seq_iter c = Err TypeError /\
  match choice_name c with Some _ => getitem c (KInt z) = Err TypeError | None => getitem c (KInt z) = Err AttributeError end.
Proof. exact @not_sequences. Qed.
Print Assumptions C139_other_choices_are_not_sequences.

Example C139_other_choices_are_not_sequences_ex : getitem (Enum Plain [1; 2] None (Some (of_string "N")) None) (KInt 0) = Err TypeError.
Proof. reflexivity. Qed.

(** [choose_from] gives a choice with the outcomes and names it was given, or refuses: TypeError
    for names that are not strings, ValueError for no outcome. *)
Theorem C139_choose_from : forall (V : Type) (g : given V) name,
  (forall m, g = GMapping m -> NoDup (map fst m)) ->
  match choose_from g name with
  | Ok c => Sound c /\ exists t, (name = None /\ t = None \/ exists s, name = Some (PStr s) /\ t = Some s) /\
      match g with
      | GList l => c = Enum Plain l None t None
      | GMapping m => c = Enum Plain (map snd m) (Some (map fst m)) t None
      end
  | Err TypeError => name = Some POther \/ exists m v, g = GMapping m /\ In (POther, v) m
  | Err ValueError => g = GList [] \/ g = GMapping []
  | Err _ => False
  end.
Proof. exact @choose_from_spec. Qed.
Print Assumptions C139_choose_from.

Definition ex_mapping : list (pyname * nat) := [(PStr (of_string "one"), 1); (PStr (of_string "two"), 2)].
Example C139_choose_from_ex :
  choose_from (GMapping ex_mapping) (Some (PStr (of_string "N"))) =
    Ok (Enum Plain [1; 2] (Some (map fst ex_mapping)) (Some (of_string "N")) None) /\
  choose_from (GMapping ((POther, 3) :: ex_mapping)) None = Err TypeError /\ choose_from (GList (@nil nat)) None = Err ValueError.
Proof. repeat split; vm_compute; reflexivity. Qed.

(** [map_values(func)] keeps the class, the names and the outcome chosen, replaces outcomes by
    their images, and fails only if [func] fails on an outcome. *)
Theorem C139_map_values : forall (V : Type) func cls outs names name idx, @Sound V (Enum cls outs names name idx) ->
  match map_values func (Enum cls outs names name idx) with
  | Ok c => exists outs', c = Enum cls outs' names name idx /\ Forall2 (fun v w => func v = Ok w) outs outs' /\ Sound c
  | Err e => exists v, In v outs /\ func v = Err e
  end.
Proof. exact @map_values_spec. Qed.
Print Assumptions C139_map_values.

(** So the value of the mapped choice, by default or chosen, is the image of the value of the
    choice. *)
Theorem C139_value_of_mapped_choice : forall (V : Type) func (c c' : choice V), Sound c -> map_values func c = Ok c' ->
  (forall v, default c = Ok v -> exists w, func v = Ok w /\ default c' = Ok w) /\
  (forall v, chosen_or_default c = Ok v -> exists w, func v = Ok w /\ chosen_or_default c' = Ok w) /\
  (exists v, default c = Ok v) /\ (exists v, chosen_or_default c = Ok v) /\ choice_name c' = choice_name c.
Proof. exact @map_values_values. Qed.
Print Assumptions C139_value_of_mapped_choice.

Definition ex_enum : choice nat := Enum Plain [1; 2; 0] None (Some (of_string "N")) (Some 1).
Definition ex_func (n : nat) : res nat := if Nat.eqb n 7 then Err ZeroDivisionError else Ok (n + 10).
Example C139_map_values_ex :
  Sound ex_enum /\ map_values ex_func ex_enum = Ok (Enum Plain [11; 12; 10] None (Some (of_string "N")) (Some 1)) /\
  chosen_or_default ex_enum = Ok 2 /\ map_values ex_func (Enum Plain [7] None None None) = Err ZeroDivisionError.
Proof.
  repeat split; try (vm_compute; reflexivity); try discriminate.
  intros i E. injection E as <-. repeat constructor.
Qed.

(** [optional(v)]: the value by default, [None] if the other outcome is chosen. *)
Theorem C139_optional : forall (V : Type) none (v : V) name, name <> Some POther ->
  exists names t, optional none v name = Ok (Enum OptionalChoice [v; none] (Some names) t None) /\
    Sound (Enum OptionalChoice [v; none] (Some names) t None) /\
    chosen_or_default (Enum OptionalChoice [v; none] (Some names) t None) = Ok v /\
    chosen_or_default (Enum OptionalChoice [v; none] (Some names) t (Some 0)) = Ok v /\
    chosen_or_default (Enum OptionalChoice [v; none] (Some names) t (Some 1)) = Ok none.
Proof. exact @optional_spec. Qed.
Print Assumptions C139_optional.

Example C139_optional_ex : Some (PStr (of_string "dim")) <> Some POther /\
  exists c, optional 0 4 (Some (PStr (of_string "dim"))) = Ok c /\ keys c = Ok [of_string "dim"].
Proof. split; [discriminate|]. eexists. split; vm_compute; reflexivity. Qed.

(** [choose_bool().if_else(a, b)] is [a] by default and when True is chosen, [b] when False is. *)
Theorem C139_if_else : forall (V K : Type) (H : EqD K) (hash_key : V -> res K) kt kf vtrue vfalse,
  hash_key vtrue = Ok kt -> hash_key vfalse = Ok kf -> kt <> kf ->
  forall name a b, name <> Some POther ->
  exists t, choose_bool vtrue vfalse name = Ok (Enum BoolChoice [vtrue; vfalse] None t None) /\
    (forall idx, exists mt, if_else hash_key kt kf (Enum BoolChoice [vtrue; vfalse] None t idx) a b = Ok mt /\
       of_choice mt = mk_echoice [vtrue; vfalse] idx /\
       ((idx = None \/ idx = Some 0) -> match_value hash_key mt = Ok a) /\
       (idx = Some 1 -> match_value hash_key mt = Ok b)).
Proof. exact @if_else_spec. Qed.
Print Assumptions C139_if_else.

(** After [map_values] it is accepted exactly when the outcomes are still True and False. *)
Theorem C139_if_else_accepts : forall (V K : Type) (H : EqD K) (hash_key : V -> res K) kt kf outs names t idx a b,
  (exists mt, if_else hash_key kt kf (Enum BoolChoice outs names t idx) a b = Ok mt) <->
  (exists ks, Forall2 (fun v k => hash_key v = Ok k) outs ks /\ forall k, In k ks <-> k = kt \/ k = kf).
Proof. exact @if_else_accepts. Qed.
Print Assumptions C139_if_else_accepts.

Example C139_if_else_ex :
  let key (n : nat) : res nat := Ok n in
  (exists mt, if_else key 1 0 (Enum BoolChoice [1; 0] None None (Some 1)) 7 8 = Ok mt /\ match_value key mt = Ok 8) /\
  if_else key 1 0 (Enum BoolChoice [1; 1] None None (Some 1)) 7 8 = Err ValueError.
Proof. split; [eexists; split|]; vm_compute; reflexivity. Qed.
