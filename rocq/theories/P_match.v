(** Property C35: matching on a choice composes. *)
From Verif Require Import Base L_dict M_match L_match.
Open Scope list_scope.
Open Scope nat_scope.

(** [choice.match(m, default)] succeeds exactly if all outcomes are hashable, the keys of [m]
    are outcomes and, without default, all outcomes are keys. It then selects for each outcome
    what [m] has for it, else the default. *)
Theorem C35_match : forall (V K : Type) (H : EqD K) (key : V -> res K),
  (forall v e, key v = Err e -> e = TypeError) ->
  forall c m default, NoDup (dkeys m) ->
  (exists mt, choice_match key c m default = Ok mt /\ of_choice mt = c /\ proper key mt /\
     selects key mt (picks key m default) /\ hashable key (outcomes c) /\ suitable key (outcomes c) m default) \/
  (choice_match key c m default = Err TypeError /\ ~ hashable key (outcomes c)) \/
  (choice_match key c m default = Err ValueError /\ hashable key (outcomes c) /\ ~ suitable key (outcomes c) m default).
Proof. exact @choice_match_spec. Qed.
Print Assumptions C35_match.

(** [choice.match(m1).match(m2, default)]: the same with the values selected by the first. *)
Theorem C35_match_of_match : forall (V K : Type) (H : EqD K) (key : V -> res K),
  (forall v e, key v = Err e -> e = TypeError) ->
  forall mt m default, proper key mt ->
  (exists mt', match_match key mt m default = Ok mt' /\ of_choice mt' = of_choice mt /\ proper key mt' /\
     (forall o, In o (outcomes (of_choice mt)) ->
        exists k x y, key o = Ok k /\ dget k (mapping mt) = Some x /\ dget k (mapping mt') = Some y /\
                      picks key m default x y) /\
     hashable key (map snd (mapping mt)) /\ suitable key (map snd (mapping mt)) m default) \/
  (match_match key mt m default = Err TypeError /\ ~ hashable key (map snd (mapping mt))) \/
  (match_match key mt m default = Err ValueError /\ hashable key (map snd (mapping mt)) /\
   ~ suitable key (map snd (mapping mt)) m default).
Proof. exact @match_match_spec. Qed.
Print Assumptions C35_match_of_match.

(** Altogether: the value of [choice.match(m1, d1).match(m2, d2)] is the one [m2] gives to the one
    [m1] gives to the chosen outcome. *)
Theorem C35_composition : forall (V K : Type) (H : EqD K) (key : V -> res K),
  (forall v e, key v = Err e -> e = TypeError) ->
  forall c m1 d1 m2 d2 mt1 mt2 o, NoDup (dkeys m1) ->
  choice_match key c m1 d1 = Ok mt1 -> match_match key mt1 m2 d2 = Ok mt2 -> chosen_outcome c = Ok o ->
  exists x y, match_value key mt1 = Ok x /\ picks key m1 d1 o x /\
              match_value key mt2 = Ok y /\ picks key m2 d2 x y.
Proof. exact @match_composition. Qed.
Print Assumptions C35_composition.

(** A new choice has the value of its first outcome; there must be one. *)
Theorem C35_default_outcome : forall (V K : Type) (H : EqD K) (key : V -> res K),
  (forall v e, key v = Err e -> e = TypeError) ->
  forall outs m default, NoDup (dkeys m) ->
  (outs = [] -> make_choice outs = Err ValueError) /\
  forall o others c mt, outs = o :: others -> make_choice outs = Ok c -> choice_match key c m default = Ok mt ->
    exists x, match_value key mt = Ok x /\ picks key m default o x.
Proof. exact @match_default. Qed.
Print Assumptions C35_default_outcome.

(** A choice between the numbers 1, 2 and 3 (numbers above 10 are not hashable). *)
Definition ex_key (n : nat) : res nat := if Nat.leb n 10 then Ok n else Err TypeError.
Definition ex_choice : @echoice nat := mk_echoice [1; 2; 3] (Some 1).

Example C35_example :
  (exists mt1 mt2, choice_match ex_key ex_choice [(1, 4); (3, 5)] (Some 6) = Ok mt1 /\
     match_match ex_key mt1 [(6, 20); (5, 30)] (Some 40) = Ok mt2 /\
     match_value ex_key mt1 = Ok 6 /\ match_value ex_key mt2 = Ok 20 /\
     mapping mt2 = [(1, 40); (2, 20); (3, 30)] /\
     match_match ex_key mt2 [(20, 1); (30, 1); (40, 1)] None = Err TypeError) /\
  choice_match ex_key ex_choice [(1, 4); (3, 5)] None = Err ValueError /\
  choice_match ex_key ex_choice [(1, 4); (7, 5)] (Some 6) = Err ValueError /\
  (exists c mt, make_choice [1; 2; 3] = Ok c /\ choice_match ex_key c [(1, 4); (3, 5)] (Some 6) = Ok mt /\
     match_value ex_key mt = Ok 4).
Proof.
  split; [|split; [reflexivity|split; [reflexivity|]]]. 2:{ do 2 eexists. repeat split; reflexivity. }
  do 2 eexists. split; [reflexivity|]. repeat split; reflexivity.
Qed.
