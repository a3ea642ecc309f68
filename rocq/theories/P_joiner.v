(** C22: fuzzy joins keep the main table. *)
From Verif Require Import Base M_names M_oncols M_agg M_tablevec L_names L_leftjoin L_agg L_agg2 M_matching L_matching M_joiner L_joiner.
From Coq Require Import QArith Qabs.
Open Scope string_scope.
Open Scope list_scope.
Open Scope nat_scope.

(** Example data. *)
Inductive C22_cell : Type := CNull | CInt (z : Z) | CStr (s : string) | CNum (q : Q) | CExt (e : ext) | CBool (b : bool).
#[global] Instance C22_eqd : EqD C22_cell.
Proof.
  intros a b. assert (DQ : forall x y : Q, {x = y} + {x <> y}) by (repeat decide equality).
  assert (DE : forall x y : ext, {x = y} + {x <> y}) by (decide equality).
  decide equality; first [apply Z.eq_dec|apply string_dec|apply Bool.bool_dec|apply DQ|apply DE].
Defined.
Definition C22_isnull (v : C22_cell) : bool := match v with CNull => true | _ => false end.
Definition C22_is_true (v : C22_cell) : bool := match v with CBool b => b | _ => false end.
Definition C22_vector (k : list C22_cell) : Q := match k with [CInt z] => inject_Z z | _ => 0%Q end.
Definition C22_vec_fit (b : bool) (keys : list (list C22_cell)) : res (unit * list Q) := Ok (tt, map C22_vector keys).
Definition C22_vec_transform (s : unit) (keys : list (list C22_cell)) : res (list Q) := Ok (map C22_vector keys).
Definition C22_dist (a b : Q) : Q := Qabs (a - b).
Definition C22_order := by_distance C22_dist.
Definition C22_draws : list (list (nat * nat)) := [repeat (0, 1) 500].
Definition C22_fit := joiner_fit_transform CNull C22_isnull Pandas CInt CNum CExt CBool C22_vec_fit C22_vec_transform
                        C22_dist C22_order C22_draws "tok" example_draw.
Definition C22_transform := joiner_transform CNull C22_isnull Pandas CInt CNum CExt CBool C22_vec_transform
                        C22_dist C22_order "tok" example_draw.
Definition C22_fuzzy := fuzzy_join CNull C22_isnull Pandas CInt CNum CExt CBool C22_is_true C22_vec_fit C22_vec_transform
                        C22_dist C22_order C22_draws "tok" example_draw.

Definition C22_X : table C22_cell :=
  {| tcols := ["k"; "v"]; trows := [[CInt 9; CStr "a"]; [CInt 3; CStr "b"]; [CInt 20; CStr "c"]] |}.
Definition C22_aux : table C22_cell :=
  {| tcols := ["k"; "w"]; trows := [[CInt 10; CStr "x"]; [CInt 20; CStr "y"]; [CInt 12; CNull]] |}.
Definition C22_params : joiner_params :=
  mk_joiner_params C22_aux (KStr "k") KNone KNone "" (MaxNum (Fin 1)) "second_neighbor" true.

Example C22_environment_ex :
  Environment C22_isnull CInt CBool C22_is_true C22_vec_fit C22_vec_transform C22_dist C22_order.
Proof.
  split; [congruence|]. split; [reflexivity|]. split; [intros []; reflexivity|]. split; [apply by_distance_ok|]. split.
  - intros b keys vs l E. injection E as <- <-. apply map_length.
  - intros vs keys l E. injection E as <-. apply map_length.
Qed.
Example C22_fresh_ex : FreshNames example_draw "tok" "" C22_X C22_aux.
Proof.
  split; [simpl; intuition discriminate|]. split; [simpl; intuition discriminate|].
  apply example_draw_ok; [simpl; lia|reflexivity].
Qed.

(** The result of a Joiner has one row for each main row, in the same order. It starts with the main row,
    unchanged; then come the values of the matched auxiliary row if the match is accepted, nulls
    otherwise; then the description of the match. *)
Theorem C22_joiner : forall (V : Type) (EV : EqD V) (null : V) (isnull : V -> bool) (lib : library)
    (of_int : Z -> V) (of_dist : Q -> V) (of_ext : ext -> V) (of_bool : bool -> V) (is_true : V -> bool) (P VS : Type)
    (vec_fit : bool -> list (list V) -> res (VS * list P)) (vec_transform : VS -> list (list V) -> res (list P))
    (dist : P -> P -> Q) order draws token draw p X f out,
  Environment isnull of_int of_bool is_true vec_fit vec_transform dist order ->
  WFTable X -> WFTable (j_aux_table p) -> FreshNames draw token (j_suffix p) X (j_aux_table p) ->
  joiner_fit_transform null isnull lib of_int of_dist of_ext of_bool vec_fit vec_transform dist order draws
    token draw p X = Ok (f, out) ->
  let aux := j_aux_table p in
  let names := names_of draw token (j_suffix p) X aux in
  exists mk ak max_dist vs m,
    KeysFor p mk ak /\ (forall c, In c mk -> In c (tcols X)) /\ (forall c, In c ak -> In c (tcols aux)) /\
    MaxDist p max_dist /\ FittedOn vec_fit dist draws p ak vs m /\ length names = length (tcols aux) /\
    JoinResult vec_transform dist mk vs m max_dist aux X (fun ms =>
      Rows3 (fun x m o => forall c v, ValueAt (tcols X) x c v -> (j_add_match_info p = true -> ~ In c match_info_columns) ->
               ValueAt (tcols out) o c v) (trows X) ms (trows out) /\
      (InfoFree p X names ->
       tcols out = tcols X ++ names ++ (if j_add_match_info p then match_info_columns else []) /\
       NoDup (tcols out) /\
       Rows3 (RowJoined null of_dist of_ext of_bool aux (j_add_match_info p)) (trows X) ms (trows out))).
Proof. intros until out. intros HE. exact (jfit_spec null isnull lib of_int of_dist of_ext of_bool is_true vec_fit vec_transform dist order draws token draw p X f out HE). Qed.
Print Assumptions C22_joiner.

Example C22_joiner_ex : exists f,
  C22_fit C22_params C22_X =
  Ok (f, {| tcols := ["k"; "v"; ("k__skrub_" ++ example_draw 0 ++ "__")%string; "w"] ++ match_info_columns;
            trows := [[CInt 9; CStr "a"; CInt 10; CStr "x"; CNum 1; CExt (Fin (1 # 3)); CBool true];
                      [CInt 3; CStr "b"; CInt 10; CStr "x"; CNum 7; CExt (Fin (7 # 9)); CBool true];
                      [CInt 20; CStr "c"; CInt 20; CStr "y"; CNum 0; CExt (Fin 0); CBool true]] |})
  /\ exists f',
  C22_fit (mk_joiner_params C22_aux (KStr "k") KNone KNone "" (MaxNum (Fin (1 # 2))) "random_pairs" false) C22_X =
  Ok (f', {| tcols := ["k"; "v"; ("k__skrub_" ++ example_draw 0 ++ "__")%string; "w"];
            trows := [[CInt 9; CStr "a"; CInt 10; CStr "x"];
                      [CInt 3; CStr "b"; CNull; CNull];
                      [CInt 20; CStr "c"; CInt 20; CStr "y"]] |}).
Proof. eexists. split; [vm_compute; reflexivity|]. eexists. vm_compute. reflexivity. Qed.

(** The names of the auxiliary columns are kept, with the suffix, if they are not already used. *)
Theorem C22_names : forall (V : Type) draw token suffix (X aux : table V), WFTable aux ->
  (forall c, In c (tcols aux) -> untagged (c ++ suffix)%string /\ ~ In (c ++ suffix)%string (tcols X) /\
     (c ++ suffix)%string <> ("skrub_left_key_" ++ token)%string) ->
  names_of draw token suffix X aux = map (fun c => (c ++ suffix)%string) (tcols aux).
Proof. exact @names_identity. Qed.
Print Assumptions C22_names.
Example C22_names_ex : names_of example_draw "tok" "_aux" C22_X C22_aux = ["k_aux"; "w_aux"].
Proof. vm_compute. reflexivity. Qed.

(** Transform accepts tables with the columns of the fitted one only, and gives them the same names. *)
Theorem C22_transform_like_fit : forall (V : Type) (EV : EqD V) (null : V) (isnull : V -> bool) (lib : library)
    (of_int : Z -> V) (of_dist : Q -> V) (of_ext : ext -> V) (of_bool : bool -> V) (is_true : V -> bool) (P VS : Type)
    (vec_fit : bool -> list (list V) -> res (VS * list P)) (vec_transform : VS -> list (list V) -> res (list P))
    (dist : P -> P -> Q) order draws token draw token' draw' p X X' f out out',
  Environment isnull of_int of_bool is_true vec_fit vec_transform dist order ->
  WFTable X -> WFTable (j_aux_table p) -> WFTable X' ->
  FreshNames draw token (j_suffix p) X (j_aux_table p) ->
  FreshNames draw' token' (j_suffix p) X' (j_aux_table p) ->
  InfoFree p X (names_of draw token (j_suffix p) X (j_aux_table p)) ->
  InfoFree p X' (names_of draw' token' (j_suffix p) X' (j_aux_table p)) ->
  joiner_fit_transform null isnull lib of_int of_dist of_ext of_bool vec_fit vec_transform dist order draws
    token draw p X = Ok (f, out) ->
  joiner_transform null isnull lib of_int of_dist of_ext of_bool vec_transform dist order token' draw' f X' = Ok out' ->
  tcols X' = tcols X /\ tcols out' = tcols out /\
  exists mk ak max_dist vs m,
    KeysFor p mk ak /\ MaxDist p max_dist /\ FittedOn vec_fit dist draws p ak vs m /\
    JoinResult vec_transform dist mk vs m max_dist (j_aux_table p) X' (fun ms =>
      Rows3 (RowJoined null of_dist of_ext of_bool (j_aux_table p) (j_add_match_info p)) (trows X') ms (trows out')).
Proof. intros until out'. intros HE. exact (jtransform_spec null isnull lib of_int of_dist of_ext of_bool is_true vec_fit vec_transform dist order draws token draw token' draw' p X X' f out out' HE). Qed.
Print Assumptions C22_transform_like_fit.

Example C22_transform_ex :
  (let! (f, _) := C22_fit C22_params C22_X in
   C22_transform f {| tcols := ["k"; "v"]; trows := [[CInt 13; CNull]] |}) =
  Ok {| tcols := ["k"; "v"; ("k__skrub_" ++ example_draw 0 ++ "__")%string; "w"] ++ match_info_columns;
        trows := [[CInt 13; CNull; CInt 12; CNull; CNum 1; CExt (Fin (1 # 3)); CBool true]] |}
  /\ (let! (f, _) := C22_fit C22_params C22_X in
   C22_transform f {| tcols := ["v"; "k"]; trows := [[CInt 11; CNull]] |}) = Err ValueError.
Proof. split; vm_compute; reflexivity. Qed.

(** The same for [fuzzy_join]; with [drop_unmatched], exactly the rows whose match is accepted are kept. *)
Theorem C22_fuzzy_join : forall (V : Type) (EV : EqD V) (null : V) (isnull : V -> bool) (lib : library)
    (of_int : Z -> V) (of_dist : Q -> V) (of_ext : ext -> V) (of_bool : bool -> V) (is_true : V -> bool) (P VS : Type)
    (vec_fit : bool -> list (list V) -> res (VS * list P)) (vec_transform : VS -> list (list V) -> res (list P))
    (dist : P -> P -> Q) order draws token draw left_ right_ left_on right_on on suffix max_dist ref_dist add_info drop_unmatched out,
  Environment isnull of_int of_bool is_true vec_fit vec_transform dist order ->
  WFTable left_ -> WFTable right_ -> FreshNames draw token suffix left_ right_ ->
  let names := names_of draw token suffix left_ right_ in
  (forall c, In c match_info_columns -> ~ In c (tcols left_) /\ ~ In c names) ->
  fuzzy_join null isnull lib of_int of_dist of_ext of_bool is_true vec_fit vec_transform dist order draws
    token draw left_ right_ left_on right_on on suffix max_dist ref_dist add_info drop_unmatched = Ok out ->
  let p := mk_joiner_params right_ on left_on right_on suffix max_dist ref_dist true in
  exists mk ak d vs m,
    KeysFor p mk ak /\ MaxDist p d /\ FittedOn vec_fit dist draws p ak vs m /\ length names = length (tcols right_) /\
    tcols out = tcols left_ ++ names ++ (if add_info then match_info_columns else []) /\ NoDup (tcols out) /\
    JoinResult vec_transform dist mk vs m d right_ left_ (fun ms => exists os,
      Rows3 (RowJoined null of_dist of_ext of_bool right_ add_info) (trows left_) ms os /\
      trows out = if drop_unmatched then map snd (filter (fun mo => r_accepted (fst mo)) (combine ms os)) else os).
Proof. intros until out. intros HE. exact (fjoin_spec null isnull lib of_int of_dist of_ext of_bool is_true vec_fit vec_transform dist order draws token draw left_ right_ left_on right_on on suffix max_dist ref_dist add_info drop_unmatched out HE). Qed.
Print Assumptions C22_fuzzy_join.

Example C22_fuzzy_join_ex :
  C22_fuzzy C22_X C22_aux KNone KNone (KStr "k") "_r" (MaxNum (Fin (1 # 2))) "random_pairs" false true =
  Ok {| tcols := ["k"; "v"; "k_r"; "w_r"];
        trows := [[CInt 9; CStr "a"; CInt 10; CStr "x"]; [CInt 20; CStr "c"; CInt 20; CStr "y"]] |}.
Proof. vm_compute. reflexivity. Qed.

(** A main column whose name is that of a description of the match is lost. *)
Theorem C22_match_info_name_refuted : exists p X f out,
  WFTable X /\ WFTable (j_aux_table p) /\ FreshNames example_draw "tok" (j_suffix p) X (j_aux_table p) /\
  C22_fit p X = Ok (f, out) /\
  exists x o c v, nth_error (trows X) 0 = Some x /\ nth_error (trows out) 0 = Some o /\
    ValueAt (tcols X) x c v /\ ~ ValueAt (tcols out) o c v.
Proof.
  exists C22_params, {| tcols := ["k"; "skrub_Joiner_distance"]; trows := [[CInt 9; CStr "mine"]] |}.
  eexists. eexists. split; [split; [repeat constructor; simpl; intuition discriminate|intros r [<-|[]]; reflexivity]|].
  split; [split; [repeat constructor; simpl; intuition discriminate|intros r [<-|[<-|[<-|[]]]]; reflexivity]|].
  split.
  { split; [simpl; intuition discriminate|]. split; [simpl; intuition discriminate|]. apply example_draw_ok; [simpl; lia|reflexivity]. }
  split; [vm_compute; reflexivity|].
  eexists. eexists. exists "skrub_Joiner_distance", (CStr "mine"). split; [reflexivity|]. split; [reflexivity|].
  split; [exists 1; split; reflexivity|]. intros (i & E1 & E2).
  do 8 (destruct i as [|i]; [simpl in E1, E2; discriminate|]). destruct i; discriminate.
Qed.
Print Assumptions C22_match_info_name_refuted.

(** [fuzzy_join] drops such a column although no description of the match is asked for. *)
Theorem C22_fuzzy_join_drops_refuted : exists X out c,
  C22_fuzzy X C22_aux KNone KNone (KStr "k") "_r" MaxNone "second_neighbor" false false = Ok out /\
  In c (tcols X) /\ ~ In c (tcols out).
Proof.
  exists {| tcols := ["k"; "skrub_Joiner_distance"]; trows := [[CInt 9; CStr "mine"]] |}. eexists.
  exists "skrub_Joiner_distance". split; [vm_compute; reflexivity|]. split; [simpl; tauto|]. simpl. intuition discriminate.
Qed.
Print Assumptions C22_fuzzy_join_drops_refuted.
