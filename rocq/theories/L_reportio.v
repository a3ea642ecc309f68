(** Lemmas about writing and opening reports. *)
From Verif Require Import Base.
From Verif Require Import M_reportio.
From Coq Require Import NArith.
Open Scope string_scope.
Open Scope list_scope.
Open Scope nat_scope.
Set Default Proof Using "Type".

(** ** UTF-8: the bytes of a text (RFC 3629) *)
Definition Cont (b : N) : Prop := (128 <= b < 192)%N.
Inductive Utf8 : bytes -> text -> Prop :=
| U0 : Utf8 [] []
| U1 a bs t : (a < 128)%N -> Utf8 bs t -> Utf8 (a :: bs) (a :: t)
| U2 a b bs t c : (192 <= a < 224)%N -> Cont b -> (c = (a - 192) * 64 + (b - 128))%N -> (128 <= c)%N -> Utf8 bs t -> Utf8 (a :: b :: bs) (c :: t)
| U3 a b d bs t c : (224 <= a < 240)%N -> Cont b -> Cont d -> (c = (a - 224) * 4096 + (b - 128) * 64 + (d - 128))%N -> (2048 <= c)%N -> ~ (55296 <= c < 57344)%N ->
    Utf8 bs t -> Utf8 (a :: b :: d :: bs) (c :: t)
| U4 a b d e bs t c : (240 <= a < 248)%N -> Cont b -> Cont d -> Cont e -> (c = (a - 240) * 262144 + (b - 128) * 4096 + (d - 128) * 64 + (e - 128))%N ->
    (65536 <= c < 1114112)%N -> Utf8 bs t -> Utf8 (a :: b :: d :: e :: bs) (c :: t).
(** texts without surrogates *)
Definition Scalar (c : N) : Prop := (c < 1114112)%N /\ ~ (55296 <= c < 57344)%N.

Lemma utf8_fun : forall bs t, Utf8 bs t -> forall t', Utf8 bs t' -> t = t'.
Proof.
  unfold Cont. intros bs t U. induction U; intros t' U'; inversion U'; subst; unfold Cont in *; try lia; try reflexivity; f_equal; auto.
Qed.
Lemma some_inj : forall A (a b : A), Some a = Some b -> a = b.
Proof. congruence. Qed.
Lemma encode_char_ok : forall c bs t b, encode_char c = Some b -> Utf8 bs t -> Utf8 (b ++ bs) (c :: t).
Proof.
  intros c bs t b E U. unfold encode_char in E.
  destruct (N.ltb_spec c 128) as [L|L]; [apply some_inj in E; rewrite <- E; apply U1; assumption|].
  destruct (N.ltb_spec c 2048) as [L2|L2].
  { apply some_inj in E; rewrite <- E; clear E; cbn [app]. pose proof (N.div_mod c 64 ltac:(discriminate)) as D. pose proof (N.mod_lt c 64 ltac:(discriminate)) as M.
    set (q := (c / 64)%N) in *; set (r := (c mod 64)%N) in *; clearbody q r. apply U2; unfold Cont; try assumption; try lia. }
  assert (D1 : c = (4096 * (c / 4096) + 64 * ((c / 64) mod 64) + c mod 64)%N).
  { pose proof (N.div_mod c 64 ltac:(discriminate)) as D. pose proof (N.div_mod (c / 64) 64 ltac:(discriminate)) as D'.
    rewrite N.div_div in D' by discriminate. change (64 * 64)%N with 4096%N in D'. rewrite D' in D. rewrite D at 1. rewrite N.mul_add_distr_l, N.mul_assoc. reflexivity. }
  pose proof (N.mod_lt c 64 ltac:(discriminate)) as M1. pose proof (N.mod_lt (c / 64) 64 ltac:(discriminate)) as M2.
  destruct (N.ltb_spec c 65536) as [L3|L3].
  { destruct (andb _ _) eqn:S; [discriminate|]. apply some_inj in E; rewrite <- E; clear E; cbn [app].
    assert (~ (55296 <= c < 57344)%N) by (intros [A B]; apply N.leb_le in A; apply N.ltb_lt in B; rewrite A, B in S; discriminate).
    set (q := (c / 4096)%N) in *; set (r := (c mod 64)%N) in *; set (r2 := ((c / 64) mod 64)%N) in *; clearbody q r r2. apply U3; unfold Cont; try assumption; try lia. }
  destruct (N.ltb_spec c 1114112) as [L4|L4]; [|discriminate]. apply some_inj in E; rewrite <- E; clear E; cbn [app].
  pose proof (N.mod_lt (c / 4096) 64 ltac:(discriminate)) as M3.
  assert (D2 : (c / 4096 = 64 * (c / 262144) + (c / 4096) mod 64)%N).
  { pose proof (N.div_mod (c / 4096) 64 ltac:(discriminate)) as D'. rewrite N.div_div in D' by discriminate. exact D'. }
  set (q := (c / 262144)%N) in *; set (r := (c mod 64)%N) in *; set (r2 := ((c / 64) mod 64)%N) in *; set (r3 := ((c / 4096) mod 64)%N) in *; set (q4 := (c / 4096)%N) in *; clearbody q r r2 r3 q4. apply U4; unfold Cont; try assumption; try lia.
Qed.
Lemma encode_char_total : forall c, Scalar c <-> exists b, encode_char c = Some b.
Proof.
  intros c. unfold Scalar, encode_char. split.
  - intros [L S]. destruct (c <? 128)%N; [eauto|]. destruct (c <? 2048)%N; [eauto|]. destruct (c <? 65536)%N.
    + destruct (andb _ _) eqn:X; [|eauto]. exfalso. apply S. apply andb_true_iff in X. destruct X as [A B]. apply N.leb_le in A. apply N.ltb_lt in B. lia.
    + apply N.ltb_lt in L. rewrite L. eauto.
  - intros (b & E). destruct (N.ltb_spec c 128); [lia|]. destruct (N.ltb_spec c 2048); [lia|]. destruct (N.ltb_spec c 65536).
    + destruct (andb _ _) eqn:X; [discriminate|]. split; [lia|]. intros [A B]. apply N.leb_le in A. apply N.ltb_lt in B. rewrite A, B in X. discriminate.
    + destruct (N.ltb_spec c 1114112); [lia|discriminate].
Qed.
Lemma encode_ok : forall t b, encode t = Some b -> Utf8 b t.
Proof.
  induction t as [|c t IH]; intros b E; cbn in E; [injection E as <-; constructor|].
  destruct (encode_char c) as [bc|] eqn:Ec; [|discriminate]. destruct (encode t) as [bt|]; [|discriminate]. injection E as <-.
  exact (encode_char_ok c bt t bc Ec (IH bt eq_refl)).
Qed.
Lemma encode_total : forall t, Forall Scalar t <-> exists b, encode t = Some b.
Proof.
  induction t as [|c t IH]; cbn; [split; [eauto|constructor]|]. split.
  - intros F. inversion F as [|? ? S F']; subst. apply encode_char_total in S. destruct S as (b & ->). apply IH in F'. destruct F' as (bs & ->). eauto.
  - intros (b & E). destruct (encode_char c) as [bc|] eqn:Ec; [|discriminate]. destruct (encode t) as [bt|]; [|discriminate].
    constructor; [apply encode_char_total; eauto|apply IH; eauto].
Qed.
Lemma scalar_dec : forall t, {Forall Scalar t} + {~ Forall Scalar t}.
Proof. intros t. destruct (encode t) as [b|] eqn:E; [left; apply encode_total; eauto|right; intros F; apply encode_total in F; destruct F as (b & F); congruence]. Qed.
Lemma py_encode_err : forall t, ~ Forall Scalar t -> py_encode t = Err ValueError.
Proof. intros t N. unfold py_encode. destruct (encode t) as [b|] eqn:E; [|reflexivity]. exfalso. apply N. apply encode_total. eauto. Qed.
Lemma py_encode_ok : forall t, Forall Scalar t -> exists b, py_encode t = Ok b /\ Utf8 b t.
Proof. intros t F. apply encode_total in F. destruct F as (b & E). exists b. unfold py_encode. rewrite E. split; [reflexivity|apply encode_ok; exact E]. Qed.

(** ** Writing *)
Section Write.
  Context {P : Type} `{EqD P}.
  Variable open_error : P -> option exn.
  Variable lookup : string -> option string.
  Lemma translate_id : forall t, translate [10%N] t = t.
  Proof. induction t as [|c t IH]; [reflexivity|]. change (translate [10%N] (c :: t)) with ((if (c =? 10)%N then [10%N] else [c]) ++ translate [10%N] t). rewrite IH. destruct (N.eqb_spec c 10); subst; reflexivity. Qed.

  (** the file contains the bytes of the page, other files are as before *)
  Theorem path_written : forall t fs p, open_error p = None -> Forall Scalar t ->
    exists fs' b, write_path [10%N] open_error (Ok t) fs p = (fs', Ok tt) /\ fs' p = Some b /\ Utf8 b t /\ (forall t', Utf8 b t' -> t' = t) /\
      forall q, q <> p -> fs' q = fs q.
  Proof.
    intros t fs p O F. unfold write_path. cbv beta iota zeta. rewrite O, translate_id. destruct (py_encode_ok t F) as (b & E & U). rewrite E.
    eexists. exists b. split; [reflexivity|]. unfold set_file. split; [destruct (eqd p p); [reflexivity|contradiction]|].
    split; [exact U|]. split; [intros t' U'; symmetry; exact (utf8_fun b t U t' U')|]. intros q N. destruct (eqd q p); [contradiction|reflexivity].
  Qed.
  (** an error of the report or of [open] changes no file *)
  Theorem path_error : forall html fs p, (exists e, html = Err e) \/ open_error p <> None ->
    exists e, write_path [10%N] open_error html fs p = (fs, Err e).
  Proof.
    intros [t|e] fs p X; cbn; [|eauto]. destruct X as [(e & X)|X]; [discriminate|]. destruct (open_error p) as [e|]; [eauto|contradiction].
  Qed.
  (** ... but a text that cannot be encoded empties the file *)
  Theorem path_lost : forall t fs p, open_error p = None -> ~ Forall Scalar t ->
    exists fs', write_path [10%N] open_error (Ok t) fs p = (fs', Err ValueError) /\ fs' p = Some [].
  Proof.
    intros t fs p O N. unfold write_path. cbv beta iota zeta. rewrite O, translate_id, (py_encode_err t N). eexists. split; [reflexivity|].
    unfold set_file. destruct (eqd p p); [reflexivity|contradiction].
  Qed.

  (** file objects: what they get is the page, once, or nothing *)
  Definition Grows (f f' : fobj) (c : chunk) : Prop :=
    on_bytes f' = on_bytes f /\ on_text f' = on_text f /\ encoding f' = encoding f /\ written f' = written f ++ [c].
  Theorem binary_written : forall t f, on_bytes f = None -> Forall Scalar t ->
    exists f' b, write_object lookup (Ok t) f = (f', Ok tt) /\ Grows f f' (Bytes b) /\ Utf8 b t.
  Proof.
    intros t f B F. unfold write_object. destruct (py_encode_ok t F) as (b & E & U). rewrite E. unfold write_chunk. rewrite B.
    eexists. exists b. split; [reflexivity|]. split; [repeat split; cbn; congruence|exact U].
  Qed.
  Theorem text_written : forall t f, on_bytes f = Some TypeError -> on_text f = None -> Forall Scalar t ->
    (encoding f = None \/ exists e, encoding f = Some e /\ lookup e = Some "utf-8") ->
    exists f', write_object lookup (Ok t) f = (f', Ok tt) /\ Grows f f' (Text t).
  Proof.
    intros t f B T F En. unfold write_object. destruct (py_encode_ok t F) as (b & E & U). rewrite E. unfold write_chunk. rewrite B, T.
    destruct En as [En|(e & En & Lk)]; rewrite En; [|rewrite Lk; destruct (string_dec _ _) as [_|N]; [|destruct N; reflexivity]]; eexists; (split; [reflexivity|repeat split; cbn; congruence]).
  Qed.
  Theorem text_refused : forall t f e, on_bytes f = Some TypeError -> encoding f = Some e -> lookup e <> Some "utf-8" ->
    write_object lookup (Ok t) f = (f, Err ValueError).
  Proof.
    intros t f e B En Lk. unfold write_object. unfold py_encode. destruct (encode t) as [b|]; [|reflexivity]. unfold write_chunk. rewrite B, En.
    destruct (lookup e) as [name|]; [|reflexivity]. destruct (string_dec name "utf-8") as [->|_]; [contradiction|reflexivity].
  Qed.
  (** never half of it: whatever the object, it has got the bytes of the page, the page, or nothing, in which case there is an error *)
  Theorem object_all : forall html f f' r, write_object lookup html f = (f', r) ->
    (f' = f /\ exists e, r = Err e) \/
    (r = Ok tt /\ exists t, html = Ok t /\ Forall Scalar t /\ (Grows f f' (Text t) \/ exists b, Utf8 b t /\ Grows f f' (Bytes b))).
  Proof.
    intros [t|e] f f' r E; unfold write_object in E; [|injection E as <- <-; left; eauto].
    destruct (scalar_dec t) as [F|N]; [|rewrite (py_encode_err t N) in E; injection E as <- <-; left; eauto].
    destruct (py_encode_ok t F) as (b & Eb & U). rewrite Eb in E. unfold write_chunk in E.
    destruct (on_bytes f) as [x|] eqn:B.
    - assert (X : (f, Err x) = (f', r) \/ (if on_text f then False else True) /\ ({| on_bytes := on_bytes f; on_text := on_text f; encoding := encoding f; written := written f ++ [Text t] |}, Ok tt) = (f', r) \/ exists e, (f, Err e) = (f', r)).
      { destruct x; try (left; exact E).
        destruct (encoding f) as [en|]; [destruct (lookup en) as [nm|]; [destruct (string_dec nm "utf-8")|]|]; try (right; right; eexists; exact E);
          (destruct (on_text f); [right; right; eexists; exact E|right; left; split; [exact I|exact E]]). }
      destruct X as [X|[(_ & X)|(e & X)]]; injection X as <- <-; [left; eauto| |left; eauto].
      right. split; [reflexivity|]. exists t. split; [reflexivity|]. split; [exact F|]. left. repeat split; cbn; congruence.
    - injection E as <- <-. right. split; [reflexivity|]. exists t. split; [reflexivity|]. split; [exact F|]. right. exists b. split; [exact U|]. repeat split; cbn; congruence.
  Qed.
End Write.

(** ** Opening *)
Lemma run_app : forall es es' s, run (es ++ es') s = match run es s with Some s' => run es' s' | None => None end.
Proof. induction es as [|e es IH]; intros es' s; cbn; [reflexivity|]. destruct (step e s); [apply IH|reflexivity]. Qed.
(** states reached from the start *)
Definition Reached (s : state) : Prop := exists es, run es start = Some s.
Lemma reached_ind : forall P : state -> Prop, P start -> (forall s e s', P s -> step e s = Some s' -> P s') -> forall s, Reached s -> P s.
Proof.
  intros P P0 PS s (es & R). revert s R. induction es as [|e es IH] using rev_ind; intros s R; [injection R as <-; exact P0|].
  rewrite run_app in R. destruct (run es start) as [s0|] eqn:E; [|discriminate]. cbn in R. destruct (step e s0) as [s1|] eqn:Es; [|discriminate]. injection R as <-.
  exact (PS s0 e s1 (IH s0 eq_refl) Es).
Qed.
Ltac steps E := unfold step in E; repeat match type of E with
  | context [match ?x with _ => _ end] => let Q := fresh "Q" in destruct x eqn:Q; try discriminate E
  end; try (injection E as <-); cbn [main srv queue stop backlog sent gone received upd] in *.

(** the caller knows that the page was sent *)
Definition Ended (m : caller) : Prop := m = Shutting \/ m = Joining \/ m = Returned.
Record Inv (s : state) : Prop := {
  i_queue : queue s + (match main s with Waiting | Raised => 0 | _ => 1 end) <= length (received s);
  i_stop : stop s = match main s with Waiting | Raised => false | _ => true end;
  i_stopped : srv s = Stopped -> Ended (main s);
  i_end : main s = Joining \/ main s = Returned -> srv s = Stopped;
  i_received : forall c, In c (received s) -> In (c, Index) (sent s);
  i_sending : forall c, srv s = Sending c -> In (c, Index) (sent s) }.
Lemma dget_in : forall (c : nat) l (r : request), dget c l = Some r -> In (c, r) l.
Proof. induction l as [|[k v] l IH]; cbn; [discriminate|]. intros r. destruct (eqd c k) as [->|_]; [intros E; injection E as <-; left; reflexivity|intros E; right; apply IH; exact E]. Qed.
Lemma inv_step : forall s e s', Inv s -> step e s = Some s' -> Inv s'.
Proof.
  intros s e s' [I1 I2 I3 I4 I5 I6] E.
  destruct e; steps E; constructor; cbn [main srv queue stop backlog sent gone received upd] in *; unfold Ended in *;
    repeat match goal with H : main s = _ |- _ => rewrite H in * end; repeat match goal with H : srv s = _ |- _ => rewrite H in * end; repeat match goal with H : queue s = _ |- _ => rewrite H in * end;
    rewrite ?app_length; cbn [length]; try assumption; try lia; try reflexivity; try tauto; try (intros; discriminate);
    try (intros [|]; discriminate); try (intros; apply in_or_app; left; auto; fail).
  all: try (intros c' X; assert (c' = c) by congruence; subst c'; apply dget_in; assumption).
  all: try (intros X; destruct (I4 X); discriminate).
  all: try (intros X; specialize (I4 X); discriminate).
  all: try (intros X; specialize (I3 X); destruct I3 as [|[|]]; discriminate).
  - subst. intros c' X. apply in_app_or in X. destruct X as [X|[<-|[]]]; auto.
  - intros _. destruct (main s); try congruence; tauto.
Qed.
Lemma inv_ok : forall s, Reached s -> Inv s.
Proof.
  apply reached_ind; [|intros s e s'; apply inv_step]. constructor; cbn; try lia; try reflexivity; try (intros; discriminate); try (intros [|]; discriminate).
Qed.

(** [open] returns only once a client has received the page, and the server has stopped *)
Theorem returned : forall s, Reached s -> main s = Returned -> srv s = Stopped /\ exists c, In c (received s) /\ In (c, Index) (sent s).
Proof.
  intros s R M. destruct (inv_ok s R) as [I1 _ _ I4 I5 _]. split; [apply I4; auto|]. rewrite M in I1.
  destruct (received s) as [|c l] eqn:E; [cbn in I1; lia|]. exists c. split; [left; reflexivity|apply I5; left; reflexivity].
Qed.
(** other requests do not end the wait *)
Lemma run_sent : forall es s s', run es s = Some s' -> forall x, In x (sent s') -> In x (sent s) \/ In (Send (fst x) (snd x)) es.
Proof.
  induction es as [|e es IH]; intros s s' R x I; [injection R as <-; left; exact I|]. cbn in R. destruct (step e s) as [s1|] eqn:E; [|discriminate].
  destruct (IH s1 s' R x I) as [J|J]; [|right; right; exact J]. clear - E J. destruct e; steps E; auto.
  apply in_app_or in J. destruct J as [J|[<-|[]]]; [auto|right; left; reflexivity].
Qed.
Theorem others_ignored : forall es s, run es start = Some s -> (forall c, ~ In (Send c Index) es) -> main s = Waiting \/ main s = Raised.
Proof.
  intros es s R N. destruct (inv_ok s (ex_intro _ es R)) as [I1 _ _ _ I5 _]. destruct (received s) as [|c l] eqn:E.
  - destruct (main s); auto; cbn in I1; lia.
  - exfalso. assert (I : In (c, Index) (sent s)) by (apply I5; left; reflexivity). destruct (run_sent es start s R _ I) as [[]|J]. exact (N c J).
Qed.
(** after a timeout the server goes on *)
Lemma raised_step : forall s e s', Inv s -> main s = Raised -> step e s = Some s' -> main s' = Raised.
Proof. intros s e s' _ M E. destruct e; steps E; congruence. Qed.
Lemma raised_run : forall es s s', Inv s -> main s = Raised -> run es s = Some s' -> Inv s' /\ main s' = Raised.
Proof.
  induction es as [|e es IH]; intros s s' I M R; [injection R as <-; auto|]. cbn in R. destruct (step e s) as [s1|] eqn:E; [|discriminate].
  exact (IH s1 s' (inv_step s e s1 I E) (raised_step s e s1 I M E) R).
Qed.
Theorem still_running : forall s es s', Reached s -> main s = Raised -> run es s = Some s' -> srv s' <> Stopped /\ main s' = Raised.
Proof.
  intros s es s' Re M R. destruct (raised_run es s s' (inv_ok s Re) M R) as [I M']. split; [|exact M']. intros X. destruct (i_stopped s' I X) as [Y|[Y|Y]]; congruence.
Qed.
Lemma dget_app_l : forall (c : nat) (l l' : list (nat * request)) r, dget c l = Some r -> dget c (l ++ l') = Some r.
Proof. induction l as [|[k v] l IH]; cbn; [discriminate|]. intros l' r. destruct (eqd c k); [auto|apply IH]. Qed.
Lemma dget_app_r : forall (c : nat) (l l' : list (nat * request)), dget c l = None -> dget c (l ++ l') = dget c l'.
Proof. induction l as [|[k v] l IH]; cbn; [reflexivity|]. intros l'. destruct (eqd c k); [discriminate|apply IH]. Qed.
Theorem still_serving : forall s c, Reached s -> main s = Raised -> srv s = Idle -> backlog s = [] -> dget c (sent s) = None -> ~ In c (gone s) ->
  exists s', run [Connect c; Send c Index; Accept; Read; Receive c] s = Some s' /\ In c (received s').
Proof.
  intros s c Re M V B D G. pose proof (i_stop s (inv_ok s Re)) as St. rewrite M in St. cbn [run step]. cbn [upd main srv queue stop backlog sent gone received].
  rewrite V, B, St. cbn [app upd main srv queue stop backlog sent gone received]. rewrite (dget_app_r c _ _ D). cbn [dget]. destruct (eqd c c) as [_|X]; [|contradiction].
  cbn [upd main srv queue stop backlog sent gone received]. destruct (eqd c c) as [_|X]; [|contradiction]. rewrite (proj2 (mem_false c (gone s)) G).
  eexists. split; [reflexivity|]. cbn. apply in_or_app. right. left. reflexivity.
Qed.
(** the caller waits for a client that says nothing *)
Definition Silent (c : nat) (es : list event) : Prop := (forall r, ~ In (Send c r) es) /\ ~ In (Close c) es.
Theorem stuck : forall es s s' c, run es s = Some s' -> main s = Shutting -> srv s = Reading c -> dget c (sent s) = None -> ~ In c (gone s) -> Silent c es ->
  main s' = Shutting /\ srv s' = Reading c.
Proof.
  induction es as [|e es IH]; intros s s' c R M V D G [S1 S2]; [injection R as <-; auto|]. cbn in R. destruct (step e s) as [s1|] eqn:E; [|discriminate].
  assert (X : main s1 = Shutting /\ srv s1 = Reading c /\ dget c (sent s1) = None /\ ~ In c (gone s1)).
  { destruct e; unfold step in E; rewrite ?M, ?V in E; try discriminate.
    - injection E as <-. auto.
    - injection E as <-. cbn. repeat split; auto. rewrite (dget_app_r _ _ _ D). cbn. destruct (eqd c c0) as [<-|_]; [|reflexivity]. exfalso. apply (S1 r). left. reflexivity.
    - injection E as <-. cbn. repeat split; auto. intros [->|I]; [apply S2; left; reflexivity|contradiction].
    - rewrite D in E. rewrite (proj2 (mem_false c (gone s)) G) in E. discriminate. }
  destruct X as (X1 & X2 & X3 & X4). apply (IH s1 s' c R X1 X2 X3 X4). split; [intros r I; apply (S1 r); right; exact I|intros I; apply S2; right; exact I].
Qed.
(** otherwise it returns: once the page has been received, it only needs that the client being served sends its request, receives its answer, or leaves *)
Theorem can_return : forall s, Reached s -> main s = Shutting -> exists es s', run es s = Some s' /\ main s' = Returned /\
  forall e, In e es -> In e [Read; Stop_server; Shut_down; Join] \/ exists c, e = Close c /\ (srv s = Reading c \/ srv s = Sending c).
Proof.
  intros s Re M. pose proof (i_stop s (inv_ok s Re)) as St. rewrite M in St.
  assert (Fin : forall v s1, srv s1 = v -> v = Idle \/ v = Stopped -> main s1 = Shutting -> stop s1 = true -> exists es s', run es s1 = Some s' /\ main s' = Returned /\ forall e, In e es -> In e [Read; Stop_server; Shut_down; Join]).
  { intros v s1 V1 X M1 St1. destruct X as [->| ->].
    - exists [Stop_server; Shut_down; Join]. cbn [run step]. rewrite V1, St1. cbn [upd main srv queue stop backlog sent gone received]. rewrite M1. cbn. eexists. split; [reflexivity|]. split; [reflexivity|]. intros e I. tauto.
    - exists [Shut_down; Join]. cbn [run step]. rewrite V1, M1. cbn. eexists. split; [reflexivity|]. split; [reflexivity|]. intros e I. tauto. }
  assert (Go : forall es0 s1, run es0 s = Some s1 -> srv s1 = Idle -> main s1 = Shutting -> stop s1 = true -> (forall e, In e es0 -> In e [Read; Stop_server; Shut_down; Join] \/ exists c, e = Close c /\ (srv s = Reading c \/ srv s = Sending c)) ->
    exists es s', run es s = Some s' /\ main s' = Returned /\ forall e, In e es -> In e [Read; Stop_server; Shut_down; Join] \/ exists c, e = Close c /\ (srv s = Reading c \/ srv s = Sending c)).
  { intros es0 s1 R0 V1 M1 St1 A. destruct (Fin Idle s1 V1 (or_introl eq_refl) M1 St1) as (es & s' & R & M' & B). exists (es0 ++ es), s'. rewrite run_app, R0. split; [exact R|]. split; [exact M'|].
    intros e I. apply in_app_or in I. destruct I as [I|I]; [apply A; exact I|left; apply B; exact I]. }
  assert (Mm : forall c, mem c (c :: gone s) = true) by (intros c; apply mem_true; left; reflexivity).
  destruct (srv s) as [|c|c|] eqn:V.
  - apply (Go [] s); auto. intros e [].
  - destruct (dget c (sent s)) as [[|]|] eqn:D.
    + eapply (Go [Close c; Read; Read]); [cbn [run step upd main srv queue stop backlog sent gone received]; rewrite V; cbn [upd main srv queue stop backlog sent gone received]; rewrite D; cbn [upd main srv queue stop backlog sent gone received]; rewrite Mm; reflexivity|..]; try assumption; try reflexivity.
      intros e [<-|[<-|[<-|[]]]]; [right; eauto|left; left; reflexivity|left; left; reflexivity].
    + eapply (Go [Read]); [cbn [run step]; rewrite V, D; reflexivity|..]; try assumption; try reflexivity. intros e [<-|[]]. left; left; reflexivity.
    + eapply (Go [Close c; Read]); [cbn [run step upd main srv queue stop backlog sent gone received]; rewrite V; cbn [upd main srv queue stop backlog sent gone received]; rewrite D, Mm; reflexivity|..]; try assumption; try reflexivity.
      intros e [<-|[<-|[]]]; [right; eauto|left; left; reflexivity].
  - eapply (Go [Close c; Read]); [cbn [run step upd main srv queue stop backlog sent gone received]; rewrite V; cbn [upd main srv queue stop backlog sent gone received]; rewrite Mm; reflexivity|..]; try assumption; try reflexivity.
    intros e [<-|[<-|[]]]; [right; eauto|left; left; reflexivity].
  - destruct (Fin Stopped s V (or_intror eq_refl) M St) as (es & s' & R & M' & B). exists es, s'. split; [exact R|]. split; [exact M'|]. intros e I. left. exact (B e I).
Qed.
(** a page that cannot be encoded starts no server *)
Theorem open_encode : forall t, (exists b, open_in_browser t = Ok (b, start) /\ Utf8 b t) \/ (~ Forall Scalar t /\ open_in_browser t = Err ValueError).
Proof.
  intros t. unfold open_in_browser. destruct (scalar_dec t) as [F|N].
  - destruct (py_encode_ok t F) as (b & E & U). left. exists b. rewrite E. split; [reflexivity|exact U].
  - right. split; [exact N|]. rewrite (py_encode_err t N). reflexivity.
Qed.
