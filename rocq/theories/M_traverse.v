(** The generator-driven traversal of expression graphs,
    /repo/skrub/_expressions/_evaluation.py lines 42-110 ([_as_gen], [_Computation],
    [_ExprTraversal.run]). *)
From Verif Require Import Base.

(** [id(obj)] *)
Definition oid := nat.

Section Traverse.
  (** [V]: the values that handlers return, [S]: the state they read and update
      (attributes of [self], of the nodes, ...). *)
  Context {V S : Type}.

  (** A Python generator, as the tree of what it does next: return, raise, yield an
      object and wait for the result computed for it, read the state, write the state
      (generator functions of lines 112-176 and of the subclasses). *)
  Inductive gen : Type :=
  | GRet (v : V)
  | GRaise (e : exn)
  | GYield (t : oid) (k : V -> gen)
  | GGet (k : S -> gen)
  | GPut (s : S) (g : gen).

  (** The ways in which a traversal ends. [TCirc t]: [CircularReferenceError] about
      object [t] (line 83). [TFuel] is not a Python behaviour: it says that the depth
      bound given to [visit] was too small, which is proved impossible. *)
  Inductive outcome : Type :=
  | TOk (v : V)
  | TErr (e : exn)
  | TCirc (t : oid)
  | TFuel.

  (** What [generator.send(x)] does (line 78): run up to the next yield, return
      ([StopIteration], line 105) or exception. *)
  Inductive sent : Type :=
  | SYield (t : oid) (k : V -> gen)
  | SReturn (v : V)
  | SRaise (e : exn).

  Fixpoint send (g : gen) (s : S) : S * sent :=
    match g with
    | GRet v => (s, SReturn v)
    | GRaise e => (s, SRaise e)
    | GYield t k => (s, SYield t k)
    | GGet k => send (k s) s
    | GPut s' g' => send g' s'
    end.

  (** The method selected by the [isinstance] tests of lines 87-104. *)
  Variable handler : oid -> gen.

  (** Items of [stack]: an object not started yet, or a [_Computation] (line 55) holding
      the id of its target and a suspended generator. The generator is resumed with
      [last_result], which is Python's [None] for a generator that has not started. *)
  Inductive item : Type :=
  | IObj (o : oid)
  | IComp (target : oid) (resume : option V -> gen).

  Definition targets (stack : list item) : list oid :=
    flat_map (fun i => match i with IObj _ => [] | IComp t _ => [t] end) stack.

  (** Result of a generator that yielded and then receives [last_result] (a value: the
      traversal always has a result for the object that was yielded, line 107). *)
  Definition resume_with (k : V -> gen) (last : option V) : gen :=
    match last with Some v => k v | None => GRaise TypeError end.

  Inductive machine : Type :=
  | Running (stack : list item) (last : option V) (s : S)
  | Finished (s : S) (r : outcome).

  (** One iteration of the [while stack:] loop, lines 76-109. The head of the list is
      the top of the stack, [stack\[-1\]]. *)
  Definition step (m : machine) : machine :=
    match m with
    | Finished s r => Finished s r
    | Running [] last s =>
        match last with
        | Some v => Finished s (TOk v)
        | None => Finished s (TErr TypeError)
        end
    | Running (IObj o :: rest) last s =>
        (* push(handler), lines 71-74 *)
        Running (IComp o (fun _ => handler o) :: rest) last s
    | Running (IComp o resume :: rest) last s =>
        match send (resume last) s with
        | (s', SYield t k) =>
            if mem t (o :: targets rest) then Finished s' (TCirc t)
            else Running (IObj t :: IComp o (resume_with k) :: rest) None s'
        | (s', SReturn v) => Running rest (Some v) s'
        | (s', SRaise e) => Finished s' (TErr e)
        end
    end.

  Fixpoint steps (n : nat) (m : machine) : machine :=
    match n with 0 => m | Datatypes.S n' => steps n' (step m) end.

  (** [run(expr)], lines 68-70: initial stack and [last_result]. *)
  Definition start (o : oid) (s : S) : machine := Running [IObj o] None s.

  (** The same traversal written as a recursive function: [path] is the list of targets
      of the computations on the stack, innermost first. [depth] bounds the depth of the
      recursion. [L_traverse.v] proves that [start] steps to the result of [visit]; the
      other models use [visit]. *)
  Section RunGen.
    Variable visit_child : oid -> S -> S * outcome.
    Variable path : list oid.
    Fixpoint run_gen (g : gen) (s : S) : S * outcome :=
      match g with
      | GRet v => (s, TOk v)
      | GRaise e => (s, TErr e)
      | GGet k => run_gen (k s) s
      | GPut s' g' => run_gen g' s'
      | GYield t k =>
          if mem t path then (s, TCirc t)
          else match visit_child t s with
               | (s', TOk v) => run_gen (k v) s'
               | (s', TErr e) => (s', TErr e)
               | (s', TCirc t') => (s', TCirc t')
               | (s', TFuel) => (s', TFuel)
               end
      end.
  End RunGen.

  Fixpoint visit (depth : nat) (path : list oid) (o : oid) (s : S) : S * outcome :=
    match depth with
    | 0 => (s, TFuel)
    | Datatypes.S d => run_gen (visit d (o :: path)) (o :: path) (handler o) s
    end.

  (** [for item in items: value = yield item; new_seq.append(value)] (lines 150-153 and
      the loops of lines 117-119, 160-170) followed by [k]. *)
  Fixpoint yield_all (items : list oid) (k : list V -> gen) : gen :=
    match items with
    | [] => k []
    | t :: items' => GYield t (fun v => yield_all items' (fun vs => k (v :: vs)))
    end.

  (** Lift a computation that may raise. *)
  Definition gen_of (r : res V) : gen :=
    match r with Ok v => GRet v | Err e => GRaise e end.
End Traverse.
Arguments gen V S : clear implicits.
Arguments outcome V : clear implicits.
Arguments machine V S : clear implicits.
Arguments item V S : clear implicits.
