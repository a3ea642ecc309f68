(** Replacing the display of dataframes, /repo/skrub/_reporting/_patching.py. *)
From Verif Require Import Base.
Open Scope string_scope.
Open Scope list_scope.

Section Patching.
  (** The methods that exist before; the parameters of the reports. *)
  Context {meth params : Type}.
  Inductive attr : Type := Plain (m : meth) | Report (name : string) (p : params) | PyNone.
  (** A class: its own attributes and the ones it inherits. *)
  Record cls : Type := mk_cls { own : dict string attr; inherited : dict string attr }.
  Definition getattr (c : cls) (n : string) : option attr :=
    match dget n (own c) with Some a => Some a | None => dget n (inherited c) end.
  Definition setattr (c : cls) (n : string) (a : attr) : cls := mk_cls (dset n a (own c)) (inherited c).
  (** [getattr(cls, name, None)] is not None. *)
  Definition get_some (c : cls) (n : string) : option attr :=
    match getattr c n with Some PyNone => None | x => x end.

  (** Lines 7-11. *)
  Definition METHODS_TO_PATCH : list string := ["_repr_mimebundle_"; "_repr_html_"].
  Definition stashed_name (n : string) : string := ("_skrub_" ++ n)%string.
  (** [_patch], 14-32. *)
  Definition patch (p : params) (c : cls) (n : string) : cls :=
    match get_some c n with
    | None => c
    | Some original =>
        let c1 := match getattr c (stashed_name n) with
                  | Some _ => c
                  | None => setattr c (stashed_name n) original
                  end in
        setattr c1 n (Report n p)
    end.
  (** [_unpatch], 35-39. *)
  Definition unpatch (c : cls) (n : string) : cls :=
    match get_some c (stashed_name n) with
    | None => c
    | Some original => setattr c n original
    end.

  (** The libraries; [None] when a library cannot be imported. *)
  Record world : Type := mk_world { pandas : option cls; polars : option cls }.
  Inductive op : Type :=
  | PatchDisplay (on_pandas on_polars : bool) (p : params)
  | UnpatchDisplay (on_pandas on_polars : bool).
  (** [_change_display] with [_get_to_patch], 42-60. *)
  Definition change (transform : cls -> string -> cls) (on : bool) (c : option cls) : option cls :=
    match c with
    | Some c => Some (if on then fold_left transform METHODS_TO_PATCH c else c)
    | None => None
    end.
  (** [patch_display], 63-107; [unpatch_display], 110-131. *)
  Definition step (w : world) (o : op) : world :=
    match o with
    | PatchDisplay pd pl p => mk_world (change (patch p) pd (pandas w)) (change (patch p) pl (polars w))
    | UnpatchDisplay pd pl => mk_world (change unpatch pd (pandas w)) (change unpatch pl (polars w))
    end.
  Definition steps (w : world) (ops : list op) : world := fold_left step ops w.
End Patching.
Arguments attr : clear implicits.
Arguments cls : clear implicits.
Arguments world : clear implicits.
Arguments op : clear implicits.
