(** Vocabulary for the functions of the object that a Buffer class may use: member functions as
    references (macros.py:324-331) and set_before_pack functions (field_reference_builder.py:210-223).
    Both may change the object. *)
From Verif Require Import Base Marshal RefEngine BufferModel BufferSpec.
From Coq Require Import ZArith List Bool String.
Import ListNotations.
Open Scope list_scope.
Open Scope Z_scope.

(** [q] names a function of the object: number [k] of the references of the class ([KUser]) or the
    set_before_pack function of field number [i] ([KBefore]).  [watch] looks at the object and counts the
    calls of [q]: each call adds 1; neither the other functions nor assignments to fields change it.  (For
    example [watch] is the attribute "calls", which is no field, and [q] does self.calls += 1.) *)
Definition counts (C : cls) (q : rid) (watch : attrs -> Z) : Prop :=
  (forall f o v, In f (k_fields C) -> watch (set_attr o (f_name f) v) = watch o)
  /\ (forall k g l vs o, nth_error (k_users C) k = Some (UMember g l) ->
        watch (snd (g vs o)) = watch o + (if rid_eqb (mkRid KUser k) q then 1 else 0))
  /\ (forall i f g o, nth_error (k_fields C) i = Some f -> f_before f = Some (BFun g) ->
        watch (snd (g o)) = watch o + (if rid_eqb (mkRid KBefore i) q then 1 else 0)).

(** [q] is such a function of [C]. *)
Definition is_function (C : cls) (q : rid) : Prop :=
  (exists k g l, q = mkRid KUser k /\ nth_error (k_users C) k = Some (UMember g l))
  \/ (exists i f g, q = mkRid KBefore i /\ nth_error (k_fields C) i = Some f /\ f_before f = Some (BFun g)).

(** Called at most once; called exactly once. *)
Definition at_most_once (watch : attrs -> Z) (o o' : attrs) : Prop := watch o' = watch o \/ watch o' = watch o + 1.
Definition exactly_once (watch : attrs -> Z) (o o' : attrs) : Prop := watch o' = watch o + 1.
