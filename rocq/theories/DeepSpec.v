(** Vocabulary for objects in objects: what pack() leaves in an object that holds other objects. *)
From Verif Require Import Base BaseProofs Marshal Range IoBuffer IoSpec Serialize SerializeSpec RefEngine BufferModel BufferSpec BufferMacros RepeatSpec Deep.
From Coq Require Import ZArith List Bool String.
Import ListNotations.
Open Scope list_scope.

(** A field that holds one object, or a list of objects, of the class [K]. *)
Inductive child : Type := OneObject | ObjectList.
Definition child_field (s : child) (K : cls) (f : field) : Prop :=
  match s with
  | OneObject => exists nm selector size k, f = buffer_field nm K selector size k
  | ObjectList => exists nm n selector k, f = list_field (EBuffer nm K) n selector k
  end.
Definition child_pack (s : child) (K : cls) : value -> res buf * value :=
  match s with
  | OneObject => pack_object (fun _ => Some K)
  | ObjectList => pack_object_list (fun _ => Some K)
  end.

(** The object [v] packs to [bytes] and is [v'] afterwards; so do all the objects of a list. *)
Definition object_packed (K : cls) (v : value) (bytes : list Z) (v' : value) : Prop :=
  exists nm a a', v = VObj nm a /\ v' = VObj nm a' /\ buffer_pack K a = (Ok bytes, a').
Inductive objects_packed (K : cls) : list value -> list (list Z) -> list value -> Prop :=
| objects_none : objects_packed K [] [] []
| objects_more v bytes v' l bs l' : object_packed K v bytes v' -> objects_packed K l bs l' -> objects_packed K (v :: l) (bytes :: bs) (v' :: l').
Definition child_packed (s : child) (K : cls) (v : value) (b : buf) (v' : value) : Prop :=
  match s with
  | OneObject => exists bytes, b = BArr bytes /\ object_packed K v bytes v'
  | ObjectList => exists l bs l', v = VList l /\ v' = VList l' /\ objects_packed K l bs l' /\ view_with b (bits_of_bytes (List.concat bs))
  end.

(** Packing what a field holds fails with [e]: the object itself, or the first in the list that fails; the objects
    before it are packed, it is what its own pack() left, and those behind it are not touched. *)
Definition child_failed (s : child) (K : cls) (v : value) (e : exn) (v' : value) : Prop :=
  exists nm a a', buffer_pack K a = (Err e, a')
  /\ match s with
     | OneObject => v = VObj nm a /\ v' = VObj nm a'
     | ObjectList => exists l1 bs l1' l2, v = VList (l1 ++ VObj nm a :: l2) /\ v' = VList (l1' ++ VObj nm a' :: l2) /\ objects_packed K l1 bs l1'
     end.
Inductive objects : child -> value -> Prop :=
| one_object nm a : objects OneObject (VObj nm a)
| object_list l : (forall v, In v l -> exists nm a, v = VObj nm a) -> objects ObjectList (VList l).

(** [kids]: for the fields that hold objects: the class of those as in [BufferModel], and the one whose pack()
    keeps what it does to objects in them. *)
Definition children : Type := nat -> option (child * cls * cls).
Definition is_child (kids : children) (i : nat) : bool := match kids i with Some _ => true | None => false end.
Definition packers_of (kids : children) (i : nat) : option (value -> res buf * value) :=
  match kids i with Some (s, _, K') => Some (child_pack s K') | None => None end.
(** No functions of the object; only len() is applied to fields that hold objects; these have no set_before_pack. *)
Definition holds_objects (C : cls) (kids : children) : Prop :=
  no_functions C /\ cls_ok C /\ NoDup (map f_name (k_fields C)) /\ packers_ok C
  /\ repeatable C (assigned_name C) (is_child kids) (fun _ _ _ => False)
  /\ forall i f s K K', nth_error (k_fields C) i = Some f -> kids i = Some (s, K, K') -> child_field s K f /\ f_before f = None.
(** [with_objects C C']: [C'] is [C] where all objects inside, at every depth, are kept. *)
Inductive with_objects : cls -> cls -> Prop :=
| with_objects_intro C kids : holds_objects C kids -> (forall i s K K', kids i = Some (s, K, K') -> with_objects K K') ->
    with_objects C (deepen C (packers_of kids)).
