(** Specification for the text of Buffer objects. *)
From Verif Require Import Base Marshal BufferTypes BufferTypesSpec.
From Coq Require Import ZArith List Bool String Sorted.
Import ListNotations.
Open Scope string_scope.
Open Scope list_scope.

Section Objects.
Variable default : fid -> value.
(** The attributes an object of the class can have: it is constructed, then attributes are assigned,
    by the user or by pack() and unpack(). *)
Inductive object_of (w : world) (c : pyclass) : attrs -> Prop :=
| made : forall kw o, construct default w c kw = Ok o -> object_of w c o
| assigned : forall o n v, object_of w c o -> object_of w c (set_attr o n v).
End Objects.

(** The names of these fields, in alphabetical order. *)
Definition names_of_fields (w : world) (fs : list fid) (names : list name) : Prop :=
  StronglySorted (fun n m => String.ltb n m = true) names /\ forall n, In n names <-> exists f, In f fs /\ called w f n.

(** [n1=t1, n2=t2, ...] *)
Fixpoint listed (l : list (name * string)) : string :=
  match l with
  | [] => ""
  | [(n, t)] => n ++ "=" ++ t
  | (n, t) :: r => n ++ "=" ++ t ++ ", " ++ listed r
  end%string.
(** The attribute [n] of the object is the value [v]. *)
Definition has_value (w : world) (c : pyclass) (o : attrs) (n : name) (v : value) : Prop := obj_attr w c o n = Some (COther v).
