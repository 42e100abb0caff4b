(** Specification vocabulary: what calc_byte_size() of an object looks at. *)
From Verif Require Import Base Marshal BufferModel.
From Coq Require Import ZArith List Bool String.
Import ListNotations.
Open Scope list_scope.

(** The class inherits no fields; or its references neither use total_size nor name inherited fields. *)
Definition own_references (C : cls) (own : nat) : Prop :=
  own = List.length (k_fields C)
  \/ Forall (fun u => match u with
                      | UTotal => False
                      | UAttr n => In n (map f_name (firstn own (k_fields C)))
                      | _ => True
                      end) (k_users C).
