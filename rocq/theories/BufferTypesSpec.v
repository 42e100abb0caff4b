(** Specification for Buffer classes with inheritance. *)
From Verif Require Import Base Marshal BufferTypes.
From Coq Require Import ZArith List Bool String.
Import ListNotations.
Open Scope list_scope.

(** The attribute [n] of a class with this mro is [a]: the first class that has it decides. *)
Definition is_attr (mro : list pyclass) (n : name) (a : cattr) : Prop :=
  exists before c after, mro = before ++ c :: after /\ Marshal.lookup (y_dict c) n = Some a
    /\ Forall (fun b => ~ In n (map fst (y_dict b))) before.

(** The field has been found by a class statement before. *)
Definition taken (w : world) (f : fid) : Prop := In f (map fst (w_names w)).
(** The field is called [n]. *)
Definition called (w : world) (f : fid) (n : name) : Prop := name_of (w_names w) f = Some n.

(** What Python guarantees about the mro of a new class: it consists of existing classes, none twice,
    and with each class it has the mro of that class. *)
Definition proper (w : world) (t : statement) : Prop :=
  NoDup (t_mro t) /\ forall i, In i (t_mro t) -> exists c, nth_error (w_classes w) i = Some c /\ incl (y_bases c) (t_mro t).

Section Histories.
Variable calc : world -> list fid -> res (option Z).
(** The worlds that class statements lead to. *)
Inductive history : world -> Prop :=
| h_start : history (mkWorld [] [])
| h_define : forall w t, history w -> proper w t -> history (snd (define calc t w)).
End Histories.

(** The class number [i] is [c], and [fs] are the fields it has itself. *)
Definition class_no (w : world) (i : nat) (c : pyclass) : Prop := nth_error (w_classes w) i = Some c.
Definition owns (w : world) (i : nat) (f : fid) : Prop := exists c fs, class_no w i c /\ y_fields c = Some fs /\ In f fs.
Definition own_fields (c : pyclass) : list fid := match y_fields c with Some l => l | None => [] end.

(** The first field of the list called [n]. *)
Definition first_called (w : world) (l : list fid) (n : name) (f : fid) : Prop :=
  exists before after, l = before ++ f :: after /\ called w f n /\ Forall (fun g => ~ called w g n) before.
