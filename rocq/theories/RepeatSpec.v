(** Vocabulary for packing again: attributes that packing computes, and classes whose result does not
    depend on them. *)
From Verif Require Import Base Marshal Range RefEngine BufferModel BufferSpec.
From Coq Require Import ZArith List Bool String.
Import ListNotations.
Open Scope list_scope.

(** Assignments, one after the other. *)
Definition assign_all (W : attrs) (a : attrs) : attrs := fold_left (fun a p => set_attr a (fst p) (snd p)) W a.

Section Class.
Variable C : cls.
(** The attributes that packing computes; the fields whose values are objects or lists of objects, and when two of those pack alike. *)
Variables (computed : name -> Prop) (nested : nat -> bool) (alike : nat -> value -> value -> Prop).

(** [a] and [b] have the same attributes but for computed ones, and for objects that pack alike. *)
Definition same_inputs (a b : attrs) : Prop :=
  forall n, ~ computed n -> Marshal.lookup a n = Marshal.lookup b n
    \/ exists i f v w, nth_error (k_fields C) i = Some f /\ nested i = true /\ f_name f = n
         /\ Marshal.lookup a n = Some v /\ Marshal.lookup b n = Some w /\ alike i v w.

(** References whose value is such an object. *)
Definition is_nested (r : rid) : bool :=
  match r_kind r with
  | KField => nested (r_no r)
  | KUser => match nth_error (k_users C) (r_no r) with
             | Some (UFieldRef i) => nested i
             | Some (UAttr n) => match find_field n (numbered C) with Some i => nested i | None => false end
             | _ => false
             end
  | _ => false
  end.
Definition simple_rid (r : rid) : Prop := plain_rid r /\ is_nested r = false.
Definition simple_arg (a : arg) : Prop := match a with AConst _ => True | ARef r => simple_rid r end.

(** A function of the object: what it returns and assigns follows from attributes that are not computed, and it
    assigns computed ones only. *)
Definition repeats (g : attrs -> res rv * attrs) : Prop :=
  forall a b, same_inputs a b -> exists x W, g a = (x, assign_all W a) /\ g b = (x, assign_all W b) /\ Forall (fun p => computed (fst p)) W.

Definition repeats_user (u : uref) : Prop :=
  match u with
  | UConst _ | UTotal | UInputLen | UAfter _ | UFieldRef _ => True
  | UAttr n => find_field n (numbered C) = None -> ~ computed n
  | UNum _ a b | UByteSlice a b => simple_arg a /\ simple_arg b
  | UNeg a | UCast a | UByteNum a => simple_arg a
  | ULen a => plain_arg a
  | UList l | UMin l | UMax l | UFunc _ l => Forall simple_arg l
  | UMember g l => Forall simple_arg l /\ forall vs, repeats (g vs)
  | UBitNum p a => simple_rid p /\ simple_arg a
  | UBitSlice p a b => simple_rid p /\ simple_arg a /\ simple_arg b
  end.
Definition repeats_field (i : nat) (f : field) : Prop :=
  simple_rid (f_where_pack f) /\ simple_rid (f_pack_if f) /\ Forall simple_arg (f_pack_args f)
  /\ match f_before f with
     | None => ~ computed (f_name f)
     | Some (BValue _) => computed (f_name f)
     | Some (BRef r) => computed (f_name f) /\ simple_rid r
     | Some (BFun g) => computed (f_name f) /\ repeats (fun a => let '(x, b) := g a in (rmap RVal x, b))
     end
  /\ (nested i = true -> f_before f = None /\ (forall v w, alike i v w -> py_len (RVal v) = py_len (RVal w) /\ forall args n, f_pack f args v n = f_pack f args w n)).
Definition repeatable : Prop :=
  Forall repeats_user (k_users C) /\ forall i f, nth_error (k_fields C) i = Some f -> repeats_field i f.
End Class.

(** Classes without functions of the object and of fields that hold no objects: the attributes with a set_before_pack
    are computed. *)
Definition no_functions (C : cls) : Prop :=
  plain C /\ Forall (fun f => match f_before f with Some (BFun _) => False | _ => True end) (k_fields C).
