(** Specification vocabulary for sharing: what can be seen through an attribute, and which programs
    keep instances apart. *)
From Verif Require Import Base Marshal Heap.
From Coq Require Import ZArith List Bool String.
Import ListNotations.

(** What a program sees when it follows an attribute down to some depth. *)
Inductive tree : Type :=
| TVal (v : value)
| TList (ts : list tree)
| TBytes (bs : list Z)
| TDict (kts : list (value * tree))
| TInst (kts : list (name * tree))
| TCut.
Fixpoint look (depth : nat) (h : heap) (c : cell) : tree :=
  match c with
  | CVal v => TVal v
  | CRef l =>
      match depth with
      | O => TCut
      | S d =>
          match nth_error h l with
          | Some (HList cs) => TList (map (look d h) cs)
          | Some (HBytes bs) => TBytes bs
          | Some (HDict kvs) => TDict (map (fun kv => (fst kv, look d h (snd kv))) kvs)
          | Some (HInst kvs) => TInst (map (fun kv => (fst kv, look d h (snd kv))) kvs)
          | None => TCut
          end
      end
  end.
(** All attributes of the [i]-th instance. *)
Definition seen (depth : nat) (s : state) (i : nat) : option (list (name * tree)) :=
  match nth_error (insts s) i with
  | Some d => Some (map (fun kv => (fst kv, look depth (hp s) (snd kv))) d)
  | None => None
  end.

(** Defaults that are immutable, or lists, dicts and byte arrays of immutable values. *)
Definition is_val (c : cell) : Prop := match c with CVal _ => True | CRef _ => False end.
Definition plain_default (h : heap) (c : cell) : Prop :=
  match c with
  | CVal _ => True
  | CRef l => exists o, nth_error h l = Some o /\ Forall is_val (cells_of o)
              /\ match o with HList _ | HDict _ | HBytes _ => True | HInst _ => False end
  end.

(** Programs that do not store something of one instance in another one: what is stored in an
    instance comes from it. *)
Definition src_within (i : nat) (x : src) : Prop := match x with SPath p => p_inst p = i | _ => True end.
Definition keeps_apart (o : op) : Prop :=
  match o with
  | ONew kw => Forall (fun x => match x with SPath _ => False | _ => True end) (map snd kw)
  | OSet i _ x => src_within i x
  | OChange p ch => Forall (src_within (p_inst p)) (change_srcs ch)
  end.
(** The operation does not go through the [j]-th instance. *)
Definition elsewhere (j : nat) (o : op) : Prop :=
  match o with ONew _ => True | OSet i _ _ => i <> j | OChange p _ => p_inst p <> j end.
(** What a new object written in the program is. *)
Definition written (t : lit) : tree :=
  match t with
  | LList vs => TList (map TVal vs)
  | LBytes bs => TBytes bs
  | LDict kvs => TDict (map (fun kv => (fst kv, TVal (snd kv))) kvs)
  | LInst kvs => TInst (map (fun kv => (fst kv, TVal (snd kv))) kvs)
  end.
