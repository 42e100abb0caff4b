(** Model of struct/lazy.py with extra arguments of [create_from_stream]: they are kept next to the data (lazy.py:64-66)
    and handed on when the container is decoded (lazy.py:80-82).  Everything else is as in Lazy.v, whose simplifications
    hold here too; [args] and [kw] are the arguments of the call that read the object. *)
From Verif Require Import Base IntCodec BitStringIO Stream MinMax Marshal Lazy LazySpec ReadArgs.
From Coq Require Import ZArith List Bool String.
Import ListNotations.
Open Scope Z_scope.

Section LazyArgs.
Variable h : host.
Variables (args : list value) (kw : attrs).
Variables (cls : name) (cctx : option ctx) (items : list item).

(** lazy.py:71-82; line 80 is FieldListContainer.read_fields (struct/__init__.py:94-96). *)
Definition instantiate_kw (k : nat) (fs : list field) : stM lobj unit := fun o =>
  match pending k (lo_data o) with
  | None => (Ok tt, o)
  | Some (data, c) =>
      match read_field_kw h args kw cls cctx (FGroup fs) c (stream_of data, lo_attrs o) with
      | (r, (_, a')) => (r, mkLobj a' (forget k (lo_data o)))
      end
  end.

(** lazy.py:64-66: only the data is read. *)
Definition read_item_kw (c : ctx) (k : nat) (i : item) : stM lstate unit := fun st =>
  match i with
  | IField f =>
      match read_field_kw h args kw cls cctx f c (fst st, lo_attrs (snd st)) with
      | (r, (s', a')) => (r, (s', mkLobj a' (lo_data (snd st))))
      end
  | ILazy fs => read_item h cls cctx c k (ILazy fs) st
  end.
Fixpoint read_items_kw (c : ctx) (k : nat) (l : list item) : stM lstate unit :=
  match l with
  | [] => sret tt
  | i :: r => do read_item_kw c k i ;; read_items_kw c (S k) r
  end.
(** struct/__init__.py:176-181: the object is constructed with the extra arguments. *)
Definition lazy_read_kw (c : ctx) : stM stream lobj := fun s =>
  match read_items_kw c 0 items (s, lazy_new items kw) with
  | (Ok _, (s', o)) => (Ok o, s')
  | (Err e, (s', _)) => (Err e, s')
  end.

(** [obj.n], [obj.n = v] and [obj.to_bytes()], as in Lazy.v. *)
Definition lazy_get_kw (n : name) : stM lobj value :=
  match owner 0 items n with
  | Some (k, fs) =>
      do instantiate_kw k fs ;;
      o <- sget ;;
      slift (match lookup (lo_attrs o) n with Some v => Ok v | None => Err KeyError end)
  | None => lazy_get h cls cctx items n
  end.
Definition lazy_set_kw (n : name) (v : value) : stM lobj unit :=
  match owner 0 items n with
  | Some (k, fs) =>
      do instantiate_kw k fs ;;
      o <- sget ;;
      sput (mkLobj (set_attr (lo_attrs o) n v) (lo_data o))
  | None => lazy_set h cls cctx items n v
  end.
Definition write_item_kw (k : nat) (i : item) : stM wstate unit := fun st =>
  match i with
  | IField f => write_item h cls cctx k (IField f) st
  | ILazy fs =>
      match instantiate_kw k fs (fst st) with
      | (Err e, o) => (Err e, (o, snd st))
      | (Ok _, o) => match write_lazy_fields h fs (lo_attrs o) (snd st) with (r, out) => (r, (o, out)) end
      end
  end.
Fixpoint write_items_kw (k : nat) (l : list item) : stM wstate unit :=
  match l with
  | [] => sret tt
  | i :: r => do write_item_kw k i ;; write_items_kw (S k) r
  end.
Definition lazy_to_bytes_kw : stM lobj (list Z) := fun o =>
  match write_items_kw 0 items (o, []) with
  | (Ok _, (o', out)) => (Ok out, o')
  | (Err e, (o', _)) => (Err e, o')
  end.

(** A program that uses the object ([use] and [answer] are in LazySpec.v). *)
Definition use_lazy_kw (u : use) (o : lobj) : answer * lobj :=
  match u with
  | Get n => let '(r, o') := lazy_get_kw n o in (AValue r, o')
  | Set_ n v => let '(r, o') := lazy_set_kw n v o in (ADone r, o')
  | ToBytes => let '(r, o') := lazy_to_bytes_kw o in (ABytes r, o')
  end.
Fixpoint history_lazy_kw (us : list use) (o : lobj) : list answer :=
  match us with
  | [] => []
  | u :: r => let '(x, o') := use_lazy_kw u o in x :: history_lazy_kw r o'
  end.
End LazyArgs.
