(** Model of buffer/compat.py: StructTypeAdapter, which lets a Buffer class be used where a struct
    is expected (from_string, from_stream, to_string and so on). *)
From Verif Require Import Base Stream Marshal IoBuffer BufferModel.
From Coq Require Import ZArith List Bool.
Import ListNotations.
Open Scope Z_scope.

(** compat.py:3-5 StructTypeAdapter.__init__ and 43-44 buffer_to_struct_adapter.  The class, and
    whether its [byte_size] is a float object: positions given in bits are computed with floats
    (reference/range.py:118, 147), so a class that ends with one has a float, even if it is whole. *)
Record adapter : Type := mkAdapter { ad_cls : cls; ad_float : bool }.
Definition buffer_to_struct_adapter (C : cls) (size_is_float : bool) : adapter := mkAdapter C size_is_float.

(** What can be given as a string: [bytes], [bytearray] (its subclasses and the other way round
    are left out), or some other object. *)
Inductive pystr : Type := PyBytes (l : list Z) | PyByteArray (l : list Z) | PyOther.

(** [self.buffer_type()] followed by [unpack(data)], whose return value is not used (compat.py:11-13
    and 22-24).  unpack() copies bytes into a bytearray, io_buffer.py:24-25. *)
Definition new_unpacked (a : adapter) (data : list Z) : res attrs :=
  let* o := buffer_init (ad_cls a) [] in
  match buffer_unpack (ad_cls a) (BArr data) o with
  | (Ok _, o') => Ok o'
  | (Err e, _) => Err e
  end.

(** compat.py:7-13 *)
Definition ad_create_from_string (a : adapter) (s : pystr) : res attrs :=
  match s with
  | PyBytes l => new_unpacked a l
  | _ => Err TypeError
  end.

(** compat.py:15-17.  The state is the object (pack() may assign attributes) and what was written. *)
Definition ad_write_to_stream (a : adapter) : stM (attrs * list Z) unit := fun s =>
  match buffer_pack (ad_cls a) (fst s) with
  | (Ok l, o) => (Ok tt, (o, snd s ++ l))
  | (Err e, o) => (Err e, (o, snd s))
  end.

(** [stream.read(byte_size)]; a float is not accepted by BytesIO.  ReadAheadStream with a float is
    not modelled. *)
Definition ad_read (a : adapter) (n : Z) : stM stream (list Z) :=
  if ad_float a then fun s => (Err (match s with SBytesIO _ _ => TypeError | SReadAhead _ _ _ => NotModelled end), s)
  else sread (n / 8).

(** compat.py:19-25; [k_size] is in bits. *)
Definition ad_create_from_stream (a : adapter) : stM stream attrs :=
  match k_size (ad_cls a) with
  | Some n =>
      data <- ad_read a n ;;
      fun s => (new_unpacked a data, s)
  | None => sraise ValueError
  end.

(** compat.py:27-28 and 39-40. *)
Definition ad_min_max_sizeof (a : adapter) : res (Z * Z) := Err NotImplementedError.
Definition ad_get_updated_context (a : adapter) : res unit := Err NotImplementedError.

(** compat.py:30-31 *)
Definition ad_sizeof (a : adapter) (o : attrs) : res Z * attrs :=
  match buffer_pack (ad_cls a) o with
  | (Ok l, o') => (Ok (zlen l), o')
  | (Err e, o') => (Err e, o')
  end.

(** compat.py:33-34: pack() returns a bytearray (buffer.py:115-127). *)
Definition ad_write_to_string (a : adapter) (o : attrs) : res pystr * attrs :=
  match buffer_pack (ad_cls a) o with
  | (Ok l, o') => (Ok (PyByteArray l), o')
  | (Err e, o') => (Err e, o')
  end.
