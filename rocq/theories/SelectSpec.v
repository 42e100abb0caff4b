(** Specification vocabulary for fields with an unpack_selector. *)
From Verif Require Import Base IntCodec CodecSpec Stream Marshal Range RangeSpec IoBuffer IoSpec Serialize SerializeSpec
  RefEngine RefSpec BufferModel BufferSpec SeeSpec BufferMacros BufferCodecSpec SelectModel.
From Coq Require Import ZArith List Bool String.
Import ListNotations.
Open Scope list_scope.
Open Scope Z_scope.

(** For objects with attributes that are [ok], and a buffer with exactly [bytes], the selector chooses the class [C]. *)
Definition selects (sel : selector) (ok : attrs -> Prop) (bytes : list Z) (nm : name) (C : cls) : Prop :=
  forall a b n, ok a -> view_with b (bits_of_bytes bytes) -> sel a b n = Ok (SelType nm C).
(** As [selects], for element number [zlen before] of a list, after the elements [before]; the buffer starts with [bytes]. *)
Definition selects_next (sel : list_selector) (ok : attrs -> Prop) (n : option Z) (before : list value) (bytes : list Z)
    (nm : name) (C : cls) : Prop :=
  forall a b rest size, ok a -> view_with b (bits_of_bytes bytes ++ rest) -> sel a before (zlen before) n b size = Ok (SelType nm C).

(** The objects [l], after [before], are packed as [bytes], each by its own class; the selector chooses these classes. *)
Inductive mixed (tbl : classes) (sel : list_selector) (ok : attrs -> Prop) (n : option Z) : list value -> list value -> list (list Z) -> Prop :=
| mixed_nil before : mixed tbl sel ok n before [] []
| mixed_cons before nm C a bytes l bs : tbl nm = Some C -> restores_prefix nm C a bytes (8 * zlen bytes) -> bytes <> [] ->
    selects_next sel ok n before bytes nm C -> mixed tbl sel ok n (before ++ [VObj nm a]) l bs ->
    mixed tbl sel ok n before (VObj nm a :: l) (bytes :: bs).

(** [picked unpack b last before offset l offset']: after the elements [before], the elements [l] are read one behind the
    other from bit [offset] on; each gets the bits of [b] from its offset to [last]. *)
Inductive picked (unpack : list value -> Z -> buf -> res (value * option Z)) (b : buf) (last : option Z) : list value -> Z -> list value -> Z -> Prop :=
| picked_nil before offset : picked unpack b last before offset [] offset
| picked_cons before offset s v len l offset' : buf_slice b (Some offset) last = Ok s -> unpack before (zlen before) s = Ok (v, Some len) ->
    picked unpack b last (before ++ [v]) (offset + len) l offset' -> picked unpack b last before offset (v :: l) offset'.
