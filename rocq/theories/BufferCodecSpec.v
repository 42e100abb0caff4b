(** Specification vocabulary: which values a field built by the field builders can store. *)
From Verif Require Import Base IntCodec CodecSpec Stream Marshal FieldSpec Range RangeSpec IoBuffer IoSpec Serialize SerializeSpec
  RefEngine RefSpec BufferModel BufferSpec BufferMacros.
From Coq Require Import ZArith List Bool String.
Import ListNotations.
Open Scope list_scope.
Open Scope Z_scope.

(** The object with attributes [a] is packed as [bytes]; unpacking exactly these bytes (anything that
    starts with them) gives an equal new object, and says that [n] bits were used. *)
Definition object_packs (C : cls) (a : attrs) (bytes : list Z) : Prop :=
  bytes_ok bytes /\ fst (buffer_pack C a) = Ok bytes.
Definition restores_exact (nm : name) (C : cls) (a : attrs) (bytes : list Z) (n : Z) : Prop :=
  object_packs C a bytes
  /\ forall b, view_with b (bits_of_bytes bytes) -> unpack_buffer nm C b = Ok (VObj nm a, Some n).
Definition restores_prefix (nm : name) (C : cls) (a : attrs) (bytes : list Z) (n : Z) : Prop :=
  object_packs C a bytes
  /\ forall b rest, view_with b (bits_of_bytes bytes ++ rest) -> unpack_buffer nm C b = Ok (VObj nm a, Some n).

(** White space among the ASCII characters: what str.strip() without arguments removes. *)
Definition white : list Z := [9; 10; 11; 12; 13; 28; 29; 30; 31; 32].
(** A JSON text: ASCII, neither empty nor with white space or a NUL at either end. *)
Definition json_text (s : list Z) : Prop :=
  is_ascii s /\ (exists c r, s = c :: r /\ ~ In c white) /\ exists r c, s = r ++ [c] /\ ~ In c white /\ c <> 0.

(** What elements of a list fill [w] bits each. *)
Inductive stores_elem : elem_type -> Z -> value -> Prop :=
| se_int h s signed e z : struct_width e s -> int_fits signed (8 * width_in_bytes s) z ->
    stores_elem (EInt h (8 * width_in_bytes s) signed e) (8 * width_in_bytes s) (VInt z)
| se_bits h w signed e z : odd_width w -> 0 < w -> 0 <= z < 2 ^ w -> stores_elem (EInt h w signed e) w (VInt z)
| se_buffer nm C a bytes : restores_prefix nm C a bytes (8 * zlen bytes) -> bytes <> [] ->
    stores_elem (EBuffer nm C) (8 * zlen bytes) (VObj nm a).

(** [stores f psize uargs w v used]: in a place of [w] bits the field stores [v]; unpacking says that
    [used] bits were used.  [psize] is the byte_size (in bits) for the packer, None if the place is as
    large as what is packed; [uargs] are the extra arguments of the unpacker. *)
Inductive stores : field -> option Z -> list rv -> Z -> value -> Z -> Prop :=
| st_int h e signed n k s uargs z : struct_width e s -> int_fits signed (8 * width_in_bytes s) z ->
    stores (int_field h e signed n k) (Some (8 * width_in_bytes s)) uargs (8 * width_in_bytes s) (VInt z) (8 * width_in_bytes s)
| st_bits h e signed n k w uargs z : odd_width w -> 0 < w -> 0 <= z < 2 ^ w ->
    stores (int_field h e signed n k) (Some w) uargs w (VInt z) w
| st_float h e n k uargs p : float_representable (mkFFmt (base_endian e) F32) p ->
    stores (float_field h e n k) (Some 32) uargs 32 (VFloat p) 32
| st_str c strip j k n uargs s : 0 <= n -> zlen s <= n -> is_byte c -> is_ascii s -> no_strip j (c :: strip) s ->
    stores (str_field (ABytes [c]) (ABytes strip) j k) (Some (8 * n)) uargs (8 * n) (VStr s) (8 * n)
| st_str_open c strip j k uargs s : is_byte c -> is_ascii s -> no_strip j (c :: strip) s ->
    stores (str_field (ABytes [c]) (ABytes strip) j k) None uargs (8 * zlen s) (VStr s) (8 * zlen s)
| st_bytes k psize uargs l : bytes_ok l -> stores (bytearray_field k) psize uargs (8 * zlen l) (VBytes l) (8 * zlen l)
| st_json dumps loads k n uargs s v : json_text s -> zlen s <= n -> dumps v = Ok s -> loads s = Ok v ->
    stores (json_field dumps loads k) (Some (8 * n)) uargs (8 * n) v (8 * n)
| st_json_open dumps loads k uargs s v : json_text s -> dumps v = Ok s -> loads s = Ok v ->
    stores (json_field dumps loads k) None uargs (8 * zlen s) v (8 * zlen s)
| st_buffer nm C k psize uargs a bytes n : restores_exact nm C a bytes n ->
    stores (buffer_field nm C None None k) psize uargs (8 * zlen bytes) (VObj nm a) n
| st_list t count k psize uargs l ws : Forall2 (stores_elem t) ws l ->
    uargs = [RVal VNone] \/ uargs = [RVal (VInt (zlen l))] ->
    stores (list_field t count None k) psize uargs (fold_right Z.add 0 ws) (VList l) (fold_right Z.add 0 ws).

(** Field [f] is unconditional, has the same fixed place [r] in both directions and no hooks, and
    stores [v] there. *)
Definition slot (C : cls) (f : field) (r : list srange) (v : value) : Prop :=
  static (nodes C) (f_where_pack f) (RRanges r) /\ static (nodes C) (f_where_unpack f) (RRanges r)
  /\ (exists c, static (nodes C) (f_pack_if f) c /\ truthy c = true)
  /\ (exists c, static (nodes C) (f_unpack_if f) c /\ truthy c = true)
  /\ f_before f = None /\ f_after f = None
  /\ (f_size f = None \/ f_size f = Some (zlen (all_positions r)))
  /\ exists uargs used, Forall2 (static_arg C) (f_unpack_args f) uargs
     /\ stores f (Some (zlen (all_positions r))) uargs (zlen (all_positions r)) v used.

(** The attributes of an object are those of the fields of its class. *)
Definition instance (C : cls) (a : attrs) : Prop := map fst a = map f_name (k_fields C).

(** The fields a class body can declare with the builders of buffer/macros.py; classes of nested
    objects are made of such fields too.  A padding is made of bytes. *)
Definition bytes_arg (a : strarg) : Prop := match a with ABytes l => bytes_ok l | AText _ => True end.
Inductive predefined : field -> Prop :=
| pre_int h e signed n k : predefined (int_field h e signed n k)
| pre_float h e n k : predefined (float_field h e n k)
| pre_bytearray k : predefined (bytearray_field k)
| pre_str padding strip j k : bytes_arg padding -> predefined (str_field padding strip j k)
| pre_json dumps loads k : predefined (json_field dumps loads k)
| pre_buffer nm C sel n k : Forall predefined (k_fields C) -> predefined (buffer_field nm C sel n k)
| pre_list t n sel k : predefined_elem t -> predefined (list_field t n sel k)
with predefined_elem : elem_type -> Prop :=
| pre_eint h bits signed e : predefined_elem (EInt h bits signed e)
| pre_estr padding strip j bits : bytes_arg padding -> predefined_elem (EStr padding strip j bits)
| pre_ebuffer nm C : Forall predefined (k_fields C) -> predefined_elem (EBuffer nm C).
