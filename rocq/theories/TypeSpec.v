(** Vocabulary for property C112: the kinds of values fields take. *)
From Verif Require Import Base IntCodec Stream MinMax Marshal.
From Coq Require Import ZArith List Bool String.
Import ListNotations.
Open Scope Z_scope.

(** What a loop over a value sees: the elements of a list, the numbers in a byte string, the one-character
    strings of a string. *)
Inductive elements : value -> list value -> Prop :=
| el_list l : elements (VList l) l
| el_bytes b : elements (VBytes b) (map VInt b)
| el_str s : elements (VStr s) (map (fun c => VStr [c]) s).

(** The entry of a table under a key; Python compares keys with [==]. *)
Definition entry (tbl : list (value * value)) (k w : value) : Prop :=
  exists k', In (k', w) tbl /\ py_eq k' k = true.

(** The value a field of an object has: the attribute or, if there is none, the default. *)
Definition value_of (n : name) (d : value) (a : attrs) (v : value) : Prop :=
  lookup a n = Some v \/ (lookup a n = None /\ v = d).

(** Values for fields of bits: integers, or keys of a table whose entries are such; padding takes anything. *)
Inductive bit_kind : bitmarshal -> value -> Prop :=
| bk_bits n z : bit_kind (BMBits n) (VInt z)
| bk_pad n v : bit_kind (BMPad n) v
| bk_map tbl m v w : entry tbl v w -> bit_kind m w -> bit_kind (BMMap tbl m) v
| bk_pos sl z : bit_kind (BMPos sl) (VInt z).
Inductive bitfield_kind (a : attrs) : bitfield -> Prop :=
| bfk_field n m d v : value_of n d a v -> bit_kind m v -> bitfield_kind a (BField n m d)
| bfk_anon m : bit_kind m VNone -> bitfield_kind a (BAnon m)
| bfk_const n m k : bit_kind m k -> bitfield_kind a (BConst n m k).

(** [kind m v]: [v] is of a kind that a field declared as [m] can hold - only the Python types count, not the
    size of numbers or the length of strings. *)
Inductive kind : marshal -> value -> Prop :=
| k_int f z : kind (MInt f) (VInt z)
| k_float f p : kind (MFloat f) (VFloat p)
| k_float_int f z : kind (MFloat f) (VInt z)
| k_const k v : kind (MConst k) v
| k_call f v : kind (MCall f) v
| k_ptr n v : kind (MPtr n) v
| k_varstr sz p d b : kind (MVarStr sz p d) (VBytes b)
| k_padstr n p d b : kind (MPadStr n p d) (VBytes b)
| k_bytepad n ch v : kind (MBytePad n ch) v
| k_vararr sz el v l : elements v l -> kinds el l -> kind (MVarArr sz el) v
| k_fixarr n el v l : elements v l -> kinds el l -> kind (MFixArr n el) v
| k_sumarr sz el v l : elements v l -> kinds el l -> kind (MSumArr sz el) v
| k_map tbl m v w : entry tbl v w -> kind m w -> kind (MMap tbl m) v
| k_struct cls c fs a : fields_kind a fs -> kind (MStruct cls c fs) (VObj cls a)
| k_sel key mapping d cls a m : In m (map snd mapping) \/ d = Some m -> kind m (VObj cls a) ->
    kind (MSel key mapping d) (VObj cls a)
| k_funsel choices func mm cls a m : In m choices -> kind m (VObj cls a) ->
    kind (MFunSel choices func mm) (VObj cls a)
with kinds : marshal -> list value -> Prop :=
| ks_nil m : kinds m []
| ks_cons m v l : kind m v -> kinds m l -> kinds m (v :: l)
with field_kind : attrs -> field -> Prop :=
| fk_field a n m d v : value_of n d a v -> kind m v -> field_kind a (FField n m d)
| fk_anon a m : kind m VNone -> field_kind a (FAnon m)
| fk_const a n m k : kind m k -> field_kind a (FConst n m k)
| fk_opt_none a n m p d : value_of n d a VNone -> field_kind a (FOpt n m p d)
| fk_opt a n m p d v : value_of n d a v -> kind m v -> field_kind a (FOpt n m p d)
| fk_group a fs : fields_kind a fs -> field_kind a (FGroup fs)
| fk_bits a bs : Forall (bitfield_kind a) bs -> field_kind a (FBits bs)
| fk_posbits a n bs : Forall (bitfield_kind a) bs -> field_kind a (FPosBits n bs)
with fields_kind : attrs -> list field -> Prop :=
| fsk_nil a : fields_kind a []
| fsk_cons a f r : field_kind a f -> fields_kind a r -> fields_kind a (f :: r).
