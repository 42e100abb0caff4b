(** Specification vocabulary for the functions that fields are declared with. *)
From Verif Require Import Base IntCodec Stream MinMax Marshal Formats Macros.
From Coq Require Import ZArith List Bool String.
Import ListNotations.
Open Scope Z_scope.

(** A field called [n]: an object whose attribute [n] is [v] is written as [enc]; reading [enc],
    wherever it stands, stores [w] under [n], stops behind it and changes nothing else. *)
Definition field_holds (h : host) (f : field) (n : name) (v w : value) (enc : list Z) : Prop :=
  (forall a out, lookup a n = Some v -> write_field h f a out = (Ok tt, out ++ enc))
  /\ forall cls cctx c a pre tail,
       read_field h cls cctx f c (SBytesIO (pre ++ enc ++ tail) (zlen pre), a)
       = (Ok tt, (SBytesIO (pre ++ enc ++ tail) (zlen pre + zlen enc), set_attr a n w)).

(** [declares f n d]: [f] was declared with the name [n] and the default [d]. *)
Inductive declares : field -> name -> value -> Prop :=
| dec_number m n d : declares (MarshalWithField_call m n d) n d
| dec_padded n size p dir d f : PaddedString n size p dir d = Ok f -> declares f n d
| dec_buffer n size d f : FixedSizeBuffer n size d = Ok f -> declares f n d
| dec_varstr n sz p dir d f : VarSizeString n sz p dir d = Ok f -> declares f n d
| dec_varbuf n sz d f : VarSizeBuffer n sz d = Ok f -> declares f n d
| dec_fixarr n k el d f : FixedSizeArray n k el d = Ok f -> declares f n d
| dec_sumarr n sz el d f : SumSizeArray n sz el d = Ok f -> declares f n d
| dec_vararr n sz el d f : VarSizeArray n sz el d = Ok f -> declares f n d
| dec_bits n w d bs f : BitFields bs = Ok f -> In (BitField n w d) bs ->
    (forall n' w' d', In (BField n' w' d') bs -> n' = n -> d' = d) -> (* the name is used once *)
    (forall m k, ~ In (BConst n m k) bs) -> declares f n d
| dec_flag n d bs f : BitFields bs = Ok f -> In (BitFlag n d) bs ->
    (forall n' w' d', In (BField n' w' d') bs -> n' = n -> d' = d) ->
    (forall m k, ~ In (BConst n m k) bs) -> declares f n d.

(** The bit positions given for a bit field. *)
Definition slices_of (w : bitsize) : list (Z * Z) :=
  match w with WInt _ => [] | WSlice s => [s] | WList l => l end.
