(** C85: how field declarations understand their arguments. *)
From Verif Require Import Base Marshal IntCodec IoBuffer Serialize RefEngine BufferModel Declare DeclareSpec DeclareFacts DeclareKeywords IntCodec CodecSpec SerializeSpec DeclareNoEndian DeclareKinds.
From Verif Require RefOps.
From Coq Require Import ZArith List Bool String.
Import ListNotations.
Open Scope string_scope.
Open Scope list_scope.
Open Scope Z_scope.

(** ** C85: a declaration that is accepted means what its arguments say *)

Theorem C85_means : forall F sig cond, In (F, sig, cond) builders -> forall static args kw d, F static args kw = Ok d ->
  well_called sig args kw /\ cond args kw /\ says d (argument sig args kw).
Proof. intros F sig cond H static args kw d. exact (builders_say F sig cond static args kw d H). Qed.
Print Assumptions C85_means.

Theorem C85_accepts : forall F sig cond, In (F, sig, cond) builders -> forall static args kw, well_called sig args kw -> cond args kw ->
  let arg := argument sig args kw in
  forall rp ru l, positions (arg "where") (arg "where_when_pack") (arg "where_when_unpack") rp ru -> (exists n, static ru = Ok n) ->
  (forall r, ~ refers (arg "set_after_unpack") r) -> named_fields (arg "unpack_after") l ->
  exists d, F static args kw = Ok d.
Proof. intros F sig cond H static args kw W C arg rp ru l. exact (builders_accept F sig cond static args kw rp ru l H W C). Qed.
Print Assumptions C85_accepts.

(** A misspelt keyword, a missing [type], too many positional arguments. *)
Theorem C85_rejects_calls : forall F sig cond, In (F, sig, cond) builders -> forall static args kw,
  ~ well_called sig args kw -> F static args kw = Err TypeError.
Proof. intros F sig cond H static args kw. exact (builders_reject F sig cond static args kw H). Qed.
Print Assumptions C85_rejects_calls.

(** No position; two positions. *)
Theorem C85_rejects_positions : forall F sig cond, In (F, sig, cond) builders -> forall static args kw, well_called sig args kw -> cond args kw ->
  let arg := argument sig args kw in
  (arg "where" = PNone -> arg "where_when_pack" = PNone \/ arg "where_when_unpack" = PNone -> F static args kw = Err ValueError)
  /\ (forall r, refers (arg "where") r -> arg "where_when_pack" <> PNone \/ arg "where_when_unpack" <> PNone -> F static args kw = Err AssertionError).
Proof.
  intros F sig cond H static args kw W C arg. split.
  - exact (builders_no_position F sig cond static args kw H W C).
  - intros r. exact (builders_two_positions F sig cond static args kw r H W C).
Qed.
Print Assumptions C85_rejects_positions.

(** An empty argument is no position. *)
Definition empty_arg (a : pyarg) : Prop := In a [PNone; PText ""; PFields []; PVal VNone; PVal (VInt 0); PVal (VList []); PVal (VBytes []); PVal (VStr [])].
Theorem C85_rejects_empty_positions : forall F sig cond, In (F, sig, cond) builders -> forall static args kw, well_called sig args kw -> cond args kw ->
  let arg := argument sig args kw in
  empty_arg (arg "where") -> empty_arg (arg "where_when_pack") \/ empty_arg (arg "where_when_unpack") -> F static args kw = Err ValueError.
Proof.
  intros F sig cond H static args kw W C arg. apply (builders_empty_position F sig cond static args kw H W C).
Qed.
Print Assumptions C85_rejects_empty_positions.

(** Positions that are no references, and unpack_after that names something else than fields. *)
Theorem C85_rejects_arguments : forall F sig cond, In (F, sig, cond) builders -> forall static args kw, well_called sig args kw -> cond args kw ->
  let arg := argument sig args kw in
  (truthy_arg (arg "where") = true -> (forall r, ~ refers (arg "where") r) -> arg "where_when_pack" = PNone -> arg "where_when_unpack" = PNone ->
     F static args kw = Err AttributeError)
  /\ (arg "where" = PNone -> truthy_arg (arg "where_when_pack") = true -> truthy_arg (arg "where_when_unpack") = true ->
     (forall r, ~ refers (arg "where_when_unpack") r) -> F static args kw = Err AttributeError)
  /\ (forall rp ru, positions (arg "where") (arg "where_when_pack") (arg "where_when_unpack") rp ru -> (exists n, static ru = Ok n) ->
     (forall r, ~ refers (arg "set_after_unpack") r) -> (forall l, ~ named_fields (arg "unpack_after") l) -> F static args kw = Err AssertionError).
Proof.
  intros F sig cond H static args kw W C arg. destruct (builders_no_reference F sig cond static args kw H W C) as [N1 N2]. split; [exact N1|]. split; [exact N2|].
  intros rp ru. exact (builders_not_after F sig cond static args kw rp ru H W C).
Qed.
Print Assumptions C85_rejects_arguments.

(** An integer field encodes with the sign, the endianness and the size it was declared with. *)
Theorem C85_integer : forall static args kw d s e size, int_field static args kw = Ok d ->
  let arg := argument int_sig args kw in
  sign_named (arg "sign") = Ok s -> endian_named (arg "endian") = Ok e -> arg_bits (arg "byte_size") = Ok size ->
  (forall h n v, pack_int_kw h (kwargs_at n (d_pack_kw d)) v = pack_int h s e (size_at size n) v)
  /\ (forall h n b, unpack_int_kw h (kwargs_at n (d_unpack_kw d)) b = unpack_int h s e (size_at size n) b).
Proof. intros static args kw d s e size D arg S E B. exact (proj2 (proj2 (int_field_codec static args kw d s e size D S E B))). Qed.
Print Assumptions C85_integer.

(** The names that are allowed. *)
Theorem C85_names : forall n,
  (sign_named (PText n) = Ok true <-> n = "signed") /\ (sign_named (PText n) = Ok false <-> n = "unsigned")
  /\ (n <> "signed" -> n <> "unsigned" -> sign_named (PText n) = Err AssertionError)
  /\ (endian_named (PText n) = Ok BBig <-> n = "big") /\ (endian_named (PText n) = Ok BLittle <-> n = "little")
  /\ (endian_named (PText n) = Ok BNative <-> n = "native") /\ (endian_named (PText n) = Ok BUnspecified <-> n = "unspecified")
  /\ (n <> "big" -> n <> "little" -> n <> "native" -> n <> "unspecified" -> endian_named (PText n) = Err AssertionError)
  /\ sign_named PNone = Err AssertionError /\ endian_named PNone = Err AssertionError
  /\ (forall l, endian_named (PFields l) = Err TypeError) /\ (forall l, endian_named (PVal (VList l)) = Err TypeError).
Proof.
  intros n. unfold sign_named, endian_named.
  destruct (String.eqb_spec n "signed") as [->|A1]; [cbn; repeat split; intros; first [reflexivity|discriminate|congruence]|]. destruct (String.eqb_spec n "unsigned") as [->|A2]; [cbn; repeat split; intros; first [reflexivity|discriminate|congruence]|].
  destruct (String.eqb_spec n "unspecified") as [->|A3]; [cbn; repeat split; intros; first [reflexivity|discriminate|congruence]|]. destruct (String.eqb_spec n "native") as [->|A4]; [cbn; repeat split; intros; first [reflexivity|discriminate|congruence]|].
  destruct (String.eqb_spec n "big") as [->|A5]; [cbn; repeat split; intros; first [reflexivity|discriminate|congruence]|]. destruct (String.eqb_spec n "little") as [->|A6]; cbn; repeat split; intros; first [reflexivity|discriminate|congruence].
Qed.
Print Assumptions C85_names.

(** The builders with a fixed sign or endianness. *)
Theorem C85_fixed : forall static args kw d size, arg_bits (argument int_sig args kw "byte_size") = Ok size ->
  let codec s e :=
    (forall h n v, pack_int_kw h (kwargs_at n (d_pack_kw d)) v = pack_int h s e (size_at size n) v)
    /\ (forall h n b, unpack_int_kw h (kwargs_at n (d_unpack_kw d)) b = unpack_int h s e (size_at size n) b) in
  (uint_field static args kw = Ok d -> forall e, endian_named (argument int_sig args kw "endian") = Ok e -> codec false e)
  /\ (be_int_field static args kw = Ok d -> forall s, sign_named (argument int_sig args kw "sign") = Ok s -> codec s BBig)
  /\ (le_int_field static args kw = Ok d -> forall s, sign_named (argument int_sig args kw "sign") = Ok s -> codec s BLittle)
  /\ (be_uint_field static args kw = Ok d -> codec false BBig)
  /\ (le_uint_field static args kw = Ok d -> codec false BLittle).
Proof.
  intros static args kw d size B. split; [|split; [|split; [|split]]].
  - intros D e E. exact (uint_field_codec static args kw d e size D E B).
  - intros D s S. exact (fixed_endian_codec "big" BBig static args kw d s size eq_refl D S B).
  - intros D s S. exact (fixed_endian_codec "little" BLittle static args kw d s size eq_refl D S B).
  - intros D. exact (fixed_both_codec "big" BBig static args kw d size eq_refl D B).
  - intros D. exact (fixed_both_codec "little" BLittle static args kw d size eq_refl D B).
Qed.
Print Assumptions C85_fixed.

(** A name of an endianness that does not exist is not noticed by the declaration: it has a say only
    when a field of 1, 2, 4 or 8 bytes is packed or unpacked, and then nothing can be. *)
Theorem C85_bad_endian_refuted : forall static args kw d s x size, int_field static args kw = Ok d ->
  let arg := argument int_sig args kw in
  sign_named (arg "sign") = Ok s -> endian_named (arg "endian") = Err x -> arg_bits (arg "byte_size") = Ok size ->
  forall h n, In (size_at size n) [Some 8; Some 16; Some 32; Some 64] ->
  (forall v, pack_int_kw h (kwargs_at n (d_pack_kw d)) v = Err x) /\ (forall b, unpack_int_kw h (kwargs_at n (d_unpack_kw d)) b = Err x).
Proof. exact bad_endian. Qed.
Print Assumptions C85_bad_endian_refuted.

(** The elements of a list of integers are encoded as their type says, whatever keywords the list passes on. *)
Theorem C85_elements : forall bytes sign endian s e kw, sign_named (PText sign) = Ok s -> endian_named (PText endian) = Ok e -> NoDup (map fst kw) ->
  (forall h v, pack_int_kw h (keep_kwargs (int_marshal_kw bytes sign endian) kw) v = int_marshal_pack h (8 * bytes) s e v)
  /\ (forall h n b, unpack_int_kw h (keep_kwargs (int_marshal_kw bytes sign endian) kw) b = int_marshal_unpack h (8 * bytes) s e n b).
Proof. exact element_codec. Qed.
Print Assumptions C85_elements.

(** What the codecs of the other builders are called with: strings with the text options of the
    declaration; floats with its endianness and with its size if it gives one, and otherwise with the
    length of the field; nested objects with their class, or with a size if one is declared (and then without the class);
    lists with the type of their elements, their count and, when unpacking, the selector if one is declared. *)
Theorem C85_str_keywords : forall static args kw d, str_field static args kw = Ok d ->
  d_packer d = CStr /\ d_unpacker d = CStr
  /\ forall n k, In k ["encoding"; "padding"; "strip"; "justify"] ->
     passed n (d_pack_kw d) k = argument str_sig args kw k /\ passed n (d_unpack_kw d) k = argument str_sig args kw k.
Proof. exact str_keywords. Qed.
Print Assumptions C85_str_keywords.
Theorem C85_float_keywords : forall static args kw d, float_field static args kw = Ok d ->
  d_packer d = CFloat /\ d_unpacker d = CFloat
  /\ (forall n, passed n (d_pack_kw d) "endian" = argument float_sig args kw "endian" /\ passed n (d_unpack_kw d) "endian" = argument float_sig args kw "endian")
  /\ (argument float_sig args kw "byte_size" = PNone ->
        forall n, passed n (d_pack_kw d) "byte_size" = size_arg n /\ passed n (d_unpack_kw d) "byte_size" = size_arg n)
  /\ (forall k, k <> 0 -> argument float_sig args kw "byte_size" = PVal (VInt k) ->
        forall n, passed n (d_pack_kw d) "byte_size" = PVal (VInt k) /\ passed n (d_unpack_kw d) "byte_size" = PVal (VInt k)).
Proof. exact float_keywords. Qed.
Print Assumptions C85_float_keywords.
Theorem C85_buffer_keywords : forall static args kw d, buffer_field static args kw = Ok d ->
  d_packer d = CBuffer
  /\ (argument buffer_sig args kw "unpack_selector" = PNone -> d_unpacker d = CBuffer)
  /\ (forall s, argument buffer_sig args kw "unpack_selector" = PSelector s -> d_unpacker d = CSelector (PSelector s))
  /\ (argument buffer_sig args kw "byte_size" = PNone -> forall n,
        passed n (d_pack_kw d) "type" = argument buffer_sig args kw "type" /\ passed n (d_unpack_kw d) "type" = argument buffer_sig args kw "type"
        /\ passed n (d_pack_kw d) "byte_size" = size_arg n /\ passed n (d_unpack_kw d) "byte_size" = size_arg n)
  /\ (forall k, k <> 0 -> argument buffer_sig args kw "byte_size" = PVal (VInt k) -> forall n,
        passed n (d_pack_kw d) "type" = PNone /\ passed n (d_unpack_kw d) "type" = PNone
        /\ passed n (d_pack_kw d) "byte_size" = PVal (VInt k) /\ passed n (d_unpack_kw d) "byte_size" = PVal (VInt k)).
Proof. exact buffer_keywords. Qed.
Print Assumptions C85_buffer_keywords.
Theorem C85_list_keywords : forall static args kw d, list_field static args kw = Ok d ->
  d_packer d = CList /\ d_unpacker d = CList
  /\ forall n, passed n (d_pack_kw d) "elem_packer" = argument list_sig args kw "type"
     /\ passed n (d_unpack_kw d) "n" = argument list_sig args kw "n"
     /\ (argument list_sig args kw "unpack_selector" = PNone -> passed n (d_unpack_kw d) "elem_unpacker" = argument list_sig args kw "type")
     /\ (forall s, argument list_sig args kw "unpack_selector" = PSelector s -> passed n (d_unpack_kw d) "elem_unpacker" = PSelector s).
Proof. exact list_keywords. Qed.
Print Assumptions C85_list_keywords.

(** An endianness that is None or the empty text is not noticed either: an integer of, say, three bytes
    is then packed with its low byte first but unpacked with its high byte first, so that bytes [l]
    are packed for the number that they are in one order, and unpacked as the number that they are
    in the other. *)
Theorem C85_no_endian_refuted : forall static args kw d size, int_field static args kw = Ok d ->
  let arg := argument int_sig args kw in
  (arg "endian" = PNone \/ arg "endian" = PText "") -> arg_bits (arg "byte_size") = Ok size ->
  forall h n l, bytes_ok l -> l <> [] -> size_at size n = Some (8 * zlen l) -> odd_width (8 * zlen l) ->
  (exists b, pack_int_kw h (kwargs_at n (d_pack_kw d)) (VInt (le_value l)) = Ok b /\ view_with b (bits_of_bytes l))
  /\ (forall rest b, view_with b (bits_of_bytes l ++ rest) ->
        unpack_int_kw h (kwargs_at n (d_unpack_kw d)) b = Ok (VInt (le_value (rev l)), Some (8 * zlen l))).
Proof. exact no_endian. Qed.
Print Assumptions C85_no_endian_refuted.

(** The builders declare numbers and other values as their names say, and each uses its own codec in both
    directions (nested objects with a selector: C85_buffer_keywords). *)
Theorem C85_kinds : forall F numeric p, In (F, numeric, p) kinds -> forall static args kw d, F static args kw = Ok d ->
  d_numeric d = numeric /\ d_packer d = p /\ (p <> CBuffer -> d_unpacker d = p).
Proof. exact declared_kinds. Qed.
Print Assumptions C85_kinds.
(** What follows for expressions: a declared number can be calculated with, and with a declared string,
    list, object or piece of bytes and a number there is no arithmetic: the class body raises TypeError. *)
Theorem C85_arithmetic : forall F numeric p, In (F, numeric, p) kinds -> forall static args kw d, F static args kw = Ok d ->
  forall id c op x, RefOps.is_number x = true ->
  let field := RefOps.RLeaf (RefOps.mkLeaf id c (d_numeric d)) in
  (numeric = true -> RefOps.py_binop op (RefOps.PRefr field) (RefOps.PConst x) = Ok (RefOps.PRefr (RefOps.RBin op field (RefOps.RObj x))))
  /\ (numeric = false -> RefOps.is_comparison op = false ->
        RefOps.py_binop op (RefOps.PRefr field) (RefOps.PConst x) = Err TypeError /\ RefOps.py_binop op (RefOps.PConst x) (RefOps.PRefr field) = Err TypeError).
Proof.
  intros F numeric p I static args kw d D id c op x X field. destruct (declared_kinds _ _ _ I _ _ _ _ D) as (N & _). subst field.
  unfold RefOps.py_binop, RefOps.rmethod, RefOps.method, RefOps.check. cbn [RefOps.is_numeric RefOps.l_numeric RefOps.to_ref]. rewrite N, X. split.
  - intros ->. reflexivity.
  - intros -> O. rewrite O. split; reflexivity.
Qed.
Print Assumptions C85_arithmetic.
Theorem C85_json_keywords : forall static args kw d, json_field static args kw = Ok d -> forall n,
  Forall (fun k => passed n k "encoding" = PText "ascii" /\ passed n k "padding" = PVal (VBytes [32]) /\ passed n k "strip" = PVal (VBytes [0])
    /\ passed n k "justify" = PText "left" /\ passed n k "byte_size" = size_arg n) [d_pack_kw d; d_unpack_kw d].
Proof. exact json_keywords. Qed.
Print Assumptions C85_json_keywords.
Theorem C85_bytearray_keywords : forall static args kw d, bytearray_field static args kw = Ok d -> forall n,
  passed n (d_pack_kw d) "byte_size" = size_arg n /\ passed n (d_unpack_kw d) "byte_size" = size_arg n.
Proof. exact bytearray_keywords. Qed.
Print Assumptions C85_bytearray_keywords.

(** ** Cases *)
Definition pos : rid := mkRid KField 7.
Definition no_static (r : rid) : res (option Z) := Ok None.
(** be_uint_field(where=ref, byte_size=2, endian="little", unpack_after=[...]): the endianness is the builder's. *)
Definition kw_be : kwargs := [("where", PRef pos); ("byte_size", PVal (VInt 2)); ("endian", PText "little"); ("unpack_after", PField 3)].
Example C85_nonvacuous : exists d, be_uint_field no_static [] kw_be = Ok d /\ d_where_pack d = pos /\ d_unpack_after d = [3%nat]
  /\ (forall h n, pack_int_kw h (kwargs_at n (d_pack_kw d)) (VInt 258) = Ok (BArr [1; 2])).
Proof.
  eexists. split; [vm_compute; reflexivity|]. split; [reflexivity|]. split; [reflexivity|]. intros h n. destruct h; reflexivity.
Qed.
Example C85_nonvacuous_called : well_called int_sig [] kw_be /\ well_called int_sig [PText "big"] [("where_when_pack", PRef pos); ("where_when_unpack", PField 1)].
Proof. split; (apply (bind_ok int_sig); [exact nd_int|]); eexists; vm_compute; reflexivity. Qed.
Example C85_nonvacuous_typo : ~ well_called int_sig [] [("where", PRef pos); ("byte_sise", PVal (VInt 2))]
  /\ be_uint_field no_static [] [("where", PRef pos); ("byte_sise", PVal (VInt 2))] = Err TypeError
  /\ buffer_field no_static [] [("where", PRef pos)] = Err TypeError
  /\ be_uint_field no_static [PText "big"] [("where", PRef pos)] = Err TypeError.
Proof.
  split; [|split; [|split]; vm_compute; reflexivity]. intros W. apply (bind_ok int_sig) in W; [|exact nd_int]. destruct W as [b W]. vm_compute in W. discriminate.
Qed.
Example C85_nonvacuous_positions : uint_field no_static [] [("byte_size", PVal (VInt 2))] = Err ValueError
  /\ uint_field no_static [] [("where", PRef pos); ("where_when_unpack", PField 1)] = Err AssertionError.
Proof. split; vm_compute; reflexivity. Qed.
Example C85_nonvacuous_arguments : uint_field no_static [] [("where", PVal (VInt 5))] = Err AttributeError
  /\ uint_field no_static [] [("where_when_pack", PRef pos); ("where_when_unpack", PText "x")] = Err AttributeError
  /\ uint_field no_static [] [("where", PRef pos); ("unpack_after", PText "x")] = Err AssertionError.
Proof. repeat split; vm_compute; reflexivity. Qed.
Example C85_nonvacuous_bad_endian : exists d, int_field no_static [] [("where", PRef pos); ("endian", PText "Big"); ("byte_size", PVal (VInt 4))] = Ok d
  /\ endian_named (PText "Big") = Err AssertionError.
Proof. eexists. split; vm_compute; reflexivity. Qed.
Example C85_nonvacuous_no_endian : exists d, int_field no_static [] [("where", PRef pos); ("endian", PNone); ("byte_size", PVal (VInt 3))] = Ok d
  /\ le_value [1; 2; 3] = 197121 /\ le_value (rev [1; 2; 3]) = 66051 /\ odd_width (8 * zlen [1; 2; 3])
  /\ forall h, unpack_int_kw h (kwargs_at None (d_unpack_kw d)) (BView (BArr [1; 2; 3]) 0 24) = Ok (VInt 66051, Some 24).
Proof. eexists. split; [vm_compute; reflexivity|]. split; [reflexivity|]. split; [reflexivity|]. split; [vm_compute; intuition discriminate|]. intros h; destruct h; reflexivity. Qed.
Example C85_nonvacuous_elements : forall h, pack_int_kw h (keep_kwargs (int_marshal_kw 2 "unsigned" "big") [("byte_size", PVal (VInt 7)); ("endian", PText "little")]) (VInt 258) = Ok (BArr [1; 2]).
Proof. intros h. destruct h; reflexivity. Qed.
(** list_field(where=ref, type=T, n=3, unpack_selector=s), str_field(where=ref, encoding="ascii", justify="right"). *)
Example C85_nonvacuous_list : exists d, list_field no_static [] [("where", PRef pos); ("type", PType 4); ("n", PVal (VInt 3)); ("unpack_selector", PSelector 6)] = Ok d
  /\ passed None (d_unpack_kw d) "n" = PVal (VInt 3) /\ passed None (d_unpack_kw d) "elem_unpacker" = PSelector 6 /\ passed None (d_pack_kw d) "elem_packer" = PType 4.
Proof. eexists. split; [vm_compute; reflexivity|]. repeat split. Qed.
Example C85_nonvacuous_str : exists d, str_field no_static [] [("where", PRef pos); ("encoding", PText "ascii"); ("justify", PText "right")] = Ok d
  /\ passed None (d_pack_kw d) "encoding" = PText "ascii" /\ passed None (d_unpack_kw d) "justify" = PText "right".
Proof. eexists. split; [vm_compute; reflexivity|]. repeat split. Qed.
Example C85_nonvacuous_sized : (exists d, float_field no_static [] [("where", PRef pos); ("endian", PText "big"); ("byte_size", PVal (VInt 4))] = Ok d)
  /\ exists d, buffer_field no_static [] [("where", PRef pos); ("type", PType 2); ("byte_size", PVal (VInt 4)); ("unpack_selector", PSelector 1)] = Ok d.
Proof. split; eexists; vm_compute; reflexivity. Qed.
Example C85_nonvacuous_kinds : (exists d, le_uint_field no_static [] [("where", PRef pos); ("byte_size", PVal (VInt 2))] = Ok d /\ d_numeric d = true)
  /\ (exists d, json_field no_static [] [("where", PRef pos)] = Ok d /\ d_packer d = CJson) /\ exists d, bytearray_field no_static [] [("where", PRef pos)] = Ok d /\ d_numeric d = false.
Proof. split; [|split]; eexists; split; vm_compute; reflexivity. Qed.
