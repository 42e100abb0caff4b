(** Model of how the field builders of buffer/macros.py understand their arguments: macros.py:79-322,
    utils/kwargs.py:1-26, field_reference_builder.py:126-245 and the keyword front end of
    serialize.py:15-120.  (BufferMacros.v starts from arguments that have been understood.)

    Simplifications: arguments of the packers that are references are left out here (BufferMacros.v
    has the one that matters, [n] of list_field); a class, a pair of marshals and a selector are
    opaque; a float argument is a number of eighths that is not integral. *)
From Verif Require Import Base IntCodec Stream Marshal Range IoBuffer Serialize RefEngine BufferModel.
From Coq Require Import ZArith List Bool String.
Import ListNotations.
Open Scope string_scope.
Open Scope list_scope.
Open Scope Z_scope.

(** ** Python arguments *)
Inductive pyarg : Type :=
| PNone
| PText (s : string)                          (* str *)
| PVal (v : value)                            (* ints (bools as 0 and 1), bytes, lists, objects *)
| PFrac (bits : Z)                            (* a float that is no integer, in eighths *)
| PRef (r : rid)                              (* a Reference that is no field *)
| PField (i : nat)                            (* a FieldReference *)
| PFields (l : list nat)                      (* a list of them *)
| PFun (f : attrs -> res value * attrs)       (* a callable, for set_before_pack *)
| PFunV (f : value -> res value)              (* a callable, for set_after_unpack *)
| PType (n : nat) | PMarshal (n : nat) | PSelector (n : nat).

(** [bool(a)]; references and callables have no __bool__ or __len__. *)
Definition truthy_arg (a : pyarg) : bool :=
  match a with
  | PNone => false
  | PText s => negb (String.eqb s "")
  | PVal v => truthy (RVal v)
  | PFields l => match l with [] => false | _ => true end
  | _ => true
  end.
Definition is_none (a : pyarg) : bool := match a with PNone => true | _ => false end.
Definition is_reference (a : pyarg) : bool := match a with PRef _ | PField _ => true | _ => false end.

Definition kwargs : Type := list (name * pyarg).
(** [d[k] = v], [d.update(e)], [k in d] for any dict. *)
Fixpoint kset {A} (l : list (name * A)) (n : name) (v : A) : list (name * A) :=
  match l with
  | [] => [(n, v)]
  | (k, w) :: r => if String.eqb k n then (k, v) :: r else (k, w) :: kset r n v
  end.
Definition kupdate {A} (d e : list (name * A)) : list (name * A) := fold_left (fun d p => kset d (fst p) (snd p)) e d.
Definition khas {A} (d : list (name * A)) (k : name) : bool := match Marshal.lookup d k with Some _ => true | None => false end.
Definition kget (d : kwargs) (k : name) (default : pyarg) : pyarg := match Marshal.lookup d k with Some a => a | None => default end.

(** ** Calls *)
(** Parameters of a function with their defaults; how Python binds arguments to them. *)
Definition signature : Type := list (name * option pyarg).
Definition bind (sig : signature) (args : list pyarg) (kw : kwargs) : res kwargs :=
  if (List.length sig <? List.length args)%nat then Err TypeError
  else
    let given := combine (map fst sig) args in
    if existsb (fun p => negb (khas sig (fst p)) || khas given (fst p)) kw then Err TypeError
    else Marshal.rmap_list (fun p => match Marshal.lookup given (fst p), Marshal.lookup kw (fst p), snd p with
                                     | Some a, _, _ => Ok (fst p, a)
                                     | None, Some a, _ => Ok (fst p, a)
                                     | None, None, Some a => Ok (fst p, a)
                                     | None, None, None => Err TypeError
                                     end) sig.

(** The parameters all builders share; [condition] is the default of pack_if and unpack_if. *)
Definition common (condition : pyarg) : signature :=
  [("set_before_pack", Some PNone); ("set_after_unpack", Some PNone); ("pack_if", Some condition); ("unpack_if", Some condition);
   ("where", Some PNone); ("where_when_pack", Some PNone); ("where_when_unpack", Some PNone); ("unpack_after", Some PNone)].
Definition p_true : pyarg := PVal (VInt 1).
(** macros.py:79-88 *)
Definition int_sig : signature := [("endian", Some (PText "native")); ("sign", Some (PText "signed"))] ++ common p_true ++ [("byte_size", Some PNone); ("default", Some PNone)].
(** macros.py:134-143 *)
Definition float_sig : signature := [("endian", Some (PText "native"))] ++ common p_true ++ [("byte_size", Some PNone); ("default", Some PNone)].
(** macros.py:163-171, 213-221 *)
Definition bytearray_sig : signature := common PNone ++ [("default", Some PNone)].
(** macros.py:187-195 *)
Definition str_sig : signature :=
  [("encoding", Some (PText "ascii")); ("padding", Some (PVal (VBytes [32]))); ("strip", Some (PVal (VBytes [0]))); ("justify", Some (PText "left"))]
  ++ common PNone ++ [("default", Some PNone)].
(** macros.py:255-265 *)
Definition buffer_sig : signature := [("type", None); ("unpack_selector", Some PNone)] ++ common PNone ++ [("byte_size", Some PNone); ("default", Some PNone)].
(** macros.py:286-294 *)
Definition list_sig : signature := [("type", None); ("n", Some PNone); ("unpack_selector", Some PNone)] ++ common PNone ++ [("default", Some PNone)].

(** ** The builder *)
Inductive packer : Type := CInt | CFloat | CBytearray | CStr | CJson | CBuffer | CSelector (sel : pyarg) | CList.
(** A keyword of a packer: the length of the position, the length of a static position (which no
    packer looks at), or what was given. *)
Inductive kwv : Type := KwLength | KwStatic | KwArg (a : pyarg).
(** A declared field. *)
Record decl : Type := mkDecl {
  d_numeric : bool;
  d_default : pyarg;
  d_pack_if : pyarg; d_unpack_if : pyarg;
  d_where_pack : rid; d_where_unpack : rid;
  d_before : pyarg; d_after : pyarg;
  d_unpack_after : list nat;
  d_packer : packer; d_pack_kw : list (name * kwv);
  d_unpacker : packer; d_unpack_kw : list (name * kwv) }.

Section Builder.
(** field_reference_builder.py:152-156, for a reference: the length if it is static, None if it is
    open or not static, or the exception that evaluating it raises. *)
Variable static : rid -> res (option Z).

Definition where_rid (a : pyarg) : res rid :=
  match a with PRef r => Ok r | PField i => Ok (mkRid KField i) | _ => Err AttributeError end.
(** field_reference_builder.py:181-187: nothing here looks at where_when_pack, so that something that is no reference
    is accepted.  Simplification: left out. *)
Definition pack_rid (a : pyarg) : res rid :=
  match a with PRef r => Ok r | PField i => Ok (mkRid KField i) | _ => Err NotModelled end.
Definition resolve_static_ref (a : pyarg) : res (option Z) := let* r := where_rid a in static r.

(** field_reference_builder.py:151-171.  [==] of numbers. *)
Definition resolve_static_where (w wp wu : pyarg) : res unit :=
  let* ps := (if is_none w then Ok (None, None)
              else let* _ := passert (is_none wp && is_none wu) in
                   let* n := resolve_static_ref w in Ok (n, n)) in
  let* pack_size := (if is_none wp then Ok (fst ps)
                     else let* _ := passert (is_none w && negb (is_none wu)) in resolve_static_ref wu) in
  let* unpack_size := (if is_none wu then Ok (snd ps)
                       else let* _ := passert (is_none w && negb (is_none wp)) in resolve_static_ref wu) in
  match pack_size, unpack_size with
  | Some a, Some b => passert (a =? b)
  | _, _ => Ok tt
  end.

(** field_reference_builder.py:236-245 *)
Definition unpack_after (a : pyarg) : res (list nat) :=
  match a with
  | PNone => Ok []
  | PFields l => Ok l
  | PVal (VList []) => Ok []
  | PField i => Ok [i]
  | _ => Err AssertionError
  end.

(** field_reference_builder.py:126-245 *)
Definition declare (numeric : bool) (b : kwargs) (p u : packer) (pk uk : kwargs) : res decl :=
  let arg n := kget b n PNone in
  let w := arg "where" in let wp := arg "where_when_pack" in let wu := arg "where_when_unpack" in
  if negb (truthy_arg w || truthy_arg wp && truthy_arg wu) then Err ValueError       (* 129-130 *)
  else
    let* _ := resolve_static_where w wp wu in                                          (* 146 *)
    let* rp := pack_rid (if is_none w then wp else w) in                               (* 181-189 *)
    let* ru := where_rid (if is_none w then wu else w) in
    let* _ := if is_reference (arg "set_after_unpack") then Err NameError else Ok tt in  (* 225-234: UnboundLocalError *)
    let* l := unpack_after (arg "unpack_after") in
    let condition a := if is_none a then p_true else a in                              (* 178-179 *)
    Ok (mkDecl numeric (arg "default") (condition (arg "pack_if")) (condition (arg "unpack_if")) rp ru
          (arg "set_before_pack") (arg "set_after_unpack") l
          p (kupdate [("byte_size", KwLength); ("pack_size", KwStatic)] (map (fun q => (fst q, KwArg (snd q))) pk))       (* 191-195 *)
          u (kupdate [("byte_size", KwLength); ("unpack_size", KwStatic)] (map (fun q => (fst q, KwArg (snd q))) uk))).   (* 197-203 *)

(** macros.py:101-103, 155-157: [if byte_size:] *)
Definition with_byte_size (b m : kwargs) : kwargs :=
  let n := kget b "byte_size" PNone in if truthy_arg n then kset m "byte_size" n else m.

(** macros.py:79-106 *)
Definition int_field (args : list pyarg) (kw : kwargs) : res decl :=
  let* b := bind int_sig args kw in
  let m := with_byte_size b [("sign", kget b "sign" PNone); ("endian", kget b "endian" PNone)] in
  declare true b CInt CInt m m.
(** macros.py:109-131 *)
Definition uint_field (args : list pyarg) (kw : kwargs) : res decl := int_field args (kset kw "sign" (PText "unsigned")).
Definition be_int_field (args : list pyarg) (kw : kwargs) : res decl := int_field args (kset kw "endian" (PText "big")).
Definition be_uint_field (args : list pyarg) (kw : kwargs) : res decl := be_int_field args (kset kw "sign" (PText "unsigned")).
Definition le_int_field (args : list pyarg) (kw : kwargs) : res decl := int_field args (kset kw "endian" (PText "little")).
Definition le_uint_field (args : list pyarg) (kw : kwargs) : res decl := le_int_field args (kset kw "sign" (PText "unsigned")).
(** macros.py:134-160 *)
Definition float_field (args : list pyarg) (kw : kwargs) : res decl :=
  let* b := bind float_sig args kw in
  let m := with_byte_size b [("endian", kget b "endian" PNone)] in
  declare true b CFloat CFloat m m.
(** macros.py:163-184 *)
Definition bytearray_field (args : list pyarg) (kw : kwargs) : res decl :=
  let* b := bind bytearray_sig args kw in declare false b CBytearray CBytearray [] [].
(** macros.py:187-210 *)
Definition str_field (args : list pyarg) (kw : kwargs) : res decl :=
  let* b := bind str_sig args kw in
  let m := map (fun n => (n, kget b n PNone)) ["encoding"; "padding"; "strip"; "justify"] in
  declare false b CStr CStr m m.
(** macros.py:213-235 *)
Definition json_field (args : list pyarg) (kw : kwargs) : res decl :=
  let* b := bind bytearray_sig args kw in
  let m := [("encoding", PText "ascii"); ("padding", PVal (VBytes [32])); ("strip", PVal (VBytes [0])); ("justify", PText "left")] in
  declare false b CJson CJson m m.
(** macros.py:255-283 *)
Definition buffer_field (args : list pyarg) (kw : kwargs) : res decl :=
  let* b := bind buffer_sig args kw in
  let n := kget b "byte_size" PNone in
  let m := if truthy_arg n then [("byte_size", n)] else [("type", kget b "type" PNone)] in
  let sel := kget b "unpack_selector" PNone in
  declare false b CBuffer (if truthy_arg sel then CSelector sel else CBuffer) m m.
(** macros.py:286-322; the packers of the elements are named by the type they belong to. *)
Definition list_field (args : list pyarg) (kw : kwargs) : res decl :=
  let* b := bind list_sig args kw in
  let t := kget b "type" PNone in
  let* _ := passert (match t with PType _ | PMarshal _ => true | _ => false end) in
  let sel := kget b "unpack_selector" PNone in
  declare false b CList CList [("elem_packer", t)]
    [("elem_unpacker", if truthy_arg sel then sel else t); ("n", kget b "n" PNone)].
End Builder.

(** ** The keywords of integer packers *)
(** A keyword as the number of bytes it is, in bits. *)
Definition arg_bits (a : pyarg) : res (option Z) :=
  match a with
  | PNone => Ok None
  | PVal (VInt n) => Ok (Some (8 * n))
  | PFrac b => if b mod 8 =? 0 then Err NotModelled else Ok (Some b)
  | PVal (VFloat _) => Err NotModelled
  | _ => Err TypeError
  end.
Definition size_arg (n : option Z) : pyarg :=
  match n with None => PNone | Some b => if b mod 8 =? 0 then PVal (VInt (b / 8)) else PFrac b end.
(** serialize.py:62-67, kwargs.py:44-47: the names that are allowed; a list is not hashable. *)
Definition sign_named (a : pyarg) : res bool :=
  match a with
  | PText s => if String.eqb s "signed" then Ok true else if String.eqb s "unsigned" then Ok false else Err AssertionError
  | _ => Err AssertionError
  end.
Definition endian_named (a : pyarg) : res bendian :=
  match a with
  | PText s => if String.eqb s "unspecified" then Ok BUnspecified else if String.eqb s "native" then Ok BNative
               else if String.eqb s "big" then Ok BBig else if String.eqb s "little" then Ok BLittle else Err AssertionError
  | PVal (VList _) | PFields _ => Err TypeError
  | _ => Err AssertionError
  end.
Definition int_format_kw (kw : kwargs) : res (bool * bendian) :=
  let args := kupdate [("sign", PText "signed"); ("endian", PText "native")] kw in
  let* s := sign_named (kget args "sign" PNone) in
  let* e := endian_named (kget args "endian" PNone) in
  Ok (s, e).
(** serialize.py:82-88 *)
Definition pack_int_kw (h : host) (kw : kwargs) (v : value) : res buf :=
  let* n := arg_bits (kget kw "byte_size" PNone) in
  let* n := fractional_size n in
  match struct_key n with
  | Some s => let* f := int_format_kw kw in pack_struct_int h (fst f) (snd f) s v
  | None => match v with
            | VInt z => pack_bit_int z (if khas kw "byte_size" then n else Some (bit_length z))
            | _ => Err AttributeError
            end
  end.
(** serialize.py:91-97, 114-120: the bytes are reversed unless [endian] is false. *)
Definition unpack_int_kw (h : host) (kw : kwargs) (b : buf) : res (value * option Z) :=
  let* n := arg_bits (kget kw "byte_size" PNone) in
  let* n := fractional_size n in
  match struct_key n with
  | Some s => let* f := int_format_kw kw in unpack_struct_int h (fst f) (snd f) s b
  | None =>
      let n := if khas kw "byte_size" then n else Some (blength b) in
      if truthy_arg (kget kw "endian" (PText "big")) then unpack_bit_int b n
      else let* s := buf_slice b (Some 0) n in
           let* l := buf_bytes s in
           Ok (VInt (accumulate 0 l), n)
  end.

(** kwargs.py:1-10 keep_kwargs_partial: the keywords the new function passes on. *)
Definition keep_kwargs (fixed kw : kwargs) : kwargs := kupdate kw fixed.
(** macros.py:28-30: int_marshal(byte_size, sign, endian). *)
Definition int_marshal_kw (bytes : Z) (sign endian : string) : kwargs :=
  [("byte_size", PVal (VInt bytes)); ("sign", PText sign); ("endian", PText endian)].

(** What the packer of a declared field is called with, for a position of [n] bits. *)
Definition kwargs_at (n : option Z) (kw : list (name * kwv)) : kwargs :=
  map (fun p => (fst p, match snd p with KwLength => size_arg n | KwStatic => PNone | KwArg a => a end)) kw.
