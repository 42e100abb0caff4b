(** Model of buffer/macros.py:70-323 and serialize.py:222-302: the field builders a class body uses,
    with the packers and unpackers of serialize.py, nested Buffer objects and lists of them.

    Simplifications: a nested object belongs to the class its field declares; a class is named by
    its [name]; attributes that packing assigns in a nested object are not written back to it. *)
From Verif Require Import Base IntCodec Stream Marshal Range IoBuffer Serialize RefEngine BufferModel.
From Coq Require Import ZArith List Bool String.
Import ListNotations.
Open Scope list_scope.
Open Scope Z_scope.

(** The keywords all builders have, with [where] as both [where_when_pack] and [where_when_unpack]
    (field_reference_builder.py:151-171) and True for no condition (field_reference_builder.py:178-179). *)
Record keywords : Type := mkKw {
  kw_name : name;
  kw_default : value;
  kw_where_pack : rid;
  kw_where_unpack : rid;
  kw_pack_if : rid;
  kw_unpack_if : rid;
  kw_before : option before;
  kw_after : option (value -> res value);
  kw_unpack_after : list nat }.

(** field_reference_builder.py:126-245 FieldReferenceBuilder.create *)
Definition build (k : keywords) (size : option Z) (pack_args unpack_args : list arg)
    (pack : list rv -> value -> option Z -> res buf)
    (unpack : list rv -> attrs -> buf -> option Z -> res (value * option Z)) : field :=
  mkField (kw_name k) (kw_default k) (kw_where_pack k) (kw_where_unpack k) (kw_pack_if k) (kw_unpack_if k)
    (kw_before k) (kw_after k) (kw_unpack_after k) size pack_args unpack_args pack unpack.

(** macros.py:102, 156, 278: [if byte_size:] ignores 0. *)
Definition size_keyword (byte_size : option Z) : option Z :=
  match byte_size with Some n => if n =? 0 then None else Some n | None => None end.

(** macros.py:79-106; uint_field, be_int_field, ... (macros.py:109-131) fix [signed] and [e]. *)
Definition int_field (h : host) (e : bendian) (signed : bool) (byte_size : option Z) (k : keywords) : field :=
  build k (size_keyword byte_size) [] []
    (fun _ v n => pack_int h signed e n v) (fun _ _ b n => unpack_int h signed e n b).
(** macros.py:134-160 *)
Definition float_field (h : host) (e : bendian) (byte_size : option Z) (k : keywords) : field :=
  build k (size_keyword byte_size) [] []
    (fun _ v n => pack_float h e n v) (fun _ _ b n => unpack_float h e n b).
(** macros.py:163-184 *)
Definition bytearray_field (k : keywords) : field :=
  build k None [] [] (fun _ v _ => pack_bytearray v) (fun _ _ b _ => unpack_bytearray b).
(** macros.py:187-210 *)
Definition str_field (padding strip : strarg) (j : justify) (k : keywords) : field :=
  build k None [] [] (fun _ v n => pack_str padding j n v) (fun _ _ b n => unpack_str padding strip j n b).

(** serialize.py:222-228, macros.py:213-235.  json.dumps and json.loads are parameters: a text, or
    the exception they raise. *)
Definition is_space (c : Z) : bool := ((9 <=? c) && (c <=? 13)) || ((28 <=? c) && (c <=? 32)).
Fixpoint lstrip_space (l : list Z) : list Z :=
  match l with [] => [] | c :: r => if is_space c then lstrip_space r else l end.
Definition strip_space (l : list Z) : list Z := rev (lstrip_space (rev (lstrip_space l))).
Definition json_field (dumps : value -> res (list Z)) (loads : list Z -> res value) (k : keywords) : field :=
  build k None [] []
    (fun _ v n => let* s := dumps v in pack_str (ABytes [32]) JLeft n (VStr s))
    (fun _ _ b n => let* p := unpack_str (ABytes [32]) (ABytes [0]) JLeft n b in
                    match fst p with
                    | VStr s => let* v := loads (strip_space s) in Ok (v, snd p)
                    | _ => Err NotModelled
                    end).

(** serialize.py:250-257 *)
Definition pack_buffer (C : cls) (v : value) : res buf :=
  match v with
  | VObj _ a => let* l := fst (buffer_pack C a) in Ok (BArr l)
  | _ => Err AttributeError
  end.
Definition unpack_buffer (nm : name) (C : cls) (b : buf) : res (value * option Z) :=
  let* o := buffer_init C [] in
  match buffer_unpack C b o with
  | (Ok n, a) => Ok (VObj nm a, Some n)
  | (Err e, _) => Err e
  end.

(** macros.py:238-252: what an unpack_selector returned: a class, a pair of an object and a size (here in bits),
    None, or something else. *)
Inductive selection : Type :=
| SelType (nm : name) (C : cls)
| SelPair (v : value) (size : option Z)
| SelNone
| SelOther.
Definition selected (s : selection) (b : buf) : res (value * option Z) :=
  match s with
  | SelType nm C => unpack_buffer nm C b
  | SelPair v n => Ok (v, n)
  | SelNone => Ok (VNone, Some 0)
  | SelOther => Err AssertionError
  end.

(** macros.py:255-283; [byte_size] replaces [type], so unpacking without a selector fails. *)
Definition buffer_field (nm : name) (C : cls) (selector : option (attrs -> buf -> res selection))
    (byte_size : option Z) (k : keywords) : field :=
  build k (size_keyword byte_size) [] []
    (fun _ v _ => pack_buffer C v)
    (fun _ a b _ => match selector with
                    | Some sel => let* s := sel a b in selected s b
                    | None => match size_keyword byte_size with
                              | Some _ => Err KeyError
                              | None => unpack_buffer nm C b
                              end
                    end).

(** macros.py:28-76, 310-315: the type argument of list_field. *)
Inductive elem_type : Type :=
| EInt (h : host) (bits : Z) (signed : bool) (e : bendian)
| EStr (padding strip : strarg) (j : justify) (bits : option Z)
| EBuffer (nm : name) (C : cls).
(** serialize.py:281-285: the elements get the keywords of the list, so a string type without a
    size of its own gets the size of the list. *)
Definition elem_pack (t : elem_type) (size : option Z) : value -> res buf :=
  match t with
  | EInt h bits signed e => int_marshal_pack h bits signed e
  | EStr p s j bits => pack_str p j (match bits with Some _ => bits | None => size end)
  | EBuffer _ C => pack_buffer C
  end.
Definition elem_unpack (t : elem_type) (size : option Z) : Z -> buf -> res (value * option Z) :=
  match t with
  | EInt h bits signed e => int_marshal_unpack h bits signed e
  | EStr p s j bits => fun _ b => unpack_str p s j (match bits with Some _ => bits | None => size end) b
  | EBuffer nm C => fun _ b => unpack_buffer nm C b
  end.
(** serialize.py:290: [n] is an int or None. *)
Definition count_of (args : list rv) : res (option Z) :=
  match args with
  | [RVal VNone] => Ok None
  | [RVal (VInt n)] => Ok (Some n)
  | _ => Err AssertionError
  end.
(** macros.py:286-322 *)
Definition list_field (t : elem_type) (n : arg) (selector : option (attrs -> Z -> buf -> res selection)) (k : keywords) : field :=
  build k None [] [n]
    (fun _ v size => pack_list (elem_pack t size) v)
    (fun args a b size =>
       let* c := count_of args in
       unpack_list (match selector with
                    | Some sel => fun i b => let* s := sel a i b in selected s b
                    | None => elem_unpack t size
                    end) c size b).
