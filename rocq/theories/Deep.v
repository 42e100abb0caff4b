(** Model of nested Buffer objects as objects: buffer/serialize.py:250-251 and 281-285 call the [pack] method of
    the value of the field, and what that assigns in the nested object stays there
    (field_reference_builder.py:195, 210-223).

    [BufferModel] treats nested objects as values.  Here a class is changed so that packing a nested
    object also stores the object that its pack() left: for every field one more reference
    of the user's kind packs the value of the field and writes it back, and the packer of the field
    only returns the result.  Simplification: references that look into a nested object
    (other than with len) are not modelled here, as they see it before or after its pack(). *)
From Verif Require Import Base Marshal Range IoBuffer Serialize RefEngine BufferModel.
From Coq Require Import ZArith List Bool String.
Import ListNotations.
Open Scope list_scope.

(** serialize.py:250-251 pack_buffer: [value.pack()], by the class of the value: the bytes, and the value afterwards. *)
Definition pack_object (D : name -> option cls) (v : value) : res buf * value :=
  match v with
  | VObj nm a =>
      match D nm with
      | Some K => let '(r, a') := buffer_pack K a in (rmap BArr r, VObj nm a')
      | None => (Err AttributeError, v)
      end
  | _ => (Err AttributeError, v)
  end.

(** serialize.py:281-285 pack_list with pack_buffer: one after the other, up to the first that fails. *)
Fixpoint pack_objects (D : name -> option cls) (l : list value) (acc : baa) : res baa * list value :=
  match l with
  | [] => (Ok acc, [])
  | v :: r =>
      match pack_object D v with
      | (Err e, v') => (Err e, v' :: r)
      | (Ok b, v') =>
          match run_ba (ba_extend (match b with BArr bytes => BVSeq bytes | w => BVView w end)) acc with
          | Err e => (Err e, v' :: r)
          | Ok acc' => let '(x, r') := pack_objects D r acc' in (x, v' :: r')
          end
      end
  end.
Definition pack_object_list (D : name -> option cls) (v : value) : res buf * value :=
  match v with
  | VList l => let '(r, l') := pack_objects D l (new_baa []) in (rmap ba_view r, VList l')
  | VNone => (Err TypeError, v)
  | _ => (Err NotModelled, v)
  end.

Section Deepen.
Variable C : cls.
(** For each field: how its value packs itself, if it is a nested object or a list of such. *)
Variable nest : nat -> option (value -> res buf * value).

(** The reference that packs the value of field [i]. *)
Definition extra (i : nat) : rid := mkRid KUser (List.length (k_users C) + i).
Definition store_packed (n : name) (pk : value -> res buf * value) (vs : list rv) (a : attrs) : res rv * attrs :=
  match vs with
  | [RVal v] => let '(r, w) := pk v in (rmap RBuf r, set_attr a n w)
  | _ => (Err NotModelled, a)
  end.
Definition extra_user (i : nat) (f : field) : uref :=
  match nest i with
  | Some pk => UMember (store_packed (f_name f) pk) [ARef (mkRid KPackValue i)]
  | None => UConst (RVal VNone)
  end.
Definition deep_field (i : nat) (f : field) : field :=
  match nest i with
  | Some pk => mkField (f_name f) (f_default f) (f_where_pack f) (f_where_unpack f) (f_pack_if f) (f_unpack_if f) (f_before f) (f_after f)
      (f_unpack_after f) (f_size f) [ARef (extra i)] (f_unpack_args f)
      (fun args _ _ => match args with [RBuf b] => Ok b | _ => Err NotModelled end) (f_unpack f)
  | None => f
  end.
(** The class whose objects keep what pack() does to the objects in them. *)
Definition deepen : cls :=
  mkCls (map (fun p => deep_field (fst p) (snd p)) (numbered C))
        (k_users C ++ map (fun p => extra_user (fst p) (snd p)) (numbered C)) (k_size C).
End Deepen.
