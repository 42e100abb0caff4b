(** Specification vocabulary: what pack() and unpack() leave in the object, also when they raise. *)
From Verif Require Import Base Marshal Range RangeSpec IoBuffer IoSpec Serialize SerializeSpec RefEngine RefSpec BufferModel BufferSpec BufferReadSpec BufferMacros.
From Coq Require Import ZArith List Bool String.
Import ListNotations.
Open Scope list_scope.
Open Scope Z_scope.

(** The functions that the class was declared with (set_before_pack, and the functions that are called with
    the object) assign nothing but attributes of fields. *)
Definition functions_assign_fields (C : cls) : Prop :=
  Forall (fun f => match f_before f with Some (BFun h) => forall a, only_fields_changed C a (snd (h a)) | _ => True end) (k_fields C)
  /\ Forall (fun u => match u with UMember g _ => forall vs a, only_fields_changed C a (snd (g vs a)) | _ => True end) (k_users C).

(** The value [v] is one that set_before_pack gives for [f]: the constant, or what the function returns
    for the object with some of the attributes that packing assigns already assigned.  (For a reference nothing is said.) *)
Definition computed_for (C : cls) (o : attrs) (f : field) (v : value) : Prop :=
  match f_before f with
  | None => False
  | Some (BValue x) => v = x
  | Some (BRef _) => True
  | Some (BFun h) => exists a, same_but_assigned C o a /\ fst (h a) = Ok v
  end.

(** The unpacker of [f] raises [e] when it is given the bits of [b] at [r]. *)
Definition rejects (C : cls) (b : buf) (f : field) (r : list srange) (e : exn) : Prop :=
  exists args, Forall2 (static_arg C) (f_unpack_args f) args
    /\ forall a given, view_with given (bits_at b r) -> f_unpack f args a given (given_size f r) = Err e.
(** Up to field number [i], unpack_after names fields in front of it only. *)
Definition after_in_front (C : cls) (i : nat) : Prop :=
  forall j f, (j <= i)%nat -> nth_error (k_fields C) j = Some f -> Forall (fun k => (k < i)%nat) (f_unpack_after f).

(** The value that pack() packs for [f]. *)
Definition value_used (C : cls) (o : attrs) (f : field) (v : value) : Prop :=
  match f_before f with
  | None => Marshal.lookup o (f_name f) = Some v
  | Some (BValue x) => v = x
  | Some (BRef r) => static (nodes C) r (RVal v)
  | Some (BFun g) => forall a, same_but_assigned C o a -> g a = (Ok v, a)
  end.
(** [f] is packed to [r] always. *)
Definition always_to (C : cls) (f : field) (r : list srange) : Prop :=
  static (nodes C) (f_where_pack f) (RRanges r) /\ proper_place r /\ exists c, static (nodes C) (f_pack_if f) c /\ truthy c = true.
(** Its packer makes [b] of the value [v]. *)
Definition encodes (C : cls) (f : field) (r : list srange) (v : value) (b : res buf) : Prop :=
  exists args, Forall2 (static_arg C) (f_pack_args f) args /\ f_pack f args v (given_size f r) = b.
(** Its place, value and bits when it can be packed. *)
Definition can_pack (C : cls) (o : attrs) (f : field) (x : list srange * value) : Prop :=
  always_to C f (fst x) /\ value_used C o f (snd x)
  /\ exists b, encodes C f (fst x) (snd x) (Ok b) /\ buf_ok b /\ zlen (all_positions (fst x)) <= zlen (pad_to_byte (buf_bits b)).
(** It cannot: the attribute is missing, or the packer rejects the value. *)
Definition cannot_pack (C : cls) (o : attrs) (f : field) (e : exn) : Prop :=
  exists r, always_to C f r
    /\ (f_before f = None /\ Marshal.lookup o (f_name f) = None /\ e = AttributeError
        \/ exists v, value_used C o f v /\ encodes C f r v (Err e)).
