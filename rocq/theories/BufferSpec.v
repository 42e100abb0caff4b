(** Specification vocabulary for packing and unpacking of Buffer objects. *)
From Verif Require Import Base Marshal Range RangeRef RangeSpec IoBuffer IoSpec RefEngine RefSpec BufferModel.
From Coq Require Import ZArith List Bool String.
Import ListNotations.
Open Scope list_scope.
Open Scope Z_scope.

(** ** Classes whose references belong to the class (what Python guarantees by construction) *)
Section Ok.
Variable C : cls.
Definition rid_in (r : rid) : Prop := In r (all_rids C).
Definition arg_in (a : arg) : Prop := match a with AConst _ => True | ARef r => rid_in r end.
Definition field_no (i : nat) : Prop := (i < List.length (k_fields C))%nat.
Definition uref_in (u : uref) : Prop :=
  match u with
  | UConst _ | UTotal | UInputLen | UAttr _ => True
  | UNum _ a b | UByteSlice a b => arg_in a /\ arg_in b
  | UNeg a | UCast a | UByteNum a | ULen a => arg_in a
  | UList l | UMin l | UMax l | UFunc _ l | UMember _ l => Forall arg_in l
  | UBitNum p a => rid_in p /\ arg_in a
  | UBitSlice p a b => rid_in p /\ arg_in a /\ arg_in b
  | UAfter i | UFieldRef i => field_no i
  end.
Definition field_in (f : field) : Prop :=
  rid_in (f_where_pack f) /\ rid_in (f_where_unpack f) /\ rid_in (f_pack_if f) /\ rid_in (f_unpack_if f)
  /\ match f_before f with Some (BRef r) => rid_in r | _ => True end
  /\ Forall field_no (f_unpack_after f) /\ Forall arg_in (f_pack_args f) /\ Forall arg_in (f_unpack_args f).
Definition cls_ok : Prop := Forall uref_in (k_users C) /\ Forall field_in (k_fields C).

(** Packers return buffers. *)
Definition packers_ok : Prop :=
  Forall (fun f => forall args v n b, f_pack f args v n = Ok b -> buf_ok b) (k_fields C).
End Ok.

(** ** What a run of pack does, in terms of plain memoised evaluation ([RefSpec.eval]) *)
Definition memory : Type := list (rid * rv).

(** What one field contributes: nothing, or a buffer and where it goes. *)
Definition part : Type := option (buf * list srange).

(** [packing C l m s ps m' s']: the fields [l] are looked at in this order; [ps] has for each of
    them what it contributes.  A field contributes nothing if its condition is false; otherwise it
    is packed, then its position is determined. *)
Inductive packing (C : cls) : list (nat * field) -> memory -> bst -> list part -> memory -> bst -> Prop :=
| packing_nil m s : packing C [] m s [] m s
| packing_skip i f l m s c m1 s1 ps m' s' :
    eval rid_eqb (nodes C) (f_pack_if f) m s (Ok c) m1 s1 -> truthy c = false ->
    packing C l m1 s1 ps m' s' -> packing C ((i, f) :: l) m s (None :: ps) m' s'
| packing_put i f l m s c m1 s1 b m2 s2 r m3 s3 ps m' s' :
    eval rid_eqb (nodes C) (f_pack_if f) m s (Ok c) m1 s1 -> truthy c = true ->
    eval rid_eqb (nodes C) (mkRid KPack i) m1 s1 (Ok (RBuf b)) m2 s2 ->
    eval rid_eqb (nodes C) (mkRid KPackPos i) m2 s2 (Ok (RRanges r)) m3 s3 ->
    packing C l m3 s3 ps m' s' -> packing C ((i, f) :: l) m s (Some (b, r) :: ps) m' s'.

(** ** The bytes written *)
(** The bits a part writes, in order: number [k] of its bits (padded to whole bytes) goes to number
    [k] of its positions. *)
Definition writes_of (p : part) : list (Z * bool) :=
  match p with
  | None => []
  | Some (b, r) => combine (all_positions r) (pad_to_byte (buf_bits b))
  end.
Definition writes (ps : list part) : list (Z * bool) := flat_map writes_of ps.

(** The last write to position [p]. *)
Fixpoint last_write (p : Z) (l : list (Z * bool)) : option bool :=
  match l with
  | [] => None
  | (q, b) :: r => match last_write p r with Some x => Some x | None => if q =? p then Some b else None end
  end.

(** All ranges of the parts. *)
Definition part_ranges (ps : list part) : list srange :=
  flat_map (fun p => match p with None => [] | Some (_, r) => r end) ps.

(** [m] is the largest stop of [l], 0 if there is none. *)
Definition largest_stop (l : list srange) (m : Z) : Prop :=
  (forall r e, In r l -> r_stop r = Some e -> e <= m)
  /\ (m = 0 \/ exists r, In r l /\ r_stop r = Some m) /\ 0 <= m.

Definition byte_aligned (r : srange) : Prop :=
  r_start r mod 8 = 0 /\ match r_stop r with None => True | Some e => e mod 8 = 0 end.

(** Each field has as many bits as it has positions, or more. *)
Definition part_fits (p : part) : Prop :=
  match p with
  | None => True
  | Some (b, r) => Forall closed r /\ zlen (all_positions r) <= zlen (pad_to_byte (buf_bits b))
  end.

(** [bits] is what the parts leave in an output buffer: it ends at the largest stop, each position
    has what was last written to it, and if all ranges are byte-aligned the others are zero. *)
Definition output_of (ps : list part) (bits : list bool) : Prop :=
  largest_stop (part_ranges ps) (zlen bits)
  /\ (forall p x, last_write p (writes ps) = Some x -> nth (Z.to_nat p) bits false = x)
  /\ (Forall byte_aligned (part_ranges ps) ->
      forall p, 0 <= p -> last_write p (writes ps) = None -> nth (Z.to_nat p) bits false = false).

(** Zero bytes up to [n] bits, rounded up to bytes; [n = 0] is like no size at all. *)
Definition sized (n : option Z) (l : list Z) : list Z :=
  match n with
  | Some n => if n =? 0 then l else l ++ repeat 0 (Z.to_nat ((n + 7) / 8 - zlen l))
  | None => l
  end.
Definition too_long (n : option Z) (l : list Z) : Prop :=
  match n with Some n => n <> 0 /\ (n + 7) / 8 < zlen l | None => False end.

(** ** Layouts *)
(** A field's packer turns [v] into [b] and its unpacker restores [v] and says it used [used] bits:
    [len] is the number of its bit positions, [psize] and [usize] the byte_size (in bits) they get. *)
Definition codec_restores (f : field) (pargs uargs : list rv) (psize usize : option Z) (len : Z) (v : value) (b : buf)
    (used : option Z) : Prop :=
  f_pack f pargs v psize = Ok b /\ buf_ok b /\ len <= zlen (pad_to_byte (buf_bits b))
  /\ forall a b', buf_ok b' -> is_view b' ->
       buf_bits b' = firstn (Z.to_nat len) (pad_to_byte (buf_bits b)) -> f_unpack f uargs a b' usize = Ok (v, used).

(** An argument or reference with a value that does not depend on the context. *)
Definition static_arg (C : cls) (a : arg) (v : rv) : Prop :=
  match a with AConst x => v = x | ARef r => static (nodes C) r v end.

(** The byte_size (in bits) the packer and unpacker of a field at [r] get. *)
Definition given_size (f : field) (r : list srange) : option Z :=
  match f_size f with Some n => Some n | None => list_byte_length r end.

(** Field [f] is unconditional, has the same fixed place [r] in both directions, no hooks, and its
    packer and unpacker restore [v]. *)
Definition fixed_field (C : cls) (f : field) (r : list srange) (v : value) : Prop :=
  static (nodes C) (f_where_pack f) (RRanges r) /\ static (nodes C) (f_where_unpack f) (RRanges r)
  /\ (exists c, static (nodes C) (f_pack_if f) c /\ truthy c = true)
  /\ (exists c, static (nodes C) (f_unpack_if f) c /\ truthy c = true)
  /\ f_before f = None /\ f_after f = None
  /\ exists pargs uargs b used, Forall2 (static_arg C) (f_pack_args f) pargs /\ Forall2 (static_arg C) (f_unpack_args f) uargs
     /\ codec_restores f pargs uargs (given_size f r) (given_size f r) (zlen (all_positions r)) v b used.

(** The object has value number [k] of the layout in the attribute of field number [k]. *)
Definition has_values (o : attrs) (fs : list field) (lay : list (list srange * value)) : Prop :=
  Forall2 (fun f x => Marshal.lookup o (f_name f) = Some (snd x)) fs lay.

(** ** Layouts that depend on values *)
(** What a reference may depend on: the value of field number [i], where field number [i] ends, the
    end of the last field (all ends in bits). *)
Inductive lfact : Type := FValue (i : nat) (v : value) | FEnd (i : nat) (m : Z) | FTotal (m : Z).
(** [given C know r v]: reference [r] has value [v] if the facts [know] hold; nothing else of the
    object or the input matters. *)
Inductive given (C : cls) (know : lfact -> Prop) : rid -> rv -> Prop :=
| given_field i v : know (FValue i v) -> given C know (mkRid KField i) (RVal v)
| given_attr k n i v : nth_error (k_users C) k = Some (UAttr n) -> find_field n (numbered C) = Some i -> know (FValue i v) ->
    given C know (mkRid KUser k) (RVal v)
| given_after k i m : nth_error (k_users C) k = Some (UAfter i) -> know (FEnd i m) -> given C know (mkRid KUser k) (rnum m)
| given_total k m : nth_error (k_users C) k = Some UTotal -> k_size C = None -> know (FTotal m) -> given C know (mkRid KUser k) (rnum m)
| given_size_known k n : nth_error (k_users C) k = Some UTotal -> k_size C = Some n -> given C know (mkRid KUser k) (rnum n)
| given_node r v : given_prog C know (nodes C r) v -> given C know r v
with given_prog (C : cls) (know : lfact -> Prop) : bprog -> rv -> Prop :=
| given_ret v : given_prog C know (PRet v) v
| given_ref r k v w : given C know r v -> given_prog C know (k v) w -> given_prog C know (PRef r k) w.
Definition given_arg (C : cls) (know : lfact -> Prop) (a : arg) (v : rv) : Prop :=
  match a with AConst x => v = x | ARef r => given C know r v end.

(** One field of a layout: what its position is when packing ([e_write], may be open), when unpacking
    ([e_read], may be open) and where its bits are ([e_place]); its value, that value packed, and how
    much of it the unpacker says it used. *)
Record entry : Type := mkEntry {
  e_write : list srange; e_read : list srange; e_place : list srange;
  e_value : value; e_buf : buf; e_used : option Z }.
(** A layout has an entry for each field, [None] for the fields that are left out. *)
Definition layout : Type := list (option entry).
Definition present (x : option entry) : Prop := exists e, x = Some e.
Definition places (lay : layout) : list (list srange) :=
  flat_map (fun x => match x with Some e => [e_place e] | None => [] end) lay.
(** The facts of a layout for which [P] holds.  The end of a field that is read to the end of the input
    is known if all of it is used; the end of the last field is known if all fields are present. *)
Definition known (lay : layout) (P : lfact -> Prop) (x : lfact) : Prop :=
  P x /\ match x with
         | FValue i v => exists e, nth_error lay i = Some (Some e) /\ v = e_value e
         | FEnd i m => exists e, nth_error lay i = Some (Some e) /\ largest_stop (e_place e) m
                         /\ (e_read e = e_place e \/ e_used e = Some (zlen (all_positions (e_place e))))
         | FTotal m => Forall present lay /\ largest_stop (List.concat (places lay)) m
         end.
Definition anything (_ : lfact) : Prop := True.
(** When unpacking, where the last field ends is known at the end only. *)
Definition not_total (x : lfact) : Prop := match x with FTotal _ => False | _ => True end.
(** Dependencies: [vrank i] and [qrank i] are the ranks of the value and of the place of field number
    [i] when packing, [urank i] that of both when unpacking. *)
Definition below (vrank qrank : nat -> nat) (k : nat) (x : lfact) : Prop :=
  match x with
  | FValue i _ => (vrank i < k)%nat
  | FEnd i _ => (qrank i < k)%nat
  | FTotal _ => forall i, (qrank i < k)%nat
  end.
Definition read_before (urank : nat -> nat) (k : nat) (x : lfact) : Prop :=
  match x with FValue i _ | FEnd i _ => (urank i < k)%nat | FTotal _ => False end.

(** The last range of a position may be open: it takes what the ranges before it (if any) leave of
    the packed field, or goes to the end of the input.  It is the last one both in the list and in
    the order of positions. *)
Definition open_until (l r : list srange) (stop : list srange -> Z -> Z) : Prop :=
  l = r \/ exists front a, l = front ++ [mkR a None] /\ r = front ++ [mkR a (Some (stop front a))]
             /\ Forall (fun q => exists e, r_stop q = Some e /\ e <= a) front.

(** [names_assigned C n]: packing assigns the attribute [n]. *)
Definition assigned_name (C : cls) (n : name) : Prop := exists f, In f (k_fields C) /\ f_before f <> None /\ f_name f = n.
(** [a] is [o] but for attributes that packing assigns. *)
Definition same_but_assigned (C : cls) (o a : attrs) : Prop :=
  forall n, ~ assigned_name C n -> Marshal.lookup a n = Marshal.lookup o n.

(** [a] is [o] but for the attributes of the fields; no attribute is new if [o] has those already. *)
Definition only_fields_changed (C : cls) (o a : attrs) : Prop :=
  (forall n, ~ In n (map f_name (k_fields C)) -> Marshal.lookup a n = Marshal.lookup o n)
  /\ (incl (map f_name (k_fields C)) (map fst o) -> map fst a = map fst o).

(** Where the value to pack comes from: the attribute, or set_before_pack, which may depend on what
    [know] says. *)
Definition value_to_pack (C : cls) (know : lfact -> Prop) (o : attrs) (f : field) (v : value) : Prop :=
  match f_before f with
  | None => Marshal.lookup o (f_name f) = Some v
  | Some (BValue x) => x = v
  | Some (BRef r) => given C know r (RVal v)
  | Some (BFun g) => forall a, same_but_assigned C o a -> g a = (Ok v, a)
  end.

(** Field number [i] is packed and unpacked as the layout says.  Its value, place, condition and
    arguments may depend on other fields, of smaller rank. *)
Definition laid_out (C : cls) (lay : layout) (o : attrs) (vrank qrank urank : nat -> nat) (i : nat) (f : field) (e : entry) : Prop :=
  let for_value := known lay (below vrank qrank (vrank i)) in
  let for_place := known lay (below vrank qrank (qrank i)) in
  let for_reading := known lay (read_before urank (urank i)) in
  given C for_place (f_where_pack f) (RRanges (e_write e))
  /\ open_until (e_write e) (e_place e) (fun front a => a + 8 * blen (e_buf e) - zlen (all_positions front))
  /\ (e_write e <> e_place e -> (vrank i < qrank i)%nat)
  /\ given C for_reading (f_where_unpack f) (RRanges (e_read e))
  /\ (exists c, given C (known lay anything) (f_pack_if f) c /\ truthy c = true)
  /\ (exists c, given C (known lay not_total) (f_unpack_if f) c /\ truthy c = true)
  /\ value_to_pack C for_value o f (e_value e) /\ f_after f = None
  /\ Forall (fun j => exists e', nth_error lay j = Some (Some e')) (f_unpack_after f)
  /\ exists pargs uargs, Forall2 (given_arg C for_place) (f_pack_args f) pargs /\ Forall2 (given_arg C for_reading) (f_unpack_args f) uargs
     /\ codec_restores f pargs uargs (given_size f (e_write e)) (given_size f (e_place e)) (zlen (all_positions (e_place e)))
          (e_value e) (e_buf e) (e_used e).
(** A field that is left out: both conditions are false. *)
Definition left_out (C : cls) (lay : layout) (f : field) : Prop :=
  (exists c, given C (known lay anything) (f_pack_if f) c /\ truthy c = false)
  /\ exists c, given C (known lay not_total) (f_unpack_if f) c /\ truthy c = false.

(** A layout for the object [o] of the class. *)
Definition class_layout (C : cls) (lay : layout) (o : attrs) : Prop :=
  List.length lay = List.length (k_fields C)
  /\ exists vrank qrank urank, forall i f, nth_error (k_fields C) i = Some f ->
       match nth_error lay i with
       | Some (Some e) => laid_out C lay o vrank qrank urank i f e
       | _ => left_out C lay f
       end.
(** Positions are closed, no two ranges have a bit in common; empty ranges stand alone. *)
Definition apart (l : list (list srange)) : Prop :=
  Forall closed (List.concat l) /\ pairwise_disjoint (List.concat l)
  /\ Forall (fun r => (exists x, r = [x]) \/ Forall nonempty_range r) l.
(** The attributes of the fields: the values of the layout, None for fields left out. *)
Definition holds_layout (o : attrs) (fs : list field) (lay : layout) : Prop :=
  Forall2 (fun f x => Marshal.lookup o (f_name f) = Some (match x with Some e => e_value e | None => VNone end)) fs lay.
(** The size unpack returns: byte_size, or the end of the last field. *)
Definition reads_until (lay : layout) (n : Z) : Prop :=
  let ends := flat_map (fun x => match x with Some e => [e] | None => [] end) lay in
  lay <> [] /\ exists stops, Forall2 (fun e s => exists u, e_used e = Some u /\ byte_offset (e_place e) u = Ok s) ends stops
    /\ Forall (fun s => 0 <= s <= n) stops /\ (In n stops \/ n = 0).
Definition layout_size (C : cls) (lay : layout) (n : Z) : Prop :=
  match k_size C with
  | Some k => k = n /\ 0 <= n /\ forall r e, In r (List.concat (places lay)) -> r_stop r = Some e -> e <= n
  | None => reads_until lay n
  end.

(** ** What a run of unpack does *)
(** Evaluating references one after the other, for their effects. *)
Inductive evals_all (C : cls) : list rid -> memory -> bst -> memory -> bst -> Prop :=
| evals_nil m s : evals_all C [] m s m s
| evals_cons r l m s v m1 s1 m' s' :
    eval rid_eqb (nodes C) r m s (Ok v) m1 s1 -> evals_all C l m1 s1 m' s' -> evals_all C (r :: l) m s m' s'.

(** [unpacking C l m s m' s']: the fields [l] are looked at in this order.  If the condition of a
    field is false its attribute becomes None and nothing else happens; otherwise the fields it is
    to be unpacked after, and then the field itself, are unpacked. *)
Inductive unpacking (C : cls) : list (nat * field) -> memory -> bst -> memory -> bst -> Prop :=
| unpacking_nil m s : unpacking C [] m s m s
| unpacking_skip i f l m s c m1 s1 m' s' :
    eval rid_eqb (nodes C) (f_unpack_if f) m s (Ok c) m1 s1 -> truthy c = false ->
    unpacking C l m1 (mkBst (set_attr (s_obj s1) (f_name f) VNone) (s_input s1)) m' s' ->
    unpacking C ((i, f) :: l) m s m' s'
| unpacking_take i f l m s c m1 s1 m2 s2 m' s' :
    eval rid_eqb (nodes C) (f_unpack_if f) m s (Ok c) m1 s1 -> truthy c = true ->
    evals_all C (map (mkRid KUnpackValue) (f_unpack_after f ++ [i])) m1 s1 m2 s2 ->
    unpacking C l m2 s2 m' s' -> unpacking C ((i, f) :: l) m s m' s'.

(** Evaluating [r] raises [e]. *)
Definition fails (C : cls) (r : rid) (m : memory) (s : bst) (e : exn) : Prop :=
  (exists m' s', eval rid_eqb (nodes C) r m s (Err e) m' s')
  \/ (e = CyclicReferenceError /\ loops rid_eqb (nodes C) r m s).

(** Not an exception: the program does not end, or does something that is not modelled. *)
Definition no_exception (e : exn) : Prop := e = Diverges \/ e = NotModelled.

(** A class body can refer to its own references and to its fields; no function of the object
    assigns its attributes. *)
Definition plain_rid (r : rid) : Prop := r_kind r = KUser \/ r_kind r = KField.
Definition plain_arg (a : arg) : Prop := match a with AConst _ => True | ARef r => plain_rid r end.
Definition plain_user (u : uref) : Prop :=
  match u with
  | UConst _ | UTotal | UInputLen | UAttr _ | UAfter _ | UFieldRef _ => True
  | UNum _ a b | UByteSlice a b => plain_arg a /\ plain_arg b
  | UNeg a | UCast a | UByteNum a | ULen a => plain_arg a
  | UList l | UMin l | UMax l | UFunc _ l => Forall plain_arg l
  | UMember _ _ => False
  | UBitNum p a => plain_rid p /\ plain_arg a
  | UBitSlice p a b => plain_rid p /\ plain_arg a /\ plain_arg b
  end.
Definition plain_field (f : field) : Prop :=
  plain_rid (f_where_pack f) /\ plain_rid (f_where_unpack f) /\ plain_rid (f_pack_if f) /\ plain_rid (f_unpack_if f)
  /\ match f_before f with Some (BRef r) => plain_rid r | _ => True end
  /\ Forall plain_arg (f_pack_args f) /\ Forall plain_arg (f_unpack_args f).
Definition plain (C : cls) : Prop := Forall plain_user (k_users C) /\ Forall plain_field (k_fields C).

(** ** set_before_pack *)
(** set_before_pack functions do not change the object themselves. *)
Definition quiet_before (C : cls) : Prop :=
  Forall (fun f => match f_before f with Some (BFun h) => forall a, snd (h a) = a | _ => True end) (k_fields C).
(** Where the value [v] of field number [i] came from, given what was evaluated. *)
Definition value_source (C : cls) (o : attrs) (m : memory) (f : field) (v : value) : Prop :=
  match f_before f with
  | None => Marshal.lookup o (f_name f) = Some v
  | Some (BValue x) => v = x
  | Some (BRef r) => RefEngine.lookup rid_eqb r m = Some (RVal v)
  | Some (BFun h) => exists a, same_but_assigned C o a /\ fst (h a) = Ok v
  end.
(** Part [p] is what the packer of [f] returned for the value that the object [o'] has after packing. *)
Definition packed_from (C : cls) (o o' : attrs) (m : memory) (f : field) (p : part) : Prop :=
  match p with
  | None => True
  | Some (b, _) => exists v args n, Marshal.lookup o' (f_name f) = Some v /\ f_pack f args v n = Ok b /\ value_source C o m f v
  end.
