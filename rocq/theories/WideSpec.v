(** Specification vocabulary: layouts with fields that leave the end of the input to the fields behind
    them (a list with a number of elements at [bytes_ref[a:]], and the next field after it), and with
    references to member functions, which look at the object being unpacked. *)
From Verif Require Import Base Stream Marshal Range RangeSpec IoBuffer IoSpec Serialize SerializeSpec RefEngine RefSpec BufferModel BufferSpec SeeSpec.
From Coq Require Import ZArith List Bool String.
Import ListNotations.
Open Scope list_scope.
Open Scope Z_scope.

(** As [given], but a reference may also look at the object: its value is [v] whenever the facts [know]
    hold and the attributes of the object are [ok]. *)
Inductive sgiven (C : cls) (know : lfact -> Prop) (ok : attrs -> Prop) : rid -> rv -> Prop :=
| sgiven_given r v : given C know r v -> sgiven C know ok r v
| sgiven_user k v : sgiven_prog C know ok (nodes C (mkRid KUser k)) v -> sgiven C know ok (mkRid KUser k) v
with sgiven_prog (C : cls) (know : lfact -> Prop) (ok : attrs -> Prop) : bprog -> rv -> Prop :=
| sgiven_ret v : sgiven_prog C know ok (PRet v) v
| sgiven_ref r k v w : sgiven C know ok r v -> sgiven_prog C know ok (k v) w -> sgiven_prog C know ok (PRef r k) w
| sgiven_look g k v w : (forall s, ok (s_obj s) -> g s = (Ok v, s)) -> sgiven_prog C know ok (k v) w -> sgiven_prog C know ok (PCtx g k) w.
Definition sgiven_arg (C : cls) (know : lfact -> Prop) (ok : attrs -> Prop) (a : arg) (v : rv) : Prop :=
  match a with AConst x => v = x | ARef r => sgiven C know ok r v end.

(** The object has the attributes [extra]: others than the fields', with values that are known. *)
Definition has_attrs (extra a : attrs) : Prop := forall n v, In (n, v) extra -> Marshal.lookup a n = Some v.
(** What a member function or a selector may rely on: the fields with the numbers [sees] have been dealt
    with, and the object has the attributes [extra]. *)
Definition sight (C : cls) (lay : layout) (extra : attrs) (sees : list nat) (a : attrs) : Prop :=
  values_seen C lay sees a /\ has_attrs extra a.

(** ** Packing *)
(** Field number [i] is packed as the layout says: the first half of [laid_out]. *)
Definition packed_as (C : cls) (lay : layout) (o : attrs) (vrank qrank : nat -> nat) (i : nat) (f : field) (e : entry) : Prop :=
  let for_value := known lay (below vrank qrank (vrank i)) in
  let for_place := known lay (below vrank qrank (qrank i)) in
  given C for_place (f_where_pack f) (RRanges (e_write e))
  /\ open_until (e_write e) (e_place e) (fun front a => a + 8 * blen (e_buf e) - zlen (all_positions front))
  /\ (e_write e <> e_place e -> (vrank i < qrank i)%nat)
  /\ (exists c, given C (known lay anything) (f_pack_if f) c /\ truthy c = true)
  /\ value_to_pack C for_value o f (e_value e)
  /\ exists pargs, Forall2 (given_arg C for_place) (f_pack_args f) pargs
     /\ f_pack f pargs (e_value e) (given_size f (e_write e)) = Ok (e_buf e) /\ buf_ok (e_buf e)
     /\ zlen (all_positions (e_place e)) <= zlen (pad_to_byte (buf_bits (e_buf e))).
Definition class_packs (C : cls) (lay : layout) (o : attrs) : Prop :=
  List.length lay = List.length (k_fields C)
  /\ exists vrank qrank, forall i f, nth_error (k_fields C) i = Some f ->
       match nth_error lay i with
       | Some (Some e) => packed_as C lay o vrank qrank i f e
       | _ => exists c, given C (known lay anything) (f_pack_if f) c /\ truthy c = false
       end.
(** The same without the conditions: where the fields of the layout would be put, and as what. *)
Definition placed_as (C : cls) (lay : layout) (o : attrs) (vrank qrank : nat -> nat) (i : nat) (f : field) (e : entry) : Prop :=
  let for_value := known lay (below vrank qrank (vrank i)) in
  let for_place := known lay (below vrank qrank (qrank i)) in
  given C for_place (f_where_pack f) (RRanges (e_write e))
  /\ open_until (e_write e) (e_place e) (fun front a => a + 8 * blen (e_buf e) - zlen (all_positions front))
  /\ (e_write e <> e_place e -> (vrank i < qrank i)%nat)
  /\ value_to_pack C for_value o f (e_value e)
  /\ exists pargs, Forall2 (given_arg C for_place) (f_pack_args f) pargs
     /\ f_pack f pargs (e_value e) (given_size f (e_write e)) = Ok (e_buf e) /\ buf_ok (e_buf e)
     /\ zlen (all_positions (e_place e)) <= zlen (pad_to_byte (buf_bits (e_buf e))).
Definition class_places (C : cls) (lay : layout) (o : attrs) : Prop :=
  List.length lay = List.length (k_fields C)
  /\ exists vrank qrank, forall i f e, nth_error (k_fields C) i = Some f -> nth_error lay i = Some (Some e) ->
       placed_as C lay o vrank qrank i f e.
(** No field ends behind the byte_size of the class. *)
Definition within_size (C : cls) (lay : layout) : Prop :=
  match k_size C with
  | Some k => 0 <= k /\ forall r e, In r (List.concat (places lay)) -> r_stop r = Some e -> e <= k
  | None => True
  end.
(** The bits of the packed field [e]: those of the packed value, zeros to the next whole byte, as many as
    the place holds. *)
Definition packed_bits (e : entry) : list bool :=
  firstn (Z.to_nat (zlen (all_positions (e_place e)))) (pad_to_byte (buf_bits (e_buf e))).

(** ** Unpacking *)
(** Where the field [e] is read from in an input of [n] bits: its place; or, if its position is open, from
    the start of its place to the end of the input. *)
Definition reads_at (e : entry) (n : Z) (from : list srange) : Prop :=
  (e_read e = e_place e /\ from = e_place e)
  \/ exists front a x, e_read e = front ++ [mkR a None] /\ e_place e = front ++ [mkR a (Some x)] /\ from = front ++ [mkR a (Some n)]
       /\ x <= n /\ Forall (fun q => exists s, r_stop q = Some s /\ s <= a) front.
(** Field number [i] is read from [bits] as the layout says, whatever else the input holds: its position
    and the arguments of its unpacker are given by fields read before and by what it sees of the object,
    and the unpacker gives the value of the layout for the bits it gets. *)
Definition read_as (C : cls) (lay : layout) (urank : nat -> nat) (extra : attrs) (sees : list nat) (bits : list bool) (n : Z) (i : nat)
    (f : field) (e : entry) : Prop :=
  let for_reading := known lay (read_before urank (urank i)) in
  sgiven C for_reading (sight C lay extra sees) (f_where_unpack f) (RRanges (e_read e))
  /\ (exists c, given C (known lay not_total) (f_unpack_if f) c /\ truthy c = true)
  /\ f_after f = None
  /\ Forall (fun j => exists e', nth_error lay j = Some (Some e')) (f_unpack_after f)
  /\ exists uargs from, Forall2 (sgiven_arg C for_reading (sight C lay extra sees)) (f_unpack_args f) uargs
     /\ reads_at e n from
     /\ forall a b', sight C lay extra sees a -> buf_ok b' -> is_view b' -> buf_bits b' = flat_map (range_bits bits) from ->
          f_unpack f uargs a b' (given_size f from) = Ok (e_value e, e_used e).
Definition not_read (C : cls) (lay : layout) (f : field) : Prop :=
  exists c, given C (known lay not_total) (f_unpack_if f) c /\ truthy c = false.
Definition class_reads (C : cls) (lay : layout) (extra : attrs) (bits : list bool) : Prop :=
  List.length lay = List.length (k_fields C)
  /\ Forall (fun x => ~ In (fst x) (map f_name (k_fields C))) extra
  /\ exists urank sees, forall i f, nth_error (k_fields C) i = Some f ->
       (sees i = [] \/ in_turn C lay urank (sees i) i)
       /\ match nth_error lay i with
          | Some (Some e) => read_as C lay urank extra (sees i) bits (8 * ((zlen bits + 7) / 8)) i f e
          | _ => not_read C lay f
          end.
(** The ranges of one field are closed and apart; fields may overlap. *)
Definition neat (r : list srange) : Prop :=
  Forall closed r /\ pairwise_disjoint r /\ ((exists x, r = [x]) \/ Forall nonempty_range r).
(** The size unpack returns. *)
Definition read_size (C : cls) (lay : layout) (n : Z) : Prop :=
  match k_size C with Some k => k = n | None => reads_until lay n end.

(** ** Both *)
(** [e] is a field as it was packed, [e'] as it is read: at the same place, from the bits it was packed as;
    if it is [wide], also when the input goes on behind them. *)
Definition read_back_as (C : cls) (back : layout) (urank : nat -> nat) (extra : attrs) (sees : list nat) (wide : bool) (i : nat)
    (f : field) (e e' : entry) : Prop :=
  let for_reading := known back (read_before urank (urank i)) in
  e_place e' = e_place e
  /\ sgiven C for_reading (sight C back extra sees) (f_where_unpack f) (RRanges (e_read e'))
  /\ (exists c, given C (known back not_total) (f_unpack_if f) c /\ truthy c = true)
  /\ f_after f = None
  /\ Forall (fun j => exists e', nth_error back j = Some (Some e')) (f_unpack_after f)
  /\ exists uargs, Forall2 (sgiven_arg C for_reading (sight C back extra sees)) (f_unpack_args f) uargs
     /\ forall n from rest a b', reads_at e' n from -> (from = e_place e' -> rest = []) -> (wide = false -> from = e_place e') ->
          sight C back extra sees a -> buf_ok b' -> is_view b' -> buf_bits b' = packed_bits e ++ rest ->
          zlen (buf_bits b') <= zlen (all_positions from) ->
          f_unpack f uargs a b' (given_size f from) = Ok (e_value e', e_used e').
(** The object [o] is packed as [lay] and read as [back]; [wide i]: whether field number [i] leaves the
    end of the input to others. *)
Definition class_layout_within (C : cls) (lay back : layout) (o extra : attrs) (wide : nat -> bool) : Prop :=
  class_packs C lay o /\ List.length back = List.length (k_fields C)
  /\ Forall (fun x => ~ In (fst x) (map f_name (k_fields C))) extra
  /\ exists urank sees, forall i f, nth_error (k_fields C) i = Some f ->
       (sees i = [] \/ in_turn C back urank (sees i) i)
       /\ match nth_error lay i, nth_error back i with
          | Some (Some e), Some (Some e') => read_back_as C back urank extra (sees i) (wide i) i f e e'
          | Some None, Some None => not_read C back f
          | _, _ => False
          end.
(** All fields can be read from an input of [n] bits. *)
Definition input_fits (lay : layout) (wide : nat -> bool) (n : Z) : Prop :=
  forall i e, nth_error lay i = Some (Some e) -> exists from, reads_at e n from /\ (wide i = false -> from = e_place e).

(** Unpacking anything that starts with [bits] gives [v], and says that [used] bits were used; the byte_size
    (in bits) is not smaller than what there is. *)
Definition reads_start (f : field) (uargs : list rv) (ok : attrs -> Prop) (bits : list bool) (v : value) (used : option Z) : Prop :=
  forall a b rest size, ok a -> view_with b (bits ++ rest) ->
    match size with Some w => zlen (buf_bits b) <= w | None => True end ->
    f_unpack f uargs a b size = Ok (v, used).
