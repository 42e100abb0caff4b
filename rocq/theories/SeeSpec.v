(** Specification vocabulary: layouts with fields whose unpacker looks at the object being unpacked
    (an unpack_selector gets the object). *)
From Verif Require Import Base Stream Marshal Range RangeSpec IoBuffer IoSpec RefEngine RefSpec BufferModel BufferSpec.
From Coq Require Import ZArith List Bool String.
Import ListNotations.
Open Scope list_scope.
Open Scope Z_scope.

(** As [codec_restores], for objects with attributes that are [ok]. *)
Definition codec_restores_if (ok : attrs -> Prop) (f : field) (pargs uargs : list rv) (psize usize : option Z) (len : Z)
    (v : value) (b : buf) (used : option Z) : Prop :=
  f_pack f pargs v psize = Ok b /\ buf_ok b /\ len <= zlen (pad_to_byte (buf_bits b))
  /\ forall a b', ok a -> buf_ok b' -> is_view b' ->
       buf_bits b' = firstn (Z.to_nat len) (pad_to_byte (buf_bits b)) -> f_unpack f uargs a b' usize = Ok (v, used).

(** What the attribute of field number [j] is once it was unpacked or left out. *)
Definition layout_value (lay : layout) (j : nat) : value :=
  match nth_error lay j with Some (Some e) => e_value e | _ => VNone end.
(** The fields with the numbers [sees] have been dealt with. *)
Definition values_seen (C : cls) (lay : layout) (sees : list nat) (a : attrs) : Prop :=
  forall j g, In j sees -> nth_error (k_fields C) j = Some g -> Marshal.lookup a (f_name g) = Some (layout_value lay j).

(** As [laid_out]; the unpacker may look at the attributes of the fields with the numbers [sees]. *)
Definition laid_out_seeing (C : cls) (lay : layout) (o : attrs) (vrank qrank urank : nat -> nat) (sees : list nat) (i : nat)
    (f : field) (e : entry) : Prop :=
  let for_value := known lay (below vrank qrank (vrank i)) in
  let for_place := known lay (below vrank qrank (qrank i)) in
  let for_reading := known lay (read_before urank (urank i)) in
  given C for_place (f_where_pack f) (RRanges (e_write e))
  /\ open_until (e_write e) (e_place e) (fun front a => a + 8 * blen (e_buf e) - zlen (all_positions front))
  /\ (e_write e <> e_place e -> (vrank i < qrank i)%nat)
  /\ given C for_reading (f_where_unpack f) (RRanges (e_read e))
  /\ (exists c, given C (known lay anything) (f_pack_if f) c /\ truthy c = true)
  /\ (exists c, given C (known lay not_total) (f_unpack_if f) c /\ truthy c = true)
  /\ value_to_pack C for_value o f (e_value e) /\ f_after f = None
  /\ Forall (fun j => exists e', nth_error lay j = Some (Some e')) (f_unpack_after f)
  /\ exists pargs uargs, Forall2 (given_arg C for_place) (f_pack_args f) pargs /\ Forall2 (given_arg C for_reading) (f_unpack_args f) uargs
     /\ codec_restores_if (values_seen C lay sees) f pargs uargs (given_size f (e_write e)) (given_size f (e_place e))
          (zlen (all_positions (e_place e))) (e_value e) (e_buf e) (e_used e).

(** Field number [i] is unpacked when it is its turn: it sees fields before it only, and what is
    evaluated up to then (conditions, places, arguments of the fields before it, the fields they are
    to be unpacked after) does not depend on it. *)
Definition in_turn (C : cls) (lay : layout) (urank : nat -> nat) (sees : list nat) (i : nat) : Prop :=
  Forall (fun j => (j < i)%nat) sees
  /\ forall k g, (k <= i)%nat -> nth_error (k_fields C) k = Some g ->
       ((k < i)%nat -> (urank k < urank i)%nat)
       /\ (exists c, given C (known lay (read_before urank (urank i))) (f_unpack_if g) c
             /\ truthy c = match nth_error lay k with Some (Some _) => true | _ => false end)
       /\ Forall (fun j => (urank j < urank i)%nat) (f_unpack_after g).

(** As [class_layout]; [sees i] are the numbers of the fields that the unpacker of field number [i]
    looks at. *)
Definition class_layout_seeing (C : cls) (lay : layout) (o : attrs) : Prop :=
  List.length lay = List.length (k_fields C)
  /\ exists vrank qrank urank sees, forall i f, nth_error (k_fields C) i = Some f ->
       (sees i = [] \/ in_turn C lay urank (sees i) i)
       /\ match nth_error lay i with
          | Some (Some e) => laid_out_seeing C lay o vrank qrank urank (sees i) i f e
          | _ => left_out C lay f
          end.
