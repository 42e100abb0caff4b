(** Specification vocabulary for marshals: which values a definition is meant to carry. *)
From Verif Require Import Base IntCodec CodecSpec Stream StreamSpec MinMax Marshal BitFieldSpec.
From Coq Require Import ZArith List Bool String.
Import ListNotations.
Open Scope Z_scope.

(** The bytes a successful write appends. *)
Definition bytes_of (h : host) (m : marshal) (v : value) : list Z := snd (write h m v []).

(** The class name of a struct definition. *)
Definition class_name (m : marshal) : option name :=
  match m with MStruct n _ _ => Some n | _ => None end.

(** A well-formed group of bit fields of [size] bytes: all fields sequential ([q = true]) or all
    positional, inside the container, on disjoint bits. *)
Definition bitgroup_ok (q : bool) (size : Z) (bs : list bitfield) : Prop :=
  0 <= size <= maxsize
  /\ Forall (fun f => bm_sequential (bf_marshal f) = q) bs
  /\ Forall (fun f => bm_wf (bf_marshal f)) bs
  /\ fields_fit bs 0 (8 * size)
  /\ fields_disjoint bs 0.

(** A value is canonical for a marshal, in the context [c] in which it will be read back, when it
    is of the right type, in range, without strippable padding, of the right length, and - for
    readers that take nothing from the stream - what the reader computes.  [t] tells whether the
    stream it will be read from supports [tell] (needed by byte-count arrays). *)
Fixpoint canon (h : host) (t : bool) (m : marshal) (c : ctx) (v : value) {struct m} : Prop :=
  match m with
  | MInt f => exists z, v = VInt z /\ int_representable f z
  | MFloat f => exists p, v = VFloat p /\ float_representable f p
  | MConst w => v = w
  | MCall func => func c = RRet (Ok v)
  | MPtr n => py_getattr (ctx_get c "struct"%string) n = Ok v
  | MVarStr sz padding d =>
      exists b, v = VBytes b /\ bytes_ok b /\ zlen b <= maxsize
                /\ _strip (VBytes b) d padding = Ok (VBytes b)
                /\ canon h t sz c (VInt (zlen b))
  | MPadStr size padding d =>
      exists b, v = VBytes b /\ bytes_ok b /\ zlen b <= size <= maxsize
                /\ _strip (VBytes b) d padding = Ok (VBytes b)
                /\ (zlen b = size
                    \/ ((d = PRight \/ d = PBoth)
                        /\ exists p0 ps, padding = VBytes (p0 :: ps) /\ is_byte p0))
  | MBytePad size ch => v = VNone /\ 0 <= size <= maxsize /\ is_byte ch
  | MVarArr sz el =>
      exists l, v = VList l /\ Forall (canon h t el c) l /\ canon h t sz c (VInt (zlen l))
  | MFixArr n el =>
      exists l, v = VList l /\ Forall (canon h t el c) l /\ zlen l = n
  | MSumArr sz el =>
      t = true /\
      exists l, v = VList l /\ Forall (canon h t el c) l
                /\ Forall (fun x => sizeof el x = Ok (zlen (bytes_of h el x))
                                    /\ 0 < zlen (bytes_of h el x)) l
                /\ canon h t sz c (VInt (fold_left Z.add (map (fun x => zlen (bytes_of h el x)) l) 0))
  | MMap tbl m' =>
      exists w, dict_get tbl v = Ok w /\ map_reverse tbl w = Ok v /\ canon h t m' c w
  | MStruct cls cctx fs =>
      exists a, v = VObj cls a /\
        (fix go (fs : list field) (a_in : attrs) : Prop :=
           match fs with
           | [] => a_in = a
           | f :: r => exists a_mid, canon_field h t cls cctx c f a a_in a_mid /\ go r a_mid
           end) fs (new_attrs fs [])
  | MSel key mapping default =>
      match default with
      | None => False
      | Some d =>
          exists cls a k, v = VObj cls a
            /\ Forall (fun p => class_name (snd p) <> Some cls) mapping
            /\ canon h false d c v
            /\ canon h false key c k /\ hashable k = true
            /\ exists r, bytes_of h d v = bytes_of h key k ++ r
      end
  | MFunSel choices func _ =>
      exists cls a i, v = VObj cls a
        (* the object's class is the i-th choice, and the function picks it by looking at no
           more than the object's own bytes *)
        /\ (fix at_index (l : list marshal) (j : nat) : Prop :=
              match l, j with
              | [], _ => False
              | m' :: _, O =>
                  class_name m' = Some cls
                  /\ canon h false m' c v
                  /\ rprog_ok (func c)
                  /\ forall tl, exists k, (k <= List.length (bytes_of h m' v))%nat
                       /\ run_rprog (func c) (stream_of (bytes_of h m' v ++ tl))
                          = (Ok i, consume k (stream_of (bytes_of h m' v ++ tl)))
              | m' :: r, S j' => class_name m' <> Some cls /\ at_index r j'
              end) choices i
  end
(** [canon_field ... f a a_in a_out]: field [f] of an object with attributes [a] is canonical when
    the fields read before it gave the attributes [a_in]; reading it leads to [a_out]. *)
with canon_field (h : host) (t : bool) (cls : name) (cctx : option ctx) (c : ctx) (f : field)
                 (a a_in a_out : attrs) {struct f} : Prop :=
  let c' := get_updated_context cctx (VObj cls a_in) c in
  match f with
  | FField n m d =>
      canon h t m c' (field_value n d a) /\ a_out = set_attr a_in n (field_value n d a)
  | FAnon m => canon h t m c' VNone /\ a_out = a_in
  | FConst n m k => canon h t m c' k /\ py_eq k k = true /\ a_out = a_in
  | FOpt n m pred d =>
      exists b, pred (VObj cls a_in) c' = RRet (Ok b)
        /\ if (b : bool)
           then field_value n d a <> VNone /\ canon h t m c' (field_value n d a)
                /\ a_out = set_attr a_in n (field_value n d a)
           else field_value n d a = VNone /\ a_out = a_in
  | FGroup fs =>
      (fix go (fs : list field) (a_in : attrs) : Prop :=
         match fs with
         | [] => a_in = a_out
         | f' :: r => exists a_mid, canon_field h t cls cctx c f' a a_in a_mid /\ go r a_mid
         end) fs a_in
  | FBits bs =>
      bitgroup_ok true (bits_size bs) bs
      /\ Forall (fun b => bm_accepts (bf_marshal b) (bf_value b a)) bs
      /\ fields_norm bs a a_in = Ok a_out
  | FPosBits size bs =>
      bitgroup_ok false size bs
      /\ Forall (fun b => bm_accepts (bf_marshal b) (bf_value b a)) bs
      /\ fields_norm bs a a_in = Ok a_out
  end.

Definition canon_fields (h : host) (t : bool) (cls : name) (cctx : option ctx) (c : ctx) (a a_end : attrs)
  : list field -> attrs -> Prop :=
  fix go (fs : list field) (a_in : attrs) : Prop :=
    match fs with
    | [] => a_in = a_end
    | f :: r => exists a_mid, canon_field h t cls cctx c f a a_in a_mid /\ go r a_mid
    end.
