(** Model of buffer/buffer.py, buffer/field_reference_builder.py and the references of
    buffer/reference/*.py: packing and unpacking of Buffer objects.

    Every reference object of a class is a [rid]: the ones the builder creates for field number [i]
    and the ones the user wrote, numbered.  [nodes] gives the [evaluate] method of each.

    Numbers of bytes are in bits where they are not attribute values; a number of bytes that is
    integral is an int (Python may have a float with the same value).
    Simplifications: an object reference holding a constant is evaluated in place; references to
    references and to the context itself are not values; a user function sees and changes only the
    object; a packer or unpacker does not change the object it belongs to (a nested object is a
    value: attributes that packing assigns in the nested object are not written back to it). *)
From Verif Require Import Base Marshal Range RangeRef IoBuffer RefEngine.
From Coq Require Import ZArith List Bool String.
Import ListNotations.
Open Scope string_scope.
Open Scope list_scope.
Open Scope Z_scope.

(** ** Values of references *)
Inductive rv : Type :=
| RVal (v : value)                     (* attribute values; ints, bools as 0 and 1, None *)
| RFrac (bits : Z)                     (* a number of bytes that is not integral *)
| RRanges (l : list srange)            (* SequentialRangeList *)
| RBuf (b : buf)                       (* a packed field, a part of the input *)
| RPair (v : value) (size : option Z). (* what an unpacker returns; size in bits *)

(** A number of bytes as a value, and back. *)
Definition rnum (bits : Z) : rv := if bits mod 8 =? 0 then RVal (VInt (bits / 8)) else RFrac bits.
Definition num_bits (v : rv) : res Z :=
  match v with
  | RVal (VInt n) => Ok (8 * n)
  | RFrac b => Ok b
  | RVal (VFloat _) => Err NotModelled          (* arithmetic with the values of float fields *)
  | _ => Err TypeError
  end.
Definition opt_num_bits (v : rv) : res (option Z) :=
  match v with RVal VNone => Ok None | _ => let* n := num_bits v in Ok (Some n) end.
Definition rsize (n : option Z) : rv := match n with None => RVal VNone | Some b => rnum b end.
Definition as_value (v : rv) : res value := match v with RVal x => Ok x | _ => Err NotModelled end.
Definition as_ranges (v : rv) : res (list srange) :=
  match v with RRanges l => Ok l | _ => Err AttributeError end.
Definition as_buf (v : rv) : res buf := match v with RBuf b => Ok b | _ => Err NotModelled end.
Definition as_pair (v : rv) : res (value * option Z) :=
  match v with RPair x n => Ok (x, n) | _ => Err TypeError end.
Definition rbool (b : bool) : rv := RVal (VInt (if b then 1 else 0)).

(** Python truth of a value. *)
Definition truthy (v : rv) : bool :=
  match v with
  | RVal VNone => false
  | RVal (VInt n) => negb (n =? 0)
  | RVal (VFloat p) => negb ((p =? 0) || (p =? 2 ^ 63))
  | RVal (VBytes l) => match l with [] => false | _ => true end
  | RVal (VStr l) => match l with [] => false | _ => true end
  | RVal (VList l) => match l with [] => false | _ => true end
  | RVal (VObj _ _) => true
  | RFrac _ => true
  | RRanges l => match l with [] => false | _ => true end
  | RBuf b => negb (blen b =? 0)
  | RPair _ _ => true
  end.

(** ** References *)
Inductive kind : Type :=
| KPackPos | KPackLen | KBefore | KPackValue | KPack
| KUnpackPos | KUnpackLen | KPart | KUnpack | KFieldUnpack | KUnpackValue
| KField | KUser | KTotal.
Scheme Equality for kind.
(** A reference of field number [r_no] (or number [r_no] of the user's). *)
Record rid : Type := mkRid { r_kind : kind; r_no : nat }.
Definition rid_eqb (a b : rid) : bool := kind_beq (r_kind a) (r_kind b) && Nat.eqb (r_no a) (r_no b).

(** The state outside the engine: attributes of the object; the input when unpacking. *)
Record bst : Type := mkBst { s_obj : attrs; s_input : option buf }.

Definition bprog : Type := prog rid rv bst.

(** An argument: a constant or a reference. *)
Inductive arg : Type := AConst (v : rv) | ARef (r : rid).

Inductive numop : Type := OpAdd | OpSub | OpMul | OpFloorDiv | OpLe | OpLt | OpGe | OpGt | OpEq | OpNe.

(** The references a user can write. *)
Inductive uref : Type :=
| UConst (v : rv)                                  (* reference.py:294 ObjectReference *)
| UNum (op : numop) (a b : arg)                    (* reference.py:270 NumericBinaryExpression *)
| UNeg (a : arg)                                   (* reference.py:250 NumericUnaryExpression *)
| UCast (a : arg)                                  (* reference.py:311 NumericCastReference *)
| UByteSlice (start stop : arg)                    (* reference/range.py:54 *)
| UByteNum (a : arg)                               (* reference/range.py:77 *)
| UList (l : list arg)                             (* reference/range.py:31 *)
| UBitNum (parent : rid) (a : arg)                 (* reference/range.py:109 *)
| UBitSlice (parent : rid) (start stop : arg)      (* reference/range.py:132 *)
| UAfter (i : nat)                                 (* after_field.py: after_ref(field) *)
| UTotal                                           (* total_size.py: total_size *)
| ULen (a : arg)                                   (* builtins.py:5 len_ref *)
| UMin (l : list arg) | UMax (l : list arg)        (* builtins.py:51-66 *)
| UInputLen                                        (* contexts.py:63 input_buffer_length *)
| UAttr (n : name)                                 (* field_or_attr.py:7 self_ref.n *)
| UFieldRef (i : nat)                              (* field.py:32 a field used as a reference *)
| UFunc (f : list rv -> res rv) (args : list arg)  (* func_call.py: a function of values *)
| UMember (f : list rv -> attrs -> res rv * attrs) (args : list arg). (* macros.py:329: ... of the object *)

(** field_reference_builder.py:210-223: set_before_pack. *)
Inductive before : Type :=
| BFun (f : attrs -> res value * attrs)
| BValue (v : value)
| BRef (r : rid).

(** One field: macros.py:79-322 and field_reference_builder.py:126-245. *)
Record field : Type := mkField {
  f_name : name;
  f_default : value;
  f_where_pack : rid;
  f_where_unpack : rid;
  f_pack_if : rid;
  f_unpack_if : rid;
  f_before : option before;
  f_after : option (value -> res value);            (* set_after_unpack *)
  f_unpack_after : list nat;
  f_size : option Z;                                (* byte_size keyword, in bits *)
  f_pack_args : list arg;                           (* further keywords *)
  f_unpack_args : list arg;
  f_pack : list rv -> value -> option Z -> res buf;
  f_unpack : list rv -> attrs -> buf -> option Z -> res (value * option Z) }.

(** A class: its fields in the order of _all_fields (buffer.py:156-161), the references of the
    user, and [byte_size] (in bits). *)
Record cls : Type := mkCls { k_fields : list field; k_users : list uref; k_size : option Z }.

Section Nodes.
Variable C : cls.

Definition lift (m : res rv) (k : rv -> bprog) : bprog := match m with Ok v => k v | Err e => PRaise e end.
Definition ret (m : res rv) : bprog := lift m PRet.
Definition ev (a : arg) (k : rv -> bprog) : bprog :=
  match a with AConst v => k v | ARef r => PRef r k end.
Fixpoint ev_list (l : list arg) (k : list rv -> bprog) : bprog :=
  match l with
  | [] => k []
  | a :: r => ev a (fun v => ev_list r (fun vs => k (v :: vs)))
  end.
Fixpoint ev_refs (l : list rid) (k : list rv -> bprog) : bprog :=
  match l with
  | [] => k []
  | a :: r => PRef a (fun v => ev_refs r (fun vs => k (v :: vs)))
  end.

(** [ctx.is_pack()] *)
Definition if_pack (p u : bprog) : bprog :=
  PCtx (fun s => (Ok (rbool (match s_input s with None => true | Some _ => false end)), s))
       (fun v => if truthy v then p else u).

(** [getattr(obj, n)], [setattr(obj, n, v)] *)
Definition get_attr (n : name) (k : rv -> bprog) : bprog :=
  PCtx (fun s => (match Marshal.lookup (s_obj s) n with Some v => Ok (RVal v) | None => Err AttributeError end, s)) k.
Definition assign (n : name) (v : rv) : bprog :=
  PCtx (fun s => match as_value v with
                 | Ok x => (Ok v, mkBst (set_attr (s_obj s) n x) (s_input s))
                 | Err e => (Err e, s)
                 end) PRet.

(** field_reference_builder.py:25-35: the packed field closes the open range. *)
Fixpoint close_packed (packed current : Z) (l : list srange) : res (list srange) :=
  match l with
  | [] => Ok []
  | pos :: rest =>
      let* abs_pos := to_closed pos (r_start pos + packed - current) in
      match byte_length abs_pos with
      | None => Err TypeError
      | Some n => let* r := close_packed packed (current + n) rest in Ok (abs_pos :: r)
      end
  end.

(** field_reference_builder.py:20-37 PackAbsolutePositionReference.evaluate *)
Definition pack_pos (f : field) (i : nat) : bprog :=
  PRef (f_where_pack f) (fun w =>
    match as_ranges w with
    | Err e => PRaise e
    | Ok l =>
        match has_overlaps l with
        | Err e => PRaise e
        | Ok true => PRaise ValueError
        | Ok false =>
            if list_is_open l then
              PRef (mkRid KPack i) (fun p =>
                ret (let* b := as_buf p in
                     let* r := close_packed (8 * blen b) 0 l in Ok (RRanges r)))
            else PRet w
        end
    end).

(** field_reference_builder.py:54-63 UnpackAbsolutePositionReference.evaluate *)
Definition unpack_pos (f : field) : bprog :=
  PRef (f_where_unpack f) (fun w =>
    match as_ranges w with
    | Err e => PRaise e
    | Ok l =>
        match has_overlaps l with
        | Err e => PRaise e
        | Ok true => PRaise ValueError
        | Ok false =>
            if list_is_open l then
              PCtx (fun s => (match s_input s with
                              | None => Err AttributeError
                              | Some b => let* r := list_to_closed l (8 * input_length b) in Ok (RRanges r)
                              end, s)) PRet
            else PRet w
        end
    end).

(** field_reference_builder.py:115-119: None if the position is open, before asking for it. *)
Definition pack_len (f : field) (i : nat) : bprog :=
  PRef (f_where_pack f) (fun w =>
    match as_ranges w with
    | Err e => PRaise e
    | Ok l =>
        if list_is_open l then PRet (RVal VNone)
        else PRef (mkRid KPackPos i) (fun p =>
               ret (let* r := as_ranges p in Ok (rsize (list_byte_length r))))
    end).

(** field_reference_builder.py:102-104 *)
Definition unpack_len (i : nat) : bprog :=
  PRef (mkRid KUnpackPos i) (fun p => ret (let* r := as_ranges p in Ok (rsize (list_byte_length r)))).

(** field_reference_builder.py:210-223: the object, the name, then the value. *)
Definition pack_value (f : field) (i : nat) : bprog :=
  match f_before f with
  | None => get_attr (f_name f) PRet
  | Some (BFun _) => PCtx (fun s => (Ok (RVal VNone), s)) (fun _ => PRef (mkRid KBefore i) (assign (f_name f)))
  | Some (BValue v) => assign (f_name f) (RVal v)
  | Some (BRef r) => PCtx (fun s => (Ok (RVal VNone), s)) (fun _ => PRef r (assign (f_name f)))
  end.

(** func_call.py:17-22 for a callable set_before_pack. *)
Definition before_value (f : field) : bprog :=
  match f_before f with
  | Some (BFun g) => PCtx (fun s => let '(r, o) := g (s_obj s) in (rmap RVal r, mkBst o (s_input s))) PRet
  | _ => PRaise NotModelled
  end.

Definition with_size (o : option Z) (r : rid) (k : rv -> bprog) : bprog :=
  match o with Some n => k (rnum n) | None => PRef r k end.

(** field_reference_builder.py:191-195: the value, then the size, then the other keywords. *)
Definition pack_ref (f : field) (i : nat) : bprog :=
  PRef (mkRid KPackValue i) (fun v =>
    with_size (f_size f) (mkRid KPackLen i) (fun n =>
      ev_list (f_pack_args f) (fun args =>
        ret (let* v := as_value v in let* n := opt_num_bits n in
             let* b := f_pack f args v n in Ok (RBuf b))))).

(** field_reference_builder.py:69-75 *)
Definition part (i : nat) : bprog :=
  PRef (mkRid KUnpackPos i) (fun p =>
    PCtx (fun s => (match s_input s with
                    | None => Err AttributeError
                    | Some b => let* l := as_ranges p in let* r := input_get b l in Ok (RBuf r)
                    end, s)) PRet).

(** field_reference_builder.py:197-203 *)
Definition unpack_ref (f : field) (i : nat) : bprog :=
  PRef (mkRid KPart i) (fun b =>
    with_size (f_size f) (mkRid KUnpackLen i) (fun n =>
      ev_list (f_unpack_args f) (fun args =>
        PCtx (fun s => (let* b := as_buf b in let* n := opt_num_bits n in
                        let* p := f_unpack f args (s_obj s) b n in Ok (RPair (fst p) (snd p)), s)) PRet))).

(** field_reference_builder.py:95-96 *)
Definition field_unpack (i : nat) : bprog :=
  PRef (mkRid KUnpack i) (fun p => ret (let* q := as_pair p in Ok (RVal (fst q)))).

(** field_reference_builder.py:225-234: with set_after_unpack nothing is assigned. *)
Definition unpack_value (f : field) (i : nat) : bprog :=
  match f_after f with
  | Some g => PRef (mkRid KFieldUnpack i) (fun v =>
                ret (let* x := as_value v in let* y := g x in Ok (RVal y)))
  | None => PCtx (fun s => (Ok (RVal VNone), s)) (fun _ =>
              PRef (mkRid KFieldUnpack i) (assign (f_name f)))
  end.

(** field.py:32-36 *)
Definition field_value (i : nat) : bprog :=
  if_pack (PRef (mkRid KPackValue i) PRet) (PRef (mkRid KUnpackValue i) PRet).

(** total_size.py:31-37 *)
Fixpoint unpack_ends (l : list (nat * field)) (k : list Z -> bprog) : bprog :=
  match l with
  | [] => k []
  | (i, f) :: r =>
      PRef (f_unpack_if f) (fun c =>
        if truthy c then
          PRef (mkRid KUnpack i) (fun p => PRef (mkRid KUnpackPos i) (fun q =>
            match (let* p := as_pair p in let* l := as_ranges q in
                   match snd p with None => Err TypeError | Some n => byte_offset l n end) with
            | Err e => PRaise e
            | Ok x => unpack_ends r (fun xs => k (x :: xs))
            end))
        else unpack_ends r (fun xs => k (0 :: xs)))
  end.

Definition numbered : list (nat * field) :=
  combine (seq 0 (List.length (k_fields C))) (k_fields C).

Definition opt_num (n : option Z) : res rv := match n with None => Err AssertionError | Some x => Ok (rnum x) end.

(** total_size.py:12-29 *)
Definition total_prog : bprog :=
  PCtx (fun s => (Ok (rsize (k_size C)), s)) (fun z =>
    match z with
    | RVal VNone =>
        if_pack
          (ev_refs (map (fun p => mkRid KPackPos (fst p)) numbered) (fun l =>
             ret (let* ls := rmap_list as_ranges l in opt_num (list_max_stop (List.concat ls)))))
          (unpack_ends numbered (fun l =>
             match l with [] => PRaise ValueError | x :: r => PRet (rnum (fold_left Z.max r x)) end))
    | _ => PRet z
    end).

(** after_field.py:12-27 *)
Definition after_prog (i : nat) (f : field) : bprog :=
  if_pack
    (PRef (mkRid KPackPos i) (fun p => ret (let* l := as_ranges p in Ok (rsize (list_max_stop l)))))
    (PRef (f_where_unpack f) (fun w =>
       match as_ranges w with
       | Err e => PRaise e
       | Ok l =>
           if list_is_open l then
             PRef (mkRid KUnpack i) (fun q =>
               ret (let* q := as_pair q in
                    let* s := py_sorted l in
                    match snd q with
                    | None => Err TypeError
                    | Some n => let* x := byte_offset s n in Ok (rnum x)
                    end))
           else PRef (mkRid KUnpackPos i) (fun p =>
                  ret (let* l := as_ranges p in Ok (rsize (list_max_stop l))))
       end)).

(** [==] between values that are not both ints or fractions.  What is not modelled: lists, objects (compared
    by identity), floats with numbers. *)
Definition values_eq (x y : rv) : res bool :=
  match x, y with
  | RVal a, RVal b =>
      match a, b with
      | VNone, VNone => Ok true
      | VStr l, VStr l' | VBytes l, VBytes l' => Ok (if list_eq_dec Z.eq_dec l l' then true else false)
      | VList _, VList _ | VObj _ _, VObj _ _ | VFloat _, VFloat _ | VFloat _, VInt _ | VInt _, VFloat _ => Err NotModelled
      | _, _ => Ok false
      end
  | RFrac _, RVal (VFloat _) | RVal (VFloat _), RFrac _ => Err NotModelled
  | RFrac _, RVal _ | RVal _, RFrac _ => Ok false
  | _, _ => Err NotModelled
  end.
(** The operators on anything else than two ints or fractions: None has none but [==] and [!=]; a number and a
    text or bytes have only the product.  Not modelled: concatenation, repetition and order of sequences,
    arithmetic with floats. *)
Definition is_none (v : rv) : bool := match v with RVal VNone => true | _ => false end.
Definition is_num (v : rv) : bool := match v with RVal (VInt _) | RFrac _ => true | _ => false end.
Definition is_text (v : rv) : bool := match v with RVal (VStr _) | RVal (VBytes _) => true | _ => false end.
Definition other_op (op : numop) (x y : rv) : res rv :=
  match op with
  | OpEq => let* b := values_eq x y in Ok (rbool b)
  | OpNe => let* b := values_eq x y in Ok (rbool (negb b))
  | _ =>
      if is_none x || is_none y then Err TypeError
      else if is_num x && is_text y || is_text x && is_num y
           then match op with OpMul => Err NotModelled | _ => Err TypeError end
           else Err NotModelled
  end.
(** operator.*; products and quotients that are no multiples of 1/8 are not modelled. *)
Definition num_op (op : numop) (x y : rv) : res rv :=
  match num_bits x, num_bits y with
  | Ok a, Ok b =>
      match op with
      | OpAdd => Ok (rnum (a + b))
      | OpSub => Ok (rnum (a - b))
      | OpMul => if (a * b) mod 8 =? 0 then Ok (rnum (a * b / 8)) else Err NotModelled
      | OpFloorDiv => if b =? 0 then Err ZeroDivisionError else Ok (rnum (8 * (a / b)))
      | OpLe => Ok (rbool (a <=? b))
      | OpLt => Ok (rbool (a <? b))
      | OpGe => Ok (rbool (b <=? a))
      | OpGt => Ok (rbool (b <? a))
      | OpEq => Ok (rbool (a =? b))
      | OpNe => Ok (rbool (negb (a =? b)))
      end
  | _, _ => other_op op x y
  end.

(** [len(x)] *)
Definition py_len (v : rv) : res rv :=
  match v with
  | RVal (VBytes l) | RVal (VStr l) => Ok (RVal (VInt (zlen l)))
  | RVal (VList l) => Ok (RVal (VInt (zlen l)))
  | RRanges l => Ok (RVal (VInt (zlen l)))
  | RBuf b => Ok (RVal (VInt (blen b)))
  | _ => Err TypeError
  end.

(** [min] and [max] of the arguments; with a single argument Python iterates over it.  Not modelled: other
    values than numbers and None; iterating over what is neither a number nor None. *)
Definition comparable (v : rv) : res Z :=
  match v with RVal VNone => Err TypeError | _ => if is_num v then num_bits v else Err NotModelled end.
Definition min_max (pick : Z -> Z -> Z) (l : list rv) : res rv :=
  match l with
  | [] => Err TypeError
  | [x] => let* _ := comparable x in Err TypeError
  | x :: r =>
      if forallb (fun v => is_num v || is_none v) l then
        let* a := comparable x in
        let* b := rmap_list comparable r in
        Ok (rnum (fold_left pick b a))
      else Err NotModelled
  end.

(** A number of bits given by the user (an int). *)
Definition bit_count (v : rv) : res Z :=
  match v with RVal (VInt n) => Ok n | RFrac _ | RVal (VFloat _) => Err NotModelled | _ => Err TypeError end.
Definition opt_bit_count (v : rv) : res (option Z) :=
  match v with RVal VNone => Ok None | _ => let* n := bit_count v in Ok (Some n) end.

(** reference/range.py:70-71: [SequentialRange(start, stop)] with numbers of bytes. *)
Definition slice_ranges (a b : rv) : res rv :=
  let* x := opt_num_bits a in
  let* y := opt_num_bits b in
  let* r := mk_srange x y in
  Ok (RRanges [r]).
(** reference/range.py:83-86 *)
Definition num_ranges (a : rv) : res rv :=
  let* x := num_bits a in
  let* _ := passert (0 <=? x) in
  let* r := mk_srange (Some x) (Some (x + 8)) in
  Ok (RRanges [r]).

(** The first field of that name (contexts.py:21-25). *)
Fixpoint find_field (n : name) (l : list (nat * field)) : option nat :=
  match l with
  | [] => None
  | (i, f) :: r => if String.eqb (f_name f) n then Some i else find_field n r
  end.

(** [assert len(range_list) >= 1] *)
Definition some_ranges (w : rv) (k : list srange -> bprog) : bprog :=
  match as_ranges w with
  | Err e => PRaise e
  | Ok [] => PRaise AssertionError
  | Ok l => k l
  end.

Definition user_prog (u : uref) : bprog :=
  match u with
  | UConst v => PRet v
  | UNum op a b => ev a (fun x => ev b (fun y => ret (num_op op x y)))
  | UNeg a => ev a (fun x => ret (let* n := num_bits x in Ok (rnum (- n))))
  | UCast a => ev a PRet
  | UByteSlice a b => ev a (fun x => ev b (fun y => ret (slice_ranges x y)))
  | UByteNum a => ev a (fun x => ret (num_ranges x))
  | UList l => ev_list l (fun vs => ret (let* ls := rmap_list as_ranges vs in
                                         let* r := list_ref ls in Ok (RRanges r)))
  | UBitNum p a => PRef p (fun w => some_ranges w (fun l => ev a (fun x =>
      ret (let* n := bit_count x in let* r := bit_num_ref l n in Ok (RRanges r)))))
  | UBitSlice p a b => PRef p (fun w => some_ranges w (fun l => ev a (fun x => ev b (fun y =>
      ret (let* n := opt_bit_count x in let* m := opt_bit_count y in
           let* r := bit_slice_ref l n m in Ok (RRanges r))))))
  | UAfter i => match nth_error (k_fields C) i with
                | Some f => after_prog i f
                | None => PRaise NotModelled
                end
  | UTotal => total_prog
  | ULen a => ev a (fun x => ret (py_len x))
  | UMin l => ev_list l (fun vs => ret (min_max Z.min vs))
  | UMax l => ev_list l (fun vs => ret (min_max Z.max vs))
  | UInputLen => PCtx (fun s => (match s_input s with
                                 | None => Err AttributeError
                                 | Some b => Ok (RVal (VInt (input_length b)))
                                 end, s)) PRet
  | UAttr n => match find_field n numbered with
               | Some i => PCtx (fun s => (Ok (RVal VNone), s)) (fun _ => PRef (mkRid KField i) PRet)
               | None => get_attr n PRet
               end
  | UFieldRef i => PRef (mkRid KField i) PRet
  | UFunc g l => ev_list l (fun vs => ret (g vs))
  | UMember g l => ev_list l (fun vs =>
      PCtx (fun s => let '(r, o) := g vs (s_obj s) in (r, mkBst o (s_input s))) PRet)
  end.

Definition field_node (k : kind) (i : nat) (f : field) : bprog :=
  match k with
  | KPackPos => pack_pos f i
  | KPackLen => pack_len f i
  | KBefore => before_value f
  | KPackValue => pack_value f i
  | KPack => pack_ref f i
  | KUnpackPos => unpack_pos f
  | KUnpackLen => unpack_len i
  | KPart => part i
  | KUnpack => unpack_ref f i
  | KFieldUnpack => field_unpack i
  | KUnpackValue => unpack_value f i
  | KField => field_value i
  | KUser | KTotal => PRaise NotModelled
  end.

Definition nodes (r : rid) : bprog :=
  match r_kind r with
  | KUser => match nth_error (k_users C) (r_no r) with
             | Some u => user_prog u
             | None => PRaise NotModelled
             end
  | KTotal => total_prog
  | k => match nth_error (k_fields C) (r_no r) with
         | Some f => field_node k (r_no r) f
         | None => PRaise NotModelled
         end
  end.

(** All references of the class. *)
Definition all_rids : list rid :=
  mkRid KTotal 0
  :: map (mkRid KUser) (seq 0 (List.length (k_users C)))
  ++ flat_map (fun i => map (fun k => mkRid k i)
       [KPackPos; KPackLen; KBefore; KPackValue; KPack; KUnpackPos; KUnpackLen; KPart; KUnpack;
        KFieldUnpack; KUnpackValue; KField]) (seq 0 (List.length (k_fields C))).

Definition fuel : nat := S (List.length all_rids).

(** ** Packing and unpacking *)
Record world : Type := mkW { w_ctx : ctx rid rv; w_st : bst; w_out : baa }.

(** [r.deref(ctx)] *)
Definition dref (r : rid) : stM world rv :=
  fun w => match deref rid_eqb nodes fuel r (w_ctx w) (w_st w) with
           | None => (Err Diverges, w)
           | Some (OOk v, c, s) => (Ok v, mkW c s (w_out w))
           | Some (ORaise e, c, s) => (Err e, mkW c s (w_out w))
           | Some (OCyclic _, c, s) => (Err CyclicReferenceError, mkW c s (w_out w))
           end.

(** buffer.py:111-113, 143-144: any exception becomes InstructBufferError. *)
Definition wrapped (e : exn) : exn :=
  match e with Diverges => Diverges | NotModelled => NotModelled | _ => InstructBufferError end.
Definition wrap {A} (m : stM world A) : stM world A :=
  fun w => match m w with (Err e, w') => (Err (wrapped e), w') | x => x end.

Definition out_set (b : buf) (l : list srange) : stM world unit :=
  fun w => match output_set b l (w_out w) with
           | (Ok _, x) => (Ok tt, mkW (w_ctx w) (w_st w) x)
           | (Err e, x) => (Err e, mkW (w_ctx w) (w_st w) x)
           end.

(** buffer.py:108-113 for one field. *)
Definition pack_field (i : nat) (f : field) : stM world unit :=
  c <- dref (f_pack_if f) ;;
  if truthy c then
    wrap (p <- dref (mkRid KPack i) ;;
          q <- dref (mkRid KPackPos i) ;;
          b <- slift (as_buf p) ;;
          l <- slift (as_ranges q) ;;
          out_set b l)
  else sret tt.

Definition start_pack (o : attrs) : world := mkW new_ctx (mkBst o None) (new_baa []).

(** buffer.py:117-127 *)
Definition fix_size (result : list Z) : res (list Z) :=
  match k_size C with
  | None => Ok result
  | Some n =>
      if n =? 0 then Ok result
      else
        let size := cdiv8 n in
        let* _ := passert (zlen result <=? size) in
        Ok (if zlen result <? size then result ++ repeat 0 (Z.to_nat (size - zlen result)) else result)
  end.

(** buffer.py:102-127 Buffer.pack: the bytes, and the object afterwards. *)
Definition buffer_pack (o : attrs) : res (list Z) * attrs :=
  match sforeach numbered (fun p => pack_field (fst p) (snd p)) (start_pack o) with
  | (Err e, w) => (Err e, s_obj (w_st w))
  | (Ok _, w) =>
      (let* l := buf_bytes (ba_view (w_out w)) in fix_size l, s_obj (w_st w))
  end.

Definition w_setattr (n : name) (v : value) : stM world unit :=
  fun w => (Ok tt, mkW (w_ctx w) (mkBst (set_attr (s_obj (w_st w)) n v) (s_input (w_st w))) (w_out w)).

(** buffer.py:135-144 for one field. *)
Definition unpack_field (i : nat) (f : field) : stM world unit :=
  wrap (c <- dref (f_unpack_if f) ;;
        if truthy c then
          do sforeach (f_unpack_after f) (fun j => do dref (mkRid KUnpackValue j) ;; sret tt) ;;
          do dref (mkRid KUnpackValue i) ;; sret tt
        else w_setattr (f_name f) VNone).

(** buffer.py:129-146 Buffer.unpack (calc_byte_size with its context: buffer.py:148-154): the size (in bits), and the object afterwards.  The argument
    is a bytearray or a BitView. *)
Definition buffer_unpack (b : buf) (o : attrs) : res Z * attrs :=
  match input_buffer b with
  | Err e => (Err e, o)
  | Ok input =>
      match sforeach numbered (fun p => unpack_field (fst p) (snd p))
              (mkW new_ctx (mkBst o (Some input)) (new_baa [])) with
      | (Err e, w) => (Err e, s_obj (w_st w))
      | (Ok _, w) =>
          match dref (mkRid KTotal 0) w with
          | (Err e, w') => (Err e, s_obj (w_st w'))
          | (Ok v, w') => (num_bits v, s_obj (w_st w'))
          end
      end
  end.

(** buffer.py:88-100 Buffer.__init__ *)
Fixpoint init_kwargs (kwargs : attrs) (o : attrs) : res attrs :=
  match kwargs with
  | [] => Ok o
  | (n, v) :: r =>
      let* _ := passert (existsb (fun f => String.eqb (f_name f) n) (k_fields C)) in
      init_kwargs r (set_attr o n v)
  end.
Definition buffer_init (kwargs : attrs) : res attrs :=
  let* o := init_kwargs kwargs [] in
  Ok (fold_left (fun o f => match Marshal.lookup o (f_name f) with
                            | Some _ => o
                            | None => set_attr o (f_name f) (f_default f)
                            end) (k_fields C) o).

End Nodes.

(** buffer.py:69-82 BufferType.calc_byte_size: a class whose own fields are [own].  [Ok None] if
    some position is not static. *)
Fixpoint static_size (C : cls) (l : list (nat * field)) (c : ctx rid rv) (acc : list srange) : res (option Z) :=
  match l with
  | [] => Ok (list_max_stop acc)
  | (i, f) :: r =>
      let st := mkBst [] None in
      match is_static rid_eqb (nodes C) (fuel C) st (mkRid KPackPos i) with
      | None => Err Diverges
      | Some (Err e) => Err (wrapped e)
      | Some (Ok false) => Ok None
      | Some (Ok true) =>
          match is_static rid_eqb (nodes C) (fuel C) st (mkRid KUnpackPos i) with
          | None => Err Diverges
          | Some (Err e) => Err (wrapped e)
          | Some (Ok false) => Ok None
          | Some (Ok true) =>
              match deref rid_eqb (nodes C) (fuel C) (mkRid KPackPos i) c st with
              | None => Err Diverges
              | Some (OOk (RRanges p), c', _) => static_size C r c' (acc ++ p)
              | Some (OOk _, _, _) => Err NotModelled
              | Some (ORaise e, _, _) => Err (wrapped e)
              | Some (OCyclic _, _, _) => Err InstructBufferError
              end
          end
      end
  end.

(** buffer.py:50-67 BufferType.__new__ for a class without a byte_size attribute and without base
    classes that have fields.  The context is PackContext(None, fields): nothing static uses it. *)
Definition make_class (fields : list field) (users : list uref) : res cls :=
  let C := mkCls fields users None in
  let* n := static_size C (numbered C) new_ctx [] in
  Ok (mkCls fields users n).
(** ... with base classes: [_all_fields] has the new fields first, then those of the bases; only the
    new ones count for byte_size. *)
Definition make_subclass (fields inherited : list field) (users : list uref) : res cls :=
  let C := mkCls (fields ++ inherited) users None in
  let* n := static_size C (firstn (List.length fields) (numbered C)) new_ctx [] in
  Ok (mkCls (fields ++ inherited) users n).
