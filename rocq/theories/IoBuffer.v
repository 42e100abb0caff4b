(** Model of buffer/io_buffer.py.  Offsets and lengths are counted in bits (Python: multiples of
    1/8 byte), bytes are integers.

    Simplifications: [__str__], [__repr__] and the Python 2 branches are left out; every
    operation sees its argument as it was before (IoShare has arrays that are their own argument,
    [a.extend(a)], and arrays on one bytearray). *)
From Verif Require Import Base Range.
From Coq Require Import ZArith List Bool.
Import ListNotations.
Open Scope Z_scope.

Definition cdiv8 (n : Z) : Z := (n + 7) / 8.       (* int(math.ceil(n)) *)

(** A readable buffer: a bytearray, or a BitView over another buffer (io_buffer.py:10-33). *)
Inductive buf : Type :=
| BArr (l : list Z)
| BView (inner : buf) (start stop : Z).

(** [len(b)]: io_buffer.py:41-42 for views. *)
Definition blen (b : buf) : Z :=
  match b with BArr l => zlen l | BView _ start stop => cdiv8 (stop - start) end.

(** io_buffer.py:21-32 *)
Definition mk_view (b : buf) (start stop : Z) : res buf :=
  let* _ := passert (0 <=? start) in
  let* _ := passert (stop <=? 8 * blen b) in
  let* _ := passert (start <=? stop) in
  Ok (BView b start stop).
Definition view_of (b : buf) : res buf := mk_view b 0 (8 * blen b).

(** io_buffer.py:70-71 *)
Definition blength (b : buf) : Z :=
  match b with BArr l => 8 * zlen l | BView _ start stop => stop - start end.

(** io_buffer.py:107-110 *)
Definition translate_offset (start stop ofs : Z) : Z :=
  let len := stop - start in
  (if ofs <? 0 then Z.max (ofs + len) 0 else Z.min ofs len) + start.

(** io_buffer.py:93-105 for a slice ([None] bounds allowed, step 1). *)
Definition key_to_range (start stop : Z) (a b : option Z) : res (Z * Z) :=
  let s := translate_offset start stop (match a with Some x => x | None => 0 end) in
  let e := translate_offset start stop (match b with Some x => x | None => stop - start end) in
  let* _ := passert ((s <=? e) && (0 <=? s)) in
  Ok (s, e).

(** io_buffer.py:78-92 [_get_byte_bits] over a buffer given by its indexing function and its
    length; io_buffer.py:6-7 for the division of the offset (towards zero). *)
Definition get_byte_bits (nth : Z -> res Z) (len : Z) (ofs bit_len : Z) : res Z :=
  let byte_ofs := Z.quot ofs 8 in
  let bit_ofs := Z.rem ofs 8 in
  let* one := py_shl1 bit_len in
  let bit_mask := one - 1 in
  if bit_ofs =? 0 then let* b := nth byte_ofs in Ok (Z.land b bit_mask)
  else if bit_ofs <? 0 then
    let* one := py_shl1 (bit_len + bit_ofs) in
    let* b := nth 0 in Ok (Z.land b (one - 1))
  else if bit_ofs + bit_len <=? 8 then
    let* b := nth byte_ofs in Ok (Z.land (Z.shiftr b bit_ofs) bit_mask)
  else
    let* cur := nth byte_ofs in
    let* next := if byte_ofs + 1 <? len then nth (byte_ofs + 1) else Ok 0 in
    Ok (Z.land (Z.lor (Z.land (Z.shiftr cur bit_ofs) 255)
                      (Z.land (Z.shiftl next (8 - bit_ofs)) 255)) bit_mask).

(** io_buffer.py:34-39 with a number as the key: [b[ofs]] ([ofs] in bits). *)
Definition view_index (nth : Z -> res Z) (len start stop ofs : Z) : res Z :=
  let s := translate_offset start stop ofs in
  get_byte_bits nth len s (Z.min 8 (stop - s)).

(** [b[i]], [i] in bytes. *)
Fixpoint buf_nth (b : buf) (i : Z) : res Z :=
  match b with
  | BArr l => py_nth l i
  | BView inner start stop => view_index (buf_nth inner) (blen inner) start stop (8 * i)
  end.

(** io_buffer.py:34-37, 73-76 with a slice as the key.  [slice] slices the inner buffer. *)
Definition view_slice (slice : Z -> Z -> res buf) (start stop : Z) (a b : option Z) : res buf :=
  let* p := key_to_range start stop a b in
  let start_byte_ofs := Z.quot (fst p) 8 in
  let stop_byte_ofs := cdiv8 (snd p) in
  let* inner := slice start_byte_ofs stop_byte_ofs in
  mk_view inner (fst p - 8 * start_byte_ofs) (snd p - 8 * start_byte_ofs).

(** [b[i:j]], bounds in bytes. *)
Fixpoint buf_slice_bytes (b : buf) (i j : Z) : res buf :=
  match b with
  | BArr l => Ok (BArr (py_slice l i j))
  | BView inner start stop =>
      view_slice (buf_slice_bytes inner) start stop (Some (8 * i)) (Some (8 * j))
  end.

(** [v[a:b]] on a view, bounds in bits. *)
Definition buf_slice (v : buf) (a b : option Z) : res buf :=
  match v with
  | BArr _ => Err NotModelled
  | BView inner start stop => view_slice (buf_slice_bytes inner) start stop a b
  end.

(** io_buffer.py:44-46 [list(v)]. *)
Definition buf_bytes (b : buf) : res (list Z) :=
  match b with
  | BArr l => Ok l
  | BView inner start stop =>
      rmap_list (fun i => get_byte_bits (buf_nth inner) (blen inner) (8 * i + start)
                            (Z.min (stop - 8 * i - start) 8))
                (py_range (blen b))
  end.

(** io_buffer.py:112-114 *)
Definition to_bytes (v : buf) : res (list Z) := buf_bytes v.

(** io_buffer.py:64-68; the fast path returns the bytes of the inner buffer as they are. *)
Definition to_bytearray (v : buf) : res buf :=
  match v with
  | BArr _ => Err NotModelled
  | BView inner start stop =>
      if start mod 8 =? 0 then buf_slice_bytes inner (start / 8) (cdiv8 stop)
      else let* l := buf_bytes v in Ok (BArr l)
  end.

(** io_buffer.py:57-62 (most significant bit first). *)
Definition to_bitstr (v : buf) : res (list bool) :=
  match v with
  | BArr _ => Err NotModelled
  | BView inner start stop =>
      let* bits := rmap_list (fun i => let* b := buf_nth inner (i / 8) in
                                       Ok (Z.testbit b (i mod 8)))
                             (py_range3 start stop 1) in
      Ok (rev bits)
  end.

(** ** BitAwareByteArray (io_buffer.py:117-275): mutable, always over a bytearray. *)
Record baa : Type := mkBa { ba_buf : list Z; ba_start : Z; ba_stop : Z }.
Definition ba_view (x : baa) : buf := BView (BArr (ba_buf x)) (ba_start x) (ba_stop x).

(** io_buffer.py:121-123 *)
Definition mk_baa (l : list Z) (start stop : Z) : res baa :=
  let* _ := mk_view (BArr l) start stop in Ok (mkBa l start stop).
Definition new_baa (l : list Z) : baa := mkBa l 0 (8 * zlen l).

Definition ba_load (i : Z) : stM baa Z :=
  fun x => (py_nth (ba_buf x) i, x).
Definition ba_store (i v : Z) : stM baa unit :=
  fun x => match ba_set (ba_buf x) i v with
           | Ok l => (Ok tt, mkBa l (ba_start x) (ba_stop x))
           | Err e => (Err e, x)
           end.
Definition ba_set_buf (l : list Z) : stM baa unit := fun x => (Ok tt, mkBa l (ba_start x) (ba_stop x)).
Definition ba_set_stop (n : Z) : stM baa unit := fun x => (Ok tt, mkBa (ba_buf x) (ba_start x) n).

(** io_buffer.py:238-244, the branches that touch one byte. *)
Definition set_in_byte (ofs bit_len value : Z) : stM baa unit :=
  let byte_ofs := Z.quot ofs 8 in
  let bit_ofs := Z.rem ofs 8 in
  if (bit_ofs =? 0) && (bit_len =? 8) then ba_store byte_ofs value
  else
    b <- ba_load byte_ofs ;;
    one <- slift (py_shl1 bit_len) ;;
    do slift (if bit_ofs <? 0 then Err ValueError else Ok tt) ;;
    do ba_store byte_ofs (Z.land b (Z.lnot (Z.shiftl (one - 1) bit_ofs))) ;;
    b <- ba_load byte_ofs ;;
    ba_store byte_ofs (Z.lor b (Z.land (Z.shiftl value bit_ofs) 255)).

(** io_buffer.py:238-248.  [bit_len] is at most 8, so the recursive calls stay in one byte. *)
Definition set_byte_bits (ofs bit_len value : Z) : stM baa unit :=
  let byte_ofs := Z.quot ofs 8 in
  let bit_ofs := Z.rem ofs 8 in
  if ((bit_ofs =? 0) && (bit_len =? 8)) || (bit_ofs + bit_len <=? 8) then set_in_byte ofs bit_len value
  else
    let first_byte_bit_len := 8 - bit_ofs in
    do set_in_byte ofs first_byte_bit_len (Z.land value (Z.shiftl 1 first_byte_bit_len - 1)) ;;
    set_in_byte (8 * (byte_ofs + 1)) (bit_len - first_byte_bit_len) (Z.shiftr value first_byte_bit_len).

(** [self._get_byte_bits] on the array itself. *)
Definition ba_get_byte_bits (ofs bit_len : Z) : stM baa Z :=
  fun x => (get_byte_bits (py_nth (ba_buf x)) (zlen (ba_buf x)) ofs bit_len, x).

(** io_buffer.py:183-188 *)
Fixpoint copy_loop (offset remaining : Z) (bytes : list Z) : stM baa unit :=
  match bytes with
  | [] => sret tt
  | byte :: rest =>
      do set_byte_bits offset (Z.min remaining 8) byte ;;
      copy_loop (offset + 8) (remaining - 8) rest
  end.
Definition copy_to_range (offset : Z) (bytes : list Z) (len : Z) : stM baa unit :=
  copy_loop offset len bytes.

(** io_buffer.py:203-207: the loop that shifts the rest of the array down. *)
Fixpoint shift_down (fuel : nat) (ofs frac : Z) : stM baa unit :=
  s <- sget ;;
  if ofs + frac <? ba_stop s then
    match fuel with
    | O => sraise Diverges
    | S k =>
        b <- ba_get_byte_bits (ofs + frac) 8 ;;
        do set_byte_bits ofs 8 b ;;
        shift_down k (ofs + 8) frac
    end
  else sret tt.

(** io_buffer.py:190-210 *)
Definition del_range (start stop : Z) : stM baa unit :=
  do slift (passert (start <=? stop)) ;;
  let start_byte := cdiv8 start in
  let stop_byte := stop / 8 in
  let delta := stop_byte - start_byte in
  stop' <- (if 1 <=? delta then
              s <- sget ;;
              do ba_set_buf (firstn (Z.to_nat start_byte) (ba_buf s) ++ skipn (Z.to_nat stop_byte) (ba_buf s)) ;;
              do ba_set_stop (ba_stop s - 8 * delta) ;;
              sret (stop - 8 * delta)
            else sret stop) ;;
  if start <? stop' then
    let frac := stop' - start in
    s <- sget ;;
    do shift_down (Z.to_nat (ba_stop s - start)) start frac ;;
    s <- sget ;;
    do ba_set_stop (ba_stop s - frac) ;;
    if cdiv8 (ba_stop s - frac) <? zlen (ba_buf s) then
      match ba_buf s with
      | [] => sraise IndexError
      | _ => ba_set_buf (removelast (ba_buf s))
      end
    else sret tt
  else sret tt.

(** io_buffer.py:232-235: the loop that shifts the rest of the array up, from the end. *)
Fixpoint shift_up (fuel : nat) (ofs start frac : Z) : stM baa unit :=
  if start <=? ofs then
    match fuel with
    | O => sraise Diverges
    | S k =>
        b <- ba_get_byte_bits (ofs - frac) 8 ;;
        do set_byte_bits ofs 8 b ;;
        shift_up k (ofs - 8) start frac
    end
  else sret tt.

(** io_buffer.py:212-236.  The [while] that appends zero bytes until the buffer is long enough
    (225-226) is written as one concatenation. *)
Definition insert_zeros (start stop : Z) : stM baa unit :=
  do slift (passert ((0 <=? start) && (start <=? stop))) ;;
  s <- sget ;;
  do slift (passert (start <=? ba_stop s)) ;;
  let start_byte := cdiv8 start in
  let stop_byte := stop / 8 in
  let delta := stop_byte - start_byte in
  stop' <- (if 1 <=? delta then
              do ba_set_buf (firstn (Z.to_nat start_byte) (ba_buf s) ++ repeat 0 (Z.to_nat delta)
                             ++ skipn (Z.to_nat start_byte) (ba_buf s)) ;;
              do ba_set_stop (ba_stop s + 8 * delta) ;;
              sret (stop - 8 * delta)
            else sret stop) ;;
  if start <? stop' then
    do slift (passert (stop' - start <=? 16)) ;;
    let frac := stop' - start in
    s <- sget ;;
    do ba_set_buf (ba_buf s ++ repeat 0 (Z.to_nat (cdiv8 (ba_stop s + frac) - zlen (ba_buf s)))) ;;
    do (if start <? ba_stop s then
          let ofs := ba_stop s + frac - 8 in
          shift_up (Z.to_nat (ofs - start + 8)) ofs start frac
        else sret tt) ;;
    ba_set_stop (ba_stop s + frac)
  else sret tt.

(** io_buffer.py:167-181 *)
Definition set_range (start stop : Z) (value : list Z) (value_len : Z) : stM baa unit :=
  do slift (passert ((start <=? stop) && (0 <=? value_len))) ;;
  let range_len := stop - start in
  if range_len <? value_len then
    do insert_zeros stop (stop + value_len - range_len) ;;
    copy_to_range start value value_len
  else if value_len <? range_len then
    do del_range (stop - (range_len - value_len)) stop ;;
    copy_to_range start value value_len
  else copy_to_range start value value_len.

(** Arguments of [__setitem__] and [insert]: a BitView, a sequence of integers, an int. *)
Inductive bvalue : Type :=
| BVView (v : buf)
| BVSeq (l : list Z)
| BVInt (n : Z).

(** [int.bit_length()] *)
Definition bit_length (n : Z) : Z := if n =? 0 then 0 else 1 + Z.log2 (Z.abs n).

(** io_buffer.py:262-271: the digits of an int, least significant first. *)
Fixpoint int_digits (n : nat) (v : Z) : list Z :=
  match n with O => [] | S k => v mod 256 :: int_digits k (v / 256) end.

(** io_buffer.py:250-275; lengths in bits. *)
Definition value_and_length (v : bvalue) (int_value_len : Z) : res (list Z * Z) :=
  match v with
  | BVView b => let* l := buf_bytes b in Ok (l, blength b)
  | BVSeq l => Ok (l, 8 * zlen l)
  | BVInt n =>
      let bl := Z.max 1 (bit_length n) in
      if int_value_len <? bl then Err ValueError
      else Ok (int_digits (Z.to_nat (cdiv8 bl)) n, Z.max bl int_value_len)
  end.

(** Keys: a number or a slice, in bits. *)
Inductive bkey : Type := KIndex (ofs : Z) | KSlice (a b : option Z).

(** io_buffer.py:93-105 *)
Definition ba_key_to_range (k : bkey) : stM baa (Z * Z) :=
  fun x => match k with
           | KSlice a b => (key_to_range (ba_start x) (ba_stop x) a b, x)
           | KIndex ofs => let s := translate_offset (ba_start x) (ba_stop x) ofs in (Ok (s, s + 8), x)
           end.

(** io_buffer.py:125-128 *)
Definition ba_setitem (k : bkey) (v : bvalue) : stM baa unit :=
  p <- ba_key_to_range k ;;
  q <- slift (value_and_length v (snd p - fst p)) ;;
  set_range (fst p) (snd p) (fst q) (snd q).

(** io_buffer.py:130-132 *)
Definition ba_delitem (k : bkey) : stM baa unit :=
  p <- ba_key_to_range k ;; del_range (fst p) (snd p).

(** io_buffer.py:134-138 *)
Definition ba_insert (i : Z) (v : bvalue) : stM baa unit :=
  s <- sget ;;
  let i := translate_offset (ba_start s) (ba_stop s) i in
  q <- slift (value_and_length v 8) ;;
  do insert_zeros i (i + snd q) ;;
  copy_to_range i (fst q) (snd q).

(** MutableSequence.append: [self.insert(len(self), value)]. *)
Definition ba_append (v : Z) : stM baa unit :=
  s <- sget ;; ba_insert (8 * blen (ba_view s)) (BVInt v).

(** io_buffer.py:140-146; MutableSequence.extend appends one element after the other. *)
Definition ba_extend (other : bvalue) : stM baa unit :=
  match other with
  | BVView b =>
      s <- sget ;;
      let offset := ba_stop s in
      do insert_zeros offset (offset + blength b) ;;
      l <- slift (buf_bytes b) ;;
      copy_to_range offset l (blength b)
  | BVSeq l => sforeach l ba_append
  | BVInt _ => sraise TypeError
  end.

(** io_buffer.py:148-150 *)
Definition ba_zfill (length : Z) : stM baa unit :=
  s <- sget ;;
  if ba_stop s - ba_start s <? length
  then insert_zeros (ba_stop s) (ba_stop s + length - (ba_stop s - ba_start s))
  else sret tt.

(** io_buffer.py:152-157 *)
Definition ba_add (x : baa) (other : buf) : res baa :=
  let* c := mk_baa (ba_buf x) (ba_start x) (ba_stop x) in
  match ba_extend (BVView other) c with (Ok _, c') => Ok c' | (Err e, _) => Err e end.

(** io_buffer.py:159-165 [other + x] for a plain view [other]. *)
Definition ba_radd (x : baa) (other : buf) : res baa :=
  match other with
  | BArr _ => Err TypeError
  | BView inner start stop =>
      let* l := buf_bytes inner in
      let* c := mk_baa l start stop in
      match ba_extend (BVView (ba_view x)) c with (Ok _, c') => Ok c' | (Err e, _) => Err e end
  end.

(** ** InputBuffer (io_buffer.py:278-300); the model keeps the view. *)
Definition input_buffer (b : buf) : res buf :=
  match b with BView _ _ _ => Ok b | BArr _ => view_of b end.

Definition closed_bounds (r : srange) : res (Z * Z) :=
  match r_stop r with Some e => Ok (r_start r, e) | None => Err AssertionError end.

Fixpoint input_concat (b : buf) (l : list srange) (acc : baa) : res baa :=
  match l with
  | [] => Ok acc
  | r :: rest =>
      let* p := closed_bounds r in
      let* s := buf_slice b (Some (fst p)) (Some (snd p)) in
      match ba_extend (BVView s) acc with
      | (Ok _, acc') => input_concat b rest acc'
      | (Err e, _) => Err e
      end
  end.

(** io_buffer.py:285-297 *)
Definition input_get (b : buf) (l : list srange) : res buf :=
  match l with
  | [r] => let* p := closed_bounds r in buf_slice b (Some (fst p)) (Some (snd p))
  | _ => let* x := input_concat b l (new_baa []) in Ok (ba_view x)
  end.

(** io_buffer.py:299-300, in bytes. *)
Definition input_length (b : buf) : Z := blen b.

(** ** OutputBuffer (io_buffer.py:306-332); the state is the array. *)
Fixpoint output_set_loop (value : buf) (value_start : Z) (l : list srange) : stM baa unit :=
  match l with
  | [] => sret tt
  | r :: rest =>
      p <- slift (closed_bounds r) ;;
      let start := fst p in
      let stop := snd p in
      do slift (passert ((0 <=? start) && (start <=? stop))) ;;
      do (if 8 * blen value - value_start <? stop - start then sraise ValueError else sret tt) ;;
      do ba_zfill start ;;
      piece <- slift (buf_slice value (Some value_start) (Some (value_start + (stop - start)))) ;;
      do ba_setitem (KSlice (Some start) (Some stop)) (BVView piece) ;;
      output_set_loop value (value_start + (stop - start)) rest
  end.

(** io_buffer.py:318-329 *)
Definition output_set (value : buf) (l : list srange) : stM baa unit :=
  v <- slift (view_of value) ;; output_set_loop v 0 l.
