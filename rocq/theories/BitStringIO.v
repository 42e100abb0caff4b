(** Model of utils/bitstringio.py. *)
From Verif Require Import Base.
From Coq Require Import ZArith List Bool.
Import ListNotations.
Open Scope Z_scope.

(** utils/bitstringio.py:8-10 — a position in bits and a bytearray. *)
Record bsio : Type := mkBsio { bs_pos : Z; bs_val : list Z }.

(** utils/bitstringio.py:8-10, [BitStringIO(n)]: [bytearray(n)] is n zero bytes;
    a negative count is a ValueError. *)
Definition bs_new_size (n : Z) : res bsio :=
  if n <? 0 then Err ValueError else Ok (mkBsio 0 (repeat 0 (Z.to_nat n))).

(** utils/bitstringio.py:8-10, [BitStringIO(bytes)]. *)
Definition bs_new_bytes (data : list Z) : bsio := mkBsio 0 data.

(** utils/bitstringio.py:12-13 *)
Definition bs_getvalue (s : bsio) : list Z := bs_val s.

(** [self.value[byte_i] |= x], lines 25 and 32. *)
Definition bs_or_byte (byte_i x : Z) : stM bsio unit :=
  s <- sget ;;
  b <- slift (py_nth (bs_val s) byte_i) ;;
  v <- slift (ba_set (bs_val s) byte_i (Z.lor b x)) ;;
  sput (mkBsio (bs_pos s) v).

(** utils/bitstringio.py:29-33, the loop body for chunk offset [n]; [byte_i] is threaded. *)
Fixpoint bs_write_loop (ns : list Z) (byte_i value bits_to_write : Z) : stM bsio unit :=
  match ns with
  | [] => sret tt
  | n :: r =>
      let chunk_to_write := Z.min 8 (bits_to_write - n) in
      one <- slift (py_shl1 chunk_to_write) ;;
      do bs_or_byte byte_i (Z.land (Z.shiftr value n) (one - 1)) ;;
      bs_write_loop r (byte_i + 1) value bits_to_write
  end.

(** utils/bitstringio.py:15-35.  [value] is a Python integer, possibly negative. *)
Definition bs_write (value bits_to_write : Z) : stM bsio unit :=
  s <- sget ;;
  if bits_to_write + bs_pos s >? zlen (bs_val s) * 8 then sraise IOError
  else
    let byte_i := bs_pos s / 8 in
    let bit_i := bs_pos s mod 8 in
    do (if negb (bit_i =? 0) then
          let chunk_to_write := Z.min (8 - bit_i) bits_to_write in
          one <- slift (py_shl1 chunk_to_write) ;;
          do bs_or_byte byte_i (Z.shiftl (Z.land value (one - 1)) bit_i) ;;
          bs_write_loop (py_range3 chunk_to_write bits_to_write 8) (byte_i + 1) value bits_to_write
        else
          bs_write_loop (py_range3 0 bits_to_write 8) byte_i value bits_to_write) ;;
    s' <- sget ;;
    sput (mkBsio (bs_pos s' + bits_to_write) (bs_val s')).

(** utils/bitstringio.py:52-56 *)
Fixpoint bs_read_loop (val : list Z) (ns : list Z) (byte_i bits_to_read result : Z) : res Z :=
  match ns with
  | [] => Ok result
  | n :: r =>
      let chunk_to_read := Z.min 8 (bits_to_read - n) in
      let* one := py_shl1 chunk_to_read in
      let* b := py_nth val byte_i in
      bs_read_loop val r (byte_i + 1) bits_to_read
        (Z.lor result (Z.shiftl (Z.land b (one - 1)) n))
  end.

(** utils/bitstringio.py:37-59 *)
Definition bs_read (bits_to_read : Z) : stM bsio Z :=
  s <- sget ;;
  if zlen (bs_val s) * 8 <? bits_to_read + bs_pos s then sraise IOError
  else
    let byte_i := bs_pos s / 8 in
    let bit_i := bs_pos s mod 8 in
    result <-
      slift (if negb (bit_i =? 0) then
               let chunk_to_read := Z.min (8 - bit_i) bits_to_read in
               let* one := py_shl1 chunk_to_read in
               let* b := py_nth (bs_val s) byte_i in
               bs_read_loop (bs_val s) (py_range3 chunk_to_read bits_to_read 8) (byte_i + 1)
                 bits_to_read (Z.land (Z.shiftr b bit_i) (one - 1))
             else
               bs_read_loop (bs_val s) (py_range3 0 bits_to_read 8) byte_i bits_to_read 0) ;;
    do sput (mkBsio (bs_pos s + bits_to_read) (bs_val s)) ;;
    sret result.

(** utils/bitstringio.py:61-63: the position is assigned before the assertion. *)
Definition bs_seek (position : Z) : stM bsio unit :=
  s <- sget ;;
  do sput (mkBsio position (bs_val s)) ;;
  slift (passert ((0 <=? position) && (position / 8 <? zlen (bs_val s)))).
