(** Model: BitAwareByteArray objects and the bytearrays they are made of (buffer/io_buffer.py:20-31, 117-275).  In
    IoBuffer every array owns its bytes.  Here an array is an object that refers to a bytearray, which other arrays may
    refer to as well, and an array that is an argument of an operation is read byte by byte while the operation changes
    its target. *)
From Verif Require Import Base IoBuffer.
From Coq Require Import ZArith List Bool.
Import ListNotations.
Open Scope list_scope.
Open Scope Z_scope.

(** The attributes buffer, start and stop of an array (in bits); the memory: all bytearrays and all arrays. *)
Record arr : Type := mkArr { a_cell : nat; a_start : Z; a_stop : Z }.
Record mem : Type := mkMem { m_cells : list (list Z); m_arrs : list arr }.

(** An array with the bytes it refers to now. *)
Definition as_baa (m : mem) (a : arr) : baa := mkBa (nth (a_cell a) (m_cells m) []) (a_start a) (a_stop a).

(** An operation of IoBuffer on array number [x]: it changes the bytearray in place. *)
Definition on_array {A} (x : nat) (f : stM baa A) : stM mem A :=
  fun m => match nth_error (m_arrs m) x with
           | None => (Err NotModelled, m)
           | Some a =>
               let '(r, s) := f (as_baa m a) in
               (r, mkMem (list_upd (m_cells m) (a_cell a) (ba_buf s)) (list_upd (m_arrs m) x (mkArr (a_cell a) (ba_start s) (ba_stop s))))
           end.
(** A new array on a new bytearray. *)
Definition alloc (b : baa) (m : mem) : mem :=
  mkMem (m_cells m ++ [ba_buf b]) (m_arrs m ++ [mkArr (List.length (m_cells m)) (ba_start b) (ba_stop b)]).

(** io_buffer.py:70-71 [y.length()] *)
Definition length_of (y : nat) : stM mem Z := on_array y (fun s => (Ok (ba_stop s - ba_start s), s)).
(** io_buffer.py:44-46: one step of the iteration over [y]. *)
Definition byte_of (y : nat) (i : Z) : stM mem Z :=
  on_array y (fun s => ba_get_byte_bits (8 * i + ba_start s) (Z.min (ba_stop s - 8 * i - ba_start s) 8) s).

(** io_buffer.py:183-188: the target is written while [y] is read. *)
Fixpoint copy_live (x y : nat) (offset remaining i : Z) (n : nat) : stM mem unit :=
  match n with
  | O => sret tt
  | S k =>
      b <- byte_of y i ;;
      do on_array x (set_byte_bits offset (Z.min remaining 8) b) ;;
      copy_live x y (offset + 8) (remaining - 8) (i + 1) k
  end.
(** [range(len(self))] is evaluated when the iteration begins (io_buffer.py:45). *)
Definition copy_from (x y : nat) (offset len : Z) : stM mem unit :=
  n <- on_array y (fun s => (Ok (blen (ba_view s)), s)) ;;
  copy_live x y offset len 0 (Z.to_nat n).

(** io_buffer.py:167-181 *)
Definition set_range_from (x y : nat) (start stop value_len : Z) : stM mem unit :=
  do slift (passert ((start <=? stop) && (0 <=? value_len))) ;;
  let range_len := stop - start in
  if range_len <? value_len then
    do on_array x (insert_zeros stop (stop + value_len - range_len)) ;;
    copy_from x y start value_len
  else if value_len <? range_len then
    do on_array x (del_range (stop - (range_len - value_len)) stop) ;;
    copy_from x y start value_len
  else copy_from x y start value_len.

(** io_buffer.py:125-128 [x[k] = y] *)
Definition set_item (x : nat) (k : bkey) (y : nat) : stM mem unit :=
  p <- on_array x (ba_key_to_range k) ;;
  n <- length_of y ;;
  set_range_from x y (fst p) (snd p) n.

(** io_buffer.py:134-138 [x.insert(i, y)] *)
Definition insert_at (x : nat) (i : Z) (y : nat) : stM mem unit :=
  i <- on_array x (fun s => (Ok (translate_offset (ba_start s) (ba_stop s) i), s)) ;;
  n <- length_of y ;;
  do on_array x (insert_zeros i (i + n)) ;;
  copy_from x y i n.

(** io_buffer.py:140-144 [x.extend(y)]; the length is asked for twice. *)
Definition extend_by (x y : nat) : stM mem unit :=
  offset <- on_array x (fun s => (Ok (ba_stop s), s)) ;;
  n <- length_of y ;;
  do on_array x (insert_zeros offset (offset + n)) ;;
  n <- length_of y ;;
  copy_from x y offset n.

(** Operations without another array. *)
Inductive plain_op : Type :=
| PSetBytes (k : bkey) (l : list Z) | PSetInt (k : bkey) (n : Z) | PDel (k : bkey)
| PInsertBytes (i : Z) (l : list Z) | PAppend (n : Z) | PExtendBytes (l : list Z) | PZfill (n : Z).
Definition plain_step (p : plain_op) : stM baa unit :=
  match p with
  | PSetBytes k l => ba_setitem k (BVSeq l)
  | PSetInt k n => ba_setitem k (BVInt n)
  | PDel k => ba_delitem k
  | PInsertBytes i l => ba_insert i (BVSeq l)
  | PAppend n => ba_append n
  | PExtendBytes l => ba_extend (BVSeq l)
  | PZfill n => ba_zfill n
  end.

(** Statements of a program; a statement that makes an array gives it the next number. *)
Inductive aop : Type :=
| ANew (l : list Z) (start stop : Z)           (* BitAwareByteArray(bytearray(l), start, stop) *)
| AShare (x : nat) (start stop : Z)            (* BitAwareByteArray(x.buffer, start, stop) *)
| ASlice (x : nat) (a b : option Z)            (* x[a:b] *)
| AAdd (x y : nat)                             (* x + y *)
| ASet (x : nat) (k : bkey) (y : nat)          (* x[k] = y *)
| AInsert (x : nat) (i : Z) (y : nat)          (* x.insert(i, y) *)
| AExtend (x y : nat)                          (* x.extend(y), x += y *)
| APlain (x : nat) (p : plain_op).

Definition made (r : res baa) (m : mem) : res unit * mem :=
  match r with Ok b => (Ok tt, alloc b m) | Err e => (Err e, m) end.
(** io_buffer.py:73-76 for an array: a copy of the bytes. *)
Definition slice_of (s : baa) (a b : option Z) : res baa :=
  let* v := buf_slice (ba_view s) a b in
  match v with BView (BArr l) start stop => Ok (mkBa l start stop) | _ => Err NotModelled end.

Definition astep (op : aop) : stM mem unit :=
  match op with
  | ANew l start stop => made (mk_baa l start stop)
  | AShare x start stop =>
      fun m => match nth_error (m_arrs m) x with
               | None => (Err NotModelled, m)
               | Some a => match mk_baa (nth (a_cell a) (m_cells m) []) start stop with
                           | Ok _ => (Ok tt, mkMem (m_cells m) (m_arrs m ++ [mkArr (a_cell a) start stop]))
                           | Err e => (Err e, m)
                           end
               end
  | ASlice x a b =>
      fun m => match nth_error (m_arrs m) x with
               | None => (Err NotModelled, m)
               | Some s => made (slice_of (as_baa m s) a b) m
               end
  | AAdd x y =>                                 (* io_buffer.py:152-157; the copy is lost if extend() raises *)
      fun m => match nth_error (m_arrs m) x with
               | None => (Err NotModelled, m)
               | Some a =>
                   let s := as_baa m a in
                   match mk_baa (ba_buf s) (ba_start s) (ba_stop s) with
                   | Err e => (Err e, m)
                   | Ok c => match extend_by (List.length (m_arrs m)) y (alloc c m) with
                             | (Ok _, m') => (Ok tt, m')
                             | (Err e, _) => (Err e, m)
                             end
                   end
               end
  | ASet x k y => set_item x k y
  | AInsert x i y => insert_at x i y
  | AExtend x y => extend_by x y
  | APlain x p => on_array x (plain_step p)
  end.
(** A program stops at the first exception. *)
Definition aruns (l : list aop) : stM mem unit := sforeach l astep.
