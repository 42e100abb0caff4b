(** Common vocabulary of the model: Python results with exceptions as values,
    a state-and-exception monad, bytes as integers, Python-style indexing.
    Nothing here models a particular file of /repo; it is the "Python" part of
    the trusted reading of the code. *)
From Coq Require Import ZArith List Bool Lia ZifyBool ZifyNat.
Import ListNotations.
Open Scope Z_scope.

(** ** Exceptions (the classes the library or the Python builtins raise). *)
Inductive exn : Type :=
| InstructError                        (* errors.py:1-2 *)
| NotEnoughDataError (expected actual : Z)   (* errors.py:4-7 *)
| StructNotWellDefinedError            (* errors.py:9-10 *)
| BitFieldNotInByteBoundry             (* errors.py:12-13 *)
| InvalidValueError                    (* errors.py:18-19 *)
| InstructBufferError                  (* buffer/buffer.py *)
| CyclicReferenceError                 (* buffer/reference/reference.py *)
| NotStaticObjectError                 (* buffer/reference/reference.py *)
| IOError | AssertionError | KeyError | IndexError | TypeError | ValueError
| AttributeError | NameError | StructError | OverflowError
| ZeroDivisionError | NotImplementedError | UnicodeError
| UserError (code : Z)                 (* raised by a user supplied callable *)
| NotModelled                          (* not an exception: behaviour left out of the model *)
| Diverges.                            (* not an exception: the call never returns *)

(** [InstructError] and its subclasses (errors.py:1-23). *)
Definition is_instruct_error (e : exn) : bool :=
  match e with
  | InstructError | NotEnoughDataError _ _ | StructNotWellDefinedError
  | BitFieldNotInByteBoundry | InvalidValueError | InstructBufferError
  | CyclicReferenceError => true
  | _ => false
  end.

Inductive res (A : Type) : Type :=
| Ok (a : A)
| Err (e : exn).
Arguments Ok {A} a.
Arguments Err {A} e.

Definition rbind {A B} (m : res A) (f : A -> res B) : res B :=
  match m with Ok a => f a | Err e => Err e end.
Definition rmap {A B} (f : A -> B) (m : res A) : res B :=
  match m with Ok a => Ok (f a) | Err e => Err e end.
Notation "'let*' x := m 'in' k" := (rbind m (fun x => k))
  (at level 200, x pattern, m at level 100, k at level 200, right associativity).

Definition is_ok {A} (m : res A) : bool := match m with Ok _ => true | Err _ => false end.

(** Python [assert c]. *)
Definition passert (c : bool) : res unit := if c then Ok tt else Err AssertionError.

(** ** State and exceptions: an exception keeps the state reached so far. *)
Definition stM (S A : Type) : Type := S -> res A * S.
Definition sret {S A} (a : A) : stM S A := fun s => (Ok a, s).
Definition sraise {S A} (e : exn) : stM S A := fun s => (Err e, s).
Definition sbind {S A B} (m : stM S A) (f : A -> stM S B) : stM S B :=
  fun s => match m s with
           | (Ok a, s') => f a s'
           | (Err e, s') => (Err e, s')
           end.
Definition sget {S} : stM S S := fun s => (Ok s, s).
Definition sput {S} (s : S) : stM S unit := fun _ => (Ok tt, s).
Definition slift {S A} (r : res A) : stM S A := fun s => (r, s).
Notation "x <- m ;; k" := (sbind m (fun x => k))
  (at level 61, m at next level, right associativity).
Notation "'do' m ;; k" := (sbind m (fun _ => k))
  (at level 61, m at next level, right associativity).

Fixpoint sforeach {S A} (l : list A) (f : A -> stM S unit) : stM S unit :=
  match l with
  | [] => sret tt
  | x :: r => do f x ;; sforeach r f
  end.

(** ** Bytes *)
Definition is_byte (b : Z) : Prop := 0 <= b < 256.
Definition bytes_ok (l : list Z) : Prop := Forall is_byte l.
Definition is_byteb (b : Z) : bool := (0 <=? b) && (b <? 256).
Definition bytes_okb (l : list Z) : bool := forallb is_byteb l.

Definition zlen {A} (l : list A) : Z := Z.of_nat (length l).

(** ** Python sequences: [range], indexing, slicing *)

(** [range(start, stop, step)] for a positive step. *)
Definition py_range3 (start stop step : Z) : list Z :=
  map (fun k => start + step * Z.of_nat k)
      (seq 0 (Z.to_nat ((stop - start + (step - 1)) / step))).

(** [range(n)] *)
Definition py_range (n : Z) : list Z := py_range3 0 n 1.

(** Element index of [l[i]]: negative indices count from the end. *)
Definition py_index {A} (l : list A) (i : Z) : option nat :=
  if (0 <=? i) && (i <? zlen l) then Some (Z.to_nat i)
  else if (i <? 0) && (0 <=? zlen l + i) then Some (Z.to_nat (zlen l + i))
  else None.

(** [l[i]] *)
Definition py_nth {A} (l : list A) (i : Z) : res A :=
  match py_index l i with
  | Some k => match nth_error l k with Some a => Ok a | None => Err IndexError end
  | None => Err IndexError
  end.

Fixpoint list_upd {A} (l : list A) (k : nat) (a : A) : list A :=
  match l, k with
  | [], _ => []
  | _ :: r, O => a :: r
  | x :: r, S k' => x :: list_upd r k' a
  end.

(** [b[i] = v] on a bytearray: IndexError / ValueError (byte must be in range(0, 256)). *)
Definition ba_set (l : list Z) (i v : Z) : res (list Z) :=
  match py_index l i with
  | Some k => if is_byteb v then Ok (list_upd l k v) else Err ValueError
  | None => Err IndexError
  end.

(** Slice bound of [l[a:b]] (step 1) for a sequence of length [n]. *)
Definition py_clamp (n i : Z) : Z :=
  if i <? 0 then Z.max 0 (i + n) else Z.min i n.

(** [l[a:b]] for integer bounds. *)
Definition py_slice {A} (l : list A) (a b : Z) : list A :=
  let n := zlen l in
  let a' := py_clamp n a in
  let b' := py_clamp n b in
  firstn (Z.to_nat (b' - a')) (skipn (Z.to_nat a') l).

(** [1 << n]: ValueError for a negative shift count. *)
Definition py_shl1 (n : Z) : res Z := if n <? 0 then Err ValueError else Ok (Z.shiftl 1 n).

(** [1 << n] for a count that may be astronomically large: CPython refuses integers that do not
    fit in memory (OverflowError / MemoryError).  The model draws the line at 2^40 bits. *)
Definition py_shl1_big (n : Z) : res Z :=
  if n <? 0 then Err ValueError
  else if 2 ^ 40 <? n then Err OverflowError else Ok (2 ^ n).

(** [sys.maxsize] on a 64-bit platform. *)
Definition maxsize : Z := 2 ^ 63 - 1.

(** ** Bits.  Bit [i] of a byte string: bit [i mod 8] (least significant first) of byte [i / 8]. *)
Definition bit_at (l : list Z) (i : Z) : bool :=
  if i <? 0 then false
  else Z.testbit (nth (Z.to_nat (i / 8)) l 0) (i mod 8).

(** The bits of a byte string, least significant bit of the first byte first. *)
Definition byte_bits (b : Z) : list bool := map (fun k => Z.testbit b (Z.of_nat k)) (seq 0 8).
Definition bits_of_bytes (l : list Z) : list bool := flat_map byte_bits l.
