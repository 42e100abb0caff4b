(** Model of the byte streams the library reads from: [io.BytesIO]
    (_compat.py:30) and utils/read_ahead_stream.py wrapped around another stream. *)
From Verif Require Import Base.
From Coq Require Import ZArith List Bool.
Import ListNotations.
Open Scope Z_scope.

Inductive stream : Type :=
| SBytesIO (data : list Z) (pos : Z)
  (* utils/read_ahead_stream.py:2-5: buffer, read_ahead_mode, stream *)
| SReadAhead (buffer : list Z) (mode : bool) (inner : stream).

(** [StringIO(data)], base.py:132, struct/__init__.py:204. *)
Definition stream_of (data : list Z) : stream := SBytesIO data 0.

(** [stream.read(size)].
    BytesIO: a negative size reads everything up to the end, a size that does not fit a
    [Py_ssize_t] is an OverflowError.
    ReadAheadStream: utils/read_ahead_stream.py:13-27. *)
Fixpoint sread_ (s : stream) (size : Z) : res (list Z) * stream :=
  match s with
  | SBytesIO data pos =>
      if (size <? - maxsize - 1) || (maxsize <? size) then (Err OverflowError, s) else
      let avail := skipn (Z.to_nat pos) data in
      let r := if size <? 0 then avail else firstn (Z.to_nat size) avail in
      (Ok r, SBytesIO data (pos + zlen r))
  | SReadAhead buffer mode inner =>
      if size <? 0 then (Err AssertionError, s)                      (* line 14 *)
      else if mode then                                              (* lines 17-19 *)
        match sread_ inner size with
        | (Ok r, inner') => (Ok r, SReadAhead (buffer ++ r) mode inner')
        | (Err e, inner') => (Err e, SReadAhead buffer mode inner')
        end
      else                                                           (* lines 20-26 *)
        let n := Z.min (zlen buffer) size in
        let r1 := if zlen buffer >? 0 then py_slice buffer 0 n else [] in
        let buffer' := if zlen buffer >? 0 then py_slice buffer n (zlen buffer) else buffer in
        if zlen r1 <? size then
          match sread_ inner (size - zlen r1) with
          | (Ok r2, inner') => (Ok (r1 ++ r2), SReadAhead buffer' mode inner')
          | (Err e, inner') => (Err e, SReadAhead buffer' mode inner')
          end
        else (Ok r1, SReadAhead buffer' mode inner)
  end.
Definition sread (size : Z) : stM stream (list Z) := fun s => sread_ s size.

(** [hasattr(stream, 'tell')] and [stream.tell()]: array.py:57-62.  ReadAheadStream has no [tell]. *)
Definition stell (s : stream) : option Z :=
  match s with SBytesIO _ pos => Some pos | SReadAhead _ _ _ => None end.

(** utils/read_ahead_stream.py:7-8 *)
Definition set_read_ahead (mode : bool) : stM stream unit := fun s =>
  match s with
  | SReadAhead b _ i => (Ok tt, SReadAhead b mode i)
  | SBytesIO _ _ => (Err AttributeError, s)
  end.

(** utils/read_ahead_stream.py:10-11 *)
Definition is_read_ahead_empty : stM stream bool := fun s =>
  match s with
  | SReadAhead b _ i => (Ok (zlen b =? 0), s)
  | SBytesIO _ _ => (Err AttributeError, s)
  end.

(** utils/read_ahead_stream.py:29-34: [self.read_ahead] is never defined, hence AttributeError
    whenever the buffer is empty; nothing is ever forwarded to the wrapped stream. *)
Definition ra_write (buf : list Z) : stM stream unit := fun s =>
  match s with
  | SReadAhead b _ i => if zlen b >? 0 then (Err IOError, s) else (Err AttributeError, s)
  | SBytesIO _ _ => (Err NotModelled, s) (* not modelled: writing to the plain stream *)
  end.

(** Create a ReadAheadStream around the current stream, run [m] on it, drop the wrapper
    (struct/selector.py:28, 66: the local variable [rstream]). *)
Definition with_read_ahead {A} (m : stM stream A) : stM stream A := fun s =>
  match m (SReadAhead [] false s) with
  | (r, SReadAhead _ _ s') => (r, s')
  | (r, s') => (r, s')
  end.

(** User callables that are handed a stream (readers base.py:173-174, predicates
    struct/optional.py:15, selector functions struct/selector.py:70) are arbitrary programs that
    may read from it: either return a result or read [n] bytes and continue. *)
Inductive rprog (A : Type) : Type :=
| RRet (r : res A)
| RRead (n : Z) (k : list Z -> rprog A).
Arguments RRet {A} r.
Arguments RRead {A} n k.

Fixpoint run_rprog {A} (p : rprog A) : stM stream A :=
  match p with
  | RRet r => slift r
  | RRead n k => b <- sread n ;; run_rprog (k b)
  end.
