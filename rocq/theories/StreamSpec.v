(** Specification vocabulary for streams: the bytes still ahead, and what a stream looks like
    after some of them were consumed. *)
From Verif Require Import Base Stream.
From Coq Require Import ZArith List Bool.
Import ListNotations.
Open Scope Z_scope.

(** The bytes the next reads will return. *)
Fixpoint rest (s : stream) : list Z :=
  match s with
  | SBytesIO data pos => skipn (Z.to_nat pos) data
  | SReadAhead buffer mode inner => if mode then rest inner else buffer ++ rest inner
  end.

(** Positions of plain streams are inside the data. *)
Fixpoint stream_ok (s : stream) : Prop :=
  match s with
  | SBytesIO data pos => 0 <= pos <= zlen data
  | SReadAhead _ _ inner => stream_ok inner
  end.

(** The stream after [k] more bytes were taken from it.  A plain stream advances; a wrapper in
    read-ahead mode also remembers the bytes; a wrapper in normal mode takes from its buffer
    first. *)
Fixpoint consume (k : nat) (s : stream) : stream :=
  match s with
  | SBytesIO data pos => SBytesIO data (pos + Z.of_nat k)
  | SReadAhead b true i => SReadAhead (b ++ firstn k (rest i)) true (consume k i)
  | SReadAhead b false i => SReadAhead (skipn k b) false (consume (k - length b) i)
  end.

Definition has_tell (s : stream) : bool :=
  match s with SBytesIO _ _ => true | SReadAhead _ _ _ => false end.

(** User programs whose reads have an ordinary size. *)
Inductive rprog_ok {A} : rprog A -> Prop :=
| rok_ret r : rprog_ok (RRet r)
| rok_read n k : 0 <= n <= maxsize -> (forall b, rprog_ok (k b)) -> rprog_ok (RRead n k).

(** A list of reads. *)
Fixpoint do_reads (ns : list Z) : stM stream (list (list Z)) :=
  match ns with
  | [] => sret []
  | n :: r => b <- sread n ;; l <- do_reads r ;; sret (b :: l)
  end.

(** A history of uses of a read-ahead stream: switching the mode, and reading. *)
Inductive ra_op : Type := SetMode (mode : bool) | ReadOp (n : Z).

Definition op_size_ok (o : ra_op) : Prop :=
  match o with SetMode _ => True | ReadOp n => 0 <= n <= maxsize end.

(** Run a history; the answers are given with the mode in which they were obtained
    ([true]: peeked). *)
Fixpoint run_ops (ops : list ra_op) (mode : bool) : stM stream (list (bool * list Z)) :=
  match ops with
  | [] => sret []
  | SetMode m :: r => do set_read_ahead m ;; run_ops r m
  | ReadOp n :: r => b <- sread n ;; l <- run_ops r mode ;; sret ((mode, b) :: l)
  end.

(** The sizes of the reads made outside read-ahead mode, and the answers they got. *)
Fixpoint normal_sizes (ops : list ra_op) (mode : bool) : list Z :=
  match ops with
  | [] => []
  | SetMode m :: r => normal_sizes r m
  | ReadOp n :: r => if mode then normal_sizes r mode else n :: normal_sizes r mode
  end.
Definition normal_answers (l : list (bool * list Z)) : list (list Z) :=
  map snd (filter (fun p => negb (fst p)) l).

(** Peek with the first reads, leave read-ahead mode, make the other reads; is the buffer empty? *)
Definition peek_then_read (peeks reads : list Z) : stM stream (list (list Z) * list (list Z) * bool) :=
  do set_read_ahead true ;;
  p <- do_reads peeks ;;
  do set_read_ahead false ;;
  r <- do_reads reads ;;
  e <- is_read_ahead_empty ;;
  sret (p, r, e).
