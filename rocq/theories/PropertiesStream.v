(** Properties C09 and C10: read-ahead streams. *)
From Verif Require Import Base Stream StreamSpec StreamProofs StreamFacts.
From Coq Require Import ZArith List Bool Lia.
Import ListNotations.
Open Scope Z_scope.

(** C09.  Whatever the history of mode switches, peeks and reads on a fresh read-ahead stream, it
    never fails, and the reads made outside read-ahead mode get exactly the answers that the same
    reads get on the wrapped stream used directly. *)
Theorem C09_read_ahead_transparent : forall ops s,
  Forall op_size_ok ops -> stream_ok s ->
  exists answers s',
    run_ops ops false (SReadAhead [] false s) = (Ok answers, s')
    /\ fst (do_reads (normal_sizes ops false) s) = Ok (normal_answers answers).
Proof. exact ra_transparent. Qed.
Print Assumptions C09_read_ahead_transparent.

Example C09_nonvacuous :
  let ops := [SetMode true; ReadOp 2; SetMode false; ReadOp 1; SetMode true; ReadOp 1; SetMode false; ReadOp 9] in
  Forall op_size_ok ops /\ stream_ok (SBytesIO [1; 2; 3; 4; 5] 1)
  /\ fst (run_ops ops false (SReadAhead [] false (SBytesIO [1; 2; 3; 4; 5] 1)))
     = Ok [(true, [2; 3]); (false, [2]); (true, [4]); (false, [3; 4; 5])].
Proof.
  cbn zeta. split; [|split].
  - repeat constructor; cbn; unfold maxsize; lia.
  - cbn. lia.
  - vm_compute. reflexivity.
Qed.

(** C10.  After peeking and reading, the buffer is empty exactly when at least as many bytes were
    asked for as had been peeked; the wrapped stream is then where direct reads would leave it.
    The peeked bytes and the bytes read are those of direct reads. *)
Theorem C10_read_ahead_empty : forall peeks reads s,
  Forall read_size_ok peeks -> Forall read_size_ok reads -> stream_ok s ->
  exists p r e buf inner,
    peek_then_read peeks reads (SReadAhead [] false s) = (Ok (p, r, e), SReadAhead buf false inner)
    /\ fst (do_reads peeks s) = Ok p
    /\ fst (do_reads reads s) = Ok r
    /\ (e = true <-> Z.of_nat (length (concat p)) <= fold_left Z.add reads 0)
    /\ (e = true -> inner = snd (do_reads reads s)).
Proof. exact read_ahead_empty_iff. Qed.
Print Assumptions C10_read_ahead_empty.

Example C10_nonvacuous :
  peek_then_read [2; 1] [1; 1] (SReadAhead [] false (SBytesIO [1; 2; 3; 4; 5] 0))
  = (Ok ([[1; 2]; [3]], [[1]; [2]], false), SReadAhead [3] false (SBytesIO [1; 2; 3; 4; 5] 3))
  /\ peek_then_read [2; 1] [1; 3] (SReadAhead [] false (SBytesIO [1; 2; 3; 4; 5] 0))
  = (Ok ([[1; 2]; [3]], [[1]; [2; 3; 4]], true), SReadAhead [] false (SBytesIO [1; 2; 3; 4; 5] 4)).
Proof. split; vm_compute; reflexivity. Qed.

(** C10.  Read-ahead streams cannot be written to: after any history of mode switches, peeks and
    reads every write fails - with IOError while peeked bytes are waiting, with AttributeError
    otherwise - and changes nothing, neither in the stream nor in what it wraps. *)
Theorem C10_write_always_fails : forall ops s data,
  Forall op_size_ok ops -> stream_ok s ->
  exists waiting mode inner,
    snd (run_ops ops false (SReadAhead [] false s)) = SReadAhead waiting mode inner
    /\ ra_write data (SReadAhead waiting mode inner)
       = (Err (match waiting with [] => AttributeError | _ => IOError end), SReadAhead waiting mode inner).
Proof. exact write_fails. Qed.
Print Assumptions C10_write_always_fails.

Example C10_write_nonvacuous :
  let ops := [SetMode true; ReadOp 2; SetMode false; ReadOp 1] in
  Forall op_size_ok ops /\ stream_ok (SBytesIO [1; 2; 3; 4; 5] 1)
  /\ ra_write [9] (snd (run_ops ops false (SReadAhead [] false (SBytesIO [1; 2; 3; 4; 5] 1))))
     = (Err IOError, SReadAhead [3] false (SBytesIO [1; 2; 3; 4; 5] 3)).
Proof.
  cbn zeta. split; [|split].
  - repeat constructor; cbn; unfold maxsize; lia.
  - cbn. lia.
  - vm_compute. reflexivity.
Qed.
