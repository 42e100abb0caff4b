(** C75: lengths found in the data.  C24: which marshals can be mapped. *)
From Verif Require Import Base IntCodec CodecSpec Stream StreamSpec MinMax Marshal FieldSpec ArrayFacts PrefixFacts.
From Coq Require Import ZArith List Bool String Lia.
Import ListNotations.
Open Scope string_scope.
Open Scope list_scope.
Open Scope Z_scope.

(** C75.  A buffer prefixed by its length takes that many bytes if there are as many, and is an
    InstructError if there are fewer; a negative length takes everything up to the end. *)
Theorem C75_buffer_length : forall h sz padding c s n data pos,
  read h sz c s = (Ok (VInt n), SBytesIO data pos) -> 0 <= pos <= zlen data -> - maxsize - 1 <= n <= maxsize ->
  let rest := skipn (Z.to_nat pos) data in
  let r := read h (MVarStr sz padding PNone) c s in
  (0 <= n <= zlen rest -> r = (Ok (VBytes (firstn (Z.to_nat n) rest)), SBytesIO data (pos + n)))
  /\ (zlen rest < n -> r = (Err InstructError, SBytesIO data (zlen data)))
  /\ (n < 0 -> r = (Ok (VBytes rest), SBytesIO data (zlen data))).
Proof. exact buffer_prefix. Qed.
Print Assumptions C75_buffer_length.

(** Inside of a selector, where the stream is a read-ahead stream, a negative length raises. *)
Theorem C75_negative_length_in_selector : forall h sz padding d c s n b m i,
  read h sz c s = (Ok (VInt n), SReadAhead b m i) -> n < 0 ->
  read h (MVarStr sz padding d) c s = (Err AssertionError, SReadAhead b m i).
Proof. exact prefix_in_selector. Qed.
Print Assumptions C75_negative_length_in_selector.

(** C75.  An array prefixed by its length has that many elements, none for a negative one. *)
Theorem C75_array_count : forall h sz el c s v s', read h (MVarArr sz el) c s = (Ok v, s') ->
  exists n s1 l, read h sz c s = (Ok (VInt n), s1) /\ v = VList l /\ zlen l = Z.max 0 n.
Proof. exact array_count. Qed.
Print Assumptions C75_array_count.

(** C75.  The elements of an array prefixed by its number of bytes end exactly where the prefix
    says, or reading it fails; a negative number of bytes raises. *)
Theorem C75_array_bytes : forall h sz el c s n s1,
  read h sz c s = (Ok (VInt n), s1) -> plain s1 ->
  (forall v s', read h (MSumArr sz el) c s = (Ok v, s') -> 0 <= n /\ plain s' /\ tell_of s' = tell_of s1 + n)
  /\ (n < 0 -> read h (MSumArr sz el) c s = (Err AssertionError, s1)).
Proof. exact array_bytes. Qed.
Print Assumptions C75_array_bytes.

Example C75_nonvacuous :
  let buf := MVarStr (MInt SBInt8Marshal) (VBytes [0]) PNone in
  let sum := MSumArr (MInt UBInt8Marshal) (MInt UBInt16Marshal) in
  read HostLittle (MInt SBInt8Marshal) [] (stream_of [2; 7; 8; 9]) = (Ok (VInt 2), SBytesIO [2; 7; 8; 9] 1)
  /\ read HostLittle buf [] (stream_of [2; 7; 8; 9]) = (Ok (VBytes [7; 8]), SBytesIO [2; 7; 8; 9] 3)
  /\ read HostLittle buf [] (stream_of [4; 7; 8; 9]) = (Err InstructError, SBytesIO [4; 7; 8; 9] 4)
  /\ read HostLittle buf [] (stream_of [255; 7; 8; 9]) = (Ok (VBytes [7; 8; 9]), SBytesIO [255; 7; 8; 9] 4)
  /\ read HostLittle buf [] (SReadAhead [] false (stream_of [255; 7])) = (Err AssertionError, SReadAhead [] false (SBytesIO [255; 7] 1))
  /\ fst (read HostLittle (MVarArr (MInt SBInt8Marshal) (MInt UBInt8Marshal)) [] (stream_of [255; 7; 8; 9])) = Ok (VList [])
  /\ read HostLittle sum [] (stream_of [2; 7; 8; 9]) = (Ok (VList [VInt 1800]), SBytesIO [2; 7; 8; 9] 3)
  /\ fst (read HostLittle sum [] (stream_of [3; 7; 8; 9; 10; 11])) = Err AssertionError.
Proof. repeat split. Qed.

(** C24.  A marshal whose size varies cannot be mapped. *)
Theorem C24_not_fixed_size : forall tbl m mm,
  min_max m = Ok mm -> mm_is_fixed mm = false -> mk_map tbl m = Err AssertionError.
Proof. exact map_not_fixed. Qed.
Print Assumptions C24_not_fixed_size.
Example C24_not_fixed_nonvacuous :
  let m := MVarStr (MInt UBInt8Marshal) (VBytes [0]) PNone in
  exists mm, min_max m = Ok mm /\ mm_is_fixed mm = false.
Proof. eexists. split; reflexivity. Qed.
