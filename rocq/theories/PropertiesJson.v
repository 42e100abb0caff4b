(** C101: JSON fields. *)
From Verif Require Import Base Marshal IntCodec IoBuffer IoSpec FieldSpec Serialize SerializeSpec RefEngine BufferModel BufferMacros BufferCodecSpec JsonFacts.
From Coq Require Import ZArith List Bool String.
Import ListNotations.
Open Scope list_scope.
Open Scope Z_scope.

(** json.dumps and json.loads are arbitrary functions [dumps] and [loads] that give a text or a value,
    or raise.  The field [json_field dumps loads k] is packed at a position of [n] bytes. *)

(** What comes back is what was stored, if json.loads undoes json.dumps on it: the text of a JSON
    value never begins or ends with white space or NUL. *)
Theorem C101_roundtrip : forall dumps loads k vs at' n v s, zlen s <= n -> dumps v = Ok s -> json_text s -> loads s = Ok v ->
  exists r, f_pack (json_field dumps loads k) vs v (Some (8 * n)) = Ok (BArr r) /\ zlen r = n /\ r = s ++ repeat 32 (Z.to_nat (n - zlen s))
    /\ forall b rest, view_with b (bits_of_bytes r ++ rest) ->
         f_unpack (json_field dumps loads k) vs at' b (Some (8 * n)) = Ok (v, Some (8 * blen b)).
Proof. exact json_roundtrip. Qed.
Print Assumptions C101_roundtrip.

(** A text that is longer than the field is not cut; an exception of json.dumps is passed on; without
    a size the text is written as it is. *)
Theorem C101_writes : forall dumps loads k vs v,
  (forall n s, 0 <= n -> dumps v = Ok s -> is_ascii s ->
     exists r, f_pack (json_field dumps loads k) vs v (Some (8 * n)) = Ok (BArr r) /\ padded JLeft 32 n s r)
  /\ (forall s, dumps v = Ok s -> is_ascii s -> f_pack (json_field dumps loads k) vs v None = Ok (BArr s))
  /\ (forall n e, dumps v = Err e -> f_pack (json_field dumps loads k) vs v n = Err e).
Proof.
  intros dumps loads k vs v. split; [|split].
  - intros n s. exact (json_writes dumps loads k vs n v s).
  - exact (json_writes_all dumps loads k vs v).
  - intros n e. exact (json_write_fails dumps loads k vs n v e).
Qed.
Print Assumptions C101_writes.

(** Reading any bytes: NULs at the end are dropped, then spaces at the end, and then white space at
    both ends; json.loads gets the rest. *)
Theorem C101_reads : forall dumps loads k vs at' n b t core, 0 <= n -> buf_ok b -> is_view b ->
  field_text JLeft [0] 32 (firstn (Z.to_nat n) (bytes_of_bits (buf_bits b))) t -> trims true true white t core ->
  (n <= blen b -> is_ascii t ->
     f_unpack (json_field dumps loads k) vs at' b (Some (8 * n)) = (let* v := loads core in Ok (v, Some (8 * blen b))))
  /\ (n <= blen b -> ~ is_ascii t -> f_unpack (json_field dumps loads k) vs at' b (Some (8 * n)) = Err UnicodeError)
  /\ (blen b < n -> f_unpack (json_field dumps loads k) vs at' b (Some (8 * n)) = Err ValueError).
Proof. exact json_reads. Qed.
Print Assumptions C101_reads.

(** Without a size NULs stay. *)
Theorem C101_reads_all : forall dumps loads k vs at' b t core, buf_ok b -> is_view b ->
  t = bytes_of_bits (buf_bits b) -> trims true true white t core ->
  (is_ascii t -> f_unpack (json_field dumps loads k) vs at' b None = (let* v := loads core in Ok (v, Some (8 * blen b))))
  /\ (~ is_ascii t -> f_unpack (json_field dumps loads k) vs at' b None = Err UnicodeError).
Proof. exact json_reads_all. Qed.
Print Assumptions C101_reads_all.

(** Every text has a part without white space at both ends. *)
Theorem C101_white_exists : forall l, exists core, trims true true white l core.
Proof. exact white_exists. Qed.
Print Assumptions C101_white_exists.

(** ** Cases: the text "[7]", padded; "\n[7] " with NULs behind *)
Definition dumps7 (v : value) : res (list Z) := match v with VList [VInt 7] => Ok [91; 55; 93] | _ => Err TypeError end.
Definition loads7 (l : list Z) : res value := match l with [91; 55; 93] => Ok (VList [VInt 7]) | _ => Err ValueError end.
Example C101_nonvacuous : json_text [91; 55; 93] /\ loads7 [91; 55; 93] = Ok (VList [VInt 7])
  /\ (forall k vs, f_pack (json_field dumps7 loads7 k) vs (VList [VInt 7]) (Some 40) = Ok (BArr [91; 55; 93; 32; 32]))
  /\ (forall k vs at', f_unpack (json_field dumps7 loads7 k) vs at' (BView (BArr [10; 91; 55; 93; 32; 0; 0; 1]) 0 64) (Some 56) = Ok (VList [VInt 7], Some 64)).
Proof.
  split; [|split; [reflexivity|split; intros; reflexivity]].
  split; [repeat constructor; discriminate|]. split.
  - exists 91, [55; 93]. split; [reflexivity|]. vm_compute. intuition discriminate.
  - exists [91; 55], 93. split; [reflexivity|]. split; [vm_compute; intuition discriminate|discriminate].
Qed.
