(** Property C68: definitions of positions. *)
From Verif Require Import Base Range RangeRef RangeSpec Marshal BufferModel RefOps WhereRef WhereSpec WhereFacts.
From Coq Require Import ZArith List Bool.
Import ListNotations.
Open Scope Z_scope.

(** C68.  A position made of byte indexes, byte slices, lists of those, bits of contiguous bytes and
    [+], with integers and numeric references, addresses exactly the bits it denotes, in the order in
    which they are written, for every value the references take. *)
Theorem C68_where_positions : forall env e ps, where_pos env e ps ->
  exists w l, define e = Ok w /\ ranges env w = Ok l /\ all_positions l = ps.
Proof. exact where_positions. Qed.
Print Assumptions C68_where_positions.

(** C68.  Byte slices: the class definition accepts omitted bounds, numeric references and
    non-negative integers in order, and nothing else.  Plain references raise TypeError, the rest
    AssertionError. *)
Theorem C68_byte_slices : forall a b,
  ((exists w, get_bytes (LSlice (obj_of a) (obj_of b) None) = Ok w)
   <-> byte_bound_ok a /\ byte_bound_ok b /\ in_order a b)
  /\ forall e, get_bytes (LSlice (obj_of a) (obj_of b) None) = Err e ->
     e = AssertionError \/ (e = TypeError /\ exists r, (a = BRef r \/ b = BRef r) /\ is_numeric r = false).
Proof. intros a b. exact (conj (byte_slice_defined a b) (byte_slice_fault a b)). Qed.
Print Assumptions C68_byte_slices.

(** C68.  References that take values out of order, or negative ones, are found when the position is
    needed. *)
Theorem C68_values_out_of_order : forall env a b m n, value env a m -> value env b n -> m < 0 \/ n < m ->
  (exists w, get_bytes (LSlice a b None) = Ok w /\ ranges env w = Err AssertionError)
  \/ get_bytes (LSlice a b None) = Err AssertionError.
Proof. exact slice_out_of_order. Qed.
Print Assumptions C68_values_out_of_order.

(** C68.  Bit slices take integers only: with a numeric reference the class definition raises
    NotImplementedError. *)
Theorem C68_bit_slices : forall p a b,
  ((exists w, get_bits p (LSlice (obj_of a) (obj_of b) None) = Ok w)
   <-> bit_bound_ok a /\ bit_bound_ok b /\ in_order a b)
  /\ forall r, is_numeric r = true -> a = BRef r \/ (bit_bound_ok a /\ b = BRef r) ->
     get_bits p (LSlice (obj_of a) (obj_of b) None) = Err NotImplementedError.
Proof. intros p a b. split; [exact (bit_slice_defined p a b)|]. intros r. exact (bit_slice_reference p a b r). Qed.
Print Assumptions C68_bit_slices.

(** C68.  Only a step of 1 is accepted, for bytes and bits; other steps raise AssertionError. *)
Theorem C68_steps : forall p a b s,
  get_bytes (LSlice a b (Some s)) = (if s =? 1 then get_bytes (LSlice a b None) else Err AssertionError)
  /\ get_bits p (LSlice a b (Some s)) = if s =? 1 then get_bits p (LSlice a b None) else Err AssertionError.
Proof. exact steps. Qed.
Print Assumptions C68_steps.

(** C68.  Indexes: integers and numeric references are accepted, anything else raises TypeError.  A
    negative byte index raises AssertionError in the class definition; a negative bit index does not. *)
Theorem C68_indexes : forall p o,
  match o with
  | PConst (RVal (VInt n)) => get_bytes (LIndex o) = (if 0 <=? n then Ok (WByteNum (RObj (RVal (VInt n)))) else Err AssertionError)
                              /\ exists w, get_bits p (LIndex o) = Ok w
  | PRefr r => (is_numeric r = true -> (exists w, get_bytes (LIndex o) = Ok w) /\ exists w, get_bits p (LIndex o) = Ok w)
               /\ (is_numeric r = false -> get_bytes (LIndex o) = Err TypeError /\ get_bits p (LIndex o) = Err TypeError)
  | _ => get_bytes (LIndex o) = Err TypeError /\ get_bits p (LIndex o) = Err TypeError
  end.
Proof. exact index_defined. Qed.
Print Assumptions C68_indexes.

(** C68.  What [bytes_ref[...]] returns has the attribute [bits]; sums of positions and bits of
    positions do not. *)
Theorem C68_bits_of_bytes : forall w p l, define w = Ok p ->
  match w with
  | EBytes _ => define (EBits w l) = get_bits p l
  | _ => define (EBits w l) = Err AttributeError
  end.
Proof. exact bits_of. Qed.
Print Assumptions C68_bits_of_bytes.

(** C68.  An empty list of positions is accepted in the class definition; it has no value, but it can be added to others. *)
Theorem C68_empty_list : forall w p, define w = Ok p -> exists e, define (EBytes (LList [])) = Ok e
  /\ (forall env, ranges env e = Err TypeError)
  /\ (has_bits p = true -> exists b, define (EBits w (LList [])) = Ok b /\ forall env, ranges env b = Err TypeError)
  /\ exists s s', define (EAdd w (EBytes (LList []))) = Ok s /\ define (EAdd (EBytes (LList [])) w) = Ok s'
     /\ forall env l, ranges env p = Ok l -> ranges env s = Ok l /\ ranges env s' = Ok l.
Proof. exact empty_list. Qed.
Print Assumptions C68_empty_list.

(** [bytes_ref[1, n:n + 2] + bytes_ref[4:6].bits[2:4, n]] with n = 3. *)
Definition n_ref : leaf := mkLeaf 0 CField true.
Definition n_is (z : Z) : leaf -> res rv := fun _ => Ok (RVal (VInt z)).
Definition int_ (z : Z) : pobj := PConst (RVal (VInt z)).
Definition n_obj : pobj := PRefr (RLeaf n_ref).
Definition n_plus_2 : pobj := PRefr (RBin OpAdd (RLeaf n_ref) (RObj (RVal (VInt 2)))).
Definition where_demo : wexp :=
  EAdd (EBytes (LList [LIndex (int_ 1); LSlice n_obj n_plus_2 None]))
       (EBits (EBytes (LSlice (int_ 4) (int_ 6) None)) (LList [LSlice (int_ 2) (int_ 4) None; LIndex n_obj])).
Example C68_nonvacuous :
  where_pos (n_is 3) where_demo ([8;9;10;11;12;13;14;15; 24;25;26;27;28;29;30;31;32;33;34;35;36;37;38;39] ++ [34;35; 35])
  /\ (let* w := define where_demo in ranges (n_is 3) w)
     = Ok [mkR 8 (Some 16); mkR 24 (Some 40); mkR 34 (Some 36); mkR 35 (Some 36)]
  /\ define (EBits (EBytes (LSlice (int_ 4) (int_ 6) None)) (LSlice n_obj (int_ 4) None)) = Err NotImplementedError
  /\ (exists w, define (EBytes (LSlice n_obj (int_ 2) None)) = Ok w
                /\ ranges (n_is 1) w = Ok [mkR 8 (Some 16)] /\ ranges (n_is 3) w = Err AssertionError).
Proof.
  split; [|split; [reflexivity|split; [reflexivity|eexists; repeat split]]].
  assert (N : value (n_is 3) n_obj 3) by (constructor; reflexivity).
  apply wp_add.
  - apply wp_bytes, bp_list.
    apply (lp_more (n_is 3) _ _ [8;9;10;11;12;13;14;15] [24;25;26;27;28;29;30;31;32;33;34;35;36;37;38;39]).
    + apply (bp_index (n_is 3) _ 1); [constructor|discriminate].
    + apply lp_one. apply (bp_slice (n_is 3) _ _ _ 3 5).
      * now constructor.
      * constructor; reflexivity.
      * split; discriminate.
      * now left.
  - apply (wp_bits (n_is 3) _ (from_to 32 48)); [exact I| |].
    + apply (bp_slice (n_is 3) _ _ _ 4 6); [constructor; constructor|constructor|split; discriminate|now left].
    + apply bi_list, (bl_more (n_is 3) _ _ _ [34; 35] [35]).
      * apply (bi_slice (n_is 3) (from_to 32 48) 2 4); [split; discriminate|discriminate|now left].
      * apply bl_one. apply (bi_index (n_is 3) (from_to 32 48) _ 3); [exact N|split; [discriminate|reflexivity]].
Qed.
Example C68_nonvacuous_rejected :
  get_bytes (LSlice (int_ 0) (int_ 4) (Some 2)) = Err AssertionError
  /\ get_bytes (LIndex (int_ (-1))) = Err AssertionError
  /\ get_bytes (LIndex (PConst (RVal VNone))) = Err TypeError
  /\ (exists p, define (EAdd (EBytes (LIndex (int_ 0))) (EBytes (LIndex (int_ 1)))) = Ok p)
  /\ define (EBits (EAdd (EBytes (LIndex (int_ 0))) (EBytes (LIndex (int_ 1)))) (LIndex (int_ 3))) = Err AttributeError.
Proof. repeat split; eexists; reflexivity. Qed.
