(** Vocabulary for positions that depend on the length of the input (input_buffer_length,
    contexts.py:63-71). *)
From Verif Require Import Base Marshal Range RangeSpec IoBuffer IoSpec RefEngine RefSpec BufferModel BufferSpec BufferMacros BufferReadSpec.
From Coq Require Import ZArith List Bool String.
Import ListNotations.
Open Scope list_scope.
Open Scope Z_scope.

(** [of_length C n r v]: while unpacking an input of [n] bytes, reference [r] is [v], whatever the bytes
    and the object are: only the length of the input is looked at. *)
Inductive of_length (C : cls) (n : Z) : rid -> rv -> Prop :=
| ol_intro r v : of_length_prog C n (nodes C r) v -> of_length C n r v
with of_length_prog (C : cls) (n : Z) : bprog -> rv -> Prop :=
| ol_ret v : of_length_prog C n (PRet v) v
| ol_ref r k v w : of_length C n r v -> of_length_prog C n (k v) w -> of_length_prog C n (PRef r k) w
| ol_ctx f k v w : (forall s b, s_input s = Some b -> input_length b = n -> f s = (Ok v, s)) ->
    of_length_prog C n (k v) w -> of_length_prog C n (PCtx f k) w.

(** When unpacking an input of [n] bytes, field [f] is read at [r], and what is read is stored. *)
Definition at_length (C : cls) (n : Z) (f : field) (r : list srange) : Prop :=
  of_length C n (f_where_unpack f) (RRanges r) /\ proper_place r
  /\ (exists c, of_length C n (f_unpack_if f) c /\ truthy c = true)
  /\ f_after f = None.

(** The position bytes_ref[a + p * input_buffer_length : b + q * input_buffer_length] with p, q in {0, 1} (a, b
    may be negative): how the user writes it. *)
Inductive bound : Type := Fixed (a : Z) | FromEnd (a : Z).          (* a, input_buffer_length - a *)
Definition bound_at (n : Z) (b : bound) : Z := match b with Fixed a => a | FromEnd a => n - a end.
(** [wrote C b a]: argument [a] of the class [C] is what the user wrote for [b]. *)
Definition wrote (C : cls) (b : bound) (a : arg) : Prop :=
  match b with
  | Fixed z => a = AConst (RVal (VInt z))
  | FromEnd z => exists k j, a = ARef (mkRid KUser k) /\ nth_error (k_users C) k = Some (UNum OpSub (ARef (mkRid KUser j)) (AConst (RVal (VInt z))))
                  /\ nth_error (k_users C) j = Some UInputLen
  end.
Definition wrote_slice (C : cls) (a b : bound) (r : rid) : Prop :=
  exists k x y, r = mkRid KUser k /\ nth_error (k_users C) k = Some (UByteSlice x y) /\ wrote C a x /\ wrote C b y.

(** [needs_length C r]: the reference [r] is input_buffer_length, or a number computed from it, or a slice with such a
    bound. *)
Inductive needs_length (C : cls) : rid -> Prop :=
| nl_len j : nth_error (k_users C) j = Some UInputLen -> needs_length C (mkRid KUser j)
| nl_num k op a b r : nth_error (k_users C) k = Some (UNum op a b) -> (a = ARef r \/ b = ARef r) -> needs_length C r -> needs_length C (mkRid KUser k)
| nl_slice k a b r : nth_error (k_users C) k = Some (UByteSlice a b) -> (a = ARef r \/ b = ARef r) -> needs_length C r -> needs_length C (mkRid KUser k).
