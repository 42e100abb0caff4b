(** Specification: the positions that [where=bytes_ref[...]] denotes. *)
From Verif Require Import Base Range Marshal BufferModel RefOps WhereRef RangeSpec.
From Coq Require Import ZArith List Bool.
Import ListNotations.
Open Scope Z_scope.

(** A bound of a slice: omitted, an integer or a reference. *)
Inductive bound : Type := BNone | BInt (n : Z) | BRef (r : rexpr).
Definition obj_of (b : bound) : pobj :=
  match b with BNone => PConst (RVal VNone) | BInt n => PConst (RVal (VInt n)) | BRef r => PRefr r end.
Definition in_order (a b : bound) : Prop :=
  match a, b with BInt m, BInt n => m <= n | _, _ => True end.
(** Bounds of bytes: nothing, non-negative integers, numeric references. *)
Definition byte_bound_ok (b : bound) : Prop :=
  match b with BNone => True | BInt n => 0 <= n | BRef r => is_numeric r = true end.
(** Bounds of bits: nothing and non-negative integers. *)
Definition bit_bound_ok (b : bound) : Prop :=
  match b with BNone => True | BInt n => 0 <= n | BRef _ => False end.

(** The numbers from [a] up to [b], without [b]. *)
Definition from_to (a b : Z) : list Z := map (fun k => a + Z.of_nat k) (seq 0 (Z.to_nat (b - a))).

Section Positions.
Variable env : leaf -> res rv.
(** An integer or a numeric reference with an integer value. *)
Inductive value : pobj -> Z -> Prop :=
| v_int n : value (PConst (RVal (VInt n))) n
| v_ref r n : is_numeric r = true -> eval env r = Ok (RVal (VInt n)) -> value (PRefr r) n.
(** The start of a slice may be omitted. *)
Inductive start_value : pobj -> Z -> Prop :=
| sv_value o n : value o n -> start_value o n
| sv_none : start_value (PConst (RVal VNone)) 0.

(** The bits of [bytes_ref[l]], in order. *)
Inductive bytes_pos : loc -> list Z -> Prop :=
| bp_index o n : value o n -> 0 <= n -> bytes_pos (LIndex o) (from_to (8 * n) (8 * n + 8))
| bp_slice a b s m n : start_value a m -> value b n -> 0 <= m <= n -> s = None \/ s = Some 1 ->
    bytes_pos (LSlice a b s) (from_to (8 * m) (8 * n))
| bp_list l ps : list_pos l ps -> bytes_pos (LList l) ps
with list_pos : list loc -> list Z -> Prop :=
| lp_one l ps : bytes_pos l ps -> list_pos [l] ps
| lp_more l r ps qs : bytes_pos l ps -> list_pos r qs -> list_pos (l :: r) (ps ++ qs).

(** The bits [l] of a sequence of bits; the bounds of slices are integers. *)
Inductive bits_pos (parent : list Z) : loc -> list Z -> Prop :=
| bi_index o k : value o k -> 0 <= k < zlen parent -> bits_pos parent (LIndex o) [nth (Z.to_nat k) parent 0]
| bi_slice a b s : 0 <= a <= b -> b <= zlen parent -> s = None \/ s = Some 1 ->
    bits_pos parent (LSlice (PConst (RVal (VInt a))) (PConst (RVal (VInt b))) s)
             (firstn (Z.to_nat (b - a)) (skipn (Z.to_nat a) parent))
| bi_list l ps : bits_list_pos parent l ps -> bits_pos parent (LList l) ps
with bits_list_pos (parent : list Z) : list loc -> list Z -> Prop :=
| bl_one l ps : bits_pos parent l ps -> bits_list_pos parent [l] ps
| bl_more l r ps qs : bits_pos parent l ps -> bits_list_pos parent r qs -> bits_list_pos parent (l :: r) (ps ++ qs).

(** A position expression; bits are taken from contiguous bytes. *)
Definition contiguous (l : loc) : Prop := match l with LList _ => False | _ => True end.
Inductive where_pos : wexp -> list Z -> Prop :=
| wp_bytes l ps : bytes_pos l ps -> where_pos (EBytes l) ps
| wp_bits l parent b ps : contiguous l -> bytes_pos l parent -> bits_pos parent b ps ->
    where_pos (EBits (EBytes l) b) ps
| wp_add x y ps qs : where_pos x ps -> where_pos y qs -> where_pos (EAdd x y) (ps ++ qs).
End Positions.
