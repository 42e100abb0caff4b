(** Specification vocabulary for positions with open ranges. *)
From Verif Require Import Base Range RangeSpec IoBuffer IoSpec RefEngine BufferModel BufferSpec.
From Coq Require Import ZArith List Bool.
Import ListNotations.
Open Scope Z_scope.

(** The length in bits of a packed field, filled up to whole bytes. *)
Definition padded_length (b : buf) : Z := zlen (pad_to_byte (buf_bits b)).

(** [closed_for n l r]: [r] is the position [l] of a field of [n] bits, with no open ranges.  The
    ranges in front of the open one are taken as they are, the open one takes the rest of the field,
    and any ranges behind it must be empty. *)
Definition closed_for (n : Z) (l r : list srange) : Prop :=
  exists front a rest, l = front ++ mkR a None :: rest
    /\ Forall closed front /\ zlen (all_positions front) <= n
    /\ Forall (fun q => r_stop q = None \/ r_stop q = Some (r_start q)) rest
    /\ r = front ++ mkR a (Some (a + n - zlen (all_positions front))) :: map (fun q => mkR (r_start q) (Some (r_start q))) rest.

(** Part [p] of a packed object is where the position of field [f], as evaluated, says. *)
Definition placed_by (m : memory) (f : field) (p : part) : Prop :=
  match p with
  | None => True
  | Some (b, r) => exists l, RefEngine.lookup rid_eqb (f_where_pack f) m = Some (RRanges l) /\ has_overlaps l = Ok false
      /\ (Forall (fun q => r_stop q <> None) l /\ r = l \/ closed_for (padded_length b) l r)
  end.
