(** Specification vocabulary: what the error of a failed pack() or unpack() has to tell. *)
From Verif Require Import Base Marshal Range RangeSpec IoBuffer IoSpec RefEngine RefSpec BufferModel BufferSpec BufferReport.
From Coq Require Import ZArith List Bool String Sorted.
Import ListNotations.
Open Scope list_scope.

Section Blame.
Variable C : cls.

(** Evaluating a reference whose [evaluate] is [p] ends with [o] in [p] itself: what it asked for before was evaluated,
    and then it raised, or asked for a reference that is already being evaluated; by then [known] is resolved. *)
Inductive ends_in : bprog -> memory -> bst -> outcome rid rv -> memory -> Prop :=
| ends_raise : forall e m s, ends_in (PRaise e) m s (ORaise e) m
| ends_ctx : forall f k m s e s1, f s = (Err e, s1) -> ends_in (PCtx f k) m s (ORaise e) m
| ends_cycle : forall r k m s, ends_in (PRef r k) m s (OCyclic r) m
| ends_after : forall r k m s v m1 s1 o known, eval rid_eqb (nodes C) r m s (Ok v) m1 s1 -> ends_in (k v) m1 s1 o known ->
    ends_in (PRef r k) m s o known
| ends_after_ctx : forall f k m s v s1 o known, f s = (Ok v, s1) -> ends_in (k v) m s1 o known -> ends_in (PCtx f k) m s o known.

(** The evaluation of [root] raises [e]: [chain] are the references from [root] on, each asking for the next one; the last
    one raised [e], or asked for one of the chain.  [known] are the references resolved by then. *)
Definition fails_through (root : rid) (m : memory) (s : bst) (e : exn) (known : memory) (chain : list rid) : Prop :=
  exists path bad mb sb o, chain = path ++ [bad] /\ needs rid_eqb (nodes C) path root m s bad mb sb
    /\ RefEngine.lookup rid_eqb bad mb = None /\ ends_in (nodes C bad) mb sb o known
    /\ match o with
       | OOk _ => False
       | ORaise e' => e = e'
       | OCyclic r => e = CyclicReferenceError /\ In r chain
       end.

(** Packing field number [i], whose condition holds, fails: its bytes or its position raise, or the bytes do not go there. *)
Definition field_not_packed (i : nat) (m : memory) (s : bst) (e : exn) (known : memory) (chain : list rid) : Prop :=
  fails_through (mkRid KPack i) m s e known chain
  \/ (exists b m1 s1, eval rid_eqb (nodes C) (mkRid KPack i) m s (Ok (RBuf b)) m1 s1
      /\ fails_through (mkRid KPackPos i) m1 s1 e known chain)
  \/ (exists b m1 s1 r s2, eval rid_eqb (nodes C) (mkRid KPack i) m s (Ok (RBuf b)) m1 s1
      /\ eval rid_eqb (nodes C) (mkRid KPackPos i) m1 s1 (Ok (RRanges r)) known s2
      /\ ~ part_fits (Some (b, r)) /\ (Forall closed r -> e = ValueError) /\ chain = []).

(** Unpacking field number [i] fails: its condition, a field it is to be unpacked after, or the field itself. *)
Definition field_not_unpacked (i : nat) (f : field) (m : memory) (s : bst) (e : exn) (known : memory) (chain : list rid) : Prop :=
  fails_through (f_unpack_if f) m s e known chain
  \/ exists c m1 s1, eval rid_eqb (nodes C) (f_unpack_if f) m s (Ok c) m1 s1 /\ truthy c = true
     /\ exists before j after m2 s2, f_unpack_after f ++ [i] = before ++ j :: after
        /\ evals_all C (map (mkRid KUnpackValue) before) m1 s1 m2 s2 /\ fails_through (mkRid KUnpackValue j) m2 s2 e known chain.

(** pack() of [o] gets to field [f], number [i], and packing that fails. *)
Definition pack_stops_at (o : attrs) (i : nat) (f : field) (e : exn) (known : memory) (chain : list rid) : Prop :=
  exists before after ps m s c m1 s1, numbered C = before ++ (i, f) :: after
    /\ packing C before [] (mkBst o None) ps m s /\ Forall part_fits ps
    /\ eval rid_eqb (nodes C) (f_pack_if f) m s (Ok c) m1 s1 /\ truthy c = true
    /\ field_not_packed i m1 s1 e known chain.
(** pack() of [o] gets to field number [i], and its condition raises. *)
Definition pack_condition_raises (o : attrs) (e : exn) : Prop :=
  exists before i f after ps m s, numbered C = before ++ (i, f) :: after
    /\ packing C before [] (mkBst o None) ps m s /\ fails C (f_pack_if f) m s e.
(** All fields of [o] are packed, and the bytes are more than the size of the class. *)
Definition packed_too_long (o : attrs) : Prop :=
  exists ps m s bits, packing C (numbered C) [] (mkBst o None) ps m s /\ output_of ps bits /\ too_long (k_size C) (bytes_of_bits bits).

(** unpack() gets to field [f], number [i], and unpacking that fails. *)
Definition unpack_stops_at (b : buf) (o : attrs) (i : nat) (f : field) (e : exn) (known : memory) (chain : list rid) : Prop :=
  exists input before after m s, input_buffer b = Ok input /\ numbered C = before ++ (i, f) :: after
    /\ unpacking C before [] (mkBst o (Some input)) m s /\ field_not_unpacked i f m s e known chain.
(** All fields are unpacked, and then the size raises. *)
Definition unpack_size_raises (b : buf) (o : attrs) (e : exn) : Prop :=
  exists input m s, input_buffer b = Ok input /\ unpacking C (numbered C) [] (mkBst o (Some input)) m s /\ fails C (mkRid KTotal 0) m s e.
End Blame.

(** The lines for the resolved references: one for each whose text is not that of its value, sorted, none twice. *)
Definition lists_resolved (safe : rid -> string) (show : rv -> res string) (known : memory) (lines : list string) : Prop :=
  StronglySorted (fun a b => String.ltb a b = true) lines
  /\ forall x, In x lines <-> exists r v t, In (r, v) known /\ show v = Ok t /\ safe r <> t /\ x = ("    " ++ safe r ++ "=" ++ t)%string.

(** What the error says about a failure of the field [attr]. *)
Definition tells (safe : rid -> string) (show : rv -> res string) (p : report) (attr : name) (e : exn) (known : memory) (chain : list rid) : Prop :=
  p_attr p = attr /\ p_cause p = e /\ lists_resolved safe show known (p_resolved p)
  /\ p_stack p = map (fun r => ("    " ++ safe r)%string) chain.

(** The text of some resolved value raises [e] (the first that does, in the order in which they were resolved). *)
Definition unshown (show : rv -> res string) (known : memory) (e : exn) : Prop :=
  exists later r v earlier, known = later ++ (r, v) :: earlier /\ Forall (fun p => exists t, show (snd p) = Ok t) earlier /\ show v = Err e.
