(** C99: the functions that fields are declared with give the fields they say. *)
From Verif Require Import Base IntCodec CodecSpec Stream StreamSpec MinMax Marshal FieldSpec FieldFacts ArrayFacts BitFieldSpec BitFacts
  Formats Macros MacrosSpec DeclaredSpec DeclaredFacts.
From Coq Require Import ZArith List Bool String Lia.
Import ListNotations.
Open Scope string_scope.
Open Scope list_scope.
Open Scope Z_scope.

(** C99.  A number (or anything that round-trips) declared as [UBInt8("n", default)]. *)
Theorem C99_number_field : forall h m n d v enc,
  (forall c, roundtrips h m c v enc) -> field_holds h (MarshalWithField_call m n d) n v v enc.
Proof. intros h m n d v enc R. apply field_holds_of; [exact (proj1 (R []))|intros c; exact (proj2 (R c))]. Qed.
Print Assumptions C99_number_field.

(** Strings behind their length: stripped at the ends that were asked for. *)
Theorem C99_length_prefixed_string : forall h n sz p dir d b core encn,
  trims (trims_left dir) (trims_right dir) p b core -> zlen core <= maxsize ->
  (forall c, roundtrips h sz c (VInt (zlen core)) encn) ->
  exists f, VarSizeString n sz (VBytes p) dir d = Ok f
    /\ field_holds h f n (VBytes b) (VBytes core) (encn ++ core).
Proof.
  intros h n sz p dir d b core encn T L R. eexists. split; [reflexivity|].
  apply field_holds_of; [exact (proj1 (varstr_roundtrip h sz p dir b core encn [] T L (R [])))|].
  intros c. exact (proj2 (varstr_roundtrip h sz p dir b core encn c T L (R c))).
Qed.
Print Assumptions C99_length_prefixed_string.
(** Buffers behind their length: nothing is stripped. *)
Theorem C99_length_prefixed_buffer : forall h n sz d b encn,
  zlen b <= maxsize -> (forall c, roundtrips h sz c (VInt (zlen b)) encn) ->
  exists f, VarSizeBuffer n sz d = Ok f /\ field_holds h f n (VBytes b) (VBytes b) (encn ++ b).
Proof.
  intros h n sz d b encn L R. eexists. split; [reflexivity|].
  assert (T : trims (trims_left PNone) (trims_right PNone) [] b b).
  { exists [], []. rewrite app_nil_r. repeat split; constructor. }
  apply field_holds_of; [exact (proj1 (varstr_roundtrip h sz [] PNone b b encn [] T L (R [])))|].
  intros c. exact (proj2 (varstr_roundtrip h sz [] PNone b b encn c T L (R c))).
Qed.
Print Assumptions C99_length_prefixed_buffer.
(** Padded strings take exactly [size] bytes: the stripped string, and the first padding byte behind it. *)
Theorem C99_padded_string : forall h n size p0 ps dir d f b core, dir = PRight \/ dir = PBoth ->
  PaddedString n size (VBytes (p0 :: ps)) dir d = Ok f ->
  trims (trims_left dir) (trims_right dir) (p0 :: ps) b core -> zlen core <= size <= maxsize ->
  let enc := core ++ repeat p0 (Z.to_nat (size - zlen core)) in
  zlen enc = size /\ field_holds h f n (VBytes b) (VBytes core) enc.
Proof.
  intros h n size p0 ps dir d f b core D F T L. unfold PaddedString in F. destruct (check_default _ _); [|discriminate]. injection F as <-.
  destruct (padded_roundtrip h size p0 ps dir b core D T L) as (enc & E & W & R).
  assert (Q : enc = core ++ repeat p0 (Z.to_nat (size - zlen core))).
  { specialize (W []). rewrite (padded_write h size p0 ps dir b core [] T) in W by lia. cbn [app] in W. congruence. }
  cbn zeta. rewrite <- Q. split; [exact E|]. apply field_holds_of; [exact W|]. intros. now rewrite R, E.
Qed.
Print Assumptions C99_padded_string.
Theorem C99_fixed_buffer : forall h n size d f b,
  FixedSizeBuffer n size d = Ok f -> bytes_ok b -> zlen b = size -> size <= maxsize -> field_holds h f n (VBytes b) (VBytes b) b.
Proof.
  intros h n size d f b F B L M. unfold FixedSizeBuffer in F. destruct (check_default _ _); [|discriminate]. injection F as <-.
  apply field_holds_of; [exact (proj1 (fixed_buffer_exact h size b B L M []))|].
  intros c. exact (proj2 (fixed_buffer_exact h size b B L M c)).
Qed.
Print Assumptions C99_fixed_buffer.

(** Arrays: of a fixed number of elements; behind the number of elements; behind the number of bytes. *)
Theorem C99_fixed_array : forall h n k el d f l encs,
  FixedSizeArray n k el d = Ok f -> zlen l = k -> (forall c, Forall2 (roundtrips h el c) l encs) ->
  field_holds h f n (VList l) (VList l) (List.concat encs).
Proof.
  intros h n k el d f l encs F L R. unfold FixedSizeArray in F. destruct (check_default _ _); [|discriminate]. injection F as <-.
  apply field_holds_of.
  - apply (fix_array h k el [] l encs (R []) L).
  - intros c. apply (fix_array h k el c l encs (R c) L).
Qed.
Print Assumptions C99_fixed_array.
Theorem C99_counted_array : forall h n sz el d l encs encn,
  (forall c, Forall2 (roundtrips h el c) l encs) -> (forall c, roundtrips h sz c (VInt (zlen l)) encn) ->
  exists f, VarSizeArray n sz el d = Ok f /\ field_holds h f n (VList l) (VList l) (encn ++ List.concat encs).
Proof.
  intros h n sz el d l encs encn R S. eexists. split; [reflexivity|]. apply field_holds_of.
  - apply (var_array h sz el [] l encs encn (R []) (S [])).
  - intros c. apply (var_array h sz el c l encs encn (R c) (S c)).
Qed.
Print Assumptions C99_counted_array.
Theorem C99_byte_counted_array : forall h n sz el d l encs encn,
  (forall c, Forall2 (roundtrips h el c) l encs) -> Forall (fun e => 0 < zlen e) encs ->
  Forall2 (fun x e => sizeof el x = Ok (zlen e)) l encs ->
  (forall c, roundtrips h sz c (VInt (zlen (List.concat encs))) encn) ->
  exists f, SumSizeArray n sz el d = Ok f /\ field_holds h f n (VList l) (VList l) (encn ++ List.concat encs).
Proof.
  intros h n sz el d l encs encn R P Z S. eexists. split; [reflexivity|]. apply field_holds_of.
  - apply (sum_array h sz el [] l encs encn (R []) P Z (S [])).
  - intros c. apply (sum_array h sz el c l encs encn (R c) P Z (S c)).
Qed.
Print Assumptions C99_byte_counted_array.

(** A new object has the values it was given, and the declared default where none was given. *)
Theorem C99_declared_default : forall f n d, declares f n d ->
  forall kw, lookup (new_attrs [f] kw) n = match lookup kw n with Some v => Some v | None => Some d end.
Proof. exact declared_default. Qed.
Print Assumptions C99_declared_default.

(** A group of bit fields declared with positions [BitField("n", Bits[a:b, c:d])]: it is accepted and
    takes [size] bytes if the highest position is the last bit of byte [size - 1]; the low bits of a
    value are at the first slice, the next at the second, and so on; bits that no field has are zero;
    and reading restores every value, as far as it has bits for it. *)
Theorem C99_bit_positions : forall lay size a,
  0 <= size <= maxsize ->
  (exists n w s, In (n, w) lay /\ In s (slices_of w) /\ snd s = 8 * size) ->
  (forall n w s, In (n, w) lay -> In s (slices_of w) -> 0 <= fst s < snd s /\ snd s <= 8 * size) ->
  (forall n w, In (n, w) lay -> slices_of w <> [] /\ slices_width (slices_of w) <= maxsize) ->
  Forall (fun p => slices_disjoint (slices_of (snd p))) lay ->
  (forall l1 n w l2 n' w' i, lay = l1 ++ (n, w) :: l2 -> In (n', w') l2 ->
      in_slices (slices_of w) i -> ~ in_slices (slices_of w') i) ->
  NoDup (map fst lay) ->
  (forall n w, In (n, w) lay -> exists z, lookup a n = Some (VInt z)) ->
  exists f b, BitFields (map (fun p => BitField (fst p) (snd p) VNone) lay) = Ok f
    /\ zlen b = size
    /\ (forall h out, write_field h f a out = (Ok tt, out ++ b))
    /\ (forall n w z, In (n, w) lay -> lookup a n = Some (VInt z) -> slices_hold b (slices_of w) z 0)
    /\ (forall i, (forall n w, In (n, w) lay -> ~ in_slices (slices_of w) i) -> bit_at b i = false)
    /\ (forall h cls cctx c acc pre tail, exists acc',
          read_field h cls cctx f c (SBytesIO (pre ++ b ++ tail) (zlen pre), acc)
          = (Ok tt, (SBytesIO (pre ++ b ++ tail) (zlen pre + zlen b), acc'))
          /\ (forall n w z, In (n, w) lay -> lookup a n = Some (VInt z) ->
                lookup acc' n = Some (VInt (z mod 2 ^ slices_width (slices_of w))))
          /\ (forall n, ~ In n (map fst lay) -> lookup acc' n = lookup acc n)).
Proof. exact declared_positions. Qed.
Print Assumptions C99_bit_positions.

Definition scattered_lay : list (name * bitsize) := [("a", WList [(12, 16); (0, 4)]); ("b", WSlice (4, 11))].
Example C99_nonvacuous_positions :
  (exists n w s, In (n, w) scattered_lay /\ In s (slices_of w) /\ snd s = 8 * 2)
  /\ (forall n w s, In (n, w) scattered_lay -> In s (slices_of w) -> 0 <= fst s < snd s /\ snd s <= 8 * 2)
  /\ (forall n w, In (n, w) scattered_lay -> slices_of w <> [] /\ slices_width (slices_of w) <= maxsize)
  /\ Forall (fun p => slices_disjoint (slices_of (snd p))) scattered_lay
  /\ (forall l1 n w l2 n' w' i, scattered_lay = l1 ++ (n, w) :: l2 -> In (n', w') l2 ->
        in_slices (slices_of w) i -> ~ in_slices (slices_of w') i)
  /\ NoDup (map fst scattered_lay)
  /\ (let* f := BitFields (map (fun p => BitField (fst p) (snd p) VNone) scattered_lay) in
      Ok (snd (write_field HostLittle f [("a", VInt 35); ("b", VInt 1)] []))) = Ok [18; 48].
Proof.
  split. { exists "a", (WList [(12, 16); (0, 4)]), (12, 16). split; [now left|]. split; [now left|reflexivity]. }
  split. { intros n w s [E|[E|[]]] J; injection E as <- <-; cbn in J; repeat (destruct J as [<-|J]; [cbn; lia|]); easy. }
  split. { intros n w [E|[E|[]]]; injection E as <- <-; (split; [discriminate|discriminate]). }
  split. { repeat first [apply Forall_nil|apply Forall_cons]; cbn; repeat split; repeat first [apply Forall_nil|apply Forall_cons]; cbn; lia. }
  split.
  { intros l1 n w l2 n' w' i E J (s & I & H) (s' & I' & H').
    destruct l1 as [|x [|y [|]]]; cbn in E; try discriminate.
    - injection E as <- <- <-. destruct J as [J|[]]. injection J as <- <-. cbn in I, I'.
      destruct I' as [<-|[]]. destruct I as [<-|[<-|[]]]; cbn in *; lia.
    - injection E as _ <- <- <-. destruct J. }
  split; [|reflexivity]. cbn. repeat constructor; cbn; intuition discriminate.
Qed.
Example C99_nonvacuous :
  trims (trims_left PBoth) (trims_right PBoth) [32; 0] [32; 97; 0] [97]
  /\ (exists f, VarSizeString "s" (MInt UBInt8Marshal) (VBytes [32; 0]) PBoth VNone = Ok f
      /\ snd (write_field HostLittle f [("s", VBytes [32; 97; 0])] []) = [1; 97])
  /\ (exists f, SumSizeArray "l" (MInt UBInt8Marshal) (MInt UBInt16Marshal) (VList []) = Ok f /\ declares f "l" (VList [])
      /\ snd (write_field HostLittle f [("l", VList [VInt 1; VInt 2])] []) = [4; 0; 1; 0; 2])
  /\ (exists f, VarSizeArray "l" (MInt UBInt8Marshal) (MInt UBInt16Marshal) VNone = Ok f
      /\ snd (write_field HostLittle f [("l", VList [VInt 1; VInt 2])] []) = [2; 0; 1; 0; 2])
  /\ (exists f, BitFields [BitField "a" (WInt 7) (VInt 5); BitFlag "b" (VInt 1)] = Ok f /\ declares f "a" (VInt 5) /\ declares f "b" (VInt 1))
  /\ declares (MarshalWithField_call (MInt UBInt8Marshal) "n" (VInt 4)) "n" (VInt 4).
Proof.
  split. { exists [32], [0]. split; [reflexivity|]. split; [repeat constructor|]. split; [repeat constructor; now right; left|].
    cbn. split; intros x t E.
    - injection E as <- <-. intuition discriminate.
    - assert (x = 97) by (destruct t as [|? [|]]; cbn in E; congruence). subst. intuition discriminate. }
  split. { eexists. split; reflexivity. }
  split. { eexists. split; [reflexivity|]. split; [now apply (dec_sumarr "l" (MInt UBInt8Marshal) (MInt UBInt16Marshal))|reflexivity]. }
  split. { eexists. split; reflexivity. }
  split; [|constructor]. eexists. split; [reflexivity|]. split.
  - apply (dec_bits "a" (WInt 7) (VInt 5) [BitField "a" (WInt 7) (VInt 5); BitFlag "b" (VInt 1)]); [reflexivity|now left| |].
    + intros n' w' d' [E|[E|[]]] N; injection E as <- <- <-; first [discriminate|reflexivity].
    + intros m k [E|[E|[]]]; discriminate.
  - apply (dec_flag "b" (VInt 1) [BitField "a" (WInt 7) (VInt 5); BitFlag "b" (VInt 1)]); [reflexivity|right; now left| |].
    + intros n' w' d' [E|[E|[]]] N; injection E as <- <- <-; first [discriminate|reflexivity].
    + intros m k [E|[E|[]]]; discriminate.
Qed.
