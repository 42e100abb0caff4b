(** Properties C05-C08: bit streams and bit fields. *)
From Verif Require Import Base IntCodec BitStringIO Stream Marshal BitFieldSpec BitStringIOProofs BitFacts.
From Coq Require Import ZArith List Bool String Lia.
Import ListNotations.
Open Scope Z_scope.

(** C05 *)
Theorem C05_bit_write : forall pos val value n,
  bytes_ok val -> 0 <= pos -> 0 <= n -> pos + n <= 8 * zlen val ->
  exists val', bs_write value n (mkBsio pos val) = (Ok tt, mkBsio (pos + n) val')
    /\ zlen val' = zlen val /\ bytes_ok val'
    /\ forall i, 0 <= i < 8 * zlen val ->
         bit_at val' i = if (pos <=? i) && (i <? pos + n)
                         then bit_at val i || Z.testbit value (i - pos) else bit_at val i.
Proof. exact bit_write. Qed.
Print Assumptions C05_bit_write.

Theorem C05_bit_write_past_end : forall s value n,
  8 * zlen (bs_val s) < bs_pos s + n -> bs_write value n s = (Err IOError, s).
Proof. exact bs_write_past_end. Qed.
Print Assumptions C05_bit_write_past_end.

Example C05_nonvacuous :
  bytes_ok [1; 0; 128] /\ bs_write (-3) 11 (mkBsio 6 [1; 0; 128]) = (Ok tt, mkBsio 17 [65; 255; 129])
  /\ 8 * zlen (bs_val (mkBsio 6 [1])) < bs_pos (mkBsio 6 [1]) + 3.
Proof. repeat split; try (vm_compute; reflexivity). repeat constructor; unfold is_byte; lia. Qed.

(** C06 *)
Theorem C06_bit_read : forall pos val n,
  bytes_ok val -> 0 <= pos -> 0 <= n -> pos + n <= 8 * zlen val ->
  exists r, bs_read n (mkBsio pos val) = (Ok r, mkBsio (pos + n) val)
    /\ 0 <= r < 2 ^ n
    /\ forall i, 0 <= i < n -> Z.testbit r i = bit_at val (pos + i).
Proof. exact bit_read. Qed.
Print Assumptions C06_bit_read.

Theorem C06_bit_read_past_end : forall s n,
  8 * zlen (bs_val s) < bs_pos s + n -> bs_read n s = (Err IOError, s).
Proof. exact bs_read_past_end. Qed.
Print Assumptions C06_bit_read_past_end.

Example C06_nonvacuous : bs_read 11 (mkBsio 6 [64; 255; 129]) = (Ok 2045, mkBsio 17 [64; 255; 129]).
Proof. vm_compute. reflexivity. Qed.

(** C07.  A group of named integer bit fields and padding whose widths add up to whole bytes. *)
Theorem C07_bit_group : forall its a,
  Forall (fun it => 0 <= item_width it) its ->
  widths its mod 8 = 0 -> widths its / 8 <= maxsize ->
  NoDup (item_names its) ->
  (forall n w, In (Named n w) its -> exists z, lookup a n = Some (VInt z)) ->
  exists b,
    zlen b = widths its / 8
    /\ (forall h out, write_field h (FBits (map item_field its)) a out = (Ok tt, out ++ b))
    /\ (forall l1 n w l2 z i, its = l1 ++ Named n w :: l2 -> lookup a n = Some (VInt z) ->
          0 <= i < w -> bit_at b (widths l1 + i) = Z.testbit z i)
    /\ (forall l1 w l2 i, its = l1 ++ Padding w :: l2 -> 0 <= i < w -> bit_at b (widths l1 + i) = false)
    /\ (forall h cls cctx c acc pre tail, exists acc',
          read_field h cls cctx (FBits (map item_field its)) c
            (SBytesIO (pre ++ b ++ tail) (zlen pre), acc)
          = (Ok tt, (SBytesIO (pre ++ b ++ tail) (zlen pre + zlen b), acc'))
          /\ (forall n w z, In (Named n w) its -> lookup a n = Some (VInt z) ->
                lookup acc' n = Some (VInt (z mod 2 ^ w)))
          /\ (forall n, ~ In n (item_names its) -> lookup acc' n = lookup acc n)).
Proof. exact bit_group. Qed.
Print Assumptions C07_bit_group.

Example C07_nonvacuous :
  let its := [Named "x" 3; Padding 2; Named "y" 11]%string in
  let a := [("x", VInt 5); ("y", VInt 3000)]%string in
  Forall (fun it => 0 <= item_width it) its /\ widths its mod 8 = 0 /\ widths its / 8 <= maxsize
  /\ NoDup (item_names its)
  /\ (forall n w, In (Named n w) its -> exists z, lookup a n = Some (VInt z))
  /\ write_field HostLittle (FBits (map item_field its)) a [] = (Ok tt, [5; 119])
  /\ read_field HostLittle "T"%string None (FBits (map item_field its)) [] (SBytesIO [5; 119] 0, [])
     = (Ok tt, (SBytesIO [5; 119] 2, [("x", VInt 5); ("y", VInt 952)]%string)).
Proof.
  cbn zeta. repeat split; try (vm_compute; congruence).
  - repeat constructor; cbn; lia.
  - cbn. repeat constructor; cbn; intuition congruence.
  - cbn. intros n w [H|[H|[H|[]]]]; inversion H; subst; cbn; eauto.
Qed.

(** C08.  Positional bit fields on pairwise disjoint slices. *)
Theorem C08_positional_bits : forall lay size a,
  0 <= size <= maxsize ->
  (forall n sl s, In (n, sl) lay -> In s sl -> 0 <= fst s < snd s /\ snd s <= 8 * size) ->
  Forall (fun p => slices_disjoint (snd p)) lay ->
  (forall l1 n sl l2 n' sl' i, lay = l1 ++ (n, sl) :: l2 -> In (n', sl') l2 ->
      in_slices sl i -> ~ in_slices sl' i) ->
  NoDup (map fst lay) ->
  (forall n sl, In (n, sl) lay -> exists z, lookup a n = Some (VInt z)) ->
  exists b,
    zlen b = size
    /\ (forall h out, write_field h (FPosBits size (map pos_field lay)) a out = (Ok tt, out ++ b))
    /\ (forall n sl z, In (n, sl) lay -> lookup a n = Some (VInt z) -> slices_hold b sl z 0)
    /\ (forall i, (forall n sl, In (n, sl) lay -> ~ in_slices sl i) -> bit_at b i = false)
    /\ (forall h cls cctx c acc pre tail, exists acc',
          read_field h cls cctx (FPosBits size (map pos_field lay)) c
            (SBytesIO (pre ++ b ++ tail) (zlen pre), acc)
          = (Ok tt, (SBytesIO (pre ++ b ++ tail) (zlen pre + zlen b), acc'))
          /\ (forall n sl z, In (n, sl) lay -> lookup a n = Some (VInt z) ->
                lookup acc' n = Some (VInt (z mod 2 ^ slices_width sl)))
          /\ (forall n, ~ In n (map fst lay) -> lookup acc' n = lookup acc n)).
Proof. exact pos_group. Qed.
Print Assumptions C08_positional_bits.

Example C08_nonvacuous :
  let lay := [("x", [(4, 8); (0, 2)]); ("y", [(2, 4)])]%string in
  let a := [("x", VInt 37); ("y", VInt 7)]%string in
  (forall n sl s, In (n, sl) lay -> In s sl -> 0 <= fst s < snd s /\ snd s <= 8 * 1)
  /\ Forall (fun p => slices_disjoint (snd p)) lay
  /\ (forall l1 n sl l2 n' sl' i, lay = l1 ++ (n, sl) :: l2 -> In (n', sl') l2 ->
        in_slices sl i -> ~ in_slices sl' i)
  /\ NoDup (map fst lay)
  /\ (forall n sl, In (n, sl) lay -> exists z, lookup a n = Some (VInt z))
  /\ write_field HostLittle (FPosBits 1 (map pos_field lay)) a [] = (Ok tt, [94])
  /\ posbits_container_size None (map pos_field lay) = Ok 1.
Proof.
  cbn zeta. repeat split; try (vm_compute; reflexivity).
  1-3: cbn in H; intuition (match goal with E : (_, _) = (_, _) |- _ => injection E as <- <- end;
                         cbn in H0; intuition (subst; cbn; lia)).
  - repeat constructor; cbn; lia.
  - intros l1 n sl l2 n' sl' i E I (s & Is & Hs) (s' & Is' & Hs').
    destruct l1 as [|p l1]; [|destruct l1 as [|p' l1]].
    + injection E as <- <- <-. destruct I as [I|[]]. injection I as <- <-.
      cbn in Is, Is'. intuition (subst; cbn in *; lia).
    + injection E as <- <- <- <-. destruct I.
    + destruct l1; discriminate.
  - repeat constructor; cbn; intuition congruence.
  - cbn. intros n sl [H|[H|[]]]; inversion H; subst; cbn; eauto.
Qed.
