(** Proofs about position expressions. *)
From Verif Require Import Base BaseProofs Range RangeRef RangeSpec RangeArith Marshal BufferModel RefOps WhereRef WhereSpec.
From Coq Require Import ZArith List Bool Lia ZifyBool ZifyNat.
Import ListNotations.
Open Scope Z_scope.
Ltac Zify.zify_post_hook ::= Z.div_mod_to_equations.

Lemma const_ge n : py_assert (py_binop OpGe (PConst (RVal (VInt n))) zero) = passert (0 <=? n).
Proof.
  unfold py_assert, py_binop, zero, const_op, is_number, num_op, num_bits, rbool. cbn [andb rbind py_bool truthy].
  replace (8 * 0 <=? 8 * n) with (0 <=? n) by lia. now destruct (0 <=? n).
Qed.
Lemma const_le m n : py_assert (py_binop OpLe (PConst (RVal (VInt m))) (PConst (RVal (VInt n)))) = passert (m <=? n).
Proof.
  unfold py_assert, py_binop, const_op, is_number, num_op, num_bits, rbool. cbn [andb rbind py_bool truthy].
  replace (8 * m <=? 8 * n) with (m <=? n) by lia. now destruct (m <=? n).
Qed.
Lemma numeric_ge r : is_numeric r = true -> py_assert (py_binop OpGe (PRefr r) zero) = Err NotImplementedError.
Proof. intros H. unfold py_assert, py_binop, method, check, zero. rewrite H. reflexivity. Qed.
Lemma plain_ge r : is_numeric r = false -> py_assert (py_binop OpGe (PRefr r) zero) = Err TypeError.
Proof. intros H. unfold py_assert, py_binop, method, check, zero. rewrite H. reflexivity. Qed.
Lemma passert_if b : passert b = if b then Ok tt else Err AssertionError.
Proof. reflexivity. Qed.

Lemma byte_bound_of b : byte_bound (obj_of b) =
  match b with
  | BNone => Ok tt
  | BInt n => if 0 <=? n then Ok tt else Err AssertionError
  | BRef r => if is_numeric r then Ok tt else Err TypeError
  end.
Proof.
  destruct b as [|n|r]; cbn [obj_of]; [reflexivity| |].
  - exact (const_ge n).
  - unfold byte_bound. cbn [omitted orb is_numeric_ref]. destruct (is_numeric r) eqn:E; [reflexivity|]. now apply plain_ge.
Qed.
Lemma bit_bound_of b : bit_bound (obj_of b) =
  match b with
  | BNone => Ok tt
  | BInt n => if 0 <=? n then Ok tt else Err AssertionError
  | BRef r => if is_numeric r then Err NotImplementedError else Err TypeError
  end.
Proof.
  destruct b as [|n|r]; cbn [obj_of]; [reflexivity| |].
  - exact (const_ge n).
  - unfold bit_bound. cbn [omitted]. destruct (is_numeric r) eqn:E; [now apply numeric_ge|now apply plain_ge].
Qed.

(** What is accepted in a class definition. *)
Definition byte_fault (b : bound) : option exn :=
  match b with
  | BNone => None
  | BInt n => if 0 <=? n then None else Some AssertionError
  | BRef r => if is_numeric r then None else Some TypeError
  end.
Lemma byte_slice_defined a b :
  (exists w, get_bytes (LSlice (obj_of a) (obj_of b) None) = Ok w)
  <-> byte_bound_ok a /\ byte_bound_ok b /\ in_order a b.
Proof.
  cbn [get_bytes]. unfold byte_slice, step_ok. cbn [passert rbind]. rewrite !byte_bound_of.
  split.
  - intros [w H]. destruct a as [|m|r]; destruct b as [|n|r'];
      cbn [rbind byte_bound_ok in_order obj_of omitted is_numeric_ref orb] in *;
      repeat match goal with
             | H : context [if ?c then _ else _] |- _ => destruct c eqn:?; cbn [rbind] in H; try discriminate
             end; try rewrite const_le, passert_if in H;
      repeat match goal with
             | H : context [if ?c then _ else _] |- _ => destruct c eqn:?; cbn [rbind] in H; try discriminate
             end; repeat split; auto; lia.
  - intros (A & B & O). destruct a as [|m|r]; destruct b as [|n|r'];
      cbn [rbind byte_bound_ok in_order obj_of omitted is_numeric_ref orb] in *;
      try rewrite A; try rewrite B; cbn [rbind orb];
      repeat match goal with |- context [0 <=? ?x] => replace (0 <=? x) with true by lia; cbn [rbind] end;
      try rewrite const_le, passert_if; try (replace (m <=? n) with true by lia);
      try (destruct (is_numeric _)); cbn [rbind]; eauto.
Qed.
Lemma byte_slice_fault a b e :
  get_bytes (LSlice (obj_of a) (obj_of b) None) = Err e ->
  e = AssertionError \/ (e = TypeError /\ exists r, (a = BRef r \/ b = BRef r) /\ is_numeric r = false).
Proof.
  cbn [get_bytes]. unfold byte_slice, step_ok. cbn [passert rbind]. rewrite !byte_bound_of. intros H.
  destruct a as [|m|r]; destruct b as [|n|r'];
      cbn [rbind byte_bound_ok in_order obj_of omitted is_numeric_ref orb] in *;
      repeat match goal with
             | H : context [if ?c then _ else _] |- _ => destruct c eqn:?; cbn [rbind] in H; try discriminate
             end; try rewrite const_le, passert_if in H;
      repeat match goal with
             | H : context [if ?c then _ else _] |- _ => destruct c eqn:?; cbn [rbind] in H; try discriminate
             end; try discriminate; injection H as <-; eauto 8.
Qed.
Lemma bit_slice_defined p a b :
  (exists w, get_bits p (LSlice (obj_of a) (obj_of b) None) = Ok w)
  <-> bit_bound_ok a /\ bit_bound_ok b /\ in_order a b.
Proof.
  cbn [get_bits]. unfold bit_slice, step_ok. cbn [passert rbind]. rewrite !bit_bound_of.
  split.
  - intros [w H]. destruct a as [|m|r]; destruct b as [|n|r'];
      cbn [rbind bit_bound_ok in_order obj_of omitted orb] in *;
      repeat match goal with
             | H : context [if ?c then _ else _] |- _ => destruct c eqn:?; cbn [rbind] in H; try discriminate
             end; try rewrite const_le, passert_if in H;
      repeat match goal with
             | H : context [if ?c then _ else _] |- _ => destruct c eqn:?; cbn [rbind] in H; try discriminate
             end; repeat split; auto; lia.
  - intros (A & B & O). destruct a as [|m|r]; destruct b as [|n|r'];
      cbn [rbind bit_bound_ok in_order obj_of omitted orb] in *; try contradiction;
      repeat match goal with |- context [0 <=? ?x] => replace (0 <=? x) with true by lia; cbn [rbind] end;
      try rewrite const_le, passert_if; try (replace (m <=? n) with true by lia); cbn [rbind]; eauto.
Qed.
Lemma bit_slice_reference p a b r : is_numeric r = true ->
  (a = BRef r \/ bit_bound_ok a /\ b = BRef r) ->
  get_bits p (LSlice (obj_of a) (obj_of b) None) = Err NotImplementedError.
Proof.
  intros R H. cbn [get_bits]. unfold bit_slice, step_ok. cbn [passert rbind]. rewrite !bit_bound_of.
  destruct H as [->|[A ->]].
  - now rewrite R.
  - rewrite R. destruct a as [|n|]; cbn [bit_bound_ok rbind] in *; [reflexivity| |contradiction].
    replace (0 <=? n) with true by lia. reflexivity.
Qed.

(** Values. *)
Section Env.
Variable env : leaf -> res rv.
Lemma value_eval o n : value env o n -> eval env (to_ref o) = Ok (RVal (VInt n)).
Proof. intros H; destruct H; [reflexivity|assumption]. Qed.
Lemma value_index o n : value env o n -> is_index o = true.
Proof. intros H; destruct H; [reflexivity|assumption]. Qed.
Lemma value_bound o n : value env o n -> 0 <= n -> byte_bound o = Ok tt.
Proof.
  intros H N; destruct H as [n|r n E _].
  - etransitivity; [exact (byte_bound_of (BInt n))|]. now replace (0 <=? n) with true by lia.
  - etransitivity; [exact (byte_bound_of (BRef r))|]. now rewrite E.
Qed.
Lemma from_to_positions a b : 0 <= a <= b -> positions (mkR a (Some b)) = from_to a b.
Proof. intros H. rewrite positions_eq. reflexivity. Qed.
Lemma closed_mk a b : 0 <= a <= b -> closed (mkR a (Some b)).
Proof. intros H. split; [exact H|discriminate]. Qed.
Lemma single_positions a b : 0 <= a <= b -> all_positions [mkR a (Some b)] = from_to a b.
Proof. intros H. unfold all_positions. cbn [flat_map]. rewrite app_nil_r. now apply from_to_positions. Qed.

Fixpoint ranges_all (l : list wref) : res (list (list srange)) :=
  match l with
  | [] => Ok []
  | w :: r => let* x := ranges env w in let* xs := ranges_all r in Ok (x :: xs)
  end.
Lemma ranges_list l : ranges env (WList l) = (let* ls := ranges_all l in list_ref ls).
Proof. reflexivity. Qed.
Lemma ranges_byte_list l : ranges env (WByteList l) = (let* ls := ranges_all l in list_ref ls).
Proof. reflexivity. Qed.
Lemma ranges_all_app l l' : ranges_all (l ++ l') = (let* a := ranges_all l in let* b := ranges_all l' in Ok (a ++ b)).
Proof.
  induction l as [|w l IH]; cbn [app ranges_all rbind].
  - now destruct (ranges_all l').
  - destruct (ranges env w); cbn [rbind]; [|reflexivity]. rewrite IH.
    destruct (ranges_all l); cbn [rbind]; [|reflexivity]. now destruct (ranges_all l').
Qed.

(** What a range expression has: pieces with closed ranges. *)
Definition pieces (w : wref) (ps : list Z) : Prop :=
  exists ls, ranges_all (parts w) = Ok ls /\ ls <> [] /\ ranges env w = Ok (concat ls)
    /\ all_positions (concat ls) = ps.
Definition single (w : wref) (a b : Z) : Prop := ranges env w = Ok [mkR a (Some b)] /\ 0 <= a <= b /\ parts w = [w].
Lemma single_pieces w a b : single w a b -> pieces w (from_to a b).
Proof.
  intros (E & H & P). exists [[mkR a (Some b)]]. rewrite P. cbn [ranges_all]. rewrite E. cbn [rbind concat app].
  repeat split; [discriminate|]. now apply single_positions.
Qed.

Lemma byte_num_ok o n : value env o n -> 0 <= n ->
  exists w, get_bytes (LIndex o) = Ok w /\ single w (8 * n) (8 * n + 8) /\ has_bits w = true.
Proof.
  intros V N. exists (WByteNum (to_ref o)). cbn [get_bytes]. rewrite (value_index _ _ V). unfold byte_num.
  replace (if is_numeric_ref o then Ok tt else py_assert (py_binop OpGe o zero)) with (Ok tt).
  2:{ destruct V as [n|r n R _]; cbn [is_numeric_ref]; [rewrite const_ge; now replace (0 <=? n) with true by lia|now rewrite R]. }
  cbn [rbind]. split; [reflexivity|]. split; [|reflexivity]. split; [|split; [lia|reflexivity]].
  cbn [ranges]. rewrite (value_eval _ _ V). cbn [rbind]. unfold num_ranges, num_bits. cbn [rbind].
  replace (passert (0 <=? 8 * n)) with (Ok tt : res unit) by (rewrite passert_if; now replace (0 <=? 8 * n) with true by lia).
  cbn [rbind]. rewrite mk_srange_ok by lia. reflexivity.
Qed.
Lemma start_eval o n : start_value env o n ->
  exists v, eval env (to_ref o) = Ok v /\ (opt_num_bits v = Ok (Some (8 * n)) \/ (opt_num_bits v = Ok None /\ n = 0)).
Proof.
  intros H; destruct H as [o n V|].
  - exists (RVal (VInt n)). split; [now apply value_eval|]. left. reflexivity.
  - exists (RVal VNone). split; [reflexivity|]. right. split; reflexivity.
Qed.
Lemma byte_slice_ok a b s m n : start_value env a m -> value env b n -> 0 <= m <= n -> s = None \/ s = Some 1 ->
  exists w, get_bytes (LSlice a b s) = Ok w /\ single w (8 * m) (8 * n) /\ has_bits w = true.
Proof.
  intros A B O S. exists (WByteSlice (to_ref a) (to_ref b)). split; [|split; [|reflexivity]].
  - cbn [get_bytes]. unfold byte_slice. replace (step_ok s) with (Ok tt : res unit) by (destruct S; subst; reflexivity).
    cbn [rbind]. replace (byte_bound a) with (Ok tt : res unit).
    2:{ symmetry. destruct A as [a m V|]; [apply (value_bound _ _ V); lia|reflexivity]. }
    cbn [rbind]. rewrite (value_bound _ _ B) by lia. cbn [rbind].
    replace (if omitted a || omitted b || is_numeric_ref a || is_numeric_ref b then Ok tt
             else py_assert (py_binop OpLe a b)) with (Ok tt : res unit); [reflexivity|].
    destruct A as [a m V|]; [|reflexivity].
    destruct V as [m|r m R _]; [|cbn [omitted is_numeric_ref orb]; rewrite R; now rewrite ?orb_true_r].
    destruct B as [n|r n R _]; [|cbn [omitted is_numeric_ref orb]; now rewrite R].
    cbn [omitted is_numeric_ref orb]. rewrite const_le, passert_if. now replace (m <=? n) with true by lia.
  - split; [|split; [lia|reflexivity]]. cbn [ranges].
    destruct (start_eval _ _ A) as (v & E & K). rewrite E. cbn [rbind]. rewrite (value_eval _ _ B). cbn [rbind].
    unfold slice_ranges. destruct K as [K|[K Z]]; rewrite K; cbn [rbind opt_num_bits num_bits].
    + rewrite mk_srange_ok by lia. reflexivity.
    + subst m. unfold mk_srange. rewrite !passert_if. replace (0 <=? 0) with true by lia.
      replace (0 <=? 8 * n) with true by lia. reflexivity.
Qed.

Fixpoint get_bytes_all (ls : list loc) : res (list wref) :=
  match ls with
  | [] => Ok []
  | l :: r => let* w := get_bytes l in let* ws := get_bytes_all r in Ok (w :: ws)
  end.
Lemma get_bytes_list ls : get_bytes (LList ls) = (let* ws := get_bytes_all ls in Ok (WByteList ws)).
Proof. reflexivity. Qed.
Definition get_bits_all p : list loc -> res (list wref) :=
  fix go (ls : list loc) : res (list wref) :=
  match ls with
  | [] => Ok []
  | l :: r => let* w := get_bits p l in let* ws := go r in Ok (w :: ws)
  end.
Lemma get_bits_all_cons p l r :
  get_bits_all p (l :: r) = (let* w := get_bits p l in let* ws := get_bits_all p r in Ok (w :: ws)).
Proof. reflexivity. Qed.
Lemma get_bits_list p ls : get_bits p (LList ls) = (let* ws := get_bits_all p ls in Ok (WList ws)).
Proof. reflexivity. Qed.

Definition pieces_all (ws : list wref) (ps : list Z) : Prop :=
  exists ls, ranges_all ws = Ok ls /\ ls <> [] /\ all_positions (concat ls) = ps.
Lemma pieces_one w ps : pieces w ps -> pieces_all [w] ps.
Proof.
  intros (ls & _ & _ & E & P). exists [concat ls]. cbn [ranges_all]. rewrite E. cbn [rbind concat].
  rewrite app_nil_r. repeat split; [discriminate|exact P].
Qed.
Lemma pieces_more w ws ps qs : pieces w ps -> pieces_all ws qs -> pieces_all (w :: ws) (ps ++ qs).
Proof.
  intros (ls & _ & _ & E & P) (ls' & E' & _ & P'). exists (concat ls :: ls'). cbn [ranges_all]. rewrite E, E'.
  cbn [rbind concat]. repeat split; [discriminate|]. now rewrite all_positions_app, P, P'.
Qed.
Lemma list_ref_some ls : ls <> [] -> list_ref ls = Ok (concat ls).
Proof. now destruct ls. Qed.
Lemma pieces_of_all w ws ps : parts w = ws -> ranges env w = (let* ls := ranges_all ws in list_ref ls) ->
  pieces_all ws ps -> pieces w ps.
Proof.
  intros <- R (ls & E & N & P). exists ls. rewrite R, E. cbn [rbind]. rewrite list_ref_some by exact N. auto.
Qed.

Scheme bytes_pos_ind2 := Induction for bytes_pos Sort Prop
  with list_pos_ind2 := Induction for list_pos Sort Prop.
Lemma bytes_pos_ok l ps : bytes_pos env l ps -> exists w, get_bytes l = Ok w /\ pieces w ps /\ has_bits w = true.
Proof.
  intros H. induction H using bytes_pos_ind2 with
    (P0 := fun l ps _ => exists ws, get_bytes_all l = Ok ws /\ pieces_all ws ps).
  - destruct (byte_num_ok o n) as (w & E & S & B); auto. exists w. auto using single_pieces.
  - destruct (byte_slice_ok a b s m n) as (w & E & S & B); auto. exists w. auto using single_pieces.
  - destruct IHbytes_pos as (ws & E & P). exists (WByteList ws). rewrite get_bytes_list, E. cbn [rbind].
    repeat split. now apply (pieces_of_all _ ws).
  - destruct IHbytes_pos as (w & E & P & _). exists [w]. cbn [get_bytes_all]. rewrite E. split; [reflexivity|now apply pieces_one].
  - destruct IHbytes_pos as (w & E & P & _). destruct IHbytes_pos0 as (ws & E' & P').
    exists (w :: ws). cbn [get_bytes_all]. rewrite E, E'. split; [reflexivity|now apply pieces_more].
Qed.

(** Bits of contiguous bytes. *)
Lemma zlen_from_to a b : a <= b -> zlen (from_to a b) = b - a.
Proof. intros H. unfold zlen, from_to. rewrite map_length, seq_length. lia. Qed.
Lemma nth_from_to a b k : 0 <= k < b - a -> nth (Z.to_nat k) (from_to a b) 0 = a + k.
Proof.
  intros H. unfold from_to. rewrite nth_indep with (d' := a + Z.of_nat 0) by (rewrite map_length, seq_length; lia).
  rewrite (map_nth (fun k => a + Z.of_nat k) _ 0%nat), seq_nth by lia. lia.
Qed.
Lemma from_to_slice a b x y : 0 <= x <= y -> y <= b - a ->
  firstn (Z.to_nat (y - x)) (skipn (Z.to_nat x) (from_to a b)) = from_to (a + x) (a + y).
Proof.
  intros H H'. unfold from_to. rewrite skipn_map, firstn_map.
  replace (Z.to_nat (b - a)) with (Z.to_nat x + (Z.to_nat (y - x) + Z.to_nat (b - a - y)))%nat by lia.
  rewrite seq_app, skipn_app, skipn_all2 by (rewrite seq_length; lia). rewrite seq_length. cbn [app].
  replace (Z.to_nat x - Z.to_nat x)%nat with 0%nat by lia. cbn [skipn].
  rewrite seq_app, firstn_app, seq_length, firstn_all2 by (rewrite seq_length; lia).
  replace (Z.to_nat (y - x) - Z.to_nat (y - x))%nat with 0%nat by lia. cbn [firstn]. rewrite app_nil_r.
  replace (Z.to_nat (a + y - (a + x))) with (Z.to_nat (y - x)) by lia.
  generalize (Z.to_nat (y - x)). intros n. rewrite Nat.add_0_l.
  rewrite <- (Nat.add_0_r (Z.to_nat x)). generalize 0%nat. revert n.
  induction n as [|n IH]; intros z; [reflexivity|]. cbn [seq map]. f_equal; [lia|].
  rewrite plus_n_Sm. apply IH.
Qed.

Scheme bits_pos_ind2 := Induction for bits_pos Sort Prop
  with bits_list_pos_ind2 := Induction for bits_list_pos Sort Prop.
Lemma bits_pos_ok p s e : single p s e -> forall l ps, bits_pos env (from_to s e) l ps ->
  exists w, get_bits p l = Ok w /\ pieces w ps.
Proof.
  intros (P & O & _) l ps H. induction H using bits_pos_ind2 with
    (P0 := fun l ps _ => exists ws, get_bits_all p l = Ok ws /\ pieces_all ws ps).
  - rewrite zlen_from_to in * by lia. exists (WBitNum p (to_ref o)). cbn [get_bits]. rewrite (value_index o k) by auto.
    split; [reflexivity|]. rewrite nth_from_to by lia.
    replace [s + k] with (from_to (s + k) (s + k + 1)).
    2:{ unfold from_to. replace (Z.to_nat (s + k + 1 - (s + k))) with 1%nat by lia. cbn [seq map]. f_equal. lia. }
    apply single_pieces. split; [|split; [lia|reflexivity]]. cbn [ranges]. rewrite P. cbn [rbind].
    change (passert (1 <=? zlen [mkR s (Some e)])) with (Ok tt : res unit). cbn [rbind].
    rewrite (value_eval o k) by auto. cbn [rbind bit_count]. rewrite bit_num_single by lia.
    now replace (k <=? e - s) with true by lia.
  - rewrite zlen_from_to in * by lia. exists (WBitSlice p (RObj (RVal (VInt a))) (RObj (RVal (VInt b)))).
    rewrite from_to_slice by lia. split.
    + cbn [get_bits]. unfold bit_slice. replace (step_ok s0) with (Ok tt : res unit) by (match goal with H : _ \/ _ |- _ => destruct H; subst; reflexivity end).
      cbn [rbind]. pose proof (bit_bound_of (BInt a)) as Ka. pose proof (bit_bound_of (BInt b)) as Kb. cbn [obj_of] in Ka, Kb. rewrite Ka, Kb.
      replace (0 <=? a) with true by lia. replace (0 <=? b) with true by lia. cbn [rbind omitted orb].
      rewrite const_le, passert_if. now replace (a <=? b) with true by lia.
    + apply single_pieces. split; [|split; [lia|reflexivity]]. cbn [ranges]. rewrite P. cbn [rbind].
      change (passert (1 <=? zlen [mkR s (Some e)])) with (Ok tt : res unit).
      cbn [rbind eval opt_bit_count bit_count]. rewrite bit_slice_single by lia.
      now replace (b <=? e - s) with true by lia.
  - destruct IHbits_pos as (ws & E & Q). exists (WList ws). rewrite get_bits_list, E. cbn [rbind].
    split; [reflexivity|]. now apply (pieces_of_all _ ws).
  - destruct IHbits_pos as (w & E & Q). exists [w]. rewrite get_bits_all_cons, E. cbn [rbind get_bits_all]. split; [reflexivity|now apply pieces_one].
  - destruct IHbits_pos as (w & E & Q). destruct IHbits_pos0 as (ws & E' & Q').
    exists (w :: ws). rewrite get_bits_all_cons, E, E'. split; [reflexivity|now apply pieces_more].
Qed.

Lemma where_pos_ok e ps : where_pos env e ps -> exists w, define e = Ok w /\ pieces w ps.
Proof.
  intros H. induction H as [l ps H|l parent b ps C H B|x y ps qs _ IHx _ IHy].
  - destruct (bytes_pos_ok _ _ H) as (w & E & P & _). exists w. auto.
  - assert (K : exists w s e, get_bytes l = Ok w /\ single w s e /\ has_bits w = true /\ parent = from_to s e).
    { destruct H as [o n V N|a b' s m n A V O S|]; [| |contradiction].
      - destruct (byte_num_ok o n V N) as (w & E & S & K). now exists w, (8 * n), (8 * n + 8).
      - destruct (byte_slice_ok a b' s m n A V O S) as (w & E & S' & K). now exists w, (8 * m), (8 * n). }
    destruct K as (w & s & e & E & S & K & ->). cbn [define]. rewrite E. cbn [rbind]. rewrite K.
    exact (bits_pos_ok w s e S b ps B).
  - destruct IHx as (w & E & ls & R & N & _ & P). destruct IHy as (w' & E' & ls' & R' & N' & _ & P').
    exists (WList (parts w ++ parts w')). cbn [define]. rewrite E, E'. split; [reflexivity|].
    apply (pieces_of_all _ (parts w ++ parts w')); [reflexivity|reflexivity|].
    exists (ls ++ ls'). rewrite ranges_all_app, R, R'. cbn [rbind]. split; [reflexivity|]. split.
    + now destruct ls.
    + now rewrite concat_app, all_positions_app, P, P'.
Qed.
Lemma where_positions e ps : where_pos env e ps ->
  exists w l, define e = Ok w /\ ranges env w = Ok l /\ all_positions l = ps.
Proof.
  intros H. destruct (where_pos_ok e ps H) as (w & E & ls & _ & _ & R & P). eauto.
Qed.

(** References whose values are no positions. *)
Lemma slice_out_of_order a b m n : value env a m -> value env b n -> m < 0 \/ n < m ->
  (exists w, get_bytes (LSlice a b None) = Ok w /\ ranges env w = Err AssertionError)
  \/ get_bytes (LSlice a b None) = Err AssertionError.
Proof.
  intros A B O. assert (R : ranges env (WByteSlice (to_ref a) (to_ref b)) = Err AssertionError).
  { cbn [ranges]. rewrite (value_eval _ _ A). cbn [rbind]. rewrite (value_eval _ _ B). cbn [rbind].
    unfold slice_ranges. cbn [opt_num_bits num_bits rbind]. unfold mk_srange. rewrite !passert_if.
    destruct (0 <=? 8 * m) eqn:M; cbn [rbind]; [|reflexivity].
    destruct (0 <=? 8 * n) eqn:N; cbn [rbind]; [|reflexivity].
    now replace (8 * m <=? 8 * n) with false by lia. }
  destruct (get_bytes (LSlice a b None)) as [w|e] eqn:G.
  - left. exists w. split; [reflexivity|]. revert G. cbn [get_bytes]. unfold byte_slice, step_ok. cbn [passert rbind].
    destruct (byte_bound a); [|discriminate]. destruct (byte_bound b); [|discriminate]. cbn [rbind].
    match goal with |- (let* _ := ?x in _) = _ -> _ => destruct x; [|discriminate] end. cbn [rbind].
    intros G. assert (w = WByteSlice (to_ref a) (to_ref b)) by congruence. now subst.
  - right. f_equal. assert (K : exists a' b', a = obj_of a' /\ b = obj_of b' /\
       (forall r, a' = BRef r \/ b' = BRef r -> is_numeric r = true)).
    { destruct A as [m|r m Ra _], B as [n|r' n Rb _].
      - exists (BInt m), (BInt n). repeat split. intros q [Q|Q]; discriminate.
      - exists (BInt m), (BRef r'). repeat split. intros q [Q|Q]; congruence.
      - exists (BRef r), (BInt n). repeat split. intros q [Q|Q]; congruence.
      - exists (BRef r), (BRef r'). repeat split. intros q [Q|Q]; congruence. }
    destruct K as (a' & b' & -> & -> & K). destruct (byte_slice_fault a' b' e G) as [->|[-> (r & H & N)]]; [reflexivity|].
    rewrite (K r H) in N. discriminate.
Qed.
End Env.

(** ** Steps, indexes and [bits] *)
Lemma steps p a b s :
  get_bytes (LSlice a b (Some s)) = (if s =? 1 then get_bytes (LSlice a b None) else Err AssertionError)
  /\ get_bits p (LSlice a b (Some s)) = if s =? 1 then get_bits p (LSlice a b None) else Err AssertionError.
Proof. cbn [get_bytes get_bits]. unfold byte_slice, bit_slice, step_ok. destruct (s =? 1); now split. Qed.
Lemma index_defined p o :
  match o with
  | PConst (RVal (VInt n)) => get_bytes (LIndex o) = (if 0 <=? n then Ok (WByteNum (RObj (RVal (VInt n)))) else Err AssertionError)
                              /\ exists w, get_bits p (LIndex o) = Ok w
  | PRefr r => (is_numeric r = true -> (exists w, get_bytes (LIndex o) = Ok w) /\ exists w, get_bits p (LIndex o) = Ok w)
               /\ (is_numeric r = false -> get_bytes (LIndex o) = Err TypeError /\ get_bits p (LIndex o) = Err TypeError)
  | _ => get_bytes (LIndex o) = Err TypeError /\ get_bits p (LIndex o) = Err TypeError
  end.
Proof.
  destruct o as [v|r].
  - destruct v as [v| | | |]; [destruct v| | | |]; try (split; reflexivity). cbn [get_bytes get_bits is_index]. unfold byte_num. cbn [is_numeric_ref]. split; [|eauto].
    rewrite const_ge, passert_if. destruct (0 <=? _); reflexivity.
  - cbn [get_bytes get_bits is_index]. unfold byte_num. cbn [is_numeric_ref]. split; intros E; rewrite E; [split; eexists; reflexivity|split; reflexivity].
Qed.
Lemma get_bytes_bits l p : get_bytes l = Ok p -> has_bits p = true.
Proof.
  destruct l as [o|a b s|ls]; cbn [get_bytes].
  - destruct (is_index o); [|discriminate]. unfold byte_num. destruct (if is_numeric_ref o then _ else _); cbn; [|discriminate]. now intros [= <-].
  - unfold byte_slice. destruct (step_ok s); cbn [rbind]; [|discriminate]. destruct (byte_bound a); cbn [rbind]; [|discriminate]. destruct (byte_bound b); cbn [rbind]; [|discriminate].
    match goal with |- context [rbind (if ?c then _ else _)] => destruct (if c then Ok tt else py_assert (py_binop OpLe a b)) end; cbn; [|discriminate]. now intros [= <-].
  - match goal with |- context [rbind (?g ls)] => destruct (g ls) end; cbn [rbind]; [|discriminate]. now intros [= <-].
Qed.
Lemma get_bits_nobits p : forall l w, get_bits p l = Ok w -> has_bits w = false.
Proof.
  intros [o|a b s|ls] w; cbn [get_bits].
  - destruct (is_index o); [|discriminate]. now intros [= <-].
  - unfold bit_slice. destruct (step_ok s); cbn [rbind]; [|discriminate]. destruct (bit_bound a); cbn [rbind]; [|discriminate]. destruct (bit_bound b); cbn [rbind]; [|discriminate].
    match goal with |- context [rbind (if ?c then _ else _)] => destruct (if c then Ok tt else py_assert (py_binop OpLe a b)) end; cbn; [|discriminate]. now intros [= <-].
  - match goal with |- context [rbind (?g ls)] => destruct (g ls) end; cbn [rbind]; [|discriminate]. now intros [= <-].
Qed.
Lemma bits_of w p l : define w = Ok p ->
  match w with
  | EBytes _ => define (EBits w l) = get_bits p l
  | _ => define (EBits w l) = Err AttributeError
  end.
Proof.
  intros D. cbn [define]. destruct w as [lb|w lb|x y]; cbn [define] in *; rewrite ?D; cbn [rbind].
  - now rewrite (get_bytes_bits _ _ D).
  - destruct (define w) as [q|]; cbn [rbind] in *; [|discriminate]. destruct (has_bits q); [|discriminate]. rewrite ?D. cbn [rbind]. now rewrite (get_bits_nobits _ _ _ D).
  - destruct (define x); cbn [rbind] in *; [|discriminate]. destruct (define y); cbn [rbind] in *; [|discriminate]. now injection D as <-.
Qed.

Lemma parts_same env p l : ranges env p = Ok l -> ranges env (WList (parts p)) = Ok l.
Proof.
  intros H. assert (S : forall l', ranges env p = Ok l' -> ranges env (WList [p]) = Ok l').
  { intros l' H'. cbn. cbn in H'. rewrite H'. cbn. now rewrite app_nil_r. }
  destruct p; cbn [parts]; auto.
Qed.
Lemma empty_list w p : define w = Ok p -> exists e, define (EBytes (LList [])) = Ok e
  /\ (forall env, ranges env e = Err TypeError)
  /\ (has_bits p = true -> exists b, define (EBits w (LList [])) = Ok b /\ forall env, ranges env b = Err TypeError)
  /\ exists s s', define (EAdd w (EBytes (LList []))) = Ok s /\ define (EAdd (EBytes (LList [])) w) = Ok s'
     /\ forall env l, ranges env p = Ok l -> ranges env s = Ok l /\ ranges env s' = Ok l.
Proof.
  intros D. exists (WByteList []). split; [reflexivity|]. split; [reflexivity|]. split.
  - intros H. exists (WList []). split; [|reflexivity]. cbn [define]. rewrite D. cbn [rbind]. now rewrite H.
  - exists (WList (parts p)), (WList (parts p)). cbn [define]. rewrite D. cbn [rbind get_bytes parts app]. rewrite app_nil_r. split; [reflexivity|]. split; [reflexivity|].
    intros env l H. split; now apply parts_same.
Qed.
