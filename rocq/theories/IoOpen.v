(** Proofs about buffer/io_buffer.py, part 8: ranges that InputBuffer.get and OutputBuffer.set refuse. *)
From Verif Require Import Base BaseProofs Range IoBuffer IoSpec IoProofs IoMutProofs IoInsert IoDelete IoFacts IoOutput.
From Coq Require Import ZArith List Bool Lia ZifyBool ZifyNat.
Import ListNotations.
Open Scope Z_scope.

Lemma input_concat_open b l r rest : buf_ok b -> is_view b -> Forall closed_range l -> r_stop r = None ->
  forall acc, ba_ok acc -> input_concat b (l ++ r :: rest) acc = Err AssertionError.
Proof.
  intros K V. induction l as [|q l IH]; intros Hl Hr acc Ka; cbn [app input_concat].
  - unfold closed_bounds. now rewrite Hr.
  - inversion Hl as [|? ? Hq Hl']; subst. destruct (closed_bounds_ok q Hq) as (e & E1 & E2 & E3).
    rewrite E1. cbn [rbind fst snd].
    destruct (proj1 (buf_slice_spec b (Some (r_start q)) (Some e) K V) (closed_in_order _ _ _ E3)) as (s & S1 & S2 & S3 & S4).
    rewrite S1. cbn [rbind].
    destruct (extend_view acc s Ka S2) as (x1 & X1 & K1 & _). rewrite X1. now apply IH.
Qed.

Lemma input_get_open b l r rest : buf_ok b -> is_view b -> Forall closed_range l -> r_stop r = None ->
  input_get b (l ++ r :: rest) = Err AssertionError.
Proof.
  intros K V Hl Hr. assert (B0 : bytes_ok []) by constructor.
  pose proof (input_concat_open b l r rest K V Hl Hr (new_baa []) (new_baa_ok [] B0)) as G.
  unfold input_get. destruct l as [|q l]; [destruct rest as [|r2 rest]|destruct l; cbn [app] in *]; cbn [app] in *.
  - unfold closed_bounds. now rewrite Hr.
  - now rewrite G.
  - now rewrite G.
  - now rewrite G.
Qed.

Lemma output_loop_app value l l2 : Forall closed_range l -> forall vs x,
  output_set_loop value vs (l ++ l2) x =
  match output_set_loop value vs l x with
  | (Ok _, x') => output_set_loop value (vs + total_len (map bounds l)) l2 x'
  | (Err e, x') => (Err e, x')
  end.
Proof.
  induction l as [|q l IH]; intros Hl vs x; cbn [app output_set_loop map total_len fold_right].
  - cbn [sret]. unfold sret. now rewrite Z.add_0_r.
  - inversion Hl as [|? ? Hq Hl']; subst. destruct (closed_bounds_ok q Hq) as (e & E1 & E2 & E3).
    assert (Hb : bounds q = (r_start q, e)) by (unfold bounds; now rewrite E2). rewrite Hb. cbn [fst snd].
    fold (total_len (map bounds l)).
    unfold sbind, slift, sret, sraise. rewrite E1. cbn [fst snd].
    destruct (passert _); [|reflexivity].
    destruct (8 * blen value - vs <? e - r_start q); [reflexivity|].
    destruct (ba_zfill (r_start q) x) as [[u|e1] x1]; [|reflexivity].
    destruct (buf_slice value (Some vs) (Some (vs + (e - r_start q)))) as [pc|e1]; [|reflexivity].
    destruct (ba_setitem (KSlice (Some (r_start q)) (Some e)) (BVView pc) x1) as [[u2|e2] x2]; [|reflexivity].
    rewrite (IH Hl'). now rewrite Z.add_assoc.
Qed.

Lemma output_set_refused value l r rest x : buf_ok value -> Forall closed_range l -> out_ok x -> ~ closed_range r ->
  let bits := pad_to_byte (buf_bits value) in
  total_len (map bounds l) <= zlen bits ->
  exists x', output_set value (l ++ r :: rest) x = (Err AssertionError, x') /\ out_ok x'
    /\ placed bits (map bounds l) (ba_bits x) (ba_bits x').
Proof.
  intros K Hl Kx Hr bits Ht.
  destruct (proj1 (output_set_spec value l x K Hl Kx) Ht) as (x' & X & Kx' & P).
  exists x'. split; [|auto]. unfold output_set, sbind, slift in X |- *.
  destruct (view_of value) as [v|e]; [|discriminate].
  rewrite output_loop_app by auto. rewrite X. cbn [output_set_loop].
  unfold sbind, slift. unfold closed_range in Hr. unfold closed_bounds. destruct (r_stop r) as [e|]; [|reflexivity].
  cbn [fst snd]. replace ((0 <=? r_start r) && (r_start r <=? e)) with false by lia. reflexivity.
Qed.
