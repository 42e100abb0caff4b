(** Lemmas for C27: when a key selector with a default succeeds. *)
From Verif Require Import Base IntCodec CodecSpec Stream StreamSpec MinMax Marshal MarshalSpec MarshalInd SimSpec
  FieldSpec SimFacts ArrayFacts.
From Coq Require Import ZArith List Bool String Lia ZifyBool ZifyNat.
Import ListNotations.
Open Scope Z_scope.

Lemma key_selector_complete h key mapping d c s k s1 v s' :
  portable h false true key -> portable h false true d -> good_stream s ->
  read h key c s = (Ok k, s1) -> hashable k = true -> read h d c s = (Ok v, s') ->
  exists i j, s1 = consume i s /\ s' = consume j s /\ (i <= List.length (rest s))%nat /\ (j <= List.length (rest s))%nat
    /\ ((i <= j)%nat -> read h (MSel key mapping (Some d)) c s = (Ok v, s'))
    /\ ((j < i)%nat -> fst (read h (MSel key mapping (Some d)) c s) = Err InstructError).
Proof.
  intros Pk Pd G R Hk Rd. pose proof G as (O & L & B).
  assert (D : same_data false true [] s (SReadAhead [] true s)).
  { split; [auto|]. split; [auto|]. split; [auto|]. split; [cbn; now rewrite app_nil_r|]. split; [discriminate|auto]. }
  destruct (proj1 (sim_all h) key false true [] _ _ c k s1 Pk D R) as (i & -> & J & E).
  assert (J' : (i <= List.length (rest s))%nat) by exact J.
  destruct (sel_tail_back h d c s i InstructError Pd G J' v s' Rd) as (j & -> & K & b & s2 & E2 & S2).
  exists i, j. split; [auto|]. split; [auto|]. split; [auto|]. split; [auto|].
  assert (X : read h (MSel key mapping (Some d)) c s = (if (i <=? j)%nat then Ok v else Err InstructError, s2)).
  { rewrite read_sel. unfold with_read_ahead. unfold sbind at 1. cbn [set_read_ahead].
    unfold sbind at 1. rewrite E. rewrite peek_consume. unfold sbind at 1. cbn [set_read_ahead].
    unfold sbind at 1, slift. rewrite Hk. cbn [app]. rewrite E2. reflexivity. }
  split; intros Q; rewrite X.
  - replace (i <=? j)%nat with true by lia. now rewrite S2.
  - replace (i <=? j)%nat with false by lia. reflexivity.
Qed.
