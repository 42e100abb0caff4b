(** Proofs about buffer/io_buffer.py, part 10: the methods of sequences. *)
From Verif Require Import Base BaseProofs Range IoBuffer IoSpec IoProofs IoMutProofs IoInsert IoDelete IoFacts IoOutput IoViews IoIndex IoMixin IoMixinSpec.
From Coq Require Import ZArith List Bool Lia ZifyBool ZifyNat.
Import ListNotations.
Open Scope Z_scope.
Ltac Zify.zify_post_hook ::= Z.div_mod_to_equations.

Lemma bytes_nth l : forall k, (8 * Z.of_nat k < zlen l) -> nth_error (bytes_of_bits l) k = Some (bits_value (firstn 8 (skipn (8 * k) l))).
Proof.
  intros k. revert l. induction k as [|k IH]; intros l H.
  - change (skipn (8 * 0) l) with l. destruct (Z_lt_ge_dec (zlen l) 8) as [S|S].
    + rewrite bytes_of_bits_short by lia. rewrite firstn_all2; [reflexivity|unfold zlen in S; lia].
    + now rewrite bytes_of_bits_cons8 by lia.
  - rewrite bytes_of_bits_cons8 by lia. cbn [nth_error]. rewrite IH by (rewrite zlen_skipn; lia).
    do 3 f_equal. replace (8 * S k)%nat with (8 + 8 * k)%nat by lia. generalize (8 * k)%nat as m. intros m. do 8 (destruct l as [|? l]; [now rewrite !skipn_nil|]). reflexivity.
Qed.
Lemma elements_len v : buf_ok v -> zlen (elements v) = blen v.
Proof. intros K. unfold elements. destruct (bytes_of_bits_spec (buf_bits v)) as (_ & -> & _). now rewrite buf_bits_len, blen_cdiv. Qed.

Lemma get_nth v i : buf_ok v -> is_view v -> 0 <= i < blen v ->
  exists z, view_get v (8 * i) = Ok z /\ nth_error (elements v) (Z.to_nat i) = Some z.
Proof.
  intros K V Hi. destruct v as [l|inner start stop]; [destruct V|]. pose proof (buf_bits_len _ K) as L. cbn [blength] in L.
  pose proof (blen_cdiv (BView inner start stop)) as B. cbn [blength] in B. unfold cdiv8 in B. pose proof K as (H0 & H1 & H2 & H3).
  assert (C : py_clamp (stop - start) (8 * i) = 8 * i) by (apply py_clamp_id; lia).
  eexists. split; [rewrite get_inside by (rewrite ?C; auto; lia); rewrite C; reflexivity|].
  unfold elements. rewrite bytes_nth by lia. do 4 f_equal. lia.
Qed.
Lemma get_over v i : buf_ok v -> is_view v -> blen v <= i -> view_get v (8 * i) = view_get v (8 * blen v).
Proof.
  intros K V Hi. destruct v as [l|inner start stop]; [destruct V|]. pose proof K as (H0 & H1 & H2 & H3).
  pose proof (blen_cdiv (BView inner start stop)) as B. cbn [blength] in B. unfold cdiv8 in B.
  cbn [view_get]. unfold view_index, translate_offset. replace (8 * i <? 0) with false by lia. replace (8 * blen (BView inner start stop) <? 0) with false by lia.
  rewrite !Z.min_r by lia. reflexivity.
Qed.
Lemma get_at_end v : buf_ok v -> is_view v -> view_get v (8 * blen v) = Ok 0 \/ view_get v (8 * blen v) = Err IndexError.
Proof.
  intros K V. destruct v as [l|inner start stop]; [destruct V|]. pose proof K as (H0 & H1 & H2 & H3).
  pose proof (blen_cdiv (BView inner start stop)) as B. cbn [blength] in B. unfold cdiv8 in B.
  apply get_end; [exact K|]. unfold py_clamp. replace (8 * blen (BView inner start stop) <? 0) with false by lia. lia.
Qed.

(** ** contains, count, reversed *)
Lemma contains_spec v x : buf_ok v -> exists b, view_contains v x = Ok b /\ (b = true <-> In x (elements v)).
Proof.
  intros K. unfold view_contains. rewrite buf_bytes_spec by exact K. cbn [rbind]. eexists. split; [reflexivity|]. fold (elements v).
  rewrite existsb_exists. split; [intros (y & Hy & E); apply Z.eqb_eq in E; now subst|]. intros H. exists x. split; [exact H|apply Z.eqb_refl].
Qed.
Lemma count_spec v x : buf_ok v -> view_count v x = Ok (Z.of_nat (count_occ Z.eq_dec (elements v) x)).
Proof.
  intros K. unfold view_count. rewrite buf_bytes_spec by exact K. cbn [rbind]. fold (elements v). f_equal.
  induction (elements v) as [|y l IH]; [reflexivity|]. cbn [filter count_occ]. destruct (Z.eq_dec y x) as [E|E].
  - apply Z.eqb_eq in E. rewrite E, zlen_cons, IH. lia.
  - apply Z.eqb_neq in E. rewrite E. exact IH.
Qed.

Lemma rmap_all {A B} (f : A -> res B) (g : A -> B) l : (forall a, In a l -> f a = Ok (g a)) -> rmap_list f l = Ok (map g l).
Proof. induction l as [|a l IH]; intros H; [reflexivity|]. cbn [rmap_list map]. rewrite H by (left; reflexivity). cbn [rbind]. rewrite IH by (intros; apply H; now right). reflexivity. Qed.
Lemma map_range l : map (fun i => nth (Z.to_nat i) l 0) (py_range (zlen l)) = l.
Proof.
  unfold py_range, py_range3. rewrite map_map. replace (Z.to_nat ((zlen l - 0 + (1 - 1)) / 1)) with (length l) by (unfold zlen; rewrite Z.div_1_r; lia).
  induction l as [|x l IH] using rev_ind; [reflexivity|]. rewrite app_length, Nat.add_1_r, seq_S, map_app. cbn [map].
  f_equal; [rewrite <- IH at 2; apply map_ext_in; intros k Hk; apply in_seq in Hk; rewrite app_nth1 by lia; reflexivity|].
  rewrite app_nth2 by lia. replace (Z.to_nat (0 + 1 * Z.of_nat (0 + length l)) - length l)%nat with 0%nat by lia. reflexivity.
Qed.
Lemma reversed_spec v : buf_ok v -> is_view v -> view_reversed v = Ok (rev (elements v)).
Proof.
  intros K V. unfold view_reversed. rewrite (rmap_all _ (fun i => nth (Z.to_nat i) (elements v) 0)).
  - rewrite map_rev. rewrite <- (elements_len v K). now rewrite map_range.
  - intros i Hi. apply in_rev in Hi. apply py_range_In in Hi. destruct (get_nth v i K V Hi) as (z & G & N). rewrite G. f_equal.
    symmetry. now apply nth_error_nth.
Qed.

(** ** index *)
Section Index.
Variables (v : buf) (x : Z).
Hypotheses (K : buf_ok v) (V : is_view v).
Notation loop := (fun fuel stop i => index_loop fuel (fun i => view_get v (8 * i)) x stop i).

Lemma nth_in i z : 0 <= i -> nth_error (elements v) (Z.to_nat i) = Some z -> i < blen v.
Proof. intros Hi H. rewrite <- (elements_len v K). assert (nth_error (elements v) (Z.to_nat i) <> None) as N by congruence. apply nth_error_Some in N. unfold zlen. lia. Qed.

Lemma loop_found stop p : forall d s, 0 <= s -> p = s + Z.of_nat d -> first_at (elements v) x s p -> match stop with Some e => p < e | None => True end ->
  forall fuel, (d < fuel)%nat -> loop fuel stop s = Some (Ok p).
Proof.
  induction d as [|d IH]; intros s Hs Hp (H1 & H2 & H3) He fuel Hf; (destruct fuel as [|fuel]; [lia|]); cbn [index_loop].
  - replace p with s in * by lia. replace (match stop with Some e => e <=? s | None => false end) with false by (destruct stop; [lia|reflexivity]).
    destruct (get_nth v s K V) as (z & G & N); [split; [lia|eapply nth_in; eauto]|]. rewrite G, H2 in *. injection N as <-. now rewrite Z.eqb_refl.
  - replace (match stop with Some e => e <=? s | None => false end) with false by (destruct stop; [lia|reflexivity]).
    pose proof (nth_in p x ltac:(lia) H2) as Hb. destruct (get_nth v s K V) as (z & G & N); [lia|]. rewrite G.
    assert (z <> x) by (intros ->; apply (H3 s); [lia|exact N]). replace (z =? x) with false by lia.
    apply IH; [lia|lia| |exact He|lia]. split; [lia|]. split; [exact H2|]. intros q Hq. apply H3. lia.
Qed.

(** From the end of the view on, every access gives the same. *)
Lemma loop_over stop i fuel : blen v <= i -> index_loop fuel (fun i => view_get v (8 * i)) x stop i
  = if match stop with Some e => e <=? i | None => false end then Some (Err ValueError)
    else match fuel with
         | O => None
         | S fuel' => match view_get v (8 * blen v) with
                      | Ok y => if y =? x then Some (Ok i) else loop fuel' stop (i + 1)
                      | Err IndexError => Some (Err ValueError)
                      | Err e => Some (Err e)
                      end
         end.
Proof. intros H. destruct fuel as [|fuel]; cbn [index_loop]; [reflexivity|]. now rewrite (get_over v i K V H). Qed.

(** Up to the end nothing is found. *)
Lemma loop_skip stop : forall d s, 0 <= s -> s + Z.of_nat d <= blen v -> (forall q, s <= q < s + Z.of_nat d -> nth_error (elements v) (Z.to_nat q) <> Some x) -> match stop with Some e => s + Z.of_nat d <= e | None => True end ->
  forall fuel, loop (d + fuel)%nat stop s = loop fuel stop (s + Z.of_nat d).
Proof.
  induction d as [|d IH]; intros s Hs Hb A He fuel.
  - replace (s + Z.of_nat 0) with s by lia. reflexivity.
  - cbn [Nat.add index_loop]. replace (match stop with Some e => e <=? s | None => false end) with false by (destruct stop; [lia|reflexivity]).
    destruct (get_nth v s K V) as (z & G & N); [lia|]. rewrite G. assert (z <> x) by (intros ->; apply (A s); [lia|exact N]).
    replace (z =? x) with false by lia. rewrite IH; [f_equal; lia|lia|lia| |destruct stop; lia]. intros q Hq. apply A. lia.
Qed.
Lemma loop_short : forall d s fuel, 0 <= s -> s + Z.of_nat d <= blen v -> absent (elements v) x s -> (fuel < d)%nat -> loop fuel None s = None.
Proof.
  induction d as [|d IH]; intros s fuel Hs Hb A Hf; [lia|]. destruct fuel as [|fuel]; cbn [index_loop]; [reflexivity|].
  destruct (get_nth v s K V) as (z & G & N); [lia|]. rewrite G. assert (z <> x) by (intros ->; apply (A s); [lia|exact N]).
  replace (z =? x) with false by lia. apply IH; [lia|lia| |lia]. intros q Hq. apply A. lia.
Qed.
End Index.

Definition start_of (v : buf) (s : Z) : Z := if s <? 0 then Z.max (blen v + s) 0 else s.

Lemma find_found v x s stop p : buf_ok v -> is_view v -> first_at (elements v) x (start_of v s) p ->
  match stop with Some e => p < (if e <? 0 then e + blen v else e) | None => True end ->
  ends (fun fuel => view_find fuel v x s stop) (Ok p).
Proof.
  intros K V F E. assert (S0 : 0 <= start_of v s) by (unfold start_of; destruct (s <? 0) eqn:X; lia). pose proof F as (F1 & _).
  exists (S (Z.to_nat (p - start_of v s))). intros fuel Hf. unfold view_find. fold (start_of v s).
  apply (loop_found v x K V _ p (Z.to_nat (p - start_of v s))); [exact S0|lia|exact F| |lia]. destruct stop; exact E.
Qed.
Lemma find_bounded v x s stop : buf_ok v -> is_view v -> let e := if stop <? 0 then stop + blen v else stop in
  (forall q, start_of v s <= q < e -> nth_error (elements v) (Z.to_nat q) <> Some x) -> e <= blen v ->
  ends (fun fuel => view_find fuel v x s (Some stop)) (Err ValueError).
Proof.
  intros K V e A E. assert (S0 : 0 <= start_of v s) by (unfold start_of; destruct (s <? 0) eqn:X; lia).
  exists (Z.to_nat (e - start_of v s)). intros fuel Hf. unfold view_find. fold (start_of v s). fold e.
  destruct (Z_lt_ge_dec (start_of v s) e) as [L|L].
  - replace fuel with (Z.to_nat (e - start_of v s) + (fuel - Z.to_nat (e - start_of v s)))%nat by lia.
    rewrite (loop_skip v x K V (Some e)); [|lia|lia|intros q Hq; apply A; lia|lia]. replace (start_of v s + Z.of_nat (Z.to_nat (e - start_of v s))) with e by lia.
    destruct (fuel - _)%nat; cbn [index_loop]; rewrite Z.leb_refl; reflexivity.
  - destruct fuel; cbn [index_loop]; replace (e <=? start_of v s) with true by lia; reflexivity.
Qed.
Lemma find_absent v x s : buf_ok v -> is_view v -> absent (elements v) x (start_of v s) ->
  (view_get v (8 * blen v) = Err IndexError -> ends (fun fuel => view_find fuel v x s None) (Err ValueError))
  /\ (view_get v (8 * blen v) = Ok 0 -> x = 0 -> ends (fun fuel => view_find fuel v x s None) (Ok (Z.max (start_of v s) (blen v))))
  /\ (view_get v (8 * blen v) = Ok 0 -> x <> 0 -> hangs (fun fuel => view_find fuel v x s None)).
Proof.
  intros K V A. assert (S0 : 0 <= start_of v s) by (unfold start_of; destruct (s <? 0) eqn:X; lia). unfold view_find. fold (start_of v s).
  set (st := start_of v s) in *. set (d := Z.to_nat (blen v - st)).
  assert (Skip : forall fuel, (d <= fuel)%nat -> index_loop fuel (fun i => view_get v (8 * i)) x None st = index_loop (fuel - d) (fun i => view_get v (8 * i)) x None (Z.max st (blen v))).
  { intros fuel Hf. replace fuel with (d + (fuel - d))%nat at 1 by lia. destruct (Z_lt_ge_dec st (blen v)) as [L|L].
    - rewrite (loop_skip v x K V None); [|lia|unfold d; lia|intros q Hq; apply A; lia|exact Logic.I]. f_equal. unfold d. lia.
    - replace d with 0%nat by (unfold d; lia). cbn [Nat.add]. f_equal. lia. }
  split; [|split].
  - intros E. exists (S d). intros fuel Hf. rewrite Skip by lia. rewrite (loop_over v x K V None) by lia. destruct (fuel - d)%nat eqn:X; [lia|]. now rewrite E.
  - intros E ->. exists (S d). intros fuel Hf. rewrite Skip by lia. rewrite (loop_over v 0 K V None) by lia. destruct (fuel - d)%nat eqn:X; [lia|]. now rewrite E.
  - intros E N fuel. destruct (Nat.lt_ge_cases fuel d) as [L|L].
    + apply (loop_short v x K V d); [exact S0|unfold d in *; lia|exact A|exact L].
    + rewrite Skip by exact L. assert (G : forall f i, blen v <= i -> index_loop f (fun i => view_get v (8 * i)) x None i = None).
      { induction f as [|f IH]; intros i Hi; rewrite (loop_over v x K V None) by exact Hi; [reflexivity|]. rewrite E. replace (0 =? x) with false by lia. apply IH. lia. }
      apply G. lia.
Qed.
