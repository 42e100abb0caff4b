(** Proofs for PropertiesJson.v. *)
From Verif Require Import Base BaseProofs Marshal IntCodec IoBuffer IoSpec IoProofs FieldSpec Serialize SerializeSpec SerializeFacts SerializeLists RefEngine BufferModel BufferMacros BufferCodecSpec BufferCodecs.
From Coq Require Import ZArith List Bool Lia.
Import ListNotations.
Open Scope Z_scope.

Lemma lstrip_spec l : exists w, l = w ++ lstrip_space l /\ Forall (fun x => In x white) w
  /\ forall x t, lstrip_space l = x :: t -> ~ In x white.
Proof.
  induction l as [|c r (w & E & F & N)]; cbn [lstrip_space].
  - exists []. split; [reflexivity|]. split; [constructor|discriminate].
  - destruct (is_space c) eqn:S.
    + exists (c :: w). split; [cbn; now rewrite <- E|]. split; [|exact N]. constructor; [now apply space_white|exact F].
    + exists []. split; [reflexivity|]. split; [constructor|]. intros x t Q. injection Q as <- <-. now apply not_space.
Qed.
Lemma lstrip_unique l w core : l = w ++ core -> Forall (fun x => In x white) w -> (forall x t, core = x :: t -> ~ In x white) ->
  lstrip_space l = core.
Proof.
  intros -> F N. induction F as [|c w H F IH]; cbn [List.app lstrip_space].
  - destruct core as [|c r]; [reflexivity|]. cbn [lstrip_space]. specialize (N c r eq_refl). apply not_space in N. now rewrite N.
  - apply space_white in H. now rewrite H.
Qed.
Lemma Forall_rev_iff {A} (P : A -> Prop) l : Forall P l -> Forall P (rev l).
Proof. rewrite !Forall_forall. intros H x I. apply H. now apply in_rev. Qed.
(** The text without white space at both ends. *)
Lemma strip_space_is l core : trims true true white l core -> strip_space l = core.
Proof.
  intros (a & b & E & A & B & L & R). unfold strip_space.
  destruct core as [|x t].
  - assert (E1 : lstrip_space l = []).
    { apply (lstrip_unique l (a ++ b)); [now rewrite E, app_nil_r|apply Forall_app; auto|discriminate]. }
    now rewrite E1.
  - rewrite (lstrip_unique l a ((x :: t) ++ b)); [|exact E|exact A|intros y u Q; injection Q as <- _; exact (L x t eq_refl)].
    rewrite rev_app_distr, (lstrip_unique _ (rev b) (rev (x :: t))); [apply rev_involutive|reflexivity|now apply Forall_rev_iff|].
    intros y u Q. apply (R y (rev u)). rewrite <- (rev_involutive (x :: t)), Q. reflexivity.
Qed.
Lemma white_exists l : exists core, trims true true white l core.
Proof.
  exists (strip_space l). unfold strip_space. destruct (lstrip_spec l) as (a & E & A & L).
  destruct (lstrip_spec (rev (lstrip_space l))) as (b & F & B & R). set (m := lstrip_space l) in *. set (c := lstrip_space (rev m)) in *.
  assert (M : m = rev c ++ rev b) by (rewrite <- rev_app_distr, <- F; now rewrite rev_involutive).
  exists a, (rev b). split; [now rewrite <- M|]. split; [exact A|]. split; [now apply Forall_rev_iff|]. split.
  - intros x t Q. apply (L x (t ++ rev b)). rewrite M, Q. reflexivity.
  - intros x t Q. apply (R x (rev t)). rewrite <- (rev_involutive c), Q, rev_app_distr. reflexivity.
Qed.

Section Json.
Variable dumps : value -> res (list Z).
Variable loads : list Z -> res value.
Variable k : keywords.
Let f := json_field dumps loads k.

Lemma json_reads vs at' n b t core : 0 <= n -> buf_ok b -> is_view b ->
  field_text JLeft [0] 32 (firstn (Z.to_nat n) (bytes_of_bits (buf_bits b))) t -> trims true true white t core ->
  (n <= blen b -> is_ascii t -> f_unpack f vs at' b (Some (8 * n)) = (let* v := loads core in Ok (v, Some (8 * blen b))))
  /\ (n <= blen b -> ~ is_ascii t -> f_unpack f vs at' b (Some (8 * n)) = Err UnicodeError)
  /\ (blen b < n -> f_unpack f vs at' b (Some (8 * n)) = Err ValueError).
Proof.
  intros Hn K V T W. unfold f, json_field, build. cbn [f_unpack]. split; [|split].
  - intros L A. rewrite (unpack_str_sized JLeft [0] 32 n b t) by (auto; lia). rewrite (proj2 (ascii_ok t A)). cbn [rbind fst snd].
    now rewrite (strip_space_is _ _ W).
  - intros L A. rewrite (unpack_str_sized JLeft [0] 32 n b t) by (auto; lia). now rewrite (proj2 (ascii_bad t A)).
  - intros L. now rewrite unpack_str_short by auto.
Qed.
Lemma json_reads_all vs at' b t core : buf_ok b -> is_view b -> t = bytes_of_bits (buf_bits b) -> trims true true white t core ->
  (is_ascii t -> f_unpack f vs at' b None = (let* v := loads core in Ok (v, Some (8 * blen b))))
  /\ (~ is_ascii t -> f_unpack f vs at' b None = Err UnicodeError).
Proof.
  intros K V T W. unfold f, json_field, build. cbn [f_unpack]. rewrite unpack_str_unsized by auto. rewrite <- T. split; intros A.
  - rewrite (proj2 (ascii_ok t A)). cbn [rbind fst snd]. now rewrite (strip_space_is _ _ W).
  - now rewrite (proj2 (ascii_bad t A)).
Qed.
Lemma json_writes_all vs v s : dumps v = Ok s -> is_ascii s -> f_pack f vs v None = Ok (BArr s).
Proof. intros D A. unfold f, json_field, build. cbn [f_pack]. rewrite D. cbn [rbind]. now apply pack_str_unsized. Qed.
Lemma json_writes vs n v s : 0 <= n -> dumps v = Ok s -> is_ascii s ->
  exists r, f_pack f vs v (Some (8 * n)) = Ok (BArr r) /\ padded JLeft 32 n s r.
Proof.
  intros Hn D A. unfold f, json_field, build. cbn [f_pack]. rewrite D. cbn [rbind]. now apply pack_str_sized.
Qed.
Lemma json_write_fails vs n v e : dumps v = Err e -> f_pack f vs v n = Err e.
Proof. intros D. unfold f, json_field, build. cbn [f_pack]. now rewrite D. Qed.
Lemma json_roundtrip vs at' n v s : zlen s <= n -> dumps v = Ok s -> json_text s -> loads s = Ok v ->
  exists r, f_pack f vs v (Some (8 * n)) = Ok (BArr r) /\ zlen r = n /\ r = s ++ repeat 32 (Z.to_nat (n - zlen s))
    /\ forall b rest, view_with b (bits_of_bytes r ++ rest) -> f_unpack f vs at' b (Some (8 * n)) = Ok (v, Some (8 * blen b)).
Proof.
  intros Hn D J L. pose proof (zlen_nonneg s). pose proof (proj1 J) as A.
  destruct (str_field_roundtrip JLeft [0] 32 n s) as (r & P & _ & R & Pd & U); [lia|lia|unfold is_byte; lia|exact A|now apply json_no_strip|].
  exists r. unfold f, json_field, build. cbn [f_pack f_unpack]. rewrite D. cbn [rbind]. split; [exact P|]. split; [exact R|]. split.
  - destruct Pd as (a & b & E & Q & ->). cbn in E. rewrite E. do 2 f_equal. rewrite E in R. rewrite zlen_app in R. unfold zlen in R at 2. rewrite repeat_length in R. lia.
  - intros b rest V. rewrite (U b rest V). cbn [rbind fst snd]. rewrite (json_strip s J), L. reflexivity.
Qed.
End Json.
