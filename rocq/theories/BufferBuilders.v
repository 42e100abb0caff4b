(** Whatever the predefined fields pack is made of bytes. *)
From Verif Require Import Base BaseProofs IntCodec CodecSpec IntCodecProofs Stream Marshal FieldSpec Range RangeRef IoBuffer IoSpec IoProofs IoFacts IoOutput
  Serialize SerializeSpec SerializeFacts SerializeLists RefEngine BufferModel BufferSpec BufferFacts BufferPack BufferMacros BufferCodecSpec BufferErrors.
From Coq Require Import ZArith List Bool String Lia ZifyBool ZifyNat.
Import ListNotations.
Open Scope list_scope.
Open Scope Z_scope.
Ltac Zify.zify_post_hook ::= Z.div_mod_to_equations.

Definition gives_bytes (p : value -> res buf) : Prop := forall v b, p v = Ok b -> buf_ok b.

Lemma pack_int_bytes h signed e n : gives_bytes (pack_int h signed e n).
Proof.
  intros v b H. unfold pack_int, fractional_size in H. destruct n as [n|]; cbn [rbind] in H.
  - unfold passert in H. destruct (0 <=? n) eqn:N; cbn [rbind] in H; [|discriminate]. destruct (struct_key (Some n)) as [s|].
    + unfold pack_struct_int in H. destruct v; try discriminate. unfold struct_pack_int in H.
      destruct (_ && _); cbn [rbind] in H; [|discriminate]. injection H as <-. cbn [buf_ok].
      destruct (is_big _ _); [apply bytes_ok_rev|]; apply le_digits_bytes.
    + destruct v as [|z| | | | |]; try discriminate. destruct (Z.ltb_spec 0 n) as [Hn|Hn].
      * destruct (Z.ltb_spec (Z.abs z) (2 ^ n)) as [Hz|Hz].
        -- destruct (pack_bit_int_ok z n Hn Hz) as (b' & P & (K & _) & _). rewrite P in H. injection H as <-. exact K.
        -- rewrite pack_bit_int_err in H by (auto; lia). discriminate.
      * rewrite pack_bit_int_err in H by lia. discriminate.
  - cbn in H. destruct v; discriminate.
Qed.
Lemma pack_float_bytes h e n : gives_bytes (pack_float h e n).
Proof.
  intros v b H. unfold pack_float in H. destruct (int_size n) as [n'|]; cbn [rbind] in H; [|discriminate].
  destruct (float_key n') as [s|]; cbn [rbind] in H; [|discriminate]. 
  assert (X : exists p, (let* b := struct_pack_float h (mkFFmt (base_endian e) s) p in Ok (BArr b)) = Ok b).
  { destruct v; try discriminate; [|eauto]. destruct (double_of_int _) as [p|]; [eauto|discriminate]. }
  clear H. destruct X as (p & H).
  unfold struct_pack_float in H. destruct (match ff_size _ with F64 => _ | F32 => _ end); cbn [rbind] in H; [|discriminate].
  injection H as <-. cbn [buf_ok]. destruct (is_big _ _); [apply bytes_ok_rev|]; apply le_digits_bytes.
Qed.
Lemma pack_bytearray_bytes : gives_bytes pack_bytearray.
Proof.
  intros v b H. destruct v; try discriminate; cbn [pack_bytearray] in H.
  - destruct (_ <? _); [discriminate|]. injection H as <-. apply bytes_ok_repeat0.
  - destruct (bytes_okb b0) eqn:E; [|discriminate]. injection H as <-. now apply bytes_okb_spec.
  - destruct (rmap_list int_of_value l) as [r|] eqn:E; cbn [rbind] in H; [|discriminate]. injection H as <-. cbn [buf_ok].
    revert r E. induction l as [|x l IH]; intros r E; cbn in E; [injection E as <-; constructor|].
    destruct (int_of_value x) as [y|] eqn:Y; cbn [rbind] in E; [|discriminate]. destruct (rmap_list int_of_value l) as [s|]; cbn [rbind] in E; [|discriminate].
    injection E as <-. constructor; [|now apply IH]. destruct x; try discriminate. cbn in Y. destruct (is_byteb z) eqn:B; [|discriminate].
    injection Y as <-. unfold is_byteb, is_byte in *. lia.
Qed.
Lemma bytes_ok_repeat c n : is_byte c -> bytes_ok (repeat c n).
Proof. intros H. apply Forall_forall. intros x Hx. now rewrite (repeat_spec _ _ _ Hx). Qed.
Lemma pack_str_bytes padding j n : bytes_arg padding -> gives_bytes (pack_str padding j n).
Proof.
  intros Hp v b H. unfold pack_str in H. destruct (passert _); cbn [rbind] in H; [|discriminate].
  destruct (int_size n) as [n'|]; cbn [rbind] in H; [|discriminate]. destruct v; try discriminate.
  unfold ascii_encode in H. destruct (forallb _ s) eqn:A; cbn [rbind] in H; [|discriminate].
  assert (B : bytes_ok s). { apply Forall_forall. intros x Hx. pose proof (proj1 (forallb_forall _ _) A x Hx) as X. cbv beta in X. unfold is_byte. lia. }
  destruct n' as [m|]; [|injection H as <-; exact B].
  unfold py_justify in H. destruct padding as [[|c [|]]|]; cbn [rbind] in H; try discriminate.
  assert (Hc : is_byte c) by now inversion Hp.
  destruct (_ <=? 0); cbn [rbind] in H; [injection H as <-; exact B|]. injection H as <-. cbn [buf_ok].
  destruct j; repeat (apply bytes_ok_app; split); auto using bytes_ok_repeat.
Qed.
Lemma pack_buffer_bytes C : packers_ok C -> gives_bytes (pack_buffer C).
Proof.
  intros Hp v b H. unfold pack_buffer in H. destruct v; try discriminate.
  destruct (buffer_pack C attrs) as [[l|e] o'] eqn:E; cbn [fst rbind] in H; [|discriminate]. injection H as <-. cbn [buf_ok].
  destruct (buffer_pack_ok C _ _ _ Hp E) as (ps & m & bits & _ & _ & _ & _ & ->).
  destruct (bytes_of_bits_spec bits) as (B & _). unfold sized. destruct (k_size C); [destruct (_ =? 0)|]; auto.
  apply bytes_ok_app. split; [exact B|apply bytes_ok_repeat0].
Qed.
Lemma pack_elems_bytes p : gives_bytes p -> forall l x x', ba_ok x -> pack_elems p l x = Ok x' -> ba_ok x'.
Proof.
  intros Hp. induction l as [|v l IH]; intros x x' Hx H; cbn [pack_elems] in H; [congruence|].
  destruct (p v) as [b|] eqn:E; cbn [rbind] in H; [|discriminate]. pose proof (Hp _ _ E) as B.
  destruct b as [r|inner s t].
  - cbn [buf_ok] in B. destruct (extend_bytes r x Hx B) as (x1 & X & K & _). unfold run_ba in H. rewrite X in H. cbn [rbind] in H. eauto.
  - destruct (extend_view x (BView inner s t) Hx B) as (x1 & X & K & _). unfold run_ba in H. rewrite X in H. cbn [rbind] in H. eauto.
Qed.
Lemma pack_list_bytes p : gives_bytes p -> gives_bytes (pack_list p).
Proof.
  intros Hp v b H. unfold pack_list in H. destruct v; try discriminate.
  destruct (pack_elems p l (new_baa [])) as [x|] eqn:E; cbn [rbind] in H; [|discriminate]. injection H as <-.
  apply (pack_elems_bytes p Hp l (new_baa []) x); [|exact E]. apply new_baa_ok. constructor.
Qed.

Definition field_bytes (f : field) : Prop := forall args v n b, f_pack f args v n = Ok b -> buf_ok b.
Fixpoint predefined_bytes f (H : predefined f) {struct H} : field_bytes f
with predefined_elem_bytes t (H : predefined_elem t) {struct H} : forall n, gives_bytes (elem_pack t n).
Proof.
  - assert (N : forall C, Forall predefined (k_fields C) -> packers_ok C).
    { intros C G. unfold packers_ok. induction G; constructor; auto. apply predefined_bytes. assumption. }
    destruct H; intros args v m b P; cbn [int_field float_field bytearray_field str_field json_field buffer_field list_field build f_pack] in P.
    + eapply pack_int_bytes; eauto.
    + eapply pack_float_bytes; eauto.
    + eapply pack_bytearray_bytes; eauto.
    + eapply pack_str_bytes; eauto.
    + destruct (dumps v); cbn [rbind] in P; [|discriminate]. eapply pack_str_bytes; [|exact P]. cbn [bytes_arg]. constructor; [unfold is_byte; lia|constructor].
    + eapply pack_buffer_bytes; eauto.
    + eapply pack_list_bytes; [|exact P]. now apply predefined_elem_bytes.
  - assert (N : forall C, Forall predefined (k_fields C) -> packers_ok C).
    { intros C G. unfold packers_ok. induction G; constructor; auto. apply predefined_bytes. assumption. }
    destruct H; intros m; cbn [elem_pack].
    + apply pack_int_bytes.
    + now apply pack_str_bytes.
    + now apply pack_buffer_bytes, N.
Qed.
Lemma predefined_packers C : Forall predefined (k_fields C) -> packers_ok C.
Proof. intros H. unfold packers_ok. revert H. apply Forall_impl. intros f. apply predefined_bytes. Qed.
