(** Which fields are numbers, and the codecs of the builders that have no options of their own. *)
From Verif Require Import Base Marshal IntCodec IoBuffer Serialize RefEngine BufferModel Declare DeclareSpec DeclareFacts DeclareKeywords.
From Coq Require Import ZArith List Bool String.
Import ListNotations.
Open Scope string_scope.
Open Scope list_scope.
Open Scope Z_scope.

(** Specification: what each builder declares: is the field a number, and which codec packs it? *)
Definition kinds : list (((rid -> res (option Z)) -> list pyarg -> kwargs -> res decl) * bool * packer) :=
  [(int_field, true, CInt); (uint_field, true, CInt); (be_int_field, true, CInt); (be_uint_field, true, CInt);
   (le_int_field, true, CInt); (le_uint_field, true, CInt); (float_field, true, CFloat);
   (bytearray_field, false, CBytearray); (str_field, false, CStr); (json_field, false, CJson);
   (buffer_field, false, CBuffer); (list_field, false, CList)].

Lemma declare_numeric static num b p u pk uk d : declare static num b p u pk uk = Ok d -> d_numeric d = num.
Proof.
  unfold declare. cbv zeta. destruct (negb _); [discriminate|].
  destruct (resolve_static_where static _ _ _); cbn [rbind]; [|discriminate].
  destruct (pack_rid (if is_none (kget b "where" PNone) then kget b "where_when_pack" PNone else kget b "where" PNone)); cbn [rbind]; [|discriminate].
  destruct (where_rid (if is_none (kget b "where" PNone) then kget b "where_when_unpack" PNone else kget b "where" PNone)); cbn [rbind]; [|discriminate].
  destruct (is_reference _); cbn [rbind]; [discriminate|]. destruct (unpack_after _); cbn [rbind]; [|discriminate]. now intros [= <-].
Qed.
Definition of_kind (F : (rid -> res (option Z)) -> list pyarg -> kwargs -> res decl) (num : bool) (p : packer) : Prop :=
  forall static args kw d, F static args kw = Ok d -> d_numeric d = num /\ d_packer d = p /\ (p <> CBuffer -> d_unpacker d = p).
Lemma of_declare static num b p u pk uk d : declare static num b p u pk uk = Ok d -> u = p \/ p = CBuffer ->
  d_numeric d = num /\ d_packer d = p /\ (p <> CBuffer -> d_unpacker d = p).
Proof.
  intros D U. rewrite (declare_numeric _ _ _ _ _ _ _ _ D). destruct (declare_keywords _ _ _ _ _ _ _ _ D) as (-> & -> & _). repeat split. intros N. destruct U; [assumption|contradiction].
Qed.
Lemma kind_int : of_kind int_field true CInt.
Proof. intros static args kw d. unfold int_field. destruct (bind int_sig args kw); cbn [rbind]; [|discriminate]. cbv zeta. intros D. eapply of_declare; eauto. Qed.
Lemma declared_kinds F num p : In (F, num, p) kinds -> of_kind F num p.
Proof.
  intros I. unfold kinds in I.
  destruct I as [I|[I|[I|[I|[I|[I|[I|[I|[I|[I|[I|[I|[]]]]]]]]]]]]]; injection I as <- <- <-.
  - exact kind_int.
  - intros static args kw d. unfold uint_field. apply kind_int.
  - intros static args kw d. unfold be_int_field. apply kind_int.
  - intros static args kw d. unfold be_uint_field, be_int_field. apply kind_int.
  - intros static args kw d. unfold le_int_field. apply kind_int.
  - intros static args kw d. unfold le_uint_field, le_int_field. apply kind_int.
  - intros static args kw d. unfold float_field. destruct (bind _ args kw); cbn [rbind]; [|discriminate]. cbv zeta. intros D. eapply of_declare; eauto.
  - intros static args kw d. unfold bytearray_field. destruct (bind _ args kw); cbn [rbind]; [|discriminate]. intros D. eapply of_declare; eauto.
  - intros static args kw d. unfold str_field. destruct (bind _ args kw); cbn [rbind]; [|discriminate]. cbv zeta. intros D. eapply of_declare; eauto.
  - intros static args kw d. unfold json_field. destruct (bind _ args kw); cbn [rbind]; [|discriminate]. cbv zeta. intros D. eapply of_declare; eauto.
  - intros static args kw d. unfold buffer_field. destruct (bind _ args kw); cbn [rbind]; [|discriminate]. cbv zeta. intros D. eapply of_declare; eauto.
  - intros static args kw d. unfold list_field. destruct (bind _ args kw); cbn [rbind]; [|discriminate]. cbv zeta. destruct (passert _); cbn [rbind]; [|discriminate].
    intros D. eapply of_declare; eauto.
Qed.

(** JSON fields have no options; those of bytes know nothing but their length. *)
Lemma json_keywords static args kw d : json_field static args kw = Ok d -> forall n,
  Forall (fun k => passed n k "encoding" = PText "ascii" /\ passed n k "padding" = PVal (VBytes [32]) /\ passed n k "strip" = PVal (VBytes [0])
    /\ passed n k "justify" = PText "left" /\ passed n k "byte_size" = size_arg n) [d_pack_kw d; d_unpack_kw d].
Proof.
  unfold json_field. destruct (bind _ args kw); cbn [rbind]; [|discriminate]. cbv zeta. intros D n.
  destruct (declare_keywords _ _ _ _ _ _ _ _ D) as (_ & _ & P & U). unfold passed. rewrite P, U. repeat constructor.
Qed.
Lemma bytearray_keywords static args kw d : bytearray_field static args kw = Ok d -> forall n,
  passed n (d_pack_kw d) "byte_size" = size_arg n /\ passed n (d_unpack_kw d) "byte_size" = size_arg n.
Proof.
  unfold bytearray_field. destruct (bind _ args kw); cbn [rbind]; [|discriminate]. intros D n.
  destruct (declare_keywords _ _ _ _ _ _ _ _ D) as (_ & _ & P & U). unfold passed. rewrite P, U. split; reflexivity.
Qed.
