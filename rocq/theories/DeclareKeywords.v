(** What the packers of strings, floats, nested objects and lists are called with. *)
From Verif Require Import Base Marshal IntCodec IoBuffer Serialize RefEngine BufferModel Declare DeclareSpec DeclareFacts.
From Coq Require Import ZArith List Bool String.
Import ListNotations.
Open Scope string_scope.
Open Scope list_scope.
Open Scope Z_scope.

Lemma declare_keywords static num b p u pk uk d : declare static num b p u pk uk = Ok d ->
  d_packer d = p /\ d_unpacker d = u
  /\ d_pack_kw d = kupdate [("byte_size", KwLength); ("pack_size", KwStatic)] (map (fun q => (fst q, KwArg (snd q))) pk)
  /\ d_unpack_kw d = kupdate [("byte_size", KwLength); ("unpack_size", KwStatic)] (map (fun q => (fst q, KwArg (snd q))) uk).
Proof.
  unfold declare. cbv zeta. destruct (negb _); [discriminate|].
  destruct (resolve_static_where static _ _ _); cbn [rbind]; [|discriminate].
  destruct (pack_rid (if is_none (kget b "where" PNone) then kget b "where_when_pack" PNone else kget b "where" PNone)); cbn [rbind]; [|discriminate].
  destruct (where_rid (if is_none (kget b "where" PNone) then kget b "where_when_unpack" PNone else kget b "where" PNone)); cbn [rbind]; [|discriminate].
  destruct (is_reference _); cbn [rbind]; [discriminate|]. destruct (unpack_after _); cbn [rbind]; [|discriminate]. intros [= <-]. repeat split.
Qed.

Lemma str_keywords static args kw d : str_field static args kw = Ok d ->
  d_packer d = CStr /\ d_unpacker d = CStr
  /\ forall n k, In k ["encoding"; "padding"; "strip"; "justify"] ->
     passed n (d_pack_kw d) k = argument str_sig args kw k /\ passed n (d_unpack_kw d) k = argument str_sig args kw k.
Proof.
  unfold str_field. destruct (bind str_sig args kw) as [b|] eqn:B; cbn [rbind]; [|discriminate]. intros D.
  destruct (declare_keywords _ _ _ _ _ _ _ _ D) as (-> & -> & P & U). split; [reflexivity|]. split; [reflexivity|].
  intros n k I. unfold passed. rewrite P, U. rewrite <- (bind_argument _ _ _ _ B k) by (cbn in I |- *; intuition).
  destruct I as [<-|[<-|[<-|[<-|[]]]]]; split; reflexivity.
Qed.
Lemma with_size b m n : kget b "byte_size" PNone = n ->
  with_byte_size b m = if truthy_arg n then kset m "byte_size" n else m.
Proof. now intros <-. Qed.
Lemma float_keywords static args kw d : float_field static args kw = Ok d ->
  d_packer d = CFloat /\ d_unpacker d = CFloat
  /\ (forall n, passed n (d_pack_kw d) "endian" = argument float_sig args kw "endian" /\ passed n (d_unpack_kw d) "endian" = argument float_sig args kw "endian")
  /\ (argument float_sig args kw "byte_size" = PNone ->
        forall n, passed n (d_pack_kw d) "byte_size" = size_arg n /\ passed n (d_unpack_kw d) "byte_size" = size_arg n)
  /\ (forall k, k <> 0 -> argument float_sig args kw "byte_size" = PVal (VInt k) ->
        forall n, passed n (d_pack_kw d) "byte_size" = PVal (VInt k) /\ passed n (d_unpack_kw d) "byte_size" = PVal (VInt k)).
Proof.
  unfold float_field. destruct (bind float_sig args kw) as [b|] eqn:B; cbn [rbind]; [|discriminate]. intros D.
  destruct (declare_keywords _ _ _ _ _ _ _ _ D) as (-> & -> & P & U). split; [reflexivity|]. split; [reflexivity|].
  unfold passed. rewrite P, U. rewrite <- (bind_argument _ _ _ _ B "endian") by (apply has_in; reflexivity). rewrite <- (bind_argument _ _ _ _ B "byte_size") by (apply has_in; reflexivity).
  rewrite (with_size b _ _ eq_refl). split; [|split].
  - intros n. destruct (truthy_arg (kget b "byte_size" PNone)); split; reflexivity.
  - intros ->. intros n. split; reflexivity.
  - intros k K ->. intros n. unfold truthy_arg, truthy. replace (negb (k =? 0)) with true by (destruct (Z.eqb_spec k 0); [contradiction|reflexivity]). split; reflexivity.
Qed.
Lemma buffer_keywords static args kw d : buffer_field static args kw = Ok d ->
  d_packer d = CBuffer
  /\ (argument buffer_sig args kw "unpack_selector" = PNone -> d_unpacker d = CBuffer)
  /\ (forall s, argument buffer_sig args kw "unpack_selector" = PSelector s -> d_unpacker d = CSelector (PSelector s))
  /\ (argument buffer_sig args kw "byte_size" = PNone -> forall n,
        passed n (d_pack_kw d) "type" = argument buffer_sig args kw "type" /\ passed n (d_unpack_kw d) "type" = argument buffer_sig args kw "type"
        /\ passed n (d_pack_kw d) "byte_size" = size_arg n /\ passed n (d_unpack_kw d) "byte_size" = size_arg n)
  /\ (forall k, k <> 0 -> argument buffer_sig args kw "byte_size" = PVal (VInt k) -> forall n,
        passed n (d_pack_kw d) "type" = PNone /\ passed n (d_unpack_kw d) "type" = PNone
        /\ passed n (d_pack_kw d) "byte_size" = PVal (VInt k) /\ passed n (d_unpack_kw d) "byte_size" = PVal (VInt k)).
Proof.
  unfold buffer_field. destruct (bind buffer_sig args kw) as [b|] eqn:B; cbn [rbind]; [|discriminate]. cbv zeta. intros D.
  destruct (declare_keywords _ _ _ _ _ _ _ _ D) as (-> & -> & P & U). split; [reflexivity|].
  rewrite <- (bind_argument _ _ _ _ B "unpack_selector") by (apply has_in; reflexivity). rewrite <- (bind_argument _ _ _ _ B "byte_size") by (apply has_in; reflexivity).
  rewrite <- (bind_argument _ _ _ _ B "type") by (apply has_in; reflexivity).
  unfold passed. rewrite P, U. split; [intros ->; reflexivity|]. split; [intros s ->; reflexivity|]. split.
  - intros ->. intros n. repeat split.
  - intros k K ->. intros n. unfold truthy_arg, truthy. replace (negb (k =? 0)) with true by (destruct (Z.eqb_spec k 0); [contradiction|reflexivity]). repeat split.
Qed.
Lemma list_keywords static args kw d : list_field static args kw = Ok d ->
  d_packer d = CList /\ d_unpacker d = CList
  /\ forall n, passed n (d_pack_kw d) "elem_packer" = argument list_sig args kw "type"
     /\ passed n (d_unpack_kw d) "n" = argument list_sig args kw "n"
     /\ (argument list_sig args kw "unpack_selector" = PNone -> passed n (d_unpack_kw d) "elem_unpacker" = argument list_sig args kw "type")
     /\ (forall s, argument list_sig args kw "unpack_selector" = PSelector s -> passed n (d_unpack_kw d) "elem_unpacker" = PSelector s).
Proof.
  unfold list_field. destruct (bind list_sig args kw) as [b|] eqn:B; cbn [rbind]; [|discriminate]. cbv zeta.
  destruct (match kget b "type" PNone with PType _ | PMarshal _ => true | _ => false end) eqn:T; cbn [passert rbind]; [|discriminate]. intros D.
  destruct (declare_keywords _ _ _ _ _ _ _ _ D) as (-> & -> & P & U). split; [reflexivity|]. split; [reflexivity|]. intros n.
  rewrite <- (bind_argument _ _ _ _ B "unpack_selector") by (apply has_in; reflexivity). rewrite <- (bind_argument _ _ _ _ B "n") by (apply has_in; reflexivity).
  rewrite <- (bind_argument _ _ _ _ B "type") by (apply has_in; reflexivity).
  unfold passed. rewrite P, U. split; [reflexivity|]. split; [reflexivity|]. split; [intros ->; reflexivity|intros s ->; reflexivity].
Qed.
