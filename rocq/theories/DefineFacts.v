(** Groups of bits, constants and padding made with the macros: what the bytes are. *)
From Verif Require Import Base IntCodec Stream StreamSpec MinMax Marshal FieldSpec FieldFacts BitFieldSpec BitFacts Macros MacrosSpec MacrosFacts.
From Coq Require Import ZArith List Bool String Lia ZifyBool.
Import ListNotations.
Open Scope Z_scope.
Ltac Zify.zify_post_hook ::= Z.div_mod_to_equations.

Lemma declared_fields ds : map declare_bits ds = map item_field (map declared_item ds).
Proof. rewrite map_map. apply map_ext. now intros [n|n w|w]. Qed.
Lemma widths_total its : widths its = total (map item_width its).
Proof. unfold widths. now rewrite fold_total. Qed.
Lemma widths_cons it its : widths (it :: its) = item_width it + widths its.
Proof. now rewrite !widths_total. Qed.
Lemma declared_widths ds : total (map width (map declare_bits ds)) = widths (map declared_item ds).
Proof. induction ds as [|d ds IH]; [reflexivity|]. cbn [map total]. rewrite IH, widths_cons. destruct d; reflexivity. Qed.
Lemma declared_total ds : Forall (fun d => 0 <= item_width (declared_item d)) ds -> 0 <= widths (map declared_item ds)
  /\ Forall (fun d => item_width (declared_item d) <= widths (map declared_item ds)) ds.
Proof.
  induction 1 as [|d ds H _ (IH1 & IH2)]; [split; [cbn; lia|constructor]|]. cbn [map]. rewrite widths_cons. split; [lia|]. constructor; [lia|].
  eapply Forall_impl; [|exact IH2]. cbn. intros; lia.
Qed.
Lemma declared_accepted ds : Forall (fun d => 0 <= item_width (declared_item d)) ds -> widths (map declared_item ds) mod 8 = 0 ->
  widths (map declared_item ds) <= maxsize -> BitFields (map declare_bits ds) = Ok (FBits (map item_field (map declared_item ds))).
Proof.
  intros W M B. destruct (declared_total ds W) as [T1 T2].
  assert (P : Forall (fun f => ~ positional f) (map declare_bits ds)) by (apply Forall_map, Forall_forall; intros [n|n w|w] _ (sl & E); discriminate).
  destruct (MacrosFacts.bit_group _ P) as [G _]. rewrite declared_widths in G. rewrite <- declared_fields. apply G; [|exact M].
  apply Forall_map. rewrite Forall_forall in *. intros d I. specialize (W d I). specialize (T2 d I). destruct d; cbn in *; lia.
Qed.

Lemma const_given h n v w m mv c enc : v = COther w \/ (exists m', v = CMarshal m' w \/ v = CObject m' w) ->
  (forall c', roundtrips h m c' w enc) -> py_eq w w = true ->
  exists f, ConstField n v (Some (CMarshal m mv)) = Ok f
    /\ (forall a out, write_field h f a out = (Ok tt, out ++ enc))
    /\ forall cls cctx a pre tail, read_field h cls cctx f c (SBytesIO (pre ++ enc ++ tail) (zlen pre), a)
         = (Ok tt, (SBytesIO (pre ++ enc ++ tail) (zlen pre + zlen enc), a)).
Proof.
  intros V R E. exists (FConst n m w). split; [destruct V as [-> | (m' & [-> | ->])]; reflexivity|]. split.
  - intros a out. rewrite const_write. apply (R c).
  - intros cls cctx a pre tail. rewrite const_read. destruct (R (get_updated_context cctx (VObj cls a) c)) as [_ Rd]. now rewrite Rd, E.
Qed.
Lemma repeat_one (x : Z) k : repeat x k = List.concat (repeat [x] k).
Proof. induction k as [|k IH]; [reflexivity|]. cbn. now rewrite IH. Qed.
Lemma padding_defined size char :
  (zlen char = 1 -> exists f, BytePadding size char = Ok f
     /\ forall h a out, write_field h f a out = (Ok tt, out ++ List.concat (repeat char (Z.to_nat size))))
  /\ (zlen char <> 1 -> BytePadding size char = Err AssertionError).
Proof.
  unfold zlen. destruct char as [|x [|y r]]; cbn [List.length BytePadding]; (split; intros H; try (exfalso; lia); try reflexivity).
  eexists. split; [reflexivity|]. intros h a out. change (write_field h (FAnon (MBytePad size x)) a out) with (out_write (repeat x (Z.to_nat size)) out).
  rewrite repeat_one. reflexivity.
Qed.
