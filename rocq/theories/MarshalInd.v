(** Induction over marshals and fields, and the unfolding equations of the nested loops. *)
From Verif Require Import Base IntCodec Stream MinMax Marshal.
From Coq Require Import ZArith List Bool String.
Import ListNotations.
Open Scope Z_scope.

Definition opt_all {A} (P : A -> Prop) (o : option A) : Prop :=
  match o with None => True | Some x => P x end.

Section Ind.
Variables (P : marshal -> Prop) (Q : field -> Prop).
Hypothesis HInt : forall f, P (MInt f).
Hypothesis HFloat : forall f, P (MFloat f).
Hypothesis HConst : forall v, P (MConst v).
Hypothesis HCall : forall f, P (MCall f).
Hypothesis HPtr : forall n, P (MPtr n).
Hypothesis HVarStr : forall sz p d, P sz -> P (MVarStr sz p d).
Hypothesis HPadStr : forall n p d, P (MPadStr n p d).
Hypothesis HBytePad : forall n ch, P (MBytePad n ch).
Hypothesis HVarArr : forall sz el, P sz -> P el -> P (MVarArr sz el).
Hypothesis HFixArr : forall n el, P el -> P (MFixArr n el).
Hypothesis HSumArr : forall sz el, P sz -> P el -> P (MSumArr sz el).
Hypothesis HMap : forall tbl m, P m -> P (MMap tbl m).
Hypothesis HStruct : forall cls cctx fs, Forall Q fs -> P (MStruct cls cctx fs).
Hypothesis HSel : forall key mapping d,
  P key -> Forall (fun p => P (snd p)) mapping -> opt_all P d -> P (MSel key mapping d).
Hypothesis HFunSel : forall choices func mm, Forall P choices -> P (MFunSel choices func mm).
Hypothesis HField : forall n m d, P m -> Q (FField n m d).
Hypothesis HAnon : forall m, P m -> Q (FAnon m).
Hypothesis HCField : forall n m k, P m -> Q (FConst n m k).
Hypothesis HOpt : forall n m pr d, P m -> Q (FOpt n m pr d).
Hypothesis HGroup : forall fs, Forall Q fs -> Q (FGroup fs).
Hypothesis HBits : forall bs, Q (FBits bs).
Hypothesis HPosBits : forall n bs, Q (FPosBits n bs).

Fixpoint marshal_rect' (m : marshal) : P m :=
  match m with
  | MInt f => HInt f
  | MFloat f => HFloat f
  | MConst v => HConst v
  | MCall f => HCall f
  | MPtr n => HPtr n
  | MVarStr sz p d => HVarStr sz p d (marshal_rect' sz)
  | MPadStr n p d => HPadStr n p d
  | MBytePad n ch => HBytePad n ch
  | MVarArr sz el => HVarArr sz el (marshal_rect' sz) (marshal_rect' el)
  | MFixArr n el => HFixArr n el (marshal_rect' el)
  | MSumArr sz el => HSumArr sz el (marshal_rect' sz) (marshal_rect' el)
  | MMap tbl m' => HMap tbl m' (marshal_rect' m')
  | MStruct cls cctx fs =>
      HStruct cls cctx fs
        ((fix go (fs : list field) : Forall Q fs :=
            match fs with
            | [] => Forall_nil _
            | f :: r => Forall_cons _ (field_rect' f) (go r)
            end) fs)
  | MSel key mapping d =>
      HSel key mapping d (marshal_rect' key)
        ((fix go (l : list (value * marshal)) : Forall (fun p => P (snd p)) l :=
            match l with
            | [] => Forall_nil _
            | (k, m') :: r => Forall_cons (k, m') (marshal_rect' m') (go r)
            end) mapping)
        (match d return opt_all P d with None => I | Some m' => marshal_rect' m' end)
  | MFunSel choices func mm =>
      HFunSel choices func mm
        ((fix go (l : list marshal) : Forall P l :=
            match l with
            | [] => Forall_nil _
            | m' :: r => Forall_cons _ (marshal_rect' m') (go r)
            end) choices)
  end
with field_rect' (f : field) : Q f :=
  match f with
  | FField n m d => HField n m d (marshal_rect' m)
  | FAnon m => HAnon m (marshal_rect' m)
  | FConst n m k => HCField n m k (marshal_rect' m)
  | FOpt n m pr d => HOpt n m pr d (marshal_rect' m)
  | FGroup fs =>
      HGroup fs
        ((fix go (fs : list field) : Forall Q fs :=
            match fs with
            | [] => Forall_nil _
            | f :: r => Forall_cons _ (field_rect' f) (go r)
            end) fs)
  | FBits bs => HBits bs
  | FPosBits n bs => HPosBits n bs
  end.

Lemma marshal_field_ind : (forall m, P m) /\ (forall f, Q f).
Proof. exact (conj marshal_rect' field_rect'). Qed.
End Ind.

(** ** The nested loops as ordinary functions *)
Fixpoint write_fields (h : host) (fs : list field) (a : attrs) : stM (list Z) unit :=
  match fs with
  | [] => sret tt
  | f :: r => do write_field h f a ;; write_fields h r a
  end.
Fixpoint sizeof_fields (fs : list field) (a : attrs) : res (list Z) :=
  match fs with
  | [] => Ok []
  | f :: r => let* x := sizeof_field f a in let* xs := sizeof_fields r a in Ok (x :: xs)
  end.
Fixpoint min_max_fields (fs : list field) : res (list minmax) :=
  match fs with
  | [] => Ok []
  | f :: r => let* x := min_max_field f in let* xs := min_max_fields r in Ok (x :: xs)
  end.
(** The structs a key selector was built with. *)
Definition sel_structs (mapping : list (value * marshal)) (d : option marshal) : list marshal :=
  map snd mapping ++ match d with Some m => [m] | None => [] end.
(** [type(obj)] among the structs of a selector. *)
Fixpoint sel_choice (mapping : list (value * marshal)) (d : option marshal) (cls : name)
  : option marshal :=
  match mapping with
  | [] => d
  | (_, m) :: r => match m with
                   | MStruct n _ _ => if String.eqb n cls then Some m else sel_choice r d cls
                   | _ => sel_choice r d cls
                   end
  end.
Fixpoint class_choice (l : list marshal) (cls : name) : option marshal :=
  match l with
  | [] => None
  | m :: r => match m with
              | MStruct n _ _ => if String.eqb n cls then Some m else class_choice r cls
              | _ => class_choice r cls
              end
  end.

Lemma read_fields_cons h cls cctx f r c :
  read_fields h cls cctx (f :: r) c = (do read_field h cls cctx f c ;; read_fields h cls cctx r c).
Proof. reflexivity. Qed.

Lemma read_struct h cls cctx fs c s :
  read h (MStruct cls cctx fs) c s
  = match read_fields h cls cctx fs c (s, new_attrs fs []) with
    | (Ok _, (s', a)) => (Ok (VObj cls a), s')
    | (Err e, (s', _)) => (Err e, s')
    end.
Proof. reflexivity. Qed.

Lemma read_group h cls cctx fs c st :
  read_field h cls cctx (FGroup fs) c st = read_fields h cls cctx fs c st.
Proof. reflexivity. Qed.

Lemma write_fields_fix h fs a :
  (fix go (fs : list field) : stM (list Z) unit :=
     match fs with
     | [] => sret tt
     | f :: r => do write_field h f a ;; go r
     end) fs = write_fields h fs a.
Proof. induction fs as [|f r IH]; cbn; [auto|]. now rewrite IH. Qed.

Lemma write_struct h cls cctx fs cls' a :
  write h (MStruct cls cctx fs) (VObj cls' a)
  = if String.eqb cls' cls then write_fields h fs a else sraise NotModelled.
Proof. cbn [write]. destruct (String.eqb cls' cls); auto. apply write_fields_fix. Qed.

Lemma write_group h fs a : write_field h (FGroup fs) a = write_fields h fs a.
Proof. apply write_fields_fix. Qed.

Lemma sizeof_fields_fix fs a :
  (fix go (fs : list field) : res (list Z) :=
     match fs with
     | [] => Ok []
     | f :: r => let* x := sizeof_field f a in let* xs := go r in Ok (x :: xs)
     end) fs = sizeof_fields fs a.
Proof. induction fs as [|f r IH]; cbn; [auto|]. now rewrite IH. Qed.

Lemma sizeof_struct cls cctx fs v :
  sizeof (MStruct cls cctx fs) v
  = let* l := sizeof_fields fs (attrs_of v) in Ok (fold_left Z.add l 0).
Proof. cbn [sizeof]. now rewrite sizeof_fields_fix. Qed.

Lemma sizeof_group fs a :
  sizeof_field (FGroup fs) a = let* l := sizeof_fields fs a in Ok (fold_left Z.add l 0).
Proof. cbn [sizeof_field]. now rewrite sizeof_fields_fix. Qed.

Lemma min_max_fields_fix fs :
  (fix go (fs : list field) : res (list minmax) :=
     match fs with
     | [] => Ok []
     | f :: r => let* x := min_max_field f in let* xs := go r in Ok (x :: xs)
     end) fs = min_max_fields fs.
Proof. induction fs as [|f r IH]; cbn; [auto|]. now rewrite IH. Qed.

Lemma min_max_struct cls cctx fs :
  min_max (MStruct cls cctx fs) = let* l := min_max_fields fs in mm_sum ZERO_MIN_MAX l.
Proof. cbn [min_max]. now rewrite min_max_fields_fix. Qed.

Lemma min_max_group fs :
  min_max_field (FGroup fs) = let* l := min_max_fields fs in mm_sum ZERO_MIN_MAX l.
Proof. cbn [min_max_field]. now rewrite min_max_fields_fix. Qed.

Lemma min_max_sel key mapping d :
  min_max (MSel key mapping d)
  = let* l := rmap_list min_max (sel_structs mapping d) in mm_sum ZERO_MIN_MAX l.
Proof.
  cbn [min_max]. unfold sel_structs. f_equal. induction mapping as [|[k m] r IH]; cbn.
  - destruct d as [m|]; cbn; auto. 
  - now rewrite IH.
Qed.

Lemma write_sel h key mapping d cls a :
  write h (MSel key mapping d) (VObj cls a)
  = match sel_choice mapping d cls with
    | Some m => write h m (VObj cls a)
    | None => sraise NotModelled
    end.
Proof.
  cbn [write]. induction mapping as [|[k m] r IH]; cbn; auto.
  destruct m; auto. destruct (String.eqb cls0 cls) eqn:E; auto.
Qed.

Lemma sizeof_sel key mapping d cls a :
  sizeof (MSel key mapping d) (VObj cls a)
  = match sel_choice mapping d cls with
    | Some m => sizeof m (VObj cls a)
    | None => Err NotModelled
    end.
Proof.
  cbn [sizeof]. induction mapping as [|[k m] r IH]; cbn; auto.
  destruct m; auto. destruct (String.eqb cls0 cls) eqn:E; auto.
Qed.

Lemma write_funsel h choices func mm cls a :
  write h (MFunSel choices func mm) (VObj cls a)
  = match class_choice choices cls with
    | Some m => write h m (VObj cls a)
    | None => sraise NotModelled
    end.
Proof.
  cbn [write]. induction choices as [|m r IH]; cbn; auto.
  destruct m; auto. destruct (String.eqb cls0 cls) eqn:E; auto.
Qed.

Lemma sizeof_funsel choices func mm cls a :
  sizeof (MFunSel choices func mm) (VObj cls a)
  = match class_choice choices cls with
    | Some m => sizeof m (VObj cls a)
    | None => Err NotModelled
    end.
Proof.
  cbn [sizeof]. induction choices as [|m r IH]; cbn; auto.
  destruct m; auto. destruct (String.eqb cls0 cls) eqn:E; auto.
Qed.

(** Reading with the chosen reader. *)
Definition read_choice (h : host) (choices : list marshal) (k : nat) (c : ctx) : stM stream value :=
  match nth_error choices k with
  | Some m => read h m c
  | None => sraise AttributeError
  end.

Lemma read_funsel h choices func mm c s :
  read h (MFunSel choices func mm) c s
  = with_read_ahead
      (do set_read_ahead true ;;
       k <- run_rprog (func c) ;;
       do set_read_ahead false ;;
       result <- read_choice h choices k c ;;
       empty <- is_read_ahead_empty ;;
       if negb empty then sraise AttributeError else sret result) s.
Proof.
  cbn [read]. unfold with_read_ahead. 
  assert (E : forall k st,
    (fix pick (l : list marshal) (k : nat) : stM stream value :=
       match l, k with
       | [], _ => sraise AttributeError
       | m' :: _, O => read h m' c
       | _ :: r, S k' => pick r k'
       end) choices k st = read_choice h choices k c st).
  { unfold read_choice. induction choices as [|m r IH]; intros [|k] st; cbn; auto. }
  unfold sbind. cbn [set_read_ahead].
  destruct (run_rprog (func c) (SReadAhead [] true s)) as [[k|e] s1]; auto.
  destruct (set_read_ahead false s1) as [[u|e] s2]; auto.
  now rewrite E.
Qed.

(** Reading one field, as a function of the stream and the attributes read so far. *)
Lemma read_field_field h cls cctx n m d c s a :
  read_field h cls cctx (FField n m d) c (s, a)
  = match read h m (get_updated_context cctx (VObj cls a) c) s with
    | (Ok v, s') => (Ok tt, (s', set_attr a n v))
    | (Err e, s') => (Err e, (s', a))
    end.
Proof.
  change (read_field h cls cctx (FField n m d) c (s, a))
    with ((v <- on_stream (read h m (get_updated_context cctx (VObj cls a) c)) ;;
           upd_attrs (fun a => set_attr a n v)) (s, a)).
  unfold sbind, on_stream, upd_attrs. cbn [fst snd].
  now destruct (read h m _ s) as [[v|e] s'].
Qed.

Lemma read_field_anon h cls cctx m c s a :
  read_field h cls cctx (FAnon m) c (s, a)
  = match read h m (get_updated_context cctx (VObj cls a) c) s with
    | (Ok v, s') => (Ok tt, (s', a))
    | (Err e, s') => (Err e, (s', a))
    end.
Proof.
  change (read_field h cls cctx (FAnon m) c (s, a))
    with ((do on_stream (read h m (get_updated_context cctx (VObj cls a) c)) ;; sret tt) (s, a)).
  unfold sbind, on_stream, sret. cbn [fst snd].
  now destruct (read h m _ s) as [[v|e] s'].
Qed.

Lemma read_field_const h cls cctx n m k c s a :
  read_field h cls cctx (FConst n m k) c (s, a)
  = match read h m (get_updated_context cctx (VObj cls a) c) s with
    | (Ok v, s') => (if py_eq v k then Ok tt else Err InstructError, (s', a))
    | (Err e, s') => (Err e, (s', a))
    end.
Proof.
  change (read_field h cls cctx (FConst n m k) c (s, a))
    with ((v <- on_stream (read h m (get_updated_context cctx (VObj cls a) c)) ;;
           if py_eq v k then sret tt else sraise InstructError) (s, a)).
  unfold sbind, on_stream. cbn [fst snd].
  destruct (read h m _ s) as [[v|e] s']; auto. now destruct (py_eq v k).
Qed.

Lemma read_field_opt h cls cctx n m pred d c s a :
  read_field h cls cctx (FOpt n m pred d) c (s, a)
  = match run_rprog (pred (VObj cls a) (get_updated_context cctx (VObj cls a) c)) s with
    | (Ok true, s1) => match read h m (get_updated_context cctx (VObj cls a) c) s1 with
                       | (Ok v, s') => (Ok tt, (s', set_attr a n v))
                       | (Err e, s') => (Err e, (s', a))
                       end
    | (Ok false, s1) => (Ok tt, (s1, a))
    | (Err e, s1) => (Err e, (s1, a))
    end.
Proof.
  change (read_field h cls cctx (FOpt n m pred d) c (s, a))
    with ((b <- on_stream (run_rprog (pred (VObj cls a) (get_updated_context cctx (VObj cls a) c))) ;;
           if (b : bool)
           then v <- on_stream (read h m (get_updated_context cctx (VObj cls a) c)) ;;
                upd_attrs (fun a => set_attr a n v)
           else sret tt) (s, a)).
  unfold sbind, on_stream. cbn [fst snd].
  destruct (run_rprog _ s) as [[[]|e] s1]; auto. cbn [fst snd].
  now destruct (read h m _ s1) as [[v|e] s'].
Qed.

Lemma read_field_bits h cls cctx bs c st :
  read_field h cls cctx (FBits bs) c st = read_bit_container (bits_size bs) bs st.
Proof. reflexivity. Qed.

Lemma read_field_posbits h cls cctx size bs c st :
  read_field h cls cctx (FPosBits size bs) c st = read_bit_container size bs st.
Proof. reflexivity. Qed.
