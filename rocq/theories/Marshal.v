(** Model of the struct-style API: base.py, numeric.py, string.py, padding.py, array.py,
    mapping.py, struct/*.py, as a deep embedding.  A [marshal] is a marshal object (or a Struct
    class, which has the same four class methods), a [field] an entry of [_fields_].

    [to_repr] is in Repr.v.  Not modelled here: extra positional/keyword arguments of [create_from_stream];
    user-written [__init__]; lazy containers (see Lazy.v).
    The write [context] is not modelled because no writer of the library looks at it. *)
From Verif Require Import Base IntCodec BitStringIO Stream MinMax.
From Coq Require Import ZArith List Bool String.
Import ListNotations.
Open Scope Z_scope.

Definition name := string.

(** ** Python values handled by marshals *)
Inductive value : Type :=
| VNone
| VInt (z : Z)
| VFloat (pattern : Z)              (* IEEE double, by bit pattern *)
| VBytes (b : list Z)
| VStr (s : list Z)                 (* unicode string, by code points *)
| VList (l : list value)
| VObj (cls : name) (attrs : list (name * value)).   (* Struct instance *)

Definition attrs := list (name * value).

Fixpoint lookup {A} (l : list (name * A)) (n : name) : option A :=
  match l with
  | [] => None
  | (k, v) :: r => if String.eqb k n then Some v else lookup r n
  end.

(** [setattr]: overwrite in place or append. *)
Fixpoint set_attr (l : attrs) (n : name) (v : value) : attrs :=
  match l with
  | [] => [(n, v)]
  | (k, w) :: r => if String.eqb k n then (k, v) :: r else (k, w) :: set_attr r n v
  end.

(** Python [==] on these values.  Struct instances have no [__eq__]: a freshly read instance is
    never equal to a stored one. *)
Definition float_is_nan (p : Z) : bool :=
  ((p / 2 ^ 52) mod 2 ^ 11 =? 2047) && negb (p mod 2 ^ 52 =? 0).
(** The value of a finite double, in units of 2 ^ -1074. *)
Definition float_finite (p : Z) : bool := negb ((p / 2 ^ 52) mod 2 ^ 11 =? 2047).
Definition float_units (p : Z) : Z :=
  let e := (p / 2 ^ 52) mod 2 ^ 11 in
  let m := p mod 2 ^ 52 in
  let v := if e =? 0 then m else (2 ^ 52 + m) * 2 ^ (e - 1) in
  if p / 2 ^ 63 =? 0 then v else - v.
(** An int and a float are compared exactly; an int equals neither an infinity nor a NaN. *)
Definition int_eq_float (z p : Z) : bool := float_finite p && (z * 2 ^ 1074 =? float_units p).
Fixpoint py_eq (a b : value) : bool :=
  match a, b with
  | VNone, VNone => true
  | VInt x, VInt y => x =? y
  | VInt x, VFloat y => int_eq_float x y
  | VFloat x, VInt y => int_eq_float y x
  | VFloat x, VFloat y =>
      negb (float_is_nan x) && negb (float_is_nan y)
      && ((x =? y) || ((x mod 2 ^ 63 =? 0) && (y mod 2 ^ 63 =? 0)))
  | VBytes x, VBytes y => if list_eq_dec Z.eq_dec x y then true else false
  | VStr x, VStr y => if list_eq_dec Z.eq_dec x y then true else false
  | VList x, VList y =>
      (fix go (x y : list value) : bool :=
         match x, y with
         | [], [] => true
         | a :: x', b :: y' => py_eq a b && go x' y'
         | _, _ => false
         end) x y
  | _, _ => false
  end.

Definition hashable (v : value) : bool := match v with VList _ => false | _ => true end.

(** [d[k]] on a dict given as a list of items. *)
Definition dict_get (d : list (value * value)) (k : value) : res value :=
  if hashable k then
    match find (fun p => py_eq (fst p) k) d with
    | Some (_, v) => Ok v
    | None => Err KeyError
    end
  else Err TypeError.

(** [len(v)], iteration. *)
Definition py_len (v : value) : res Z :=
  match v with
  | VBytes b => Ok (zlen b) | VStr s => Ok (zlen s) | VList l => Ok (zlen l)
  | _ => Err TypeError
  end.
Definition py_iter (v : value) : res (list value) :=
  match v with
  | VBytes b => Ok (map VInt b)
  | VStr s => Ok (map (fun c => VStr [c]) s)
  | VList l => Ok l
  | _ => Err TypeError
  end.
Definition as_int (v : value) : res Z := match v with VInt z => Ok z | _ => Err TypeError end.

(** ** Contexts: dictionaries (base.py:5-51), first binding wins. *)
Definition ctx := list (name * value).
Definition EMPTY_CONTEXT : ctx := [].
Definition ctx_get (c : ctx) (k : name) : value :=
  match lookup c k with Some v => v | None => VNone end.

(** struct/__init__.py:217-225: start from [_context_] or [{struct: obj}], then update with the
    given context, whose entries therefore win. *)
Definition get_updated_context (cctx : option ctx) (obj : value) (c : ctx) : ctx :=
  c ++ match cctx with Some d => d | None => [("struct"%string, obj)] end.

(** [getattr(obj, name)] without default. *)
Definition py_getattr (obj : value) (n : name) : res value :=
  match obj with
  | VObj _ a => match lookup a n with Some v => Ok v | None => Err AttributeError end
  | _ => Err AttributeError
  end.

(** ** Strings: string.py:5-18 *)
Inductive paddir : Type := PNone | PRight | PLeft | PBoth.

Fixpoint lstrip_bytes (set l : list Z) : list Z :=
  match l with
  | [] => []
  | c :: r => if existsb (Z.eqb c) set then lstrip_bytes set r else l
  end.
Definition rstrip_bytes (set l : list Z) : list Z := rev (lstrip_bytes set (rev l)).

Definition strip_bytes (d : paddir) (set l : list Z) : list Z :=
  match d with
  | PNone => l
  | PRight => rstrip_bytes set l
  | PLeft => lstrip_bytes set l
  | PBoth => lstrip_bytes set (rstrip_bytes set l)
  end.

(** string.py:10-18.  [padding] is a Python value because the [VarSizeString] macro's default
    is the *str* "\x00" (string_macros.py:9). *)
Definition _strip (obj : value) (d : paddir) (padding : value) : res value :=
  match d with
  | PNone => Ok obj
  | _ =>
      match obj, padding with
      | VBytes b, VBytes p => Ok (VBytes (strip_bytes d p b))
      | VStr b, VStr p => Ok (VStr (strip_bytes d p b))
      | VBytes _, _ | VStr _, _ => Err TypeError
      | _, _ => Err AttributeError
      end
  end.

(** ** Bit marshals: struct/bit.py:6-28, 51-78 *)
Inductive bitmarshal : Type :=
| BMBits (size : Z)                                      (* BitMarshal, lines 6-18 *)
| BMPad (size : Z)                                       (* BitPaddingMarshal, lines 20-28 *)
| BMMap (tbl : list (value * value)) (m : bitmarshal)    (* FixedSizeMappingMarshal over bits *)
| BMPos (slices : list (Z * Z)).                         (* PositionalBitMarshal, lines 51-78 *)

Inductive bitfield : Type :=
| BField (n : name) (m : bitmarshal) (default : value)
| BAnon (m : bitmarshal)
| BConst (n : name) (m : bitmarshal) (v : value).

Fixpoint bm_size (m : bitmarshal) : Z :=
  match m with
  | BMBits n | BMPad n => n
  | BMMap _ m' => bm_size m'
  | BMPos sl => fold_left Z.add (map (fun s => snd s - fst s) sl) 0   (* line 55 *)
  end.

(** struct/bit.py:60-68 *)
Fixpoint bm_pos_read (sl : list (Z * Z)) (value bits : Z) : stM bsio Z :=
  match sl with
  | [] => sret value
  | (start, stop) :: r =>
      do bs_seek start ;;
      let slice_size := stop - start in
      x <- bs_read slice_size ;;
      bm_pos_read r (value + Z.shiftl x bits) (bits + slice_size)
  end.

(** struct/bit.py:70-75 *)
Fixpoint bm_pos_write (sl : list (Z * Z)) (obj : Z) : stM bsio unit :=
  match sl with
  | [] => sret tt
  | (start, stop) :: r =>
      do bs_seek start ;;
      let slice_size := stop - start in
      one <- slift (py_shl1 slice_size) ;;
      do bs_write (Z.land obj (one - 1)) slice_size ;;
      bm_pos_write r (Z.shiftr obj slice_size)
  end.

(** mapping.py:15-17 (reverse map built at lines 11-13) *)
Definition map_reverse (tbl : list (value * value)) (v : value) : res value :=
  dict_get (map (fun p => (snd p, fst p)) tbl) v.

Fixpoint bm_read (m : bitmarshal) : stM bsio value :=
  match m with
  | BMBits n => x <- bs_read n ;; sret (VInt x)                       (* struct/bit.py:11-12 *)
  | BMPad n => x <- bs_read n ;; sret (VInt x)                        (* inherited *)
  | BMMap tbl m' => v <- bm_read m' ;; slift (map_reverse tbl v)      (* mapping.py:15-17 *)
  | BMPos sl => x <- bm_pos_read sl 0 0 ;; sret (VInt x)              (* struct/bit.py:60-68 *)
  end.

(** A non-integer value is a TypeError (simplification: also for zero-width fields). *)
Fixpoint bm_write (m : bitmarshal) (v : value) : stM bsio unit :=
  match m with
  | BMBits n => z <- slift (as_int v) ;; bs_write z n                 (* struct/bit.py:14-15 *)
  | BMPad n => bs_write 0 n                                           (* struct/bit.py:24-25 *)
  | BMMap tbl m' => w <- slift (dict_get tbl v) ;; bm_write m' w      (* mapping.py:19-21 *)
  | BMPos sl => z <- slift (as_int v) ;; bm_pos_write sl z            (* struct/bit.py:70-75 *)
  end.

Definition bf_marshal (f : bitfield) : bitmarshal :=
  match f with BField _ m _ | BAnon m | BConst _ m _ => m end.

(** struct/bit.py:30-38, size in bytes. *)
Definition bits_size (fs : list bitfield) : Z :=
  fold_left Z.add (map (fun f => bm_size (bf_marshal f)) fs) 0 / 8.

(** [field.is_fixed_size()] through FixedSizer.min_max_sizeof, base.py:148-149. *)
Definition bm_is_fixed (m : bitmarshal) : res bool :=
  let* mm := MinMax (bm_size m) (bm_size m) in Ok (mm_is_fixed mm).

Fixpoint all_fixed (fs : list bitfield) : res bool :=
  match fs with
  | [] => Ok true
  | f :: r => let* a := bm_is_fixed (bf_marshal f) in
              let* b := all_fixed r in Ok (a && b)
  end.

(** struct/bit.py:31-38 constructor checks of BitFieldListContainer. *)
Definition bits_container_check (fs : list bitfield) : res unit :=
  let* b := all_fixed fs in
  if negb b then Err InstructError
  else if negb (fold_left Z.add (map (fun f => bm_size (bf_marshal f)) fs) 0 mod 8 =? 0)
       then Err BitFieldNotInByteBoundry
       else Ok tt.

Definition bm_slices (m : bitmarshal) : res (list (Z * Z)) :=
  match m with BMPos sl => Ok sl | _ => Err AttributeError end.

Definition zmax_list (l : list Z) : res Z :=
  match l with [] => Err ValueError | x :: r => Ok (fold_left Z.max r x) end.

Fixpoint rmap_list {A B} (f : A -> res B) (l : list A) : res (list B) :=
  match l with
  | [] => Ok []
  | x :: r => let* y := f x in let* ys := rmap_list f r in Ok (y :: ys)
  end.

(** struct/bit.py:81-97 constructor of PositionalBitFieldListContainer: the size in bytes. *)
Definition posbits_container_size (bit_size : option Z) (fs : list bitfield) : res Z :=
  let* b := all_fixed fs in
  if negb b then Err InstructError else
  let* maxes := rmap_list (fun f => let* sl := bm_slices (bf_marshal f) in
                                    zmax_list (map snd sl)) fs in
  let* field_bit_size := zmax_list maxes in
  let bs := match bit_size with None => field_bit_size | Some n => n end in
  if bs <? field_bit_size then Err ValueError
  else if negb (bs mod 8 =? 0) then Err BitFieldNotInByteBoundry
  else Ok (bs / 8).

(** ** Marshals and fields *)
Inductive marshal : Type :=
| MInt (f : intfmt)                                      (* NumericMarshal, integer formats *)
| MFloat (f : floatfmt)                                  (* NumericMarshal, 'f' and 'd' *)
| MConst (v : value)                                     (* ConstReader, base.py:151-163 *)
| MCall (func : ctx -> rprog value)                      (* CallableReader, base.py:165-177 *)
| MPtr (n : name)                                        (* ReadPointer, struct/pointer.py *)
| MVarStr (sz : marshal) (padding : value) (d : paddir)  (* VarSizeStringMarshal / VarSizeBuffer *)
| MPadStr (size : Z) (padding : value) (d : paddir)      (* PaddedStringMarshal / FixedSizeBuffer *)
| MBytePad (size : Z) (char : Z)                         (* BytePaddingMarshal *)
| MVarArr (sz el : marshal)                              (* VarSizeArrayMarshal *)
| MFixArr (n : Z) (el : marshal)                         (* FixedSizeArrayMarshal *)
| MSumArr (sz el : marshal)                              (* SumSizeArrayMarshal *)
| MMap (tbl : list (value * value)) (m : marshal)        (* FixedSizeMappingMarshal *)
| MStruct (cls : name) (cctx : option ctx) (fs : list field)   (* a Struct class *)
| MSel (key : marshal) (mapping : list (value * marshal)) (default : option marshal)
                                                         (* StructSelectorMarshal *)
| MFunSel (choices : list marshal) (func : ctx -> rprog nat) (mm : minmax)
    (* FuncStructSelectorMarshal; the function returns one of finitely many readers,
       given by its index; an index out of range stands for returning a non-marshal *)
with field : Type :=
| FField (n : name) (m : marshal) (default : value)      (* Field, struct/__init__.py:57-79 *)
| FAnon (m : marshal)                                    (* AnonymousField, lines 50-55 *)
| FConst (n : name) (m : marshal) (v : value)            (* ConstField, struct/const.py *)
| FOpt (n : name) (m : marshal) (pred : value -> ctx -> rprog bool) (default : value)
                                                         (* OptionalField, struct/optional.py *)
| FGroup (fs : list field)                               (* FieldListContainer, lines 81-109 *)
| FBits (fs : list bitfield)                             (* BitFieldListContainer *)
| FPosBits (size : Z) (fs : list bitfield).              (* PositionalBitFieldListContainer *)

(** ** Object construction: struct/__init__.py:63-67, 90-92, 145-152, struct/const.py:10-16 *)

(** Attributes visible through the class: constant fields are descriptors. *)
Fixpoint class_attrs_f (f : field) : attrs :=
  match f with
  | FConst n _ v => [(n, v)]
  | FGroup fs => flat_map class_attrs_f fs
  | FBits bs | FPosBits _ bs =>
      flat_map (fun b => match b with BConst n _ v => [(n, v)] | _ => [] end) bs
  | _ => []
  end.
Definition class_attrs (fs : list field) : attrs := flat_map class_attrs_f fs.

(** [Field.prepare_instance], lines 63-67. *)
Definition prepare_field (kwargs : attrs) (a : attrs) (n : name) (default : value) : attrs :=
  match lookup kwargs n with
  | Some v => set_attr a n v
  | None => match lookup a n with Some _ => a | None => set_attr a n default end
  end.

Fixpoint prepare_instance (kwargs : attrs) (a : attrs) (f : field) : attrs :=
  match f with
  | FField n _ d | FOpt n _ _ d => prepare_field kwargs a n d
  | FAnon _ | FConst _ _ _ => a
  | FGroup fs => fold_left (prepare_instance kwargs) fs a
  | FBits bs | FPosBits _ bs =>
      fold_left (fun a b => match b with
                            | BField n _ d => prepare_field kwargs a n d
                            | _ => a
                            end) bs a
  end.

(** [cls( **kwargs )]: keyword arguments that name no field are ignored (Struct.__init__,
    lines 167-169). *)
Definition new_attrs (fs : list field) (kwargs : attrs) : attrs :=
  fold_left (prepare_instance kwargs) fs (class_attrs fs).

(** [obj.n = v] by the user, on an object of the class: constant fields are data descriptors
    (struct/const.py:37-40), everything else is stored.  Simplification: the names of the constant
    fields are distinct, and identity of Struct instances is not considered. *)
Definition assign_attr (fs : list field) (a : attrs) (n : name) (v : value) : res attrs :=
  match lookup (class_attrs fs) n with
  | Some k => if py_eq v k then Ok a else Err InstructError
  | None => Ok (set_attr a n v)
  end.

(** ** Reading *)
Definition stM_loop {S A} (n : nat) (m : stM S A) : stM S (list A) :=
  (fix go (n : nat) : stM S (list A) :=
     match n with
     | O => sret []
     | S n' => x <- m ;; r <- go n' ;; sret (x :: r)
     end) n.

(** array.py:58-65.  An element that consumes nothing while bytes remain makes the loop run
    forever (the same state recurs), reported as [Diverges].  [fuel] is the byte count, which
    bounds the number of iterations that consume something. *)
Fixpoint sum_loop (fuel : nat) (rd : stM stream value) (total : Z) : stM stream (list value) :=
  if total >? 0 then
    match fuel with
    | O => sraise Diverges
    | S fuel' =>
        s0 <- sget ;;
        el <- rd ;;
        s1 <- sget ;;
        match stell s0, stell s1 with
        | Some t0, Some t1 =>
            let element_size := t1 - t0 in
            if element_size =? 0 then sraise Diverges
            else r <- sum_loop fuel' rd (total - element_size) ;; sret (el :: r)
        | _, _ => sraise NameError                (* line 62: [elemen] is not defined *)
        end
    end
  else do slift (passert (total =? 0)) ;; sret [].

(** [setattr] on the object while its bit fields are read. *)
Definition read_bitfield (f : bitfield) : stM (bsio * attrs) unit := fun st =>
  match bm_read (bf_marshal f) (fst st) with
  | (Ok v, b') =>
      match f with
      | BField n _ _ => (Ok tt, (b', set_attr (snd st) n v))          (* struct/__init__.py:32-33, 75-76 *)
      | BAnon _ => (Ok tt, (b', snd st))                              (* struct/__init__.py:44-45 *)
      | BConst n _ c => if py_eq v c then (Ok tt, (b', snd st))       (* struct/const.py:18-23 *)
                        else (Err InstructError, (b', snd st))
      end
  | (Err e, b') => (Err e, (b', snd st))
  end.

Definition bf_value (f : bitfield) (a : attrs) : value :=
  match f with
  | BField n _ d => match lookup a n with Some v => v | None => d end  (* struct/__init__.py:72-73 *)
  | BAnon _ => VNone                                                   (* struct/__init__.py:47-48 *)
  | BConst _ _ v => v                                                  (* struct/const.py:28-29 *)
  end.

Definition write_bitfield (a : attrs) (f : bitfield) : stM bsio unit :=
  bm_write (bf_marshal f) (bf_value f a).

(** State while the fields of an object are read: the stream and the attributes. *)
Definition rstate : Type := (stream * attrs)%type.
Definition on_stream {A} (m : stM stream A) : stM rstate A := fun st =>
  match m (fst st) with (r, s') => (r, (s', snd st)) end.
Definition upd_attrs (f : attrs -> attrs) : stM rstate unit := fun st =>
  (Ok tt, (fst st, f (snd st))).

(** struct/bit.py:46-49, 105-108 *)
Definition read_bit_container (size : Z) (bs : list bitfield) : stM rstate unit :=
  data <- on_stream (sread size) ;;
  (fun st : rstate =>
     match sforeach bs read_bitfield (bs_new_bytes data, snd st) with
     | (r, (_, a')) => (r, (fst st, a'))
     end).

(** struct/selector.py:12-18: [self.mapping] starts empty and the loop that fills it runs over
    [self.mapping] itself, not over the argument. *)
Definition sel_loop_source {A} (argument self_mapping : list A) : list A := self_mapping.
Definition sel_has_key (mapping : list (value * marshal)) (k : value) : bool :=
  existsb (fun p => py_eq (fst p) k) (sel_loop_source mapping []).

Section WithHost.
Variable h : host.

(** [marshal.create_from_stream(stream, context)] *)
Fixpoint read (m : marshal) (c : ctx) {struct m} : stM stream value :=
  match m with
  | MInt f =>                                             (* numeric.py:20-27 *)
      let size := isize_bytes (f_size f) in
      packed <- sread size ;;
      if zlen packed <? size then sraise (NotEnoughDataError size (zlen packed))
      else match struct_unpack_int h f packed with
           | Ok z => sret (VInt z)
           | Err _ => sraise InstructError
           end
  | MFloat f =>
      let size := fsize_bytes (ff_size f) in
      packed <- sread size ;;
      if zlen packed <? size then sraise (NotEnoughDataError size (zlen packed))
      else match struct_unpack_float h f packed with
           | Ok p => sret (VFloat p)
           | Err _ => sraise InstructError
           end
  | MConst v => sret v                                    (* base.py:159-160 *)
  | MCall func => run_rprog (func c)                      (* base.py:173-174 *)
  | MPtr n => slift (py_getattr (ctx_get c "struct"%string) n)   (* struct/pointer.py:8-10 *)
  | MVarStr sz padding d =>                               (* string.py:43-48 *)
      len <- read sz c ;;
      n <- slift (as_int len) ;;
      obj <- sread n ;;
      if zlen obj <? n then sraise InstructError
      else slift (_strip (VBytes obj) d padding)
  | MPadStr size padding d =>                             (* string.py:65-68, 43-48 *)
      obj <- sread size ;;
      if zlen obj <? size then sraise InstructError
      else slift (_strip (VBytes obj) d padding)
  | MBytePad size _ => do sread size ;; sret VNone        (* padding.py:13-14 *)
  | MVarArr sz el =>                                      (* array.py:24-29 *)
      len <- read sz c ;;
      n <- slift (as_int len) ;;
      l <- stM_loop (Z.to_nat n) (read el c) ;;
      sret (VList l)
  | MFixArr n el =>                                       (* array.py:39-42 *)
      l <- stM_loop (Z.to_nat n) (read el c) ;;
      sret (VList l)
  | MSumArr sz el =>                                      (* array.py:54-65 *)
      len <- read sz c ;;
      total <- slift (as_int len) ;;
      l <- sum_loop (Z.to_nat total) (read el c) total ;;
      sret (VList l)
  | MMap tbl m' =>                                        (* mapping.py:15-17 *)
      v <- read m' c ;;
      slift (map_reverse tbl v)
  | MStruct cls cctx fs =>                                (* struct/__init__.py:176-181 *)
      fun s =>
        match (fix go (fs : list field) : stM rstate unit :=
                 match fs with
                 | [] => sret tt
                 | f :: r => do read_field cls cctx f c ;; go r
                 end) fs (s, new_attrs fs []) with
        | (Ok _, (s', a)) => (Ok (VObj cls a), s')
        | (Err e, (s', _)) => (Err e, s')
        end
  | MSel key mapping default =>                           (* struct/selector.py:27-45 *)
      with_read_ahead
        (do set_read_ahead true ;;
         k <- read key c ;;
         do set_read_ahead false ;;
         do slift (if hashable k then Ok tt else Err TypeError) ;;    (* line 33 *)
         if sel_has_key mapping k then                                (* lines 33-34, 41-45 *)
           result <- (fix pick (l : list (value * marshal)) : stM stream value :=
                        match l with
                        | [] => sraise KeyError
                        | (k', m') :: r => if py_eq k' k then read m' c else pick r
                        end) mapping ;;
           empty <- is_read_ahead_empty ;;
           if negb empty then sraise InstructError else sret result
         else
         match default with                                           (* lines 36-45 *)
         | None => sraise InstructError
         | Some d =>
             result <- read d c ;;
             empty <- is_read_ahead_empty ;;
             if negb empty then sraise InstructError else sret result
         end)
  | MFunSel choices func _ =>                             (* struct/selector.py:65-78 *)
      with_read_ahead
        (do set_read_ahead true ;;
         k <- run_rprog (func c) ;;
         do set_read_ahead false ;;
         result <- (fix pick (l : list marshal) (k : nat) : stM stream value :=
                      match l, k with
                      | [], _ => sraise AttributeError
                      | m' :: _, O => read m' c
                      | _ :: r, S k' => pick r k'
                      end) choices k ;;
         empty <- is_read_ahead_empty ;;
         (* line 77: [result.to_repr(context)] fails with AttributeError *)
         if negb empty then sraise AttributeError else sret result)
  end
(** [field.read_fields(obj, stream, context)]; [c] is the context given to the struct, the
    context seen by the field is computed from the current attributes. *)
with read_field (cls : name) (cctx : option ctx) (f : field) (c : ctx) {struct f} : stM rstate unit :=
  fun st =>
  let c' := get_updated_context cctx (VObj cls (snd st)) c in
  match f with
  | FField n m _ =>                                       (* struct/__init__.py:32-33, 75-76 *)
      (v <- on_stream (read m c') ;; upd_attrs (fun a => set_attr a n v)) st
  | FAnon m =>                                            (* struct/__init__.py:32-33, 44-45 *)
      (do on_stream (read m c') ;; sret tt) st
  | FConst n m k =>                                       (* struct/const.py:18-23 *)
      (v <- on_stream (read m c') ;; if py_eq v k then sret tt else sraise InstructError) st
  | FOpt n m pred _ =>                                    (* struct/optional.py:14-16 *)
      (b <- on_stream (run_rprog (pred (VObj cls (snd st)) c')) ;;
       if (b : bool) then v <- on_stream (read m c') ;; upd_attrs (fun a => set_attr a n v)
       else sret tt) st
  | FGroup fs =>                                          (* struct/__init__.py:94-96 *)
      (fix go (fs : list field) : stM rstate unit :=
         match fs with
         | [] => sret tt
         | f' :: r => do read_field cls cctx f' c ;; go r
         end) fs st
  | FBits bs => read_bit_container (bits_size bs) bs st   (* struct/bit.py:46-49 *)
  | FPosBits size bs => read_bit_container size bs st     (* struct/bit.py:105-108 *)
  end.

Definition read_fields (cls : name) (cctx : option ctx) (fs : list field) (c : ctx) : stM rstate unit :=
  (fix go (fs : list field) : stM rstate unit :=
     match fs with
     | [] => sret tt
     | f :: r => do read_field cls cctx f c ;; go r
     end) fs.

(** ** Writing.  The state is what has been written to the output stream so far. *)
Definition out_write (b : list Z) : stM (list Z) unit := fun out => (Ok tt, out ++ b).
(** [stream.write(v)]: only bytes can be written. *)
Definition out_write_value (v : value) : stM (list Z) unit :=
  match v with VBytes b => out_write b | _ => sraise TypeError end.

(** struct/bit.py:40-44, 99-103 *)
Definition write_bit_container (size : Z) (a : attrs) (bs : list bitfield) : stM (list Z) unit :=
  b0 <- slift (bs_new_size size) ;;
  match sforeach bs (write_bitfield a) b0 with
  | (Ok _, b1) => out_write (bs_getvalue b1)
  | (Err e, _) => sraise e
  end.

Definition field_value (n : name) (default : value) (a : attrs) : value :=
  match lookup a n with Some v => v | None => default end.          (* struct/__init__.py:72-73 *)

Definition attrs_of (v : value) : attrs := match v with VObj _ a => a | _ => [] end.

(** [marshal.min_max_sizeof()] *)
Fixpoint min_max (m : marshal) {struct m} : res minmax :=
  match m with
  | MInt f => MinMax (isize_bytes (f_size f)) (isize_bytes (f_size f))   (* base.py:148-149 *)
  | MFloat f => MinMax (fsize_bytes (ff_size f)) (fsize_bytes (ff_size f))
  | MConst _ | MCall _ | MPtr _ => MinMax 0 0
  | MVarStr sz _ _ =>                                     (* string.py:61-63 *)
      let* s := min_max sz in
      let* one := py_shl1_big (mm_max s * 8) in
      MinMax (mm_min s) (mm_max s + one - 1)
  | MPadStr size _ _ => MinMax size size
  | MBytePad size _ => MinMax size size
  | MVarArr sz el | MSumArr sz el =>                      (* array.py:8-16 *)
      let* s := min_max sz in
      let* e := min_max el in
      let* one := py_shl1_big (mm_max s * 8) in
      MinMax (mm_min s) (mm_max s + (one - 1) * mm_max e)
  | MFixArr n el =>                                       (* array.py:44-46 *)
      let* e := min_max el in
      MinMax (mm_min e * n) (mm_max e * n)
  | MMap _ m' =>                                          (* mapping.py:10, base.py:148-149 *)
      let* mm := min_max m' in MinMax (mm_min mm) (mm_min mm)
  | MStruct _ _ fs =>                                     (* struct/__init__.py:183-185, 108-109 *)
      let* l := (fix go (fs : list field) : res (list minmax) :=
                   match fs with
                   | [] => Ok []
                   | f :: r => let* x := min_max_field f in
                               let* xs := go r in Ok (x :: xs)
                   end) fs in
      mm_sum ZERO_MIN_MAX l
  | MSel _ mapping default =>                             (* struct/selector.py:20-22, 53-54 *)
      let* l := (fix go (l : list (value * marshal)) : res (list minmax) :=
                   match l with
                   | [] => match default with
                           | Some d => let* x := min_max d in Ok [x]
                           | None => Ok []
                           end
                   | (_, m') :: r => let* x := min_max m' in
                                     let* xs := go r in Ok (x :: xs)
                   end) mapping in
      mm_sum ZERO_MIN_MAX l
  | MFunSel _ _ mm => Ok mm                               (* struct/selector.py:86-87 *)
  end
with min_max_field (f : field) {struct f} : res minmax :=
  match f with
  | FField _ m _ | FAnon m | FConst _ m _ => min_max m    (* struct/__init__.py:41-42 *)
  | FOpt _ m _ _ => let* mm := min_max m in MinMax 0 (mm_max mm)   (* struct/optional.py:24-25 *)
  | FGroup fs =>
      let* l := (fix go (fs : list field) : res (list minmax) :=
                   match fs with
                   | [] => Ok []
                   | f' :: r => let* x := min_max_field f' in
                                let* xs := go r in Ok (x :: xs)
                   end) fs in
      mm_sum ZERO_MIN_MAX l
  | FBits bs => MinMax (bits_size bs) (bits_size bs)
  | FPosBits size _ => MinMax size size
  end.

(** [marshal.sizeof(obj)] *)
Fixpoint sizeof (m : marshal) (v : value) {struct m} : res Z :=
  match m with
  | MInt f => Ok (isize_bytes (f_size f))                 (* base.py:145-146 *)
  | MFloat f => Ok (fsize_bytes (ff_size f))
  | MConst _ | MCall _ | MPtr _ => Ok 0
  | MVarStr sz padding d =>                               (* string.py:58-59 *)
      let* a := sizeof sz v in
      let* st := _strip v d padding in
      let* n := py_len st in Ok (a + n)
  | MPadStr size _ _ => Ok size
  | MBytePad size _ => Ok size
  | MVarArr sz el =>                                      (* array.py:36-37 *)
      let* n := py_len v in
      let* a := sizeof sz (VInt n) in
      let* l := py_iter v in
      let* sizes := rmap_list (sizeof el) l in
      Ok (a + fold_left Z.add sizes 0)
  | MFixArr _ el =>
      let* n := py_len v in
      let* l := py_iter v in
      let* sizes := rmap_list (sizeof el) l in
      Ok (0 + fold_left Z.add sizes 0)
  | MSumArr sz el =>                                      (* array.py:73-75 *)
      let* l := py_iter v in
      let* sizes := rmap_list (sizeof el) l in
      let sum_size := fold_left Z.add sizes 0 in
      let* a := sizeof sz (VInt sum_size) in
      Ok (a + sum_size)
  | MMap _ m' => let* mm := min_max m' in Ok (mm_min mm)  (* mapping.py:10 *)
  | MStruct _ _ fs =>                                     (* struct/__init__.py:187-189 *)
      let* sizes := (fix go (fs : list field) : res (list Z) :=
                       match fs with
                       | [] => Ok []
                       | f :: r => let* x := sizeof_field f (attrs_of v) in
                                   let* xs := go r in Ok (x :: xs)
                       end) fs in
      Ok (fold_left Z.add sizes 0)
  | MSel _ mapping default =>                             (* struct/selector.py:50-51 *)
      match v with
      | VObj cls' _ =>
          (fix pick (l : list (value * marshal)) : res Z :=
             match l with
             | [] => match default with
                     | Some d => sizeof d v
                     | None => Err NotModelled
                     end
             | (_, MStruct n _ _ as m') :: r => if String.eqb n cls' then sizeof m' v else pick r
             | _ :: r => pick r
             end) mapping
      | _ => Err AttributeError
      end
  | MFunSel choices _ _ =>                                (* struct/selector.py:83-84 *)
      match v with
      | VObj cls' _ =>
          (fix pick (l : list marshal) : res Z :=
             match l with
             | [] => Err NotModelled
             | (MStruct n _ _ as m') :: r => if String.eqb n cls' then sizeof m' v else pick r
             | _ :: r => pick r
             end) choices
      | _ => Err AttributeError
      end
  end
(** [field.sizeof(obj)] *)
with sizeof_field (f : field) (a : attrs) {struct f} : res Z :=
  match f with
  | FField n m d => sizeof m (field_value n d a)          (* struct/__init__.py:38-39 *)
  | FAnon m => sizeof m VNone
  | FConst _ m k => sizeof m k
  | FOpt n m _ d =>                                       (* struct/optional.py:18-22 *)
      match field_value n d a with
      | VNone => Ok 0
      | v => sizeof m v
      end
  | FGroup fs =>                                          (* struct/__init__.py:105-106 *)
      let* sizes := (fix go (fs : list field) : res (list Z) :=
                       match fs with
                       | [] => Ok []
                       | f' :: r => let* x := sizeof_field f' a in
                                    let* xs := go r in Ok (x :: xs)
                       end) fs in
      Ok (fold_left Z.add sizes 0)
  | FBits bs => Ok (bits_size bs)
  | FPosBits size _ => Ok size
  end.

(** [marshal.write_to_stream(obj, stream)] *)
Fixpoint write (m : marshal) (v : value) {struct m} : stM (list Z) unit :=
  match m with
  | MInt f =>                                             (* numeric.py:29-33 *)
      match v with
      | VInt z => match struct_pack_int h f z with
                  | Ok b => out_write b
                  | Err _ => sraise InstructError
                  end
      | _ => sraise InstructError       (* struct.error: required argument is not an integer *)
      end
  | MFloat f =>
      match v with
      | VFloat p => match struct_pack_float h f p with
                    | Ok b => out_write b
                    | Err e => sraise e                  (* OverflowError is not struct.error *)
                    end
      | VInt z => match double_of_int z with
                  | Ok p => match struct_pack_float h f p with
                            | Ok b => out_write b
                            | Err e => sraise e
                            end
                  | Err _ => sraise InstructError        (* struct.error: required argument is not a float *)
                  end
      | _ => sraise InstructError
      end
  | MConst _ | MCall _ | MPtr _ => sret tt                (* base.py:162-163, 176-177 *)
  | MVarStr sz padding d =>                               (* string.py:50-53 *)
      stripped <- slift (_strip v d padding) ;;
      n <- slift (py_len stripped) ;;
      do write sz (VInt n) ;;
      out_write_value stripped
  | MPadStr size padding d =>                             (* string.py:70-74 *)
      stripped <- slift (_strip v d padding) ;;
      do out_write_value stripped ;;
      n <- slift (py_len stripped) ;;
      if n <? size then
        match padding with
        | VBytes (p :: _) => out_write (repeat p (Z.to_nat (size - n)))   (* _compat.py:34-36 *)
        | VBytes [] | VStr [] => sraise IndexError
        | VStr _ => sraise AssertionError
        | _ => sraise TypeError
        end
      else sret tt
  | MBytePad size ch => out_write (repeat ch (Z.to_nat size))   (* padding.py:10-11 *)
  | MVarArr sz el =>                                      (* array.py:31-34 *)
      n <- slift (py_len v) ;;
      do write sz (VInt n) ;;
      l <- slift (py_iter v) ;;
      sforeach l (write el)
  | MFixArr _ el =>                                       (* array.py:31-34 with ConstReader *)
      n <- slift (py_len v) ;;
      l <- slift (py_iter v) ;;
      sforeach l (write el)
  | MSumArr sz el =>                                      (* array.py:67-71 *)
      l <- slift (py_iter v) ;;
      sizes <- slift (rmap_list (sizeof el) l) ;;
      do write sz (VInt (fold_left Z.add sizes 0)) ;;
      sforeach l (write el)
  | MMap tbl m' =>                                        (* mapping.py:19-21 *)
      w <- slift (dict_get tbl v) ;;
      write m' w
  | MStruct cls _ fs =>                                   (* struct/__init__.py:171-174 *)
      match v with
      | VObj cls' a =>
          if String.eqb cls' cls then
            (fix go (fs : list field) : stM (list Z) unit :=
               match fs with
               | [] => sret tt
               | f :: r => do write_field f a ;; go r
               end) fs
          else sraise NotModelled  (* not modelled: an instance of another class *)
      | _ => sraise AttributeError
      end
  | MSel _ mapping default =>                             (* struct/selector.py:24-25 *)
      match v with
      | VObj cls' _ =>
          (* [type(obj).write_to_stream]: the class of the object, looked up among the structs *)
          (fix pick (l : list (value * marshal)) : stM (list Z) unit :=
             match l with
             | [] => match default with
                     | Some d => write d v
                     | None => sraise NotModelled (* not modelled: foreign class *)
                     end
             | (_, MStruct n _ _ as m') :: r => if String.eqb n cls' then write m' v else pick r
             | _ :: r => pick r
             end) mapping
      | _ => sraise AttributeError
      end
  | MFunSel choices _ _ =>                                (* struct/selector.py:62-63 *)
      match v with
      | VObj cls' _ =>
          (fix pick (l : list marshal) : stM (list Z) unit :=
             match l with
             | [] => sraise NotModelled (* not modelled: foreign class *)
             | (MStruct n _ _ as m') :: r => if String.eqb n cls' then write m' v else pick r
             | _ :: r => pick r
             end) choices
      | _ => sraise AttributeError
      end
  end
(** [field.write_fields(obj, stream)] *)
with write_field (f : field) (a : attrs) {struct f} : stM (list Z) unit :=
  match f with
  | FField n m d => write m (field_value n d a)           (* struct/__init__.py:29-30 *)
  | FAnon m => write m VNone
  | FConst _ m k => write m k                             (* struct/const.py:28-29 *)
  | FOpt n m _ d =>                                       (* struct/optional.py:9-12 *)
      match field_value n d a with
      | VNone => sret tt
      | v => write m v
      end
  | FGroup fs =>                                          (* struct/__init__.py:98-100 *)
      (fix go (fs : list field) : stM (list Z) unit :=
         match fs with
         | [] => sret tt
         | f' :: r => do write_field f' a ;; go r
         end) fs
  | FBits bs => write_bit_container (bits_size bs) a bs
  | FPosBits size bs => write_bit_container size a bs
  end.

(** mapping.py:4-13: construction of a mapping marshal.  [value_map] is given by its items. *)
Fixpoint injective_map (seen : list value) (tbl : list (value * value)) : res unit :=
  match tbl with
  | [] => Ok tt
  | (_, v) :: r =>
      if negb (hashable v) then Err TypeError
      else let* _ := passert (negb (existsb (fun w => py_eq w v) seen)) in
           injective_map (v :: seen) r
  end.
Definition mk_map (tbl : list (value * value)) (m : marshal) : res marshal :=
  let* mm := min_max m in
  let* _ := passert (mm_is_fixed mm) in
  let* _ := injective_map [] tbl in
  Ok (MMap tbl m).

(** struct/__init__.py:199-207 and 191-197: the string entry points. *)
Definition create_from_string (m : marshal) (data : list Z) (c : ctx) : res value :=
  fst (read m c (stream_of data)).
Definition write_to_string (m : marshal) (v : value) : res (list Z) :=
  match write m v [] with
  | (Ok _, out) => Ok out
  | (Err e, _) => Err e
  end.

End WithHost.
