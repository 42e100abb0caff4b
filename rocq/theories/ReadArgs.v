(** Model of [create_from_stream] and [create_from_string] with extra arguments (base.py:113-135, struct/__init__.py:176-207).

    They reach the constructor of the struct, and of every struct that is read for it: each [create_from_stream] and
    [read_fields] hands them on, except where noted.  Numbers do not take any (numeric.py:20 declares only stream and
    context), so calling them with extra arguments is a TypeError.  Positional ones have no other effect, as Struct.__init__
    (lines 167-169) and [prepare_instance] do not look at them.  Simplifications as in Marshal.v: classes without user-written [__init__]
    (StructInit.v has those, but without extra arguments); no keyword argument is called [stream], [context], [self] or [cls]. *)
From Verif Require Import Base IntCodec BitStringIO Stream MinMax Marshal.
From Coq Require Import ZArith List Bool String.
Import ListNotations.
Open Scope Z_scope.

Section ReadArgs.
Variable h : host.
Variable args : list value.                               (* the extra positional arguments *)
Variable kw : attrs.                                      (* the extra keyword arguments *)

(** Is the call [f(stream, context, args..., kwargs...)] one with more than two arguments? *)
Definition extra : bool := match args, kw with [], [] => false | _, _ => true end.

(** [marshal.create_from_stream(stream, context, ...)] *)
Fixpoint read_kw (m : marshal) (c : ctx) {struct m} : stM stream value :=
  match m with
  | MInt f => if extra then sraise TypeError else read h (MInt f) c         (* numeric.py:20 *)
  | MFloat f => if extra then sraise TypeError else read h (MFloat f) c
  | MConst v => sret v                                    (* base.py:159-160 *)
  | MCall func => run_rprog (func c)                      (* base.py:173-174 *)
  | MPtr n => slift (py_getattr (ctx_get c "struct"%string) n)   (* struct/pointer.py:8-10 *)
  | MVarStr sz padding d =>                               (* string.py:43-48: the length is read without them *)
      len <- read h sz c ;;
      n <- slift (as_int len) ;;
      obj <- sread n ;;
      if zlen obj <? n then sraise InstructError
      else slift (_strip (VBytes obj) d padding)
  | MPadStr size padding d =>                             (* string.py:65-68, 43-48 *)
      obj <- sread size ;;
      if zlen obj <? size then sraise InstructError
      else slift (_strip (VBytes obj) d padding)
  | MBytePad size _ => do sread size ;; sret VNone        (* padding.py:13-14 *)
  | MVarArr sz el =>                                      (* array.py:24-29: here the count gets them too *)
      len <- read_kw sz c ;;
      n <- slift (as_int len) ;;
      l <- stM_loop (Z.to_nat n) (read_kw el c) ;;
      sret (VList l)
  | MFixArr n el =>                                       (* array.py:39-42 *)
      l <- stM_loop (Z.to_nat n) (read_kw el c) ;;
      sret (VList l)
  | MSumArr sz el =>                                      (* array.py:54-65: the size is read without them *)
      len <- read h sz c ;;
      total <- slift (as_int len) ;;
      l <- sum_loop (Z.to_nat total) (read_kw el c) total ;;
      sret (VList l)
  | MMap tbl m' =>                                        (* mapping.py:15-17 *)
      v <- read_kw m' c ;;
      slift (map_reverse tbl v)
  | MStruct cls cctx fs =>                                (* struct/__init__.py:176-181 *)
      fun s =>
        match (fix go (fs : list field) : stM rstate unit :=
                 match fs with
                 | [] => sret tt
                 | f :: r => do read_field_kw cls cctx f c ;; go r
                 end) fs (s, new_attrs fs kw) with
        | (Ok _, (s', a)) => (Ok (VObj cls a), s')
        | (Err e, (s', _)) => (Err e, s')
        end
  | MSel key mapping default =>                           (* struct/selector.py:27-45 *)
      with_read_ahead
        (do set_read_ahead true ;;
         k <- read h key c ;;                             (* line 31: without them *)
         do set_read_ahead false ;;
         do slift (if hashable k then Ok tt else Err TypeError) ;;    (* line 33 *)
         if sel_has_key mapping k then                                (* lines 33-34, 41-45 *)
           result <- (fix pick (l : list (value * marshal)) : stM stream value :=
                        match l with
                        | [] => sraise KeyError
                        | (k', m') :: r => if py_eq k' k then read_kw m' c else pick r
                        end) mapping ;;
           empty <- is_read_ahead_empty ;;
           if negb empty then sraise InstructError else sret result
         else
         match default with                                           (* lines 36-45 *)
         | None => sraise InstructError
         | Some d =>
             result <- read_kw d c ;;
             empty <- is_read_ahead_empty ;;
             if negb empty then sraise InstructError else sret result
         end)
  | MFunSel choices func _ =>                             (* struct/selector.py:65-78 *)
      with_read_ahead
        (do set_read_ahead true ;;
         k <- run_rprog (func c) ;;
         do set_read_ahead false ;;
         result <- (fix pick (l : list marshal) (k : nat) : stM stream value :=
                      match l, k with
                      | [], _ => sraise AttributeError
                      | m' :: _, O => read_kw m' c
                      | _ :: r, S k' => pick r k'
                      end) choices k ;;
         empty <- is_read_ahead_empty ;;
         (* line 77: [result.to_repr(context)] fails with AttributeError *)
         if negb empty then sraise AttributeError else sret result)
  end
(** [field.read_fields(obj, stream, context, ...)]; [c] as for [read_field] *)
with read_field_kw (cls : name) (cctx : option ctx) (f : field) (c : ctx) {struct f} : stM rstate unit :=
  fun st =>
  let c' := get_updated_context cctx (VObj cls (snd st)) c in
  match f with
  | FField n m _ =>                                       (* struct/__init__.py:32-33, 75-76 *)
      (v <- on_stream (read_kw m c') ;; upd_attrs (fun a => set_attr a n v)) st
  | FAnon m =>                                            (* struct/__init__.py:32-33, 44-45 *)
      (do on_stream (read_kw m c') ;; sret tt) st
  | FConst n m k =>                                       (* struct/const.py:18-23 *)
      (v <- on_stream (read_kw m c') ;; if py_eq v k then sret tt else sraise InstructError) st
  | FOpt n m pred _ =>                                    (* struct/optional.py:14-16 *)
      (b <- on_stream (run_rprog (pred (VObj cls (snd st)) c')) ;;
       if (b : bool) then v <- on_stream (read_kw m c') ;; upd_attrs (fun a => set_attr a n v)
       else sret tt) st
  | FGroup fs =>                                          (* struct/__init__.py:94-96 *)
      (fix go (fs : list field) : stM rstate unit :=
         match fs with
         | [] => sret tt
         | f' :: r => do read_field_kw cls cctx f' c ;; go r
         end) fs st
  | FBits bs => read_bit_container (bits_size bs) bs st   (* struct/bit.py:46-49 *)
  | FPosBits size bs => read_bit_container size bs st     (* struct/bit.py:105-108 *)
  end.


(** [marshal.create_from_string(string, context, ...)], base.py:124-135, struct/__init__.py:199-207: only bytes are
    accepted (struct classes also take array.array, which is no value here).
    What is left of the string is not looked at. *)
Definition create_from_string (m : marshal) (string : value) (c : ctx) : res value :=
  match string with
  | VBytes b => fst (read_kw m c (stream_of b))
  | _ => Err TypeError
  end.
End ReadArgs.
