(** Model of what a failing pack() or unpack() tells its caller: InstructBufferError.__init__ (buffer.py:15-37),
    the exception handlers of Buffer.pack and Buffer.unpack (buffer.py:107-113, 134-144), and
    Context.format_exception_call_stack (reference.py:53-54).

    [safe r] is [repr(r)] of a reference (reference.py:109-113 and safe_repr never raise) and [show v] is [repr(v)] of a
    value, which may raise: the values are the user's.  The class in the error ([clazz]) is always [type(self)] and
    left out; so is the fixed text around the lines.  There are lines only for what is a reference of its own in
    BufferModel.v (constants, for example, are not; the code drops their lines, because both texts are the same). *)
From Verif Require Import Base Marshal Range RangeRef IoBuffer RefEngine BufferModel.
From Coq Require Import ZArith List Bool String.
Import ListNotations.
Open Scope string_scope.
Open Scope list_scope.

(** The error as its caller sees it: [attr_name], the exception it was chained to, the lines of "Resolved References"
    and those of "Instruct internal call stack". *)
Record report : Type := mkReport {
  p_attr : name;
  p_cause : exn;
  p_resolved : list string;
  p_stack : list string }.
Inductive raised : Type :=
| Reported (p : report)
| Bare (e : exn).

(** [sorted(l)] *)
Fixpoint insert_line (x : string) (l : list string) : list string :=
  match l with
  | [] => [x]
  | y :: r => if String.ltb y x then y :: insert_line x r else x :: l
  end.
Definition sort_lines (l : list string) : list string := fold_right insert_line [] l.
(** [(s for s, _ in itertools.groupby(l))] *)
Fixpoint group_lines (l : list string) : list string :=
  match l with
  | [] => []
  | x :: r => match group_lines r with
              | y :: t => if String.eqb x y then y :: t else x :: y :: t
              | [] => [x]
              end
  end.

Section Report.
Variable safe : rid -> string.
Variable show : rv -> res string.

(** buffer.py:28-31 *)
Definition resolved_lines (cache : list (rid * rv)) : res (list string) :=
  let* pairs := Marshal.rmap_list (fun p => let* t := show (snd p) in Ok (safe (fst p), t)) (rev cache) in
  Ok (group_lines (sort_lines (map (fun p => ("    " ++ fst p ++ "=" ++ snd p)%string)
                                   (filter (fun p => negb (String.eqb (fst p) (snd p))) pairs)))).
(** buffer.py:24-25, reference.py:53-54 *)
Definition stack_lines (c : ctx rid rv) : list string :=
  map (fun r => ("    " ++ safe r)%string) (match c_exc c with Some l => rev l | None => [] end).

(** buffer.py:112-113, 143-144: the exception that leaves the handler. *)
Definition report_error (attr : name) (cause : exn) (c : ctx rid rv) : raised :=
  match cause with
  | Diverges | NotModelled => Bare cause
  | _ =>
      match resolved_lines (c_cache c) with
      | Ok l => Reported (mkReport attr cause l (stack_lines c))
      | Err e => Bare e
      end
  end.

Variable C : cls.

(** buffer.py:111 *)
Definition pack_body (i : nat) : stM world unit :=
  p <- dref C (mkRid KPack i) ;;
  q <- dref C (mkRid KPackPos i) ;;
  b <- slift (as_buf p) ;;
  l <- slift (as_ranges q) ;;
  out_set b l.
(** buffer.py:107-127: what pack() raises. *)
Fixpoint packing_raises (l : list (nat * field)) (w : world) : option raised :=
  match l with
  | [] => match rbind (buf_bytes (ba_view (w_out w))) (fix_size C) with Ok _ => None | Err e => Some (Bare e) end
  | (i, f) :: r =>
      match dref C (f_pack_if f) w with
      | (Err e, _) => Some (Bare e)
      | (Ok c, w1) =>
          if truthy c then
            match pack_body i w1 with
            | (Ok _, w2) => packing_raises r w2
            | (Err e, w2) => Some (report_error (f_name f) e (w_ctx w2))
            end
          else packing_raises r w1
      end
  end.
Definition pack_raises (o : attrs) : option raised := packing_raises (numbered C) (start_pack o).

(** buffer.py:136-142 *)
Definition unpack_body (i : nat) (f : field) : stM world unit :=
  c <- dref C (f_unpack_if f) ;;
  if truthy c then
    do sforeach (f_unpack_after f) (fun j => do dref C (mkRid KUnpackValue j) ;; sret tt) ;;
    do dref C (mkRid KUnpackValue i) ;; sret tt
  else w_setattr (f_name f) VNone.
(** buffer.py:134-146: what unpack() raises. *)
Fixpoint unpacking_raises (l : list (nat * field)) (w : world) : option raised :=
  match l with
  | [] => match dref C (mkRid KTotal 0) w with (Ok _, _) => None | (Err e, _) => Some (Bare e) end
  | (i, f) :: r =>
      match unpack_body i f w with
      | (Ok _, w1) => unpacking_raises r w1
      | (Err e, w1) => Some (report_error (f_name f) e (w_ctx w1))
      end
  end.
Definition unpack_raises (b : buf) (o : attrs) : option raised :=
  match input_buffer b with
  | Err e => Some (Bare e)
  | Ok input => unpacking_raises (numbered C) (mkW new_ctx (mkBst o (Some input)) (new_baa []))
  end.
End Report.
