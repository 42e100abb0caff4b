(** Specification vocabulary for reading the same data from different streams. *)
From Verif Require Import Base IntCodec Stream StreamSpec MinMax Marshal BitFieldSpec.
From Coq Require Import ZArith List Bool String.
Import ListNotations.
Open Scope Z_scope.

(** A program that can only raise. *)
Definition prog_fails {A} (p : rprog A) : Prop := forall s a s', run_rprog p s <> (Ok a, s').

(** User functions that notice when a read returned fewer bytes than asked for. *)
Inductive prog_strict {A} : rprog A -> Prop :=
| ps_ret r : prog_strict (RRet r)
| ps_read n k : 0 <= n <= maxsize -> (forall b, zlen b < n -> prog_fails (k b)) ->
    (forall b, prog_strict (k b)) -> prog_strict (RRead n k).

(** User functions all right in one of the two ways. *)
Definition prog_okay {A} (strict : bool) (p : rprog A) : Prop :=
  if strict then prog_strict p else rprog_ok p.

(** A size reader that never yields a negative number. *)
Definition never_negative (h : host) (m : marshal) : Prop :=
  forall c s z s', stream_ok s -> bytes_ok (rest s) -> read h m c s = (Ok (VInt z), s') -> 0 <= z.

(** A field that uses some bit after bit [k] of its container. *)
Fixpoint bm_reaches (m : bitmarshal) (k : Z) : Prop :=
  match m with
  | BMBits _ | BMPad _ => False
  | BMMap _ m' => bm_reaches m' k
  | BMPos sl => Exists (fun s => k < snd s) sl
  end.

(** Can the reads of the marshal be repeated on another stream that holds the same bytes?
    [strict]: also when more bytes follow - then nothing may be read that is allowed to be short.
    [no_tell]: also when the other stream does not support [tell] - then byte-count arrays are out.
*)
Fixpoint portable (h : host) (strict no_tell : bool) (m : marshal) {struct m} : Prop :=
  match m with
  | MInt _ | MFloat _ | MConst _ | MPtr _ => True
  | MCall func => forall c, prog_okay strict (func c)
  | MVarStr sz _ _ =>
      portable h strict no_tell sz /\ (strict || no_tell = true -> never_negative h sz)
  | MPadStr size _ _ => 0 <= size
  | MBytePad size _ => 0 <= size <= maxsize /\ (strict = true -> size = 0)
  | MVarArr sz el => portable h strict no_tell sz /\ portable h strict no_tell el
  | MFixArr _ el => portable h strict no_tell el
  | MSumArr sz el =>
      no_tell = false /\ portable h strict no_tell sz /\ portable h strict no_tell el
  | MMap _ m' => portable h strict no_tell m'
  | MStruct _ _ fs =>
      (fix go (fs : list field) : Prop :=
         match fs with [] => True | f :: r => portable_field h strict no_tell f /\ go r end) fs
  | MSel key _ default =>
      portable h strict false key
      /\ match default with None => True | Some d => portable h strict false d end
  | MFunSel choices func _ =>
      (forall c, prog_okay strict (func c))
      /\ (fix go (l : list marshal) : Prop :=
            match l with [] => True | m' :: r => portable h strict false m' /\ go r end) choices
  end
with portable_field (h : host) (strict no_tell : bool) (f : field) {struct f} : Prop :=
  match f with
  | FField _ m _ | FAnon m | FConst _ m _ => portable h strict no_tell m
  | FOpt _ m pred _ =>
      (forall obj c, prog_okay strict (pred obj c)) /\ portable h strict no_tell m
  | FGroup fs =>
      (fix go (fs : list field) : Prop :=
         match fs with [] => True | f :: r => portable_field h strict no_tell f /\ go r end) fs
  | FBits bs =>
      (* the fields are consecutive and fill their bytes *)
      0 <= bits_size bs <= maxsize
      /\ (strict = true -> Forall (fun f => bm_sequential (bf_marshal f) = true
                                            /\ 0 <= bm_size (bf_marshal f)) bs
                           /\ total_bits bs = 8 * bits_size bs)
  | FPosBits size bs =>
      (* some field reaches into the last byte *)
      0 <= size <= maxsize
      /\ (strict = true -> size = 0 \/ Exists (fun f => bm_reaches (bf_marshal f) (8 * (size - 1))) bs)
  end.
