(** buffer/serialize.py:178-219 with any of five encodings, and with values that are no strings.
    [Serialize.pack_str] and [Serialize.unpack_str] are the case of ASCII and strings. *)
From Verif Require Import Base Marshal Range IoBuffer Serialize BufferModel BufferMacros.
From Coq Require Import ZArith List Bool.
Import ListNotations.
Open Scope Z_scope.

(** The encoding argument (macros.py:187, serialize.py:179).  Other names of encodings are not modelled. *)
Inductive codec : Type := Ascii | Latin1 | Utf8 | Utf16LE | Utf16BE.

(** ** str.encode of Python 3, errors='strict' (serialize.py:190).  UnicodeEncodeError and
    UnicodeDecodeError are not told apart. *)
Definition scalarb (c : Z) : bool := (0 <=? c) && (c <? 1114112) && negb ((55296 <=? c) && (c <? 57344)).
Definition utf8_char (c : Z) : list Z :=
  if c <? 128 then [c]
  else if c <? 2048 then [192 + c / 64; 128 + c mod 64]
  else if c <? 65536 then [224 + c / 4096; 128 + c / 64 mod 64; 128 + c mod 64]
  else [240 + c / 262144; 128 + c / 4096 mod 64; 128 + c / 64 mod 64; 128 + c mod 64].
Definition unit_bytes (big : bool) (u : Z) : list Z := if big then [u / 256; u mod 256] else [u mod 256; u / 256].
Definition utf16_char (big : bool) (c : Z) : list Z :=
  if c <? 65536 then unit_bytes big c
  else unit_bytes big (55296 + (c - 65536) / 1024) ++ unit_bytes big (56320 + (c - 65536) mod 1024).
Definition encode_char (e : codec) (c : Z) : res (list Z) :=
  match e with
  | Ascii => if (0 <=? c) && (c <? 128) then Ok [c] else Err UnicodeError
  | Latin1 => if (0 <=? c) && (c <? 256) then Ok [c] else Err UnicodeError
  | Utf8 => if scalarb c then Ok (utf8_char c) else Err UnicodeError
  | Utf16LE => if scalarb c then Ok (utf16_char false c) else Err UnicodeError
  | Utf16BE => if scalarb c then Ok (utf16_char true c) else Err UnicodeError
  end.
Fixpoint encode (e : codec) (s : list Z) : res (list Z) :=
  match s with
  | [] => Ok []
  | c :: r => let* x := encode_char e c in let* y := encode e r in Ok (x ++ y)
  end.

(** ** bytes.decode of Python 3, errors='strict' (serialize.py:218) *)
Definition put (c : Z) (r : res (list Z)) : res (list Z) := let* s := r in Ok (c :: s).
Definition tail_byte (b : Z) : bool := (128 <=? b) && (b <? 192).
Fixpoint utf8_decode (l : list Z) : res (list Z) :=
  match l with
  | [] => Ok []
  | a :: r =>
      if a <? 128 then put a (utf8_decode r)
      else if a <? 194 then Err UnicodeError
      else match r with
      | [] => Err UnicodeError
      | b :: r =>
          if negb (tail_byte b) then Err UnicodeError
          else if a <? 224 then put ((a - 192) * 64 + (b - 128)) (utf8_decode r)
          else match r with
          | [] => Err UnicodeError
          | c :: r =>
              if negb (tail_byte c) then Err UnicodeError
              else if a <? 240 then
                if ((a =? 224) && (b <? 160)) || ((a =? 237) && (160 <=? b)) then Err UnicodeError
                else put ((a - 224) * 4096 + (b - 128) * 64 + (c - 128)) (utf8_decode r)
              else match r with
              | [] => Err UnicodeError
              | d :: r =>
                  if negb (tail_byte d) || (245 <=? a) || ((a =? 240) && (b <? 144)) || ((a =? 244) && (144 <=? b)) then Err UnicodeError
                  else put ((a - 240) * 262144 + (b - 128) * 4096 + (c - 128) * 64 + (d - 128)) (utf8_decode r)
              end
          end
      end
  end.
Definition unit_of (big : bool) (a b : Z) : Z := if big then 256 * a + b else 256 * b + a.
Fixpoint utf16_decode (big : bool) (l : list Z) : res (list Z) :=
  match l with
  | [] => Ok []
  | [_] => Err UnicodeError
  | a :: b :: r =>
      let u := unit_of big a b in
      if (u <? 55296) || (57344 <=? u) then put u (utf16_decode big r)
      else if 56320 <=? u then Err UnicodeError
      else match r with
           | x :: y :: r =>
               let w := unit_of big x y in
               if (56320 <=? w) && (w <? 57344) then put (65536 + (u - 55296) * 1024 + (w - 56320)) (utf16_decode big r)
               else Err UnicodeError
           | _ => Err UnicodeError
           end
  end.
Definition decode (e : codec) (l : list Z) : res (list Z) :=
  match e with
  | Ascii => ascii_decode l
  | Latin1 => Ok l
  | Utf8 => utf8_decode l
  | Utf16LE => utf16_decode false l
  | Utf16BE => utf16_decode true l
  end.

(** ** str(value) of Python 3 (serialize.py:190): strings, None, ints and bytes objects (not bytearrays);
    others are not modelled. *)
Fixpoint digits (fuel : nat) (n : Z) (acc : list Z) : list Z :=
  match fuel with
  | O => acc
  | S k => if n <? 10 then (48 + n) :: acc else digits k (n / 10) ((48 + n mod 10) :: acc)
  end.
Definition decimal (n : Z) : list Z :=
  let d := digits (S (Z.to_nat (Z.log2 (Z.abs n)))) (Z.abs n) [] in
  if n <? 0 then 45 :: d else d.
Definition hex_digit (n : Z) : Z := if n <? 10 then 48 + n else 87 + n.
Definition repr_byte (quote b : Z) : list Z :=
  if (b =? quote) || (b =? 92) then [92; b]
  else if b =? 9 then [92; 116]
  else if b =? 10 then [92; 110]
  else if b =? 13 then [92; 114]
  else if (b <? 32) || (127 <=? b) then [92; 120; hex_digit (b / 16); hex_digit (b mod 16)]
  else [b].
Definition repr_bytes (l : list Z) : list Z :=
  let quote := if existsb (Z.eqb 39) l && negb (existsb (Z.eqb 34) l) then 34 else 39 in
  [98; quote] ++ flat_map (repr_byte quote) l ++ [quote].
Definition py_str (v : value) : res (list Z) :=
  match v with
  | VStr s => Ok s
  | VNone => Ok [78; 111; 110; 101]
  | VInt n => Ok (decimal n)
  | VBytes l => Ok (repr_bytes l)
  | _ => Err NotModelled
  end.

(** serialize.py:185-198 *)
Definition pack_text (e : codec) (padding : strarg) (j : justify) (byte_size : option Z) (v : value) : res buf :=
  let* _ := passert (strarg_len padding =? 1) in
  let* byte_size := int_size byte_size in
  let* s := py_str v in
  let* l := encode e s in
  match byte_size with
  | None => Ok (BArr l)
  | Some n => let* r := py_justify j l (n / 8) padding in Ok (BArr r)
  end.

(** serialize.py:201-219 *)
Definition unpack_text (e : codec) (padding strip : strarg) (j : justify) (byte_size : option Z) (b : buf) : res (value * option Z) :=
  let* _ := passert (strarg_len padding =? 1) in
  let* byte_size := int_size byte_size in
  let* _ := match byte_size with
            | Some n => if negb (n =? 0) && (blen b <? n / 8) then Err ValueError else Ok tt
            | None => Ok tt
            end in
  let* p := buf_slice b (Some 0) byte_size in
  let* l := to_bytes p in
  let* l := match byte_size with
            | None => Ok l
            | Some _ => let* l := py_strip j l strip in py_strip j l padding
            end in
  let* s := decode e l in
  Ok (VStr s, Some (8 * blen b)).

(** macros.py:187-210 with an encoding *)
Definition text_field (e : codec) (padding strip : strarg) (j : justify) (k : keywords) : field :=
  build k None [] [] (fun _ v n => pack_text e padding j n v) (fun _ _ b n => unpack_text e padding strip j n b).
