(** XmlText.v - the Go standard library functions that /repo/rbxlx relies on to
    turn values into text and back: strconv (integers), encoding/hex,
    encoding/base64, and the two line-breaking writers of rbxlx/codec.go.
    Floating point formatting is a parameter (see [floats]). *)
From Coq Require Import Decimal DecimalN.
From Verif Require Import Base RbxlValues RbxValues.

(** ** strconv *)
Fixpoint uint_bytes (u : Decimal.uint) : bytes :=
  match u with
  | Nil => []
  | D0 u => x30 :: uint_bytes u | D1 u => x31 :: uint_bytes u | D2 u => x32 :: uint_bytes u
  | D3 u => x33 :: uint_bytes u | D4 u => x34 :: uint_bytes u | D5 u => x35 :: uint_bytes u
  | D6 u => x36 :: uint_bytes u | D7 u => x37 :: uint_bytes u | D8 u => x38 :: uint_bytes u
  | D9 u => x39 :: uint_bytes u
  end.
(** strconv.FormatUint(n, 10), strconv.FormatInt(z, 10) *)
Definition FormatUint (n : N) : bytes := uint_bytes (N.to_uint n).
Definition FormatInt (z : Z) : bytes :=
  if (z <? 0)%Z then x2d :: FormatUint (Z.to_N (- z)) else FormatUint (Z.to_N z).

(** The value of a digit in bases up to 16. *)
Definition digit (b : byte) : option N :=
  let n := b2N b in
  if ((0x30 <=? n) && (n <=? 0x39))%N then Some (n - 0x30)%N
  else if ((0x61 <=? n) && (n <=? 0x66))%N then Some (n - 0x61 + 10)%N
  else if ((0x41 <=? n) && (n <=? 0x46))%N then Some (n - 0x41 + 10)%N
  else None.
Inductive parsed (A : Type) := PVal (a : A) | PRange (a : A) | PSyntax.
Arguments PVal {A} a.  Arguments PRange {A} a.  Arguments PSyntax {A}.
(** The digit loop of strconv.ParseUint: overflow is reported as soon as it is
    seen, before the remaining characters are looked at. *)
Fixpoint uint_loop (base : N) (max : N) (n : N) (s : bytes) : parsed N :=
  match s with
  | [] => PVal n
  | c :: s =>
      match digit c with
      | None => PSyntax
      | Some d =>
          if (base <=? d)%N then PSyntax
          else if (max <? n * base + d)%N then PRange max
          else uint_loop base max (n * base + d) s
      end
  end.
(** strconv.ParseUint(s, base, bits) *)
Definition ParseUint (base bits : N) (s : bytes) : parsed N :=
  match s with [] => PSyntax | s => uint_loop base (2 ^ bits - 1) 0 s end.
(** strconv.ParseInt(s, 10, bits) *)
Definition ParseInt (bits : N) (s : bytes) : parsed Z :=
  match s with
  | [] => PSyntax
  | c :: r =>
      let neg := Byte.eqb c x2d in
      let u := ParseUint 10 bits (if Byte.eqb c x2b || neg then r else s) in
      let cutoff := (2 ^ (bits - 1))%N in
      match u with
      | PSyntax => PSyntax
      | PVal n | PRange n =>
          if negb neg && (cutoff <=? n)%N then PRange (Z.of_N cutoff - 1)%Z
          else if neg && (cutoff <? n)%N then PRange (- Z.of_N cutoff)%Z
          else PVal (if neg then (- Z.of_N n)%Z else Z.of_N n)
      end
  end.

(** ** encoding/hex *)
Definition hex_byte (b : byte) : bytes :=
  [hex_at lower_hex (N.shiftr (b2N b) 4); hex_at lower_hex (N.land (b2N b) 0x0f)].
Definition hex_encode (s : bytes) : bytes := flat_map hex_byte s.
(** hex.DecodeString; [None] is any error. *)
Fixpoint hex_decode (s : bytes) : option bytes :=
  match s with
  | [] => Some []
  | [_] => None
  | a :: b :: s =>
      match digit a, digit b, hex_decode s with
      | Some x, Some y, Some r => Some (N2b (x * 16 + y) :: r)
      | _, _, _ => None
      end
  end.

(** ** encoding/base64, StdEncoding *)
Definition b64_table : bytes := str "ABCDEFGHIJKLMNOPQRSTUVWXYZabcdefghijklmnopqrstuvwxyz0123456789+/".
Definition b64_char (n : N) : byte := nth (N.to_nat (n mod 64)) b64_table x00.
Definition b64_val (c : byte) : option N :=
  let n := b2N c in
  if ((0x41 <=? n) && (n <=? 0x5a))%N then Some (n - 0x41)%N
  else if ((0x61 <=? n) && (n <=? 0x7a))%N then Some (n - 0x61 + 26)%N
  else if ((0x30 <=? n) && (n <=? 0x39))%N then Some (n - 0x30 + 52)%N
  else if (n =? 0x2b)%N then Some 62%N else if (n =? 0x2f)%N then Some 63%N else None.
(** Encoding.Encode *)
Fixpoint b64_encode (s : bytes) : bytes :=
  match s with
  | [] => []
  | [a] => let n := (b2N a * 16)%N in [b64_char (n / 64); b64_char n; x3d; x3d]
  | [a; b] =>
      let n := ((b2N a * 256 + b2N b) * 4)%N in
      [b64_char (n / 4096); b64_char (n / 64); b64_char n; x3d]
  | a :: b :: c :: s =>
      let n := ((b2N a * 256 + b2N b) * 256 + b2N c)%N in
      b64_char (n / 262144) :: b64_char (n / 4096) :: b64_char (n / 64) :: b64_char n :: b64_encode s
  end.
(** Encoding.Decode on text without line ends: groups of four, padding only in
    the last group, unused bits ignored; [None] is any error. *)
Fixpoint b64_groups (s : bytes) : option bytes :=
  match s with
  | [] => Some []
  | a :: b :: c :: d :: s =>
      match b64_val a, b64_val b with
      | Some x, Some y =>
          if Byte.eqb c x3d then
            if Byte.eqb d x3d then
              match s with [] => Some [N2b ((x * 64 + y) / 16)] | _ => None end
            else None
          else
            match b64_val c with
            | None => None
            | Some z =>
                let n := ((x * 64 + y) * 64 + z)%N in
                if Byte.eqb d x3d then
                  match s with [] => Some [N2b (n / 1024); N2b (n / 4)] | _ => None end
                else
                  match b64_val d, b64_groups s with
                  | Some w, Some r =>
                      let n := (n * 64 + w)%N in
                      Some (N2b (n / 65536) :: N2b (n / 256) :: N2b n :: r)
                  | _, _ => None
                  end
            end
      | _, _ => None
      end
  | _ => None
  end.
(** io.ReadAll(base64.NewDecoder(base64.StdEncoding, strings.NewReader(s))):
    line ends are dropped first.  Simplified: the real decoder works on chunks
    of its buffer and can accept padding that ends a chunk in the middle of the
    text; here padding in the middle is always an error. *)
Definition is_eol (b : byte) : bool := Byte.eqb b x0a || Byte.eqb b x0d.
Definition b64_decode (s : bytes) : option bytes := b64_groups (filter (fun b => negb (is_eol b)) s).

(** base64.NewEncoder followed by one Write of all of [s] and Close: the
    successive Writes to the underlying writer.  Whole groups go out in pieces
    of at most 768 bytes of input, the rest on Close. *)
Fixpoint b64_writes (fuel : nat) (s : bytes) : list bytes :=
  match fuel with
  | O => []
  | S fuel =>
      let nn := Nat.min 768 (length s / 3 * 3) in
      if (nn =? 0)%nat then match s with [] => [] | s => [b64_encode s] end
      else b64_encode (firstn nn s) :: b64_writes fuel (skipn nn s)
  end.

(** rbxlx/codec.go:1675-1707 lineSplit.Write to a bytes.Buffer; the state is
    the room [n] left on the line.  The loop runs once more than there are
    lines; its fuel is never used up. *)
Fixpoint lineSplit_loop (fuel : nat) (s : nat) (n : nat) (p : bytes) : outcome Empty_set (bytes * nat) :=
  match fuel with
  | O => Hang
  | S fuel =>
      let q := if (length p <? n)%nat then p else firstn n p in
      let n := n - length q in
      let p := skipn (length q) p in
      match p with
      | [] => OK (q, n)                                    (* :1697 *)
      | _ =>
          if (n =? 0)%nat then
            ' (r, n) <- lineSplit_loop fuel s s p ;; OK (q ++ x0a :: r, n)
          else ' (r, n) <- lineSplit_loop fuel s n p ;; OK (q ++ r, n)
      end
  end.
Fixpoint lineSplit_writes (s n : nat) (ps : list bytes) : outcome Empty_set bytes :=
  match ps with
  | [] => OK []
  | p :: ps =>
      ' (q, n) <- lineSplit_loop (S (S (length p))) s n p ;;
      r <- lineSplit_writes s n ps ;; OK (q ++ r)
  end.
(** codec.go:1267-1276 and 1609-1626: base64 in lines of 72 characters *)
Definition b64_lines (s : bytes) : outcome Empty_set bytes :=
  lineSplit_writes 72 72 (b64_writes (S (length s)) s).

(** codec.go:1117-1149 wrapWriter.Write; the state is the column [c]. *)
Fixpoint wrap_loop (fuel : nat) (l c : nat) (p : bytes) : outcome Empty_set (bytes * nat) :=
  match fuel with
  | O => Hang
  | S fuel =>
      if (l <=? c + length p)%nat then
        let i := l - c in
        ' (r, c') <- wrap_loop fuel l 0 (skipn i p) ;; OK (firstn i p ++ x0a :: r, c')
      else OK (p, c + length p)
  end.
Fixpoint wrap_writes (l c : nat) (ps : list bytes) : outcome Empty_set bytes :=
  match ps with
  | [] => OK []
  | p :: ps =>
      ' (q, c) <- wrap_loop (S (S (length p))) l c p ;;
      r <- wrap_writes l c ps ;; OK (q ++ r)
  end.
(** codec.go:1188-1191 *)
Definition b64_wrapped (s : bytes) : outcome Empty_set bytes :=
  wrap_writes 72 0 (b64_writes (S (length s)) s).

(** ** Floating point text.  [fl_fmt32 prec f] is
    strconv.FormatFloat(float64(f), 'g', prec, 32), [fl_fmt64] the same for
    float64, [fl_parse32]/[fl_parse64] are strconv.ParseFloat with any error
    (syntax or range) as [None]; floats are bit patterns. *)
Record floats := Floats {
  fl_fmt32 : N -> N -> bytes; fl_fmt64 : N -> N -> bytes;
  fl_parse32 : bytes -> option N; fl_parse64 : bytes -> option N }.
(** strings.Index(s, "e") *)
Fixpoint index_e (s : bytes) : option nat :=
  match s with [] => None | c :: s => if Byte.eqb c x65 then Some 0 else option_map S (index_e s) end.
(** codec.go:1717-1726 fixFloatExp.  s[e+2:] panics if "e" ends the text. *)
Definition fixFloatExp (s : bytes) (n : nat) : outcome Empty_set bytes :=
  match index_e s with
  | None => OK s
  | Some e =>
      if (length s <? e + 2)%nat then Panic
      else
        let exp := skipn (e + 2) s in
        if (length exp <? n)%nat then OK (firstn (e + 2) s ++ repeat x30 (n - length exp) ++ exp) else OK s
  end.
(** codec.go:1709-1715, 1728-1730 *)
Definition encodeFloatPrec (fl : floats) (prec : N) (f : N) : outcome Empty_set bytes := fixFloatExp (fl_fmt32 fl prec f) 3.
Definition encodeFloat (fl : floats) (f : N) : outcome Empty_set bytes := encodeFloatPrec fl 9 f.
Definition encodeDouble (fl : floats) (f : N) : bytes := fl_fmt64 fl 9 f.
