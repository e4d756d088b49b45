(** XmlFloats.v - what the Go standard library's strconv does with floating
    point text, as far as /repo/rbxlx relies on it: FormatFloat(f, 'g', prec,
    bits) for codec.go:1709-1730, and ParseFloat of plain decimal text.

    The library is not part of the code; this is its documented behaviour
    (correct rounding, ties to even), written as exact rational arithmetic
    instead of its algorithms. *)
From Coq Require Import QArith Qround.
From Verif Require Import Base XmlText.
Local Notation string := String.string.

(** Rounding to an integer, ties to even. *)
Definition rhe (x : Q) : Z :=
  let q := Qfloor x in
  match Qcompare (x - inject_Z q) (1 # 2) with
  | Lt => q
  | Gt => (q + 1)%Z
  | Eq => if Z.even q then q else (q + 1)%Z
  end.
(** The largest e with b^e <= a, and with b^e <= x. *)
Fixpoint zlog (fuel : nat) (b a : Z) : Z :=
  match fuel with
  | O => 0%Z
  | S fuel => if (a <? b)%Z then 0%Z else (1 + zlog fuel b (a / b))%Z
  end.
Definition ilog (b a : Z) : Z := zlog (Z.to_nat (Z.log2 a + 1)) b a.
Definition flog (b : Z) (x : Q) : Z :=
  let n := Qnum x in let d := Zpos (Qden x) in
  if (d <=? n)%Z then ilog b (n / d) else (- (ilog b ((d + n - 1) / n - 1) + 1))%Z.
Definition pow (b e : Z) : Q := Qpower (inject_Z b) e.

(** IEEE 754 formats: bits of the fraction and of the exponent. *)
Record fformat := FF { ff_mb : Z; ff_eb : Z }.
Definition F32 := FF 23 8.
Definition F64 := FF 52 11.
Section Format.
Variable F : fformat.
(** The exponent of the smallest numbers, and the bits of infinity. *)
Definition emin : Z := (2 - 2 ^ (ff_eb F - 1) - ff_mb F)%Z.
Definition inf_bits : Z := ((2 ^ ff_eb F - 1) * 2 ^ ff_mb F)%Z.
Definition sign_bit : Z := (2 ^ (ff_eb F + ff_mb F))%Z.
(** A finite number without its sign is mantissa times a power of two. *)
Definition f_exp (a : Z) : Z := (Z.max (a / 2 ^ ff_mb F - 1) 0 + emin)%Z.
Definition f_mant (a : Z) : Z := (a - Z.max (a / 2 ^ ff_mb F - 1) 0 * 2 ^ ff_mb F)%Z.
Definition f_val (a : Z) : Q := inject_Z (f_mant a) * pow 2 (f_exp a).

(** The number nearest to x > 0; [None] if that is infinity. *)
Definition round_pos (x : Q) : option Z :=
  let e := Z.max (flog 2 x - ff_mb F) emin in
  let a := ((e - emin) * 2 ^ ff_mb F + rhe (x * pow 2 (- e)))%Z in
  if (a <? inf_bits)%Z then Some a else None.

(** prec significant digits of x > 0: an integer with prec digits, and the
    position of the decimal point. *)
Definition round_digits (prec : Z) (x : Q) : Z * Z :=
  let e := flog 10 x in
  let q := rhe (x * pow 10 (prec - 1 - e)) in
  if (q =? 10 ^ prec)%Z then ((10 ^ (prec - 1))%Z, (e + 2)%Z) else (q, (e + 1)%Z).
Definition digit_char (d : Z) : byte := N2b (0x30 + Z.to_N d).
(** n digits *)
Fixpoint digs (n : nat) (q : Z) : bytes :=
  match n with O => [] | S n => digs n (q / 10) ++ [digit_char (q mod 10)] end.
(** Trailing zeros are dropped. *)
Fixpoint strip (n : nat) (q : Z) : Z * nat :=
  match n with
  | O => (q, O)
  | S n' => if (q mod 10 =? 0)%Z then strip n' (q / 10) else (q, n)
  end.
(** strconv/ftoa.go %e: d.ddde±dd with the digits D and point position dp *)
Definition fmtE (D : bytes) (dp : Z) : bytes :=
  let e := (dp - 1)%Z in let a := Z.abs e in
  match D with [] => [x30] | c :: D' => c :: match D' with [] => [] | _ => x2e :: D' end end ++
  [x65; if (e <? 0)%Z then x2d else x2b] ++ digs (if (a <? 100)%Z then 2 else 3) a.
(** strconv/ftoa.go %f with as many digits as there are *)
Definition fmtF (D : bytes) (dp : Z) : bytes :=
  let nd := Z.of_nat (length D) in
  let p := Z.to_nat dp in
  (if (0 <? dp)%Z then firstn p D ++ repeat x30 (p - length D) else [x30]) ++
  (if (dp <? nd)%Z then x2e :: repeat x30 (Z.to_nat (- dp)) ++ skipn p D else []).
(** strconv.FormatFloat(f, 'g', prec, bits) of a bit pattern *)
Definition format_g (prec : N) (f : N) : bytes :=
  let a := (Z.of_N f mod sign_bit)%Z in
  let neg := (sign_bit <=? Z.of_N f)%Z in
  if (inf_bits <=? a)%Z then
    if (inf_bits =? a)%Z then (if neg then str "-Inf" else str "+Inf") else str "NaN"
  else
    let '(D, dp) := if (a =? 0)%Z then ([], 0%Z)
      else let '(q, dp) := round_digits (Z.of_N prec) (f_val a) in
           let '(q, nd) := strip (N.to_nat prec) q in (digs nd q, dp) in
    let nd := Z.of_nat (length D) in
    let eprec := if ((nd <? Z.of_N prec) && (dp <=? nd))%Z then nd else Z.of_N prec in
    (if neg then [x2d] else []) ++
    (if ((dp - 1 <? -4) || (eprec <=? dp - 1))%Z then fmtE D dp else fmtF D dp).
End Format.

(** Plain decimal text: sign, digits with a point, exponent of at most four
    digits.  The result is the sign, the digits and the exponent of ten. *)
Definition is_digit (b : byte) : bool := ((0x30 <=? b2N b) && (b2N b <=? 0x39))%N.
Fixpoint span_digits (s : bytes) : bytes * bytes :=
  match s with
  | [] => ([], [])
  | c :: r => if is_digit c then let '(d, r) := span_digits r in (c :: d, r) else ([], s)
  end.
Definition dval (ds : bytes) : Z := fold_left (fun n c => (10 * n + (Z.of_N (b2N c) - 0x30))%Z) ds 0%Z.
Definition dec_sign (s : bytes) : bool * bytes :=
  match s with
  | c :: r => if Byte.eqb c x2d then (true, r) else if Byte.eqb c x2b then (false, r) else (false, s)
  | [] => (false, [])
  end.
Definition dec_frac (s : bytes) : bytes * bytes :=
  match s with c :: r => if Byte.eqb c x2e then span_digits r else ([], s) | [] => ([], []) end.
Definition dec_exp (s : bytes) : option Z :=
  match s with
  | [] => Some 0%Z
  | c :: r =>
      if Byte.eqb c x65 || Byte.eqb c x45 then
        let '(neg, r) := dec_sign r in
        let '(ds, rest) := span_digits r in
        match rest with
        | [] => if ((1 <=? length ds) && (length ds <=? 4))%nat then Some (if neg then (- dval ds)%Z else dval ds) else None
        | _ => None
        end
      else None
  end.
Definition dec_parse (s : bytes) : option (bool * Z * Z) :=
  let '(neg, s) := dec_sign s in
  let '(ip, s) := span_digits s in
  let '(fp, s) := dec_frac s in
  match ip ++ fp with
  | [] => None
  | _ => match dec_exp s with Some e => Some (neg, dval (ip ++ fp), (e - Z.of_nat (length fp))%Z) | None => None end
  end.
(** strconv.ParseFloat of such text; [None] is a range error *)
Definition round_to (F : fformat) (v : bool * Z * Z) : option N :=
  let '(neg, d, e) := v in
  let s := if neg then sign_bit F else 0%Z in
  if (d =? 0)%Z then Some (Z.to_N s)
  else option_map (fun a => Z.to_N (a + s)) (round_pos F (inject_Z d * pow 10 e)).
(** ParseFloat gives this not-a-number (math.NaN, as a float32 for 32 bits). *)
Definition nan32 : N := 0x7FC00000.
Definition nan64 : N := 0x7FF8000000000001.

(** What strconv promises about the text the encoder writes and the text it
    reads back. *)
Record strconv_ok (fl : floats) : Prop := StrconvOk {
  sc_fmt32 : forall prec f, (prec <> 0 -> f < 2 ^ 32 -> fl_fmt32 fl prec f = format_g F32 prec f)%N;
  sc_fmt64 : forall prec f, (prec <> 0 -> f < 2 ^ 64 -> fl_fmt64 fl prec f = format_g F64 prec f)%N;
  sc_parse32 : forall s v, dec_parse s = Some v -> fl_parse32 fl s = round_to F32 v;
  sc_parse64 : forall s v, dec_parse s = Some v -> fl_parse64 fl s = round_to F64 v;
  sc_special32 : fl_parse32 fl (str "NaN") = Some nan32 /\ fl_parse32 fl (str "+Inf") = Some 0x7F800000%N /\ fl_parse32 fl (str "-Inf") = Some 0xFF800000%N;
  sc_special64 : fl_parse64 fl (str "NaN") = Some nan64 /\ fl_parse64 fl (str "+Inf") = Some 0x7FF0000000000000%N /\
    fl_parse64 fl (str "-Inf") = Some 0xFFF0000000000000%N }.
(** The simplest library that keeps these promises. *)
Definition parse_with (F : fformat) (nan inf ninf : N) (s : bytes) : option N :=
  match dec_parse s with
  | Some v => round_to F v
  | None =>
      if bytes_eqb s (str "NaN") then Some nan else if bytes_eqb s (str "+Inf") then Some inf
      else if bytes_eqb s (str "-Inf") then Some ninf else None
  end.
Definition plain_strconv : floats :=
  Floats (format_g F32) (format_g F64)
    (parse_with F32 nan32 0x7F800000 0xFF800000) (parse_with F64 nan64 0x7FF0000000000000 0xFFF0000000000000).
Lemma plain_strconv_ok : strconv_ok plain_strconv.
Proof.
  constructor.
  - intros prec f _ _. exact eq_refl.
  - intros prec f _ _. exact eq_refl.
  - intros s v H. cbn [fl_parse32 plain_strconv]. unfold parse_with. now rewrite H.
  - intros s v H. cbn [fl_parse64 plain_strconv]. unfold parse_with. now rewrite H.
  - split; [|split]; vm_compute; reflexivity.
  - split; [|split]; vm_compute; reflexivity.
Qed.
Definition show32 prec f := String.string_of_list_byte (format_g F32 prec f).
Example format_examples :
  show32 9 0x3dcccccd = "0.100000001"%string /\ show32 9 0x7f7fffff = "3.40282347e+38"%string /\ show32 6 0x7f7fffff = "3.40282e+38"%string /\
  show32 9 1 = "1.40129846e-45"%string /\ show32 9 0x80000000 = "-0"%string /\ show32 9 0x42f60000 = "123"%string /\
  show32 9 0x4e6e6b28 = "1e+09"%string /\ show32 9 0xc7f12080 = "-123457"%string /\ show32 9 0x38d1b717 = "9.99999975e-05"%string /\
  show32 9 0x3727c5ac = "9.99999975e-06"%string.
Proof. repeat (split; [vm_compute; reflexivity|]). vm_compute. reflexivity. Qed.
