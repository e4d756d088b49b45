(** SpecBase64.v - RFC 4648 base64, with line ends anywhere and without a
    check of the unused bits, as a relation between texts and bytes.  Independent
    of the decoder. *)
From Verif Require Import Base.

Definition alphabet : bytes := str "ABCDEFGHIJKLMNOPQRSTUVWXYZabcdefghijklmnopqrstuvwxyz0123456789+/".
Definition line_end (b : byte) : bool := Byte.eqb b x0a || Byte.eqb b x0d.
(** The text without line ends. *)
Definition chars_of (t : bytes) : bytes := filter (fun b => negb (line_end b)) t.
(** The digits of a string of alphabet characters, and the number they write
    in base 64. *)
Definition b64_digits (cs : bytes) (ns : list N) : Prop :=
  Forall2 (fun c n => nth_error alphabet (N.to_nat n) = Some c) cs ns.
Definition b64_number (ns : list N) : N := fold_left (fun a n => a * 64 + n)%N ns 0%N.
(** [base64 t s]: up to line ends t is digits and padding to a multiple of
    four; s is as many bytes as fit in the digits' bits, and they are the
    first bits of the digits. *)
Definition base64 (t s : bytes) : Prop :=
  exists cs pad ns,
    chars_of t = cs ++ pad /\ In pad [[]; str "="; str "=="] /\ (length (cs ++ pad) mod 4 = 0)%nat /\ b64_digits cs ns /\
    length s = (6 * length ns) / 8 /\
    be_N s = (b64_number ns / 2 ^ N.of_nat ((6 * length ns) mod 8))%N.
(** No padding before another character. *)
Definition padding_last (t : bytes) : Prop :=
  exists cs pad, chars_of t = cs ++ pad /\ ~ In x3d cs /\ Forall (eq x3d) pad.
