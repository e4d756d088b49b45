(** SpecWire.v - the byte layout of the binary format, written down
    independently of the model's encoders: each value type is a list of
    fields, a number is given by its base-256 digits. *)
From Verif Require Import Base RbxlValues SpecValues.

Inductive field :=
| LE (width : nat) (n : N)      (* little-endian, lowest byte first *)
| BE (width : nat) (n : N)      (* big-endian, highest byte first *)
| Raw (b : bytes).

(** The base-256 digit of weight 256^i. *)
Definition digit (n : N) (i : nat) : byte := N2b ((n / 256 ^ N.of_nat i) mod 256).
Definition emit1 (f : field) : bytes :=
  match f with
  | LE w n => map (digit n) (seq 0 w)
  | BE w n => map (fun i => digit n (w - 1 - i)) (seq 0 w)
  | Raw b => b
  end.
Definition emit (fs : list field) : bytes := flat_map emit1 fs.

(** Transformed integers: non-negative n is 2n, negative n is 2|n|-1. *)
Definition zig (n : Z) : N := Z.to_N (if (n <? 0)%Z then 2 * Z.abs n - 1 else 2 * n)%Z.
(** Transformed floats: the sign bit moves to the end. *)
Definition rot (f : N) : N := (2 * (f mod 2 ^ 31) + f / 2 ^ 31)%N.
(** Two's complement. *)
Definition twos (bits : Z) (n : Z) : N := Z.to_N (if (n <? 0)%Z then n + 2 ^ bits else n)%Z.
Definition bit (b : bool) (weight : N) : N := if b then weight else 0%N.

Definition coords (p : vec3) : list field :=
  [BE 4 (rot (v3x p)); BE 4 (rot (v3y p)); BE 4 (rot (v3z p))].
Definition text (s : bytes) : list field := [LE 4 (N.of_nat (length s)); Raw s].

Definition layout (v : value) : list field :=
  match v with
  | VString s => text s
  | VBool b => [LE 1 (bit b 1)]
  | VInt n => [BE 4 (zig n)]
  | VFloat f => [BE 4 (rot f)]
  | VDouble f => [LE 8 f]
  | VUDim s o => [BE 4 (rot s); BE 4 (zig o)]
  | VUDim2 sx sy ox oy => [BE 4 (rot sx); BE 4 (rot sy); BE 4 (zig ox); BE 4 (zig oy)]
  | VRay ox oy oz dx dy dz => [LE 4 ox; LE 4 oy; LE 4 oz; LE 4 dx; LE 4 dy; LE 4 dz]
  | VFaces rt tp bk lf bt fr =>
      [LE 1 (bit rt 1 + bit tp 2 + bit bk 4 + bit lf 8 + bit bt 16 + bit fr 32)]
  | VAxes x y z => [LE 1 (bit x 1 + bit y 2 + bit z 4)]
  | VBrickColor n | VToken n | VSharedString n => [BE 4 n]
  | VColor3 r g b => [BE 4 (rot r); BE 4 (rot g); BE 4 (rot b)]
  | VVector2 x y => [BE 4 (rot x); BE 4 (rot y)]
  | VVector3 p => coords p
  | VVector2int16 x y => [LE 2 (twos 16 x); LE 2 (twos 16 y)]
  | VCFrame special rotation p =>
      Raw [special] :: (if Byte.eqb special x00 then map (LE 4) rotation else []) ++ coords p
  | VCFrameQuat special x y z w p =>
      Raw [special] :: (if Byte.eqb special x00 then [LE 4 x; LE 4 y; LE 4 z; LE 4 w] else [])
        ++ coords p
  | VReference n => [BE 4 (zig n)]
  | VVector3int16 x y z => [LE 2 (twos 16 x); LE 2 (twos 16 y); LE 2 (twos 16 z)]
  | VNumberSequence ks =>
      LE 4 (N.of_nat (length ks)) ::
      flat_map (fun k => [LE 4 (ns_time k); LE 4 (ns_value k); LE 4 (ns_env k)]) ks
  | VColorSequence ks =>
      LE 4 (N.of_nat (length ks)) ::
      flat_map (fun k => [LE 4 (cs_time k); LE 4 (cs_r k); LE 4 (cs_g k); LE 4 (cs_b k);
                          LE 4 (cs_env k)]) ks
  | VNumberRange a b => [LE 4 a; LE 4 b]
  | VRect a b c d => [BE 4 (rot a); BE 4 (rot b); BE 4 (rot c); BE 4 (rot d)]
  | VPhysicalProperties custom d f e fw ew =>
      Raw [custom] :: (if Byte.eqb custom x00 then [] else [LE 4 d; LE 4 f; LE 4 e; LE 4 fw; LE 4 ew])
  | VColor3uint8 r g b => [Raw [r; g; b]]
  | VInt64 n => [BE 8 (zig n)]
  | VUniqueId random time index => [BE 4 index; BE 4 time; BE 8 (zig random)]
  | VFont family weight style cached => text family ++ [LE 2 weight; Raw [style]] ++ text cached
  end.
