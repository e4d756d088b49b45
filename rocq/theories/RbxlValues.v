(** RbxlValues.v - model of /repo/rbxl/values.go: the binary value types.

    A float32 is its bit pattern (an [N] below 2^32), a float64 likewise;
    math.Float32bits / Float32frombits are therefore the identity.  (Go
    preserves NaN payloads through these conversions.)  Dump methods are not
    modelled in this file. *)
From Verif Require Import Base.

(** Errors of package rbxl.  Cites: arrays.go:10-43, values.go:555-562,
    errors.go:11-60; strings are replaced by a constructor per message. *)
Inductive err :=
| EBuflen (exp : N) (got : nat)            (* values.go:555 buflenError *)
| EUnknownType (t : byte)                  (* errors.go:34 errUnknownType *)
| EIndex (i : nat) (cause : err)           (* arrays.go:32 indexError *)
| EExpectedType (want got : byte)          (* arrays.go:197 *)
| ESizePositive                            (* arrays.go:78, 89 *)
| ESizeDivisor (size : Z) (len : nat)      (* arrays.go:81, 92 *)
| EEOF                                     (* io.EOF from io.ReadFull *)
| EUnexpectedEOF                           (* io.ErrUnexpectedEOF from io.ReadFull *)
| ELz4                                     (* model.go:197 *)
| EUnknownID (id : Z)                      (* model.go:627 *)
| EValue (t : byte) (cause : err)          (* errors.go:65 ValueError *)
| EParentArray (children parent : nat)     (* errors.go:52 errParentArray *)
| EInvalidSig                              (* errors.go:12 *)
| EHeader                                  (* decoder.go:133 *)
| EVersion (v : N)                         (* errors.go:26 errUnrecognizedVersion *)
| EXML                                     (* errors.go:62 ErrXML *)
| EBounds (kind : nat) (index : Z) (bounds : N) (* codec.go:29 errBounds; kind 0 class, 1 instance, 2 child *)
| EGetServiceLen                           (* codec.go:62 *)
| EDuplicateID (id : Z)                    (* codec.go:73 *)
| EClassIndex (id : Z)                     (* codec.go:84 *)
| EPropLen (props insts : nat)             (* codec.go:106 *)
| EParentVersion (v : N)                   (* codec.go:147 *)
| EChunk (i : nat) (sig : N) (cause : err) (* errors.go:138 ChunkError *)
| ENilRoot                                 (* codec.go:428 *)
.

Notation res := (outcome err).

(** ** Type identifiers: values.go:61-97.  [typeInvalid] and
    [typeSignedString] are the bytes with no constructor. *)
Inductive tid :=
| tString | tBool | tInt | tFloat | tDouble | tUDim | tUDim2 | tRay | tFaces
| tAxes | tBrickColor | tColor3 | tVector2 | tVector3 | tVector2int16 | tCFrame
| tCFrameQuat | tToken | tReference | tVector3int16 | tNumberSequence
| tColorSequence | tNumberRange | tRect | tPhysicalProperties | tColor3uint8
| tInt64 | tSharedString | tOptional | tUniqueId | tFont.

Definition tid_eqb (a b : tid) : bool.
Proof. refine (if (_ : {a = b} + {a <> b}) then true else false). decide equality. Defined.

(** values.go:63-97 *)
Definition tid_byte (t : tid) : byte :=
  match t with
  | tString => x01 | tBool => x02 | tInt => x03 | tFloat => x04 | tDouble => x05
  | tUDim => x06 | tUDim2 => x07 | tRay => x08 | tFaces => x09 | tAxes => x0a
  | tBrickColor => x0b | tColor3 => x0c | tVector2 => x0d | tVector3 => x0e
  | tVector2int16 => x0f | tCFrame => x10 | tCFrameQuat => x11 | tToken => x12
  | tReference => x13 | tVector3int16 => x14 | tNumberSequence => x15
  | tColorSequence => x16 | tNumberRange => x17 | tRect => x18
  | tPhysicalProperties => x19 | tColor3uint8 => x1a | tInt64 => x1b
  | tSharedString => x1c | tOptional => x1e | tUniqueId => x1f | tFont => x20
  end.

(** values.go:99-102 Valid, together with the conversion typeID(b). *)
Definition tid_of_byte (b : byte) : option tid :=
  match b with
  | x01 => Some tString | x02 => Some tBool | x03 => Some tInt | x04 => Some tFloat
  | x05 => Some tDouble | x06 => Some tUDim | x07 => Some tUDim2 | x08 => Some tRay
  | x09 => Some tFaces | x0a => Some tAxes | x0b => Some tBrickColor | x0c => Some tColor3
  | x0d => Some tVector2 | x0e => Some tVector3 | x0f => Some tVector2int16
  | x10 => Some tCFrame | x11 => Some tCFrameQuat | x12 => Some tToken
  | x13 => Some tReference | x14 => Some tVector3int16 | x15 => Some tNumberSequence
  | x16 => Some tColorSequence | x17 => Some tNumberRange | x18 => Some tRect
  | x19 => Some tPhysicalProperties | x1a => Some tColor3uint8 | x1b => Some tInt64
  | x1c => Some tSharedString | x1e => Some tOptional | x1f => Some tUniqueId
  | x20 => Some tFont
  | _ => None
  end.

(** Sizes: values.go:14-48 and the per-type constants cited below. *)
Definition zb := 1.  Definition zf32 := 4.  Definition zi32 := 4.  Definition zu16 := 2.
Definition zArray : Z := (-1)%Z.  Definition zCond : Z := (-2)%Z.
Definition zOpt : Z := (-3)%Z.    Definition zOther : Z := (-4)%Z.
Definition zArrayLen := 4.  Definition zCondLen := 1.
Definition zFloat := zf32.                    (* :799 *)
Definition zInt := zi32.                      (* :769 *)
Definition zDouble := 8.                      (* :829 *)
Definition zUDim := zFloat + zInt.            (* :859 *)
Definition zUDim2 := zFloat * 2 + zInt * 2.   (* :906 *)
Definition zRay := zf32 * 6.                  (* :967 *)
Definition zFaces := 1.                       (* :1042 *)
Definition zAxes := 1.                        (* :1101 *)
Definition zBrickColor := 4.                  (* :1148 *)
Definition zColor3 := zFloat * 3.             (* :1178 *)
Definition zVector2 := zFloat * 2.            (* :1230 *)
Definition zVector3 := zFloat * 3.            (* :1276 *)
Definition zVector2int16 := 2 * 2.            (* :1328 *)
Definition zCFrameSp := zCondLen.             (* :1375 *)
Definition zCFrameRo := zf32 * 9.             (* :1376 *)
Definition zCFrameFull := zCFrameSp + zCFrameRo + zVector3.   (* :1377 *)
Definition zCFrameShort := zCFrameSp + zVector3.              (* :1378 *)
Definition zCFrameQuatSp := zCondLen.         (* :1490 *)
Definition zCFrameQuatQ := zf32 * 4.          (* :1491 *)
Definition zCFrameQuatFull := zCFrameQuatSp + zCFrameQuatQ + zVector3. (* :1492 *)
Definition zCFrameQuatShort := zCFrameQuatSp + zVector3.               (* :1493 *)
Definition zToken := 4.                       (* :1602 *)
Definition zReference := 4.                   (* :1632 *)
Definition zVector3int16 := 2 * 3.            (* :1662 *)
Definition zNumberSequenceKeypoint := zf32 * 3.         (* :1714 *)
Definition zColorSequenceKeypoint := zf32 + zColor3 + zf32. (* :1792 *)
Definition zNumberRange := zf32 * 2.          (* :1878 *)
Definition zRect := zVector2 * 2.             (* :1924 *)
Definition zPhysicalPropertiesCP := zCondLen. (* :1971 *)
Definition zPhysicalPropertiesFields := zf32 * 5.       (* :1972 *)
Definition zPhysicalPropertiesShort := zPhysicalPropertiesCP. (* :1973 *)
Definition zPhysicalPropertiesFull := zPhysicalPropertiesCP + zPhysicalPropertiesFields. (* :1974 *)
Definition zColor3uint8 := 1 * 3.             (* :2071 *)
Definition zInt64 := 8.                       (* :2120 *)
Definition zSharedString := 4.                (* :2150 *)
Definition zUniqueId := zb * 16.              (* :2184 *)

(** values.go:109-176 Size *)
Definition tid_size (t : tid) : Z :=
  match t with
  | tString => zArray
  | tBool => Z.of_nat zb
  | tInt => Z.of_nat zInt
  | tFloat => Z.of_nat zFloat
  | tDouble => Z.of_nat zDouble
  | tUDim => Z.of_nat zUDim
  | tUDim2 => Z.of_nat zUDim2
  | tRay => Z.of_nat zRay
  | tFaces => Z.of_nat zFaces
  | tAxes => Z.of_nat zAxes
  | tBrickColor => Z.of_nat zBrickColor
  | tColor3 => Z.of_nat zColor3
  | tVector2 => Z.of_nat zVector2
  | tVector3 => Z.of_nat zVector3
  | tVector2int16 => Z.of_nat zVector2int16
  | tCFrame => zCond
  | tCFrameQuat => zCond
  | tToken => Z.of_nat zToken
  | tReference => Z.of_nat zReference
  | tVector3int16 => Z.of_nat zVector3int16
  | tNumberSequence => zArray
  | tColorSequence => zArray
  | tNumberRange => Z.of_nat zNumberRange
  | tRect => Z.of_nat zRect
  | tPhysicalProperties => zCond
  | tColor3uint8 => Z.of_nat zColor3uint8
  | tInt64 => Z.of_nat zInt64
  | tSharedString => Z.of_nat zSharedString
  | tOptional => zOpt
  | tUniqueId => Z.of_nat zUniqueId
  | tFont => zOther
  end.

(** values.go:180-192 FieldSize *)
Definition field_size (t : tid) : nat :=
  match t with
  | tString => zb
  | tNumberSequence => zNumberSequenceKeypoint
  | tColorSequence => zColorSequenceKeypoint
  | _ => 0
  end.

(** values.go:197-216 CondSize *)
Definition cond_size (t : tid) (b : byte) : nat :=
  match t with
  | tCFrame => if Byte.eqb b x00 then zCFrameFull else zCFrameShort
  | tCFrameQuat => if Byte.eqb b x00 then zCFrameQuatFull else zCFrameQuatShort
  | tPhysicalProperties =>
      if Byte.eqb b x00 then zPhysicalPropertiesShort else zPhysicalPropertiesFull
  | _ => 0
  end.

(** ** Number transforms: values.go:524-553 *)
Definition encodeZigzag (bits : Z) (n : Z) : N :=
  toN bits (Z.lxor (wrapZ bits (Z.shiftl n 1)) (Z.shiftr n (bits - 1))).
Definition decodeZigzag (bits : Z) (n : N) : Z :=
  ofN bits (N.lxor (N.shiftr n 1)
     (toN bits (Z.shiftr (wrapZ bits (Z.shiftl (ofN bits (N.land n 1)) (bits - 1))) (bits - 1)))).
Definition encodeZigzag32 := encodeZigzag 32.   (* :528 *)
Definition decodeZigzag32 := decodeZigzag 32.   (* :532 *)
Definition encodeZigzag64 := encodeZigzag 64.   (* :536 *)
Definition decodeZigzag64 := decodeZigzag 64.   (* :540 *)

(** :545 encodeRobloxFloat and :550 decodeRobloxFloat, on the float's bits. *)
Definition encodeRobloxFloat (n : N) : N :=
  N.lor (N.shiftl n 1 mod 2 ^ 32) (N.shiftr n 31).
Definition decodeRobloxFloat (n : N) : N :=
  N.lor (N.shiftr n 1) (N.shiftl n 31 mod 2 ^ 32).

(** ** Values.  One constructor per value struct; field order as in Go. *)
Record vec3 := Vec3 { v3x : N; v3y : N; v3z : N }.
Record nskey := NSK { ns_time : N; ns_value : N; ns_env : N }.
Record cskey := CSK { cs_time : N; cs_r : N; cs_g : N; cs_b : N; cs_env : N }.

Inductive value :=
| VString (s : bytes)                                             (* :700 *)
| VBool (b : bool)                                                (* :733 *)
| VInt (n : Z)                                                    (* :771 *)
| VFloat (f : N)                                                  (* :801 *)
| VDouble (f : N)                                                 (* :831 *)
| VUDim (scale : N) (offset : Z)                                  (* :861 *)
| VUDim2 (sx sy : N) (ox oy : Z)                                  (* :908 *)
| VRay (ox oy oz dx dy dz : N)                                    (* :969 *)
| VFaces (right top back left bottom front : bool)                (* :1044 *)
| VAxes (x y z : bool)                                            (* :1103 *)
| VBrickColor (n : N)                                             (* :1150 *)
| VColor3 (r g b : N)                                             (* :1180 *)
| VVector2 (x y : N)                                              (* :1232 *)
| VVector3 (v : vec3)                                             (* :1278 *)
| VVector2int16 (x y : Z)                                         (* :1330 *)
| VCFrame (special : byte) (rotation : list N) (position : vec3)  (* :1380 *)
| VCFrameQuat (special : byte) (qx qy qz qw : N) (position : vec3)(* :1495 *)
| VToken (n : N)                                                  (* :1604 *)
| VReference (n : Z)                                              (* :1634 *)
| VVector3int16 (x y z : Z)                                       (* :1664 *)
| VNumberSequence (ks : list nskey)                               (* :1741 *)
| VColorSequence (ks : list cskey)                                (* :1821 *)
| VNumberRange (min max : N)                                      (* :1880 *)
| VRect (minx miny maxx maxy : N)                                 (* :1926 *)
| VPhysicalProperties (custom : byte) (density friction elasticity
                       frictionWeight elasticityWeight : N)       (* :1976 *)
| VColor3uint8 (r g b : byte)                                     (* :2073 *)
| VInt64 (n : Z)                                                  (* :2122 *)
| VSharedString (n : N)                                           (* :2152 *)
| VUniqueId (random : Z) (time index : N)                         (* :2186 *)
| VFont (family : bytes) (weight : N) (style : byte) (cached : bytes). (* :2250 *)

(** The Type methods: values.go:702, 735, ... *)
Definition vtype (v : value) : tid :=
  match v with
  | VString _ => tString | VBool _ => tBool | VInt _ => tInt | VFloat _ => tFloat
  | VDouble _ => tDouble | VUDim _ _ => tUDim | VUDim2 _ _ _ _ => tUDim2
  | VRay _ _ _ _ _ _ => tRay | VFaces _ _ _ _ _ _ => tFaces | VAxes _ _ _ => tAxes
  | VBrickColor _ => tBrickColor | VColor3 _ _ _ => tColor3 | VVector2 _ _ => tVector2
  | VVector3 _ => tVector3 | VVector2int16 _ _ => tVector2int16
  | VCFrame _ _ _ => tCFrame | VCFrameQuat _ _ _ _ _ _ => tCFrameQuat
  | VToken _ => tToken | VReference _ => tReference
  | VVector3int16 _ _ _ => tVector3int16 | VNumberSequence _ => tNumberSequence
  | VColorSequence _ => tColorSequence | VNumberRange _ _ => tNumberRange
  | VRect _ _ _ _ => tRect | VPhysicalProperties _ _ _ _ _ _ => tPhysicalProperties
  | VColor3uint8 _ _ _ => tColor3uint8 | VInt64 _ => tInt64
  | VSharedString _ => tSharedString | VUniqueId _ _ _ => tUniqueId
  | VFont _ _ _ _ => tFont
  end.

(** values.go:454-517 newValue: the Go zero value of each struct; typeOptional
    gives nil. *)
Definition vec3_zero := Vec3 0 0 0.
Definition newValue (t : tid) : option value :=
  match t with
  | tString => Some (VString [])
  | tBool => Some (VBool false)
  | tInt => Some (VInt 0)
  | tFloat => Some (VFloat 0)
  | tDouble => Some (VDouble 0)
  | tUDim => Some (VUDim 0 0)
  | tUDim2 => Some (VUDim2 0 0 0 0)
  | tRay => Some (VRay 0 0 0 0 0 0)
  | tFaces => Some (VFaces false false false false false false)
  | tAxes => Some (VAxes false false false)
  | tBrickColor => Some (VBrickColor 0)
  | tColor3 => Some (VColor3 0 0 0)
  | tVector2 => Some (VVector2 0 0)
  | tVector3 => Some (VVector3 vec3_zero)
  | tVector2int16 => Some (VVector2int16 0 0)
  | tCFrame => Some (VCFrame x00 (repeat 0%N 9) vec3_zero)
  | tCFrameQuat => Some (VCFrameQuat x00 0 0 0 0 vec3_zero)
  | tToken => Some (VToken 0)
  | tReference => Some (VReference 0)
  | tVector3int16 => Some (VVector3int16 0 0 0)
  | tNumberSequence => Some (VNumberSequence [])
  | tColorSequence => Some (VColorSequence [])
  | tNumberRange => Some (VNumberRange 0 0)
  | tRect => Some (VRect 0 0 0 0)
  | tPhysicalProperties => Some (VPhysicalProperties x00 0 0 0 0 0)
  | tColor3uint8 => Some (VColor3uint8 x00 x00 x00)
  | tInt64 => Some (VInt64 0)
  | tSharedString => Some (VSharedString 0)
  | tOptional => None
  | tUniqueId => Some (VUniqueId 0 0 0)
  | tFont => Some (VFont [] 0 x00 [])
  end.

(** The BytesLen methods: values.go:706, 739, ... *)
Definition bytes_len (v : value) : nat :=
  match v with
  | VString s => zArrayLen + length s
  | VBool _ => zb
  | VInt _ => zInt
  | VFloat _ => zFloat
  | VDouble _ => zDouble
  | VUDim _ _ => zUDim
  | VUDim2 _ _ _ _ => zUDim2
  | VRay _ _ _ _ _ _ => zRay
  | VFaces _ _ _ _ _ _ => zFaces
  | VAxes _ _ _ => zAxes
  | VBrickColor _ => zBrickColor
  | VColor3 _ _ _ => zColor3
  | VVector2 _ _ => zVector2
  | VVector3 _ => zVector3
  | VVector2int16 _ _ => zVector2int16
  | VCFrame sp _ _ => cond_size tCFrame sp
  | VCFrameQuat sp _ _ _ _ _ => cond_size tCFrameQuat sp
  | VToken _ => zToken
  | VReference _ => zReference
  | VVector3int16 _ _ _ => zVector3int16
  | VNumberSequence ks => zArrayLen + zNumberSequenceKeypoint * length ks
  | VColorSequence ks => zArrayLen + zColorSequenceKeypoint * length ks
  | VNumberRange _ _ => zNumberRange
  | VRect _ _ _ _ => zRect
  | VPhysicalProperties c _ _ _ _ _ => cond_size tPhysicalProperties c
  | VColor3uint8 _ _ _ => zColor3uint8
  | VInt64 _ => zInt64
  | VSharedString _ => zSharedString
  | VUniqueId _ _ _ => zUniqueId
  | VFont f _ _ c => (zArrayLen + length f) + zu16 + 1 + (zArrayLen + length c)
  end.

(** ** Encoding.  Go's [v.Bytes(b)] returns b extended by the bytes below. *)
Definition le16 := le_bytes 2.  (* :612 appendUint16, le *)
Definition le32 := le_bytes 4.  (* :622 appendUint32, le *)
Definition be32 := be_bytes 4.  (* :622 appendUint32, be *)
Definition le64 := le_bytes 8.  (* :632 appendUint64, le *)
Definition be64 := be_bytes 8.  (* :632 appendUint64, be *)

(** values.go:639-647 appendFlags *)
Fixpoint flags_from (i : N) (acc : N) (flags : list bool) : N :=
  match flags with
  | [] => acc
  | f :: r => flags_from (i + 1) (if f then N.lor acc (N.shiftl 1 i mod 256) else acc) r
  end.
Definition appendFlags (flags : list bool) : bytes := [N2b (flags_from 0 0 flags)].
(** values.go:649-653 readFlags, returning flag i *)
Definition readFlag (b : byte) (i : N) : bool :=
  negb (N.land (b2N b) (N.shiftl 1 i) =? 0)%N.

Definition b_float (f : N) : bytes := be32 (encodeRobloxFloat f).       (* :811 *)
Definition b_int (n : Z) : bytes := be32 (encodeZigzag32 n).            (* :781 *)
Definition b_int64 (n : Z) : bytes := be64 (encodeZigzag64 n).          (* :2132 *)
Definition b_vec3 (v : vec3) : bytes := b_float (v3x v) ++ b_float (v3y v) ++ b_float (v3z v). (* :1290 *)
Definition b_string (s : bytes) : bytes := le32 (N.of_nat (length s)) ++ s.   (* :710 *)
Definition b_nsk (k : nskey) : bytes := le32 (ns_time k) ++ le32 (ns_value k) ++ le32 (ns_env k). (* :1754 *)
Definition b_csk (k : cskey) : bytes :=                                  (* :1834 *)
  le32 (cs_time k) ++ le32 (cs_r k) ++ le32 (cs_g k) ++ le32 (cs_b k) ++ le32 (cs_env k).
Definition b_rotation (r : list N) : bytes := flat_map le32 r.           (* :1397 *)
Definition b_quat (qx qy qz qw : N) : bytes := le32 qx ++ le32 qy ++ le32 qz ++ le32 qw. (* :1509 *)
Definition b_pp (d f e fw ew : N) : bytes := le32 d ++ le32 f ++ le32 e ++ le32 fw ++ le32 ew. (* :1993 *)

Definition to_bytes (v : value) : bytes :=
  match v with
  | VString s => b_string s
  | VBool b => [if b then x01 else x00]                                  (* :743 *)
  | VInt n => b_int n
  | VFloat f => b_float f
  | VDouble f => le64 f                                                  (* :841 *)
  | VUDim s o => b_float s ++ b_int o                                    (* :874 *)
  | VUDim2 sx sy ox oy => b_float sx ++ b_float sy ++ b_int ox ++ b_int oy (* :923 *)
  | VRay a b c d e f => le32 a ++ le32 b ++ le32 c ++ le32 d ++ le32 e ++ le32 f (* :986 *)
  | VFaces r t b l o f => appendFlags [r; t; b; l; o; f]                 (* :1056 *)
  | VAxes x y z => appendFlags [x; y; z]                                 (* :1115 *)
  | VBrickColor n => be32 n                                              (* :1160 *)
  | VColor3 r g b => b_float r ++ b_float g ++ b_float b                 (* :1192 *)
  | VVector2 x y => b_float x ++ b_float y                               (* :1244 *)
  | VVector3 v => b_vec3 v
  | VVector2int16 x y => le16 (toN 16 x) ++ le16 (toN 16 y)              (* :1342 *)
  | VCFrame sp rot pos =>                                                (* :1394 *)
      sp :: (if Byte.eqb sp x00 then b_rotation rot else []) ++ b_vec3 pos
  | VCFrameQuat sp qx qy qz qw pos =>                                    (* :1517 *)
      sp :: (if Byte.eqb sp x00 then b_quat qx qy qz qw else []) ++ b_vec3 pos
  | VToken n => be32 n                                                   (* :1614 *)
  | VReference n => b_int n                                              (* :1644 *)
  | VVector3int16 x y z => le16 (toN 16 x) ++ le16 (toN 16 y) ++ le16 (toN 16 z) (* :1676 *)
  | VNumberSequence ks => le32 (N.of_nat (length ks)) ++ flat_map b_nsk ks   (* :1751 *)
  | VColorSequence ks => le32 (N.of_nat (length ks)) ++ flat_map b_csk ks    (* :1831 *)
  | VNumberRange a b => le32 a ++ le32 b                                 (* :1892 *)
  | VRect a b c d => (b_float a ++ b_float b) ++ (b_float c ++ b_float d) (* :1938 *)
  | VPhysicalProperties c d f e fw ew =>                                 (* :2002 *)
      c :: (if Byte.eqb c x00 then [] else b_pp d f e fw ew)
  | VColor3uint8 r g b => [r; g; b]                                      (* :2085 *)
  | VInt64 n => b_int64 n
  | VSharedString n => be32 n                                            (* :2162 *)
  | VUniqueId r t i => be32 i ++ be32 t ++ b_int64 r                     (* :2200 *)
  | VFont f w s c => b_string f ++ le16 w ++ [s] ++ b_string c           (* :2265 *)
  end.

(** ** Decoding *)

(** values.go:567-575 checkLengthConst *)
Definition checkLengthConst (n : nat) (b : bytes) : res nat :=
  if (length b <? n)%nat then Err (EBuflen (N.of_nat n) (length b)) else OK n.

(** values.go:586-595 checkLengthArray: remaining buffer and field count. *)
Definition checkLengthArray (t : tid) (b : bytes) : res (bytes * nat) :=
  if (length b <? zArrayLen)%nat then Err (EBuflen (N.of_nat zArrayLen) (length b))
  else
    let len := le_N (firstn zArrayLen b) in
    let n := (N.of_nat zArrayLen + N.of_nat (field_size t) * len)%N in
    if (N.of_nat (length b) <? n)%N then Err (EBuflen n (length b))
    else OK (skipn zArrayLen b, N.to_nat len).

(** values.go:601-610 checkLengthCond: condition, remaining buffer, size. *)
Definition checkLengthCond (t : tid) (b : bytes) : res (byte * bytes * nat) :=
  match b with
  | [] => Err (EBuflen (N.of_nat zCondLen) 0)
  | cond :: r =>
      let n := cond_size t cond in
      if (length b <? n)%nat then Err (EBuflen (N.of_nat n) (length b))
      else OK (cond, r, n)
  end.

(** values.go:655-684 readUintK: panic when the buffer is short. *)
Definition rd_le (k : nat) (b : bytes) : res (N * bytes) :=
  if (length b <? k)%nat then Panic else OK (le_N (firstn k b), skipn k b).
Definition rd_be (k : nat) (b : bytes) : res (N * bytes) :=
  if (length b <? k)%nat then Panic else OK (be_N (firstn k b), skipn k b).

(** binary.BigEndian.UintK(b) on a longer buffer (values.go:789 etc.). *)
Definition be_word (k : nat) (b : bytes) : res N :=
  if (length b <? k)%nat then Panic else OK (be_N (firstn k b)).
Definition le_word (k : nat) (b : bytes) : res N :=
  if (length b <? k)%nat then Panic else OK (le_N (firstn k b)).

(** values.go:688-694 fromBytes: run a decoder and advance; panic on error. *)
Definition adv {A} (f : bytes -> res (A * nat)) (b : bytes) : res (A * bytes) :=
  match f b with
  | OK (x, n) => if (length b <? n)%nat then Panic else OK (x, skipn n b)
  | Err _ => Panic
  | Panic => Panic
  | Hang => Hang
  end.

Definition fb_float (b : bytes) : res (N * nat) :=                       (* :815 *)
  n <- checkLengthConst zFloat b ;;
  w <- be_word 4 b ;;
  OK (decodeRobloxFloat w, n).
Definition fb_int (b : bytes) : res (Z * nat) :=                         (* :785 *)
  n <- checkLengthConst zInt b ;;
  w <- be_word 4 b ;;
  OK (decodeZigzag32 w, n).
Definition fb_int64 (b : bytes) : res (Z * nat) :=                       (* :2136 *)
  n <- checkLengthConst zInt64 b ;;
  w <- be_word 8 b ;;
  OK (decodeZigzag64 w, n).
Definition fb_vec3 (b : bytes) : res (vec3 * nat) :=                     (* :1297 *)
  n <- checkLengthConst zVector3 b ;;
  ' (x, b) <- adv fb_float b ;;
  ' (y, b) <- adv fb_float b ;;
  ' (z, b) <- adv fb_float b ;;
  OK (Vec3 x y z, n).
Definition fb_vec2 (b : bytes) : res ((N * N) * nat) :=                  (* :1250 *)
  n <- checkLengthConst zVector2 b ;;
  ' (x, b) <- adv fb_float b ;;
  ' (y, b) <- adv fb_float b ;;
  OK ((x, y), n).
(** :716 valueString.FromBytes: make n zero bytes, copy what the buffer has. *)
Definition fb_string (b : bytes) : res (bytes * nat) :=
  ' (r, n) <- checkLengthArray tString b ;;
  OK (firstn n r ++ repeat x00 (n - length r), zArrayLen + n).
Fixpoint rd_nsks (n : nat) (b : bytes) : res (list nskey) :=             (* :1766 *)
  match n with
  | O => OK []
  | S n =>
      ' (t, b) <- rd_le 4 b ;;
      ' (v, b) <- rd_le 4 b ;;
      ' (e, b) <- rd_le 4 b ;;
      ks <- rd_nsks n b ;;
      OK (NSK t v e :: ks)
  end.
Fixpoint rd_csks (n : nat) (b : bytes) : res (list cskey) :=             (* :1848 *)
  match n with
  | O => OK []
  | S n =>
      ' (t, b) <- rd_le 4 b ;;
      ' (r, b) <- rd_le 4 b ;;
      ' (g, b) <- rd_le 4 b ;;
      ' (bl, b) <- rd_le 4 b ;;
      ' (e, b) <- rd_le 4 b ;;
      ks <- rd_csks n b ;;
      OK (CSK t r g bl e :: ks)
  end.
Fixpoint rd_floats (n : nat) (b : bytes) : res (list N * bytes) :=       (* :1412 *)
  match n with
  | O => OK ([], b)
  | S n =>
      ' (x, b) <- rd_le 4 b ;;
      ' (xs, b) <- rd_floats n b ;;
      OK (x :: xs, b)
  end.
Definition rd_quat (b : bytes) : res ((N * N * N * N) * bytes) :=        (* :1526 *)
  ' (x, b) <- rd_le 4 b ;;
  ' (y, b) <- rd_le 4 b ;;
  ' (z, b) <- rd_le 4 b ;;
  ' (w, b) <- rd_le 4 b ;;
  OK ((x, y, z, w), b).
(** [v.Position.FromBytes(b)] with its error ignored (:1420, :1548): on error
    the position keeps its zero value. *)
Definition fb_pos (b : bytes) : res vec3 :=
  match fb_vec3 b with
  | OK (p, _) => OK p
  | Err _ => OK vec3_zero
  | Panic => Panic
  | Hang => Hang
  end.

Definition first_byte (b : bytes) : res byte :=      (* b[0] *)
  match b with [] => Panic | x :: _ => OK x end.

(** The FromBytes methods: value and number of bytes read. *)
Definition from_bytes (t : tid) (b : bytes) : res (value * nat) :=
  match t with
  | tString => ' (s, n) <- fb_string b ;; OK (VString s, n)
  | tBool =>                                                             (* :751 *)
      n <- checkLengthConst zb b ;; x <- first_byte b ;; OK (VBool (negb (Byte.eqb x x00)), n)
  | tInt => ' (x, n) <- fb_int b ;; OK (VInt x, n)
  | tFloat => ' (x, n) <- fb_float b ;; OK (VFloat x, n)
  | tDouble =>                                                           (* :845 *)
      n <- checkLengthConst zDouble b ;; x <- le_word 8 b ;; OK (VDouble x, n)
  | tUDim =>                                                             (* :880 *)
      n <- checkLengthConst zUDim b ;;
      ' (s, b) <- adv fb_float b ;; ' (o, b) <- adv fb_int b ;; OK (VUDim s o, n)
  | tUDim2 =>                                                            (* :931 *)
      n <- checkLengthConst zUDim2 b ;;
      ' (sx, b) <- adv fb_float b ;; ' (sy, b) <- adv fb_float b ;;
      ' (ox, b) <- adv fb_int b ;; ' (oy, b) <- adv fb_int b ;;
      OK (VUDim2 sx sy ox oy, n)
  | tRay =>                                                              (* :996 *)
      n <- checkLengthConst zRay b ;;
      ' (ox, b) <- rd_le 4 b ;; ' (oy, b) <- rd_le 4 b ;; ' (oz, b) <- rd_le 4 b ;;
      ' (dx, b) <- rd_le 4 b ;; ' (dy, b) <- rd_le 4 b ;; ' (dz, b) <- rd_le 4 b ;;
      OK (VRay ox oy oz dx dy dz, n)
  | tFaces =>                                                            (* :1060 *)
      n <- checkLengthConst zFaces b ;; x <- first_byte b ;;
      OK (VFaces (readFlag x 0) (readFlag x 1) (readFlag x 2) (readFlag x 3) (readFlag x 4) (readFlag x 5), n)
  | tAxes =>                                                             (* :1119 *)
      n <- checkLengthConst zAxes b ;; x <- first_byte b ;;
      OK (VAxes (readFlag x 0) (readFlag x 1) (readFlag x 2), n)
  | tBrickColor =>                                                       (* :1164 *)
      n <- checkLengthConst zBrickColor b ;; x <- be_word 4 b ;; OK (VBrickColor x, n)
  | tColor3 =>                                                           (* :1199 *)
      n <- checkLengthConst zColor3 b ;;
      ' (r, b) <- adv fb_float b ;; ' (g, b) <- adv fb_float b ;; ' (bl, b) <- adv fb_float b ;;
      OK (VColor3 r g bl, n)
  | tVector2 => ' (xy, n) <- fb_vec2 b ;; OK (VVector2 (fst xy) (snd xy), n)
  | tVector3 => ' (v, n) <- fb_vec3 b ;; OK (VVector3 v, n)
  | tVector2int16 =>                                                     (* :1348 *)
      n <- checkLengthConst zVector2int16 b ;;
      ' (x, b) <- rd_le 2 b ;; ' (y, b) <- rd_le 2 b ;;
      OK (VVector2int16 (ofN 16 x) (ofN 16 y), n)
  | tCFrame =>                                                           (* :1405 *)
      ' (c, b, n) <- checkLengthCond tCFrame b ;;
      ' (rot, b) <- (if Byte.eqb c x00 then rd_floats 9 b else OK (repeat 0%N 9, b)) ;;
      p <- fb_pos b ;;
      OK (VCFrame c rot p, n)
  | tCFrameQuat =>                                                       (* :1534 *)
      ' (c, b, n) <- checkLengthCond tCFrameQuat b ;;
      ' ((x, y, z, w), b) <- (if Byte.eqb c x00 then rd_quat b else OK ((0, 0, 0, 0)%N, b)) ;;
      p <- fb_pos b ;;
      OK (VCFrameQuat c x y z w p, n)
  | tToken =>                                                            (* :1618 *)
      n <- checkLengthConst zToken b ;; x <- be_word 4 b ;; OK (VToken x, n)
  | tReference =>                                                        (* :1648 *)
      n <- checkLengthConst zReference b ;; x <- be_word 4 b ;; OK (VReference (decodeZigzag32 x), n)
  | tVector3int16 =>                                                     (* :1683 *)
      n <- checkLengthConst zVector3int16 b ;;
      ' (x, b) <- rd_le 2 b ;; ' (y, b) <- rd_le 2 b ;; ' (z, b) <- rd_le 2 b ;;
      OK (VVector3int16 (ofN 16 x) (ofN 16 y) (ofN 16 z), n)
  | tNumberSequence =>                                                   (* :1761 *)
      ' (b, n) <- checkLengthArray tNumberSequence b ;;
      ks <- rd_nsks n b ;;
      OK (VNumberSequence ks, bytes_len (VNumberSequence ks))
  | tColorSequence =>                                                    (* :1843 *)
      ' (b, n) <- checkLengthArray tColorSequence b ;;
      ks <- rd_csks n b ;;
      OK (VColorSequence ks, bytes_len (VColorSequence ks))
  | tNumberRange =>                                                      (* :1898 *)
      n <- checkLengthConst zNumberRange b ;;
      ' (x, b) <- rd_le 4 b ;; ' (y, b) <- rd_le 4 b ;;
      OK (VNumberRange x y, n)
  | tRect =>                                                             (* :1944 *)
      n <- checkLengthConst zRect b ;;
      ' (mi, b) <- adv fb_vec2 b ;; ' (ma, b) <- adv fb_vec2 b ;;
      OK (VRect (fst mi) (snd mi) (fst ma) (snd ma), n)
  | tPhysicalProperties =>                                               (* :2019 *)
      ' (c, b, n) <- checkLengthCond tPhysicalProperties b ;;
      if Byte.eqb c x00 then OK (VPhysicalProperties c 0 0 0 0 0, n)
      else
        ' (d, b) <- rd_le 4 b ;; ' (f, b) <- rd_le 4 b ;; ' (e, b) <- rd_le 4 b ;;
        ' (fw, b) <- rd_le 4 b ;; ' (ew, b) <- rd_le 4 b ;;
        OK (VPhysicalProperties c d f e fw ew, n)
  | tColor3uint8 =>                                                      (* :2089 *)
      n <- checkLengthConst zColor3uint8 b ;;
      match b with
      | r :: g :: bl :: _ => OK (VColor3uint8 r g bl, n)
      | _ => Panic
      end
  | tInt64 => ' (x, n) <- fb_int64 b ;; OK (VInt64 x, n)
  | tSharedString =>                                                     (* :2166 *)
      n <- checkLengthConst zSharedString b ;; x <- be_word 4 b ;; OK (VSharedString x, n)
  | tOptional => Panic     (* newValue gives nil: a method call on it panics *)
  | tUniqueId =>                                                         (* :2207 *)
      n <- checkLengthConst zUniqueId b ;;
      ' (i, b) <- rd_be 4 b ;; ' (t, b) <- rd_be 4 b ;; ' (r, b) <- adv fb_int64 b ;;
      OK (VUniqueId r t i, n)
  | tFont =>                                                             (* :2273 *)
      let l := length b in
      ' (f, n1) <- fb_string b ;;
      let b := skipn n1 b in
      if (length b <? 2)%nat then Err (EBuflen (N.of_nat (n1 + 2)) l) else
      ' (w, b) <- rd_le 2 b ;;
      if (length b <? 1)%nat then Err (EBuflen (N.of_nat (n1 + 3)) l) else
      match b with
      | [] => Panic
      | s :: b =>
          ' (c, n2) <- fb_string b ;;
          OK (VFont f w s c, n1 + 2 + 1 + n2)
      end
  end.
