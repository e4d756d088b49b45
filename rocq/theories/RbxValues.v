(** RbxValues.v - model of /repo/values.go: the root package's types and
    values.  Floats are their bit patterns, byte slices lists of bytes.

    The String methods of values other than UniqueId are in RbxStrings.v. *)
From Verif Require Import Base RbxlValues.
Local Notation string := String.string.

(** values.go:10-64: Type is a byte; the constants in iota order. *)
Definition Type_ := N.
Definition TypeInvalid : Type_ := 0%N.
Definition TypeString : Type_ := 1%N.            Definition TypeBinaryString : Type_ := 2%N.
Definition TypeProtectedString : Type_ := 3%N.   Definition TypeContent : Type_ := 4%N.
Definition TypeBool : Type_ := 5%N.              Definition TypeInt : Type_ := 6%N.
Definition TypeFloat : Type_ := 7%N.             Definition TypeDouble : Type_ := 8%N.
Definition TypeUDim : Type_ := 9%N.              Definition TypeUDim2 : Type_ := 10%N.
Definition TypeRay : Type_ := 11%N.              Definition TypeFaces : Type_ := 12%N.
Definition TypeAxes : Type_ := 13%N.             Definition TypeBrickColor : Type_ := 14%N.
Definition TypeColor3 : Type_ := 15%N.           Definition TypeVector2 : Type_ := 16%N.
Definition TypeVector3 : Type_ := 17%N.          Definition TypeCFrame : Type_ := 18%N.
Definition TypeToken : Type_ := 19%N.            Definition TypeReference : Type_ := 20%N.
Definition TypeVector3int16 : Type_ := 21%N.     Definition TypeVector2int16 : Type_ := 22%N.
Definition TypeNumberSequence : Type_ := 23%N.   Definition TypeColorSequence : Type_ := 24%N.
Definition TypeNumberRange : Type_ := 25%N.      Definition TypeRect : Type_ := 26%N.
Definition TypePhysicalProperties : Type_ := 27%N. Definition TypeColor3uint8 : Type_ := 28%N.
Definition TypeInt64 : Type_ := 29%N.            Definition TypeSharedString : Type_ := 30%N.
Definition TypeOptional : Type_ := 31%N.         Definition TypeUniqueId : Type_ := 32%N.
Definition TypeFont : Type_ := 33%N.

(** values.go:78-104 typeStrings, a map: the list order is not meaningful. *)
Definition typeStrings : list (Type_ * string) := [
  (TypeString, "String"); (TypeBinaryString, "BinaryString"); (TypeProtectedString, "ProtectedString");
  (TypeContent, "Content"); (TypeBool, "Bool"); (TypeInt, "Int"); (TypeFloat, "Float");
  (TypeDouble, "Double"); (TypeUDim, "UDim"); (TypeUDim2, "UDim2"); (TypeRay, "Ray");
  (TypeFaces, "Faces"); (TypeAxes, "Axes"); (TypeBrickColor, "BrickColor"); (TypeColor3, "Color3");
  (TypeVector2, "Vector2"); (TypeVector3, "Vector3"); (TypeCFrame, "CFrame"); (TypeToken, "Token");
  (TypeReference, "Reference"); (TypeVector3int16, "Vector3int16"); (TypeVector2int16, "Vector2int16");
  (TypeNumberSequence, "NumberSequence"); (TypeColorSequence, "ColorSequence");
  (TypeNumberRange, "NumberRange"); (TypeRect, "Rect"); (TypePhysicalProperties, "PhysicalProperties");
  (TypeColor3uint8, "Color3uint8"); (TypeInt64, "Int64"); (TypeSharedString, "SharedString");
  (TypeOptional, "Optional"); (TypeUniqueId, "UniqueId"); (TypeFont, "Font") ]%string.

Fixpoint assocN {A} (l : list (N * A)) (k : N) : option A :=
  match l with
  | [] => None
  | (k', a) :: l => if (k' =? k)%N then Some a else assocN l k
  end.

(** values.go:14-20 Type.String *)
Definition type_string (t : Type_) : string :=
  match assocN typeStrings t with Some s => s | None => "Invalid"%string end.
(** values.go:68-75 TypeFromString; [table] is the map in iteration order. *)
Fixpoint type_from_string_in (table : list (Type_ * string)) (s : string) : Type_ :=
  match table with
  | [] => TypeInvalid
  | (t, str) :: table => if String.eqb s str then t else type_from_string_in table s
  end.

(** ** Values.  A pointer to an Instance is a number, 0 is nil. *)
Definition ptr := nat.

Inductive rvalue :=
| RString (s : bytes) | RBinaryString (s : bytes) | RProtectedString (s : bytes) | RContent (s : bytes)
| RBool (b : bool) | RInt (n : Z) | RFloat (f : N) | RDouble (f : N)
| RUDim (scale : N) (offset : Z)
| RUDim2 (xs : N) (xo : Z) (ys : N) (yo : Z)
| RRay (origin direction : vec3)
| RFaces (right top back left bottom front : bool)
| RAxes (x y z : bool)
| RBrickColor (n : N)
| RColor3 (r g b : N)
| RVector2 (x y : N) | RVector3 (v : vec3)
| RCFrame (pos : vec3) (rot : list N)              (* nine entries *)
| RToken (n : N)
| RReference (p : ptr)
| RVector3int16 (x y z : Z) | RVector2int16 (x y : Z)
| RNumberSequence (ks : list nskey) | RColorSequence (ks : list cskey)
| RNumberRange (min max : N)
| RRect (minx miny maxx maxy : N)
| RPhysicalProperties (custom : bool) (d f e fw ew : N)
| RColor3uint8 (r g b : byte)
| RInt64 (n : Z)
| RSharedString (s : bytes)
| ROptional (typ : Type_) (v : option rvalue)
| RUniqueId (random : Z) (time index : N)
| RFont (family : bytes) (weight : N) (style : byte) (cached : bytes).

(** The Type methods (values.go:190, 210, ...). *)
Definition rtype (v : rvalue) : Type_ :=
  match v with
  | RString _ => TypeString | RBinaryString _ => TypeBinaryString
  | RProtectedString _ => TypeProtectedString | RContent _ => TypeContent
  | RBool _ => TypeBool | RInt _ => TypeInt | RFloat _ => TypeFloat | RDouble _ => TypeDouble
  | RUDim _ _ => TypeUDim | RUDim2 _ _ _ _ => TypeUDim2 | RRay _ _ => TypeRay
  | RFaces _ _ _ _ _ _ => TypeFaces | RAxes _ _ _ => TypeAxes | RBrickColor _ => TypeBrickColor
  | RColor3 _ _ _ => TypeColor3 | RVector2 _ _ => TypeVector2 | RVector3 _ => TypeVector3
  | RCFrame _ _ => TypeCFrame | RToken _ => TypeToken | RReference _ => TypeReference
  | RVector3int16 _ _ _ => TypeVector3int16 | RVector2int16 _ _ => TypeVector2int16
  | RNumberSequence _ => TypeNumberSequence | RColorSequence _ => TypeColorSequence
  | RNumberRange _ _ => TypeNumberRange | RRect _ _ _ _ => TypeRect
  | RPhysicalProperties _ _ _ _ _ _ => TypePhysicalProperties | RColor3uint8 _ _ _ => TypeColor3uint8
  | RInt64 _ => TypeInt64 | RSharedString _ => TypeSharedString | ROptional _ _ => TypeOptional
  | RUniqueId _ _ _ => TypeUniqueId | RFont _ _ _ _ => TypeFont
  end.

(** float32(1) *)
Definition f32_one : N := 0x3f800000.
Definition identity_rot : list N := [f32_one; 0; 0; 0; f32_one; 0; 0; 0; f32_one]%N.

(** values.go:131-165 valueGenerators with the newValue functions (:186, 206,
    ...); newValueCFrame :560-565. *)
Definition valueGenerators : list (Type_ * rvalue) := [
  (TypeString, RString []); (TypeBinaryString, RBinaryString []);
  (TypeProtectedString, RProtectedString []); (TypeContent, RContent []);
  (TypeBool, RBool false); (TypeInt, RInt 0); (TypeFloat, RFloat 0); (TypeDouble, RDouble 0);
  (TypeUDim, RUDim 0 0); (TypeUDim2, RUDim2 0 0 0 0); (TypeRay, RRay vec3_zero vec3_zero);
  (TypeFaces, RFaces false false false false false false); (TypeAxes, RAxes false false false);
  (TypeBrickColor, RBrickColor 0); (TypeColor3, RColor3 0 0 0); (TypeVector2, RVector2 0 0);
  (TypeVector3, RVector3 vec3_zero); (TypeCFrame, RCFrame vec3_zero identity_rot);
  (TypeToken, RToken 0); (TypeReference, RReference 0);
  (TypeVector3int16, RVector3int16 0 0 0); (TypeVector2int16, RVector2int16 0 0);
  (TypeNumberSequence, RNumberSequence []); (TypeColorSequence, RColorSequence []);
  (TypeNumberRange, RNumberRange 0 0); (TypeRect, RRect 0 0 0 0);
  (TypePhysicalProperties, RPhysicalProperties false 0 0 0 0 0);
  (TypeColor3uint8, RColor3uint8 x00 x00 x00); (TypeInt64, RInt64 0);
  (TypeSharedString, RSharedString []); (TypeOptional, ROptional TypeInvalid None);
  (TypeUniqueId, RUniqueId 0 0 0); (TypeFont, RFont [] 0 x00 []) ].
(** values.go:121-127 NewValue, nil for an invalid type *)
Definition NewValue (t : Type_) : option rvalue := assocN valueGenerators t.

(** values.go:956-975: Some (panics on nil, which [rvalue] excludes) and None *)
Definition mkSome (v : rvalue) : rvalue := ROptional (rtype v) (Some v).
Definition mkNone (t : Type_) : rvalue := ROptional t None.

(** The Copy methods: values.go:196, 216, 236, 256 and :942 copy the slice,
    :982 copies the inner value, :752, 800 copy the keypoints, the others
    return the value; :1180 ValueFont.Copy. *)
Fixpoint rcopy (v : rvalue) : rvalue :=
  match v with
  | ROptional t (Some v) => ROptional t (Some (rcopy v))
  | RFont family weight style cached => RFont family weight style family
  | v => v
  end.

(** ** The same with storage: a slice is an address into a store of
    allocations, so that aliasing can be seen.  Values without slices are
    [MPlain]. *)
Inductive buffer := BBytes (s : bytes) | BNum (ks : list nskey) | BCol (ks : list cskey).
Inductive skind := KString | KBinaryString | KProtectedString | KContent | KNumberSequence | KColorSequence | KSharedString.
Inductive mvalue :=
| MPlain (v : rvalue)
| MSlice (k : skind) (a : nat)
| MOptional (typ : Type_) (v : option mvalue)
| MFont (family : nat) (weight : N) (style : byte) (cached : nat).
Definition store := list buffer.
(** make and copy: a new allocation with the same content (nil is address out
    of range, empty). *)
Definition buf_empty (k : skind) : buffer :=
  match k with KNumberSequence => BNum [] | KColorSequence => BCol [] | _ => BBytes [] end.
Definition load (m : store) (k : skind) (a : nat) : buffer := nth a m (buf_empty k).
Definition copy_slice (m : store) (k : skind) (a : nat) : store * nat := (m ++ [load m k a], length m).
Fixpoint mcopy (m : store) (v : mvalue) : store * mvalue :=
  match v with
  | MPlain v => (m, MPlain v)
  | MSlice k a => let '(m, a) := copy_slice m k a in (m, MSlice k a)
  | MOptional t (Some v) => let '(m, v) := mcopy m v in (m, MOptional t (Some v))
  | MOptional t None => (m, MOptional t None)
  | MFont family w s cached =>
      let '(m, f) := copy_slice m KContent family in
      let '(m, c) := copy_slice m KContent family in   (* :1185 *)
      (m, MFont f w s c)
  end.

(** ** Hexadecimal text *)
Fixpoint upd {A} (l : list A) (i : nat) (a : A) : list A :=
  match l, i with
  | [], _ => []
  | _ :: l, O => a :: l
  | x :: l, S i => x :: upd l i a
  end.
Definition hex_at (table : bytes) (i : N) : byte := nth (N.to_nat i) table x00.
(** The loop of values.go:1047-1050 and ref.go:88-91, in place on [buf], for
    i = n-1 down to 0. *)
Fixpoint hex_loop (table : bytes) (n : nat) (buf : bytes) : bytes :=
  match n with
  | O => buf
  | S i =>
      let buf := upd buf (i * 2 + 1) (hex_at table (N.land (b2N (nth i buf x00)) 0x0f)) in
      let buf := upd buf (i * 2) (hex_at table (N.shiftr (b2N (nth i buf x00)) 4)) in
      hex_loop table i buf
  end.
Definition lower_hex : bytes := str "0123456789abcdef".
Definition upper_hex : bytes := str "0123456789ABCDEF".
(** values.go:1041-1052 ValueUniqueId.String *)
Definition uniqueid_string (random : Z) (time index : N) : bytes :=
  hex_loop lower_hex 16 (be_bytes 8 (toN 64 random) ++ be_bytes 4 time ++ be_bytes 4 index ++ repeat x00 16).
(** ref.go:80-93 generateUUID on the 16 random bytes read; ref.go:98 *)
Definition generateUUID (rnd : bytes) : bytes :=
  let buf := rnd ++ repeat x00 16 in
  let buf := upd buf 6 (N2b (N.lor (N.land (b2N (nth 6 buf x00)) 0x0F) 0x40)) in
  let buf := upd buf 8 (N2b (N.lor (N.land (b2N (nth 8 buf x00)) 0x3F) 0x80)) in
  hex_loop upper_hex 16 buf.
Definition GenerateReference (rnd : bytes) : bytes := str "RBX" ++ generateUUID rnd.

(** ** Fonts: values.go:1063-1086 and 1103-1151 *)
Definition FontStyleFromString (s : string) : option N :=
  if String.eqb s "Normal"%string then Some 0%N else if String.eqb s "Italic"%string then Some 1%N else None.
Definition fontstyle_string (f : N) : string :=
  if (f =? 0)%N then "Normal"%string else if (f =? 1)%N then "Italic"%string else "<invalid>"%string.
Definition FontWeightFromString (s : string) : option N :=
  if String.eqb s "Thin"%string then Some 100%N
  else if String.eqb s "ExtraLight"%string then Some 200%N
  else if String.eqb s "Light"%string then Some 300%N
  else if String.eqb s "Regular"%string then Some 400%N
  else if String.eqb s "Medium"%string then Some 500%N
  else if String.eqb s "SemiBold"%string then Some 600%N
  else if String.eqb s "Bold"%string then Some 700%N
  else if String.eqb s "ExtraBold"%string then Some 800%N
  else if String.eqb s "Heavy"%string then Some 900%N
  else None.
Definition fontweight_string (f : N) : string :=
  if (f =? 100)%N then "Thin"%string
  else if (f =? 200)%N then "ExtraLight"%string
  else if (f =? 300)%N then "Light"%string
  else if (f =? 400)%N then "Regular"%string
  else if (f =? 500)%N then "Medium"%string
  else if (f =? 600)%N then "SemiBold"%string
  else if (f =? 700)%N then "Bold"%string
  else if (f =? 800)%N then "ExtraBold"%string
  else if (f =? 900)%N then "Heavy"%string
  else "<invalid>"%string.
