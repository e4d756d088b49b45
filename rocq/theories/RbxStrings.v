(** RbxStrings.v - model of the String methods of /repo/values.go (those of
    FontStyle, FontWeight, Type and UniqueId are in RbxValues.v).

    strconv.FormatFloat(float64(f), 'f', -1, bits) is a parameter for each of
    the two sizes, the text of an instance's Reference is a parameter on
    pointers; strings.Join and strings.Builder are as documented. *)
From Verif Require Import Base RbxlValues RbxValues XmlText.

(** values.go:168-180 joinstr: a buffer of the summed length, each string
    copied to where the one before ended.  Go's copy stops at the shorter of
    the two slices. *)
Fixpoint copy_at (b : bytes) (bp : nat) (s : bytes) : bytes :=
  match s with
  | [] => b
  | c :: s => copy_at (upd b bp c) (S bp) s
  end.
Fixpoint joinstr_loop (b : bytes) (bp : nat) (a : list bytes) : bytes :=
  match a with
  | [] => b
  | s :: a => joinstr_loop (copy_at b bp s) (bp + Nat.min (length b - bp) (length s)) a
  end.
Definition joinstr (a : list bytes) : bytes :=
  joinstr_loop (repeat x00 (fold_left (fun n s => n + length s) a 0)) 0 a.

(** strings.Join *)
Fixpoint strings_Join (a : list bytes) (sep : bytes) : bytes :=
  match a with
  | [] => []
  | [s] => s
  | s :: a => s ++ sep ++ strings_Join a sep
  end.

Section Strings.
(** FormatFloat(float64(f), 'f', -1, 32) of a float32, FormatFloat(f, 'f', -1,
    64) of a float64, the Reference of an instance *)
Variables (ff32 ff64 : N -> bytes) (reference : ptr -> bytes).

Definition comma : bytes := str ", ".
Definition space : bytes := str " ".

(** values.go:352-358 ValueUDim.String *)
Definition udim_string (scale : N) (offset : Z) : bytes := joinstr [ff32 scale; comma; FormatInt offset].
(** values.go:567-575 ValueVector3.String *)
Definition vector3_string (v : vec3) : bytes := joinstr [ff32 (v3x v); comma; ff32 (v3y v); comma; ff32 (v3z v)].

(** values.go:428-450 ValueFaces.String *)
Definition faces_string (right top back left bottom front : bool) : bytes :=
  let s := [] in
  let s := if front then s ++ [str "Front"] else s in
  let s := if bottom then s ++ [str "Bottom"] else s in
  let s := if left then s ++ [str "Left"] else s in
  let s := if back then s ++ [str "Back"] else s in
  let s := if top then s ++ [str "Top"] else s in
  let s := if right then s ++ [str "Right"] else s in
  strings_Join s comma.
(** values.go:468-481 ValueAxes.String *)
Definition axes_string (x y z : bool) : bytes :=
  let s := [] in
  let s := if x then s ++ [str "X"] else s in
  let s := if y then s ++ [str "Y"] else s in
  let s := if z then s ++ [str "Z"] else s in
  strings_Join s comma.

(** values.go:597-606 ValueCFrame.String: twelve strings, set one by one *)
Fixpoint rot_strings (s : list bytes) (i : nat) (rot : list N) : list bytes :=
  match rot with
  | [] => s
  | f :: rot => rot_strings (upd s (i + 3) (ff32 f)) (S i) rot
  end.
Definition cframe_string (p : vec3) (rot : list N) : bytes :=
  let s := repeat [] 12 in
  let s := upd s 0 (ff32 (v3x p)) in
  let s := upd s 1 (ff32 (v3y p)) in
  let s := upd s 2 (ff32 (v3z p)) in
  strings_Join (rot_strings s 0 rot) comma.

(** values.go:708-716 ValueNumberSequenceKeypoint.String *)
Definition nskey_string (k : nskey) : bytes := joinstr [ff32 (ns_time k); space; ff32 (ns_value k); space; ff32 (ns_env k)].
(** values.go:749-761 ValueColorSequenceKeypoint.String *)
Definition cskey_string (k : cskey) : bytes :=
  joinstr [ff32 (cs_time k); space; ff32 (cs_r k); space; ff32 (cs_g k); space; ff32 (cs_b k); space; ff32 (cs_env k)].
(** values.go:727-734 and 772-779: every keypoint followed by a space *)
Fixpoint sequence_loop {K} (key : K -> bytes) (b : bytes) (t : list K) : bytes :=
  match t with
  | [] => b
  | v :: t => sequence_loop key ((b ++ key v) ++ [x20]) t
  end.

(** The String methods of the values, values.go:193-1179 *)
Fixpoint value_string (v : rvalue) : bytes :=
  match v with
  | RString s | RBinaryString s | RProtectedString s | RContent s | RSharedString s => s
  | RBool t => if t then str "true" else str "false"
  | RInt n => FormatInt n
  | RFloat f => ff32 f
  | RDouble f => ff64 f
  | RUDim s o => udim_string s o
  | RUDim2 xs xo ys yo => joinstr [str "{"; udim_string xs xo; str "}, {"; udim_string ys yo; str "}"]
  | RRay o d => joinstr [str "{"; vector3_string o; str "}, {"; vector3_string d; str "}"]
  | RFaces rgt top back lft bottom front => faces_string rgt top back lft bottom front
  | RAxes x y z => axes_string x y z
  | RBrickColor n => FormatUint n
  | RColor3 r g b => joinstr [ff32 r; comma; ff32 g; comma; ff32 b]
  | RVector2 x y => joinstr [ff32 x; comma; ff32 y]
  | RVector3 v => vector3_string v
  | RCFrame p rot => cframe_string p rot
  | RToken n => FormatInt (Z.of_N n)
  | RReference p => if Nat.eqb p 0 then str "<nil>" else reference p
  | RVector3int16 x y z => joinstr [FormatInt x; comma; FormatInt y; comma; FormatInt z]
  | RVector2int16 x y => joinstr [FormatInt x; comma; FormatInt y]
  | RNumberSequence ks => sequence_loop nskey_string [] ks
  | RColorSequence ks => sequence_loop cskey_string [] ks
  | RNumberRange a b => joinstr [ff32 a; space; ff32 b]
  | RRect a b c d => joinstr [ff32 a; comma; ff32 b; comma; ff32 c; comma; ff32 d]
  | RPhysicalProperties custom d f e fw ew =>
      if custom then joinstr [ff32 d; comma; ff32 f; comma; ff32 e; comma; ff32 fw; comma; ff32 ew] else str "nil"
  | RColor3uint8 r g b => joinstr [FormatUint (b2N r); comma; FormatUint (b2N g); comma; FormatUint (b2N b)]
  | RInt64 n => FormatInt n
  | ROptional _ None => str "nil"
  | ROptional _ (Some v) => value_string v
  | RUniqueId r t i => uniqueid_string r t i
  | RFont family weight style _ =>
      (((((str "Font { Family = " ++ family) ++ str ", Weight = ") ++ str (fontweight_string weight)) ++ str ", Style = ") ++
         str (fontstyle_string (b2N style))) ++ str " }"
  end.
End Strings.
