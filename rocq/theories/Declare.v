(** Declare.v - model of /repo/declare: declarations of trees.

    Conversions of floats that do not fit an integer type depend on the
    implementation: a parameter. *)
From Verif Require Import Base RbxlValues RbxValues Tree Ieee.
Local Notation string := String.string.

(** ** The arguments of a property *)

(** Go's integer types, except uintptr, which type.go does not list. *)
Inductive ikind := Kint | Kuint | Kuint8 | Kuint16 | Kuint32 | Kuint64 | Kint8 | Kint16 | Kint32 | Kint64.
(** An interface{}: a builtin number, string, []byte or bool, a rbxfile.Value,
    a keypoint, a *rbxfile.Instance, or anything else, including nil and types
    such as time.Duration that are not builtin. *)
Inductive dval :=
| DInt (k : ikind) (z : Z) | DFloat32 (f : N) | DFloat64 (f : N)
| DString (s : bytes) | DBytes (s : bytes) | DBool (b : bool)
| DValue (v : rvalue) | DNSKey (k : nskey) | DCSKey (k : cskey) | DInstance (p : ptr) | DOther.

(** type.go:22-53: the declared types have the numbers of rbxfile's types.
    type.go:68-99 typeStrings, a map *)
Definition d_typeStrings : list (Type_ * string) := [
  (1, "String"); (2, "BinaryString"); (3, "ProtectedString"); (4, "Content"); (5, "Bool"); (6, "Int"); (7, "Float"); (8, "Double");
  (9, "UDim"); (10, "UDim2"); (11, "Ray"); (12, "Faces"); (13, "Axes"); (14, "BrickColor"); (15, "Color3"); (16, "Vector2"); (17, "Vector3");
  (18, "CFrame"); (19, "Token"); (20, "Reference"); (21, "Vector3int16"); (22, "Vector2int16"); (23, "NumberSequence");
  (24, "ColorSequence"); (25, "NumberRange"); (26, "Rect"); (27, "PhysicalProperties"); (28, "Color3uint8"); (29, "Int64");
  (30, "SharedString") ]%N%string.
(** type.go:14-20 Type.String *)
Definition d_type_string (t : Type_) : string :=
  match assocN d_typeStrings t with Some s => s | None => "Invalid"%string end.
(** strings.ToLower.  Besides ASCII letters only the Kelvin sign and the dotted
    capital I become ASCII; other letters are left alone here, which makes no
    difference to a comparison with ASCII text. *)
Definition lower_byte (b : byte) : byte := if ((0x41 <=? b2N b) && (b2N b <=? 0x5a))%N then N2b (b2N b + 32) else b.
Fixpoint to_lower (s : bytes) : bytes :=
  match s with
  | xe2 :: x84 :: xaa :: s => x6b :: to_lower s
  | xc4 :: xb0 :: s => x69 :: to_lower s
  | b :: s => lower_byte b :: to_lower s
  | [] => []
  end.
(** type.go:58-66 TypeFromString; [table] is the map in iteration order *)
Fixpoint d_type_from_string_in (table : list (Type_ * string)) (s : bytes) : Type_ :=
  match table with
  | [] => 0%N
  | (t, n) :: table => if bytes_eqb (to_lower s) (to_lower (str n)) then t else d_type_from_string_in table s
  end.

Section Values.
Variable other : format -> Z -> Z -> N -> Z.
(** T(x) for an integer type T with n bits *)
Definition s_wrap (n z : Z) : Z := (let m := z mod 2 ^ n in if m <? 2 ^ (n - 1) then m else m - 2 ^ n)%Z.
Definition u_wrap (n z : Z) : Z := (z mod 2 ^ n)%Z.
Definition s_of (f : format) (n : Z) : N -> Z := (f_to_int f (- 2 ^ (n - 1)) (2 ^ (n - 1) - 1) (other f (- 2 ^ (n - 1)) (2 ^ (n - 1) - 1)))%Z.
Definition u_of (f : format) (n : Z) : N -> Z := (f_to_int f 0 (2 ^ n - 1) (other f 0 (2 ^ n - 1)))%Z.
(** The twelve cases of each norm function; 0 for everything else. *)
Definition norm {A} (i : Z -> A) (f32 f64 : N -> A) (zero : A) (v : dval) : A :=
  match v with
  | DInt Kint z => i z
  | DInt Kuint z => i z
  | DInt Kuint8 z => i z
  | DInt Kuint16 z => i z
  | DInt Kuint32 z => i z
  | DInt Kuint64 z => i z
  | DInt Kint8 z => i z
  | DInt Kint16 z => i z
  | DInt Kint32 z => i z
  | DInt Kint64 z => i z
  | DFloat32 f => f32 f
  | DFloat64 f => f64 f
  | _ => zero
  end.
(** type.go:101-130 normUint8 *)
Definition normUint8 (v : dval) : byte := N2b (Z.to_N (norm (u_wrap 8) (u_of F32 8) (u_of F64 8) 0%Z v)).
(** type.go:132-161 normInt16 *)
Definition normInt16 : dval -> Z := norm (s_wrap 16) (s_of F32 16) (s_of F64 16) 0%Z.
(** type.go:163-192 normInt32 *)
Definition normInt32 : dval -> Z := norm (s_wrap 32) (s_of F32 32) (s_of F64 32) 0%Z.
(** type.go:194-223 normInt64 *)
Definition normInt64 : dval -> Z := norm (s_wrap 64) (s_of F32 64) (s_of F64 64) 0%Z.
(** type.go:225-254 normUint32 *)
Definition normUint32 (v : dval) : N := Z.to_N (norm (u_wrap 32) (u_of F32 32) (u_of F64 32) 0%Z v).
(** type.go:256-285 normFloat32 *)
Definition normFloat32 : dval -> N := norm f32_of_Z (fun f => f) f32_of_f64 0%N.
(** type.go:287-316 normFloat64 *)
Definition normFloat64 : dval -> N := norm f64_of_Z f64_of_f32 (fun f => f) 0%N.
(** type.go:318-321 normBool *)
Definition normBool (v : dval) : bool := match v with DBool b => b | _ => false end.
(** x, _ := v.(rbxfile.ValueUDim) and so on *)
Definition as_udim (v : dval) : N * Z := match v with DValue (RUDim s o) => (s, o) | _ => (0%N, 0%Z) end.
Definition as_vec3 (v : dval) : vec3 := match v with DValue (RVector3 x) => x | _ => Vec3 0 0 0 end.
Definition as_vec2 (v : dval) : N * N := match v with DValue (RVector2 x y) => (x, y) | _ => (0, 0)%N end.
Definition as_nskey (v : dval) : nskey := match v with DNSKey k => k | _ => NSK 0 0 0 end.
Definition as_cskey (v : dval) : cskey := match v with DCSKey k => k | _ => CSK 0 0 0 0 0 end.

(** type.go:323-387 assertValue: a value of the declared type.  The cases are
    those of the first thirty types. *)
Definition assertable : list Type_ :=
  [TypeString; TypeBinaryString; TypeProtectedString; TypeContent; TypeBool; TypeInt; TypeFloat; TypeDouble; TypeUDim; TypeUDim2; TypeRay; TypeFaces;
   TypeAxes; TypeBrickColor; TypeColor3; TypeVector2; TypeVector3; TypeCFrame; TypeToken; TypeReference; TypeVector3int16; TypeVector2int16;
   TypeNumberSequence; TypeColorSequence; TypeNumberRange; TypeRect; TypePhysicalProperties; TypeColor3uint8; TypeInt64; TypeSharedString].
Definition assertValue (t : Type_) (v : dval) : option rvalue :=
  match v with
  | DValue r => if existsb (N.eqb t) assertable && (rtype r =? t)%N then Some r else None
  | _ => None
  end.
(** type.go:389-727 Type.value.  [None] is the nil of rbxfile.NewValue for an
    invalid type.  refs[s] of a missing key is nil, as in a nil map. *)
Definition d_value (t : Type_) (refs : refmap) (v : list dval) : outcome Empty_set (option rvalue) :=
  let zero := OK (NewValue t) in
  let ret r := OK (Some (r : rvalue)) in
  let f := normFloat32 in
  match v with
  | [] => zero
  | v0 :: rest =>
      match assertValue t v0 with
      | Some r => ret r
      | None =>
          let text mk := match v0 with DString s => ret (mk s) | DBytes s => ret (mk s) | _ => zero end in
          if (t =? TypeString)%N then text RString
          else if (t =? TypeBinaryString)%N then text RString
          else if (t =? TypeProtectedString)%N then text RString
          else if (t =? TypeContent)%N then text RString
          else if (t =? TypeBool)%N then match v0 with DBool b => ret (RBool b) | _ => zero end
          else if (t =? TypeInt)%N then ret (RInt (normInt32 v0))
          else if (t =? TypeFloat)%N then ret (RFloat (normFloat32 v0))
          else if (t =? TypeDouble)%N then ret (RFloat (f32_of_f64 (normFloat64 v0)))
          else if (t =? TypeUDim)%N then
            match v with [a; b] => ret (RUDim (f a) (normInt32 b)) | _ => zero end
          else if (t =? TypeUDim2)%N then
            match v with
            | [a; b] => ret (RUDim2 (fst (as_udim a)) (snd (as_udim a)) (fst (as_udim b)) (snd (as_udim b)))
            | [a; b; c; d] => ret (RUDim2 (f a) (normInt32 b) (f c) (normInt32 d))
            | _ => zero
            end
          else if (t =? TypeRay)%N then
            match v with
            | [a; b] => ret (RRay (as_vec3 a) (as_vec3 b))
            | [a; b; c; d; e; g] => ret (RRay (Vec3 (f a) (f b) (f c)) (Vec3 (f d) (f e) (f g)))
            | _ => zero
            end
          else if (t =? TypeFaces)%N then
            match v with
            | [a; b; c; d; e; g] => ret (RFaces (normBool a) (normBool b) (normBool c) (normBool d) (normBool e) (normBool g))
            | _ => zero
            end
          else if (t =? TypeAxes)%N then
            match v with [a; b; c] => ret (RAxes (normBool a) (normBool b) (normBool c)) | _ => zero end
          else if (t =? TypeBrickColor)%N then ret (RBrickColor (normUint32 v0))
          else if (t =? TypeColor3)%N then
            match v with [a; b; c] => ret (RColor3 (f a) (f b) (f c)) | _ => zero end
          else if (t =? TypeVector2)%N then
            match v with [a; b] => ret (RVector2 (f a) (f b)) | _ => zero end
          else if (t =? TypeVector3)%N then
            match v with [a; b; c] => ret (RVector3 (Vec3 (f a) (f b) (f c))) | _ => zero end
          else if (t =? TypeCFrame)%N then
            match v with
            | [a; b; c; d; e; g; h; i; j; _] => ret (RCFrame (as_vec3 a) [f a; f b; f c; f d; f e; f g; f h; f i; f j])
            | [a; b; c; d; e; g; h; i; j; k; l; m] =>
                ret (RCFrame (Vec3 (f a) (f b) (f c)) [f d; f e; f g; f h; f i; f j; f k; f l; f m])
            | _ => zero
            end
          else if (t =? TypeToken)%N then ret (RToken (normUint32 v0))
          else if (t =? TypeReference)%N then
            match v0 with
            | DString s => ret (RReference (rget refs s))
            | DBytes s => ret (RReference (rget refs s))
            | DInstance p => ret (RReference p)
            | _ => zero
            end
          else if (t =? TypeVector3int16)%N then
            match v with [a; b; c] => ret (RVector3int16 (normInt16 a) (normInt16 b) (normInt16 c)) | _ => zero end
          else if (t =? TypeVector2int16)%N then
            match v with [a; b] => ret (RVector2int16 (normInt16 a) (normInt16 b)) | _ => zero end
          else if (t =? TypeNumberSequence)%N then
            (* :612-621: keypoints made of groups of three are dropped *)
            match v0, rest with
            | DNSKey _, _ :: _ => ret (RNumberSequence (map as_nskey v))
            | _, _ => zero
            end
          else if (t =? TypeColorSequence)%N then
            (* :632: v[1] of a single value; :632-658: keypoints made of groups
               of three or five are dropped *)
            match v0, rest with
            | DCSKey _, _ :: _ => ret (RColorSequence (map as_cskey v))
            | _, [] => Panic
            | _, _ => zero
            end
          else if (t =? TypeNumberRange)%N then
            match v with [a; b] => ret (RNumberRange (f a) (f b)) | _ => zero end
          else if (t =? TypeRect)%N then
            match v with
            | [a; b] => ret (RRect (fst (as_vec2 a)) (snd (as_vec2 a)) (fst (as_vec2 a)) (snd (as_vec2 a)))
            | [a; b; c; d] => ret (RRect (f a) (f b) (f c) (f d))
            | _ => zero
            end
          else if (t =? TypePhysicalProperties)%N then
            match v with
            | [a; b; c] => ret (RPhysicalProperties true (f a) (f b) (f c) 0 0)
            | [a; b; c; d; e] => ret (RPhysicalProperties true (f a) (f b) (f c) (f d) (f e))
            | _ => zero
            end
          else if (t =? TypeColor3uint8)%N then
            match v with [a; b; c] => ret (RColor3uint8 (normUint8 a) (normUint8 b) (normUint8 c)) | _ => zero end
          else if (t =? TypeInt64)%N then ret (RInt64 (normInt64 v0))
          else if (t =? TypeSharedString)%N then text RSharedString
          else zero
      end
  end.

(** ** Declarations *)

(** declare.go:180-184 property, :111-116 instance *)
Record dprop := DProp { dp_name : bytes; dp_type : Type_; dp_vals : list dval }.
Inductive dinst := DInst (class ref : bytes) (props : list dprop) (children : list dinst).
(** declare.go:104-108 element: Ref, property, instance *)
Inductive element := ERef (r : bytes) | EProp (p : dprop) | EInst (d : dinst).
(** declare.go:161-178 Instance *)
Definition add_element (d : dinst) (e : element) : dinst :=
  match d, e with
  | DInst class _ ps cs, ERef r => DInst class r ps cs
  | DInst class r ps cs, EProp p => DInst class r (ps ++ [p]) cs
  | DInst class r ps cs, EInst c => DInst class r ps (cs ++ [c])
  end.
Definition d_Instance (class : bytes) (es : list element) : dinst := fold_left add_element es (DInst class [] [] []).
(** declare.go:20-28 primary: instance, metadata *)
Inductive primary := PInst (d : dinst) | PMeta (k v : bytes).

(** What build passes along: the instances, the references, the properties of
    each new instance (a map with pointers as keys, all different). *)
Record bst := Bst { b_heap : heap; b_refs : refmap; b_props : list (ptr * list dprop) }.
(** declare.go:31-50 build *)
Fixpoint build (d : dinst) (s : bst) : ptr * bst :=
  match d with
  | DInst class ref props children =>
      let p := S (length (b_heap s)) in
      let s := Bst (b_heap s ++ [Inst class ref false [] []])
                   (if bytes_eqb ref [] then b_refs s else mset (b_refs s) ref p)
                   (b_props s ++ [(p, props)]) in
      let '(cs, s) := (fix go l s := match l with
        | [] => ([], s)
        | c :: l => let '(q, s) := build c s in let '(qs, s) := go l s in (q :: qs, s)
        end) children s in
      (p, Bst (match hget (b_heap s) p with
               | Some i => hset (b_heap s) p (Inst (i_class i) (i_ref i) (i_service i) (i_props i) cs)
               | None => b_heap s
               end) (b_refs s) (b_props s))
  end.
(** declare.go:85-89, 144-148: the properties of one instance.  Simplified: a
    nil value (of an invalid type) is not entered. *)
Fixpoint set_dprops (refs : refmap) (p : ptr) (l : list dprop) (h : heap) : outcome Empty_set heap :=
  match l with
  | [] => OK h
  | d :: l =>
      v <- d_value (dp_type d) refs (dp_vals d) ;;
      set_dprops refs p l (match v, hget h p with
        | Some v, Some i => hset h p (set_props i (mset (i_props i) (dp_name d) v))
        | _, _ => h
        end)
  end.
Fixpoint set_all_dprops (refs : refmap) (l : list (ptr * list dprop)) (h : heap) : outcome Empty_set heap :=
  match l with
  | [] => OK h
  | (p, ps) :: l => h <- set_dprops refs p ps h ;; set_all_dprops refs l h
  end.
(** [ord l] is the iteration order of the map of properties. *)
Variable ord : list (ptr * list dprop) -> list (ptr * list dprop).
(** declare.go:56-92 Root.Declare; h are the instances that exist already *)
Fixpoint declare_loop (l : list primary) (r : root) (s : bst) : root * bst :=
  match l with
  | [] => (r, s)
  | PInst d :: l => let '(p, s) := build d s in declare_loop l (Root (r_instances r ++ [p]) (r_metadata r)) s
  | PMeta k v :: l => declare_loop l (Root (r_instances r) (mset (r_metadata r) k v)) s
  end.
Definition Root_Declare (l : list primary) (h : heap) : outcome Empty_set (root * heap) :=
  let '(r, s) := declare_loop l (Root [] []) (Bst h [] []) in
  h <- set_all_dprops (b_refs s) (ord (b_props s)) (b_heap s) ;; OK (r, h).
(** declare.go:124-151 instance.Declare: build with new tables *)
Definition Instance_Declare (d : dinst) (h : heap) : outcome Empty_set (ptr * heap) :=
  let '(p, s) := build d (Bst h [] []) in
  h <- set_all_dprops (b_refs s) (ord (b_props s)) (b_heap s) ;; OK (p, h).
(** declare.go:304-307 property.Declare *)
Definition Property_Declare (p : dprop) : outcome Empty_set (option rvalue) := d_value (dp_type p) [] (dp_vals p).
End Values.
