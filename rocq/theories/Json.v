(** Json.v - model of /repo/json/json.go: trees to generic JSON values and
    back.

    The generic values are Go's interface{} values.  JSON text itself is not
    modelled: [marshal] says which value a reader of the text that
    encoding/json writes gets.  Conversions of floats that do not fit an
    integer type depend on the implementation: a parameter. *)
From Verif Require Import Base RbxlValues RbxValues Tree RbxlCodec XmlText Ieee.
Local Notation string := String.string.

(** nil, bool, float64, string, []interface{}, map[string]interface{}, and
    rbxfile.Type (put into an interface by json.go:411). *)
Inductive jv :=
| JNull | JBool (b : bool) | JNum (f : N) | JStr (s : bytes) | JArr (l : list jv) | JObj (m : list (bytes * jv))
| JType (t : Type_).

(** ** encoding/json *)

Definition cont (b : byte) : bool := ((0x80 <=? b2N b) && (b2N b <=? 0xbf))%N.
Definition between (lo hi : N) (b : byte) : bool := ((lo <=? b2N b) && (b2N b <=? hi))%N.
(** The length of the UTF-8 sequence at the start, 0 if it is not valid
    (unicode/utf8.DecodeRune). *)
Definition rune_len (s : bytes) : nat :=
  match s with
  | [] => 0
  | a :: s =>
      if (b2N a <? 0x80)%N then 1
      else
        match s with
        | b :: s =>
            if between 0xc2 0xdf a && cont b then 2
            else
              match s with
              | c :: s =>
                  let second := if Byte.eqb a xe0 then between 0xa0 0xbf b
                                else if Byte.eqb a xed then between 0x80 0x9f b else cont b in
                  if between 0xe0 0xef a && second && cont c then 3
                  else
                    match s with
                    | d :: _ =>
                        let second := if Byte.eqb a xf0 then between 0x90 0xbf b
                                      else if Byte.eqb a xf4 then between 0x80 0x8f b else cont b in
                        if between 0xf0 0xf4 a && second && cont c && cont d then 4 else 0
                    | [] => 0
                    end
              | [] => 0
              end
        | [] => 0
        end
  end.
(** A string as it is read back: each byte that is not part of a valid
    sequence is U+FFFD. *)
Fixpoint utf8_loop (fuel : nat) (s : bytes) : bytes :=
  match fuel, s with
  | _, [] | O, _ => []
  | S fuel, a :: r =>
      match rune_len s with
      | O => xef :: xbf :: xbd :: utf8_loop fuel r
      | n => firstn n s ++ utf8_loop fuel (skipn n s)
      end
  end.
Definition utf8_fix (s : bytes) : bytes := utf8_loop (length s) s.
(** json.Marshal and then json.Unmarshal into an interface{}: [None] is the
    error of Marshal for a number that is not finite.  Keys are written sorted;
    the last of equal keys counts. *)
Fixpoint marshal (v : jv) : option jv :=
  match v with
  | JNull => Some JNull
  | JBool b => Some (JBool b)
  | JNum f => if f_finite F64 f then Some (JNum f) else None
  | JStr s => Some (JStr (utf8_fix s))
  | JType t => Some (JNum (f64_of_Z (Z.of_N t)))
  | JArr l => option_map JArr ((fix go l := match l with
      | [] => Some []
      | v :: l => match marshal v, go l with Some v, Some l => Some (v :: l) | _, _ => None end end) l)
  | JObj m => option_map (fun m => JObj (fold_left (fun acc kv => mset acc (utf8_fix (fst kv)) (snd kv)) (sort_by fst m) [])) ((fix go m := match m with
      | [] => Some []
      | (k, v) :: m => match marshal v, go m with Some v, Some m => Some ((k, v) :: m) | _, _ => None end end) m)
  end.

(** ** Encoding *)

(** References (ref.go) with the heap and the random reads so far. *)
Record jst := Jst { js_heap : heap; js_refs : refmap; js_rnd : nat }.
Section Encode.
Variable rnd : nat -> bytes.
Definition jout := outcome Empty_set.
(** refs.Get(p) *)
Definition j_ref (p : ptr) (s : jst) : jout (jv * jst) :=
  ' (r, h, m, k) <- get_ref rnd (js_heap s) (js_refs s) (js_rnd s) p ;; OK (JStr r, Jst h m k).
(** float64(x) of a float32, of an integer *)
Definition jf (f : N) : jv := JNum (f64_of_f32 f).
Definition ji (z : Z) : jv := JNum (f64_of_Z z).
Definition jn (n : N) : jv := ji (Z.of_N n).
Definition obj (l : list (string * jv)) : jv := JObj (map (fun kv => (str (fst kv), snd kv)) l).
(** json.go:263-267, 403-408: the encoder is not closed, so that the bytes
    after the last group of three are not written. *)
Definition b64_unclosed (s : bytes) : bytes := b64_encode (firstn (length s / 3 * 3) s).
(** json.go:283-287 ValueUDim, :315-320 ValueColor3, :321-325 ValueVector2,
    :326-331 ValueVector3 *)
Definition j_udim (scale : N) (offset : Z) : jv := obj [("scale", jf scale); ("offset", ji offset)]%string.
Definition j_color3 (r g b : N) : jv := obj [("r", jf r); ("g", jf g); ("b", jf b)]%string.
Definition j_vec2 (x y : N) : jv := obj [("x", jf x); ("y", jf y)]%string.
Definition j_vec3 (v : vec3) : jv := obj [("x", jf (v3x v)); ("y", jf (v3y v)); ("z", jf (v3z v))]%string.
(** json.go:259-416 ValueToJSONInterface; a type without a case is nil *)
Fixpoint ValueToJSON (v : rvalue) (s : jst) : jout (jv * jst) :=
  let pure j := OK (j : jv, s) in
  match v with
  | RString b => pure (JStr b)
  | RBinaryString b => pure (JStr (b64_unclosed b))
  | RProtectedString b => pure (JStr b)
  | RContent b => pure (match b with [] => JNull | _ => JStr b end)
  | RBool b => pure (JBool b)
  | RInt n => pure (ji n)
  | RFloat f => pure (jf f)
  | RDouble f => pure (JNum f)
  | RUDim sc o => pure (j_udim sc o)
  | RUDim2 xs xo ys yo => pure (obj [("x", j_udim xs xo); ("y", j_udim ys yo)]%string)
  | RRay o d => pure (obj [("origin", j_vec3 o); ("direction", j_vec3 d)]%string)
  | RFaces r t b l bo f =>
      pure (obj [("right", JBool r); ("top", JBool t); ("back", JBool b); ("left", JBool l); ("bottom", JBool bo); ("front", JBool f)]%string)
  | RAxes x y z => pure (obj [("x", JBool x); ("y", JBool y); ("z", JBool z)]%string)
  | RBrickColor n => pure (jn n)
  | RColor3 r g b => pure (j_color3 r g b)
  | RVector2 x y => pure (j_vec2 x y)
  | RVector3 v => pure (j_vec3 v)
  | RCFrame p rot => pure (obj [("position", j_vec3 p); ("rotation", JArr (map jf rot))]%string)
  | RToken n => pure (jn n)
  | RReference p => j_ref p s
  | RVector3int16 x y z => pure (obj [("x", ji x); ("y", ji y); ("z", ji z)]%string)
  | RVector2int16 x y => pure (obj [("x", ji x); ("y", ji y)]%string)
  | RNumberSequence ks =>
      pure (JArr (map (fun k => obj [("time", jf (ns_time k)); ("value", jf (ns_value k)); ("envelope", jf (ns_env k))]%string) ks))
  | RColorSequence ks =>
      pure (JArr (map (fun k => obj [("time", jf (cs_time k)); ("value", j_color3 (cs_r k) (cs_g k) (cs_b k)); ("envelope", jf (cs_env k))]%string) ks))
  | RNumberRange a b => pure (obj [("min", jf a); ("max", jf b)]%string)
  | RRect a b c d => pure (obj [("min", j_vec2 a b); ("max", j_vec2 c d)]%string)
  | RPhysicalProperties custom d f e fw ew =>
      pure (obj [("custom_physics", JBool custom); ("density", jf d); ("friction", jf f); ("elasticity", jf e);
                 ("friction_weight", jf fw); ("elasticity_weight", jf ew)]%string)
  | RColor3uint8 r g b => pure (obj [("r", jn (b2N r)); ("g", jn (b2N g)); ("b", jn (b2N b))]%string)
  | RInt64 n => pure (ji n)
  | RSharedString b => pure (JStr (b64_unclosed b))
  | ROptional t None => pure (obj [("type", JType t); ("value", JNull)]%string)
  | ROptional t (Some v) => ' (j, s) <- ValueToJSON v s ;; OK (obj [("type", JType t); ("value", j)]%string, s)
  | RUniqueId _ _ _ | RFont _ _ _ _ => pure JNull
  end.
(** json.go:165-170: the properties, in the order in which they are ranged over *)
Fixpoint props_to_json (l : list (bytes * rvalue)) (s : jst) : jout (list (bytes * jv) * jst) :=
  match l with
  | [] => OK ([], s)
  | (name, v) :: l =>
      ' (j, s) <- ValueToJSON v s ;;
      ' (r, s) <- props_to_json l s ;;
      OK ((name, obj [("type", JStr (str (type_string (rtype v)))); ("value", j)]%string) :: r, s)
  end.
Fixpoint insts_to_json (f : ptr -> jst -> jout (jv * jst)) (l : list ptr) (s : jst) : jout (list jv * jst) :=
  match l with
  | [] => OK ([], s)
  | p :: l => ' (j, s) <- f p s ;; ' (r, s) <- insts_to_json f l s ;; OK (j :: r, s)
  end.
(** json.go:159-178 InstanceToJSONInterface.  [ord p l] is the iteration order
    of the property map of p. *)
Variable ord : ptr -> list (bytes * rvalue) -> list (bytes * rvalue).
Fixpoint InstanceToJSON (fuel : nat) (p : ptr) (s : jst) : jout (jv * jst) :=
  match fuel with
  | O => Hang
  | S fuel =>
      match hget (js_heap s) p with
      | None => Panic
      | Some i =>
          ' (r, s) <- j_ref p s ;;
          ' (props, s) <- props_to_json (ord p (i_props i)) s ;;
          ' (children, s) <- insts_to_json (InstanceToJSON fuel) (i_children i) s ;;
          OK (obj [("class_name", JStr (i_class i)); ("reference", r); ("is_service", JBool (i_service i));
                   ("properties", JObj props); ("children", JArr children)]%string, s)
      end
  end.
(** json.go:104-114 RootToJSONInterface of a non-nil root *)
Definition RootToJSON (fuel : nat) (h : heap) (r : root) : jout (jv * heap) :=
  ' (insts, s) <- insts_to_json (InstanceToJSON fuel) (r_instances r) (Jst h [] 0) ;;
  OK (obj [("rbxfile_version", ji 0); ("instances", JArr insts)]%string, js_heap s).
(** json.go:15-17 Encode: the value a reader of the text gets, or the error of
    Marshal *)
Definition json_Encode (fuel : nat) (h : heap) (r : root) : jout (option jv * heap) :=
  ' (j, h) <- RootToJSON fuel h r ;; OK (marshal j, h).
End Encode.

(** ** Decoding *)
Section Decode.
(** Conversion of a float64 that the integer type from lo to hi cannot hold. *)
Variable other : Z -> Z -> N -> Z.
Definition to_int (lo hi : Z) (f : N) : Z := f_to_int F64 lo hi (other lo hi) f.
Definition to_i16 := to_int (- 2 ^ 15) (2 ^ 15 - 1).
Definition to_i32 := to_int (- 2 ^ 31) (2 ^ 31 - 1).
Definition to_i64 := to_int (- 2 ^ 63) (2 ^ 63 - 1).
Definition to_u8 := to_int 0 (2 ^ 8 - 1).
Definition to_u32 := to_int 0 (2 ^ 32 - 1).

(** json.go:35-100 indexJSON with a string index *)
Definition index_obj (v : jv) (k : string) : option jv :=
  match v with JObj m => mfind m (str k) | _ => None end.
(** v[k], nil if there is none *)
Definition member (m : list (bytes * jv)) (k : string) : jv :=
  match mfind m (str k) with Some v => v | None => JNull end.
(** v[k].(float64), v[k].(bool): a panic if it is something else *)
Definition num (m : list (bytes * jv)) (k : string) : jout N := match member m k with JNum f => OK f | _ => Panic end.
Definition boolean (m : list (bytes * jv)) (k : string) : jout bool := match member m k with JBool b => OK b | _ => Panic end.
Definition num32 m k : jout N := f <- num m k ;; OK (f32_of_f64 f).
(** json.go:482-490 UDim, :538-547 Color3, :548-556 Vector2, :557-566 Vector3:
    nil if it is not an object *)
Definition from_udim (v : jv) : jout (option (N * Z)) :=
  match v with
  | JObj m => s <- num32 m "scale" ;; o <- num m "offset" ;; OK (Some (s, to_i32 o))
  | _ => OK None
  end.
Definition from_color3 (v : jv) : jout (option (N * N * N)) :=
  match v with
  | JObj m => r <- num32 m "r" ;; g <- num32 m "g" ;; b <- num32 m "b" ;; OK (Some (r, g, b))
  | _ => OK None
  end.
Definition from_vec2 (v : jv) : jout (option (N * N)) :=
  match v with
  | JObj m => x <- num32 m "x" ;; y <- num32 m "y" ;; OK (Some (x, y))
  | _ => OK None
  end.
Definition from_vec3 (v : jv) : jout (option vec3) :=
  match v with
  | JObj m => x <- num32 m "x" ;; y <- num32 m "y" ;; z <- num32 m "z" ;; OK (Some (Vec3 x y z))
  | _ => OK None
  end.
(** x.(T) of a value that is nil or has the type *)
Definition must {A} (o : jout (option A)) : jout A :=
  r <- o ;; match r with Some a => OK a | None => Panic end.
(** json.go:575-584: at most nine entries, the others are zero *)
Fixpoint rotation (n : nat) (l : list jv) : jout (list N) :=
  match n, l with
  | O, _ => OK []
  | n, [] => OK (repeat 0%N n)
  | S n, JNum f :: l => r <- rotation n l ;; OK (f32_of_f64 f :: r)
  | S _, _ :: _ => Panic
  end.
(** json.go:625-635, 643-653: an entry that is not an object is the zero
    keypoint *)
Definition from_nskey (v : jv) : jout nskey :=
  match v with
  | JObj m => t <- num32 m "time" ;; x <- num32 m "value" ;; e <- num32 m "envelope" ;; OK (NSK t x e)
  | _ => OK (NSK 0 0 0)
  end.
Definition from_cskey (v : jv) : jout cskey :=
  match v with
  | JObj m =>
      t <- num32 m "time" ;; ' (r, g, b) <- must (from_color3 (member m "value")) ;; e <- num32 m "envelope" ;;
      OK (CSK t r g b e)
  | _ => OK (CSK 0 0 0 0 0)
  end.
Fixpoint each {A} (f : jv -> jout A) (l : list jv) : jout (list A) :=
  match l with [] => OK [] | v :: l => a <- f v ;; r <- each f l ;; OK (a :: r) end.
(** json.go:432-442, 702-713: text that is not base64 is taken as it is *)
Definition unbase64 (s : bytes) : bytes := match b64_decode s with Some b => b | None => s end.
(** rbxfile.TypeFromString *)
Definition type_of_name (s : bytes) : Type_ := type_from_string_in typeStrings (String.string_of_list_byte s).
(** json.go:424-726 ValueFromJSONInterface; [None] is nil.  A reference is a
    ValueString. *)
Fixpoint ValueFromJSON (v : jv) (typ : Type_) {struct v} : jout (option rvalue) :=
  let some r := OK (Some (r : rvalue)) in
  let text f := match v with JStr s => some (f s) | _ => OK None end in
  let number f := match v with JNum x => some (f x) | _ => OK None end in
  let object f := match v with JObj m => r <- (f m : jout rvalue) ;; some r | _ => OK None end in
  if (typ =? TypeString)%N then text RString
  else if (typ =? TypeBinaryString)%N then text (fun s => RBinaryString (unbase64 s))
  else if (typ =? TypeProtectedString)%N then text RProtectedString
  else if (typ =? TypeContent)%N then match v with JNull => some (RContent []) | JStr s => some (RContent s) | _ => OK None end
  else if (typ =? TypeBool)%N then match v with JBool b => some (RBool b) | _ => OK None end
  else if (typ =? TypeInt)%N then number (fun f => RInt (to_i32 f))
  else if (typ =? TypeFloat)%N then number (fun f => RFloat (f32_of_f64 f))
  else if (typ =? TypeDouble)%N then number RDouble
  else if (typ =? TypeUDim)%N then
    r <- from_udim v ;; OK (option_map (fun so => RUDim (fst so) (snd so)) r)
  else if (typ =? TypeUDim2)%N then
    object (fun m =>
      ' (xs, xo) <- must (from_udim (member m "x")) ;; ' (ys, yo) <- must (from_udim (member m "y")) ;; OK (RUDim2 xs xo ys yo))
  else if (typ =? TypeRay)%N then
    object (fun m => o <- must (from_vec3 (member m "origin")) ;; d <- must (from_vec3 (member m "direction")) ;; OK (RRay o d))
  else if (typ =? TypeFaces)%N then
    object (fun m =>
      r <- boolean m "right" ;; t <- boolean m "top" ;; b <- boolean m "back" ;; l <- boolean m "left" ;;
      bo <- boolean m "bottom" ;; f <- boolean m "front" ;; OK (RFaces r t b l bo f))
  else if (typ =? TypeAxes)%N then
    object (fun m => x <- boolean m "x" ;; y <- boolean m "y" ;; z <- boolean m "z" ;; OK (RAxes x y z))
  else if (typ =? TypeBrickColor)%N then number (fun f => RBrickColor (Z.to_N (to_u32 f)))
  else if (typ =? TypeColor3)%N then
    r <- from_color3 v ;; OK (option_map (fun c => RColor3 (fst (fst c)) (snd (fst c)) (snd c)) r)
  else if (typ =? TypeVector2)%N then r <- from_vec2 v ;; OK (option_map (fun c => RVector2 (fst c) (snd c)) r)
  else if (typ =? TypeVector3)%N then r <- from_vec3 v ;; OK (option_map RVector3 r)
  else if (typ =? TypeCFrame)%N then
    object (fun m =>
      p <- must (from_vec3 (member m "position")) ;;
      match member m "rotation" with
      | JArr l => r <- rotation 9 l ;; OK (RCFrame p r)
      | _ => OK (RCFrame p (repeat 0%N 9))
      end)
  else if (typ =? TypeToken)%N then number (fun f => RToken (Z.to_N (to_u32 f)))
  else if (typ =? TypeReference)%N then text RString
  else if (typ =? TypeVector3int16)%N then
    object (fun m => x <- num m "x" ;; y <- num m "y" ;; z <- num m "z" ;; OK (RVector3int16 (to_i16 x) (to_i16 y) (to_i16 z)))
  else if (typ =? TypeVector2int16)%N then
    object (fun m => x <- num m "x" ;; y <- num m "y" ;; OK (RVector2int16 (to_i16 x) (to_i16 y)))
  else if (typ =? TypeNumberSequence)%N then
    match v with JArr l => ks <- each from_nskey l ;; some (RNumberSequence ks) | _ => OK None end
  else if (typ =? TypeColorSequence)%N then
    match v with JArr l => ks <- each from_cskey l ;; some (RColorSequence ks) | _ => OK None end
  else if (typ =? TypeNumberRange)%N then
    object (fun m => a <- num32 m "min" ;; b <- num32 m "max" ;; OK (RNumberRange a b))
  else if (typ =? TypeRect)%N then
    object (fun m =>
      ' (a, b) <- must (from_vec2 (member m "min")) ;; ' (c, d) <- must (from_vec2 (member m "max")) ;; OK (RRect a b c d))
  else if (typ =? TypePhysicalProperties)%N then
    object (fun m =>
      c <- boolean m "custom_physics" ;; d <- num32 m "density" ;; f <- num32 m "friction" ;; e <- num32 m "elasticity" ;;
      fw <- num32 m "friction_weight" ;; ew <- num32 m "elasticity_weight" ;; OK (RPhysicalProperties c d f e fw ew))
  else if (typ =? TypeColor3uint8)%N then
    object (fun m => r <- num m "r" ;; g <- num m "g" ;; b <- num m "b" ;;
      OK (RColor3uint8 (N2b (Z.to_N (to_u8 r))) (N2b (Z.to_N (to_u8 g))) (N2b (Z.to_N (to_u8 b)))))
  else if (typ =? TypeInt64)%N then number (fun f => RInt64 (to_i64 f))
  else if (typ =? TypeSharedString)%N then text (fun s => RSharedString (unbase64 s))
  else if (typ =? TypeOptional)%N then
    match v with
    | JObj m =>
        match member m "type" with
        | JStr n =>
            let t := type_of_name n in
            (fix value m := match m with
             | [] => some (mkNone t)
             | (k, v) :: m =>
                 if bytes_eqb k (str "value") then
                   match v with
                   | JNull => some (mkNone t)
                   | v => r <- ValueFromJSON v t ;; match r with Some r => some (mkSome r) | None => Panic end
                   end
                 else value m
             end) m
        | _ => Panic
        end
    | _ => OK None
    end
  else OK None.

(** json.go:189-247 InstanceFromJSONInterface: the instances made so far, the
    references, the properties that are references. *)
Record jdst := Jdst { jd_heap : heap; jd_refs : refmap; jd_props : list propref }.
(** json.go:211-234: one property of p *)
Definition prop_from_json (p : ptr) (s : jdst) (nv : bytes * jv) : jout jdst :=
  match index_obj (snd nv) "type", index_obj (snd nv) "value" with
  | Some (JStr t), Some iv =>
      let t := type_of_name t in
      v <- ValueFromJSON iv t ;;
      match v with
      | None => OK s
      | Some v =>
          if (t =? TypeReference)%N then
            match v with
            | RString r => OK (Jdst (jd_heap s) (jd_refs s) (jd_props s ++ [PropRef p (fst nv) r]))
            | _ => Panic
            end
          else
            match hget (jd_heap s) p with
            | Some i => OK (Jdst (hset (jd_heap s) p (set_props i (mset (i_props i) (fst nv) v))) (jd_refs s) (jd_props s))
            | None => Panic
            end
      end
  | _, _ => OK s
  end.
Fixpoint props_from_json (p : ptr) (l : list (bytes * jv)) (s : jdst) : jout jdst :=
  match l with [] => OK s | nv :: l => s <- prop_from_json p s nv ;; props_from_json p l s end.
(** json.go:190-201: the instance with this reference, or a new one *)
Definition inst_for (v : jv) (s : jdst) : ptr * jdst :=
  let ref := match index_obj v "reference" with Some (JStr r) => r | _ => [] end in
  let p := S (length (jd_heap s)) in
  if IsEmptyReference ref then (p, Jdst (jd_heap s ++ [Inst [] [] false [] []]) (jd_refs s) (jd_props s))
  else
    match mfind (jd_refs s) ref with
    | Some q => (q, s)
    | None => (p, Jdst (jd_heap s ++ [Inst [] ref false [] []]) (mset (jd_refs s) ref p) (jd_props s))
    end.
Definition update (s : jdst) (p : ptr) (f : inst -> inst) : jdst :=
  match hget (jd_heap s) p with
  | Some i => Jdst (hset (jd_heap s) p (f i)) (jd_refs s) (jd_props s)
  | None => s
  end.
(** [ord l] is the iteration order of a map of properties. *)
Variable ord : list (bytes * jv) -> list (bytes * jv).
(** The result is the instance, if any.  :246 stores past the end of an empty
    slice, a panic, for every child that is one. *)
Fixpoint InstanceFromJSON (v : jv) (s : jdst) {struct v} : jout (option ptr * jdst) :=
  let '(p, s) := inst_for v s in
  match index_obj v "class_name" with
  | Some (JStr class) =>
      let service := match index_obj v "is_service" with Some (JBool b) => Some b | _ => None end in
      let s := update s p (fun i => Inst class (i_ref i) (match service with Some b => b | None => i_service i end) (i_props i) (i_children i)) in
      let props := match index_obj v "properties" with Some (JObj m) => m | _ => [] end in
      s <- props_from_json p (ord props) s ;;
      let s := update s p (fun i => Inst (i_class i) (i_ref i) (i_service i) (i_props i) []) in
      match v with
      | JObj m =>
          (fix look m := match m with
           | [] => OK (Some p, s)
           | (k, c) :: m =>
               if bytes_eqb k (str "children") then
                 match c with
                 | JArr l =>
                     (fix go l s := match l with
                      | [] => OK (Some p, s)
                      | c :: l =>
                          ' (r, s) <- InstanceFromJSON c s ;;
                          match r with Some _ => Panic | None => go l s end
                      end) l s
                 | _ => OK (Some p, s)
                 end
               else look m
           end) m
      | _ => OK (Some p, s)
      end
  | _ => OK (None, s)
  end.
Fixpoint insts_from_json (l : list jv) (s : jdst) : jout (list ptr * jdst) :=
  match l with
  | [] => OK ([], s)
  | v :: l =>
      ' (r, s) <- InstanceFromJSON v s ;;
      ' (ps, s) <- insts_from_json l s ;;
      OK (match r with Some p => p :: ps | None => ps end, s)
  end.
(** json.go:118-151 RootFromJSONInterface; [None] is false *)
Definition RootFromJSON (v : jv) : jout (option (root * heap)) :=
  match index_obj v "rbxfile_version" with
  | Some (JNum version) =>
      if (to_i64 version =? 0)%Z then
        match index_obj v "instances" with
        | Some (JArr l) =>
            ' (ps, s) <- insts_from_json l (Jdst [] [] []) ;;
            OK (Some (Root ps [], fold_left (fun h e =>
              match hget h (pr_inst e) with
              | Some i => hset h (pr_inst e) (set_props i (mset (i_props i) (pr_prop e) (RReference (rget (jd_refs s) (pr_ref e)))))
              | None => h
              end) (jd_props s) (jd_heap s)))
        | _ => OK None
        end
      else OK None
  | _ => OK None
  end.
End Decode.
