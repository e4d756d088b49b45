(** XmlCodec.v - model of /repo/rbxlx/codec.go and format.go: instance trees
    to XML documents and back.

    Instances live in the heap of Tree.v.  BLAKE2b and floating point text are
    parameters.  Simplified: the exported methods of the unexported type
    robloxCodec that nothing calls (EncodeProperties, DecodeProperties) are not
    modelled; names of tags are ASCII when they come from the parser, so
    strings.ToLower is ASCII lower case. *)
From Verif Require Import Base RbxlValues RbxValues Tree RbxlCodec XmlText XmlDoc.
Local Notation string := String.string.

(** codec.go:21-40 robloxCodec *)
Record xopts := XOpts { o_noref : bool; o_noext : bool; o_nometa : bool; o_discard : bool }.
(** What is outside the code: floats, BLAKE2b-256 cut to 16 bytes
    (codec.go:1609-1626), and float32(k)/255. *)
Record xenv := XEnv { xe_fl : floats; xe_hash : bytes -> bytes; xe_div255 : N -> N }.

(** ** Tables *)

(** codec.go:253-324 GetCanonTag *)
Definition canon_tags : list (Type_ * string) := [
  (TypeAxes, "Axes"); (TypeBinaryString, "BinaryString"); (TypeBool, "bool"); (TypeBrickColor, "BrickColor");
  (TypeCFrame, "CoordinateFrame"); (TypeColor3, "Color3"); (TypeContent, "Content"); (TypeDouble, "double");
  (TypeFaces, "Faces"); (TypeFloat, "float"); (TypeInt, "int"); (TypeProtectedString, "ProtectedString");
  (TypeRay, "Ray"); (TypeReference, "Object"); (TypeString, "string"); (TypeToken, "token"); (TypeUDim, "UDim");
  (TypeUDim2, "UDim2"); (TypeVector2, "Vector2"); (TypeVector2int16, "Vector2int16"); (TypeVector3, "Vector3");
  (TypeVector3int16, "Vector3int16"); (TypeNumberSequence, "NumberSequence"); (TypeColorSequence, "ColorSequence");
  (TypeNumberRange, "NumberRange"); (TypeRect, "Rect2D"); (TypePhysicalProperties, "PhysicalProperties");
  (TypeColor3uint8, "Color3uint8"); (TypeInt64, "int64"); (TypeSharedString, "SharedString");
  (TypeUniqueId, "UniqueId"); (TypeFont, "Font") ]%string.
Definition GetCanonTag (t : Type_) (optional : bool) : bytes :=
  let n := match assocN canon_tags t with Some n => str n | None => [] end in
  if optional then str "Optional" ++ n else n.
(** codec.go:327-400 GetCanonType *)
Definition canon_types : list (string * Type_) := [
  ("axes", TypeAxes); ("binarystring", TypeBinaryString); ("bool", TypeBool); ("brickcolor", TypeBrickColor);
  ("cframe", TypeCFrame); ("coordinateframe", TypeCFrame); ("color3", TypeColor3); ("content", TypeContent);
  ("double", TypeDouble); ("faces", TypeFaces); ("float", TypeFloat); ("int", TypeInt);
  ("protectedstring", TypeProtectedString); ("ray", TypeRay); ("object", TypeReference); ("ref", TypeReference);
  ("string", TypeString); ("token", TypeToken); ("udim", TypeUDim); ("udim2", TypeUDim2); ("vector2", TypeVector2);
  ("vector2int16", TypeVector2int16); ("vector3", TypeVector3); ("vector3int16", TypeVector3int16);
  ("numbersequence", TypeNumberSequence); ("colorsequence", TypeColorSequence); ("numberrange", TypeNumberRange);
  ("rect", TypeRect); ("rect2d", TypeRect); ("physicalproperties", TypePhysicalProperties);
  ("color3uint8", TypeColor3uint8); ("int64", TypeInt64); ("sharedstring", TypeSharedString);
  ("uniqueid", TypeUniqueId); ("font", TypeFont) ]%string.
Fixpoint assocB {A} (l : list (string * A)) (k : bytes) : option A :=
  match l with [] => None | (n, a) :: l => if bytes_eqb (str n) k then Some a else assocB l k end.
Definition lower (b : byte) : byte :=
  if ((0x41 <=? b2N b) && (b2N b <=? 0x5a))%N then N2b (b2N b + 32) else b.
Definition GetCanonType (name : bytes) : Type_ * bool :=
  let n := map lower name in
  let '(n, optional) := match drop_prefix (str "optional") n with Some r => (r, true) | None => (n, false) end in
  (match assocB canon_types n with Some t => t | None => TypeInvalid end, optional).

(** ** Decoding *)

(** codec.go:1075-1081 getContent *)
Definition getContent (t : tag) : bytes := match t_cdata t with Some c => c | None => t_text t end.

(** codec.go:1003-1072 components.getFrom: which subtags are wanted, and how
    they are stored. *)
Inductive ckind := CU8 | CI16 | CI32 | CF32 | CStyle | CWeight | CTag.
Inductive cval := VZ (z : Z) | VF (f : N) | VT (t : tag).
Definition cvals := list (bytes * cval).
Section GetFrom.
Variable (fl : floats) (want : list (bytes * ckind)).
Fixpoint getFrom_loop (seen : list bytes) (vals : cvals) (tags : list tag) : bool * cvals :=
  match tags with
  | [] => ((length seen =? length want)%nat, vals)          (* :1071 *)
  | t :: tags =>
      let n := t_start t in
      match mfind want n with
      | None => getFrom_loop seen vals tags
      | Some k =>
          if existsb (bytes_eqb n) seen then getFrom_loop seen vals tags
          else
            let seen := n :: seen in
            let content := getContent t in
            let int bits conv :=                                (* *uint8, *int16, *int32, *FontWeight *)
              match ParseInt bits content with
              | PVal z => getFrom_loop seen ((n, VZ (conv z)) :: vals) tags
              | PRange z => (true, (n, VZ (conv z)) :: vals)
              | PSyntax => (false, (n, VZ (conv 0%Z)) :: vals)
              end in
            match k with
            | CU8 => int 32%N (fun z => (z mod 256)%Z)
            | CI16 => int 16%N (fun z => z)
            | CI32 => int 32%N (fun z => z)
            | CWeight => int 16%N (fun z => (z mod 2 ^ 16)%Z)
            | CF32 =>
                match fl_parse32 fl content with
                | Some f => getFrom_loop seen ((n, VF f) :: vals) tags
                | None => getFrom_loop seen vals tags
                end
            | CStyle =>
                match FontStyleFromString (String.string_of_list_byte content) with
                | Some s => getFrom_loop seen ((n, VZ (Z.of_N s)) :: vals) tags
                | None => (false, vals)
                end
            | CTag => getFrom_loop seen ((n, VT t) :: vals) tags
            end
      end
  end.
End GetFrom.
Definition getFrom (fl : floats) (want : list (bytes * ckind)) (t : tag) : bool * cvals :=
  getFrom_loop fl want [] [] (t_tags t).
(** Reading the variables the components point to, initially zero. *)
Definition vz (v : cvals) (n : string) : Z := match mfind v (str n) with Some (VZ z) => z | _ => 0%Z end.
Definition vf (v : cvals) (n : string) : N := match mfind v (str n) with Some (VF f) => f | _ => 0%N end.
Definition vt (v : cvals) (n : string) : option tag := match mfind v (str n) with Some (VT t) => Some t | _ => None end.
(** getFrom a variable holding a tag, nil if not set (:1003) *)
Definition getFrom_opt (fl : floats) (want : list (bytes * ckind)) (t : option tag) : bool * cvals :=
  match t with None => (false, []) | Some t => getFrom fl want t end.
Definition wants (k : ckind) (l : list string) : list (bytes * ckind) := map (fun n => (str n, k)) l.

(** codec.go:981-1001 scanFloat on what is left of the text; [None] is -1. *)
Fixpoint scan_word (acc : bytes) (b : bytes) : option (bytes * bytes) :=
  match b with
  | [] => None
  | c :: r => if isSpace c then Some (acc, b) else scan_word (acc ++ [c]) r
  end.
Fixpoint skip_space (b : bytes) : bytes :=
  match b with c :: r => if isSpace c then skip_space r else b | [] => [] end.
Definition scanFloat (fl : floats) (b : bytes) : option (N * bytes) :=
  match scan_word [] b with
  | None => None
  | Some (w, r) =>
      match fl_parse32 fl w with Some f => Some (f, skip_space r) | None => None end
  end.
(** n calls in a row *)
Fixpoint scanFloats (fl : floats) (n : nat) (b : bytes) : option (list N * bytes) :=
  match n with
  | O => Some ([], b)
  | S n =>
      match scanFloat fl b with
      | None => None
      | Some (f, b) => match scanFloats fl n b with Some (fs, b) => Some (f :: fs, b) | None => None end
      end
  end.
(** codec.go:749-766 and 767-786: groups of n floats to the end of the text *)
Fixpoint scanGroups (fuel : nat) (fl : floats) (n : nat) (b : bytes) : option (list (list N)) :=
  match b with
  | [] => Some []
  | _ =>
      match fuel with
      | O => None
      | S fuel =>
          match scanFloats fl n b with
          | None => None
          | Some (fs, b) => match scanGroups fuel fl n b with Some gs => Some (fs :: gs) | None => None end
          end
      end
  end.
Definition group_nskey (g : list N) : nskey :=
  match g with [a; b; c] => NSK a b c | _ => NSK 0 0 0 end.
Definition group_cskey (g : list N) : cskey :=
  match g with [a; r; g; b; e] => CSK a r g b e | _ => CSK 0 0 0 0 0 end.

Definition bit (z : Z) (i : Z) : bool := Z.testbit z i.

(** codec.go:406-979 getValue.  The result is the value, if any; [None] is
    false.  The second component are the warnings added. *)
Section GetValue.
Variable (env : xenv) (discard : bool).
Let fl := xe_fl env.
Definition invalid (zero : rvalue) : option rvalue := if discard then None else Some zero.
(** codec.go:436-446 *)
Definition get_bool (t : tag) : option bool :=
  let c := getContent t in
  if existsb (bytes_eqb c) [str "false"; str "False"; str "FALSE"] then Some false
  else if existsb (bytes_eqb c) [str "true"; str "True"; str "TRUE"] then Some true
  else if discard then None else Some false.
(** codec.go:514-545 *)
Definition get_content (t : tag) : option bytes * list xerr :=
  if nonempty (getContent t) then (None, [])
  else
    match t_tags t with
    | [] => (if discard then None else Some [], [])
    | sub :: _ =>
        let n := t_start sub in
        if bytes_eqb n (str "binary") then (Some [], [XMsg "not reading binary data"])
        else if bytes_eqb n (str "hash") then (Some [], [])
        else if bytes_eqb n (str "null") then (Some [], [])
        else if bytes_eqb n (str "url") then (Some (getContent sub), [])
        else (if discard then None else Some [], [])
    end.
Definition get_vec3 (t : option tag) : bool * vec3 :=
  let '(ok, v) := getFrom_opt fl (wants CF32 ["X"; "Y"; "Z"]%string) t in (ok, Vec3 (vf v "X") (vf v "Y") (vf v "Z")).
Definition get_vec2 (t : option tag) : bool * (N * N) :=
  let '(ok, v) := getFrom_opt fl (wants CF32 ["X"; "Y"]%string) t in (ok, (vf v "X", vf v "Y")).
(** integers: an out-of-range number is the nearest one *)
Definition get_int {A} (p : parsed A) (conv : A -> rvalue) (zero : rvalue) : option rvalue :=
  match p with PVal n | PRange n => Some (conv n) | PSyntax => invalid zero end.
Definition packed (n : N) (shift : N) : N := (N.shiftr n shift mod 256)%N.
Definition getValue (t : tag) (typ : Type_) : outcome Empty_set (option rvalue * list xerr) :=
  let c := getContent t in
  let pure v := OK (v : option rvalue, @nil xerr) in
  if (typ =? TypeAxes)%N then
    let '(ok, v) := getFrom fl (wants CI32 ["axes"]%string) t in let b := vz v "axes" in
    pure (if ok then Some (RAxes (bit b 0) (bit b 1) (bit b 2)) else invalid (RAxes false false false))
  else if (typ =? TypeBinaryString)%N then
    pure (match b64_decode c with Some s => Some (RBinaryString s) | None => invalid (RBinaryString []) end)
  else if (typ =? TypeBool)%N then pure (option_map RBool (get_bool t))
  else if (typ =? TypeBrickColor)%N then pure (get_int (ParseUint 10 32 c) RBrickColor (RBrickColor 0))
  else if (typ =? TypeCFrame)%N then
    let rs := ["R00"; "R01"; "R02"; "R10"; "R11"; "R12"; "R20"; "R21"; "R22"]%string in
    let '(ok, v) := getFrom fl (wants CF32 (["X"; "Y"; "Z"]%string ++ rs)) t in
    pure (if ok then Some (RCFrame (Vec3 (vf v "X") (vf v "Y") (vf v "Z")) (map (vf v) rs))
          else invalid (RCFrame vec3_zero (repeat 0%N 9)))
  else if (typ =? TypeColor3)%N then
    if nonempty c then
      pure (get_int (ParseUint 10 32 c)
        (fun n => RColor3 (xe_div255 env (packed n 16)) (xe_div255 env (packed n 8)) (xe_div255 env (packed n 0))) (RColor3 0 0 0))
    else
      let '(ok, v) := getFrom fl (wants CF32 ["R"; "G"; "B"]%string) t in
      pure (if ok then Some (RColor3 (vf v "R") (vf v "G") (vf v "B")) else invalid (RColor3 0 0 0))
  else if (typ =? TypeContent)%N then
    let '(r, w) := get_content t in OK (option_map RContent r, w)
  else if (typ =? TypeDouble)%N then
    pure (match fl_parse64 fl c with Some f => Some (RDouble f) | None => invalid (RDouble 0) end)
  else if (typ =? TypeFaces)%N then
    let '(ok, v) := getFrom fl (wants CI32 ["faces"]%string) t in let b := vz v "faces" in
    pure (if ok then Some (RFaces (bit b 0) (bit b 1) (bit b 2) (bit b 3) (bit b 4) (bit b 5))
          else invalid (RFaces false false false false false false))
  else if (typ =? TypeFloat)%N then
    pure (match fl_parse32 fl c with Some f => Some (RFloat f) | None => invalid (RFloat 0) end)
  else if (typ =? TypeInt)%N then pure (get_int (ParseInt 32 c) RInt (RInt 0))
  else if (typ =? TypeProtectedString)%N then pure (Some (RProtectedString c))
  else if (typ =? TypeRay)%N then
    let '(ok, v) := getFrom fl (wants CTag ["origin"; "direction"]%string) t in
    let '(ok1, o) := get_vec3 (vt v "origin") in let '(ok2, d) := get_vec3 (vt v "direction") in
    pure (if ok && ok1 && ok2 then Some (RRay o d) else invalid (RRay vec3_zero vec3_zero))
  else if (typ =? TypeReference)%N then pure (Some (RReference 0))
  else if (typ =? TypeString)%N then pure (Some (RString c))
  else if (typ =? TypeToken)%N then pure (get_int (ParseInt 32 c) (fun z => RToken (toN 32 z)) (RToken 0))
  else if (typ =? TypeUDim)%N then
    let '(ok, v) := getFrom fl (wants CF32 ["S"]%string ++ wants CI32 ["O"]%string) t in
    pure (if ok then Some (RUDim (vf v "S") (vz v "O")) else invalid (RUDim 0 0))
  else if (typ =? TypeUDim2)%N then
    let '(ok, v) := getFrom fl (wants CF32 ["XS"; "YS"]%string ++ wants CI32 ["XO"; "YO"]%string) t in
    pure (if ok then Some (RUDim2 (vf v "XS") (vz v "XO") (vf v "YS") (vz v "YO")) else invalid (RUDim2 0 0 0 0))
  else if (typ =? TypeVector2)%N then
    let '(ok, (x, y)) := get_vec2 (Some t) in pure (if ok then Some (RVector2 x y) else invalid (RVector2 0 0))
  else if (typ =? TypeVector2int16)%N then
    let '(ok, v) := getFrom fl (wants CI16 ["X"; "Y"]%string) t in
    pure (if ok then Some (RVector2int16 (vz v "X") (vz v "Y")) else invalid (RVector2int16 0 0))
  else if (typ =? TypeVector3)%N then
    let '(ok, v) := get_vec3 (Some t) in pure (if ok then Some (RVector3 v) else invalid (RVector3 vec3_zero))
  else if (typ =? TypeVector3int16)%N then
    let '(ok, v) := getFrom fl (wants CI16 ["X"; "Y"; "Z"]%string) t in
    pure (if ok then Some (RVector3int16 (vz v "X") (vz v "Y") (vz v "Z")) else invalid (RVector3int16 0 0 0))
  else if (typ =? TypeNumberSequence)%N then
    pure (match scanGroups (length c) fl 3 c with
          | Some gs => Some (RNumberSequence (map group_nskey gs)) | None => invalid (RNumberSequence []) end)
  else if (typ =? TypeColorSequence)%N then
    pure (match scanGroups (length c) fl 5 c with
          | Some gs => Some (RColorSequence (map group_cskey gs)) | None => invalid (RColorSequence []) end)
  else if (typ =? TypeNumberRange)%N then
    pure (match scanFloats fl 2 c with
          | Some ([a; b], _) => Some (RNumberRange a b) | _ => invalid (RNumberRange 0 0) end)
  else if (typ =? TypeRect)%N then
    let '(ok, v) := getFrom fl (wants CTag ["min"; "max"]%string) t in
    let '(ok1, (a, b)) := get_vec2 (vt v "min") in let '(ok2, (x, y)) := get_vec2 (vt v "max") in
    pure (if ok && ok1 && ok2 then Some (RRect a b x y) else invalid (RRect 0 0 0 0))
  else if (typ =? TypePhysicalProperties)%N then
    let zero := RPhysicalProperties false 0 0 0 0 0 in
    let '(ok, v) := getFrom fl (wants CTag ["CustomPhysics"]%string) t in
    pure (match (if ok then vt v "CustomPhysics" else None) with
          | None => invalid zero
          | Some cp =>
              match get_bool cp with
              | None => invalid zero
              | Some false => Some zero
              | Some true =>
                  let '(ok, v) := getFrom fl (wants CF32 ["Density"; "Friction"; "Elasticity"; "FrictionWeight"; "ElasticityWeight"]%string) t in
                  if negb ok && discard then None
                  else Some (RPhysicalProperties true (vf v "Density") (vf v "Friction") (vf v "Elasticity")
                               (vf v "FrictionWeight") (vf v "ElasticityWeight"))
              end
          end)
  else if (typ =? TypeColor3uint8)%N then
    if nonempty c then
      pure (get_int (ParseUint 10 32 c)
        (fun n => RColor3uint8 (N2b (packed n 16)) (N2b (packed n 8)) (N2b (packed n 0))) (RColor3uint8 x00 x00 x00))
    else
      let '(ok, v) := getFrom fl (wants CU8 ["R"; "G"; "B"]%string) t in
      pure (if ok then Some (RColor3uint8 (N2b (Z.to_N (vz v "R"))) (N2b (Z.to_N (vz v "G"))) (N2b (Z.to_N (vz v "B"))))
            else invalid (RColor3uint8 x00 x00 x00))
  else if (typ =? TypeInt64)%N then pure (get_int (ParseInt 64 c) RInt64 (RInt64 0))
  else if (typ =? TypeSharedString)%N then
    pure (match b64_decode c with Some s => Some (RSharedString s) | None => invalid (RSharedString []) end)
  else if (typ =? TypeUniqueId)%N then
    pure (match hex_decode (firstn 32 (t_text t)) with
          | Some b =>
              if (length b <? 16)%nat then invalid (RUniqueId 0 0 0)
              else Some (RUniqueId (ofN 64 (be_N (firstn 8 b))) (be_N (firstn 4 (skipn 8 b))) (be_N (firstn 4 (skipn 12 b))))
          | None => invalid (RUniqueId 0 0 0)
          end)
  else if (typ =? TypeFont)%N then
    let zero := RFont [] 0 x00 [] in
    let '(ok, v) := getFrom fl (wants CTag ["Family"]%string ++ wants CWeight ["Weight"]%string ++ wants CStyle ["Style"]%string) t in
    if negb ok then pure (invalid zero)
    else
      match vt v "Family" with
      | None => Panic             (* :958: a weight out of range ends getFrom with true before Family is found *)
      | Some family =>
          let '(f, w) := get_content family in
          match f with
          | None => OK (invalid zero, w)
          | Some f =>
              let '(ok, v2) := getFrom fl (wants CTag ["CachedFaceId"]%string) t in
              match (if ok then vt v2 "CachedFaceId" else None) with
              | None => OK (Some (RFont f (Z.to_N (vz v "Weight")) (N2b (Z.to_N (vz v "Style"))) []), w)
              | Some cf =>
                  let '(cid, w2) := get_content cf in
                  OK (match cid with
                      | None => invalid zero
                      | Some cid => Some (RFont f (Z.to_N (vz v "Weight")) (N2b (Z.to_N (vz v "Style"))) cid)
                      end, w ++ w2)
              end
          end
      end
  else pure None.
End GetValue.

(** codec.go:58-66 rdecoder: the instances built so far, instLookup, propRefs,
    stringRefs, and the warnings of the document. *)
Record rdst := Rdst {
  rd_heap : heap; rd_look : refmap; rd_props : list propref; rd_strs : list propref; rd_warn : list xerr }.
Definition rd_warns (s : rdst) (w : list xerr) : rdst :=
  Rdst (rd_heap s) (rd_look s) (rd_props s) (rd_strs s) (rd_warn s ++ w).

Section Decode.
Variable (env : xenv) (discard : bool).
(** codec.go:239-250 getOptional: no subtag, the subtag, or failure *)
Definition getOptional (t : tag) (typ : Type_) : option (option tag) :=
  match t_tags t with
  | [] => Some None
  | _ =>
      if (typ =? TypeCFrame)%N then
        let '(ok, v) := getFrom (xe_fl env) (wants CTag ["CFrame"]%string) t in
        if ok then Some (vt v "CFrame") else None
      else None
  end.
(** codec.go:190-237 getProperty of instance p *)
Definition getProperty (t : tag) (p : ptr) (s : rdst) : outcome Empty_set (option (bytes * rvalue) * rdst) :=
  match attr_value (t_attr t) (str "name") with
  | None => OK (None, s)
  | Some name =>
      let '(typ, optional) := GetCanonType (t_start t) in
      match (if optional then getOptional t typ else Some (Some t)) with
      | None => OK (None, s)
      | Some None => OK (Some (name, mkNone typ), s)
      | Some (Some t) =>
          ' (v, w) <- getValue env discard t typ ;;
          let s := rd_warns s w in
          match v with
          | None => OK (None, s)
          | Some v =>
              let wrap := fun v => if optional then mkSome v else v in
              match v with
              | RReference _ =>
                  let ref := getContent t in
                  if IsEmptyReference ref then OK (Some (name, wrap v), s)
                  else OK (None, Rdst (rd_heap s) (rd_look s) (rd_props s ++ [PropRef p name ref]) (rd_strs s) (rd_warn s))
              | RSharedString k =>
                  OK (None, Rdst (rd_heap s) (rd_look s) (rd_props s) (rd_strs s ++ [PropRef p name k]) (rd_warn s))
              | v => OK (Some (name, wrap v), s)
              end
          end
      end
  end.
(** codec.go:160-165 (the tags of Properties) *)
Fixpoint get_props (p : ptr) (tags : list tag) (props : list (bytes * rvalue)) (s : rdst)
  : outcome Empty_set (list (bytes * rvalue) * rdst) :=
  match tags with
  | [] => OK (props, s)
  | t :: tags =>
      ' (r, s) <- getProperty t p s ;;
      get_props p tags (match r with Some (n, v) => mset props n v | None => props end) s
  end.
(** codec.go:123-171 getItems; [item] is the case of an Item tag *)
Section Items.
Variable item : tag -> rdst -> outcome Empty_set (option ptr * rdst).
Fixpoint items_loop (parent : ptr) (tags : list tag) (hasProps : bool) (props : list (bytes * rvalue)) (insts : list ptr)
    (s : rdst) : outcome Empty_set (list ptr * list (bytes * rvalue) * rdst) :=
  match tags with
  | [] => OK (insts, props, s)
  | t :: tags =>
      if bytes_eqb (t_start t) (str "Item") then
        ' (r, s) <- item t s ;;
        items_loop parent tags hasProps props (match r with Some p => insts ++ [p] | None => insts end) s
      else if bytes_eqb (t_start t) (str "Properties") then
        if hasProps || (parent =? 0)%nat then items_loop parent tags hasProps props insts s
        else
          ' (props, s) <- get_props parent (t_tags t) props s ;;
          items_loop parent tags true props insts s
      else items_loop parent tags hasProps props insts s
  end.
End Items.
(** codec.go:129-151 (an Item tag) *)
Fixpoint get_item (t : tag) (s : rdst) {struct t} : outcome Empty_set (option ptr * rdst) :=
  let 'Tag _ _ attr _ _ _ _ _ tags := t in
  match attr_value attr (str "class") with
  | None => OK (None, rd_warns s [XMsg "item with missing class attribute"])
  | Some class =>
      let ref := match attr_value attr (str "referent") with Some r => r | None => [] end in
      let p := S (length (rd_heap s)) in
      let s := Rdst (rd_heap s ++ [Inst class ref false [] []])
                 (if IsEmptyReference ref then rd_look s else mset (rd_look s) ref p)
                 (rd_props s) (rd_strs s) (rd_warn s) in
      ' (children, props, s) <- items_loop get_item p tags false [] [] s ;;
      OK (Some p, Rdst (hset (rd_heap s) p (Inst class ref false props children))
                    (rd_look s) (rd_props s) (rd_strs s) (rd_warn s))
  end.
Definition getItems (parent : ptr) (tags : list tag) (s : rdst) := items_loop get_item parent tags false [] [] s.

(** codec.go:90-113: a SharedString tag; the value goes to every property
    waiting for its key *)
Definition set_prop (h : heap) (p : ptr) (name : bytes) (v : rvalue) : heap :=
  match hget h p with Some i => hset h p (set_props i (mset (i_props i) name v)) | None => h end.
Definition shared_tag (strs : list propref) (t : tag) (h : heap) : heap :=
  if bytes_eqb (t_start t) (str "SharedString") then
    match attr_value (t_attr t) (str "md5") with
    | None => h
    | Some hash =>
        match b64_decode hash, b64_decode (getContent t) with
        | Some key, Some value =>
            fold_left (fun h e => if bytes_eqb (pr_ref e) key then set_prop h (pr_inst e) (pr_prop e) (RSharedString value) else h) strs h
        | _, _ => h
        end
    end
  else h.
(** codec.go:79-115: the loop over the tags of the root *)
Fixpoint root_tags (strs : list propref) (tags : list tag) (md : list (bytes * bytes)) (h : heap) : list (bytes * bytes) * heap :=
  match tags with
  | [] => (md, h)
  | t :: tags =>
      if bytes_eqb (t_start t) (str "Meta") then
        root_tags strs tags (match attr_value (t_attr t) (str "name") with Some k => mset md k (t_text t) | None => md end) h
      else if bytes_eqb (t_start t) (str "SharedStrings") then
        root_tags strs tags md (fold_left (fun h t => shared_tag strs t h) (t_tags t) h)
      else root_tags strs tags md h
  end.
(** codec.go:42-56, 68-121 Decode a document: the tree and the warnings.  The
    error of :73 is dropped by :55. *)
Definition codec_read (d : doc) : outcome Empty_set (root * heap * list xerr) :=
  match doc_root d with
  | None => OK (Root [] [], [], doc_warn d)
  | Some t =>
      ' (insts, _, s) <- getItems 0 (t_tags t) (Rdst [] [] [] [] (doc_warn d)) ;;
      let '(md, h) := root_tags (rd_strs s) (t_tags t) [] (rd_heap s) in
      let h := fold_left (fun h e => fst (Resolve (Some (rd_look s)) h e)) (rd_props s) h in
      OK (Root insts md, h, rd_warn s)
  end.
End Decode.

(** format.go:12-36 Decoder.Decode of a reader with these bytes, then this
    error (io.EOF when the reader just ends). *)
Definition xml_decode (env : xenv) (discard : bool) (input : bytes) (end_ : xerr)
  : outcome (xerr * list xerr) (root * heap * list xerr) :=
  match ReadFrom input end_ with
  | Err e => Err e
  | Panic => Panic
  | Hang => Hang
  | OK d =>
      match codec_read env discard d with
      | OK r => OK r
      | Err e => match e with end
      | Panic => Panic
      | Hang => Hang
      end
  end.

(** ** Encoding *)

Definition leaf (start : string) (tx : bytes) (noindent : bool) : tag := Tag (str start) [] [] false false None tx noindent [].
Definition node (start : bytes) (tags : list tag) : tag := Tag start [] [] false false None [] false tags.
Definition with_start (n : bytes) (t : tag) : tag :=
  let 'Tag _ e a em c cd tx ni ts := t in Tag n e a em c cd tx ni ts.
Definition with_attr (a : list (bytes * bytes)) (t : tag) : tag :=
  let 'Tag n e _ em c cd tx ni ts := t in Tag n e a em c cd tx ni ts.
(** codec.go:1732-1738 encodeContent: strings.Index(text, "]]>") >= 0 *)
Fixpoint has_cdata_end (s : bytes) : bool :=
  match s with
  | [] => false
  | _ :: r => match drop_prefix (str "]]>") s with Some _ => true | None => has_cdata_end r end
  end.
Definition content_leaf (start : string) (tx : bytes) : tag :=
  if has_cdata_end tx then Tag (str start) [] [] false false (Some tx) [] true [] else leaf start tx true.

(** codec.go:1083-1090 rencoder: the heap (references are stored into the
    instances), refs, the random reads so far, sharedStrings. *)
Record rest_ := Rest { re_heap : heap; re_refs : refmap; re_rnd : nat; re_shared : list (bytes * bytes) }.

Section Encode.
Variable (env : xenv) (rnd : nat -> bytes).
Let fl := xe_fl env.
Definition eout := outcome Empty_set.
Definition float_leaf (nf : string * N) : eout tag := t <- encodeFloat fl (snd nf) ;; OK (leaf (fst nf) t true).
Fixpoint all_ok {A B} (f : A -> eout B) (l : list A) : eout (list B) :=
  match l with [] => OK [] | a :: l => b <- f a ;; bs <- all_ok f l ;; OK (b :: bs) end.
Definition floats_node (start : string) (l : list (string * N)) : eout tag :=
  ts <- all_ok float_leaf l ;; OK (node (str start) ts).
Definition int_leaf (n : string) (z : Z) : tag := leaf n (FormatInt z) true.
(** bits in order, lowest first *)
Fixpoint bits_of (l : list bool) : N := match l with [] => 0%N | b :: l => ((if b then 1 else 0) + 2 * bits_of l)%N end.
(** codec.go:1504-1548: floats with six digits, each followed by a space *)
Fixpoint prec6 (l : list N) : eout bytes :=
  match l with [] => OK [] | f :: l => t <- encodeFloatPrec fl 6 f ;; r <- prec6 l ;; OK (t ++ x20 :: r) end.
(** codec.go:1329-1350 *)
Definition content_tag (value : bytes) : tag :=
  Tag (str "Content") [] [] false false None [] true
    [match value with [] => leaf "null" [] true | _ => leaf "url" value true end].

(** codec.go:1247-1673 encodeProperty *)
Definition encode_cframe (pos : vec3) (rot : list N) : eout tag :=
  floats_node "CoordinateFrame"
    ([("X", v3x pos); ("Y", v3y pos); ("Z", v3z pos)]%string ++
     combine ["R00"; "R01"; "R02"; "R10"; "R11"; "R12"; "R20"; "R21"; "R22"]%string rot).
Definition vec3_node (start : string) (v : vec3) : eout tag :=
  floats_node start [("X", v3x v); ("Y", v3y v); ("Z", v3z v)]%string.
Definition encodeProperty (v : rvalue) (s : rest_) : eout (tag * rest_) :=
  let pure t := OK (t : tag, s) in
  let lift o := t <- (o : eout tag) ;; OK (t, s) in
  match v with
  | RAxes x y z => pure (node (str "Axes") [leaf "axes" (FormatUint (bits_of [x; y; z])) true])
  | RBinaryString b => t <- b64_lines b ;; pure (content_leaf "BinaryString" t)
  | RBool b => pure (leaf "bool" (if b then str "true" else str "false") true)
  | RBrickColor n => pure (leaf "int" (FormatUint n) true)
  | RCFrame pos rot => lift (encode_cframe pos rot)
  | RColor3 r g b => lift (floats_node "Color3" [("R", r); ("G", g); ("B", b)]%string)
  | RContent c => pure (content_tag c)
  | RDouble f => pure (leaf "double" (encodeDouble fl f) true)
  | RFaces a b c d e f => pure (node (str "Faces") [leaf "faces" (FormatUint (bits_of [a; b; c; d; e; f])) true])
  | RFloat f => lift (float_leaf ("float"%string, f))
  | RInt n => pure (int_leaf "int" n)
  | RProtectedString b => pure (content_leaf "ProtectedString" b)
  | RRay o d =>
      a <- vec3_node "origin" o ;; b <- vec3_node "direction" o ;;          (* :1395-1416 *)
      pure (node (str "Ray") [a; b])
  | RReference p =>
      if (p =? 0)%nat then pure (leaf "Ref" (str "null") true)
      else
        ' (r, h, m, k) <- get_ref rnd (re_heap s) (re_refs s) (re_rnd s) p ;;
        OK (leaf "Ref" r true, Rest h m k (re_shared s))
  | RString b => pure (leaf "string" b true)
  | RToken n => pure (leaf "token" (FormatUint n) true)
  | RUDim sc o => a <- float_leaf ("S"%string, sc) ;; pure (node (str "UDim") [a; int_leaf "O" o])
  | RUDim2 xs xo ys yo =>
      a <- float_leaf ("XS"%string, xs) ;; b <- float_leaf ("YS"%string, ys) ;;
      pure (node (str "UDim2") [a; int_leaf "XO" xo; b; int_leaf "YO" yo])
  | RVector2 x y => lift (floats_node "Vector2" [("X", x); ("Y", y)]%string)
  | RVector2int16 x y => pure (node (str "Vector2int16") [int_leaf "X" x; int_leaf "Y" y])
  | RVector3 v => lift (vec3_node "Vector3" v)
  | RVector3int16 x y z => pure (node (str "Vector3int16") [int_leaf "X" x; int_leaf "Y" y; int_leaf "Z" z])
  | RNumberSequence ks =>
      t <- prec6 (flat_map (fun k => [ns_time k; ns_value k; ns_env k]) ks) ;; pure (leaf "NumberSequence" t false)
  | RColorSequence ks =>
      t <- prec6 (flat_map (fun k => [cs_time k; cs_r k; cs_g k; cs_b k; cs_env k]) ks) ;; pure (leaf "ColorSequence" t false)
  | RNumberRange a b => t <- prec6 [a; b] ;; pure (leaf "NumberRange" t false)
  | RRect a b c d =>
      x <- floats_node "min" [("X", a); ("Y", b)]%string ;; y <- floats_node "max" [("X", c); ("Y", d)]%string ;;
      pure (node (str "Rect2D") [x; y])
  | RPhysicalProperties custom d f e fw ew =>
      if custom then
        ts <- all_ok (fun nf => t <- encodeFloat fl (snd nf) ;; OK (leaf (fst nf) t false))
                [("Density", d); ("Friction", f); ("Elasticity", e); ("FrictionWeight", fw); ("ElasticityWeight", ew)]%string ;;
        pure (node (str "PhysicalProperties") (leaf "CustomPhysics" (str "true") false :: ts))
      else pure (node (str "PhysicalProperties") [leaf "CustomPhysics" (str "false") false])
  | RColor3uint8 r g b =>
      pure (leaf "Color3uint8" (FormatUint (0xFF * 2 ^ 24 + b2N r * 2 ^ 16 + b2N g * 2 ^ 8 + b2N b)) true)
  | RInt64 n => pure (int_leaf "int64" n)
  | RSharedString b =>
      let hash := xe_hash env b in
      let sh := match mfind (re_shared s) hash with Some _ => re_shared s | None => mset (re_shared s) hash b end in
      t <- b64_lines hash ;;
      OK (content_leaf "SharedString" t, Rest (re_heap s) (re_refs s) (re_rnd s) sh)
  | ROptional typ o =>
      let name := GetCanonTag typ true in
      match o with
      | None => pure (Tag name [] [] false false None [] true [])
      | Some (RCFrame pos rot) => t <- encode_cframe pos rot ;; pure (node name [with_start (str "CFrame") t])
      | Some _ => pure (node name [])
      end
  | RUniqueId r t i => pure (leaf "UniqueId" (hex_encode (be_bytes 8 (toN 64 r) ++ be_bytes 4 t ++ be_bytes 4 i)) false)
  | RFont family w style cached =>
      pure (node (str "Font")
        ([with_start (str "Family") (content_tag family); int_leaf "Weight" (Z.of_N w);
          leaf "Style" (str (fontstyle_string (b2N style))) true] ++
         match cached with [] => [] | _ => [with_start (str "CachedFaceId") (content_tag cached)] end))
  end.
(** codec.go:1227-1245: the properties, sorted by name *)
Fixpoint encode_props (l : list (bytes * rvalue)) (s : rest_) : eout (list tag * rest_) :=
  match l with
  | [] => OK ([], s)
  | (name, v) :: l =>
      ' (t, s) <- encodeProperty v s ;;
      ' (ts, s) <- encode_props l s ;;
      OK (with_attr [(str "name", name)] t :: ts, s)
  end.
(** document.go:133-148 newItem *)
Definition newItem (class referent : bytes) (props : list tag) : tag :=
  Tag (str "Item") [] [(str "class", class); (str "referent", referent)] false false None [] false [node (str "Properties") props].
Definition add_tags (t : tag) (l : list tag) : tag :=
  let 'Tag n e a em c cd tx ni ts := t in Tag n e a em c cd tx ni (ts ++ l).
Fixpoint encode_list (f : ptr -> rest_ -> eout (tag * rest_)) (l : list ptr) (s : rest_) : eout (list tag * rest_) :=
  match l with
  | [] => OK ([], s)
  | p :: l => ' (t, s) <- f p s ;; ' (ts, s) <- encode_list f l s ;; OK (t :: ts, s)
  end.
(** codec.go:1208-1220 encodeInstance.  A cycle is infinite recursion. *)
Fixpoint encodeInstance (fuel : nat) (noref : bool) (p : ptr) (s : rest_) : eout (tag * rest_) :=
  match fuel with
  | O => Hang
  | S fuel =>
      ' (ref, h, m, k) <- get_ref rnd (re_heap s) (re_refs s) (re_rnd s) p ;;
      match hget h p with
      | None => Panic
      | Some i =>
          ' (props, s) <- encode_props (sort_by fst (i_props i)) (Rest h m k (re_shared s)) ;;
          let item := newItem (i_class i) ref props in
          let item := if noref then with_attr (SetAttrValue (t_attr item) (str "referent") []) item else item in
          ' (ts, s) <- encode_list (encodeInstance fuel noref) (i_children i) s ;;
          OK (add_tags item ts, s)
      end
  end.
(** document.go:107-131 newRoot *)
Definition root_attrs : list (bytes * bytes) := [
  (str "xmlns:xmime", str "http://www.w3.org/2005/05/xmlmime");
  (str "xmlns:xsi", str "http://www.w3.org/2001/XMLSchema-instance");
  (str "xsi:noNamespaceSchemaLocation", str "http://www.roblox.com/roblox.xsd");
  (str "version", str "4") ].
(** codec.go:1179-1205: the SharedStrings tag *)
Definition shared_strings_tag (sh : list (bytes * bytes)) : eout (list tag) :=
  match sh with
  | [] => OK []
  | _ =>
      ts <- all_ok (fun kv => t <- b64_wrapped (snd kv) ;;
              OK (Tag (str "SharedString") [] [(str "md5", b64_encode (fst kv))] false false None t false []))
              (sort_by fst sh) ;;
      OK [node (str "SharedStrings") ts]
  end.
(** codec.go:1092-1103, 1151-1206 Encode: the root tag.  A nil root panics.
    The fuel counts nested calls of encodeInstance. *)
Definition codec_write (fuel : nat) (o : xopts) (h : heap) (r : option root) : eout (tag * heap) :=
  match r with
  | None => Panic
  | Some r =>
      let meta := if o_nometa o then []
                  else map (fun kv => Tag (str "Meta") [] [(str "name", fst kv)] false false None (snd kv) false [])
                         (sort_by fst (r_metadata r)) in
      let ext := if o_noext o then [] else [leaf "External" (str "null") false; leaf "External" (str "nil") false] in
      ' (items, s) <- encode_list (encodeInstance fuel (o_noref o)) (r_instances r) (Rest h [] 0 []) ;;
      sh <- shared_strings_tag (re_shared s) ;;
      OK (Tag (str "roblox") [] root_attrs false false None [] false (meta ++ ext ++ items ++ sh), re_heap s)
  end.
End Encode.

(** format.go:39-73 Encoder, with the codec's options *)
Record xencoder := XEncoder {
  x_opts : xopts; x_prefix : bytes; x_indent : bytes; x_nodefault : bool; x_suffix : bytes; x_noroot : bool }.
(** format.go:76-99 Encode to a writer that accepts everything: warnings, the
    bytes, and the heap with the references generated. *)
Definition xml_encode (fuel : nat) (env : xenv) (rnd : nat -> bytes) (e : xencoder) (h : heap) (r : option root)
  : outcome Empty_set (list xerr * bytes * heap) :=
  ' (t, h) <- codec_write env rnd fuel (x_opts e) h r ;;
  let indent := if negb (nonempty (x_indent e)) && negb (x_nodefault e) then [x09] else x_indent e in
  let '(w, out) := WriteTo (Doc (x_prefix e) indent (x_suffix e) (x_noroot e) (Some t) []) in
  OK (w, out, h).
