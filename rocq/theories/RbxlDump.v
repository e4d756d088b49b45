(** RbxlDump.v - model of /repo/rbxl/dump.go (Decoder.Dump) and of the Dump
    methods of /repo/rbxl/values.go and /repo/rbxl/arrays.go.

    The buffered writer is the list of the bytes written to it.  What the code
    takes from the standard library as tables or algorithms of their own is
    collected in [denv]. *)
From Verif Require Import Base RbxlValues RbxlArrays RbxlModel RbxlFile RbxValues Tree RbxlCodec XmlText Json.

Record denv := DEnv {
  de_f32 : N -> bytes;         (* strconv.AppendFloat(nil, f, 'g', -1, 32) *)
  de_f64 : N -> bytes;         (* strconv.AppendFloat(nil, f, 'g', -1, 64) *)
  de_time : N -> bytes;        (* time.Unix(t + 1609459200, 0).UTC() in RFC 3339 *)
  de_graphic : N -> bool;      (* unicode.IsGraphic *)
  de_print : N -> bool;        (* strconv.IsPrint *)
  de_error : err -> bytes }.   (* the Error method of the cause *)

(** dump.go:206-211 dumpNewline *)
Definition nl (indent : nat) : bytes := x0a :: repeat x09 indent.

(** ** dump.go:213-224 dumpSig *)
(** unicode.IsPrint of a rune below 256: the Latin-1 table *)
Definition latin_print (b : byte) : bool :=
  let n := b2N b in ((0x20 <=? n) && (n <=? 0x7e) || (0xa1 <=? n) && negb (n =? 0xad))%N.
(** The verb "% 02X" *)
Definition upper_byte (b : byte) : bytes := [hex_at upper_hex (N.shiftr (b2N b) 4); hex_at upper_hex (N.land (b2N b) 0x0f)].
Fixpoint spaced_hex (b : bytes) : bytes :=
  match b with [] => [] | [c] => upper_byte c | c :: b => upper_byte c ++ x20 :: spaced_hex b end.
Definition dumpSig (sg : N) : bytes :=
  let b := le32 sg in
  map (fun c => if latin_print c then c else x2e) b ++ str " (" ++ spaced_hex b ++ str ")".

(** ** dump.go:237-279 dumpBytes *)
(** strconv.FormatUint(_, 16) of a byte, with the "0" of :249 *)
Definition hex2 (b : byte) : bytes :=
  let n := b2N b in
  let s := if (n <? 16)%N then [hex_at lower_hex n] else [hex_at lower_hex (N.shiftr n 4); hex_at lower_hex (N.land n 0x0f)] in
  if (length s =? 1)%nat then x30 :: s else s.
Definition width : nat := 16.
(** :244-263 the columns of one line, [k] of them left *)
Fixpoint hex_cells (k i j : nat) (b : bytes) : bytes :=
  match k with
  | O => []
  | S k =>
      let gap := fun i => if (i mod 8 =? 0)%nat && (i <? j + width)%nat then str "  " else str " " in
      match nth_error b i with
      | Some c => hex2 c ++ gap (S i) ++ hex_cells k (S i) j b
      | None => if (length b <? width)%nat then [] else str "  " ++ gap (S i) ++ hex_cells k (S i) j b
      end
  end.
(** :265-275 *)
Definition ascii_char (c : byte) : byte := if ((32 <=? b2N c) && (b2N c <=? 126))%N then c else x2e.
Fixpoint dump_lines (fuel : nat) (indent j : nat) (b : bytes) : bytes :=
  match fuel with
  | O => []
  | S fuel =>
      if (j <? length b)%nat then
        nl (S indent) ++ str "| " ++ hex_cells width j j b ++ str "|" ++
        map ascii_char (firstn width (skipn j b)) ++ str "|" ++ dump_lines fuel indent (j + width) b
      else []
  end.
Definition dumpBytes (indent : nat) (b : bytes) : bytes :=
  str "(len:" ++ FormatUint (N.of_nat (length b)) ++ str ")" ++ dump_lines (length b) indent 0 b.

(** ** dump.go:226-235 dumpString *)
(** for _, r := range s: each rune with its bytes; the flag tells whether the
    bytes are a valid sequence, if not the rune is U+FFFD. *)
Definition rune_val (s : bytes) : N :=
  let c (b : byte) := N.land (b2N b) 0x3f in
  match s with
  | [a] => b2N a
  | [a; b] => N.land (b2N a) 0x1f * 64 + c b
  | [a; b; d] => N.land (b2N a) 0x0f * 4096 + c b * 64 + c d
  | [a; b; d; e] => N.land (b2N a) 0x07 * 262144 + c b * 4096 + c d * 64 + c e
  | _ => 0
  end%N.
Fixpoint runes (fuel : nat) (s : bytes) : list (bool * N * bytes) :=
  match fuel, s with
  | O, _ | _, [] => []
  | S fuel, a :: r =>
      match rune_len s with
      | O => (false, 0xfffd%N, [a]) :: runes fuel r
      | n => (true, rune_val (firstn n s), firstn n s) :: runes fuel (skipn n s)
      end
  end.
(** strconv.Quote *)
Definition hexes (k : nat) (n : N) : bytes :=
  map (fun i => hex_at lower_hex (N.land (N.shiftr n (4 * N.of_nat i)) 0x0f)) (rev (seq 0 k)).
Definition quote_rune (de : denv) (t : bool * N * bytes) : bytes :=
  let ' (ok, r, s) := t in
  if negb ok then str "\x" ++ flat_map hex2 s
  else if (r =? 0x22)%N || (r =? 0x5c)%N then x5c :: s
  else if de_print de r then s
  else if (r =? 7)%N then str "\a" else if (r =? 8)%N then str "\b" else if (r =? 12)%N then str "\f"
  else if (r =? 10)%N then str "\n" else if (r =? 13)%N then str "\r" else if (r =? 9)%N then str "\t"
  else if (r =? 11)%N then str "\v"
  else if (r <? 0x20)%N || (r =? 0x7f)%N then str "\x" ++ hexes 2 r
  else if (r <? 0x10000)%N then str "\u" ++ hexes 4 r
  else str "\U" ++ hexes 8 r.
Definition Quote (de : denv) (s : bytes) : bytes :=
  x22 :: flat_map (quote_rune de) (runes (length s) s) ++ [x22].
Definition dumpString (de : denv) (indent : nat) (s : bytes) : bytes :=
  if forallb (fun t => de_graphic de (snd (fst t))) (runes (length s) s)
  then str "(len:" ++ FormatUint (N.of_nat (length s)) ++ str ") " ++ Quote de s
  else dumpBytes indent s.

(** ** The Dump methods of values.go *)
Definition dump_bool (b : bool) : bytes := if b then str "true" else str "false".     (* :759, strconv.AppendBool *)
(** A field on its own line *)
Definition fld (indent : nat) (name : String.string) (text : bytes) : bytes := nl (S indent) ++ str name ++ text.
Definition braces (indent : nat) (fields : bytes) : bytes := x7b :: fields ++ nl indent ++ [x7d].
Fixpoint numbered {A} (f : A -> bytes) (indent i : nat) (l : list A) : bytes :=
  match l with
  | [] => []
  | a :: l => nl indent ++ FormatUint (N.of_nat i) ++ str ": " ++ f a ++ numbered f indent (S i) l
  end.

Definition dump_vec3 (de : denv) (indent : nat) (v : vec3) : bytes :=                 (* :1307 *)
  braces indent (fld indent "X: " (de_f32 de (v3x v)) ++ fld indent "Y: " (de_f32 de (v3y v)) ++
                 fld indent "Z: " (de_f32 de (v3z v))).
Definition dump_vec2 (de : denv) (indent : nat) (x y : N) : bytes :=                  (* :1259 *)
  braces indent (fld indent "X: " (de_f32 de x) ++ fld indent "Y: " (de_f32 de y)).
Definition dump_color3 (de : denv) (indent : nat) (r g b : N) : bytes :=              (* :1209 *)
  braces indent (fld indent "R: " (de_f32 de r) ++ fld indent "G: " (de_f32 de g) ++ fld indent "B: " (de_f32 de b)).
Definition dump_nsk (de : denv) (indent : nat) (k : nskey) : bytes :=                 (* :1720 *)
  braces indent (fld indent "Time: " (de_f32 de (ns_time k)) ++ fld indent "Value: " (de_f32 de (ns_value k)) ++
                 fld indent "Envelope: " (de_f32 de (ns_env k))).
Definition dump_csk (de : denv) (indent : nat) (k : cskey) : bytes :=                 (* :1800 *)
  braces indent (fld indent "Time: " (de_f32 de (cs_time k)) ++
                 fld indent "Value: " (dump_color3 de (S indent) (cs_r k) (cs_g k) (cs_b k)) ++
                 fld indent "Envelope: " (de_f32 de (cs_env k))).

Definition dump_value (de : denv) (indent : nat) (v : value) : bytes :=
  match v with
  | VString s => dumpString de indent s                                               (* :725 *)
  | VBool b => dump_bool b                                                            (* :759 *)
  | VInt n | VReference n | VInt64 n => FormatInt n                                   (* :793, 1656, 2144 *)
  | VFloat f => de_f32 de f                                                           (* :823 *)
  | VDouble f => de_f64 de f                                                          (* :853 *)
  | VUDim s o => braces indent (fld indent "Scale: " (de_f32 de s) ++ fld indent "Offset: " (FormatInt o)) (* :889 *)
  | VUDim2 sx sy ox oy =>                                                             (* :942 *)
      braces indent (fld indent "X.Scale: " (de_f32 de sx) ++ fld indent "Y.Scale: " (FormatInt ox) ++
                     fld indent "X.Offset: " (de_f32 de sy) ++ fld indent "Y.Offset: " (FormatInt oy))
  | VRay ox oy oz dx dy dz =>                                                         (* :1009 *)
      braces indent (fld indent "Origin.X: " (de_f32 de ox) ++ fld indent "Origin.Y: " (de_f32 de oy) ++
                     fld indent "Origin.Z: " (de_f32 de oz) ++ fld indent "Direction.X: " (de_f32 de dx) ++
                     fld indent "Direction.Y: " (de_f32 de dy) ++ fld indent "Direction.Z: " (de_f32 de dz))
  | VFaces r t b l bo f =>                                                            (* :1068 *)
      braces indent (fld indent "Right: " (dump_bool r) ++ fld indent "Top: " (dump_bool t) ++
                     fld indent "Back: " (dump_bool b) ++ fld indent "Left: " (dump_bool l) ++
                     fld indent "Bottom: " (dump_bool bo) ++ fld indent "Front: " (dump_bool f))
  | VAxes x y z =>                                                                    (* :1127 *)
      braces indent (fld indent "X: " (dump_bool x) ++ fld indent "Y: " (dump_bool y) ++ fld indent "Z: " (dump_bool z))
  | VBrickColor n | VToken n | VSharedString n => FormatUint n                        (* :1172, 1626, 2174 *)
  | VColor3 r g b => dump_color3 de indent r g b                                      (* :1209 *)
  | VVector2 x y => dump_vec2 de indent x y                                           (* :1259 *)
  | VVector3 p => dump_vec3 de indent p                                               (* :1307 *)
  | VVector2int16 x y => braces indent (fld indent "X: " (FormatInt x) ++ fld indent "Y: " (FormatInt y)) (* :1357 *)
  | VCFrame sp rot p =>                                                               (* :1424 *)
      braces indent (fld indent "ID: " (FormatUint (b2N sp)) ++
        (if Byte.eqb sp x00
         then fld indent "Rotation: {" (flat_map (fun r => nl (S (S indent)) ++ de_f32 de r) rot ++ nl (S indent) ++ [x7d])
         else []) ++
        fld indent "Position: " (dump_vec3 de (S indent) p))
  | VCFrameQuat sp qx qy qz qw p =>                                                   (* :1552; no line for Position *)
      braces indent (fld indent "ID: " (FormatUint (b2N sp)) ++ fld indent "QX: " (de_f32 de qx) ++
        fld indent "QY: " (de_f32 de qy) ++ fld indent "QZ: " (de_f32 de qz) ++ fld indent "QW: " (de_f32 de qw) ++
        str "Position: " ++ dump_vec3 de (S indent) p)
  | VVector3int16 x y z =>                                                            (* :1693 *)
      braces indent (fld indent "X: " (FormatInt x) ++ fld indent "Y: " (FormatInt y) ++ fld indent "Z: " (FormatInt z))
  | VNumberSequence ks =>                                                             (* :1777 *)
      str "(count:" ++ FormatUint (N.of_nat (length ks)) ++ str ") {" ++
      numbered (dump_nsk de (S indent)) (S indent) 0 ks ++ [x7d]
  | VColorSequence ks =>                                                              (* :1863 *)
      str "(count:" ++ FormatUint (N.of_nat (length ks)) ++ str ") {" ++
      numbered (dump_csk de (S indent)) (S indent) 0 ks ++ [x7d]
  | VNumberRange a b => braces indent (fld indent "Min: " (de_f32 de a) ++ fld indent "Max: " (de_f32 de b)) (* :1907 *)
  | VRect a b c d =>                                                                  (* :1953 *)
      braces indent (fld indent "Min: " (dump_vec2 de (S indent) a b) ++ fld indent "Max: " (dump_vec2 de (S indent) c d))
  | VPhysicalProperties cp d f e fw ew =>                                             (* :2037 *)
      braces indent (fld indent "CustomPhysics: " (FormatUint (b2N cp)) ++
        (if Byte.eqb cp x00 then []
         else fld indent "Density: " (de_f32 de d) ++ fld indent "Friction: " (de_f32 de f) ++
              fld indent "Elasticity: " (de_f32 de e) ++ fld indent "FrictionWeight: " (de_f32 de fw) ++
              fld indent "ElasticityWeight: " (de_f32 de ew)))
  | VColor3uint8 r g b =>                                                             (* :2099 *)
      braces indent (fld indent "R: " (FormatUint (b2N r)) ++ fld indent "G: " (FormatUint (b2N g)) ++
                     fld indent "B: " (FormatUint (b2N b)))
  | VUniqueId r t i =>                                                                (* :2217 *)
      braces indent (fld indent "(String): " (uniqueid_string r t i) ++ fld indent "Random: " (FormatInt r) ++
                     fld indent "Time: " (de_time de t) ++ fld indent "Index: " (FormatUint i))
  | VFont fam w st cached =>                                                          (* :2307 *)
      braces indent (fld indent "Family: " (dumpString de (S indent) fam) ++
        fld indent "Weight: " (str (fontweight_string w) ++ str " (" ++ FormatUint w ++ str ")") ++
        fld indent "Style: " (str (fontstyle_string (b2N st)) ++ str " (" ++ FormatUint (b2N st) ++ str ")") ++
        fld indent "CachedFaceId: " (dumpString de (S indent) cached))
  end.

(** ** Arrays *)
(** values.go:220-287 typeID.String *)
Definition tid_string (t : tid) : bytes :=
  match t with
  | tString => str "String" | tBool => str "Bool" | tInt => str "Int" | tFloat => str "Float"
  | tDouble => str "Double" | tUDim => str "UDim" | tUDim2 => str "UDim2" | tRay => str "Ray"
  | tFaces => str "Faces" | tAxes => str "Axes" | tBrickColor => str "BrickColor" | tColor3 => str "Color3"
  | tVector2 => str "Vector2" | tVector3 => str "Vector3" | tVector2int16 => str "Vector2int16"
  | tCFrame => str "CFrame" | tCFrameQuat => str "CFrameQuat" | tToken => str "Token"
  | tReference => str "Reference" | tVector3int16 => str "Vector3int16"
  | tNumberSequence => str "NumberSequence" | tColorSequence => str "ColorSequence"
  | tNumberRange => str "NumberRange" | tRect => str "Rect" | tPhysicalProperties => str "PhysicalProperties"
  | tColor3uint8 => str "Color3uint8" | tInt64 => str "Int64" | tSharedString => str "SharedString"
  | tOptional => str "Optional" | tUniqueId => str "UniqueId" | tFont => str "Font"
  end.
(** v.Dump(w, indent), which panics for a nil v; the Get methods are [arr_get] of RbxlCodec.v. *)
Definition dump_got (de : denv) (indent : nat) (v : option value) : res bytes :=
  match v with Some v => OK (dump_value de indent v) | None => Panic end.
(** A loop for i := 0; i < n; i++ that writes *)
Fixpoint write_loop (n i : nat) (f : nat -> res bytes) : res bytes :=
  match n with
  | O => OK []
  | S n => b <- f i ;; r <- write_loop n (S i) f ;; OK (b ++ r)
  end.
(** arrays.go:1470-1496 arrayOptional.Dump *)
Definition dump_optional (de : denv) (indent : nat) (vals : option array) (present : list bool) : res bytes :=
  match vals with
  | None => OK (str "none")
  | Some a =>
      let t := arr_type a in
      body <- write_loop (arr_len a) 0 (fun i =>
        let head := nl (indent + 2) ++ FormatUint (N.of_nat i) ++ str ": " in
        match nth_error present i with
        | None => OK (head ++ str "invalid")
        | Some p =>
            v <- arr_get a i ;;
            s <- dump_got de (indent + 2) v ;;
            OK (head ++ (if p then [] else str "none (") ++ s ++ (if p then [] else str ")"))
        end) ;;
      OK (str "((type:" ++ FormatUint (b2N (tid_byte t)) ++ str ") " ++ tid_string t ++ str ") {" ++ body ++
          nl (S indent) ++ [x7d])
  end.
(** dump.go:133-151, the property array of a chunk at [indent] *)
Definition dump_array (de : denv) (indent : nat) (a : array) : res bytes :=
  let t := arr_type a in
  body <- (match a with
           | AOPT vals present => dump_optional de (S indent) vals present
           | ARR _ _ =>
               b <- write_loop (arr_len a) 0 (fun i =>
                 v <- arr_get a i ;;
                 s <- dump_got de (indent + 2) v ;;
                 OK (nl (indent + 2) ++ FormatUint (N.of_nat i) ++ str ": " ++ s)) ;;
               OK (x7b :: b ++ nl (S indent) ++ [x7d])
           end) ;;
  OK (nl (S indent) ++ str "Properties: (count:" ++ FormatUint (N.of_nat (arr_len a)) ++ str ", (type:" ++
      FormatUint (b2N (tid_byte t)) ++ str ") " ++ tid_string t ++ str ") " ++ body).

(** ** Chunks: dump.go:51-204 dumpChunk *)
(** The map of classes: ID to count of instances and class name. *)
Definition classes := list (Z * (nat * bytes)).
Fixpoint class_get (cs : classes) (id : Z) : option (nat * bytes) :=
  match cs with [] => None | (k, v) :: cs => if (k =? id)%Z then Some v else class_get cs id end.
Definition class_add (cs : classes) (p : payload) : classes :=
  match p with PInst id name ids _ _ => (id, (length ids, name)) :: cs | _ => cs end.

(** :170-188 the lines of the parent chunk; [i] is the index *)
Definition dump_links (indent : nat) (cs ps : list Z) : bytes :=
  flat_map (fun i =>
    let side (l : list Z) := match nth_error l i with Some n => FormatInt n | None => str "invalid" end in
    nl (indent + 2) ++ side cs ++ str " : " ++ side ps) (seq 0 (Nat.max (length cs) (length ps))).

(** The switch, for the chunks that are not errored: :59-193 *)
Definition dump_payload (de : denv) (indent : nat) (cs : classes) (p : payload) : res bytes :=
  match p with
  | PMeta vs =>
      OK (nl (S indent) ++ str "Count: " ++ FormatUint (N.of_nat (length vs)) ++
          flat_map (fun kv => nl (S indent) ++ str "{" ++
            nl (indent + 2) ++ str "Key: " ++ dumpString de (indent + 2) (fst kv) ++
            nl (indent + 2) ++ str "Value: " ++ dumpString de (indent + 2) (snd kv) ++
            nl (S indent) ++ str "}") vs)
  | PSstr version vs =>
      OK (nl (S indent) ++ str "Version: " ++ FormatUint version ++
          nl (S indent) ++ str "Values: (count:" ++ FormatUint (N.of_nat (length vs)) ++ str ") {" ++
          numbered (fun hv => str "{" ++
            nl (indent + 3) ++ str "Hash: " ++ dumpBytes (indent + 3) (fst hv) ++
            nl (indent + 3) ++ str "Value: " ++ dumpBytes (indent + 3) (snd hv) ++
            nl (indent + 2) ++ str "}") (indent + 2) 0 vs ++
          nl (S indent) ++ str "}")
  | PInst id name ids service gets =>
      OK (nl (S indent) ++ str "ClassID: " ++ FormatInt id ++
          nl (S indent) ++ str "ClassName: " ++ dumpString de (S indent) name ++
          nl (S indent) ++ str "InstanceIDs: (count:" ++ FormatUint (N.of_nat (length ids)) ++
          (if service then str ") (service) {" else str ") {") ++
          flat_map (fun ii =>
            let ' (i, id) := ii in
            nl (indent + 2) ++ FormatUint (N.of_nat i) ++ str ": " ++ FormatInt id ++
            (if service then
               match nth_error gets i with
               | None => str " (invalid)"
               | Some g => str " (" ++ FormatUint (b2N g) ++ str ")"
               end
             else [])) (combine (seq 0 (length ids)) ids) ++
          nl (S indent) ++ str "}")
  | PProp id name props =>
      body <- (match props with None => OK [] | Some a => dump_array de indent a end) ;;
      OK (nl (S indent) ++ str "ClassID: " ++ FormatInt id ++
          (match class_get cs id with
           | Some (n, cname) => str " (count:" ++ FormatUint (N.of_nat n) ++ str ", " ++ dumpString de (S indent) cname ++ str ")"
           | None => []
           end) ++
          nl (S indent) ++ str "PropertyName: " ++ dumpString de (S indent) name ++ body)
  | PPrnt version children parents =>
      OK (nl (S indent) ++ str "Version: " ++ FormatUint version ++
          nl (S indent) ++ str "Values (child : parent)" ++ dump_links indent children parents)
  | PEnd content => OK (nl (S indent) ++ str "Content: " ++ dumpString de (S indent) content)
  | PUnknown _ content =>                       (* the tabs of the second line are fixed: :193 *)
      OK (nl (S indent) ++ str "<unknown chunk signature>" ++ nl 2 ++ str "Bytes: " ++ dumpBytes (S indent) content)
  | PErrored _ _ _ _ => OK []                   (* see dump_chunk *)
  end.
Definition dump_head (indent : nat) (i : option nat) (sg : N) (compressed : bool) : bytes :=
  nl indent ++ (match i with Some i => str "#" ++ FormatUint (N.of_nat i) ++ str ": " | None => [] end) ++
  dumpSig sg ++ (if compressed then str " (compressed) {" else str " (uncompressed) {").

(** A chunk of the file.  [inner] is the chunk "as the error occurred"
    (model.go:295) inside an errored chunk, which RbxlFile.v does not keep: it
    is any chunk here that is not itself errored.  It is put into the map of
    classes too. *)
Definition dump_chunk (de : denv) (i : nat) (inner : payload) (cs : classes) (c : chunk) : res (bytes * classes) :=
  let sg := psig (ch_payload c) in
  match ch_payload c with
  | PErrored _ offset cause content =>
      let cs' := class_add cs inner in
      b <- dump_payload de 3 cs' inner ;;
      OK (dump_head 1 (Some i) sg (ch_compressed c) ++
          nl 2 ++ str "<errored chunk>" ++ nl 2 ++ str "Offset: " ++ FormatUint (N.of_nat offset) ++
          nl 2 ++ str "Error: " ++ de_error de cause ++ nl 2 ++ str "Chunk:" ++
          dump_head 3 None sg (ch_compressed c) ++ b ++ nl 3 ++ str "}" ++
          nl 2 ++ str "Bytes: " ++ dumpBytes 2 content ++ nl 1 ++ str "}", cs')
  | p =>
      let cs' := class_add cs p in
      b <- dump_payload de 1 cs' p ;;
      OK (dump_head 1 (Some i) sg (ch_compressed c) ++ b ++ nl 1 ++ str "}", cs')
  end.
Fixpoint dump_chunks (de : denv) (inner : nat -> payload) (i : nat) (cs : classes) (l : list chunk) : res bytes :=
  match l with
  | [] => OK []
  | c :: l =>
      ' (b, cs) <- dump_chunk de i (inner i) cs c ;;
      r <- dump_chunks de inner (S i) cs l ;;
      OK (b ++ r)
  end.
Definition dump_model (de : denv) (inner : nat -> payload) (f : fmodel) : res bytes :=
  b <- dump_chunks de inner 0 [] (fm_chunks f) ;;
  OK (str "Version: " ++ FormatUint (fm_version f) ++ nl 0 ++ str "Classes: " ++ FormatUint (fm_classCount f) ++
      nl 0 ++ str "Instances: " ++ FormatUint (fm_instCount f) ++ nl 0 ++ str "Chunks: {" ++ b ++ nl 0 ++ str "}").

(** ** dump.go:14-49 Dump, with a non-nil reader and writer.  The error of
    bw.Flush (:47) is ignored, so the writer does not matter for the result:
    the text is what is handed to it. *)
Definition Decoder_Dump (de : denv) (inner : nat -> payload) (lz : lz4) (spare : nat -> nat) (noXML : bool) (input : bytes)
  : outcome (err * list warning) (list warning * bytes) :=
  match decode lz spare noXML input with
  | Err (e, ws, _) => Err (e, ws)
  | Panic => Panic
  | Hang => Hang
  | OK (DXml _, ws, _) => Err (EXML, ws)
  | OK (DModel f, ws, _) =>
      match dump_model de inner f with
      | OK b => OK (ws, b)
      | Err e => Err (e, ws)
      | Panic => Panic
      | Hang => Hang
      end
  end.
