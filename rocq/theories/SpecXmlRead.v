(** SpecXmlRead.v - the value that a property tag of an XML file stands for.

    [means typ t v]: the tag t is a valid value v of the type typ.  What is
    outside of the code enters as [parse32], [parse64] (strconv.ParseFloat) and
    [div255] (float32(k)/255); base64 text is decoded by the model of the
    standard library. *)
From Verif Require Import Base RbxlValues RbxValues XmlText XmlDoc XmlCodec SpecBase64 SpecXmlText.
Local Notation string := String.string.

(** The content of a tag: the CDATA section, or else the text. *)
Inductive contents : tag -> bytes -> Prop :=
| Contents_cdata t c : t_cdata t = Some c -> contents t c
| Contents_text t : t_cdata t = None -> contents t (t_text t).

(** ** Numbers *)
(** Decimal digits. *)
Definition digits (ds : bytes) (n : N) : Prop := ds <> [] /\ numeral 10 0 ds n.
(** Digits with a sign. *)
Inductive integer : bytes -> Z -> Prop :=
| Int_plain ds n : digits ds n -> integer ds (Z.of_N n)
| Int_plus ds n : digits ds n -> integer (x2b :: ds) (Z.of_N n)
| Int_minus ds n : digits ds n -> integer (x2d :: ds) (- Z.of_N n)%Z.
(** An unsigned number of some bits.  Numbers that are too large are the
    largest; they are known before the text ends. *)
Inductive unsigned (bits : N) : bytes -> N -> Prop :=
| Uns_fits ds n : digits ds n -> (n < 2 ^ bits)%N -> unsigned bits ds n
| Uns_large ds n rest : digits ds n -> (2 ^ bits <= n)%N -> unsigned bits (ds ++ rest) (2 ^ bits - 1)%N.
(** A signed number of some bits, and whether it is in range.  Otherwise it is
    the nearest number in range. *)
Inductive signed (bits : N) : bytes -> bool -> Z -> Prop :=
| Sig_fits c z : integer c z -> (- 2 ^ Z.of_N (bits - 1) <= z < 2 ^ Z.of_N (bits - 1))%Z -> signed bits c true z
| Sig_high c z : integer c z -> (2 ^ Z.of_N (bits - 1) <= z)%Z -> signed bits c false (2 ^ Z.of_N (bits - 1) - 1)%Z
| Sig_low c z : integer c z -> (z < - 2 ^ Z.of_N (bits - 1))%Z -> signed bits c false (- 2 ^ Z.of_N (bits - 1))%Z
| Sig_high_open c z rest : integer c z -> (2 ^ Z.of_N bits <= z)%Z -> signed bits (c ++ rest) false (2 ^ Z.of_N (bits - 1) - 1)%Z
| Sig_low_open c z rest : integer c z -> (z <= - 2 ^ Z.of_N bits)%Z -> signed bits (c ++ rest) false (- 2 ^ Z.of_N (bits - 1))%Z.

(** ** Components: subtags with given names *)
Definition absent (n : bytes) (ts : list tag) : Prop := Forall (fun u => t_start u <> n) ts.
(** The first tag with a name. *)
Definition first (n : bytes) (ts : list tag) (u : tag) : Prop :=
  exists p s, ts = p ++ u :: s /\ t_start u = n /\ absent n p.

Section Means.
Variable (parse32 parse64 : bytes -> option N) (div255 : N -> N).

(** Integers are read with 32 bits (16 bits for int16 and weights), then cut. *)
Definition int_bits (k : ckind) : option N :=
  match k with CU8 | CI32 => Some 32%N | CI16 | CWeight => Some 16%N | _ => None end.
Definition cut (k : ckind) (z : Z) : Z :=
  match k with CU8 => z mod 256 | CWeight => z mod 65536 | _ => z end%Z.
(** The value of a component; a float that cannot be read has none. *)
Inductive value_of : ckind -> tag -> option cval -> Prop :=
| V_int k bits u c z : int_bits k = Some bits -> contents u c -> signed bits c true z -> value_of k u (Some (VZ (cut k z)))
| V_float u c f : contents u c -> parse32 c = Some f -> value_of CF32 u (Some (VF f))
| V_not_float u c : contents u c -> parse32 c = None -> value_of CF32 u None
| V_normal u : contents u (str "Normal") -> value_of CStyle u (Some (VZ 0))
| V_italic u : contents u (str "Italic") -> value_of CStyle u (Some (VZ 1))
| V_tag u : value_of CTag u (Some (VT u)).
(** An integer out of range. *)
Inductive out_of_range : ckind -> tag -> cval -> Prop :=
| V_out k bits u c z : int_bits k = Some bits -> contents u c -> signed bits c false z -> out_of_range k u (VZ (cut k z)).
(** The components of a tag by name.  The first tag with a name counts, others
    and unknown tags do not matter, and all must be there; but after an
    integer out of range nothing is looked at. *)
Definition found (ts : list tag) (n : bytes) (k : ckind) (x : option cval) : Prop :=
  exists u, first n ts u /\ value_of k u x.
Inductive components (want : list (bytes * ckind)) (ts : list tag) (val : bytes -> option cval) : Prop :=
| Comps_all : (forall n k, In (n, k) want -> found ts n k (val n)) -> components want ts val
| Comps_cut p u s k x : ts = p ++ u :: s -> In (t_start u, k) want -> absent (t_start u) p ->
    out_of_range k u x -> val (t_start u) = Some x ->
    (forall n k', In (n, k') want -> n <> t_start u -> found p n k' (val n) \/ absent n p /\ val n = None) ->
    components want ts val.
(** A component without a value is zero. *)
Definition float_at (val : bytes -> option cval) (n : string) (f : N) : Prop :=
  val (str n) = Some (VF f) \/ val (str n) = None /\ f = 0%N.
Definition int_at (val : bytes -> option cval) (n : string) (z : Z) : Prop :=
  val (str n) = Some (VZ z) \/ val (str n) = None /\ z = 0%Z.
Definition tag_at (val : bytes -> option cval) (n : string) (t : tag) : Prop := val (str n) = Some (VT t).
Definition floats_at (val : bytes -> option cval) (ns : list string) (fs : list N) : Prop := Forall2 (float_at val) ns fs.
Definition ints (l : list string) (k : ckind) : list (bytes * ckind) := map (fun n => (str n, k)) l.
(** All components are floats. *)
Definition floats_in (t : tag) (ns : list string) (fs : list N) : Prop :=
  exists val, components (ints ns CF32) (t_tags t) val /\ floats_at val ns fs.

(** ** Parts *)
Inductive truth : tag -> bool -> Prop :=
| Truth_no t c : contents t c -> In c [str "false"; str "False"; str "FALSE"] -> truth t false
| Truth_yes t c : contents t c -> In c [str "true"; str "True"; str "TRUE"] -> truth t true.
Inductive content_of : tag -> bytes -> Prop :=
| Con_none t u s : contents t [] -> t_tags t = u :: s -> In (t_start u) [str "null"; str "hash"; str "binary"] -> content_of t []
| Con_url t u s c : contents t [] -> t_tags t = u :: s -> t_start u = str "url" -> contents u c -> content_of t c.
(** Floats, each followed by white space; [rest] is what comes after. *)
Inductive float_words : bytes -> list N -> bytes -> Prop :=
| Words_nil c : float_words c [] c
| Words_cons w sp c f fs rest : Forall (fun b => ~ white b) w -> sp <> [] -> Forall white sp ->
    match c with [] => True | b :: _ => ~ white b end ->
    parse32 w = Some f -> float_words c fs rest -> float_words (w ++ sp ++ c) (f :: fs) rest.
(** Red, green and blue in the lower 24 bits of a number. *)
Definition rgb (n r g b : N) : Prop := exists k, (n = k * 2 ^ 24 + r * 2 ^ 16 + g * 2 ^ 8 + b /\ r < 256 /\ g < 256 /\ b < 256)%N.
(** Bytes from pairs of hexadecimal digits. *)
Inductive hex_text : bytes -> bytes -> Prop :=
| Hex_nil : hex_text [] []
| Hex_byte a b x y s r : digit_of 16 a x -> digit_of 16 b y -> hex_text s r -> hex_text (a :: b :: s) (N2b (x * 16 + y) :: r).
(** Bits of a number, lowest first. *)
Definition bits_at (z : Z) (bs : list bool) : Prop := bs = map (fun i => Z.odd (z / 2 ^ Z.of_nat i)) (seq 0 (length bs)).

(** ** Values *)
Definition none (t : tag) : Prop := contents t [].
Definition some (t : tag) (c : bytes) : Prop := contents t c /\ c <> [].

Inductive means : Type_ -> tag -> rvalue -> Prop :=
| M_axes t val z x y w : components (ints ["axes"%string] CI32) (t_tags t) val -> int_at val "axes" z ->
    bits_at z [x; y; w] -> means TypeAxes t (RAxes x y w)
| M_faces t val z a b c d e f : components (ints ["faces"%string] CI32) (t_tags t) val -> int_at val "faces" z ->
    bits_at z [a; b; c; d; e; f] -> means TypeFaces t (RFaces a b c d e f)
| M_binary t c s : contents t c -> base64 c s -> means TypeBinaryString t (RBinaryString s)
| M_shared t c s : contents t c -> base64 c s -> means TypeSharedString t (RSharedString s)
| M_string t c : contents t c -> means TypeString t (RString c)
| M_protected t c : contents t c -> means TypeProtectedString t (RProtectedString c)
| M_content t c : content_of t c -> means TypeContent t (RContent c)
| M_reference t : means TypeReference t (RReference 0)
| M_bool t b : truth t b -> means TypeBool t (RBool b)
| M_brickcolor t c n : contents t c -> unsigned 32 c n -> means TypeBrickColor t (RBrickColor n)
| M_int t c b z : contents t c -> signed 32 c b z -> means TypeInt t (RInt z)
| M_int64 t c b z : contents t c -> signed 64 c b z -> means TypeInt64 t (RInt64 z)
| M_token t c b z : contents t c -> signed 32 c b z -> means TypeToken t (RToken (Z.to_N (z mod 2 ^ 32)))
| M_float t c f : contents t c -> parse32 c = Some f -> means TypeFloat t (RFloat f)
| M_double t c f : contents t c -> parse64 c = Some f -> means TypeDouble t (RDouble f)
| M_udim t val s o : components (ints ["S"%string] CF32 ++ ints ["O"%string] CI32) (t_tags t) val ->
    float_at val "S" s -> int_at val "O" o -> means TypeUDim t (RUDim s o)
| M_udim2 t val xs xo ys yo : components (ints ["XS"; "YS"]%string CF32 ++ ints ["XO"; "YO"]%string CI32) (t_tags t) val ->
    float_at val "XS" xs -> int_at val "XO" xo -> float_at val "YS" ys -> int_at val "YO" yo -> means TypeUDim2 t (RUDim2 xs xo ys yo)
| M_vector2 t x y : floats_in t ["X"; "Y"]%string [x; y] -> means TypeVector2 t (RVector2 x y)
| M_vector3 t x y z : floats_in t ["X"; "Y"; "Z"]%string [x; y; z] -> means TypeVector3 t (RVector3 (Vec3 x y z))
| M_vector2int16 t val x y : components (ints ["X"; "Y"]%string CI16) (t_tags t) val -> int_at val "X" x -> int_at val "Y" y ->
    means TypeVector2int16 t (RVector2int16 x y)
| M_vector3int16 t val x y z : components (ints ["X"; "Y"; "Z"]%string CI16) (t_tags t) val -> int_at val "X" x -> int_at val "Y" y -> int_at val "Z" z ->
    means TypeVector3int16 t (RVector3int16 x y z)
| M_cframe t x y z rot : length rot = 9 ->
    floats_in t ["X"; "Y"; "Z"; "R00"; "R01"; "R02"; "R10"; "R11"; "R12"; "R20"; "R21"; "R22"]%string (x :: y :: z :: rot) ->
    means TypeCFrame t (RCFrame (Vec3 x y z) rot)
| M_color3_packed t c n r g b : some t c -> unsigned 32 c n -> rgb n r g b -> means TypeColor3 t (RColor3 (div255 r) (div255 g) (div255 b))
| M_color3 t r g b : none t -> floats_in t ["R"; "G"; "B"]%string [r; g; b] -> means TypeColor3 t (RColor3 r g b)
| M_color3uint8_packed t c n r g b : some t c -> unsigned 32 c n -> rgb n r g b -> means TypeColor3uint8 t (RColor3uint8 (N2b r) (N2b g) (N2b b))
| M_color3uint8 t val r g b : none t -> components (ints ["R"; "G"; "B"]%string CU8) (t_tags t) val ->
    int_at val "R" r -> int_at val "G" g -> int_at val "B" b ->
    means TypeColor3uint8 t (RColor3uint8 (N2b (Z.to_N r)) (N2b (Z.to_N g)) (N2b (Z.to_N b)))
| M_ray t o d x y z x' y' z' : first (str "origin") (t_tags t) o -> first (str "direction") (t_tags t) d ->
    floats_in o ["X"; "Y"; "Z"]%string [x; y; z] -> floats_in d ["X"; "Y"; "Z"]%string [x'; y'; z'] ->
    means TypeRay t (RRay (Vec3 x y z) (Vec3 x' y' z'))
| M_rect t a b x y x' y' : first (str "min") (t_tags t) a -> first (str "max") (t_tags t) b ->
    floats_in a ["X"; "Y"]%string [x; y] -> floats_in b ["X"; "Y"]%string [x'; y'] -> means TypeRect t (RRect x y x' y')
| M_numberrange t c a b rest : contents t c -> float_words c [a; b] rest -> means TypeNumberRange t (RNumberRange a b)
| M_numbersequence t c ks : contents t c -> float_words c (flat_map (fun k => [ns_time k; ns_value k; ns_env k]) ks) [] ->
    means TypeNumberSequence t (RNumberSequence ks)
| M_colorsequence t c ks : contents t c -> float_words c (flat_map (fun k => [cs_time k; cs_r k; cs_g k; cs_b k; cs_env k]) ks) [] ->
    means TypeColorSequence t (RColorSequence ks)
| M_physical_default t u : first (str "CustomPhysics") (t_tags t) u -> truth u false ->
    means TypePhysicalProperties t (RPhysicalProperties false 0 0 0 0 0)
| M_physical t u d f e fw ew : first (str "CustomPhysics") (t_tags t) u -> truth u true ->
    floats_in t ["Density"; "Friction"; "Elasticity"; "FrictionWeight"; "ElasticityWeight"]%string [d; f; e; fw; ew] ->
    means TypePhysicalProperties t (RPhysicalProperties true d f e fw ew)
(* the text, not the CDATA section *)
| M_uniqueid t h rest r tm i : t_text t = h ++ rest -> length h = 32 ->
    hex_text h (be_bytes 8 (toN 64 r) ++ be_bytes 4 tm ++ be_bytes 4 i) -> (- 2 ^ 63 <= r < 2 ^ 63)%Z -> (tm < 2 ^ 32)%N -> (i < 2 ^ 32)%N ->
    means TypeUniqueId t (RUniqueId r tm i)
| M_font t val fam w st f id : components ((str "Family", CTag) :: (str "Weight", CWeight) :: [(str "Style", CStyle)]) (t_tags t) val ->
    tag_at val "Family" fam -> int_at val "Weight" w -> int_at val "Style" st -> content_of fam f ->
    (absent (str "CachedFaceId") (t_tags t) /\ id = [] \/ exists u, first (str "CachedFaceId") (t_tags t) u /\ content_of u id) ->
    means TypeFont t (RFont f (Z.to_N w) (N2b (Z.to_N st)) id).
End Means.
