(** SpecDeclare.v - specification side for conversions of numbers and for
    declarations. *)
From Coq Require Import QArith Qabs.
From Verif Require Import Base RbxlValues RbxValues Tree SpecTree Ieee Declare.
Local Notation string := String.string.

(** ** Floating point numbers *)

Definition two_to (e : Z) : Q := Qpower (inject_Z 2) e.
(** The magnitude of the float with bits a (without the sign), by IEEE 754.
    For the bits of infinity this is the power of two that comes next. *)
Definition magnitude (f : format) (a : Z) : Q :=
  let w := (2 ^ f_mw f)%Z in
  if (a <? w)%Z then inject_Z a * two_to (f_emin f)
  else inject_Z (w + a mod w) * two_to (f_emin f + a / w - 1).
Definition sign_bit (f : format) : Z := (2 ^ (f_mw f + f_ew f))%Z.
(** The number that bits stand for; nothing for infinities and NaN. *)
Definition f_real (f : format) (n : N) : option Q :=
  let a := (Z.of_N n mod sign_bit f)%Z in
  if ((a <? f_inf f) && (Z.of_N n <? 2 * sign_bit f))%Z then Some (if (sign_bit f <=? Z.of_N n)%Z then - magnitude f a else magnitude f a) else None.
(** a is the nearest magnitude to x >= 0, infinity included; of two that are
    equally near it is the even one. *)
Definition nearest_bits (f : format) (x : Q) (a : Z) : Prop :=
  (0 <= a <= f_inf f)%Z /\
  forall b, (0 <= b <= f_inf f)%Z ->
    Qabs (x - magnitude f a) <= Qabs (x - magnitude f b) /\
    (Qabs (x - magnitude f a) == Qabs (x - magnitude f b) -> b = a \/ Z.even a = true).
(** n is the float nearest to x. *)
Definition nearest (f : format) (x : Q) (n : N) : Prop :=
  exists a, nearest_bits f (Qabs x) a /\
    ((0 <= x /\ n = Z.to_N a) \/ (x <= 0 /\ n = Z.to_N (sign_bit f + a))).
(** z is x without its fraction. *)
Definition truncated (x : Q) (z : Z) : Prop :=
  (0 <= x -> inject_Z z <= x < inject_Z z + 1) /\ (x <= 0 -> inject_Z z - 1 < x <= inject_Z z).

(** ** Numbers given to a property *)

(** The real number that a builtin number is. *)
Definition real_of (v : dval) : option Q :=
  match v with
  | DInt _ z => Some (inject_Z z)
  | DFloat32 f => f_real F32 f
  | DFloat64 f => f_real F64 f
  | _ => None
  end.
(** What an n-bit integer field becomes: integers wrap around; floats lose
    their fraction and must then fit. *)
Inductive whole (lo n : Z) : dval -> Z -> Prop :=
| wh_int k x z : (lo <= z < lo + 2 ^ n)%Z -> ((x - z) mod 2 ^ n = 0)%Z -> whole lo n (DInt k x) z
| wh_f32 f x z : f_real F32 f = Some x -> truncated x z -> (lo <= z < lo + 2 ^ n)%Z -> whole lo n (DFloat32 f) z
| wh_f64 f x z : f_real F64 f = Some x -> truncated x z -> (lo <= z < lo + 2 ^ n)%Z -> whole lo n (DFloat64 f) z.
Definition signed (n : Z) : dval -> Z -> Prop := whole (- 2 ^ (n - 1)) n.
Definition unsigned (n : Z) : dval -> Z -> Prop := whole 0 n.
(** What a float32 field becomes: the same float, the nearest one, or the same
    infinity.  Nothing is said about a NaN of the other size. *)
Definition infinity (f : format) (neg : bool) : N := Z.to_N ((if neg then sign_bit f else 0) + f_inf f).
Inductive single : dval -> N -> Prop :=
| si_same f : single (DFloat32 f) f
| si_int k z g : nearest F32 (inject_Z z) g -> (z = 0%Z -> g = 0%N) -> single (DInt k z) g
| si_f64 f x g : f_real F64 f = Some x -> nearest F32 x g -> (x == 0 -> g = if (f =? 0)%N then 0%N else 0x80000000%N) -> single (DFloat64 f) g
| si_inf neg : single (DFloat64 (infinity F64 neg)) (infinity F32 neg).
Inductive double : dval -> N -> Prop :=
| do_same f : double (DFloat64 f) f
| do_int k z g : nearest F64 (inject_Z z) g -> (z = 0%Z -> g = 0%N) -> double (DInt k z) g
| do_f32 f x g y : f_real F32 f = Some x -> f_real F64 g = Some y -> x == y ->
    (x == 0 -> g = if (f =? 0)%N then 0%N else 0x8000000000000000%N) -> double (DFloat32 f) g
| do_inf neg : double (DFloat32 (infinity F32 neg)) (infinity F64 neg).
(** A builtin number. *)
Definition number (v : dval) : Prop := match v with DInt _ _ | DFloat32 _ | DFloat64 _ => True | _ => False end.

Local Open Scope nat_scope.
(** ** The comment on Property (declare.go:186-298) *)

Inductive text : dval -> bytes -> Prop :=
| tx_string s : text (DString s) s
| tx_bytes s : text (DBytes s) s.
Definition vec_of (a b c : dval) (v : vec3) : Prop := single a (v3x v) /\ single b (v3y v) /\ single c (v3z v).
Definition color_key (a b c d e : dval) (k : cskey) : Prop :=
  single a (cs_time k) /\ single b (cs_r k) /\ single c (cs_g k) /\ single d (cs_b k) /\ single e (cs_env k).
Inductive number_groups : list dval -> list nskey -> Prop :=
| ng_nil : number_groups [] []
| ng_cons a b c l k ks : single a (ns_time k) -> single b (ns_value k) -> single c (ns_env k) -> number_groups l ks ->
    number_groups (a :: b :: c :: l) (k :: ks).
Inductive color_groups3 : list dval -> list cskey -> Prop :=
| cg3_nil : color_groups3 [] []
| cg3_cons a c l k ks : single a (cs_time k) -> single c (cs_env k) -> color_groups3 l ks ->
    color_groups3 (a :: DValue (RColor3 (cs_r k) (cs_g k) (cs_b k)) :: c :: l) (k :: ks).
Inductive color_groups5 : list dval -> list cskey -> Prop :=
| cg5_nil : color_groups5 [] []
| cg5_cons a b c d e l k ks : color_key a b c d e k -> color_groups5 l ks -> color_groups5 (a :: b :: c :: d :: e :: l) (k :: ks).
Definition declared_types : list Type_ := map N.of_nat (seq 1 30).
(** [documented label t vals v]: by the comment, a property of type t declared
    with these values has the value v.  [label s q]: q is the instance that the
    string s refers to. *)
Inductive documented (label : bytes -> ptr -> Prop) : Type_ -> list dval -> rvalue -> Prop :=
| dc_value v rest : In (rtype v) declared_types -> documented label (rtype v) (DValue v :: rest) v
| dc_nothing t v : NewValue t = Some v -> documented label t [] v
| dc_string a s rest : text a s -> documented label TypeString (a :: rest) (RString s)
| dc_binary a s rest : text a s -> documented label TypeBinaryString (a :: rest) (RBinaryString s)
| dc_protected a s rest : text a s -> documented label TypeProtectedString (a :: rest) (RProtectedString s)
| dc_content a s rest : text a s -> documented label TypeContent (a :: rest) (RContent s)
| dc_shared a s rest : text a s -> documented label TypeSharedString (a :: rest) (RSharedString s)
| dc_bool b rest : documented label TypeBool (DBool b :: rest) (RBool b)
| dc_int a z rest : signed 32 a z -> documented label TypeInt (a :: rest) (RInt z)
| dc_float a x rest : single a x -> documented label TypeFloat (a :: rest) (RFloat x)
| dc_double a x rest : double a x -> documented label TypeDouble (a :: rest) (RDouble x)
| dc_brick a z rest : unsigned 32 a z -> documented label TypeBrickColor (a :: rest) (RBrickColor (Z.to_N z))
| dc_token a z rest : unsigned 32 a z -> documented label TypeToken (a :: rest) (RToken (Z.to_N z))
| dc_int64 a z rest : signed 64 a z -> documented label TypeInt64 (a :: rest) (RInt64 z)
| dc_udim a b s o : single a s -> signed 32 b o -> documented label TypeUDim [a; b] (RUDim s o)
| dc_udim2 xs xo ys yo : documented label TypeUDim2 [DValue (RUDim xs xo); DValue (RUDim ys yo)] (RUDim2 xs xo ys yo)
| dc_udim2_numbers a b c d xs xo ys yo : single a xs -> signed 32 b xo -> single c ys -> signed 32 d yo ->
    documented label TypeUDim2 [a; b; c; d] (RUDim2 xs xo ys yo)
| dc_ray o d : documented label TypeRay [DValue (RVector3 o); DValue (RVector3 d)] (RRay o d)
| dc_ray_numbers a b c d e g o dir : vec_of a b c o -> vec_of d e g dir -> documented label TypeRay [a; b; c; d; e; g] (RRay o dir)
| dc_faces r t b l bo f : documented label TypeFaces [DBool r; DBool t; DBool b; DBool l; DBool bo; DBool f] (RFaces r t b l bo f)
| dc_axes x y z : documented label TypeAxes [DBool x; DBool y; DBool z] (RAxes x y z)
| dc_color3 a b c r g bl : single a r -> single b g -> single c bl -> documented label TypeColor3 [a; b; c] (RColor3 r g bl)
| dc_vector2 a b x y : single a x -> single b y -> documented label TypeVector2 [a; b] (RVector2 x y)
| dc_vector2int16 a b x y : signed 16 a x -> signed 16 b y -> documented label TypeVector2int16 [a; b] (RVector2int16 x y)
| dc_vector3 a b c v : vec_of a b c v -> documented label TypeVector3 [a; b; c] (RVector3 v)
| dc_vector3int16 a b c x y z : signed 16 a x -> signed 16 b y -> signed 16 c z ->
    documented label TypeVector3int16 [a; b; c] (RVector3int16 x y z)
| dc_cframe p l rot : length l = 9 -> Forall2 single l rot -> documented label TypeCFrame (DValue (RVector3 p) :: l) (RCFrame p rot)
| dc_cframe_numbers a b c l p rot : length l = 9 -> vec_of a b c p -> Forall2 single l rot ->
    documented label TypeCFrame (a :: b :: c :: l) (RCFrame p rot)
| dc_reference a s q rest : text a s -> label s q -> documented label TypeReference (a :: rest) (RReference q)
| dc_instance p rest : documented label TypeReference (DInstance p :: rest) (RReference p)
| dc_numbers ks : 2 <= length ks -> documented label TypeNumberSequence (map DNSKey ks) (RNumberSequence ks)
| dc_numbers3 l ks : number_groups l ks -> 2 <= length ks -> documented label TypeNumberSequence l (RNumberSequence ks)
| dc_colors ks : 2 <= length ks -> documented label TypeColorSequence (map DCSKey ks) (RColorSequence ks)
| dc_colors3 l ks : color_groups3 l ks -> 2 <= length ks -> documented label TypeColorSequence l (RColorSequence ks)
| dc_colors5 l ks : color_groups5 l ks -> 2 <= length ks -> documented label TypeColorSequence l (RColorSequence ks)
| dc_range a b x y : single a x -> single b y -> documented label TypeNumberRange [a; b] (RNumberRange x y)
| dc_rect a b c d : documented label TypeRect [DValue (RVector2 a b); DValue (RVector2 c d)] (RRect a b c d)
| dc_rect_numbers a b c d x y z w : single a x -> single b y -> single c z -> single d w -> documented label TypeRect [a; b; c; d] (RRect x y z w)
| dc_physical3 a b c d f e : single a d -> single b f -> single c e ->
    documented label TypePhysicalProperties [a; b; c] (RPhysicalProperties true d f e 0 0)
| dc_physical5 a b c x y d f e fw ew : single a d -> single b f -> single c e -> single x fw -> single y ew ->
    documented label TypePhysicalProperties [a; b; c; x; y] (RPhysicalProperties true d f e fw ew)
| dc_color3uint8 a b c r g bl : unsigned 8 a r -> unsigned 8 b g -> unsigned 8 c bl ->
    documented label TypeColor3uint8 [a; b; c] (RColor3uint8 (N2b (Z.to_N r)) (N2b (Z.to_N g)) (N2b (Z.to_N bl))).

(** The declarations for which the comment is right: nothing, a value of the
    declared type, and the following. *)
Definition as_documented (t : Type_) (vals : list dval) : Prop :=
  vals = [] \/ (exists v rest, vals = DValue v :: rest /\ rtype v = t) \/
  (~ In t [TypeBinaryString; TypeProtectedString; TypeContent; TypeDouble] /\
   (t = TypeCFrame -> length vals = 12) /\ (t = TypeRect -> length vals = 4) /\
   (t = TypeNumberSequence -> exists k rest, vals = DNSKey k :: rest) /\
   (t = TypeColorSequence -> exists k rest, vals = DCSKey k :: rest)).
(** The others, and what happens instead
    ([None]: a panic). *)
Inductive astray (label : bytes -> ptr -> Prop) : Type_ -> list dval -> option rvalue -> Prop :=
| as_text t a s rest : In t [TypeBinaryString; TypeProtectedString; TypeContent] -> text a s -> astray label t (a :: rest) (Some (RString s))
| as_double a x y rest : double a x -> single (DFloat64 x) y -> astray label TypeDouble (a :: rest) (Some (RFloat y))
(* The rotation starts with zero and lacks its last number. *)
| as_cframe p l last rot : length l = 8 -> Forall2 single l rot ->
    astray label TypeCFrame (DValue (RVector3 p) :: l ++ [last]) (Some (RCFrame p (0%N :: rot)))
| as_numbers3 l ks : number_groups l ks -> 2 <= length ks -> astray label TypeNumberSequence l (Some (RNumberSequence []))
| as_colors3 l ks : color_groups3 l ks -> 2 <= length ks -> astray label TypeColorSequence l (Some (RColorSequence []))
| as_colors5 l ks : color_groups5 l ks -> 2 <= length ks -> astray label TypeColorSequence l (Some (RColorSequence []))
| as_rect a b c d : astray label TypeRect [DValue (RVector2 a b); DValue (RVector2 c d)] (Some (RRect a b a b))
(* One value that is not a ColorSequence. *)
| as_panic v : (forall ks, v <> DValue (RColorSequence ks)) -> astray label TypeColorSequence [v] None.

(** Values that cannot be asserted to the declared type, by their number or by
    the kind of the first. *)
Definition counts : list (Type_ * list nat) :=
  [(TypeUDim, [2]); (TypeUDim2, [2; 4]); (TypeRay, [2; 6]); (TypeFaces, [6]); (TypeAxes, [3]); (TypeColor3, [3]); (TypeVector2, [2]); (TypeVector3, [3]);
   (TypeCFrame, [10; 12]); (TypeVector3int16, [3]); (TypeVector2int16, [2]); (TypeNumberRange, [2]); (TypeRect, [2; 4]);
   (TypePhysicalProperties, [3; 5]); (TypeColor3uint8, [3])].
Inductive unaccepted : Type_ -> dval -> list dval -> Prop :=
| un_count t ns a rest : assocN counts t = Some ns -> ~ In (S (length rest)) ns -> unaccepted t a rest
| un_text t a rest : In t [TypeString; TypeBinaryString; TypeProtectedString; TypeContent; TypeSharedString] ->
    (forall s, ~ text a s) -> unaccepted t a rest
| un_bool a rest : (forall b, a <> DBool b) -> unaccepted TypeBool a rest
| un_number t a rest : In t [TypeInt; TypeFloat; TypeBrickColor; TypeToken; TypeInt64] -> ~ number a -> unaccepted t a rest
| un_reference a rest : (forall s, ~ text a s) -> (forall p, a <> DInstance p) -> unaccepted TypeReference a rest
| un_numbers a rest : (forall k, a <> DNSKey k) \/ rest = [] -> unaccepted TypeNumberSequence a rest
| un_colors a rest : (forall k, a <> DCSKey k) -> rest <> [] -> unaccepted TypeColorSequence a rest.
(** A value of rbxfile of type t. *)
Definition own (t : Type_) (a : dval) : Prop := exists v, a = DValue v /\ rtype v = t.

(** ** Trees *)

Definition d_class (d : dinst) : bytes := match d with DInst c _ _ _ => c end.
Definition d_ref (d : dinst) : bytes := match d with DInst _ r _ _ => r end.
Definition d_props (d : dinst) : list dprop := match d with DInst _ _ ps _ => ps end.
Definition d_children (d : dinst) : list dinst := match d with DInst _ _ _ cs => cs end.
(** Declared instances in depth-first order, parents first. *)
Fixpoint d_nodes (d : dinst) : list dinst := d :: (match d with DInst _ _ _ cs => flat_map d_nodes cs end).
Definition all_nodes (ds : list dinst) : list dinst := flat_map d_nodes ds.
(** The instances (in a heap) that a list of declarations made. *)
Inductive mirrors : dinst -> rtree -> Prop :=
| mi_node d p ts : Forall2 mirrors (d_children d) ts -> mirrors d (RNode p ts).
(** A string refers to the last instance in depth-first order that has it as
    its label; other strings, and the empty one, refer to nil. *)
Definition labelled (ds : list dinst) (nodes : list ptr) (s : bytes) (q : ptr) : Prop :=
  (s <> [] /\ exists k d, nth_error (all_nodes ds) k = Some d /\ d_ref d = s /\ nth_error nodes k = Some q /\
     forall k' d', k < k' -> nth_error (all_nodes ds) k' = Some d' -> d_ref d' <> s) \/
  (q = 0 /\ (s = [] \/ forall d, In d (all_nodes ds) -> d_ref d <> s)).
(** The last property with a name. *)
Definition last_prop (l : list dprop) (name : bytes) : option dprop := find (fun p => bytes_eqb (dp_name p) name) (rev l).
(** Instance i is what d declares; [value] gives the properties' values. *)
Definition inst_of (value : dprop -> option rvalue) (d : dinst) (i : inst) : Prop :=
  i_class i = d_class d /\ i_ref i = d_ref d /\ i_service i = false /\
  NoDup (map fst (i_props i)) /\
  forall name, mfind (i_props i) name = match last_prop (d_props d) name with Some p => value p | None => None end.
(** The properties' types have values at all: 1 to 30, but also 31 to 33. *)
Definition proper (d : dinst) : Prop := Forall (fun p => NewValue (dp_type p) <> None) (d_props d).
(** The one way to panic. *)
Definition explodes (p : dprop) : Prop :=
  dp_type p = TypeColorSequence /\ exists v, dp_vals p = [v] /\ forall ks, v <> DValue (RColorSequence ks).
(** The instances and metadata of a Root declaration. *)
Definition root_insts (l : list primary) : list dinst := flat_map (fun p => match p with PInst d => [d] | _ => [] end) l.
Definition root_metas (l : list primary) : list (bytes * bytes) := flat_map (fun p => match p with PMeta k v => [(k, v)] | _ => [] end) l.
(** The last entry with a key. *)
Definition last_meta (l : list (bytes * bytes)) (k : bytes) : option bytes := option_map snd (find (fun kv => bytes_eqb (fst kv) k) (rev l)).
(** Ranging over the map of properties. *)
Definition any_decls (ord : list (ptr * list dprop) -> list (ptr * list dprop)) : Prop := forall l, Permutation.Permutation l (ord l).
(** h' is h and the instances that ds declare: the trees ts, with new addresses
    in depth-first order. *)
Record declared (other : format -> Z -> Z -> N -> Z) (h : heap) (ds : list dinst) (ts : list rtree) (h' : heap) : Prop := {
  de_shape : Forall2 mirrors ds ts;
  de_forest : forest_at h' ts;
  de_new : fnodes ts = seq (S (length h)) (length (all_nodes ds));
  de_size : length h' = length h + length (all_nodes ds);
  de_old : forall q, q <= length h -> hget h' q = hget h q;
  de_inst : exists refs, (forall s, labelled ds (fnodes ts) s (rget refs s)) /\
    forall k d p, nth_error (all_nodes ds) k = Some d -> nth_error (fnodes ts) k = Some p ->
      exists i, hget h' p = Some i /\
        inst_of (fun x => match d_value other (dp_type x) refs (dp_vals x) with OK v => v | _ => None end) d i }.
