(** SpecJsonRead.v - what a JSON value stands for, type by type. *)
From Coq Require Import QArith.
From Verif Require Import Base RbxlValues RbxValues Tree XmlText Ieee Json SpecBase64 SpecDeclare SpecJson.
Local Open Scope nat_scope.

(** g is the float32 nearest to the number f; a zero keeps its sign. *)
Definition rounds (f g : N) : Prop :=
  (forall x, f_real F64 f = Some x -> nearest F32 x g /\ (x == 0 -> g = if (f =? 0)%N then 0%N else 0x80000000%N)%Q) /\
  (forall neg, f = infinity F64 neg -> g = infinity F32 neg).
(** z is the number f without its fraction, if an n-bit integer from lo on can
    hold it.  Nothing is said of a number that does not fit. *)
Definition converts (lo n : Z) (f : N) (z : Z) : Prop :=
  forall x y, f_real F64 f = Some x -> truncated x y -> (lo <= y < lo + 2 ^ n)%Z -> z = y.
Definition int_of (n : Z) := converts (- 2 ^ (n - 1)) n.
Definition uint_of (n : Z) (f : N) (k : N) := converts 0 n f (Z.of_N k).

(** Members of an object *)
Definition has (m : list (bytes * jv)) (k : String.string) (v : jv) : Prop := mfind m (str k) = Some v.
Definition single_in m k (g : N) : Prop := exists f, has m k (JNum f) /\ rounds f g.
Definition int_in (n : Z) m k (z : Z) : Prop := exists f, has m k (JNum f) /\ int_of n f z.
Definition byte_in m k (b : byte) : Prop := exists f, has m k (JNum f) /\ uint_of 8 f (b2N b).

(** Values that are parts of others *)
Inductive is_udim : jv -> N -> Z -> Prop :=
| iu m s o : single_in m "scale" s -> int_in 32 m "offset" o -> is_udim (JObj m) s o.
Inductive is_color3 : jv -> N -> N -> N -> Prop :=
| ic m r g b : single_in m "r" r -> single_in m "g" g -> single_in m "b" b -> is_color3 (JObj m) r g b.
Inductive is_vec2 : jv -> N -> N -> Prop :=
| iv2 m x y : single_in m "x" x -> single_in m "y" y -> is_vec2 (JObj m) x y.
Inductive is_vec3 : jv -> vec3 -> Prop :=
| iv3 m x y z : single_in m "x" x -> single_in m "y" y -> single_in m "z" z -> is_vec3 (JObj m) (Vec3 x y z).
(** Nine floats; those that are not given are zero, those after them are not
    looked at, and all are zero if there is no list. *)
Definition is_rotation (v : option jv) (r : list N) : Prop :=
  length r = 9 /\
  forall i, i < 9 ->
    match v with
    | Some (JArr l) =>
        match nth_error l i with
        | Some x => exists f, x = JNum f /\ rounds f (nth i r 1%N)
        | None => nth i r 1%N = 0%N
        end
    | _ => nth i r 1%N = 0%N
    end.
(** A keypoint that is not an object is zero. *)
Inductive is_nskey : jv -> nskey -> Prop :=
| ink m t v e : single_in m "time" t -> single_in m "value" v -> single_in m "envelope" e -> is_nskey (JObj m) (NSK t v e)
| ink0 j : (forall m, j <> JObj m) -> is_nskey j (NSK 0 0 0).
Inductive is_cskey : jv -> cskey -> Prop :=
| ick m t v r g b e : single_in m "time" t -> has m "value" v -> is_color3 v r g b -> single_in m "envelope" e -> is_cskey (JObj m) (CSK t r g b e)
| ick0 j : (forall m, j <> JObj m) -> is_cskey j (CSK 0 0 0 0 0).
(** Base64, or else the text itself *)
Definition is_binary (s b : bytes) : Prop := base64 s b \/ ((forall b', ~ base64 s b') /\ b = s).

(** [denotes t v r]: the JSON value v, read as a value of type t, is r.  A
    reference is its text; only the instance that has it is resolved later. *)
Inductive denotes : Type_ -> jv -> rvalue -> Prop :=
| dn_string s : denotes TypeString (JStr s) (RString s)
| dn_binary s b : is_binary s b -> denotes TypeBinaryString (JStr s) (RBinaryString b)
| dn_protected s : denotes TypeProtectedString (JStr s) (RProtectedString s)
| dn_content s : denotes TypeContent (JStr s) (RContent s)
| dn_no_content : denotes TypeContent JNull (RContent [])
| dn_bool b : denotes TypeBool (JBool b) (RBool b)
| dn_int f z : int_of 32 f z -> denotes TypeInt (JNum f) (RInt z)
| dn_float f g : rounds f g -> denotes TypeFloat (JNum f) (RFloat g)
| dn_double f : denotes TypeDouble (JNum f) (RDouble f)
| dn_udim v s o : is_udim v s o -> denotes TypeUDim v (RUDim s o)
| dn_udim2 m x y xs xo ys yo : has m "x" x -> has m "y" y -> is_udim x xs xo -> is_udim y ys yo ->
    denotes TypeUDim2 (JObj m) (RUDim2 xs xo ys yo)
| dn_ray m x y o d : has m "origin" x -> has m "direction" y -> is_vec3 x o -> is_vec3 y d -> denotes TypeRay (JObj m) (RRay o d)
| dn_faces m r t b l bo f : has m "right" (JBool r) -> has m "top" (JBool t) -> has m "back" (JBool b) -> has m "left" (JBool l) ->
    has m "bottom" (JBool bo) -> has m "front" (JBool f) -> denotes TypeFaces (JObj m) (RFaces r t b l bo f)
| dn_axes m x y z : has m "x" (JBool x) -> has m "y" (JBool y) -> has m "z" (JBool z) -> denotes TypeAxes (JObj m) (RAxes x y z)
| dn_brick f n : uint_of 32 f n -> denotes TypeBrickColor (JNum f) (RBrickColor n)
| dn_color3 v r g b : is_color3 v r g b -> denotes TypeColor3 v (RColor3 r g b)
| dn_vec2 v x y : is_vec2 v x y -> denotes TypeVector2 v (RVector2 x y)
| dn_vec3 v x : is_vec3 v x -> denotes TypeVector3 v (RVector3 x)
| dn_cframe m v p r : has m "position" v -> is_vec3 v p -> is_rotation (mfind m (str "rotation")) r -> denotes TypeCFrame (JObj m) (RCFrame p r)
| dn_token f n : uint_of 32 f n -> denotes TypeToken (JNum f) (RToken n)
| dn_reference s : denotes TypeReference (JStr s) (RString s)
| dn_v3i16 m x y z : int_in 16 m "x" x -> int_in 16 m "y" y -> int_in 16 m "z" z -> denotes TypeVector3int16 (JObj m) (RVector3int16 x y z)
| dn_v2i16 m x y : int_in 16 m "x" x -> int_in 16 m "y" y -> denotes TypeVector2int16 (JObj m) (RVector2int16 x y)
| dn_nseq l ks : Forall2 is_nskey l ks -> denotes TypeNumberSequence (JArr l) (RNumberSequence ks)
| dn_cseq l ks : Forall2 is_cskey l ks -> denotes TypeColorSequence (JArr l) (RColorSequence ks)
| dn_range m a b : single_in m "min" a -> single_in m "max" b -> denotes TypeNumberRange (JObj m) (RNumberRange a b)
| dn_rect m x y a b c d : has m "min" x -> has m "max" y -> is_vec2 x a b -> is_vec2 y c d -> denotes TypeRect (JObj m) (RRect a b c d)
| dn_phys m c d f e fw ew : has m "custom_physics" (JBool c) -> single_in m "density" d -> single_in m "friction" f -> single_in m "elasticity" e ->
    single_in m "friction_weight" fw -> single_in m "elasticity_weight" ew ->
    denotes TypePhysicalProperties (JObj m) (RPhysicalProperties c d f e fw ew)
| dn_c3u8 m r g b : byte_in m "r" r -> byte_in m "g" g -> byte_in m "b" b -> denotes TypeColor3uint8 (JObj m) (RColor3uint8 r g b)
| dn_int64 f z : int_of 64 f z -> denotes TypeInt64 (JNum f) (RInt64 z)
| dn_shared s b : is_binary s b -> denotes TypeSharedString (JStr s) (RSharedString b)
| dn_none m name : has m "type" (JStr name) -> mfind m (str "value") = None \/ has m "value" JNull ->
    denotes TypeOptional (JObj m) (ROptional (type_of_name name) None)
| dn_some m name v r : has m "type" (JStr name) -> has m "value" v -> v <> JNull -> denotes (type_of_name name) v r ->
    denotes TypeOptional (JObj m) (ROptional (rtype r) (Some r)).

(** ** Documents *)

(** The reference an object gives itself, unless it is an empty one. *)
Definition own_refs (v : jv) : list bytes :=
  match v with
  | JObj m => match mfind m (str "reference") with Some (JStr r) => if IsEmptyReference r then [] else [r] | _ => [] end
  | _ => []
  end.
Definition has_class (v : jv) : bool :=
  match v with JObj m => match mfind m (str "class_name") with Some (JStr _) => true | _ => false end | _ => false end.
Definition child_entries (v : jv) : list jv :=
  match v with JObj m => match mfind m (str "children") with Some (JArr l) => l | _ => [] end | _ => [] end.
(** The references that are given in a list of instances: also those of entries
    that are not instances, for want of a class name. *)
Definition doc_refs (l : list jv) : list bytes :=
  flat_map (fun v => own_refs v ++ if has_class v then flat_map own_refs (child_entries v) else []) l.
(** The instance with a reference, or nil *)
Definition resolves (h : heap) (refs : list bytes) (r : bytes) (q : ptr) : Prop :=
  (q = 0 /\ ~ In r refs) \/ (In r refs /\ exists i, hget h q = Some i /\ i_ref i = r).
(** A member of "properties", and the value that the property then has *)
Inductive property_read (h : heap) (refs : list bytes) : option jv -> option rvalue -> Prop :=
| pr_absent : property_read h refs None None
| pr_value pm tn x r : has pm "type" (JStr tn) -> has pm "value" x -> type_of_name tn <> TypeReference -> denotes (type_of_name tn) x r ->
    property_read h refs (Some (JObj pm)) (Some r)
| pr_reference pm tn s q : has pm "type" (JStr tn) -> has pm "value" (JStr s) -> type_of_name tn = TypeReference -> resolves h refs s q ->
    property_read h refs (Some (JObj pm)) (Some (RReference q))
| pr_ignored j :
    (forall pm tn x, j = JObj pm -> has pm "type" (JStr tn) -> has pm "value" x -> has_kind x (kind_of (type_of_name tn)) = false) ->
    property_read h refs (Some j) None.
(** p is the instance that an object describes. *)
Inductive instance_read (h : heap) (refs : list bytes) : jv -> ptr -> Prop :=
| ird m p i :
    hget h p = Some i ->
    has m "class_name" (JStr (i_class i)) ->
    own_refs (JObj m) = (match i_ref i with [] => [] | r => [r] end) ->
    (i_service i = true <-> has m "is_service" (JBool true)) ->
    i_children i = [] ->
    (forall name, property_read h refs
      (match mfind m (str "properties") with Some (JObj ps) => mfind ps name | _ => None end) (mfind (i_props i) name)) ->
    instance_read h refs (JObj m) p.
