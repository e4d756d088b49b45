(** SpecXmlTree.v - specification side: the properties of the instances that
    an XML document describes. *)
From Verif Require Import Base RbxlValues RbxValues Tree SpecTree XmlText XmlDoc XmlCodec SpecBase64 SpecXmlText SpecXmlRead SpecXmlDecode.
Local Notation string := String.string.

(** ** Types by the name of the tag *)
Definition type_names : list (string * Type_) := [
  ("string", TypeString); ("binarystring", TypeBinaryString); ("protectedstring", TypeProtectedString); ("content", TypeContent);
  ("bool", TypeBool); ("int", TypeInt); ("float", TypeFloat); ("double", TypeDouble); ("udim", TypeUDim); ("udim2", TypeUDim2);
  ("ray", TypeRay); ("faces", TypeFaces); ("axes", TypeAxes); ("brickcolor", TypeBrickColor); ("color3", TypeColor3);
  ("vector2", TypeVector2); ("vector3", TypeVector3); ("coordinateframe", TypeCFrame); ("cframe", TypeCFrame); ("token", TypeToken);
  ("ref", TypeReference); ("object", TypeReference); ("vector3int16", TypeVector3int16); ("vector2int16", TypeVector2int16);
  ("numbersequence", TypeNumberSequence); ("colorsequence", TypeColorSequence); ("numberrange", TypeNumberRange);
  ("rect2d", TypeRect); ("rect", TypeRect); ("physicalproperties", TypePhysicalProperties); ("color3uint8", TypeColor3uint8);
  ("int64", TypeInt64); ("sharedstring", TypeSharedString); ("uniqueid", TypeUniqueId); ("font", TypeFont) ]%string.
(** Names are compared without case: the lower-case letter for a letter. *)
Definition same_letter (a b : byte) : Prop :=
  (0x41 <= b2N a <= 0x5a)%N /\ b2N b = (b2N a + 32)%N \/ ~ (0x41 <= b2N a <= 0x5a)%N /\ a = b.
Definition names (n : bytes) (lower : string) : Prop := Forall2 same_letter n (str lower).
Definition of_type (n : bytes) (typ : Type_) : Prop := exists s, In (s, typ) type_names /\ names n s.
Definition of_no_type (n : bytes) : Prop := forall s typ, In (s, typ) type_names -> ~ names n s.
Definition optional (n rest : bytes) : Prop := exists o, n = o ++ rest /\ names o "optional".

(** ** What a property tag gives to the property with its name *)
Inductive entry := Plain (v : rvalue) | Points (referent : bytes) | Shares (key : bytes).
Section Props.
(** [read typ t v]: the value of the tag (SpecXmlRead.v) *)
Variable read : Type_ -> tag -> rvalue -> Prop.
Inductive gives (t : tag) (n : bytes) : entry -> Prop :=
| G_value typ v : named t n -> of_type (t_start t) typ -> typ <> TypeReference -> typ <> TypeSharedString -> read typ t v ->
    gives t n (Plain v)
| G_no_ref c : named t n -> of_type (t_start t) TypeReference -> contents t c -> IsEmptyReference c = true -> gives t n (Plain (RReference 0))
| G_ref c : named t n -> of_type (t_start t) TypeReference -> contents t c -> IsEmptyReference c = false -> gives t n (Points c)
| G_shared k : named t n -> of_type (t_start t) TypeSharedString -> read TypeSharedString t (RSharedString k) -> gives t n (Shares k)
(* optional values: a CFrame in the tag of that name, or none of any type *)
| G_some rest u v : named t n -> optional (t_start t) rest -> of_type rest TypeCFrame ->
    first (str "CFrame") (t_tags t) u -> read TypeCFrame u v -> gives t n (Plain (ROptional TypeCFrame (Some v)))
| G_none rest typ : named t n -> optional (t_start t) rest -> of_type rest typ -> t_tags t = [] -> gives t n (Plain (ROptional typ None))
| G_none_unknown rest : named t n -> optional (t_start t) rest -> of_no_type rest -> t_tags t = [] -> gives t n (Plain (ROptional TypeInvalid None)).

(** ** The document *)
(** The Item tags with a class, parents first. *)
Fixpoint all_items (t : tag) : list tag :=
  let 'Tag _ _ _ _ _ _ _ _ tags := t in if is_item t then t :: flat_map all_items tags else [].
Definition doc_items (tags : list tag) : list tag := flat_map all_items tags.
Definition referent (t : tag) : bytes := match attr_value (t_attr t) (str "referent") with Some r => r | None => [] end.
(** The instance with a referent: the last one. *)
Inductive refers (tags : list tag) (r : bytes) : ptr -> Prop :=
| Refers a t b : doc_items tags = a ++ t :: b -> referent t = r -> Forall (fun u => referent u <> r) b -> refers tags r (S (length a))
| Refers_none : Forall (fun u => referent u <> r) (doc_items tags) -> refers tags r 0.
(** The shared strings with their keys, in order. *)
Inductive defines : list tag -> list (bytes * bytes) -> Prop :=
| Def_nil : defines [] []
| Def_one t ts a k c v l : t_start t = str "SharedString" -> attr_value (t_attr t) (str "md5") = Some a -> base64 a k ->
    contents t c -> base64 c v -> defines ts l -> defines (t :: ts) ((k, v) :: l)
| Def_other t ts l : (t_start t = str "SharedString" -> forall a k c v, attr_value (t_attr t) (str "md5") = Some a -> base64 a k ->
    contents t c -> base64 c v -> False) -> defines ts l -> defines (t :: ts) l.
Inductive shared_strings : list tag -> list (bytes * bytes) -> Prop :=
| Shs_nil : shared_strings [] []
| Shs_tag t ts l l' : t_start t = str "SharedStrings" -> defines (t_tags t) l -> shared_strings ts l' -> shared_strings (t :: ts) (l ++ l')
| Shs_other t ts l : t_start t <> str "SharedStrings" -> shared_strings ts l -> shared_strings (t :: ts) l.

(** The property n of an instance with these property tags: the last reference
    to an instance, or else the last shared string that is defined, or else
    the last other value. *)
Definition last_gives (pts : list tag) (n : bytes) (P : entry -> Prop) (e : entry) : Prop :=
  P e /\ exists a t b, pts = a ++ t :: b /\ gives t n e /\ forall u e', In u b -> gives u n e' -> ~ P e'.
Definition is_points e := exists r, e = Points r.
Definition is_plain e := exists v, e = Plain v.
Definition gives_none (pts : list tag) (n : bytes) (P : entry -> Prop) : Prop := forall u e, In u pts -> gives u n e -> ~ P e.
Definition wants_key (pts : list tag) (n k : bytes) : Prop := exists u, In u pts /\ gives u n (Shares k).
Inductive property (root : list tag) (defs : list (bytes * bytes)) (pts : list tag) (n : bytes) : rvalue -> Prop :=
| P_reference r q : last_gives pts n is_points (Points r) -> refers root r q -> property root defs pts n (RReference q)
| P_shared a k v b : gives_none pts n is_points -> defs = a ++ (k, v) :: b -> wants_key pts n k ->
    (forall k' v', In (k', v') b -> ~ wants_key pts n k') -> property root defs pts n (RSharedString v)
| P_plain v : gives_none pts n is_points -> (forall k v, In (k, v) defs -> ~ wants_key pts n k) ->
    last_gives pts n is_plain (Plain v) -> property root defs pts n v.
End Props.
(** The metadata: the last Meta tag with a name. *)
Inductive metadata (root : list tag) (k v : bytes) : Prop :=
| Meta a t b : root = a ++ t :: b -> t_start t = str "Meta" -> named t k -> t_text t = v ->
    (forall u, In u b -> t_start u = str "Meta" -> ~ named u k) -> metadata root k v.

(** [described h P t tr]: as [built], and P holds of every Item tag and its
    instance. *)
Inductive described (h : heap) (P : tag -> inst -> Prop) : tag -> rtree -> Prop :=
| Described t class i p ts :
    attr_value (t_attr t) (str "class") = Some class -> hget h p = Some i ->
    i_class i = class -> i_ref i = referent t -> i_service i = false -> i_children i = map rroot ts -> P t i ->
    Forall2 (described h P) (item_tags (t_tags t)) ts ->
    described h P t (RNode p ts).
